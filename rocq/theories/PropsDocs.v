(** C55: what the security module is asked to attest. *)
From Coq Require Import ZifyBool ZifyN ZifyNat.
From Verif Require Import Base Utf8 Hex HexProofs Borsh Types TypesBorsh MsgBorsh Json TypesJson StorageProofs Msg World Run FsProofs Attest Services
  ServiceProofs BootProofs State SpecProtocol HandleProofs Reach Invariant ProtocolProofs EffectProofs CalmProofs
  CodecExamples Toy ToyRuns.
Local Open Scope N_scope.
Local Open Scope m_scope.

(** *** Specification *)
(** The enclave's own attestation request in the file system [f]: the hash of the
    manifest on disk as user data, the public key of the ephemeral seed on disk,
    no nonce. *)
Definition own_request (Y : sys) (f : fsys) (q : nsm_request) : Prop :=
  exists e c seed ek sk, stored f e /\ content f Eph = Some c /\ seed_of_hex c = Some seed /\ s_pair Y seed = Some (ek, sk)
    /\ q = Attestation (Some (manifest_hash Y (env_manifest e))) None (Some (ek ++ sk)).
(** The enclave answered, at some point of a history, a genesis ceremony with the output [o]. *)
Definition ceremony (Y : sys) (o : genesis_output) (x : nsm_response) : Prop :=
  exists s set dr s', reach Y s /\ handle Y (BootGenesisRequest set dr) s = (BootGenesisResponse x o, s').
(** The request made by a genesis ceremony: the hash of its output, no key. *)
Definition genesis_request (Y : sys) (o : genesis_output) : nsm_request :=
  Attestation (Some (s_sha256 Y (enc c_genesis_output o))) None None.
Definition is_attestation (q : nsm_request) : bool := match q with Attestation _ _ _ => true | _ => false end.
(** The attestation an answer carries. *)
Definition attested (a : msg) : option nsm_response :=
  match a with
  | BootStandardResponse x | BootKeyForwardResponse x | LiveAttestationDocResponse x _ => Some x
  | _ => None
  end.

Section Docs.
  Context {Y : sys}.
  Local Notation st := (st Y).
  Local Notation entry := (entry Y).

  Definition emits {A} (P : entry -> Prop) (m : M Y A) : Prop :=
    forall s r s', m s = (r, s') -> exists l, st_trace s' = l ++ st_trace s /\ Forall P l.
  Definition other (x : entry) : Prop := forall q a, en_ev x = EvNsm q a -> is_attestation q = false.

  Lemma em_ret {A} P (a : A) : emits P (ret a).
  Proof. intros s r s' H. unfold ret in H. inversion H; subst. exists []. split; [reflexivity|constructor]. Qed.
  Lemma em_err {A} P x : emits P (err x : M Y A).
  Proof. intros s r s' H. unfold err in H. inversion H; subst. exists []. split; [reflexivity|constructor]. Qed.
  Lemma em_lift {A} P (x : result perr A) : emits P (lift x).
  Proof. intros s r s' H. unfold lift in H. inversion H; subst. exists []. split; [reflexivity|constructor]. Qed.
  Lemma em_guard P b e : emits P (guard b e).
  Proof. destruct b; [apply em_ret|apply em_err]. Qed.
  Lemma em_gets {A} P (g : st -> A) : emits P (gets g).
  Proof. intros s r s' H. unfold gets in H. inversion H; subst. exists []. split; [reflexivity|constructor]. Qed.
  Lemma em_modify P g : (forall s, st_trace (g s) = st_trace s) -> emits P (modify g).
  Proof. intros K s r s' H. unfold modify in H. inversion H; subst. exists []. split; [apply K|constructor]. Qed.
  Lemma em_bind {A B} P (m : M Y A) (f : A -> M Y B) : emits P m -> (forall a, emits P (f a)) -> emits P (bind m f).
  Proof.
    intros Hm Hf s r s' H. unfold bind in H. destruct (m s) as [[a|e] s1] eqn:E.
    - apply Hm in E as (l1 & T1 & F1). apply Hf in H as (l2 & T2 & F2). exists (l2 ++ l1). split; [now rewrite T2, T1, app_assoc|].
      now apply Forall_app.
    - inversion H; subst. now apply Hm in E.
  Qed.
  Lemma em_rand P : emits P (op_rand Y).
  Proof. intros s r s' H. unfold op_rand in H. inversion H; subst. exists []. split; [reflexivity|constructor]. Qed.
  Lemma em_read P p : emits P (op_read Y p).
  Proof. intros s r s' H. unfold op_read in H. destruct (s_io Y (st_ioc s)); inversion H; subst; exists []; (split; [reflexivity|constructor]). Qed.
  Lemma em_exists P p : emits P (op_exists Y p).
  Proof. apply em_gets. Qed.
  Lemma write_steps_other p m d k : forall i (s : st), exists l, st_trace (write_steps Y p m d k i s) = l ++ st_trace s /\ Forall other l.
  Proof.
    induction k as [|k IH]; intros i s; cbn [write_steps].
    - eexists [_]. split; [reflexivity|]. constructor; [|constructor]. intros q a X. discriminate X.
    - destruct (IH (S i) (eff_fs (EvWrite p) (upd (st_fs s) p (Some (firstn i d, m))) s)) as (l & T & F).
      exists (l ++ [Entry (Y:=Y) (EvWrite p) (upd (st_fs s) p (Some (firstn i d, m))) (st_nsm s)]). split; [rewrite T, <- app_assoc; reflexivity|].
      apply Forall_app. split; [exact F|]. constructor; [|constructor]. intros q a X. discriminate X.
  Qed.
  Lemma em_write p d : emits other (op_write Y p d).
  Proof.
    intros s r s' H. unfold op_write in H. cbv zeta in H. destruct (s_io Y (st_ioc s)); inversion H; subst; try apply (write_steps_other _ _ _ _ _ (tick_io s)).
    exists []. split; [reflexivity|constructor].
  Qed.
  Lemma em_nil (s : st) : exists l, st_trace s = l ++ st_trace s /\ Forall other l.
  Proof. exists []. split; [reflexivity|constructor]. Qed.
  Lemma em_one e f (s : st) : (forall q a, e = EvNsm q a -> is_attestation q = false) -> exists l, st_trace (eff_fs e f s) = l ++ st_trace s /\ Forall other l.
  Proof. intros K. eexists [_]. split; [reflexivity|]. constructor; [exact K|constructor]. Qed.
  Lemma em_rename a b : emits other (op_rename Y a b).
  Proof.
    intros s r s' H. unfold op_rename in H. cbv zeta in H. destruct (s_io Y (st_ioc s)), (st_fs s a); inversion H; subst;
      try exact (em_nil (tick_io s)). apply (em_one _ _ (tick_io s)). discriminate.
  Qed.
  Lemma em_chmod p m : emits other (op_chmod Y p m).
  Proof.
    intros s r s' H. unfold op_chmod in H. cbv zeta in H. destruct (s_io Y (st_ioc s)), (st_fs s p) as [[? ?]|]; inversion H; subst;
      try exact (em_nil (tick_io s)). apply (em_one _ _ (tick_io s)). discriminate.
  Qed.
  Lemma em_remove p : emits other (op_remove Y p).
  Proof.
    intros s r s' H. unfold op_remove in H. cbv zeta in H. destruct (s_io Y (st_ioc s)), (st_fs s p); inversion H; subst;
      try exact (em_nil (tick_io s)). apply (em_one _ _ (tick_io s)). discriminate.
  Qed.
  Lemma em_time : emits other (op_time Y).
  Proof.
    intros s r s' H. unfold op_time in H. destruct (s_nsm_time Y (st_nsm s)) as [a n]. inversion H; subst.
    eexists [_]. split; [reflexivity|]. constructor; [|constructor]. intros q x X. discriminate X.
  Qed.
  Lemma em_nsm (P : entry -> Prop) q : (forall a f n, P (Entry (Y:=Y) (EvNsm q a) f n)) -> emits P (op_nsm Y q).
  Proof.
    intros K s r s' H. unfold op_nsm in H. destruct (s_nsm_step Y (st_nsm s) q) as [a n]. inversion H; subst.
    eexists [_]. split; [reflexivity|]. constructor; [apply K|constructor].
  Qed.
  Lemma em_nsm_other q : is_attestation q = false -> emits other (op_nsm Y q).
  Proof. intros K. apply em_nsm. intros a f n q' a' X. cbn in X. inversion X; subst. exact K. Qed.
  Lemma em_weaken {A} (P Q : entry -> Prop) (m : M Y A) : (forall x, P x -> Q x) -> emits P m -> emits Q m.
  Proof. intros K H s r s' E. apply H in E as (l & T & F). exists l. split; [exact T|]. eapply Forall_impl; eauto. Qed.

  Ltac em := repeat first
    [ apply em_bind; [|intros ?] | apply em_ret | apply em_err | apply em_lift | apply em_guard | apply em_gets
    | apply em_rand | apply em_read | apply em_exists | apply em_write | apply em_rename | apply em_chmod | apply em_remove | apply em_time
    | apply em_nsm_other; reflexivity | apply em_modify; intros ?; reflexivity
    | match goal with |- emits _ (match ?x with _ => _ end) => destruct x end ].

  Lemma em_war f b e : emits other (write_as_read_only Y f b e). Proof. unfold write_as_read_only. em. Qed.
  Lemma em_eph : emits other (get_ephemeral_key Y). Proof. unfold get_ephemeral_key, pair_from_hex_file. em. Qed.
  Lemma em_quorum : emits other (get_quorum_key Y). Proof. unfold get_quorum_key, pair_from_hex_file. em. Qed.
  Lemma em_env : emits other (get_manifest_envelope Y). Proof. unfold get_manifest_envelope. em. Qed.
  Lemma em_rotate b : emits other (rotate_ephemeral_key Y b). Proof. unfold rotate_ephemeral_key. em; apply em_war. Qed.
  Lemma em_mutate g : emits other (mutate_manifest_envelope Y g). Proof. unfold mutate_manifest_envelope. apply em_bind; [apply em_env|intros ?]. em. Qed.
  Lemma em_put_env e : emits other (put_manifest_envelope Y e). Proof. unfold put_manifest_envelope. em; apply em_war. Qed.
  Lemma em_put_pivot e : emits other (put_pivot Y e). Proof. unfold put_pivot. em. Qed.
  Lemma em_generate : emits other (pair_generate Y). Proof. unfold pair_generate. em. Qed.
  Lemma em_desc : emits other (describe_nsm Y). Proof. unfold describe_nsm. em. Qed.
  Lemma em_desc_pcr i : emits other (describe_pcr Y i). Proof. unfold describe_pcr. em. Qed.
  Lemma em_extend k max l mh e : emits other (extend_commitment Y k max l mh e).
  Proof. unfold extend_commitment. em; try apply em_desc_pcr; em. Qed.
  Lemma em_verify k e : emits other (verify_locked Y k e).
  Proof. unfold verify_locked. em; try apply em_desc_pcr; em. Qed.
  Lemma em_lock mh a b : emits other (lock_manifest_commitment_pcr_bank Y mh a b).
  Proof. unfold lock_manifest_commitment_pcr_bank. repeat (em; first [apply em_desc|apply em_extend|apply em_verify|idtac]). Qed.
  Lemma em_provision sh a : emits other (provision Y sh a).
  Proof.
    unfold provision. apply em_bind; [apply em_env|intros ?]. em; try apply em_mutate; try apply em_eph; try apply em_rotate; try apply em_war.
    all: unfold add_share, build_secret, take_pending; em.
    intros s r s' H. destruct (st_pending s); inversion H; subst; exists []; (split; [reflexivity|constructor]).
  Qed.
  Lemma em_inject c g : emits other (inject_key Y c g).
  Proof.
    unfold inject_key. apply em_bind; [apply em_env|intros ?]. em; try apply em_eph; try apply em_rotate; try apply em_war.
    intros s r s' H. unfold take_pending in H. destruct (st_pending s); inversion H; subst; exists []; (split; [reflexivity|constructor]).
  Qed.
  Lemma em_export e d : emits other (export_key Y e d).
  Proof. unfold export_key. em; try apply em_env; try apply em_quorum. Qed.

  (** Entries that attest, attest what they should. *)
  Definition good (x : entry) : Prop := forall q a, en_ev x = EvNsm q a -> is_attestation q = true ->
    own_request Y (en_fs x) q \/ exists o, q = genesis_request Y o /\ ceremony Y o a.
  Lemma other_good x : other x -> good x.
  Proof. intros K q a E A. rewrite (K q a E) in A. discriminate A. Qed.
  Definition ext (s s' : st) : Prop := exists l, st_trace s' = l ++ st_trace s /\ Forall good l.
  Lemma ext_refl s : ext s s. Proof. exists []. split; [reflexivity|constructor]. Qed.
  Lemma ext_trans s s1 s2 : ext s s1 -> ext s1 s2 -> ext s s2.
  Proof. intros (l1 & T1 & F1) (l2 & T2 & F2). exists (l2 ++ l1). split; [now rewrite T2, T1, app_assoc|now apply Forall_app]. Qed.
  Lemma em_ext {A} (m : M Y A) s r s' : emits other m -> m s = (r, s') -> ext s s'.
  Proof. intros H E. apply H in E as (l & T & F). exists l. split; [exact T|]. eapply Forall_impl; [apply other_good|exact F]. Qed.

  Lemma hex_seed (OK : sys_ok Y) n : seed_of_hex (encode (s_rng Y n)) = Some (s_rng Y n).
  Proof. apply seed_of_hex_encode. apply (ok_rng Y OK). Qed.


  (** The last thing that happened was the device's answer [a] to [q]. *)
  Definition last_asked (s : st) (q : nsm_request) (a : nsm_response) : Prop :=
    exists older, st_trace s = Entry (Y:=Y) (EvNsm q a) (st_fs s) (st_nsm s) :: older.
  Lemma nsm_last q (s : st) r s' : op_nsm Y q s = (r, s') -> exists a, r = Ok a /\ last_asked s' q a /\ st_fs s' = st_fs s
    /\ st_trace s' = Entry (Y:=Y) (EvNsm q a) (st_fs s') (st_nsm s') :: st_trace s.
  Proof.
    unfold op_nsm. destruct (s_nsm_step Y (st_nsm s) q) as [a n]. intros H. inversion H; subst. exists a. split; [reflexivity|].
    split; [eexists; reflexivity|]. split; reflexivity.
  Qed.

  Lemma boot_docs (OK : sys_ok Y) e pv (s : st) r s' : wf_envelope e = true -> put_manifest_and_pivot Y e pv s = (r, s') ->
    ext s s' /\ (forall a, r = Ok a -> stored (st_fs s') e /\ exists q, own_request Y (st_fs s') q /\ last_asked s' q a).
  Proof.
    intros We H. pose proof (boot_spec _ _ _ _ _ H) as (_ & _ & B). unfold put_manifest_and_pivot in H.
    assert (K : forall (s1 s2 : st), ext s s1 -> ext s1 s2 -> ext s s2) by (intros; eapply ext_trans; eauto).
    mstep H; (pose proof (em_ext _ _ _ _ (em_lift _ _) E) as X1);
      [|subst r; split; [exact X1|intros ? D; discriminate D]]. apply lift_inv in E as [_ ->].
    mstep H; (pose proof (K _ _ X1 (em_ext _ _ _ _ (em_guard _ _ _) E)) as X2); clear X1;
      [|subst r; split; [exact X2|intros ? D; discriminate D]]. apply guard_inv in E as [-> _].
    mstep H; (pose proof (K _ _ X2 (em_ext _ _ _ _ (em_guard _ _ _) E)) as X1); clear X2;
      [|subst r; split; [exact X1|intros ? D; discriminate D]]. apply guard_inv in E as [-> _].
    mstep H; (pose proof (K _ _ X1 (em_ext _ _ _ _ em_generate E)) as X2); clear X1;
      [|subst r; split; [exact X2|intros ? D; discriminate D]].
    destruct a2 as [setup setup_k]. apply generate_ok in E as (_ & P1 & R1 & C1). cbn [fst snd] in *.
    mstep H; (pose proof (K _ _ X2 (em_ext _ _ _ _ em_generate E)) as X1); clear X2;
      [|subst r; split; [exact X1|intros ? D; discriminate D]].
    destruct a2 as [live live_k]. cbv zeta in H. clear E.
    mstep H; (pose proof (K _ _ X1 (em_ext _ _ _ _ (em_lock _ _ _) E)) as X2); clear X1;
      [|subst r; split; [exact X2|intros ? D; discriminate D]]. clear E.
    mstep H; (pose proof (K _ _ X2 (em_ext _ _ _ _ (em_modify _ _ (fun _ => eq_refl)) E)) as X1); clear X2;
      [|subst r; split; [exact X1|intros ? D; discriminate D]]. clear E.
    mstep H; (pose proof (K _ _ X1 (em_ext _ _ _ _ (em_war _ _ _) E)) as X2); clear X1;
      [|subst r; split; [exact X2|intros ? D; discriminate D]]. clear E.
    mstep H; (pose proof (K _ _ X2 (em_ext _ _ _ _ (em_put_pivot _) E)) as X1); clear X2;
      [|subst r; split; [exact X1|intros ? D; discriminate D]]. clear E.
    mstep H; (pose proof (K _ _ X1 (em_ext _ _ _ _ (em_put_env _) E)) as X2); clear X1;
      [|subst r; split; [exact X2|intros ? D; discriminate D]]. clear E.
    apply nsm_last in H as (x & -> & LA & FS & TR).
    destruct B as [[_ [y D]]|(setup' & setup_k' & live' & live_k' & s1' & new & _ & _ & _ & Ps & _ & Rs & _ & _ & _ & _ & _ & FP)]; [discriminate D|].
    specialize (FP x eq_refl) as (_ & _ & _ & FE & _ & (b & SB & FM) & _).
    assert (ST : stored (st_fs s') e).
    { destruct (envelope_storage e We) as (b' & Sb' & Rb). exists b. unfold content. rewrite FM. split; [reflexivity|]. congruence. }
    assert (OWN : own_request Y (st_fs s') (Attestation (Some (manifest_hash Y (env_manifest e))) None (Some (public_to_bytes setup_k)))).
    { destruct setup_k as [ek sk]. exists e, (encode setup), setup, ek, sk. split; [exact ST|].
      split; [unfold content; rewrite FE; cbn [option_map fst]; congruence|]. split; [rewrite R1; apply hex_seed, OK|]. split; [exact P1|reflexivity]. }
    split.
    - eapply ext_trans; [exact X2|]. eexists [_]. split; [exact TR|]. constructor; [|constructor].
      intros q ? E A. cbn [en_ev en_fs] in *. left. assert (q = Attestation (Some (manifest_hash Y (env_manifest e))) None (Some (public_to_bytes setup_k))) as -> by congruence. exact OWN.
    - intros aa D. assert (aa = x) as -> by congruence. split; [exact ST|]. eexists. split; [exact OWN|exact LA].
  Qed.

  Lemma live_docs (s : st) r s' : live_attestation_doc Y s = (r, s') ->
    ext s s' /\ st_fs s' = st_fs s /\ (forall a, r = Ok a -> exists q, own_request Y (st_fs s') q /\ last_asked s' q a).
  Proof.
    intros H. unfold live_attestation_doc in H.
    mstep H; pose proof (em_ext _ _ _ _ em_eph E) as X1; pose proof (silent_fs _ _ (si_get_eph _ _ _ E)) as F1;
      [|subst r; split; [exact X1|split; [exact F1|intros ? D; discriminate D]]].
    destruct a as [seed [ek sk]]. apply get_eph_ok in E as (c & m & FE & Sd & P).
    mstep H; pose proof (ext_trans _ _ _ X1 (em_ext _ _ _ _ em_env E)) as X2; pose proof (silent_fs _ _ (si_get_manifest _ _ _ E)) as F2;
      [|subst r; split; [exact X2|split; [congruence|intros ? D; discriminate D]]].
    apply get_manifest_ok in E as (c' & m' & FM & Dc).
    apply nsm_last in H as (x & -> & LA & FS & TR).
    assert (FF : st_fs s' = st_fs s) by congruence.
    assert (OWN : own_request Y (st_fs s') (Attestation (Some (manifest_hash Y (env_manifest a))) None (Some (ek ++ sk)))).
    { exists a, c, seed, ek, sk. rewrite FF. rewrite F1 in FM. split; [exists c'; unfold content; rewrite FM; auto|]. split; [unfold content; rewrite FE; reflexivity|auto]. }
    split; [|split; [exact FF|]].
    - eapply ext_trans; [exact X2|]. eexists [_]. split; [exact TR|]. constructor; [|constructor].
      intros q y E A. cbn [en_ev en_fs] in *. left. assert (q = Attestation (Some (manifest_hash Y (env_manifest a))) None (Some (public_to_bytes (ek, sk)))) as -> by congruence. exact OWN.
    - intros y D. assert (y = x) as -> by congruence. eexists. split; [exact OWN|exact LA].
  Qed.

  Lemma ext_set_phase p (s s' : st) : ext s s' -> ext s (set_phase p s'). Proof. intros H; exact H. Qed.

  Lemma em_encrypt l : emits other (encrypt_shares Y l).
  Proof. induction l as [|[sh m] l IH]; cbn [encrypt_shares]; em. exact IH. Qed.
  Lemma em_catch {A} P (m : M Y A) : emits P m -> emits P (catch Y m).
  Proof. intros K s r s' H. unfold catch in H. destruct (m s) as [x s1] eqn:E. inversion H; subst. now apply K in E. Qed.
  Lemma genesis_last set dr (s : st) r s' : boot_genesis Y set dr s = (r, s') ->
    exists l, st_trace s' = l ++ st_trace s /\
      match r with Ok (o, a) => exists l' f n, l = Entry (Y:=Y) (EvNsm (genesis_request Y o) a) f n :: l' /\ Forall other l' | Err _ => Forall other l end.
  Proof.
    assert (K : forall A B (m : M Y A) (f : A -> M Y B) (P : list entry -> result perr B -> Prop),
      emits other m -> (forall x l, Forall other l -> P l (Err x)) -> (forall l l' r, Forall other l -> P l' r -> P (l' ++ l) r) ->
      (forall a s r s', f a s = (r, s') -> exists l, st_trace s' = l ++ st_trace s /\ P l r) ->
      forall s r s', bind m f s = (r, s') -> exists l, st_trace s' = l ++ st_trace s /\ P l r).
    { intros A B m f P Em Pe Pa Hf s0 r0 s0' H. unfold bind in H. destruct (m s0) as [[a|e] s1] eqn:E.
      - apply Em in E as (l1 & T1 & F1). apply Hf in H as (l2 & T2 & F2). exists (l2 ++ l1). split; [now rewrite T2, T1, app_assoc|]. now apply Pa.
      - inversion H; subst. apply Em in E as (l & T1 & F1). exists l. split; [exact T1|]. now apply Pe. }
    set (P := fun (l : list entry) (r : result perr (genesis_output * nsm_response)) => match r with
      Ok (o, a) => exists l' f n, l = Entry (Y:=Y) (EvNsm (genesis_request Y o) a) f n :: l' /\ Forall other l' | Err _ => Forall other l end).
    assert (Pe : forall x l, Forall other l -> P l (Err x)) by (intros x l F; exact F).
    assert (Pa : forall l l' r, Forall other l -> P l' r -> P (l' ++ l) r).
    { intros l l' [[o a]|x] F Q; cbn [P] in *; [|now apply Forall_app]. destruct Q as (l1 & f & n & -> & F1). exists (l1 ++ l), f, n. split; [reflexivity|now apply Forall_app]. }
    change (boot_genesis Y set dr s = (r, s') -> exists l, st_trace s' = l ++ st_trace s /\ P l r). revert s r s'. unfold boot_genesis.
    repeat first [apply (fun m f H => K _ _ m f P H Pe Pa); [solve [repeat first
      [ apply em_bind; [|intros ?] | apply em_ret | apply em_err | apply em_lift | apply em_rand | apply em_generate | apply em_catch, em_encrypt
      | match goal with |- emits _ (match ?x with _ => _ end) => destruct x end ]]|intros ?]
      | match goal with |- context [let '(_, _) := ?x in _] => is_var x; destruct x end].
    cbv zeta. intros s r s' H. apply bind_inv in H as [(aa & s1 & H1 & H2)|(e & H1 & _)]; apply nsm_last in H1 as (x & E & _ & _ & TR).
    - apply ret_inv in H2 as [-> ->]. assert (aa = x) as -> by congruence. eexists [_]. split; [exact TR|]. cbn [P]. exists [], (st_fs s1), (st_nsm s1).
      split; [reflexivity|constructor].
    - discriminate E.
  Qed.

  Lemma handle_docs (OK : sys_ok Y) r (s : st) : reach Y s -> wf_req r = true -> ext s (snd (handle Y r s)).
  Proof.
    intros R W. destruct (handle_cases r s) as [[V H1]|[(RO & V & Q)|[(set & dr & -> & P')|[(e1 & pv & B & P')|[(sh & ap & -> & P')|(c & g & -> & P')]]]]].
    - rewrite H1. apply ext_refl.
    - destruct r; try discriminate RO.
      + rewrite handle_status. apply ext_refl.
      + rewrite handle_live by (intros P; rewrite P in V; discriminate V). cbn [snd].
        match goal with |- ext s (snd (?m s)) => destruct (m s) as [x s'] eqn:E end. cbn [snd].
        mstep E; apply live_docs in E0 as (X & _); [|exact X]. eapply ext_trans; [exact X|].
        eapply (em_ext (do e <- ok_of Y (get_manifest_envelope Y); ret (a, e))); [|exact E]. apply em_bind; [|intros; apply em_ret].
        intros t q t' Ht. unfold ok_of in Ht. destruct (get_manifest_envelope Y t) as [[v|v] t1] eqn:Eg; inversion Ht; subst; now apply em_env in Eg.
      + assert (P : st_phase s = QuorumKeyProvisioned) by (now apply phase_eqb_eq in V).
        rewrite handle_export by exact P. cbn [snd]. eapply em_ext; [apply em_export|apply surjective_pairing].
      + rewrite handle_manifest by (intros P; rewrite P in V; discriminate V). cbn [snd].
        eapply em_ext; [|apply surjective_pairing].
        intros t q t' Ht. unfold ok_of in Ht. destruct (get_manifest_envelope Y t) as [[v|v] t1] eqn:Eg; inversion Ht; subst; now apply em_env in Eg.
      + rewrite handle_version. apply ext_refl.
    - pose proof (handle_genesis set dr s P') as HG. rewrite HG. destruct (boot_genesis Y set dr s) as [x s1] eqn:E. apply genesis_last in E as (l & TR & Q).
      destruct x as [[o a]|x]; cbn [fst snd] in *.
      + destruct Q as (l' & f & n & -> & F). exists (Entry (Y:=Y) (EvNsm (genesis_request Y o) a) f n :: l'). split; [exact TR|].
        constructor; [|eapply Forall_impl; [apply other_good|exact F]].
        intros q y Eq A. cbn [en_ev en_fs] in *. right. exists o. assert (q = genesis_request Y o /\ y = a) as [-> ->] by (split; congruence).
        split; [reflexivity|]. exists s, set, dr. eexists. split; [exact R|exact HG].
      + exists l. split; [exact TR|]. eapply Forall_impl; [apply other_good|exact Q].
    - assert (We : wf_envelope e1 = true) by (destruct r; try discriminate B; inversion B; subst; exact W).
      rewrite (handle_boot r e1 pv s P' B). destruct (put_manifest_and_pivot Y e1 pv s) as [x s1] eqn:E.
      apply (boot_docs OK _ _ _ _ _ We) in E as [X _]. destruct x; exact X.
    - rewrite handle_provision by exact P'. destruct (provision Y sh ap s) as [x s1] eqn:E. apply (em_ext _ _ _ _ (em_provision _ _)) in E.
      destruct x as [[]|]; exact E.
    - rewrite handle_inject by exact P'. destruct (inject_key Y c g s) as [x s1] eqn:E. apply (em_ext _ _ _ _ (em_inject _ _)) in E.
      destruct x; exact E.
  Qed.

  Lemma reach_docs (OK : sys_ok Y) s : reach Y s -> Forall good (st_trace s).
  Proof.
    induction 1 as [f n rc ic F0|s r R IH W|s newer x older rc ic R IH T].
    - constructor.
    - destruct (handle_docs OK r s R W) as (l & -> & F). now apply Forall_app.
    - rewrite T in IH. apply Forall_app in IH as [_ IH]. exact IH.
  Qed.
End Docs.

(** ** C55.  In any history of the enclave, across restarts, the security module
    is never asked to attest anything but the hash of the manifest then on disk
    together with the public key of the ephemeral key then on disk, or the hash of
    a genesis output without any key; never with a caller's nonce. *)
Theorem c55_only_own_requests : forall Y, sys_ok Y -> forall s x q a, reach Y s -> In x (st_trace s) ->
  en_ev x = EvNsm q a -> is_attestation q = true ->
  own_request Y (en_fs x) q \/ exists o, q = genesis_request Y o /\ ceremony Y o a.
Proof. intros Y OK s x q a R I E A. pose proof (reach_docs OK s R) as F. rewrite Forall_forall in F. exact (F x I q a E A). Qed.
Print Assumptions c55_only_own_requests.

(** And the attestation in a boot or live-attestation answer is the device's answer
    to such a request about the manifest and ephemeral key now on disk; after a
    boot that is the manifest just booted. *)
Theorem c55_answer_is_own_attestation : forall Y, sys_ok Y -> forall s r a x s', reach Y s -> wf_req r = true ->
  handle Y r s = (a, s') -> attested a = Some x ->
  exists q older, own_request Y (st_fs s') q /\ st_trace s' = Entry (EvNsm q x) (st_fs s') (st_nsm s') :: older
    /\ (forall e pv, boot_of r = Some (e, pv) -> stored (st_fs s') e).
Proof.
  intros Y OK s r a x s' R W H A.
  destruct (handle_cases r s) as [[V H1]|[(RO & V & Q)|[(set & dr & -> & P')|[(e1 & pv & B & P')|[(sh & ap & -> & P')|(c & g & -> & P')]]]]].
  - rewrite H1 in H. inversion H; subst. discriminate A.
  - destruct r; try discriminate RO.
    + rewrite handle_status in H. inversion H; subst. discriminate A.
    + rewrite handle_live in H by (intros P; rewrite P in V; discriminate V).
      match type of H with (as_msg _ (fst (?m s)), _) = _ => destruct (m s) as [y s1] eqn:E end. cbn [fst snd] in H.
      destruct y as [[n e]|y]; inversion H; subst; [|discriminate A]. cbn [attested fst] in A. assert (x = n) as -> by congruence.
      apply bind_ok in E as (n' & s2 & E & H2). apply live_docs in E as (_ & FS & L).
      apply bind_ok in H2 as (e' & s3 & H3 & H4). apply ret_inv in H4 as [H4 ->].
      assert (n' = n) as -> by congruence. destruct (L n eq_refl) as (q & OWN & (older & LA)).
      assert (SL : silent s2 s3).
      { unfold ok_of in H3. destruct (get_manifest_envelope Y s2) as [v t1] eqn:Eg. apply si_get_manifest in Eg. destruct v; inversion H3; subst; exact Eg. }
      assert (NS : st_nsm s3 = st_nsm s2).
      { clear - H3. unfold ok_of, get_manifest_envelope, bind, op_read in H3. destruct (s_io Y (st_ioc s2)); try (inversion H3; subst; reflexivity).
        destruct (st_fs s2 (Main Manif)) as [[c m]|]; cbn [option_map fst] in H3; [|inversion H3; subst; reflexivity].
        destruct (envelope_try_from_slice_compat c); inversion H3; subst; reflexivity. }
      exists q, older. rewrite (silent_fs _ _ SL), (silent_trace _ _ SL), NS. split; [exact OWN|]. split; [exact LA|]. intros ? ? D. discriminate D.
    + rewrite handle_export in H by (now apply phase_eqb_eq in V). match type of H with (as_msg _ (fst ?t), _) = _ => destruct t as [[p|p] s1] end; inversion H; subst; discriminate A.
    + rewrite handle_manifest in H by (intros P; rewrite P in V; discriminate V). destruct (ok_of Y (get_manifest_envelope Y) s) as [[p|p] s1]; inversion H; subst; discriminate A.
    + rewrite handle_version in H. inversion H; subst. discriminate A.
  - rewrite handle_genesis in H by exact P'. destruct (boot_genesis Y set dr s) as [[p|p] s1]; inversion H; subst; discriminate A.
  - assert (We : wf_envelope e1 = true) by (destruct r; try discriminate B; inversion B; subst; exact W).
    rewrite (handle_boot r e1 pv s P' B) in H. destruct (put_manifest_and_pivot Y e1 pv s) as [y s1] eqn:E.
    apply (boot_docs OK _ _ _ _ _ We) in E as [_ L]. destruct y as [n|y]; inversion H; subst; [|discriminate A].
    assert (x = n) as -> by (destruct r; try discriminate B; cbn in A; congruence).
    destruct (L n eq_refl) as (ST & q & OWN & (older & LA)). exists q, older. split; [exact OWN|]. split; [exact LA|].
    intros e pv' D. assert (e = e1) as -> by congruence. exact ST.
  - rewrite handle_provision in H by exact P'. destruct (provision Y sh ap s) as [[[]|p] s1]; inversion H; subst; discriminate A.
  - rewrite handle_inject in H by exact P'. destruct (inject_key Y c g s) as [[p|p] s1]; inversion H; subst; discriminate A.
Qed.
Print Assumptions c55_answer_is_own_attestation.

Example c55_nontrivial : sys_ok T /\ reach T s_waiting /\ wf_req LiveAttestationDocRequest = true
  /\ is_some (attested (fst (handle T LiveAttestationDocRequest s_waiting))) = true
  /\ is_some (attested (fst (handle T boot_std (start calm 0)))) = true
  /\ existsb (fun x => match en_ev x with EvNsm q _ => is_attestation q | _ => false end) (st_trace s_waiting) = true.
Proof. split; [apply T_ok|]. split; [apply waiting_reach|]. split; [reflexivity|]. split; [vm_compute; reflexivity|]. split; vm_compute; reflexivity. Qed.
