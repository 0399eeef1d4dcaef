(** What the boot, provision and inject services can do to the world. *)
From Coq Require Import ZifyBool ZifyN ZifyNat.
From Verif Require Import Base Utf8 Hex HexProofs Types TypesJson Msg World Run FsProofs Attest Services.
Local Open Scope N_scope.
Local Open Scope m_scope.

(** The NSM answered [a] to [r] somewhere in [tr]. *)
Definition reported {Y} (tr : list (entry Y)) (r : nsm_request) (a : nsm_response) : Prop :=
  exists x, In x tr /\ en_ev x = EvNsm r a.

Lemma reported_app {Y} (t1 t2 : list (entry Y)) r a : reported t1 r a \/ reported t2 r a -> reported (t1 ++ t2) r a.
Proof. intros [(x & I & E)|(x & I & E)]; exists x; split; auto; apply in_or_app; auto. Qed.

(** The value the commitment PCR must have. *)
Definition commitment_value (Y : sys) (k : commitment_kind) (mh pub : bytes) : bytes :=
  s_sha384 Y (INITIAL_PCR ++ s_sha384 Y (commitment_preimage k mh pub)).

(** The device reported the whole bank locked, with both commitments in place. *)
Definition bank_locked {Y} (tr : list (entry Y)) (mh setup_pub live_pub : bytes) : Prop :=
  (exists a b c id max locked d, reported tr DescribeNSM (RDescribeNSM a b c id max locked d)
      /\ 32 <= max /\ forall i, i < max -> In i locked)
  /\ reported tr (DescribePCR 16) (RDescribePCR true (commitment_value Y Setup mh setup_pub))
  /\ reported tr (DescribePCR 17) (RDescribePCR true (commitment_value Y Live mh live_pub)).

Lemma bank_locked_app {Y} (t1 t2 : list (entry Y)) mh a b :
  bank_locked t1 mh a b \/ bank_locked t2 mh a b -> bank_locked (t1 ++ t2) mh a b.
Proof.
  intros [((x1 & x2 & x3 & x4 & x5 & x6 & x7 & R & A) & B & C)|((x1 & x2 & x3 & x4 & x5 & x6 & x7 & R & A) & B & C)];
    (split; [exists x1, x2, x3, x4, x5, x6, x7|]); (split; [apply reported_app; auto|]); auto; apply reported_app; auto.
Qed.

Section SP.
  Context {Y : sys}.
  Local Notation st := (st Y).
  Local Notation entry := (entry Y).

  Lemma bind_assoc {A B C} (m : M Y A) (f : A -> M Y B) (g : B -> M Y C) s :
    bind (bind m f) g s = bind m (fun x => bind (f x) g) s.
  Proof. unfold bind. destruct (m s) as [[a|e] s1]; reflexivity. Qed.

  (** *** Trace growth, keeping track of what the device said *)
  Definition grows (s s' : st) (new : list entry) : Prop :=
    st_trace s' = new ++ st_trace s /\ Forall (fun e => en_fs e = st_fs s /\ fs_event (en_ev e) = false) new
    /\ st_fs s' = st_fs s /\ st_phase s' = st_phase s /\ st_shares s' = st_shares s /\ st_pending s' = st_pending s.
  Lemma grows_trans s s1 s2 n1 n2 : grows s s1 n1 -> grows s1 s2 n2 -> grows s s2 (n2 ++ n1).
  Proof.
    intros (A1 & A2 & A3 & A4 & A5 & A6) (B1 & B2 & B3 & B4 & B5 & B6).
    split; [now rewrite B1, A1, app_assoc|]. split.
    - apply Forall_app. split; [|exact A2]. rewrite A3 in B2. exact B2.
    - unfold grows; repeat match goal with |- _ /\ _ => split end; congruence.
  Qed.
  Lemma grows_silent s s' : silent s s' -> grows s s' [].
  Proof.
    intros H. unfold grows; repeat match goal with |- _ /\ _ => split end.
    - now apply silent_trace.
    - constructor.
    - now apply silent_fs.
    - apply (fx_phase _ _ _ H).
    - apply (fx_shares _ _ _ H).
    - apply (fx_pending _ _ _ H).
  Qed.
  Lemma grows_quiet s s' new : grows s s' new -> quiet s s'.
  Proof.
    intros (A1 & A2 & A3 & A4 & A5 & A6). constructor; auto. exists new. split; [auto|]. split.
    - eapply Forall_impl; [|exact A2]. cbn; tauto.
    - destruct new as [|x n]; cbn; [auto|]. inversion A2; subst. rewrite A3. symmetry. tauto.
  Qed.
  Lemma nsm_grows q (s : st) r s' : op_nsm Y q s = (r, s') ->
    exists a n, r = Ok a /\ grows s s' [Entry (EvNsm q a) (st_fs s) n].
  Proof.
    unfold op_nsm. destruct (s_nsm_step Y (st_nsm s) q) as [a n]. intros H; inversion H; subst.
    exists a, n. split; [reflexivity|]. unfold grows; repeat match goal with |- _ /\ _ => split end; try reflexivity.
    constructor; [|constructor]. auto.
  Qed.
  Definition growing {A} (m : M Y A) : Prop := forall s r s', m s = (r, s') -> exists new, grows s s' new.
  Lemma g_bind {A B} (m : M Y A) (f : A -> M Y B) : growing m -> (forall a, growing (f a)) -> growing (bind m f).
  Proof.
    intros Hm Hf s r s' H. apply bind_inv in H as [(a & s1 & E1 & E2)|(e & E & _)].
    - destruct (Hm _ _ _ E1) as [n1 G1]. destruct (Hf _ _ _ _ E2) as [n2 G2]. eexists; eapply grows_trans; eauto.
    - eauto.
  Qed.
  Lemma g_silent {A} (m : M Y A) : silently m -> growing m.
  Proof. intros H s r s' E. exists []. apply grows_silent. eapply H; eauto. Qed.
  Lemma g_nsm q : growing (op_nsm Y q).
  Proof. intros s r s' E. apply nsm_grows in E as (a & n & _ & G). eauto. Qed.

  Ltac grow_tac :=
    repeat first
      [ progress intros
      | apply g_nsm
      | solve [apply g_silent; silent_tac]
      | apply g_bind
      | match goal with |- growing (match ?x with _ => _ end) => destruct x end ].

  Lemma g_describe_nsm : growing (describe_nsm Y).
  Proof. unfold describe_nsm. grow_tac. Qed.
  Lemma g_describe_pcr i : growing (describe_pcr Y i).
  Proof. unfold describe_pcr. grow_tac. Qed.
  Lemma g_extend k max l mh e : growing (extend_commitment Y k max l mh e).
  Proof.
    unfold extend_commitment. grow_tac.
  Qed.
  Lemma g_verify_locked k e : growing (verify_locked Y k e).
  Proof. unfold verify_locked. apply g_bind; [apply g_describe_pcr|]. intros [? ?]. grow_tac. Qed.
  Lemma g_lock mh a b : growing (lock_manifest_commitment_pcr_bank Y mh a b).
  Proof.
    unfold lock_manifest_commitment_pcr_bank.
    repeat first [ apply g_describe_nsm | apply g_extend | apply g_verify_locked | apply g_nsm
                 | solve [apply g_silent; silent_tac] | apply g_bind | progress intros
                 | match goal with |- growing (match ?x with _ => _ end) => destruct x end ].
  Qed.

  Lemma describe_nsm_ok (s : st) x s' : describe_nsm Y s = (Ok x, s') ->
    exists a b c id n, grows s s' [Entry (EvNsm DescribeNSM (RDescribeNSM a b c id (fst (fst x)) (snd (fst x)) (snd x))) (st_fs s) n].
  Proof.
    unfold describe_nsm. intros H. apply bind_ok in H as (r & s1 & E & H).
    apply nsm_grows in E as (a0 & n & Ea & G). inversion Ea; subst a0; clear Ea.
    destruct r; try discriminate H. apply ret_inv in H as [H ->]. inversion H; subst. cbn. eauto 8.
  Qed.
  Lemma describe_pcr_ok i (s : st) x s' : describe_pcr Y i s = (Ok x, s') ->
    exists n, grows s s' [Entry (EvNsm (DescribePCR i) (RDescribePCR (fst x) (snd x))) (st_fs s) n].
  Proof.
    unfold describe_pcr. intros H. apply bind_ok in H as (r & s1 & E & H).
    apply nsm_grows in E as (a0 & n & Ea & G). inversion Ea; subst a0; clear Ea.
    destruct r; try discriminate H. apply ret_inv in H as [H ->]. inversion H; subst. cbn. eauto.
  Qed.
  Lemma extend_ok k max l mh e (s : st) v s' : extend_commitment Y k max l mh e s = (Ok v, s') ->
    pcr_index k < max /\ v = commitment_value Y k mh e.
  Proof.
    unfold extend_commitment. intros H.
    apply bind_ok in H as ([] & s1 & E & H). apply guard_inv in E as [-> [[G _]|[_ G]]]; [|discriminate G].
    apply bind_ok in H as ([] & s2 & E & H). apply guard_inv in E as [-> [[_ _]|[_ X]]]; [|discriminate X].
    apply bind_ok in H as ([lk ini] & s3 & E & H).
    apply bind_ok in H as ([] & s4 & E1 & H). apply guard_inv in E1 as [-> [[_ _]|[_ X]]]; [|discriminate X].
    apply bind_ok in H as ([] & s5 & E1 & H). apply guard_inv in E1 as [-> [[I _]|[_ X]]]; [|discriminate X].
    apply bytes_eqb_eq in I. subst ini.
    apply bind_ok in H as (ex & s6 & E1 & H). apply lift_inv in E1 as [E1 ->].
    apply bind_ok in H as (r & s7 & E2 & H). destruct r; try discriminate H.
    apply bind_ok in H as ([] & s8 & E3 & H). apply guard_inv in E3 as [-> [[_ _]|[_ X]]]; [|discriminate X].
    apply ret_inv in H as [H _]. inversion H; subst v. split; [lia|].
    unfold pcr_extend_sha384 in E1. change (lenN INITIAL_PCR =? 48) with true in E1. cbn [rmap_err] in E1.
    inversion E1. reflexivity.
  Qed.
  Lemma verify_locked_ok k e (s : st) s' : verify_locked Y k e s = (Ok tt, s') ->
    exists n, grows s s' [Entry (EvNsm (DescribePCR (pcr_index k)) (RDescribePCR true e)) (st_fs s) n].
  Proof.
    unfold verify_locked. intros H. apply bind_ok in H as ([lk d] & s1 & E & H).
    apply describe_pcr_ok in E as (n & G). cbn [fst snd] in G.
    apply bind_ok in H as ([] & s2 & E1 & H). apply guard_inv in E1 as [-> [[I _]|[_ X]]]; [|discriminate X].
    apply guard_inv in H as [-> [[J _]|[_ X]]]; [|discriminate X].
    apply bytes_eqb_eq in J. subst. eauto.
  Qed.

  Lemma all_locked_In max l : all_locked max l = true -> forall i, i < max -> In i l.
  Proof.
    unfold all_locked. rewrite forallb_forall. intros H i Hi.
    apply (memb_In N.eqb N.eqb_eq). apply H. apply in_map_iff. exists (N.to_nat i). split; [lia|].
    apply in_seq. lia.
  Qed.

  Lemma lock_ok mh a b (s : st) s' : lock_manifest_commitment_pcr_bank Y mh a b s = (Ok tt, s') ->
    exists new, grows s s' new /\ bank_locked new mh a b.
  Proof.
    unfold lock_manifest_commitment_pcr_bank. intros H.
    apply bind_ok in H as ([[max lk] d] & s1 & E1 & H).
    destruct (g_describe_nsm _ _ _ E1) as [n1 G1].
    apply bind_ok in H as ([] & s2 & E & H). apply guard_inv in E as [-> [[_ _]|[_ X]]]; [|discriminate X].
    apply bind_ok in H as ([] & s2 & E & H). apply guard_inv in E as [-> [[M _]|[_ X]]]; [|discriminate X].
    apply bind_ok in H as (e1 & s2 & E2 & H).
    destruct (g_extend _ _ _ _ _ _ _ _ E2) as [n2 G2]. apply extend_ok in E2 as [_ ->].
    apply bind_ok in H as (e2 & s3 & E3 & H).
    destruct (g_extend _ _ _ _ _ _ _ _ E3) as [n3 G3]. apply extend_ok in E3 as [_ ->].
    apply bind_ok in H as (r & s4 & E4 & H). apply nsm_grows in E4 as (a4 & n4 & _ & G4).
    apply bind_ok in H as ([] & s5 & E5 & H).
    assert (s5 = s4) as -> by (destruct r; try discriminate E5; now apply ret_inv in E5 as [_ E5]).
    apply bind_ok in H as ([[max' lk'] d'] & s6 & E6 & H). apply describe_nsm_ok in E6 as (x1 & x2 & x3 & x4 & n6 & G6).
    cbn [fst snd] in G6.
    apply bind_ok in H as ([] & s7 & E & H). apply guard_inv in E as [-> [[M' _]|[_ X]]]; [|discriminate X].
    apply bind_ok in H as ([] & s7 & E & H). apply guard_inv in E as [-> [[L _]|[_ X]]]; [|discriminate X].
    apply bind_ok in H as ([] & s7 & E7 & H). apply verify_locked_ok in E7 as (n7 & G7).
    apply verify_locked_ok in H as (n8 & G8).
    eexists. split.
    { eapply grows_trans; [|exact G8]. eapply grows_trans; [|exact G7]. eapply grows_trans; [|exact G6].
      eapply grows_trans; [|exact G4]. eapply grows_trans; [|exact G3]. eapply grows_trans; [|exact G2]. exact G1. }
    assert (max' = max) as -> by lia.
    split; [|split].
    - exists x1, x2, x3, x4, max, lk', d'. split.
      + eexists. split; [right; right; left; reflexivity|]. reflexivity.
      + split; [unfold ATTESTABLE_PCR_COUNT in M; lia|]. now apply all_locked_In.
    - eexists. split; [right; left; reflexivity|]. reflexivity.
    - eexists. split; [left; reflexivity|]. reflexivity.
  Qed.

  Lemma generate_ok (s : st) x s' : pair_generate Y s = (Ok x, s') ->
    silent s s' /\ s_pair Y (fst x) = Some (snd x) /\ fst x = s_rng Y (st_rngc s) /\ st_rngc s' = S (st_rngc s).
  Proof.
    unfold pair_generate. intros H. apply bind_ok in H as (sd & s1 & E & H).
    pose proof (si_rand _ _ _ E) as S1. unfold op_rand in E. inversion E; subst; clear E.
    apply bind_ok in H as (k & s2 & E & H). apply lift_inv in E as [E ->].
    apply ret_inv in H as [H ->]. inversion H; subst. cbn [fst snd].
    unfold from_master_seed in E. destruct (s_pair Y (s_rng Y (st_rngc s))) eqn:P; cbn in E; inversion E; subst.
    auto.
  Qed.
  Lemma si_generate : silently (pair_generate Y).
  Proof. unfold pair_generate. silent_tac. Qed.
End SP.
