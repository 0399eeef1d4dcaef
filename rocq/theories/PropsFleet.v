(** C89: where each enclave of a fleet has its quorum key from. *)
From Coq Require Import ZifyBool ZifyN ZifyNat Permutation.
From Verif Require Import Base Utf8 Hex HexProofs Types Json TypesJson StorageProofs Msg World Run FsProofs Attest Services
  ServiceProofs BootProofs State SpecProtocol HandleProofs Reach Invariant ProtocolProofs EffectProofs CalmProofs
  SpecApproval ApprovalProofs SpecAttest AttestProofs SpecHistory HistoryProofs LaterProofs ProvisionProofs SpecExport ExportProofs
  PropsHistory PropsExport PropsDocs Fleet CodecExamples Toy ToyRuns.
Local Open Scope N_scope.

(** *** Specification *)
Section SpecFleet.
  Context (Y : sys).

  (** The manifest in a file system. *)
  Definition manifest_on_disk (f : fsys) (m : versioned_manifest) : Prop := exists e, stored f e /\ env_manifest e = m.
  (** The encryption half of the ephemeral key in a file system. *)
  Definition key_on_disk (f : fsys) (ek : bytes) : Prop :=
    exists c seed sk, content f Eph = Some c /\ seed_of_hex c = Some seed /\ s_pair Y seed = Some (ek, sk).

  (** No two enclaves ever have the same ephemeral key on disk (it is drawn at random). *)
  Definition own_keys (cl : nat -> st Y) : Prop :=
    forall i j x y ek, In x (st_trace (cl i)) -> In y (st_trace (cl j)) ->
    key_on_disk (en_fs x) ek -> key_on_disk (en_fs y) ek -> i = j.
  (** Among the manifests that an enclave had on disk when a request arrived, or
      that an export request carried, no two different ones have the same hash. *)
  Definition shown (log : list (served_one Y)) (m : versioned_manifest) : Prop :=
    exists w, In w log /\ (manifest_on_disk (st_fs (sv_before w)) m
      \/ exists new cose, sv_request w = ExportKeyRequest new cose /\ env_manifest new = m).
  Definition no_collision (log : list (served_one Y)) : Prop :=
    forall m m', shown log m -> shown log m' -> manifest_hash Y m = manifest_hash Y m' -> m = m'.
  (** What is encrypted to a generated key opens with no other. *)
  Definition only_addressee : Prop :=
    forall seed0 ek sk0 rnd m c seed m', s_pair Y seed0 = Some (ek, sk0) -> s_encrypt Y ek rnd m = Ok c ->
    s_decrypt Y seed c = Ok m' -> exists sk, s_pair Y seed = Some (ek, sk).

  (** The manifest [new] may follow [old]: same quorum key, namespace, manifest
      set and PCR3, a nonce that did not go down and went up unless it is the
      same manifest, and enough approvals by that manifest set. *)
  Definition successor (old new : versioned_manifest) : Prop :=
    ns_quorum_key (vm_namespace new) = ns_quorum_key (vm_namespace old)
    /\ ns_name (vm_namespace new) = ns_name (vm_namespace old)
    /\ threshold (vm_manifest_set new) = threshold (vm_manifest_set old)
    /\ Permutation (members (vm_manifest_set new)) (members (vm_manifest_set old))
    /\ pcr3 (vm_enclave new) = pcr3 (vm_enclave old)
    /\ (ns_nonce (vm_namespace old) < ns_nonce (vm_namespace new) \/ new = old)
    /\ exists approvals, approved Y (vm_manifest_set new) (manifest_hash Y new) approvals.

  (** While serving this request the enclave came to have a quorum key, under the manifest [m]. *)
  Definition obtained (w : served_one Y) (m : versioned_manifest) : Prop :=
    content (st_fs (sv_before w)) Quorum = None /\ content (st_fs (sv_after w)) Quorum <> None
    /\ manifest_on_disk (st_fs (sv_after w)) m.
  (** ... by opening the sealed key [c] with its setup key. *)
  Definition opened (w : served_one Y) (c : bytes) (m : versioned_manifest) : Prop :=
    obtained w m /\ (exists g, sv_request w = InjectKeyRequest c g)
    /\ exists setup seed, content (st_fs (sv_before w)) Eph = Some (encode setup) /\ s_decrypt Y setup c = Ok seed
         /\ seed_for Y seed (ns_quorum_key (vm_namespace m))
         /\ content (st_fs (sv_after w)) Quorum = Some (encode seed).

  (** How enclave [i] came to its key, told from the log (newest first). *)
  Inductive holds_key : list (served_one Y) -> nat -> versioned_manifest -> Prop :=
  | by_shares newer w older m :
      is_provision (sv_request w) = true -> obtained w m ->
      holds_key (newer ++ w :: older) (sv_who w) m
  | by_forwarding newer w mid v older c g new cose old m :
      opened w c m ->
      sv_request v = ExportKeyRequest new cose -> sv_reply v = Some (ExportKeyResponse c g) ->
      manifest_on_disk (st_fs (sv_before v)) old -> successor old m -> env_manifest new = m ->
      holds_key older (sv_who v) old ->
      holds_key (newer ++ w :: mid ++ v :: older) (sv_who w) m
  | by_outsider newer w older c m :
      opened w c m ->
      (forall v g, In v older -> sv_reply v <> Some (ExportKeyResponse c g)) ->
      holds_key (newer ++ w :: older) (sv_who w) m.

  (** Nobody outside the fleet ever sealed the quorum key for one of its enclaves. *)
  Definition no_outsider (log : list (served_one Y)) : Prop :=
    forall newer w older c m, log = newer ++ w :: older -> opened w c m ->
    exists v g, In v older /\ sv_reply v = Some (ExportKeyResponse c g).
End SpecFleet.

(** *** Proofs: the manifest file, once there, stays there *)
Section Stays.
  Context {Y : sys}.
  Local Notation st := (st Y).
  Local Open Scope m_scope.

  Definition has_manifest (f : fsys) : Prop := content f Manif <> None.
  Definition after_it (x y : entry Y) : Prop := has_manifest (en_fs y) -> has_manifest (en_fs x).
  Definition manifest_stays (s : st) : Prop :=
    Forall (fun x => has_manifest (en_fs x) -> has_manifest (st_fs s)) (st_trace s) /\ ForallOrdPairs after_it (st_trace s)
    /\ match st_trace s with [] => True | x :: _ => en_nsm x = st_nsm s end.
  Definition pres {A} (m : M Y A) : Prop := forall s, manifest_stays s -> manifest_stays (snd (m s)).

  Lemma stays_push e f n (s t : st) : manifest_stays s -> (has_manifest (st_fs s) -> has_manifest f) ->
    st_trace t = Entry e f n :: st_trace s -> st_fs t = f -> st_nsm t = n -> manifest_stays t.
  Proof.
    intros (S1 & S2 & _) H T F N. unfold manifest_stays. rewrite T, F. split; [|split; [|now symmetry]].
    - constructor; [cbn [en_fs]; auto|]. eapply Forall_impl; [|exact S1]. cbn beta. auto.
    - constructor; [|exact S2]. eapply Forall_impl; [|exact S1]. cbn beta. unfold after_it. cbn [en_fs]. auto.
  Qed.
  Lemma stays_same (s t : st) : manifest_stays s -> st_trace t = st_trace s -> st_fs t = st_fs s -> st_nsm t = st_nsm s -> manifest_stays t.
  Proof. intros S T F N. unfold manifest_stays. rewrite T, F, N. exact S. Qed.

  Lemma p_bind {A B} (m : M Y A) (f : A -> M Y B) : pres m -> (forall a, pres (f a)) -> pres (bind m f).
  Proof.
    intros Hm Hf s S. specialize (Hm s S). unfold bind. destruct (m s) as [[a|e] s1]; cbn [snd] in *; [apply Hf|]; exact Hm.
  Qed.
  Lemma p_ret {A} (a : A) : pres (ret a). Proof. intros s S. exact S. Qed.
  Lemma p_err {A} e : pres (@err Y A e). Proof. intros s S. exact S. Qed.
  Lemma p_lift {A} (x : result perr A) : pres (lift x). Proof. intros s S. exact S. Qed.
  Lemma p_guard b e : pres (guard b e). Proof. intros s S. unfold guard. destruct b; exact S. Qed.
  Lemma p_gets {A} (f : st -> A) : pres (gets f). Proof. intros s S. exact S. Qed.
  Lemma p_modify f : (forall s : st, st_trace (f s) = st_trace s /\ st_fs (f s) = st_fs s /\ st_nsm (f s) = st_nsm s) -> pres (modify f).
  Proof. intros H s S. destruct (H s) as (H1 & H2 & H3). eapply stays_same; eauto. Qed.
  Lemma p_read p : pres (op_read Y p).
  Proof. intros s S. unfold op_read. destruct (s_io Y (st_ioc s)); eapply stays_same; eauto; reflexivity. Qed.
  Lemma p_exists p : pres (op_exists Y p). Proof. intros s S. exact S. Qed.
  Lemma p_rand : pres (op_rand Y). Proof. intros s S. eapply stays_same; eauto; reflexivity. Qed.
  Lemma p_nsm q : pres (op_nsm Y q).
  Proof.
    intros s S. unfold op_nsm. destruct (s_nsm_step Y (st_nsm s) q) as [a n]. cbn [snd].
    eapply stays_push; [exact S| |reflexivity|reflexivity|reflexivity]. auto.
  Qed.
  Lemma p_time : pres (op_time Y).
  Proof.
    intros s S. unfold op_time. destruct (s_nsm_time Y (st_nsm s)) as [a n]. cbn [snd].
    eapply stays_push; [exact S| |reflexivity|reflexivity|reflexivity]. auto.
  Qed.
  Lemma has_upd f p v : p <> Main Manif \/ v <> None -> has_manifest f -> has_manifest (upd f p v).
  Proof.
    unfold has_manifest, content, upd. destruct (path_eqb_spec p (Main Manif)) as [->|N]; [|auto].
    intros [H|H] _; [tauto|]. destruct v; [discriminate|tauto].
  Qed.
  Lemma p_write_steps p m data k : forall i (s : st), manifest_stays s -> manifest_stays (write_steps Y p m data k i s).
  Proof.
    induction k as [|k IH]; intros i s S; cbn [write_steps]; [|apply IH];
      (eapply stays_push; [exact S| |reflexivity|reflexivity|reflexivity]); apply has_upd; right; discriminate.
  Qed.
  Lemma p_write p data : pres (op_write Y p data).
  Proof.
    intros s S. assert (S1 : manifest_stays (tick_io s)) by (eapply stays_same; eauto; reflexivity).
    unfold op_write. destruct (s_io Y (st_ioc s)); cbn [snd]; [apply p_write_steps|idtac|apply p_write_steps]; exact S1.
  Qed.
  Lemma p_rename a b : a <> Main Manif -> pres (op_rename Y a b).
  Proof.
    intros N s S. assert (S1 : manifest_stays (tick_io s)) by (eapply stays_same; eauto; reflexivity).
    unfold op_rename. destruct (s_io Y (st_ioc s)), (st_fs s a) as [v|]; cbn [snd]; try exact S1.
    eapply stays_push; [exact S| |reflexivity|reflexivity|reflexivity]. intros H. apply has_upd; [now left|]. apply has_upd; [right; discriminate|exact H].
  Qed.
  Lemma p_chmod p m : pres (op_chmod Y p m).
  Proof.
    intros s S. assert (S1 : manifest_stays (tick_io s)) by (eapply stays_same; eauto; reflexivity).
    unfold op_chmod. destruct (s_io Y (st_ioc s)), (st_fs s p) as [[c m0]|]; cbn [snd]; try exact S1.
    eapply stays_push; [exact S| |reflexivity|reflexivity|reflexivity]. intros H. apply has_upd; [right; discriminate|exact H].
  Qed.
  Lemma p_remove p : p <> Main Manif -> pres (op_remove Y p).
  Proof.
    intros N s S. assert (S1 : manifest_stays (tick_io s)) by (eapply stays_same; eauto; reflexivity).
    unfold op_remove. destruct (s_io Y (st_ioc s)), (st_fs s p) as [v|]; cbn [snd]; try exact S1.
    eapply stays_push; [exact S| |reflexivity|reflexivity|reflexivity]. intros H. apply has_upd; [now left|exact H].
  Qed.
  Lemma p_take : pres (take_pending Y).
  Proof. intros s S. unfold take_pending. destruct (st_pending s); eapply stays_same; eauto; reflexivity. Qed.
  Lemma p_catch {A} (m : M Y A) : pres m -> pres (catch Y m).
  Proof. intros H s S. specialize (H s S). unfold catch. destruct (m s) as [r s1]. exact H. Qed.
  Lemma p_ok_of {A} (m : M Y A) : pres m -> pres (ok_of Y m).
  Proof. intros H s S. specialize (H s S). unfold ok_of. destruct (m s) as [[r|r] s1]; exact H. Qed.

  Ltac p_tac :=
    repeat first
      [ progress intros
      | apply p_ret | apply p_err | apply p_lift | apply p_guard | apply p_gets | apply p_read | apply p_exists | apply p_rand
      | apply p_nsm | apply p_time | apply p_write | apply p_chmod | apply p_take | apply p_catch | apply p_ok_of
      | (apply p_rename; discriminate) | (apply p_remove; discriminate) | (apply p_modify; intros; repeat split; reflexivity)
      | assumption | apply p_bind
      | match goal with |- pres (match ?x with _ => _ end) => destruct x end ].
  Lemma p_war f b e : pres (write_as_read_only Y f b e). Proof. unfold write_as_read_only. p_tac. Qed.
  Lemma p_env : pres (get_manifest_envelope Y). Proof. unfold get_manifest_envelope. p_tac. Qed.
  Lemma p_hex p : pres (pair_from_hex_file Y p). Proof. unfold pair_from_hex_file. p_tac. Qed.
  Lemma p_geteph : pres (get_ephemeral_key Y). Proof. unfold get_ephemeral_key. apply p_bind; [apply p_hex|p_tac]. Qed.
  Lemma p_getq : pres (get_quorum_key Y). Proof. unfold get_quorum_key. apply p_bind; [apply p_hex|p_tac]. Qed.
  Lemma p_rotate k : pres (rotate_ephemeral_key Y k).
  Proof. unfold rotate_ephemeral_key. p_tac. Qed.
  Lemma p_mutate g : pres (mutate_manifest_envelope Y g).
  Proof. unfold mutate_manifest_envelope. apply p_bind; [apply p_env|]. p_tac. Qed.
  Lemma p_gen : pres (pair_generate Y). Proof. unfold pair_generate. p_tac. Qed.
  Lemma p_lock a b c : pres (lock_manifest_commitment_pcr_bank Y a b c).
  Proof.
    unfold lock_manifest_commitment_pcr_bank, describe_nsm, extend_commitment, verify_locked, describe_pcr. p_tac.
  Qed.
  Lemma p_boot e pv : pres (put_manifest_and_pivot Y e pv).
  Proof.
    unfold put_manifest_and_pivot, put_ephemeral_key, put_pivot, put_manifest_envelope, post_boot_attestation.
    p_tac; first [apply p_gen|apply p_lock|apply p_war].
  Qed.
  Lemma p_provision sh a : pres (provision Y sh a).
  Proof.
    unfold provision, add_share, build_secret, put_quorum_key. apply p_bind; [apply p_env|].
    p_tac; first [apply p_mutate|apply p_geteph|apply p_rotate|apply p_war].
  Qed.
  Lemma p_inject c g : pres (inject_key Y c g).
  Proof.
    unfold inject_key, put_quorum_key. apply p_bind; [apply p_env|]. p_tac; first [apply p_geteph|apply p_rotate|apply p_war].
  Qed.
  Lemma p_export e d : pres (export_key Y e d).
  Proof. unfold export_key. p_tac; first [apply p_env|apply p_getq]. Qed.
  Lemma p_shares l : pres (encrypt_shares Y l).
  Proof. induction l as [|[sh m] l IH]; cbn [encrypt_shares]; p_tac. Qed.
  Lemma p_genesis set dr : pres (boot_genesis Y set dr).
  Proof. unfold boot_genesis. p_tac; first [apply p_gen|apply p_shares]. Qed.
  Lemma p_live : pres (live_attestation_doc Y).
  Proof. unfold live_attestation_doc, post_boot_attestation. p_tac; first [apply p_env|apply p_geteph]. Qed.

  Lemma p_answer {A} (f : A -> msg) m s : pres m -> manifest_stays s -> manifest_stays (snd (answer Y f m s)).
  Proof. intros H S. specialize (H s S). unfold answer. destruct (m s) as [[a|e] s1]; exact H. Qed.
  Definition pres_h (h : handler Y) : Prop := forall r s, manifest_stays s -> manifest_stays (snd (h r s)).
  Lemma pres_routes p : Forall (fun rt => pres_h (r_handler Y rt)) (routes Y p).
  Proof.
    assert (H1 : pres_h (h_status Y)) by (intros r s S; destruct r; exact S).
    assert (H2 : pres_h (h_version Y)) by (intros r s S; destruct r; exact S).
    assert (H3 : pres_h (h_manifest_envelope Y)) by (intros r s S; destruct r; try exact S; apply p_answer; [apply p_ok_of, p_env|exact S]).
    assert (H4 : pres_h (h_live_attestation_doc Y)).
    { intros r s S; destruct r; try exact S. apply p_answer; [|exact S]. apply p_bind; [apply p_live|intros]. apply p_bind; [apply p_ok_of, p_env|intros; apply p_ret]. }
    assert (H5 : pres_h (h_boot_genesis Y)) by (intros r s S; destruct r; try exact S; apply p_answer; [apply p_genesis|exact S]).
    assert (H6 : pres_h (h_boot_standard Y)) by (intros r s S; destruct r; try exact S; (apply p_answer; [apply p_boot|exact S])).
    assert (H7 : pres_h (h_boot_key_forward Y)) by (intros r s S; destruct r; try exact S; (apply p_answer; [apply p_boot|exact S])).
    assert (H8 : pres_h (h_provision Y)) by (intros r s S; destruct r; try exact S; (apply p_answer; [apply p_provision|exact S])).
    assert (H9 : pres_h (h_export_key Y)) by (intros r s S; destruct r; try exact S; (apply p_answer; [apply p_export|exact S])).
    assert (H10 : pres_h (h_inject_key Y)) by (intros r s S; destruct r; try exact S; (apply p_answer; [apply p_inject|exact S])).
    destruct p; cbn [routes]; repeat (constructor; [assumption|]); constructor.
  Qed.
  Lemma handle_stays r s : manifest_stays s -> manifest_stays (snd (handle Y r s)).
  Proof.
    unfold handle. generalize (pres_routes (st_phase s)). generalize (routes Y (st_phase s)). intros l F. revert s.
    induction F as [|rt l H F IH]; intros s S; [exact S|]. cbn [try_routes].
    assert (X : manifest_stays (snd (try_msg Y rt r s))).
    { unfold try_msg. specialize (H r s S). destruct (r_handler Y rt r s) as [resp s1]. cbn [snd] in H.
      assert (TR : forall target, manifest_stays (snd (transition Y target s1))).
      { intros target. unfold transition. destruct (phase_eqb _ _); [exact H|]. destruct (memb _ _ _); (eapply stays_same; [exact H|reflexivity|reflexivity|reflexivity]). }
      destruct resp as [[m|m]|]; [|specialize (TR (r_err Y rt)); destruct (transition Y (r_err Y rt) s1) as [[u|e] s2]; exact TR|exact H].
      assert (G : manifest_stays (snd (match transition Y (r_ok Y rt) s1 with
                                       | (Ok _, s2) => (Some (Ok m), s2)
                                       | (Err e, s2) => (Some (Err (ProtocolErrorResponse e)), s2) end : option (result msg msg) * st))).
      { specialize (TR (r_ok Y rt)); destruct (transition Y (r_ok Y rt) s1) as [[u|e] s2]; exact TR. }
      destruct m; try exact G. destruct reconstructed; [exact G|exact H]. }
    destruct (try_msg Y rt r s) as [[[m|m]|] s1]; cbn [snd] in X; [exact X|exact X|apply IH; exact X].
  Qed.
  Lemma fop_tail (a b : list (entry Y)) : ForallOrdPairs after_it (a ++ b) -> ForallOrdPairs after_it b.
  Proof. induction a as [|x a IH]; [auto|]. intros F. inversion F; auto. Qed.
  Lemma reach_stays s : reach Y s -> manifest_stays s.
  Proof.
    induction 1 as [f n rc ic F0|s r R IH W|s newer x older rc ic R (_ & IH & _) T].
    - repeat split; constructor.
    - now apply handle_stays.
    - rewrite T in IH. apply fop_tail in IH. split; [|split; [exact IH|reflexivity]]. cbn [st_trace st_fs fresh].
      inversion IH; subst. constructor; [auto|assumption].
  Qed.
End Stays.

Section FP.
  Context {Y : sys} (OK : sys_ok Y).
  Local Notation st := (st Y).

  (** While the enclave waits for a forwarded key, every manifest it ever had on disk is the present one. *)
  Lemma handle_split r (s : st) : exists new, st_trace (snd (handle Y r s)) = new ++ st_trace s
    /\ (forall x, In x new -> may r (st_phase s) (st_fs s) (en_fs x)) /\ st_fs (snd (handle Y r s)) = newest (st_fs s) new.
  Proof. destruct (handle_may r s) as (new & T & F & E). exists new. rewrite Forall_forall in F. auto. Qed.
  Lemma forward_manifest s : reach Y s -> st_phase s = WaitingForForwardedKey ->
    forall x, In x (st_trace s) -> has_manifest (en_fs x) -> content (en_fs x) Manif = content (st_fs s) Manif.
  Proof.
    induction 1 as [f n rc ic F0|s r R IH W|s newer x older rc ic R IH T]; intros P; try discriminate P.
    intros x I Hx. destruct (handle_split r s) as (new & T & F & E).
    destruct (handle Y r s) as [a s'] eqn:HH. cbn [snd] in *.
    pose proof (handle_edge r s) as HE. rewrite HH in HE. cbn [snd] in HE.
    assert (R' : reach Y s') by (replace s' with (snd (handle Y r s)) by (now rewrite HH); now apply R_step).
    destruct HE as [HE|HE].
    - (* already waiting *)
      rewrite HE in P.
      destruct (expecting_reach OK s R P) as (e & setup & live & C & _). destruct (ex_env _ _ _ _ C) as (c0 & C0 & _).
      assert (M : forall f, may r (st_phase s) (st_fs s) f -> content f Manif = content (st_fs s) Manif).
      { intros f (_ & _ & [H|[(H & _)|(sh & ap & e1 & b & i & _ & H & _)]]); [exact H| |]; congruence. }
      assert (Fin : content (st_fs s') Manif = content (st_fs s) Manif).
      { rewrite E. destruct new as [|y new]; [reflexivity|]. cbn [newest]. apply M, F. now left. }
      rewrite Fin. rewrite T in I. apply in_app_or in I as [I|I]; [apply M, F, I|now apply IH].
    - (* just booted *)
      rewrite P in HE. inversion HE as [| |HE'| | | | |]. 
      assert (B : exists e pv, boot_of r = Some (e, pv) /\ is_error a = false).
      { destruct (handle_cases r s) as [[V H1]|[(V & _ & Q)|[(set & dr & -> & P')|[(e1 & pv & B & P')|[(sh & ap & -> & P')|(c & g & -> & P')]]]]]; try congruence.
        - exfalso. rewrite HH in Q. cbn [snd] in Q. rewrite (fx_phase _ _ _ Q) in P. congruence.
        - exfalso. rewrite (handle_genesis set dr s P') in HH. destruct (boot_genesis Y set dr s) as [[p|y] s1]; inversion HH; subst; discriminate P.
        - exists e1, pv. split; [exact B|]. rewrite (handle_boot r e1 pv s P' B) in HH.
          destruct (put_manifest_and_pivot Y e1 pv s) as [[p|y] s1]; inversion HH; subst; [|discriminate P].
          destruct r; try discriminate B; reflexivity. }
      destruct B as (e & pv & B & NE).
      destruct (c07_accepted_boot Y r e pv s a s' R W B HH NE) as (_ & _ & _ & ST & _ & _ & _ & _ & _ & MN).
      assert (We : wf_envelope e = true) by (destruct r; try discriminate B; inversion B; subst; exact W).
      destruct (envelope_storage e We) as (b & Sb & _).
      assert (M : forall f, may r (st_phase s) (st_fs s) f -> has_manifest f -> content f Manif = Some b).
      { intros f (_ & _ & [H|[(_ & e1 & pv1 & b1 & B1 & S1 & H)|(sh & ap & e1 & b1 & i & H & _)]]) Hf.
        - exfalso. apply Hf. congruence.
        - rewrite B in B1. inversion B1; subst. congruence.
        - subst r. discriminate B. }
      assert (Fin : content (st_fs s') Manif = Some b).
      { destruct new as [|y new]; cbn [newest] in E.
        - destruct ST as (c & C & _). rewrite E in C. congruence.
        - rewrite E. apply M; [apply F; now left|]. destruct ST as (c & C & _). rewrite E in C. unfold has_manifest. congruence. }
      rewrite Fin. rewrite T in I. apply in_app_or in I as [I|I]; [apply M; [apply F, I|exact Hx]|].
      exfalso. destruct (reach_stays s R) as (S1 & _). rewrite Forall_forall in S1. apply (S1 x I Hx). exact MN.
  Qed.
  Lemma head_in s : reach Y s -> content (st_fs s) Manif <> None -> exists x, In x (st_trace s) /\ en_fs x = st_fs s.
  Proof.
    intros R H. pose proof (reach_head s R) as Hd. destruct (st_trace s) as [|x t] eqn:T.
    - exfalso. apply H. unfold content. now rewrite (reach_empty s R T Manif).
    - exists x. split; [now left|now symmetry].
  Qed.

  (** A key that appears while a request is served is still there at its end, beside the same manifest. *)
  Lemma appears r (s : st) newer x mid : reach Y s -> wf_req r = true ->
    st_trace (snd (handle Y r s)) = newer ++ x :: mid ++ st_trace s -> content (en_fs x) Quorum <> None ->
    forall p, content (st_fs (snd (handle Y r s))) p = content (en_fs x) p.
  Proof.
    intros R W T Q. eapply (c05_all_files_frozen Y OK (snd (handle Y r s)) (x :: mid ++ st_trace s) (en_fs x) _ _ newer); [now apply R_step| | |exact T|exact Q].
    - econstructor. exact T.
    - constructor.
  Qed.
  Lemma kept r (s : st) : reach Y s -> wf_req r = true -> content (st_fs s) Quorum <> None ->
    forall p, content (st_fs (snd (handle Y r s))) p = content (st_fs s) p.
  Proof.
    intros R W Q p. change (snd (handle Y r s)) with (snd (handle Y r s)).
    pose proof (serve_frozen OK [r] s R) as S. rewrite serve_cons in S. cbn [serve snd] in S. apply S; [now constructor|].
    intros X. apply Q. unfold content. now rewrite X.
  Qed.

  (** Lineage survives more log. *)
  Lemma holds_more w log i m : holds_key Y log i m -> holds_key Y (w :: log) i m.
  Proof.
    intros H. destruct H as [newer u older m A B|newer u mid v older c g new cose old m A B C D E F G|newer u older c m A B].
    - apply (by_shares Y (w :: newer)); auto.
    - eapply (by_forwarding Y (w :: newer)); eauto.
    - eapply (by_outsider Y (w :: newer)); eauto.
  Qed.

  Definition grown (cl cl' : nat -> st) : Prop := forall i x, In x (st_trace (cl i)) -> In x (st_trace (cl' i)).
  Lemma grown_put cl i s' : (exists new, st_trace s' = new ++ st_trace (cl i)) -> grown cl (put Y cl i s').
  Proof.
    intros (new & T) j x I. unfold put. destruct (Nat.eqb j i) eqn:E; [|exact I]. apply Nat.eqb_eq in E. subst j.
    rewrite T. apply in_or_app. now right.
  Qed.
  Lemma own_back cl cl' : grown cl cl' -> own_keys Y cl' -> own_keys Y cl.
  Proof. intros G H i j x y ek I J. apply (H i j x y ek); apply G; assumption. Qed.
  Lemma collision_back log w : no_collision Y (w :: log) -> no_collision Y log.
  Proof. intros H m m' (u & I & S) (u' & I' & S'). apply H; [exists u|exists u']; split; auto; now right. Qed.

  (** An export in the log. *)
  Definition export_ok (cl : nat -> st) (v : served_one Y) (older : list (served_one Y)) : Prop :=
    forall c g, sv_reply v = Some (ExportKeyResponse c g) ->
    exists new cose d old ek sk seed rnd j,
      sv_request v = ExportKeyRequest new cose /\ stored (st_fs (sv_before v)) old
      /\ holds_key Y older (sv_who v) (env_manifest old)
      /\ may_receive Y old new d /\ ad_public_key d = Some (ek ++ sk) /\ length ek = 65%nat
      /\ s_encrypt Y ek rnd seed = Ok c /\ signed_for Y cl j cose d.
  Lemma export_grown cl cl' v older : grown cl cl' -> export_ok cl v older -> export_ok cl' v older.
  Proof.
    intros G H c g E. destruct (H c g E) as (new & cose & d & old & ek & sk & seed & rnd & j & A1 & A2 & A3 & A4 & A5 & A6 & A7 & x & I & X).
    exists new, cose, d, old, ek, sk, seed, rnd, j. repeat (split; [assumption|]). exists x. split; [now apply G|exact X].
  Qed.

  Record sound (cl : nat -> st) (log : list (served_one Y)) : Prop := Sound {
    so_reach : forall i, reach Y (cl i);
    so_key : forall i e, content (st_fs (cl i)) Quorum <> None -> stored (st_fs (cl i)) e -> holds_key Y log i (env_manifest e);
    so_export : forall newer v older, log = newer ++ v :: older -> export_ok cl v older
  }.

  Lemma restart_reach s rc ic : reach Y s -> reach Y (fresh Y (st_fs s) (st_nsm s) rc ic (st_trace s)).
  Proof.
    intros R. pose proof (reach_head s R) as Hd. pose proof (reach_empty s R) as He. destruct (reach_stays s R) as (_ & _ & N).
    destruct (st_trace s) as [|x t] eqn:T.
    - apply R_init. auto.
    - rewrite Hd, <- N. apply (R_crash Y s [] x t rc ic R T).
  Qed.

  Lemma export_request r (s : st) c g s' : handle Y r s = (ExportKeyResponse c g, s') -> exists new cose, r = ExportKeyRequest new cose.
  Proof.
    intros H. destruct (handle_cases r s) as [[V H1]|[(V & SV & Q)|[(set & dr & -> & P)|[(e & pv & B & P)|[(sh & ap & -> & P)|(c0 & g0 & -> & P)]]]]].
    - rewrite H1 in H. discriminate H.
    - destruct r; try discriminate V; [exfalso|exfalso|eauto|exfalso|exfalso]; cbn [served] in SV.
      + rewrite handle_status in H. discriminate H.
      + rewrite handle_live in H by (intros P; rewrite P in SV; discriminate SV). cbv zeta in H.
        match type of H with (as_msg _ (fst (?m s)), _) = _ => destruct (fst (m s)) end; discriminate H.
      + rewrite handle_manifest in H by (intros P; rewrite P in SV; discriminate SV).
        match type of H with (as_msg _ (fst (?m s)), _) = _ => destruct (fst (m s)) end; discriminate H.
      + rewrite handle_version in H. discriminate H.
    - rewrite (handle_genesis set dr s P) in H. destruct (boot_genesis Y set dr s) as [[p|y] s1]; discriminate H.
    - rewrite (handle_boot r e pv s P B) in H. destruct (put_manifest_and_pivot Y e pv s) as [[p|y] s1]; [|discriminate H].
      destruct r; try discriminate B; discriminate H.
    - rewrite (handle_provision sh ap s P) in H. destruct (provision Y sh ap s) as [[[]|y] s1]; discriminate H.
    - rewrite (handle_inject c0 g0 s P) in H. destruct (inject_key Y c0 g0 s) as [[[]|y] s1]; discriminate H.
  Qed.

  Definition exported_as (c : bytes) (v : served_one Y) : bool :=
    match sv_reply v with Some (ExportKeyResponse c' _) => bytes_eqb c' c | _ => false end.
  Lemma exported_as_iff c v : exported_as c v = true <-> exists g, sv_reply v = Some (ExportKeyResponse c g).
  Proof.
    unfold exported_as. destruct (sv_reply v) as [a|]; [|split; [discriminate|intros (g & H); discriminate H]].
    destruct a as [| | | | | | | | | | | | | | | |c' g'| | | | | | |]; (split; [intros H; try discriminate H|intros (g & H); try discriminate H]).
    - apply bytes_eqb_eq in H as ->. eauto.
    - assert (c' = c) as -> by congruence. apply bytes_eqb_refl.
  Qed.

  Lemma step_sound cl log i r t reply : only_addressee Y -> own_keys Y cl -> no_collision Y (Served i (cl i) r reply t :: log) ->
    sound cl log -> wf_req r = true -> hardware_honest Y cl r -> reach Y t ->
    (exists new, st_trace t = new ++ st_trace (cl i)) ->
    (forall c g, reply = Some (ExportKeyResponse c g) -> exists s', handle Y r (cl i) = (ExportKeyResponse c g, s')) ->
    (content (st_fs t) Quorum <> None -> forall p, content (st_fs (snd (handle Y r (cl i)))) p = content (st_fs t) p) ->
    (content (st_fs (cl i)) Quorum <> None -> forall p, content (st_fs t) p = content (st_fs (cl i)) p) ->
    sound (put Y cl i t) (Served i (cl i) r reply t :: log).
  Proof.
    intros AD OWN NC [SR SK SE] W HW Rt G RE QT QS.
    pose proof (grown_put cl i t G) as GR. pose proof (SR i) as R.
    constructor.
    - intros j. unfold put. destruct (Nat.eqb j i); auto.
    - intros j e Q ST. unfold put in Q, ST. destruct (Nat.eqb j i) eqn:Eji; [|apply holds_more; now apply SK].
      apply Nat.eqb_eq in Eji. subst j.
      destruct (content (st_fs (cl i)) Quorum) as [q0|] eqn:Q0.
      { apply holds_more. apply SK; [congruence|]. eapply stored_content; [|exact ST]. symmetry. apply QS. discriminate. }
      specialize (QT Q). pose proof (gx_may _ _ _ _ (handle_may r (cl i))) as MY.
      assert (OB : obtained Y (Served i (cl i) r reply t) (env_manifest e)).
      { split; [exact Q0|]. split; [exact Q|]. exists e. split; [exact ST|reflexivity]. }
      assert (KR : key_request (st_phase (cl i)) r).
      { destruct MY as (_ & [E|[_ K]] & _); [|exact K]. exfalso. apply Q. rewrite <- QT. now rewrite (content_eq _ _ _ E). }
      destruct KR as [(sh & a & -> & P)|(c & g & -> & P)].
      { apply (by_shares Y [] (Served i (cl i) (ProvisionRequest sh a) reply t) log); [reflexivity|exact OB]. }
      destruct (expecting_reach OK (cl i) R P) as (e0 & setup & live & C & _).
      assert (e = e0) as ->.
      { apply (stored_inj (st_fs (cl i))); [|apply (ex_env _ _ _ _ C)]. eapply stored_content; [|exact ST]. rewrite <- QT.
        destruct MY as (_ & _ & [E|[(E & _)|(sh & ap & e1 & b & k & _ & E & _)]]); [now symmetry| |congruence].
        destruct (ex_env _ _ _ _ C) as (c0 & C0 & _). congruence. }
      assert (FW : exists seed, forwarded Y e0 setup (InjectKeyRequest c g) /\ s_decrypt Y setup c = Ok seed
                /\ content (st_fs (snd (handle Y (InjectKeyRequest c g) (cl i)))) Quorum = Some (encode seed)).
      { rewrite (handle_inject c g (cl i) P) in *. destruct (inject_key Y c g (cl i)) as [r1 s1] eqn:E.
        assert (QT' : content (st_fs s1) Quorum <> None) by (rewrite <- QT in Q; destruct r1; exact Q).
        destruct (inject_facts c g (cl i) e0 setup live r1 s1 C E) as [[Qs _]|(seed & Fw & D & Qs & _)].
        - exfalso. apply QT'. unfold content. now rewrite Qs.
        - exists seed. split; [exact Fw|]. split; [exact D|]. destruct r1; exact Qs. }
      destruct FW as (seed & (c' & g' & seed' & ek & sk & EQ & QK & VF & DC & LS & PR) & D & Qs).
      assert (c' = c /\ g' = g) as [-> ->] by (split; congruence).
      assert (seed' = seed) as -> by congruence. clear D EQ.
      assert (SF : seed_for Y seed (ns_quorum_key (vm_namespace (env_manifest e0)))).
      { split; [exact LS|]. exists ek, sk. auto. }
      assert (OP : opened Y (Served i (cl i) (InjectKeyRequest c g) reply t) c (env_manifest e0)).
      { split; [exact OB|]. split; [exists g; reflexivity|]. exists setup, seed. split; [apply (ex_eph _ _ _ _ C)|].
        split; [exact DC|]. split; [exact SF|]. cbn [sv_after]. rewrite <- QT. exact Qs. }
      destruct (existsb (exported_as c) log) eqn:EX.
      2:{ apply (by_outsider Y [] (Served i (cl i) (InjectKeyRequest c g) reply t) log c (env_manifest e0) OP).
          intros v g0 Iv Ev. assert (existsb (exported_as c) log = true); [|congruence].
          apply existsb_exists. exists v. split; [exact Iv|]. apply exported_as_iff. eauto. }
      apply existsb_exists in EX as (v & Iv & Ev). apply exported_as_iff in Ev as (gv & Ev).
      apply in_split in Iv as (mid & older & L).
      destruct (SE mid v older L c gv Ev) as (new & cose & d & old & ek1 & sk1 & seed1 & rnd & k & V1 & V2 & V3 & V5 & V6 & V7 & V8 & (x & Ix & Ex)).
      destruct V5 as (M1 & M2 & M3 & M4 & M5 & M6 & M7 & M8 & M9 & (U1 & U2 & _) & _).
      destruct (c55_only_own_requests Y OK (cl k) x _ _ (SR k) Ix Ex eq_refl) as [(ex & cx & sx & ekx & skx & X1 & X2 & X3 & X4 & X5)|(o & X5 & _)].
      2:{ exfalso. unfold genesis_request in X5. rewrite V6 in X5. discriminate X5. }
      rewrite U1, U2, V6 in X5.
      assert (HX : manifest_hash Y (env_manifest new) = manifest_hash Y (env_manifest ex)) by congruence.
      assert (KX : ek1 ++ sk1 = ekx ++ skx) by congruence.
      destruct (ok_pair _ OK _ _ _ X4) as (Lx & _).
      apply app_inv_length in KX as [-> ->]; [|exact (eq_trans V7 (eq_sym Lx))].
      destruct (AD _ _ _ _ _ _ _ _ X4 V8 DC) as (sk2 & PS).
      destruct (head_in (cl i) R) as (h & Ih & Eh).
      { destruct (ex_env _ _ _ _ C) as (c0 & C0 & _). congruence. }
      assert (k = i).
      { apply (OWN k i x h ekx Ix Ih).
        - exists cx, sx, skx. auto.
        - rewrite Eh. exists (encode setup), setup, sk2. split; [apply (ex_eph _ _ _ _ C)|]. split; [|exact PS].
          apply seed_of_hex_encode, (ex_len _ _ _ _ C). }
      subst k.
      assert (ex = e0) as ->.
      { apply (stored_inj (en_fs x)); [exact X1|]. eapply stored_content; [|apply (ex_env _ _ _ _ C)].
        apply (forward_manifest (cl i) R P x Ix). destruct X1 as (c1 & C1 & _). unfold has_manifest. congruence. }
      assert (Inv : In v log) by (rewrite L; apply in_or_app; right; now left).
      set (w := Served i (cl i) (InjectKeyRequest c g) reply t) in *.
      assert (ShN : shown Y (w :: log) (env_manifest new)).
      { exists v. split; [now right|]. right. exists new, cose. auto. }
      assert (NM : env_manifest new = env_manifest e0).
      { apply NC; [exact ShN| |exact HX]. exists w. split; [now left|]. left. exists e0. split; [apply (ex_env _ _ _ _ C)|reflexivity]. }
      assert (SU : successor Y (env_manifest old) (env_manifest e0)).
      { rewrite <- NM. unfold successor. repeat (split; [assumption|]). split; [|eauto].
        destruct (N.eq_dec (ns_nonce (vm_namespace (env_manifest old))) (ns_nonce (vm_namespace (env_manifest new)))) as [E|E].
        - right. apply NC; [exact ShN| |exact (M8 E)]. exists v. split; [now right|]. left. exists old. split; [exact V2|reflexivity].
        - left. clear -M7 E. lia. }
      rewrite L.
      apply (by_forwarding Y [] w mid v older c gv new cose (env_manifest old) (env_manifest e0) OP V1 Ev); auto.
      exists old. auto.
    - intros newer v older L. destruct newer as [|w newer]; cbn [app] in L.
      2:{ apply (export_grown cl _ _ _ GR), (SE newer). congruence. }
      assert (v = Served i (cl i) r reply t /\ older = log) as [-> ->] by (split; congruence). clear L.
      intros c g E. cbn [sv_reply] in E. destruct (RE c g E) as (s' & H).
      destruct (export_request r (cl i) c g s' H) as (new & cose & ->).
      destruct (c19_export_conditions Y OK new cose (cl i) c g s' R H) as (P & ms & d & old & ek & sk & seed & rnd & E1 & E2 & E3 & E4 & E5 & E6 & E7 & E8 & E9 & E10 & E11).
      pose proof E4 as (_ & _ & _ & _ & _ & _ & _ & _ & _ & (_ & _ & P0 & P1 & P2 & P3) & _).
      destruct (HW new cose (ms / 1000) d eq_refl E2 P0 P1 P2 P3) as (j & x & Ix & Ex).
      exists new, cose, d, old, ek, sk, seed, rnd, j.
      repeat (split; [first [reflexivity|assumption]|]).
      split; [cbn [sv_who]; apply SK; [congruence|exact E3]|].
      repeat (split; [assumption|]).
      exists x. split; [now apply GR|exact Ex].
  Qed.
  Lemma fleet_sound cl log : only_addressee Y -> fleet Y cl log -> own_keys Y cl -> no_collision Y log -> sound cl log.
  Proof.
    intros AD F. induction F as [cl I|cl log i r a s' F IH W HW H|cl log i r newer x mid rc ic F IH W HW T s'|cl log i rc ic F IH]; intros OWN NC.
    - constructor.
      + intros i. destruct (I i) as (f & n & rc & ic & -> & F0). now apply R_init.
      + intros i e Q. destruct (I i) as (f & n & rc & ic & E & F0). rewrite E in Q. exfalso. apply Q. unfold content. cbn [fresh st_fs]. now rewrite F0.
      + intros newer v older L. destruct newer; discriminate L.
    - assert (ES : s' = snd (handle Y r (cl i))) by (now rewrite H).
      assert (G : exists new, st_trace s' = new ++ st_trace (cl i)).
      { rewrite ES. destruct (handle_may r (cl i)) as (new & T & _). eauto. }
      assert (OWN0 := own_back cl _ (grown_put cl i s' G) OWN).
      assert (NC0 := collision_back log _ NC).
      pose proof (IH OWN0 NC0) as S. pose proof (so_reach _ _ S i) as R.
      apply step_sound; auto.
      + rewrite ES. now apply R_step.
      + intros c g E. exists s'. congruence.
      + intros _ p. now rewrite ES.
      + rewrite ES. now apply kept.
    - assert (G : exists new, st_trace s' = new ++ st_trace (cl i)) by (exists (x :: mid); reflexivity).
      assert (OWN0 := own_back cl _ (grown_put cl i s' G) OWN).
      assert (NC0 := collision_back log _ NC).
      pose proof (IH OWN0 NC0) as S. pose proof (so_reach _ _ S i) as R.
      apply step_sound; auto.
      + unfold s'. eapply R_crash; [apply (R_step Y (cl i) r R W)|exact T].
      + intros c g E. discriminate E.
      + intros Q. cbn [s' fresh st_fs] in *. apply (appears r (cl i) newer x mid R W T Q).
      + intros Q p. cbn [s' fresh st_fs].
        destruct (head_in (cl i) R) as (h & Ih & Eh).
        { destruct (c04_installed_key_is_the_manifests Y OK (cl i) _ _ _ R (Mo_now Y (cl i)) (proj2_sig (match content (st_fs (cl i)) Quorum as o return o <> None -> {c | o = Some c} with Some c => fun _ => exist _ c eq_refl | None => fun h => match h eq_refl with end end Q))) as (sd & e & _ & (c & Cc & _) & _). congruence. }
        pose proof (reach_head (cl i) R) as Hd. destruct (st_trace (cl i)) as [|y older] eqn:Tc; [destruct Ih|].
        eapply (c05_all_files_frozen Y OK (snd (handle Y r (cl i))) (y :: older) (st_fs (cl i)) (x :: mid ++ y :: older) (en_fs x) (x :: mid)); [now apply R_step| | |reflexivity|exact Q].
        * rewrite Hd. apply (Mo_past Y _ (newer ++ x :: mid)). rewrite T. now rewrite <- app_assoc.
        * econstructor. exact T.
    - assert (G : exists new, st_trace (fresh Y (st_fs (cl i)) (st_nsm (cl i)) rc ic (st_trace (cl i))) = new ++ st_trace (cl i)) by (exists []; reflexivity).
      pose proof (grown_put cl i _ G) as GR.
      assert (OWN0 := own_back cl _ GR OWN).
      destruct (IH OWN0 NC) as [SR SK SE]. constructor.
      + intros j. unfold put. destruct (Nat.eqb j i); [now apply restart_reach|auto].
      + intros j e. unfold put. destruct (Nat.eqb j i) eqn:E; [|apply SK]. apply Nat.eqb_eq in E. subst j. cbn [fresh st_fs]. apply SK.
      + intros newer v older L. apply (export_grown cl _ _ _ GR). now apply (SE newer).
  Qed.
End FP.

(** ** C89.  In a fleet of enclaves, whatever requests their hosts send and
    whenever they crash, an enclave that has a quorum key got it from its own
    share holders, or from an enclave of the fleet that had it before and whose
    manifest its own may follow, or from someone outside the fleet who knew the key. *)
Theorem c89_every_key_has_a_lineage : forall Y, sys_ok Y -> only_addressee Y -> forall cl log,
  fleet Y cl log -> own_keys Y cl -> no_collision Y log ->
  forall i m, content (st_fs (cl i)) Quorum <> None -> manifest_on_disk (st_fs (cl i)) m -> holds_key Y log i m.
Proof.
  intros Y OK AD cl log F OWN NC i m Q (e & ST & <-). now apply (so_key _ _ (fleet_sound OK cl log AD F OWN NC)).
Qed.
Print Assumptions c89_every_key_has_a_lineage.

(** If nobody outside ever sealed the key for an enclave of the fleet, every
    enclave's key goes back, through approved manifests, to one that was
    provisioned by its share holders: under the same quorum key, namespace,
    manifest set and PCR3, and a nonce that is lower unless it is the same manifest. *)
Theorem c89_rooted_in_shares : forall Y, sys_ok Y -> only_addressee Y -> forall cl log,
  fleet Y cl log -> own_keys Y cl -> no_collision Y log -> no_outsider Y log ->
  forall i m, content (st_fs (cl i)) Quorum <> None -> manifest_on_disk (st_fs (cl i)) m ->
  exists w root, In w log /\ is_provision (sv_request w) = true /\ obtained Y w root
    /\ ns_quorum_key (vm_namespace m) = ns_quorum_key (vm_namespace root)
    /\ ns_name (vm_namespace m) = ns_name (vm_namespace root)
    /\ threshold (vm_manifest_set m) = threshold (vm_manifest_set root)
    /\ Permutation (members (vm_manifest_set m)) (members (vm_manifest_set root))
    /\ pcr3 (vm_enclave m) = pcr3 (vm_enclave root)
    /\ (ns_nonce (vm_namespace root) < ns_nonce (vm_namespace m) \/ m = root).
Proof.
  intros Y OK AD cl log F OWN NC NO i m Q D.
  pose proof (c89_every_key_has_a_lineage Y OK AD cl log F OWN NC i m Q D) as H. clear F OWN NC Q D cl.
  induction H as [newer w older m A B|newer w mid v older c g new cose old m A B C D E F G IH|newer w older c m A B].
  - exists w, m. split; [apply in_or_app; right; now left|]. repeat (split; [first [assumption|reflexivity|apply Permutation_refl]|]). now right.
  - destruct IH as (w0 & root & I0 & I1 & I2 & I3 & I4 & I5 & I6 & I7 & I8).
    { intros n2 u o2 c2 m2 L2 O2. apply (NO (newer ++ w :: mid ++ v :: n2) u o2 c2 m2); [|exact O2]. rewrite L2.
      rewrite <- app_assoc. cbn [app]. now rewrite <- app_assoc. }
    exists w0, root. destruct E as (E1 & E2 & E3 & E4 & E5 & E6 & _).
    split; [apply in_or_app; right; right; apply in_or_app; right; now right|].
    split; [exact I1|]. split; [exact I2|]. split; [congruence|]. split; [congruence|]. split; [congruence|].
    split; [now transitivity (members (vm_manifest_set old))|]. split; [congruence|].
    destruct E6 as [E6| ->]; [|exact I8]. left. destruct I8 as [I8| ->]; [|exact E6]. clear -E6 I8. lia.
  - exfalso. destruct (NO newer w older c m eq_refl A) as (v & g & I & E). exact (B v g I E).
Qed.
Print Assumptions c89_rooted_in_shares.

(** *** A fleet in which enclave 0 is provisioned by two share holders and forwards its key to enclave 1. *)
Definition f_manifest (nonce : N) : manifest :=
  Manifest (Namespace (bs "ns") nonce (pub_of seed_q)) (PivotConfig (toy_hash 32 pivot) Never [] false [])
    (MemberSet 1 [carol]) sset ex_nitro ex_ps.
Definition f_env (m : manifest) : versioned_envelope :=
  VE1 (ManifestEnvelope m [Approval (toy_sign seed_c (manifest_hash T (VM1 m))) carol] []).
Definition f_m0 : manifest := f_manifest 7.
Definition f_m1 : manifest := f_manifest 8.
Definition f_prov (share : bytes) (seed : bytes) (who : quorum_member) : msg :=
  ProvisionRequest share (Approval (toy_sign seed (manifest_hash T (VM1 f_m0))) who).
Definition f_boot := BootStandardRequest (f_env f_m0) pivot.
Definition f_prov1 := f_prov (share1 0) seed_a alice.
Definition f_prov2 := f_prov (share2 0) seed_b bob.
Definition f_boot1 := BootKeyForwardRequest (f_env f_m1) pivot.
Definition f_start : nat -> st T := fun i => match i with O => start calm 0 | 1%nat => start2 | _ => fresh T no_files toy_nsm0 0 0 [] end.
Definition f_s1 := snd (handle T f_boot (start calm 0)).
Definition f_s2 := snd (handle T f_prov1 f_s1).
Definition f_s3 := snd (handle T f_prov2 f_s2).
Definition f_t1 := snd (handle T f_boot1 start2).
Definition f_b1 := fst (handle T f_boot1 start2).
Definition f_doc := doc_in f_b1.
Definition f_export := ExportKeyRequest (f_env f_m1) f_doc.
Definition f_s4 := snd (handle T f_export f_s3).
Definition f_a1 := fst (handle T f_boot (start calm 0)).
Definition f_a2 := fst (handle T f_prov1 f_s1).
Definition f_a3 := fst (handle T f_prov2 f_s2).
Definition f_a4 := fst (handle T f_export f_s3).
Definition f_inject := InjectKeyRequest (fst (sealed_in f_a4)) (snd (sealed_in f_a4)).
Definition f_t2 := snd (handle T f_inject f_t1).
Definition f_b2 := fst (handle T f_inject f_t1).
Definition f_log : list (served_one T) :=
  [Served 1 f_t1 f_inject (Some f_b2) f_t2; Served 0 f_s3 f_export (Some f_a4) f_s4; Served 1 start2 f_boot1 (Some f_b1) f_t1;
   Served 0 f_s2 f_prov2 (Some f_a3) f_s3; Served 0 f_s1 f_prov1 (Some f_a2) f_s2; Served 0 (start calm 0) f_boot (Some f_a1) f_s1].
Definition f_cl0 : nat -> st T := put T (put T (put T (put T f_start 0 f_s1) 0 f_s2) 0 f_s3) 1 f_t1.
Definition f_cl : nat -> st T := put T (put T f_cl0 0 f_s4) 1 f_t2.

Lemma toy_addressee : only_addressee T.
Proof.
  intros seed0 ek sk0 rnd m c seed m' P E D. cbn [toy s_pair s_encrypt s_decrypt] in *.
  apply toy_pair_inv in P as (L & -> & _). unfold toy_encrypt in E. rewrite seed_in_ok in E by exact L.
  assert (c = seed0 ++ m) as -> by congruence. unfold toy_decrypt in D.
  destruct (bytes_eqb (firstn 32 (seed0 ++ m)) seed) eqn:B; [|discriminate D]. apply bytes_eqb_eq in B.
  rewrite firstn_app, L, Nat.sub_diag, firstn_O, app_nil_r, firstn_all2 in B by (now rewrite L). subst seed.
  exists (x04 :: seed0 ++ repeat x01 32). unfold toy_pair. rewrite L. reflexivity.
Qed.
Lemma fleet_step (Y : sys) cl log i r s a s' : cl i = s -> a = fst (handle Y r s) -> s' = snd (handle Y r s) ->
  wf_req r = true -> hardware_honest Y cl r -> fleet Y cl log -> fleet Y (put Y cl i s') (Served i s r (Some a) s' :: log).
Proof. intros <- -> -> W H F. apply F_step; auto. apply surjective_pairing. Qed.
Lemma exp_inj a b c d : ExportKeyRequest a b = ExportKeyRequest c d -> a = c /\ b = d.
Proof. intros H. injection H. auto. Qed.
Lemma inj_inj a b c d : InjectKeyRequest a b = InjectKeyRequest c d -> a = c /\ b = d.
Proof. intros H. injection H. auto. Qed.
Lemma some_inj {A} (a b : A) : Some a = Some b -> a = b.
Proof. intros H. injection H. auto. Qed.
Lemma cons_inj {A} (a b : A) l m : a :: l = b :: m -> a = b /\ l = m.
Proof. intros H. injection H. auto. Qed.
Lemma f_document : match toy_doc f_doc, st_trace f_t1 with
  | Some d, x :: _ => en_ev x = EvNsm (Attestation (ad_user_data d) (ad_nonce d) (ad_public_key d)) (RAttestation f_doc)
  | _, _ => False end.
Proof. vm_compute. reflexivity. Qed.
Lemma f_fleet : fleet T f_cl f_log.
Proof.
  assert (N : forall cl r, (forall new cose, r <> ExportKeyRequest new cose) -> hardware_honest T cl r).
  { intros cl r H new cose t d E. destruct (H _ _ E). }
  unfold f_cl, f_log.
  apply (fleet_step T (put T f_cl0 0 f_s4) _ 1 f_inject f_t1 f_b2 f_t2); [reflexivity|unfold f_b2; reflexivity|unfold f_t2; reflexivity|reflexivity|apply N; discriminate|].
  apply (fleet_step T f_cl0 _ 0 f_export f_s3 f_a4 f_s4); [reflexivity|unfold f_a4; reflexivity|unfold f_s4; reflexivity|vm_compute; reflexivity| |].
  { intros new cose t d E (D & _) _ _ _ _ _. exists 1%nat. unfold f_export in E. apply exp_inj in E as [_ <-].
    change (toy_doc f_doc = Some d) in D. pose proof f_document as X. rewrite D in X. unfold signed_for. change (f_cl0 1) with f_t1.
    destruct (st_trace f_t1) as [|x tr]; [destruct X|]. exists x. split; [now left|exact X]. }
  unfold f_cl0.
  apply (fleet_step T (put T (put T (put T f_start 0 f_s1) 0 f_s2) 0 f_s3) _ 1 f_boot1 start2 f_b1 f_t1); [reflexivity|unfold f_b1; reflexivity|unfold f_t1; reflexivity|vm_compute; reflexivity|apply N; discriminate|].
  apply (fleet_step T (put T (put T f_start 0 f_s1) 0 f_s2) _ 0 f_prov2 f_s2 f_a3 f_s3); [reflexivity|unfold f_a3; reflexivity|unfold f_s3; reflexivity|vm_compute; reflexivity|apply N; discriminate|].
  apply (fleet_step T (put T f_start 0 f_s1) _ 0 f_prov1 f_s1 f_a2 f_s2); [reflexivity|unfold f_a2; reflexivity|unfold f_s2; reflexivity|vm_compute; reflexivity|apply N; discriminate|].
  apply (fleet_step T f_start _ 0 f_boot (start calm 0) f_a1 f_s1); [reflexivity|unfold f_a1; reflexivity|unfold f_s1; reflexivity|vm_compute; reflexivity|apply N; discriminate|].
  apply F_init. intros i. destruct i as [|[|i]]; eexists no_files, toy_nsm0, _, _; (split; [reflexivity|reflexivity]).
Qed.

(** The encryption keys each enclave ever had on disk. *)
Definition disk_ek (f : fsys) : option bytes :=
  match content f Eph with
  | Some c => match seed_of_hex c with Some seed => option_map fst (toy_pair seed) | None => None end
  | None => None end.
Lemma disk_ek_ok f ek : key_on_disk T f ek -> disk_ek f = Some ek.
Proof. intros (c & seed & sk & A & B & C). unfold disk_ek. rewrite A, B. cbn [T toy s_pair] in C. now rewrite C. Qed.
Definition ek_of (n : N) : bytes := x04 :: toy_hash 32 (le_enc 8 n) ++ repeat x00 32.
Definition eks (a b : N) (tr : list (entry T)) : bool :=
  forallb (fun x => match disk_ek (en_fs x) with Some ek => bytes_eqb ek (ek_of a) || bytes_eqb ek (ek_of b) | None => true end) tr.
Lemma eks_ok a b tr x ek : eks a b tr = true -> In x tr -> key_on_disk T (en_fs x) ek -> ek = ek_of a \/ ek = ek_of b.
Proof.
  unfold eks. intros H I K. rewrite forallb_forall in H. specialize (H x I). rewrite (disk_ek_ok _ _ K) in H.
  apply orb_true_iff in H as [H|H]; apply bytes_eqb_eq in H; auto.
Qed.
Lemma f_eks0 : eks 0 1 (st_trace f_s4) = true. Proof. vm_cast_no_check (eq_refl true). Qed.
Lemma f_eks1 : eks 100 101 (st_trace f_t2) = true. Proof. vm_cast_no_check (eq_refl true). Qed.
Lemma apart (k a b c d : bytes) : a <> c -> a <> d -> b <> c -> b <> d -> k = a \/ k = b -> k = c \/ k = d -> False.
Proof. intros H1 H2 H3 H4 [->| ->] [E|E]; auto. Qed.
Lemma f_own : own_keys T f_cl.
Proof.
  assert (D : forall a b, bytes_eqb (ek_of a) (ek_of b) = false -> ek_of a <> ek_of b).
  { intros a b H E. rewrite E, bytes_eqb_refl in H. discriminate H. }
  assert (D1 : ek_of 0 <> ek_of 100) by (apply D; vm_compute; reflexivity).
  assert (D2 : ek_of 0 <> ek_of 101) by (apply D; vm_compute; reflexivity).
  assert (D3 : ek_of 1 <> ek_of 100) by (apply D; vm_compute; reflexivity).
  assert (D4 : ek_of 1 <> ek_of 101) by (apply D; vm_compute; reflexivity).
  assert (E0 : f_cl 0 = f_s4) by reflexivity. assert (E1 : f_cl 1 = f_t2) by reflexivity.
  assert (E2 : forall i, st_trace (f_cl (S (S i))) = []) by (intros i; reflexivity).
  intros i j x y ek I J Kx Ky.
  destruct i as [|[|i]]; [rewrite E0 in I|rewrite E1 in I|rewrite E2 in I; destruct I];
    (destruct j as [|[|j]]; [rewrite E0 in J|rewrite E1 in J|rewrite E2 in J; destruct J]); try reflexivity; exfalso.
  - pose proof (eks_ok 0 1 (st_trace f_s4) x ek f_eks0 I Kx) as A. pose proof (eks_ok 100 101 (st_trace f_t2) y ek f_eks1 J Ky) as B.
    exact (apart ek _ _ _ _ D1 D2 D3 D4 A B).
  - pose proof (eks_ok 0 1 (st_trace f_s4) y ek f_eks0 J Ky) as A. pose proof (eks_ok 100 101 (st_trace f_t2) x ek f_eks1 I Kx) as B.
    exact (apart ek _ _ _ _ D1 D2 D3 D4 A B).
Qed.

Definition f_disk (f : fsys) : option versioned_manifest :=
  match content f Manif with Some c => option_map env_manifest (envelope_try_from_slice_compat c) | None => None end.
Lemma f_disk_iff f m : f_disk f = Some m <-> manifest_on_disk f m.
Proof.
  unfold f_disk, manifest_on_disk, stored. split.
  - destruct (content f Manif) as [c|]; [|discriminate]. destruct (envelope_try_from_slice_compat c) as [e|] eqn:E; [|discriminate].
    cbn. intros H. exists e. split; [|congruence]. exists c. auto.
  - intros (e & (c & -> & ->) & <-). reflexivity.
Qed.
Lemma f_disks : map (fun w => f_disk (st_fs (sv_before w))) f_log
  = [Some (VM1 f_m1); Some (VM1 f_m0); None; Some (VM1 f_m0); Some (VM1 f_m0); None].
Proof. vm_cast_no_check (eq_refl [Some (VM1 f_m1); Some (VM1 f_m0); None; Some (VM1 f_m0); Some (VM1 f_m0); None]). Qed.
Lemma f_collision : no_collision T f_log.
Proof.
  assert (S : forall m, shown T f_log m -> m = VM1 f_m0 \/ m = VM1 f_m1).
  { intros m (w & I & [D|(new & cose & E & <-)]).
    - apply f_disk_iff in D. apply (in_map (fun w => f_disk (st_fs (sv_before w)))) in I. rewrite f_disks in I. cbv beta in I. rewrite D in I.
      cbn [In] in I. destruct I as [I|[I|[I|[I|[I|[I|[]]]]]]]; try discriminate I; apply some_inj in I; subst m; auto.
    - unfold f_log in I. cbn [In] in I.
      destruct I as [<-|[<-|[<-|[<-|[<-|[<-|[]]]]]]]; cbn [sv_request] in E.
      + discriminate E.
      + right. unfold f_export in E. apply exp_inj in E as [<- _]. reflexivity.
      + discriminate E.
      + discriminate E.
      + discriminate E.
      + discriminate E. }
  assert (D : manifest_hash T (VM1 f_m0) <> manifest_hash T (VM1 f_m1)).
  { assert (B : bytes_eqb (manifest_hash T (VM1 f_m0)) (manifest_hash T (VM1 f_m1)) = false) by (vm_compute; reflexivity).
    intros E. rewrite E, bytes_eqb_refl in B. discriminate B. }
  intros m m' H H' E. destruct (S m H) as [-> | ->], (S m' H') as [-> | ->]; [reflexivity|destruct (D E)|destruct (D (eq_sym E))|reflexivity].
Qed.
Lemma f_exported : f_a4 = ExportKeyResponse (fst (sealed_in f_a4)) (snd (sealed_in f_a4)).
Proof. vm_cast_no_check (eq_refl f_a4). Qed.
Lemma f_no_outsider : no_outsider T f_log.
Proof.
  intros newer w older c m L (_ & (g & R) & _). unfold f_log in L.
  destruct newer as [|u newer]; cbn [app] in L; apply cons_inj in L as [L1 L2].
  { subst w. cbn [sv_request] in R. unfold f_inject in R. apply inj_inj in R as [<- _].
    exists (Served 0 f_s3 f_export (Some f_a4) f_s4), (snd (sealed_in f_a4)). split; [subst older; now left|].
    cbn [sv_reply]. exact (f_equal Some f_exported). }
  exfalso. clear L1. destruct newer as [|u1 newer]; cbn [app] in L2; apply cons_inj in L2 as [L1 L2]; [subst w; discriminate R|].
  clear L1. destruct newer as [|u2 newer]; cbn [app] in L2; apply cons_inj in L2 as [L1 L2]; [subst w; discriminate R|].
  clear L1. destruct newer as [|u3 newer]; cbn [app] in L2; apply cons_inj in L2 as [L1 L2]; [subst w; discriminate R|].
  clear L1. destruct newer as [|u4 newer]; cbn [app] in L2; apply cons_inj in L2 as [L1 L2]; [subst w; discriminate R|].
  clear L1. destruct newer as [|u5 newer]; cbn [app] in L2; apply cons_inj in L2 as [L1 L2]; [subst w; discriminate R|].
  destruct newer; discriminate L2.
Qed.
(** Enclave 1 holds, under the newer manifest, the key that enclave 0's share holders brought. *)
Example c89_nontrivial : sys_ok T /\ only_addressee T /\ fleet T f_cl f_log /\ own_keys T f_cl /\ no_collision T f_log /\ no_outsider T f_log
  /\ content (st_fs (f_cl 1)) Quorum = Some (encode seed_q) /\ manifest_on_disk (st_fs (f_cl 1)) (VM1 f_m1) /\ f_m1 <> f_m0
  /\ content (st_fs (f_cl 0)) Quorum = Some (encode seed_q) /\ content (st_fs (f_cl 2)) Quorum = None.
Proof.
  split; [exact T_ok|]. split; [exact toy_addressee|]. split; [exact f_fleet|]. split; [exact f_own|]. split; [exact f_collision|].
  split; [exact f_no_outsider|]. split; [vm_compute; reflexivity|]. split; [apply f_disk_iff; vm_compute; reflexivity|].
  split; [intros E; apply (f_equal (fun m => ns_nonce (mf_namespace m))) in E; discriminate E|].
  split; [vm_compute; reflexivity|reflexivity].
Qed.
