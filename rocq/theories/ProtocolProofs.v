(** Property-level lemmas about single requests and sequences of requests. *)
From Coq Require Import ZifyBool ZifyN ZifyNat Relations.
From Verif Require Import Base Utf8 Hex HexProofs Types Json TypesJson StorageProofs Msg World Run FsProofs Attest Services
  ServiceProofs BootProofs State SpecProtocol HandleProofs Reach Invariant.
Local Open Scope N_scope.
Local Open Scope m_scope.

Section PP.
  Context {Y : sys}.
  Local Notation st := (st Y).
  Local Notation entry := (entry Y).

  (** *** serve *)
  Lemma serve_cons r rs (s : st) :
    serve Y (r :: rs) s = (fst (handle Y r s) :: fst (serve Y rs (snd (handle Y r s))), snd (serve Y rs (snd (handle Y r s)))).
  Proof.
    cbn [serve]. destruct (handle Y r s) as [a s1]. cbn [fst snd]. destruct (serve Y rs s1). reflexivity.
  Qed.
  Lemma serve_invariant (P : st -> Prop) : (forall r s, P s -> P (snd (handle Y r s))) ->
    forall rs s, P s -> P (snd (serve Y rs s)).
  Proof.
    intros H rs. induction rs as [|r rs IH]; intros s Hs; [exact Hs|]. rewrite serve_cons. cbn [snd]. auto.
  Qed.

  (** *** C01 *)
  Lemma handle_edge r (s : st) :
    st_phase (snd (handle Y r s)) = st_phase s \/ edge (st_phase s) (st_phase (snd (handle Y r s))).
  Proof.
    destruct (handle_cases r s) as [[_ H]|[(_ & _ & Q)|[(set & dr & -> & P)|[(e & pv & B & P)|[(sh & a & -> & P)|(c & g & -> & P)]]]]].
    - left. now rewrite H.
    - left. apply (fx_phase _ _ _ Q).
    - right. rewrite (handle_genesis set dr s P), P. destruct (boot_genesis Y set dr s) as [[p|x] s1]; constructor.
    - right. rewrite (handle_boot r e pv s P B), P. destruct (put_manifest_and_pivot Y e pv s) as [[n|x] s1]; cbn.
      + destruct r; try discriminate B; constructor.
      + constructor.
    - rewrite (handle_provision sh a s P). destruct (provision Y sh a s) as [[[]|x] s1] eqn:E; rewrite P; cbn.
      + right. constructor.
      + left. apply provision_spec in E as [E _]. congruence.
      + right. constructor.
    - right. rewrite (handle_inject c g s P), P. destruct (inject_key Y c g s) as [[[]|x] s1]; constructor.
  Qed.
  Lemma terminal_no_edge p q : terminal p -> ~ edge p q.
  Proof. intros [->|[->| ->]] H; inversion H. Qed.
  Lemma serve_terminal rs (s : st) : terminal (st_phase s) -> st_phase (snd (serve Y rs s)) = st_phase s.
  Proof.
    intros T. apply (serve_invariant (fun s' => st_phase s' = st_phase s)); [|reflexivity].
    intros r s' H. destruct (handle_edge r s') as [->|E]; [exact H|].
    exfalso. rewrite H in E. eapply terminal_no_edge; eauto.
  Qed.
  Lemma serve_path rs (s : st) : clos_refl_trans phase edge (st_phase s) (st_phase (snd (serve Y rs s))).
  Proof.
    apply (serve_invariant (fun s' => clos_refl_trans phase edge (st_phase s) (st_phase s'))); [|apply rt_refl].
    intros r s' H. destruct (handle_edge r s') as [->|E]; [exact H|]. eapply rt_trans; [exact H|now apply rt_step].
  Qed.

  (** *** C02: services never produce a routing error *)
  Definition not_route (e : perr) : Prop := forall p, e <> NoMatchingRoute p.
  Definition clean {A} (m : M Y A) : Prop := forall s e s', m s = (Err e, s') -> not_route e.
  Definition clean_r {A} (r : result perr A) : Prop := forall e, r = Err e -> not_route e.
  Lemma cl_bind {A B} (m : M Y A) (f : A -> M Y B) : clean m -> (forall a, clean (f a)) -> clean (bind m f).
  Proof.
    intros H K s e s' E. unfold bind in E. destruct (m s) as [[a|x] s1] eqn:Em; [eapply K; eauto|].
    inversion E; subst. eapply H; eauto.
  Qed.
  Lemma cl_ret {A} (a : A) : clean (ret a). Proof. intros s e s' E. discriminate E. Qed.
  Lemma cl_gets {A} (f : st -> A) : clean (gets f). Proof. intros s e s' E. discriminate E. Qed.
  Lemma cl_modify f : @clean unit (modify f). Proof. intros s e s' E. discriminate E. Qed.
  Lemma cl_err {A} e : not_route e -> @clean A (err e). Proof. intros H s x s' E. inversion E; subst; auto. Qed.
  Lemma cl_lift {A} (r : result perr A) : clean_r r -> clean (lift r).
  Proof. intros H s x s' E. inversion E; subst. now apply H. Qed.
  Lemma cl_guard b e : not_route e -> clean (guard b e).
  Proof. intros H. unfold guard. destruct b; [apply cl_ret|now apply cl_err]. Qed.
  Lemma cl_map {E A} (f : E -> perr) (r : result E A) : (forall e, not_route (f e)) -> clean_r (rmap_err f r).
  Proof. intros H e. destruct r; cbn; intros E0; inversion E0; subst. apply H. Qed.
  Lemma cl_read p : clean (op_read Y p). Proof. intros s e s'. unfold op_read. destruct (s_io Y (st_ioc s)); discriminate. Qed.
  Lemma cl_write p d : clean (op_write Y p d).
  Proof. intros s e s'. unfold op_write. destruct (s_io Y (st_ioc s)); discriminate. Qed.
  Lemma cl_rename a b : clean (op_rename Y a b).
  Proof. intros s e s'. unfold op_rename. destruct (s_io Y (st_ioc s)), (st_fs s a); discriminate. Qed.
  Lemma cl_chmod p m : clean (op_chmod Y p m).
  Proof. intros s e s'. unfold op_chmod. destruct (s_io Y (st_ioc s)), (st_fs s p) as [[? ?]|]; discriminate. Qed.
  Lemma cl_remove p : clean (op_remove Y p).
  Proof. intros s e s'. unfold op_remove. destruct (s_io Y (st_ioc s)), (st_fs s p); discriminate. Qed.
  Lemma cl_nsm r : clean (op_nsm Y r).
  Proof. intros s e s'. unfold op_nsm. destruct (s_nsm_step Y (st_nsm s) r); discriminate. Qed.
  Lemma cl_time : clean (op_time Y).
  Proof. intros s e s'. unfold op_time. destruct (s_nsm_time Y (st_nsm s)); discriminate. Qed.
  Lemma cl_rand : clean (op_rand Y). Proof. intros s e s'. discriminate. Qed.
  Lemma cl_ok_of {A} (m : M Y A) : clean (ok_of Y m).
  Proof. intros s e s'. unfold ok_of. destruct (m s) as [[?|?] ?]; discriminate. Qed.
  Lemma cl_catch {A} (m : M Y A) : clean (catch Y m).
  Proof. intros s e s'. unfold catch. destruct (m s); discriminate. Qed.
  Lemma clr_bind {A B} (r : result perr A) (f : A -> result perr B) : clean_r r -> (forall a, clean_r (f a)) -> clean_r (rbind r f).
  Proof. intros H K e. destruct r; cbn; intros E; [eapply K; eauto|]. inversion E; subst. now apply H. Qed.
  Lemma clr_ok {A} (a : A) : @clean_r A (Ok a). Proof. intros e E. discriminate E. Qed.
  Lemma clr_err {A} x : not_route x -> @clean_r A (Err x). Proof. intros H e E. inversion E; subst. auto. Qed.

  Ltac nr := let p := fresh in intros p; discriminate.
  Lemma clr_unique ms : forall al sg en, clean_r (unique_members Y al sg en ms).
  Proof.
    induction ms as [|m ms IH]; intros; cbn [unique_members]; [apply clr_ok|].
    destruct (public_from_bytes Y (m_pub_key m)) as [[? ?]|]; [|apply clr_err; nr].
    destruct (memb bytes_eqb (m_alias m) al || memb bytes_eqb b0 sg || memb bytes_eqb b en); [apply clr_err; nr|apply IH].
  Qed.
  Lemma clr_each ms mh l : forall seen, clean_r (check_each Y ms mh seen l).
  Proof.
    induction l as [|a l IH]; intros; cbn [check_each]; [apply clr_ok|].
    destruct (public_from_bytes Y (m_pub_key (ap_member a))) as [[? ?]|]; [|apply clr_err; nr].
    destruct (negb (s_verify Y b0 mh (ap_signature a))); [apply clr_err; nr|].
    destruct (negb (memb member_eqb (ap_member a) ms)); [apply clr_err; nr|].
    cbv zeta. destruct (memb bytes_eqb (member_hash Y (ap_member a)) seen); [apply clr_err; nr|apply IH].
  Qed.
  Lemma clr_check e : clean_r (check_approvals Y e).
  Proof.
    unfold check_approvals. apply clr_bind; [apply clr_unique|]. intros _.
    apply clr_bind; [apply clr_each|]. intros seen.
    destruct (lenN seen <? _); [apply clr_err; nr|apply clr_ok].
  Qed.
  Lemma clr_approval a m : clean_r (approval_verify Y a m).
  Proof.
    unfold approval_verify. destruct (public_from_bytes Y (m_pub_key (ap_member a))) as [[? ?]|]; [|apply clr_err; nr].
    destruct (s_verify Y b0 m (ap_signature a)); [apply clr_ok|apply clr_err; nr].
  Qed.
  Lemma cl_take : clean (take_pending Y).
  Proof. intros s e s'. unfold take_pending. destruct (st_pending s); intros E; inversion E; subst. nr. Qed.

  Ltac clean_step :=
    first [ progress intros
          | apply cl_ret | apply cl_gets | apply cl_modify | apply cl_read | apply cl_write | apply cl_rename | apply cl_chmod
          | apply cl_remove | apply cl_nsm | apply cl_time | apply cl_rand | apply cl_take | apply cl_ok_of | apply cl_catch
          | apply cl_bind
          | apply cl_err; nr
          | apply cl_guard; nr
          | apply cl_lift; first [apply clr_check | apply clr_approval | apply clr_unique | apply cl_map; intros ?; nr]
          | match goal with |- clean (match ?x with _ => _ end) => destruct x end
          | match goal with |- clean (let x := _ in _) => cbv zeta end ].
  Lemma cl_hex p : clean (pair_from_hex_file Y p). Proof. unfold pair_from_hex_file. repeat clean_step. Qed.
  Lemma cl_get_eph : clean (get_ephemeral_key Y).
  Proof. unfold get_ephemeral_key. apply cl_bind; [apply cl_hex|]. repeat clean_step. Qed.
  Lemma cl_get_quorum : clean (get_quorum_key Y).
  Proof. unfold get_quorum_key. apply cl_bind; [apply cl_hex|]. repeat clean_step. Qed.
  Lemma cl_get_manifest : clean (get_manifest_envelope Y).
  Proof. unfold get_manifest_envelope. repeat clean_step. Qed.
  Lemma cl_war f b e : not_route e -> clean (write_as_read_only Y f b e).
  Proof. intros H. unfold write_as_read_only, op_exists. repeat first [apply cl_guard; exact H | clean_step]. Qed.
  Lemma cl_generate : clean (pair_generate Y). Proof. unfold pair_generate. repeat clean_step. Qed.
  Lemma cl_describe : clean (describe_nsm Y). Proof. unfold describe_nsm. repeat clean_step. Qed.
  Lemma cl_pcr i : clean (describe_pcr Y i). Proof. unfold describe_pcr. repeat clean_step. Qed.
  Lemma cl_extend k m l a b : clean (extend_commitment Y k m l a b).
  Proof. unfold extend_commitment. repeat first [apply cl_pcr | clean_step]. Qed.
  Lemma cl_lock a b c : clean (lock_manifest_commitment_pcr_bank Y a b c).
  Proof.
    unfold lock_manifest_commitment_pcr_bank, verify_locked.
    repeat first [apply cl_pcr | apply cl_describe | apply cl_extend | clean_step].
  Qed.
  Lemma cl_boot e pv : clean (put_manifest_and_pivot Y e pv).
  Proof.
    unfold put_manifest_and_pivot, put_ephemeral_key, put_pivot, put_manifest_envelope, post_boot_attestation, op_exists.
    repeat first [ apply cl_generate | apply cl_lock | apply cl_war; nr | clean_step].
  Qed.
  Lemma cl_rotate s : clean (rotate_ephemeral_key Y s).
  Proof. unfold rotate_ephemeral_key, op_exists. repeat first [apply cl_war; nr | clean_step]. Qed.
  Lemma cl_provision sh a : clean (provision Y sh a).
  Proof.
    unfold provision, mutate_manifest_envelope, add_share, build_secret, put_quorum_key.
    repeat first [ apply cl_get_manifest | apply cl_get_eph | apply cl_rotate | apply cl_war; nr | clean_step].
  Qed.
  Lemma cl_inject c g : clean (inject_key Y c g).
  Proof.
    unfold inject_key, put_quorum_key.
    repeat first [ apply cl_get_manifest | apply cl_get_eph | apply cl_rotate | apply cl_war; nr | clean_step].
  Qed.
  Lemma cl_encrypt l : clean (encrypt_shares Y l).
  Proof. induction l as [|[? ?] l IH]; cbn [encrypt_shares]; repeat first [apply IH | clean_step]. Qed.
  Lemma catch_inv {A} (m : M Y A) s r s' : catch Y m s = (Ok r, s') -> m s = (r, s').
  Proof. unfold catch. destruct (m s). intros E; inversion E; subst; reflexivity. Qed.
  Lemma cl_catch_bind {A B} (m : M Y A) (f : result perr A -> M Y B) :
    clean m -> (forall r, clean_r r -> clean (f r)) -> clean (bind (catch Y m) f).
  Proof.
    intros H K s e s' E. unfold bind, catch in E. destruct (m s) as [r s1] eqn:Em.
    refine (K r _ _ _ _ E). intros x ->. eapply H; eauto.
  Qed.
  Lemma cl_genesis set dr : clean (boot_genesis Y set dr).
  Proof.
    unfold boot_genesis, ensure_unique_members.
    apply cl_bind; [clean_step|]. intros _. apply cl_bind; [apply cl_generate|]. intros [seed k].
    apply cl_bind; [clean_step|]. intros rnd. apply cl_bind; [repeat clean_step|]. intros shares.
    apply cl_catch_bind; [apply cl_encrypt|]. intros outs Ho.
    apply cl_bind; [repeat clean_step|]. intros w. apply cl_bind; [now apply cl_lift|]. intros outs'.
    repeat clean_step.
  Qed.
  Lemma clr_validate n o d : clean_r (validate_manifest Y n o d).
  Proof.
    unfold validate_manifest. apply clr_bind; [apply clr_check|]. intros _.
    repeat first [ apply clr_bind | apply clr_ok | apply clr_err; nr | apply cl_map; intros ?; nr | progress intros
                 | match goal with |- clean_r (match ?x with _ => _ end) => destruct x end
                 | match goal with |- clean_r (let x := _ in _) => cbv zeta end ].
  Qed.
  Lemma cl_export e d : clean (export_key Y e d).
  Proof.
    unfold export_key.
    repeat first [ apply cl_get_manifest | apply cl_get_quorum | apply cl_lift, clr_validate | clean_step].
  Qed.
  Lemma cl_live : clean (do n <- live_attestation_doc Y; do e <- ok_of Y (get_manifest_envelope Y); ret (n, e)).
  Proof.
    unfold live_attestation_doc, post_boot_attestation.
    repeat first [ apply cl_get_manifest | apply cl_get_eph | clean_step].
  Qed.

  Lemma handle_served r (s : st) : served (st_phase s) r = true ->
    forall p, fst (handle Y r s) <> ProtocolErrorResponse (NoMatchingRoute p).
  Proof.
    intros V p.
    assert (C : forall A (f : A -> msg) (m : M Y A), clean m -> (forall a, f a <> ProtocolErrorResponse (NoMatchingRoute p)) ->
              as_msg f (fst (m s)) <> ProtocolErrorResponse (NoMatchingRoute p)).
    { intros A f m Hm Hf. destruct (m s) as [[a|e] s1] eqn:E; cbn; [apply Hf|]. intros X. inversion X; subst.
      eapply Hm; eauto. }
    destruct r; try discriminate V.
    - rewrite handle_status. discriminate.
    - apply phase_eqb_eq in V. match goal with |- context [handle Y ?r s] => rewrite (handle_boot r env pivot s V eq_refl) end.
      destruct (put_manifest_and_pivot Y env pivot s) as [[n|x] s1] eqn:E; [discriminate|].
      cbn. intros X. inversion X; subst. eapply cl_boot; eauto.
    - apply phase_eqb_eq in V. rewrite (handle_genesis _ _ s V).
      destruct (boot_genesis Y set dr_key s) as [[n|x] s1] eqn:E; [discriminate|].
      cbn. intros X. inversion X; subst. eapply cl_genesis; eauto.
    - apply phase_eqb_eq in V. rewrite (handle_provision _ _ s V).
      destruct (provision Y share a s) as [[[]|x] s1] eqn:E; try discriminate.
      cbn. intros X. inversion X; subst. eapply cl_provision; eauto.
    - cbn in V. rewrite handle_live.
      + apply C; [apply cl_live|discriminate].
      + intros P; rewrite P in V; discriminate V.
      + intros P; rewrite P in V; discriminate V.
    - apply phase_eqb_eq in V. match goal with |- context [handle Y ?r s] => rewrite (handle_boot r env pivot s V eq_refl) end.
      destruct (put_manifest_and_pivot Y env pivot s) as [[n|x] s1] eqn:E; [discriminate|].
      cbn. intros X. inversion X; subst. eapply cl_boot; eauto.
    - apply phase_eqb_eq in V. rewrite handle_export by exact V. apply C; [apply cl_export|discriminate].
    - apply phase_eqb_eq in V. rewrite (handle_inject _ _ s V).
      destruct (inject_key Y encrypted_quorum_key signature s) as [[[]|x] s1] eqn:E; [discriminate|].
      cbn. intros X. inversion X; subst. eapply cl_inject; eauto.
    - rewrite handle_manifest by (intros P; rewrite P in V; discriminate V).
      apply C; [apply cl_ok_of|discriminate].
    - rewrite handle_version. discriminate.
    - apply phase_eqb_eq in V. match goal with |- context [handle Y ?r s] => rewrite (handle_boot r env pivot s V eq_refl) end.
      destruct (put_manifest_and_pivot Y env pivot s) as [[n|x] s1] eqn:E; [discriminate|].
      cbn. intros X. inversion X; subst. eapply cl_boot; eauto.
  Qed.

  (** *** C03 *)
  Lemma read_only_quiet r (s : st) : read_only r = true -> quiet s (snd (handle Y r s)).
  Proof.
    intros R. destruct (handle_cases r s) as [[_ H]|[(_ & _ & Q)|[(set & dr & -> & P)|[(e & pv & B & P)|[(sh & a & -> & P)|(c & g & -> & P)]]]]];
      try discriminate R; auto.
    - rewrite H. apply quiet_refl.
    - destruct r; try discriminate R; discriminate B.
  Qed.
End PP.
