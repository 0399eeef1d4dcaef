(** Facts about the enclave's answers used by PropsClientNet.v.  No modelled code here. *)
From Coq Require Import ZifyBool ZifyN ZifyNat.
From Verif Require Import Base Utf8 Hex Borsh BorshProofs Json Types TypesBorsh TypesJson JsonComb Msg MsgBorsh MsgJson World Attest Services State
  Wire SpecWire WireProofs PropsWire.
Local Open Scope N_scope.
Local Open Scope m_scope.

Section Never.
  Context (Y : sys).
  Local Notation M := (M Y).
  (** [m] never fails with ProtocolMsgDeserialization. *)
  Definition good {A} (r : result perr A) : Prop := r <> Err ProtocolMsgDeserialization.
  Definition never {A} (m : M A) : Prop := forall s, good (fst (m s)).
  Lemma never_ret {A} (a : A) : never (ret a). Proof. intros s. discriminate. Qed.
  Lemma never_err {A} e : e <> ProtocolMsgDeserialization -> never (@err Y A e).
  Proof. intros H s. cbn. unfold good. congruence. Qed.
  Lemma never_bind {A B} (m : M A) (f : A -> M B) : never m -> (forall a, never (f a)) -> never (bind m f).
  Proof.
    intros Hm Hf s. unfold bind. specialize (Hm s). destruct (m s) as [[a|e] s']; [apply Hf|].
    cbn [fst] in *. unfold good in *. congruence.
  Qed.
  Lemma never_lift {A} (r : result perr A) : good r -> never (lift r).
  Proof. intros H s. exact H. Qed.
  Lemma never_guard b e : e <> ProtocolMsgDeserialization -> never (@guard Y b e).
  Proof. intros H. unfold guard. destruct b; [apply never_ret|now apply never_err]. Qed.
  Lemma never_gets {A} (f : st Y -> A) : never (gets f). Proof. intros s. discriminate. Qed.
  Lemma never_modify f : never (@modify Y f). Proof. intros s. discriminate. Qed.
  Lemma never_read p : never (op_read Y p).
  Proof. intros s. unfold op_read. destruct (s_io Y (st_ioc s)); discriminate. Qed.
  Lemma never_exists p : never (op_exists Y p). Proof. intros s. discriminate. Qed.
  Lemma never_write p d : never (op_write Y p d).
  Proof. intros s. unfold op_write. destruct (s_io Y (st_ioc s)); discriminate. Qed.
  Lemma never_rename a b : never (op_rename Y a b).
  Proof. intros s. unfold op_rename. destruct (s_io Y (st_ioc s)), (st_fs s a); discriminate. Qed.
  Lemma never_chmod p m : never (op_chmod Y p m).
  Proof. intros s. unfold op_chmod. destruct (s_io Y (st_ioc s)), (st_fs s p) as [[]|]; discriminate. Qed.
  Lemma never_remove p : never (op_remove Y p).
  Proof. intros s. unfold op_remove. destruct (s_io Y (st_ioc s)), (st_fs s p); discriminate. Qed.
  Lemma never_nsm r : never (op_nsm Y r).
  Proof. intros s. unfold op_nsm. destruct (s_nsm_step Y (st_nsm s) r); discriminate. Qed.
  Lemma never_time : never (op_time Y).
  Proof. intros s. unfold op_time. destruct (s_nsm_time Y (st_nsm s)); discriminate. Qed.
  Lemma never_rand : never (op_rand Y). Proof. intros s. discriminate. Qed.
  Lemma good_map {A E} (f : E -> perr) (r : result E A) : (forall e, f e <> ProtocolMsgDeserialization) -> good (rmap_err f r).
  Proof. intros H. destruct r; cbn; unfold good; [discriminate|]. intros X. inversion X. now apply (H e). Qed.
  Lemma good_bind {A B} (r : result perr A) (f : A -> result perr B) : good r -> (forall a, good (f a)) -> good (rbind r f).
  Proof. unfold good. destruct r; cbn; auto. intros H _. congruence. Qed.
End Never.

Ltac nv_leaf := first [discriminate | intros; discriminate].
Ltac nv := repeat lazymatch goal with
  | |- never _ (bind _ _) => apply never_bind; [|intros]
  | |- never _ (ret _) => apply never_ret
  | |- never _ (err _) => apply never_err; nv_leaf
  | |- never _ (guard _ _) => apply never_guard; nv_leaf
  | |- never _ (gets _) => apply never_gets
  | |- never _ (modify _) => apply never_modify
  | |- never _ (op_read _ _) => apply never_read
  | |- never _ (op_exists _ _) => apply never_exists
  | |- never _ (op_write _ _ _) => apply never_write
  | |- never _ (op_rename _ _ _) => apply never_rename
  | |- never _ (op_chmod _ _ _) => apply never_chmod
  | |- never _ (op_remove _ _) => apply never_remove
  | |- never _ (op_nsm _ _) => apply never_nsm
  | |- never _ (op_time _) => apply never_time
  | |- never _ (op_rand _) => apply never_rand
  | |- never _ (lift (rmap_err _ _)) => apply never_lift; apply good_map; nv_leaf
  | |- never _ _ => assumption
  end.

Section Services.
  Context (Y : sys).
  Local Notation M := (M Y).
  Lemma never_attest {A} t : never Y (@err Y A (attest_err t)). Proof. apply never_err. discriminate. Qed.

  Lemma never_generate : never Y (pair_generate Y).
  Proof. unfold pair_generate. nv. Qed.
  Lemma never_hexfile p : never Y (pair_from_hex_file Y p).
  Proof. unfold pair_from_hex_file. nv. Qed.
  Lemma never_war f b e : e <> ProtocolMsgDeserialization -> never Y (write_as_read_only Y f b e).
  Proof. intros H. unfold write_as_read_only. nv; now apply never_guard. Qed.
  Lemma never_get_eph : never Y (get_ephemeral_key Y).
  Proof. unfold get_ephemeral_key. pose proof never_hexfile. apply never_bind; [apply H|intros]. nv. Qed.
  Lemma never_put_eph b : never Y (put_ephemeral_key Y b).
  Proof. unfold put_ephemeral_key. apply never_war. discriminate. Qed.
  Lemma never_rotate b : never Y (rotate_ephemeral_key Y b).
  Proof. unfold rotate_ephemeral_key. nv. apply never_war. discriminate. Qed.
  Lemma never_get_q : never Y (get_quorum_key Y).
  Proof. unfold get_quorum_key. pose proof never_hexfile. apply never_bind; [apply H|intros]. nv. Qed.
  Lemma never_put_q b : never Y (put_quorum_key Y b).
  Proof. unfold put_quorum_key. apply never_war. discriminate. Qed.
  Lemma never_get_env : never Y (get_manifest_envelope Y).
  Proof. unfold get_manifest_envelope. nv. destruct a as [c|]; [|nv]. destruct (envelope_try_from_slice_compat c); nv. Qed.
  Lemma never_put_env e : never Y (put_manifest_envelope Y e).
  Proof. unfold put_manifest_envelope. destruct (envelope_to_storage_vec e); [apply never_war; discriminate|nv]. Qed.
  Lemma never_mutate f : never Y (mutate_manifest_envelope Y f).
  Proof. unfold mutate_manifest_envelope. apply never_bind; [apply never_get_env|intros e]. nv. destruct (envelope_to_storage_vec (f e)); nv. Qed.
  Lemma never_put_pivot p : never Y (put_pivot Y p).
  Proof. unfold put_pivot. nv. Qed.

  Lemma good_unique ms : forall al sg en, good (unique_members Y al sg en ms).
  Proof.
    induction ms as [|m ms IH]; intros al sg en; cbn [unique_members]; [discriminate|].
    destruct (public_from_bytes Y (m_pub_key m)) as [[e g]|e]; [|discriminate]. destruct (_ || _ || _)%bool; [discriminate|apply IH].
  Qed.
  Lemma good_each ms mh l : forall seen, good (check_each Y ms mh seen l).
  Proof.
    induction l as [|a l IH]; intros seen; cbn [check_each]; [discriminate|].
    destruct (public_from_bytes Y (m_pub_key (ap_member a))) as [[e g]|e]; [|discriminate].
    destruct (negb _); [discriminate|]. destruct (negb _); [discriminate|]. destruct (memb _ _ _); [discriminate|apply IH].
  Qed.
  Lemma good_approvals e : good (check_approvals Y e).
  Proof.
    unfold check_approvals, ensure_unique_members. apply good_bind; [apply good_unique|intros]. apply good_bind; [apply good_each|intros].
    destruct (_ <? _); discriminate.
  Qed.
  Lemma good_verify a m : good (approval_verify Y a m).
  Proof. unfold approval_verify. destruct (public_from_bytes Y (m_pub_key (ap_member a))) as [[? g]|]; [|discriminate]. destruct (s_verify Y g m (ap_signature a)); discriminate. Qed.

  Lemma never_describe : never Y (describe_nsm Y).
  Proof. unfold describe_nsm. nv. destruct a; nv. Qed.
  Lemma never_pcr i : never Y (describe_pcr Y i).
  Proof. unfold describe_pcr. nv. destruct a; nv. Qed.
  Lemma never_extend k mx lk mh eph : never Y (extend_commitment Y k mx lk mh eph).
  Proof. unfold extend_commitment. nv; [apply never_pcr|]. destruct a1 as [lock initial]. nv. destruct a4; nv. Qed.
  Lemma never_verify_locked k e : never Y (verify_locked Y k e).
  Proof. unfold verify_locked. nv; [apply never_pcr|]. destruct a as [lock data]. nv. Qed.
  Lemma never_lock mh a b : never Y (lock_manifest_commitment_pcr_bank Y mh a b).
  Proof.
    unfold lock_manifest_commitment_pcr_bank. apply never_bind; [apply never_describe|intros [[mx lk] d]]. nv.
    - apply never_extend.
    - apply never_extend.
    - destruct a4; nv.
    - apply never_describe.
    - destruct a6 as [[mx' lk'] d']. nv; apply never_verify_locked.
  Qed.
  Lemma never_attestation p h : never Y (post_boot_attestation Y p h).
  Proof. apply never_nsm. Qed.
  Lemma never_live : never Y (live_attestation_doc Y).
  Proof. unfold live_attestation_doc. apply never_bind; [apply never_get_eph|intros [? k]]. apply never_bind; [apply never_get_env|intros e]. apply never_attestation. Qed.
  Lemma never_put e p : never Y (put_manifest_and_pivot Y e p).
  Proof.
    unfold put_manifest_and_pivot. apply never_bind; [apply never_lift, good_approvals|intros]. nv.
    - apply never_generate.
    - destruct a2 as [setup sk]. apply never_bind; [apply never_generate|intros [live lk]]. nv;
        first [apply never_lock|apply never_put_eph|apply never_put_pivot|apply never_put_env|apply never_attestation].
  Qed.
  Lemma never_take : never Y (take_pending Y).
  Proof. intros s. unfold take_pending. destruct (st_pending s); discriminate. Qed.
  Lemma never_provision sh a : never Y (provision Y sh a).
  Proof.
    unfold provision. apply never_bind; [apply never_get_env|intros e]. apply never_bind; [apply never_lift, good_verify|intros].
    nv; [apply never_mutate|apply never_get_eph|]. destruct a3 as [eph ?]. nv.
    - unfold add_share. destruct a3; nv.
    - destruct (_ <? _); [nv|]. nv; try apply never_take; try apply never_rotate; try apply never_put_q.
      unfold build_secret. nv. match goal with |- context [s_combine Y ?l] => destruct (s_combine Y l) as [[|]|] end; nv.
  Qed.
  Lemma never_inject k g : never Y (inject_key Y k g).
  Proof.
    unfold inject_key. apply never_bind; [apply never_get_env|intros e]. nv; [apply never_get_eph|]. destruct a1 as [eph ?]. nv;
      first [apply never_take|apply never_rotate|apply never_put_q].
  Qed.
  Lemma good_validate n o d : good (validate_manifest Y n o d).
  Proof.
    unfold validate_manifest. apply good_bind; [apply good_approvals|intros]. destruct (env_share_approvals n); [|discriminate]. cbn zeta.
    repeat match goal with |- good (if ?b then _ else _) => destruct b; [discriminate|] end.
    apply good_bind; [apply good_map; intros []; discriminate|intros]. destruct (negb _); discriminate.
  Qed.
  Lemma never_export e c : never Y (export_key Y e c).
  Proof.
    unfold export_key. nv; [destruct a; nv|apply never_get_env|apply never_lift, good_validate|destruct (ad_public_key a1); nv|apply never_get_q|].
    match goal with |- context [match ?x with pair _ _ => _ end] => destruct x end. nv.
  Qed.
  Lemma never_shares l : never Y (encrypt_shares Y l).
  Proof. induction l as [|[sh m] l IH]; cbn [encrypt_shares]; nv. Qed.
  Lemma good_of_never {A} (m : M A) s r s' : never Y m -> m s = (r, s') -> good r.
  Proof. intros H E. specialize (H s). now rewrite E in H. Qed.
  Lemma never_genesis set dr : never Y (boot_genesis Y set dr).
  Proof.
    unfold boot_genesis. apply never_bind; [apply never_lift, good_unique|intros]. apply never_bind; [apply never_generate|intros [seed k]].
    apply never_bind; [nv|intros rnd0]. apply never_bind; [destruct (s_split Y _ _ _ _); nv|intros a1].
    (* the outcome of the shares is bound to a name and handed on *)
    intros s. unfold bind at 1, catch. destruct (encrypt_shares Y (combine a1 (gs_members set)) s) as [r s1] eqn:E.
    pose proof (good_of_never _ _ _ _ (never_shares _) E) as G.
    assert (N : never Y (do wrapped <- match dr with
                  | None => ret None
                  | Some dk => do p <- lift (rmap_err InvalidP256DRKey (public_from_bytes Y dk)); do rnd <- op_rand Y;
                      do c <- lift (rmap_err P256Error (s_encrypt Y (fst p) rnd seed)); ret (Some c) end;
      do outs <- lift r;
      do rnd <- op_rand Y;
      do tc <- lift (rmap_err P256Error (s_encrypt Y (fst k) rnd QOS_TEST_MESSAGE));
      let o := GenesisOutput set dr (public_to_bytes k) outs [] wrapped
                 (s_sha512 Y (encode seed)) tc (s_sign Y seed QOS_TEST_MESSAGE) QOS_TEST_MESSAGE in
      do r <- op_nsm Y (Attestation (Some (s_sha256 Y (enc c_genesis_output o))) None None);
      ret (o, r))).
    { apply never_bind; [destruct dr; nv|intros]. apply never_bind; [now apply never_lift|intros]. apply never_bind; [nv|intros]. apply never_bind; [nv|intros]. cbn zeta. nv. }
    exact (N s1).
  Qed.
  Lemma never_ok_of {A} (m : M A) : never Y (ok_of Y m).
  Proof. intros s. unfold ok_of. destruct (m s) as [[|] ?]; discriminate. Qed.

  Definition fine (o : option (result msg msg)) : Prop :=
    forall r, o = Some r -> match r with Ok m | Err m => m <> ProtocolErrorResponse ProtocolMsgDeserialization end.
  Lemma fine_answer {A} (f : A -> msg) (m : M A) s : never Y m -> (forall a, f a <> ProtocolErrorResponse ProtocolMsgDeserialization) ->
    fine (fst (State.answer Y f m s)).
  Proof.
    intros N F r E. unfold State.answer in E. pose proof (N s) as G. destruct (m s) as [[a|e] s']; cbn [fst] in *; inversion E; subst; [apply F|].
    unfold good in G. congruence.
  Qed.
  Lemma fine_none s : fine (fst (@None (result msg msg), s : st Y)).
  Proof. intros r H. discriminate. Qed.
  Lemma handler_fine p rt r s : In rt (routes Y p) -> fine (fst (r_handler Y rt r s)).
  Proof.
    intros I. assert (H : In (r_handler Y rt) [h_status Y; h_version Y; h_manifest_envelope Y; h_provision Y; h_boot_standard Y; h_boot_genesis Y;
      h_live_attestation_doc Y; h_boot_key_forward Y; h_export_key Y; h_inject_key Y]).
    { destruct p; cbn in I; repeat destruct I as [<-|I]; try contradiction; cbn; tauto. }
    cbn in H. repeat destruct H as [<-|H]; try contradiction;
      unfold h_status, h_version, h_manifest_envelope, h_provision, h_boot_standard, h_boot_genesis, h_live_attestation_doc, h_boot_key_forward, h_export_key, h_inject_key;
      destruct r; try apply fine_none; try (apply fine_answer; [|intros; discriminate]);
      try (intros x E; inversion E; discriminate);
      first [apply never_ok_of|apply never_provision|apply never_put|apply never_genesis|apply never_export|apply never_inject|idtac].
    apply never_bind; [apply never_live|intros]. nv. apply never_ok_of.
  Qed.
  Theorem handle_never m s : fst (handle Y m s) <> ProtocolErrorResponse ProtocolMsgDeserialization.
  Proof.
    unfold handle. assert (G : forall p l s, (forall rt, In rt l -> In rt (routes Y p)) ->
      fst (try_routes Y l m s) <> ProtocolErrorResponse ProtocolMsgDeserialization).
    { intros p l. induction l as [|rt l IH]; intros s0 HI; cbn [try_routes]; [discriminate|].
      assert (F : fine (fst (try_msg Y rt m s0))).
      { pose proof (handler_fine p rt m s0 (HI rt (or_introl eq_refl))) as F. unfold try_msg. destruct (r_handler Y rt m s0) as [o s1]. cbn [fst] in F.
        assert (T : forall t s2 r, good (fst (transition Y t s2)) /\ (transition Y t s2 = r -> True)).
        { intros t s2 r. split; [|auto]. unfold transition. destruct (phase_eqb _ _); [discriminate|]. destruct (memb _ _ _); discriminate. }
        assert (D : forall o, fine o -> forall t, fine (fst (match transition Y t s1 with (Ok _, s2) => (o, s2) | (Err e, s2) => (Some (Err (ProtocolErrorResponse e)), s2) end))).
        { intros o' F' t. destruct (T t s1 (transition Y t s1)) as [G _]. destruct (transition Y t s1) as [[]  s2]; cbn [fst] in *; [exact F'|].
          intros r E. inversion E; subst. unfold good in G. congruence. }
        destruct o as [[r|r]|]; [|now apply (D (Some (Err r)))|exact F].
        destruct r; try (now apply (D (Some (Ok _)))). destruct reconstructed; [now apply (D (Some (Ok _)))|exact F]. }
      destruct (try_msg Y rt m s0) as [[[r|r]|] s1]; cbn [fst] in *.
      - exact (F _ eq_refl).
      - exact (F _ eq_refl).
      - apply IH. intros x Hx. apply HI. now right. }
    apply (G (st_phase s)). auto.
  Qed.
End Services.
