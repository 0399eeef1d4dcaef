(** Round-trip laws of the JSON codecs of the protocol messages. *)
From Verif Require Import Base Utf8 Hex Json JsonProofs NormProofs SpecJson CanonProofs Types TypesJson TypesJsonProofs TypesJsonLaws StorageProofs
  JsonComb JsonCombLaws Msg MsgBorsh MsgJson.
From Coq Require Import Permutation.
Require Import ZifyBool ZifyN ZifyNat.
Local Open Scope N_scope.

(** *** Sets *)
Lemma set_insert_last x s : (forall y, In y s -> y < x) -> set_insert x s = s ++ [x].
Proof.
  induction s as [|y s IH]; intros H; [reflexivity|]. cbn [set_insert app].
  pose proof (H y (or_introl eq_refl)). destruct (N.eqb_spec x y); [lia|]. destruct (N.ltb_spec x y); [lia|].
  f_equal. apply IH. intros z Hz. apply H. now right.
Qed.
Lemma ascending_cons x l : ascending (x :: l) = true -> (forall y, In y l -> x < y) /\ ascending l = true.
Proof.
  revert x. induction l as [|y l IH]; intros x H; [split; [intros ? []|reflexivity]|].
  cbn [ascending] in H. apply andb_true_iff in H as [A B]. apply N.ltb_lt in A.
  destruct (IH y B) as [C D]. split; [|exact B]. intros z [->|Hz]; [exact A|]. specialize (C z Hz). lia.
Qed.
Lemma set_collect_acc l : forall s, (forall x y, In x s -> In y l -> x < y) -> ascending l = true ->
  fold_left (fun s x => set_insert x s) l s = s ++ l.
Proof.
  induction l as [|x l IH]; intros s H A; cbn [fold_left]; [now rewrite app_nil_r|].
  destruct (ascending_cons _ _ A) as [C D]. rewrite set_insert_last by (intros y Hy; apply H; [exact Hy|now left]).
  rewrite IH; [now rewrite <- app_assoc| |exact D].
  intros a b Ha Hb. apply in_app_or in Ha as [Ha|[<-|[]]]; [apply H; [exact Ha|now right]|now apply C].
Qed.
Lemma set_collect_ascending l : ascending l = true -> set_collect l = l.
Proof. intros A. unfold set_collect. rewrite set_collect_acc; [reflexivity| |exact A]. intros ? ? []. Qed.
Lemma js_set_u16_law : jlawful js_set_u16.
Proof.
  intros l W. cbn [js_set_u16 jwf] in W. apply andb_true_iff in W as [W A].
  destruct (js_vec_law js_u16 js_u16_law l W) as [(J & NN & D) (n & N & (J' & NN' & D'))].
  split; [|exists n; split; [exact N|]]; (split; [assumption|split; [assumption|]]); intros d Hd;
    change (jneed js_set_u16) with (jneed (js_vec js_u16)) in Hd.
  - destruct (D d Hd) as [S E]. split; [exact S|]. cbn [js_set_u16 jdec jser]. rewrite E. f_equal. now apply set_collect_ascending.
  - destruct (D' d Hd) as [S E]. split; [exact S|]. cbn [js_set_u16 jdec jser]. rewrite E. f_equal. now apply set_collect_ascending.
Qed.
Lemma js_phase_law : jlawful js_phase.
Proof.
  apply jlawful_same. intros p _. split; [|reflexivity]. split; [destruct p; reflexivity|]. split; [discriminate|].
  intros d _. split; [reflexivity|]. destruct p; reflexivity.
Qed.

(** *** The untagged envelope *)
Lemma find_last_none {A} k (m : list (option bytes * A)) : find_last k m = None <-> ~ In (Some k) (map fst m).
Proof.
  induction m as [|[o v] m IH]; cbn; [tauto|]. destruct (find_last k m) eqn:E.
  - split; [discriminate|]. intros H. exfalso. apply H. right. apply Decidable.not_not.
    + unfold Decidable.decidable. destruct (in_dec (fun a b : option bytes => ltac:(decide equality; apply (list_eq_dec Byte.byte_eq_dec))) (Some k) (map fst m)); tauto.
    + intros X. apply IH in X. discriminate.
  - assert (E' : ~ In (Some k) (map fst m)) by now apply IH. unfold okey_eqb. destruct o as [o|].
    + destruct (bytes_eqb_spec k o) as [->|N].
      * split; [discriminate|]. intros H. exfalso. apply H. now left.
      * split; [|reflexivity]. intros _ [H|H]; [inversion H; congruence|tauto].
    + split; [|reflexivity]. intros _ [H|H]; [discriminate|tauto].
Qed.
Lemma norm_obj_none m n k : norm (JObj m) = Some n -> find_last k m = None -> exists m', n = JObj m' /\ find_last k m' = None.
Proof.
  rewrite norm_obj_eq'. intros E F. apply find_last_none in F.
  destruct (oseq (map keyed m)) as [m1|] eqn:E1; [|discriminate]. cbn [obind] in E.
  destruct (oseq (map unopt _)) as [m2|] eqn:E2; [|discriminate]. cbn [obind] in E. inversion E; subst n. eexists. split; [reflexivity|].
  apply find_last_none. rewrite map_rekey_keys. intros I. apply F. rewrite (keyed_fst _ _ E1).
  apply in_map_iff in I as (k' & Ek & I). inversion Ek; subst k'.
  apply (Permutation_in _ (Permutation_map fst (sort_keys_perm m2))) in I.
  rewrite (unopt_keys _ _ E2) in I. apply in_map_iff in I as ([k1 v1] & E3 & I). apply filter_In in I as [I _]. cbn in E3; subst k1.
  apply dedup_In in I. apply in_map_iff. exists (k, v1). split; [reflexivity|exact I].
Qed.
Definition no_key k j : Prop := exists m, j = JObj m /\ find_last k m = None.
Lemma norm_no_key k j n : no_key k j -> norm j = Some n -> no_key k n.
Proof. intros (m & -> & F) E. destruct (norm_obj_none _ _ k E F) as (m' & -> & F'). now exists m'. Qed.

Lemma v2_needs_version d j : no_key (bs "version") j -> jdec js_manifest_v2 d j = None.
Proof.
  intros (m & -> & F). cbn [js_manifest_v2 jdec]. unfold dec_struct. destruct d as [|[|d]]; try reflexivity.
  destruct (_ && _); [|reflexivity]. cbn [map]. rewrite F. reflexivity.
Qed.
Definition man_no_version j : Prop := exists m x, j = JObj m /\ find_last (bs "manifest") m = Some x /\ no_key (bs "version") x.
Lemma ev2_needs_version d j : man_no_version j -> jdec js_envelope_v2 d j = None.
Proof.
  intros (m & x & -> & F & V). cbn [js_envelope_v2 jdec]. unfold dec_struct. destruct d as [|[|d]]; try reflexivity.
  destruct (_ && _); [|reflexivity]. cbn [map]. rewrite F. cbn [req]. now rewrite v2_needs_version.
Qed.
Lemma e1_needs_approvals d j : no_key (bs "manifestSetApprovals") j -> jdec js_envelope d j = None.
Proof.
  intros (m & -> & F). cbn [js_envelope jdec]. unfold dec_struct. destruct d as [|[|d]]; try reflexivity.
  destruct (_ && _); [|reflexivity]. cbn [map]. rewrite F. destruct (req js_manifest _ _); reflexivity.
Qed.
Lemma ser_struct_fields_ok (l : list (bytes * option json)) n : names_ok (map fst l) = true ->
  Forall (fun f => match snd f with Some v => exists v', norm v = Some v' /\ v' <> JNull | None => True end) l ->
  norm (ser_struct l) = Some n -> exists m, n = JObj m.
Proof.
  intros _ _. unfold ser_struct. rewrite norm_obj_eq'. destruct (oseq _) as [m1|]; [|discriminate]. cbn [obind].
  destruct (oseq _) as [m2|]; [|discriminate]. cbn [obind]. intros E. inversion E. eauto.
Qed.
Lemma good_ve1 e j : good js_envelope e j -> man_no_version j -> good js_versioned_envelope (VE1 e) j.
Proof.
  intros (J & NN & D) V. split; [exact J|split; [exact NN|]]. intros d Hd. change (jneed js_versioned_envelope) with 7%nat in Hd.
  destruct (D d ltac:(change (jneed js_envelope) with 6%nat; lia)) as [S E]. split; [exact S|].
  cbn [js_versioned_envelope jdec]. rewrite S, (ev2_needs_version _ _ V), E. reflexivity.
Qed.
Lemma good_ve0 e j : good js_envelope_v0 e j -> man_no_version j -> no_key (bs "manifestSetApprovals") j -> good js_versioned_envelope (VE0 e) j.
Proof.
  intros (J & NN & D) V V1. split; [exact J|split; [exact NN|]]. intros d Hd. change (jneed js_versioned_envelope) with 7%nat in Hd.
  destruct (D d ltac:(change (jneed js_envelope_v0) with 6%nat; lia)) as [S E]. split; [exact S|].
  cbn [js_versioned_envelope jdec]. rewrite S, (ev2_needs_version _ _ V), (e1_needs_approvals _ _ V1), E. reflexivity.
Qed.
Lemma js_versioned_envelope_law : jlawful js_versioned_envelope.
Proof.
  intros [e|e|e] W; cbn [js_versioned_envelope jwf wf_envelope] in W.
  - destruct (js_envelope_v2_law e W) as [(J & NN & D) (n & N & (J' & NN' & D'))].
    split; [|exists n; split; [exact N|]]; (split; [assumption|split; [assumption|]]); intros d Hd;
      change (jneed js_versioned_envelope) with (jneed js_envelope_v2) in Hd; cbn [js_versioned_envelope jdec jser].
    + destruct (D d Hd) as [S E]. split; [exact S|]. now rewrite S, E.
    + destruct (D' d Hd) as [S E]. split; [exact S|]. now rewrite S, E.
  - destruct (js_envelope_law e W) as [G (n & N & Gn)]. cbn [js_envelope jwf] in W. splitwf. split.
    + apply good_ve1; [exact G|]. eexists _, _. split; [reflexivity|]. split; [reflexivity|].
      eexists. split; [reflexivity|reflexivity].
    + exists n. split; [exact N|]. apply good_ve1; [exact Gn|].
      assert (V : exists v', norm (jser js_manifest (e1_manifest e)) = Some v' /\ jget (bs "manifest") n = Some v').
      { eapply norm_get; [| |exact N|left; reflexivity]; [reflexivity|].
        repeat (apply Forall_cons; [cbn [snd]; apply jlawful_norm; eauto with jlaw|]). constructor. }
      destruct V as (v' & N' & V). destruct n as [| | | | | |m]; try discriminate. exists m, v'. split; [reflexivity|]. split; [exact V|].
      eapply norm_no_key; [|exact N']. eexists. split; [reflexivity|reflexivity].
  - destruct (js_envelope_v0_law e W) as [G (n & N & Gn)]. cbn [js_envelope_v0 jwf] in W. splitwf. split.
    + apply good_ve0; [exact G| |].
      * eexists _, _. split; [reflexivity|]. split; [reflexivity|]. eexists. split; [reflexivity|reflexivity].
      * eexists. split; [reflexivity|reflexivity].
    + exists n. split; [exact N|]. apply good_ve0; [exact Gn| |].
      * assert (V : exists v', norm (jser js_manifest_v0 (e0_manifest e)) = Some v' /\ jget (bs "manifest") n = Some v').
        { eapply norm_get; [| |exact N|left; reflexivity]; [reflexivity|].
          repeat (apply Forall_cons; [cbn [snd]; apply jlawful_norm; eauto with jlaw|]). constructor. }
        destruct V as (v' & N' & V). destruct n as [| | | | | |m]; try discriminate. exists m, v'. split; [reflexivity|]. split; [exact V|].
        eapply norm_no_key; [|exact N']. eexists. split; [reflexivity|reflexivity].
      * eapply norm_no_key; [|exact N]. eexists. split; [reflexivity|reflexivity].
Qed.
#[export] Hint Resolve js_set_u16_law js_phase_law js_versioned_envelope_law v_nil_law : jlaw.
#[export] Hint Resolve js_iso_law js_struct_law js_enum_law js_tuple2_law f_one_law f_opt1_law f_cons_law f_opt_law v_unit_law v_new_law v_skip_law : jlaw.

Ltac comb := repeat first
  [ apply js_enum_law; [vm_compute; reflexivity|] | apply js_struct_law; [vm_compute; reflexivity|] | apply js_tuple2_law
  | apply v_unit_law; [vm_compute; reflexivity|] | apply v_new_law; [vm_compute; reflexivity| |] | apply v_skip_law | apply v_nil_law
  | apply f_cons_law | apply f_opt_law | apply f_one_law | apply f_opt1_law | apply js_vec_law | solve [auto with jlaw nocore] ].

Lemma js_nsm_code_law : jlawful js_nsm_code.
Proof. apply js_iso_law; [exact nsm_error_code_of_to|]. unfold v_nsm_error_code. comb. Qed.
Lemma js_digest_law : jlawful js_digest.
Proof. apply js_iso_law; [exact nsm_digest_of_to|]. unfold v_nsm_digest. comb. Qed.
#[export] Hint Resolve js_nsm_code_law js_digest_law : jlaw.
Lemma js_nsm_response_law : jlawful js_nsm_response.
Proof. apply js_iso_law; [exact nsm_response_of_to|]. unfold v_nsm_response. comb. Qed.
Lemma js_p256_error_law : jlawful js_p256_error.
Proof. apply js_iso_law; [exact p256_error_of_to|]. unfold v_p256_error. comb. Qed.
#[export] Hint Resolve js_nsm_response_law js_p256_error_law : jlaw.
Lemma js_perr_law : jlawful js_perr.
Proof. apply js_iso_law; [exact perr_of_to|]. unfold v_perr. comb. Qed.
Lemma js_genesis_set_law : jlawful js_genesis_set.
Proof. apply js_iso_law; [now intros []|]. comb. Qed.
Lemma js_member_shard_law : jlawful js_member_shard.
Proof. apply js_iso_law; [now intros []|]. comb. Qed.
Lemma js_member_output_law : jlawful js_member_output.
Proof. apply js_iso_law; [now intros []|]. comb. Qed.
#[export] Hint Resolve js_perr_law js_genesis_set_law js_member_shard_law js_member_output_law : jlaw.
Lemma js_genesis_output_law : jlawful js_genesis_output.
Proof. apply js_iso_law; [now intros []|]. comb. Qed.
#[export] Hint Resolve js_genesis_output_law : jlaw.
Lemma js_msg_law : jlawful js_msg.
Proof. apply js_iso_law; [exact msg_of_to|]. unfold v_msg. comb. Qed.
Lemma js_msg_need : (jneed js_msg <= MAX_DEPTH)%nat.
Proof. unfold MAX_DEPTH. vm_compute. repeat constructor. Qed.
