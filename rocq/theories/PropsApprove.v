(** C57: approving a manifest. *)
From Coq Require Import Permutation Sorting.Sorted ZifyBool ZifyN ZifyNat.
From Verif Require Import Base Utf8 Hex HexProofs Borsh Json Types TypesBorsh TypesJson StorageProofs Msg World Attest Services
  Builder SpecApproval ApprovalProofs SpecExport Client SpecClient ClientProofs ClientSets ClientFiles ClientApprove CodecExamples Toy ToyClient PropsClient.
Local Open Scope N_scope.

(** What the operator is asked to confirm, per manifest version. *)
Definition shown (m : versioned_manifest) : list question :=
  match m with
  | VM2 x => [QVersion (bs "v2"); QName (ns_name (mf2_namespace x)); QNonce (ns_nonce (mf2_namespace x)); QRestart (pv2_restart (mf2_pivot x));
              QArgs (pv2_args (mf2_pivot x)); QDebug (pv2_debug (mf2_pivot x)); QBridge (pv2_bridge (mf2_pivot x)); QDns (mf2_dns x)]
  | VM1 x => [QVersion (bs "v1"); QName (ns_name (mf_namespace x)); QNonce (ns_nonce (mf_namespace x)); QRestart (pv_restart (mf_pivot x));
              QArgs (pv_args (mf_pivot x)); QDebug (pv_debug (mf_pivot x)); QBridge (pv_bridge (mf_pivot x))]
  | VM0 x => [QVersion (bs "v0"); QName (ns_name (mf0_namespace x)); QNonce (ns_nonce (mf0_namespace x)); QRestart (pv0_restart (mf0_pivot x));
              QArgs (pv0_args (mf0_pivot x)); QDebug false; QBridge []]
  end.
(** The operator confirmed everything shown (or asked for no questions with the "unsafe" flag). *)
Definition consented (auto : bool) (stdin : bytes) (all asked : list question) : Prop :=
  if auto then asked = [] else asked = all /\ all_confirmed (length all) stdin.

Section C57.
  Context (Y : sys).
  Definition agrees_with (m : versioned_manifest) (a : approve_args) : Prop :=
    agrees Y m (aa_manifest_set a) (aa_share_set a) (aa_patch_set a) (aa_pcrs a) (aa_pcr3 a) (aa_pivot_hash a) (aa_quorum_key a).
  Definition manifest_in (f : option bytes) (m : versioned_manifest) : Prop := exists c, f = Some c /\ manifest_try_from_slice_compat c = Some m.
End C57.

(** An approval is written exactly when the operator has a key, the manifest decodes, everything in it that the operator's
    own files determine is as they say, and every question about it was confirmed; it is the operator's signature of
    that manifest's hash. *)
Theorem c57_approve_iff : forall Y a asked name text,
  approve_manifest Y a = (asked, Some (name, text)) <->
  exists seed ek sk m, personal_key Y (aa_secret a) seed ek sk /\ manifest_in (aa_manifest a) m /\ agrees_with Y m a
    /\ consented (aa_auto a) (aa_stdin a) (shown m) asked
    /\ name = aa_alias a ++ bs "-" ++ map (fun b => if byte_eqb b "/" then "-"%byte else b) (ns_name (vm_namespace m))
              ++ bs "-" ++ print_N (ns_nonce (vm_namespace m)) ++ bs ".approval"
    /\ text = write (jser js_approval (Approval (s_sign Y seed (manifest_hash Y m)) (QuorumMember (aa_alias a) (ek ++ sk)))).
Proof.
  intros Y a asked name text. rewrite approve_unfold.
  assert (Q : forall m, approve_questions m = shown m) by (intros [x|x|x]; reflexivity).
  split.
  - destruct (approve_inner a) as [[[seed [ek sk]] m]|] eqn:E; [|discriminate].
    apply approve_inner_iff in E as (PK & RM & AG). intros H. exists seed, ek, sk, m. split; [exact PK|]. split; [exact RM|]. split; [exact AG|].
    unfold consented. destruct (aa_auto a).
    + cbn [negb] in H. split; [congruence|]. split; [|cbv zeta in H; unfold public_to_bytes in H; cbn [fst snd] in H; congruence].
      assert (name = approval_name (aa_alias a) m) as -> by congruence. unfold approval_name, dashed. cbn. reflexivity.
    + rewrite Q in H. destruct (ask_all (shown m) (aa_stdin a)) as [l ok] eqn:AA. destruct ok; cbn [negb] in H; [|discriminate].
      apply ask_all_true in AA as [-> AC]. split; [split; [congruence|exact AC]|]. split; [|cbv zeta in H; unfold public_to_bytes in H; cbn [fst snd] in H; congruence].
      assert (name = approval_name (aa_alias a) m) as -> by congruence. unfold approval_name, dashed. cbn. reflexivity.
  - intros (seed & ek & sk & m & PK & RM & AG & CO & -> & ->). rewrite (proj2 (approve_inner_iff a seed ek sk m) (conj PK (conj RM AG))).
    unfold consented in CO. destruct (aa_auto a).
    + subst asked. reflexivity.
    + destruct CO as [-> AC]. rewrite Q. rewrite (proj2 (ask_all_true (shown m) (aa_stdin a) (shown m)) (conj eq_refl AC)). reflexivity.
Qed.
Print Assumptions c57_approve_iff.

(** Whatever happens, the operator is only ever asked about the manifest that is signed, and only after it agreed with the files. *)
Theorem c57_asked_about : forall Y a asked out, approve_manifest Y a = (asked, out) -> asked <> [] ->
  exists m more, manifest_in (aa_manifest a) m /\ agrees_with Y m a /\ shown m = asked ++ more /\ aa_auto a = false
    /\ (out = None -> ~ all_confirmed (length (shown m)) (aa_stdin a)).
Proof.
  intros Y a asked out. rewrite approve_unfold. destruct (approve_inner a) as [[[seed [ek sk]] m]|] eqn:E; [|intros H N; congruence].
  apply approve_inner_iff in E as (PK & RM & AG). destruct (aa_auto a); [intros H N; cbn [negb] in H; congruence|].
  assert (Q : approve_questions m = shown m) by (destruct m; reflexivity). rewrite Q.
  pose proof (ask_all_prefix (shown m) (aa_stdin a)) as [more P]. destruct (ask_all (shown m) (aa_stdin a)) as [l ok] eqn:AA. cbn [fst] in P.
  intros H N. assert (l = asked) as -> by (destruct ok; cbn [negb] in H; congruence).
  exists m, more. split; [exact RM|]. split; [exact AG|]. split; [exact P|]. split; [reflexivity|]. intros -> AC.
  pose proof (proj2 (ask_all_true (shown m) (aa_stdin a) (shown m)) (conj eq_refl AC)) as X. rewrite X in AA. assert (ok = true) as -> by congruence.
  cbn [negb] in H. congruence.
Qed.
Print Assumptions c57_asked_about.

(** The file written reads back as an approval that the enclave accepts: signed by the key that belongs to the
    operator's public key. *)
Theorem c57_signed : forall Y a asked name text, sys_ok Y -> crypto_ok Y -> utf8_valid (aa_alias a) = true ->
  (forall seed x, length (s_sign Y seed x) = 64%nat) ->
  approve_manifest Y a = (asked, Some (name, text)) ->
  exists m ap, manifest_in (aa_manifest a) m /\ json_from_slice js_approval text = Some ap
    /\ m_alias (ap_member ap) = aa_alias a /\ signed Y (manifest_hash Y m) ap.
Proof.
  intros Y a asked name text OK CR UA SL H. apply c57_approve_iff in H as (seed & ek & sk & m & PK & RM & AG & CO & _ & ->).
  pose proof PK as (c & _ & _ & P).
  exists m, (Approval (s_sign Y seed (manifest_hash Y m)) (QuorumMember (aa_alias a) (ek ++ sk))). split; [exact RM|].
  destruct (ok_pair Y OK _ _ _ P) as (L1 & L2 & _). split.
  { apply approval_reads. unfold portable. cbn [ap_member m_alias m_pub_key ap_signature]. split; [exact UA|].
    rewrite !lenN_length, app_length, L1, L2, SL. split; reflexivity. }
  split; [reflexivity|]. exists ek, sk. split; [now apply (pair_has_keys OK seed)|]. cbn [ap_signature]. exact (cr_verify Y CR seed ek sk _ P).
Qed.
Print Assumptions c57_signed.

(** Two manifests that the same files and the same answered questions lead to approve are the same manifest, up to the
    environment variables of a V2 pivot. *)
Lemma release_unique Y pcrs role n n' : release_config Y pcrs role n -> release_config Y pcrs role n' -> n = n'.
Proof. intros A B. apply nitro_iff in A, B. congruence. Qed.
Lemma pivot_unique f h h' : (exists l, first_line_is f l /\ decode l = Ok h) -> (exists l, first_line_is f l /\ decode l = Ok h') -> h = h'.
Proof. intros A B. apply pivot_hash_iff in A, B. congruence. Qed.
Lemma key_unique Y f k k' : public_key_file Y f k -> public_key_file Y f k' -> k = k'.
Proof. intros A B. apply public_hex_of in A as (x & A & <-), B as (y & B & <-). congruence. Qed.
Lemma dset_unique Y d s s' : directory_set Y d (threshold s) (members s) -> directory_set Y d (threshold s') (members s') -> s = s'.
Proof. intros A B. apply get_set_iff in A, B. congruence. Qed.
Lemma dpatch_unique Y d s s' : directory_patch_set Y d s -> directory_patch_set Y d s' -> s = s'.
Proof. intros A B. apply get_patch_iff in A, B. congruence. Qed.
Theorem c57_same_manifest : forall Y a m1 m2, agrees_with Y m1 a -> agrees_with Y m2 a -> shown m1 = shown m2 -> without_env m1 = without_env m2.
Proof.
  intros Y a m1 m2 [A1 A2 A3 A4 A5 A6] [B1 B2 B3 B4 B5 B6] S.
  pose proof (dset_unique _ _ _ _ A1 B1) as E1. pose proof (dset_unique _ _ _ _ A2 B2) as E2. pose proof (release_unique _ _ _ _ _ A4 B4) as E4.
  pose proof (pivot_unique _ _ _ A5 B5) as E5. pose proof (key_unique _ _ _ _ A6 B6) as E6.
  destruct m1 as [[[]  [] ? ? ? ?]|[[] [] ? ? ? ?]|[[] [] ? ? ? ?]], m2 as [[[] [] ? ? ? ?]|[[] [] ? ? ? ?]|[[] [] ? ? ? ?]]; try discriminate S; cbn in E1, E2, E4, E5, E6, S |- *;
    [injection S; intros; subst; reflexivity| |];
    destruct A3 as (d & Ed & A3), B3 as (d' & Ed' & B3); assert (d' = d) as -> by congruence;
    pose proof (dpatch_unique _ _ _ _ A3 B3) as E3; cbn in E3; injection S; intros; subst; reflexivity.
Qed.
Print Assumptions c57_same_manifest.

(** C57 finding: the environment variables of a V2 pivot are neither shown nor checked.  Two manifests with different
    hashes, one of which loads code of the author's choice into the pivot, go through with the same files and the same transcript. *)
Definition env_1 : pivot_env := [].
Definition env_2 : pivot_env := [(bs "LD_PRELOAD", bs "/evil.so")].
Theorem c57_environment_refuted : ~ (forall Y a a' asked w w' m m',
  aa_secret a = aa_secret a' -> aa_pcrs a = aa_pcrs a' -> aa_pcr3 a = aa_pcr3 a' -> aa_pivot_hash a = aa_pivot_hash a' ->
  aa_quorum_key a = aa_quorum_key a' -> aa_manifest_set a = aa_manifest_set a' -> aa_share_set a = aa_share_set a' ->
  aa_patch_set a = aa_patch_set a' -> aa_stdin a = aa_stdin a' -> aa_auto a = false -> aa_auto a' = false ->
  approve_manifest Y a = (asked, Some w) -> approve_manifest Y a' = (asked, Some w') ->
  manifest_in (aa_manifest a) m -> manifest_in (aa_manifest a') m' -> m = m').
Proof.
  intros H. set (m1 := VM2 (op_manifest env_1)). set (m2 := VM2 (op_manifest env_2)).
  assert (X : exists asked w w', approve_manifest T (op_approve m1 None (yes_yes 8)) = (asked, Some w) /\ approve_manifest T (op_approve m2 None (yes_yes 8)) = (asked, Some w')).
  { eexists _, _, _. split; vm_compute; reflexivity. }
  destruct X as (asked & w & w' & A & B).
  assert (M1 : manifest_in (stored_text m1) m1).
  { destruct (manifest_storage m1 ltac:(vm_compute; reflexivity)) as (b & S & R). exists b. now split. }
  assert (M2 : manifest_in (stored_text m2) m2).
  { destruct (manifest_storage m2 ltac:(vm_compute; reflexivity)) as (b & S & R). exists b. now split. }
  specialize (H T (op_approve m1 None (yes_yes 8)) (op_approve m2 None (yes_yes 8)) asked w w' m1 m2
    eq_refl eq_refl eq_refl eq_refl eq_refl eq_refl eq_refl eq_refl eq_refl eq_refl eq_refl A B M1 M2). discriminate H.
Qed.
Print Assumptions c57_environment_refuted.

Example c57_nontrivial :
  (exists asked w, approve_manifest T (op_approve (VM2 (op_manifest env_1)) None (yes_yes 8)) = (asked, Some w) /\ length asked = 8%nat
     /\ fst w = bs "alice-a-b-7.approval")
  /\ (exists asked w, approve_manifest T (op_approve (VM1 op_v1) (Some op_pset) (yes_yes 7)) = (asked, Some w) /\ length asked = 7%nat)
  /\ snd (approve_manifest T (op_approve (VM1 op_v1) (Some op_pset) (yes_yes 6))) = None
  /\ snd (approve_manifest T (op_approve (VM1 op_v1) None (yes_yes 7))) = None
  /\ snd (approve_manifest T (op_approve (VM2 (op_manifest env_1)) (Some op_pset) (yes_yes 8))) = None.
Proof.
  split; [eexists _, _; split; [vm_compute; reflexivity|split; vm_compute; reflexivity]|].
  split; [eexists _, _; split; [vm_compute; reflexivity|vm_compute; reflexivity]|].
  split; [vm_compute; reflexivity|split; vm_compute; reflexivity].
Qed.
