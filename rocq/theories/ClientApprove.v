(** Proofs about the approval commands of the client. *)
From Coq Require Import Permutation Sorting.Sorted ZifyBool ZifyN ZifyNat.
From Verif Require Import Base Utf8 Hex HexProofs Borsh Json Types TypesBorsh TypesJson TypesJsonProofs TypesJsonLaws StorageProofs Msg World Attest Services
  Builder SpecApproval ApprovalProofs SpecExport Client SpecClient ClientProofs ClientSets ClientFiles.
Local Open Scope N_scope.

Lemma set_eqb_eq a b : set_eqb a b = true <-> a = b.
Proof.
  unfold set_eqb, members_eqb. rewrite Bool.andb_true_iff, N.eqb_eq, (list_eqb_true member_eqb member_eqb_eq). destruct a, b; cbn.
  split; [intros [-> ->]; reflexivity|intros E; split; congruence].
Qed.
Lemma patch_eqb_eq a b : patch_eqb a b = true <-> a = b.
Proof.
  unfold patch_eqb. rewrite Bool.andb_true_iff, N.eqb_eq, (list_eqb_true bytes_eqb bytes_eqb_eq). destruct a, b; cbn.
  split; [intros [-> ->]; reflexivity|intros E; split; congruence].
Qed.

(** Approval files read back. *)
Definition portable (a : approval) : Prop := utf8_valid (m_alias (ap_member a)) = true
  /\ 2 * lenN (m_pub_key (ap_member a)) < STR_MAX_LENGTH /\ 2 * lenN (ap_signature a) < STR_MAX_LENGTH.
Lemma portable_iff a : portable a <-> jwf js_approval a = true.
Proof.
  unfold portable. cbn [js_approval js_member js_hex js_string jwf]. rewrite !Bool.andb_true_iff, !N.ltb_lt. tauto.
Qed.
Lemma approval_reads a : portable a -> json_from_slice js_approval (write (jser js_approval a)) = Some a.
Proof.
  intros P. apply portable_iff in P. pose proof js_approval_law as L. destruct (L a P) as [G _].
  apply (from_slice_good js_approval a _ G). le128.
Qed.

Section Approve.
  Context {Y : sys}.
  Lemma pair_has_keys (OK : sys_ok Y) seed ek sk alias : s_pair Y seed = Some (ek, sk) -> has_keys Y (QuorumMember alias (ek ++ sk)) ek sk.
  Proof. intros P. destruct (ok_pair Y OK _ _ _ P) as (L1 & L2 & P1 & P2). now repeat split. Qed.
  Lemma public_hex_of f k : public_key_file Y f k <-> exists kk, public_from_hex_file Y f = Some kk /\ public_to_bytes kk = k.
  Proof. rewrite <- public_file_iff. split; intros (kk & H & E); exists kk; split; auto. Qed.

  Definition approve_inner (a : approve_args) : option (bytes * (bytes * bytes) * versioned_manifest) :=
    (let? kp := read_pair Y (aa_secret a) in
       let? m := read_manifest_compat (aa_manifest a) in
       let? k := public_from_hex_file Y (aa_quorum_key a) in
       let? ps := match m, aa_patch_set a with
                  | VM2 _, Some _ => None
                  | VM2 _, None => Some None
                  | _, Some d => let? p := get_patch_set Y d in Some (Some p)
                  | _, None => None
                  end in
       let? ms := get_set Y (aa_manifest_set a) in
       let? ss := get_set Y (aa_share_set a) in
       let? nc := extract_nitro_config Y (aa_pcrs a) (aa_pcr3 a) in
       let? h := extract_pivot_hash (aa_pivot_hash a) in
       if approve_checks m ms ss ps nc h k then Some (kp, m) else None).

  Lemma patch_choice m pd ps : (match m, pd with
                  | VM2 _, Some _ => None
                  | VM2 _, None => Some None
                  | _, Some d => let? p := get_patch_set Y d in Some (Some p)
                  | _, None => None
                  end) = Some ps ->
     (match m with VM2 _ => true | VM1 x => patch_matches (mf_patch_set x) ps | VM0 x => patch_matches (mf0_patch_set x) ps end) = true ->
     match m with
              | VM2 _ => pd = None
              | VM1 x => exists d, pd = Some d /\ directory_patch_set Y d (mf_patch_set x)
              | VM0 x => exists d, pd = Some d /\ directory_patch_set Y d (mf0_patch_set x) end.
  Proof.
    destruct m as [x|x|x], pd as [d|]; try discriminate; try reflexivity; intros E M; apply obind_some in E as (p & G & E);
      assert (ps = Some p) as -> by congruence; cbn [patch_matches] in M; apply patch_eqb_eq in M; exists d; (split; [reflexivity|]);
      rewrite M; now apply get_patch_iff.
  Qed.
  Lemma patch_choice_back m pd : match m with
              | VM2 _ => pd = None
              | VM1 x => exists d, pd = Some d /\ directory_patch_set Y d (mf_patch_set x)
              | VM0 x => exists d, pd = Some d /\ directory_patch_set Y d (mf0_patch_set x) end ->
    exists ps, (match m, pd with
                  | VM2 _, Some _ => None
                  | VM2 _, None => Some None
                  | _, Some d => let? p := get_patch_set Y d in Some (Some p)
                  | _, None => None
                  end) = Some ps /\
     (match m with VM2 _ => true | VM1 x => patch_matches (mf_patch_set x) ps | VM0 x => patch_matches (mf0_patch_set x) ps end) = true.
  Proof.
    destruct m as [x|x|x].
    - intros ->. exists None. now split.
    - intros (d & -> & D). apply get_patch_iff in D. exists (Some (mf_patch_set x)). rewrite D. split; [reflexivity|]. now apply patch_eqb_eq.
    - intros (d & -> & D). apply get_patch_iff in D. exists (Some (mf0_patch_set x)). rewrite D. split; [reflexivity|]. now apply patch_eqb_eq.
  Qed.

  Lemma approve_inner_iff a seed ek sk m : approve_inner a = Some (seed, (ek, sk), m) <->
    personal_key Y (aa_secret a) seed ek sk /\ (exists c, aa_manifest a = Some c /\ manifest_try_from_slice_compat c = Some m)
    /\ agrees Y m (aa_manifest_set a) (aa_share_set a) (aa_patch_set a) (aa_pcrs a) (aa_pcr3 a) (aa_pivot_hash a) (aa_quorum_key a).
  Proof.
    unfold approve_inner. split.
    - intros H. apply obind_some in H as ([sd [e s]] & RP & H). apply obind_some in H as (m' & RM & H). apply obind_some in H as (k & RK & H).
      apply obind_some in H as (ps & CP & H). apply obind_some in H as (ms & GM & H). apply obind_some in H as (ss & GS & H).
      apply obind_some in H as (nc & NC & H). apply obind_some in H as (h & PH & H). apply if_some in H as [CK H].
      assert (sd = seed /\ e = ek /\ s = sk /\ m' = m) as (-> & -> & -> & ->) by (repeat split; congruence). clear H.
      unfold approve_checks in CK. rewrite !Bool.andb_true_iff in CK. destruct CK as (((((C1 & C2) & C3) & C4) & C5) & C6).
      apply set_eqb_eq in C1, C2. apply nitro_eqb_eq in C4. apply bytes_eqb_eq in C5, C6.
      split; [now apply read_pair_iff|]. split; [unfold read_manifest_compat in RM; apply obind_some in RM; exact RM|].
      constructor.
      + rewrite C1. now apply get_set_iff.
      + rewrite C2. now apply get_set_iff.
      + eapply patch_choice; eauto.
      + rewrite C4. now apply nitro_iff.
      + rewrite C5. now apply pivot_hash_iff.
      + rewrite C6. apply public_hex_of. eauto.
    - intros (PK & (c & Ec & Em) & [A1 A2 A3 A4 A5 A6]). apply read_pair_iff in PK. rewrite PK. cbn [obind]. unfold read_manifest_compat. rewrite Ec. cbn [obind].
      rewrite Em. cbn [obind]. apply public_hex_of in A6 as (kk & K & Ek). rewrite K. cbn [obind].
      destruct (patch_choice_back m _ A3) as (ps & CP & CM).
      match goal with |- obind ?x ?f = _ => transitivity (obind (Some ps) f); [exact (f_equal (fun o => obind o f) CP)|] end. cbn [obind].
      apply (proj2 (get_set_iff _ (vm_manifest_set m))) in A1. apply (proj2 (get_set_iff _ (vm_share_set m))) in A2. rewrite A1, A2. cbn [obind].
      apply nitro_iff in A4. rewrite A4. cbn [obind]. apply pivot_hash_iff in A5. rewrite A5. cbn [obind].
      unfold approve_checks. rewrite CM. rewrite !(proj2 (set_eqb_eq _ _) eq_refl), (proj2 (nitro_eqb_eq _ _) eq_refl), Ek, !bytes_eqb_refl. reflexivity.
  Qed.
  Lemma approve_unfold a : approve_manifest Y a =
    match approve_inner a with
    | None => ([], None)
    | Some (kp, m) =>
      let '(asked, ok) := if aa_auto a then ([], true) else ask_all (approve_questions m) (aa_stdin a) in
      if negb ok then (asked, None)
      else let ap := Approval (s_sign Y (fst kp) (manifest_hash Y m))
                       (QuorumMember (aa_alias a) (public_to_bytes (snd kp))) in
           (asked, Some (approval_name (aa_alias a) m, write (jser js_approval ap)))
    end.
  Proof. reflexivity. Qed.
End Approve.
