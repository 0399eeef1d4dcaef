(** C22-C24: attestation documents. *)
From Verif Require Import Base Hex Types Msg World Attest Services SpecAttest SpecExport AttestProofs Toy ToyRuns.
Local Open Scope N_scope.

(** ** C22 *)
Theorem c22_user_input_exact : forall d ud p0 p1 p2 p3,
  verify_user_input d ud p0 p1 p2 p3 = Ok tt <-> doc_matches d ud p0 p1 p2 p3.
Proof. exact user_input_iff. Qed.
Print Assumptions c22_user_input_exact.

Theorem c22_against_manifest_exact : forall Y k d mh p0 p1 p2 p3,
  verify_against_manifest Y k d mh p0 p1 p2 p3 = Ok tt <-> doc_matches d mh p0 p1 p2 p3 /\ doc_commits Y k d mh.
Proof. exact against_manifest_iff. Qed.
Print Assumptions c22_against_manifest_exact.

(** Decoding and authenticating a document ([t] is the validation time given by the caller). *)
Theorem c22_document_authentic_exact : forall Y cose t d,
  attestation_doc_from_der Y cose (s_root Y) t = Ok d <-> doc_authentic Y cose t d.
Proof. intros. unfold doc_authentic. apply from_der_iff. Qed.
Print Assumptions c22_document_authentic_exact.

Definition fwd_parsed : att_doc := match toy_doc fwd_doc with Some d => d | None => AttDoc [] SHA384 0 [] [] [] None None None end.
Example c22_nontrivial : attestation_doc_from_der T fwd_doc (s_root T) 1000 = Ok fwd_parsed
  /\ verify_against_manifest T Setup fwd_parsed (mh_of tm2) (pcr0 (mf2_enclave tm2)) (pcr1 (mf2_enclave tm2))
       (pcr2 (mf2_enclave tm2)) (pcr3 (mf2_enclave tm2)) = Ok tt
  /\ verify_against_manifest T Live fwd_parsed (mh_of tm2) (pcr0 (mf2_enclave tm2)) (pcr1 (mf2_enclave tm2))
       (pcr2 (mf2_enclave tm2)) (pcr3 (mf2_enclave tm2)) <> Ok tt.
Proof. vm_compute. repeat split. discriminate. Qed.

(** No age limit: for every accepted document, the same document with any other
    non-zero timestamp passes the syntax and manifest checks. *)
Definition with_time (t : N) (d : att_doc) : att_doc :=
  AttDoc (ad_module_id d) (ad_digest d) t (ad_pcrs d) (ad_certificate d) (ad_cabundle d) (ad_public_key d) (ad_user_data d) (ad_nonce d).
Theorem c22_timestamp_never_compared : forall Y k d t mh p0 p1 p2 p3, t <> 0 ->
  validate_attestation_doc d = Ok tt -> verify_against_manifest Y k d mh p0 p1 p2 p3 = Ok tt ->
  validate_attestation_doc (with_time t d) = Ok tt /\ verify_against_manifest Y k (with_time t d) mh p0 p1 p2 p3 = Ok tt.
Proof.
  intros Y k d t mh p0 p1 p2 p3 Nz V M. split.
  - apply syntax_iff in V. apply syntax_iff. unfold doc_syntax in *. cbn. tauto.
  - apply against_manifest_iff in M. apply against_manifest_iff. exact M.
Qed.
Print Assumptions c22_timestamp_never_compared.

(** ** C23 *)
Theorem c23_syntax_exact : forall d, validate_attestation_doc d = Ok tt <-> doc_syntax 32 d.
Proof. exact syntax_iff. Qed.
Print Assumptions c23_syntax_exact.

(** Against the documented index range [0, 32) the validator is off by one. *)
Definition doc32 : att_doc := AttDoc (bs "m") SHA384 1 [(32, repeat x00 48)] (bs "leaf") [bs "root"] None None None.
Theorem c23_documented_bounds_refuted : ~ (forall d, validate_attestation_doc d = Ok tt <-> doc_syntax 31 d).
Proof.
  intros H. assert (V : validate_attestation_doc doc32 = Ok tt) by (vm_compute; reflexivity).
  apply H in V. destruct V as (_ & _ & _ & _ & B & _). destruct (B 32 (repeat x00 48)) as [B1 _]; [now left|]. lia.
Qed.
Print Assumptions c23_documented_bounds_refuted.

(** Documents within the documented range are judged exactly as documented. *)
Theorem c23_documented_bounds_without_32 : forall d, (forall i v, In (i, v) (ad_pcrs d) -> i <> 32) ->
  (validate_attestation_doc d = Ok tt <-> doc_syntax 31 d).
Proof.
  intros d H. rewrite syntax_iff. unfold doc_syntax.
  split; intros (A & B & C & D & E & F); repeat (split; [assumption|]); split; try exact F;
    intros i v I; destruct (E i v I) as [E1 E2]; (split; [|exact E2]); specialize (H i v I); lia.
Qed.
Print Assumptions c23_documented_bounds_without_32.

Example c23_nontrivial : validate_attestation_doc fwd_parsed = Ok tt /\ length (ad_pcrs fwd_parsed) = 32%nat.
Proof. vm_compute. auto. Qed.

(** ** C24 *)
Theorem c24_commitment_binding : forall k mh pk k' mh' pk',
  commitment_text k mh pk = commitment_text k' mh' pk' -> k = k' /\ mh = mh' /\ pk = pk'.
Proof. exact text_inj. Qed.
Print Assumptions c24_commitment_binding.

(** The register value the code computes is the hash chain of that text. *)
Theorem c24_commitment_is_hash_of_text : forall Y k mh pk,
  expected_commitment_pcr Y k mh pk = Ok (committed_value Y k mh pk).
Proof. exact expected_commitment. Qed.
Print Assumptions c24_commitment_is_hash_of_text.

(** Hence, barring SHA-384 collisions, an attested register value determines kind, manifest hash and key. *)
Theorem c24_register_binding : forall Y, (forall x y, s_sha384 Y x = s_sha384 Y y -> x = y) ->
  forall k mh pk k' mh' pk', committed_value Y k mh pk = committed_value Y k' mh' pk' -> k = k' /\ mh = mh' /\ pk = pk'.
Proof. intros Y I k mh pk k' mh' pk' H. apply I, app_inv_head, I in H. now apply text_inj. Qed.
Print Assumptions c24_register_binding.

Example c24_nontrivial : commitment_text Setup (bs "h") (bs "k") =
  bs "{""domain"":""qos-setup-manifest-pcr-commitment-v1"",""ephemeralPublicKey"":""6b"",""manifestHash"":""68""}".
Proof. vm_compute. reflexivity. Qed.
