(** C88: extracting the enclave's key from an attestation document. *)
From Coq Require Import ZifyBool ZifyN ZifyNat.
From Verif Require Import Base Utf8 Hex HexProofs Borsh Json Types TypesBorsh TypesJson Msg World Attest Services
  SpecProtocol SpecApproval ApprovalProofs SpecAttest SpecExport ExportProofs CliParser Client Toy ToyClient FileTools PropsFileTools EphHex.
Local Open Scope N_scope.

(** *** Specification *)
(** the document at the path parses and carries the well-formed public key [pk] *)
Definition carries (Y : sys) (f : file) (pk : bytes) : Prop :=
  exists cose doc, f = Some cose /\ s_doc Y cose = Some doc /\ ad_public_key doc = Some pk
  /\ exists ek sk, has_keys Y (QuorumMember [] pk) ek sk.

(** The command writes exactly the lower-case hex text of the key in the document,
    to the given file only, and does so exactly if the document parses and carries
    a well-formed key. *)
Theorem c88_writes_the_documents_key : forall Y um d doc_path eph_path l,
  get_ephemeral_key_hex Y um d doc_path eph_path = Some l <->
  exists pk, carries Y (contents d doc_path) pk /\ l = [Open eph_path um; Write eph_path (encode pk)].
Proof.
  intros Y um d dp ep l. unfold get_ephemeral_key_hex, carries. split.
  - destruct (contents d dp) as [cose|]; [|discriminate]. cbn [obind extract_attestation_doc].
    destruct (s_doc Y cose) as [doc|] eqn:D; [|discriminate]. cbn [obind].
    destruct (ad_public_key doc) as [pk|] eqn:P; [|discriminate]. cbn [obind].
    destruct (public_from_bytes Y pk) as [[ek sk]|] eqn:K; [|discriminate]. cbn [ok_opt obind]. intros E.
    exists pk. split.
    + exists cose, doc. repeat (split; [assumption || reflexivity|]). exists ek, sk. now apply (public_keys Y (QuorumMember [] pk)).
    + apply public_parts in K as (K & _). cbn [fst snd] in K.
      assert (X : write_with_msg um ep (encode (public_to_bytes (ek, sk))) = l) by (injection E; auto).
      rewrite <- X. unfold write_with_msg, public_to_bytes. cbn [fst snd]. now rewrite <- K.
  - intros (pk & (cose & doc & E & D & P & ek & sk & K) & ->). rewrite E. cbn [obind extract_attestation_doc]. rewrite D. cbn [obind].
    rewrite P. cbn [obind]. apply (public_keys Y (QuorumMember [] pk)) in K. cbn [m_pub_key] in K. rewrite K. cbn [ok_opt obind].
    apply public_parts in K as (K & _). cbn [fst snd] in K. unfold write_with_msg, public_to_bytes. cbn [fst snd]. now rewrite <- K.
Qed.
Print Assumptions c88_writes_the_documents_key.

(** A file then encrypted to the extracted key is readable with the enclave's key:
    whoever holds the seed behind the document's public key, that is the enclave
    for a document it issued (C55), gets exactly the plaintext. *)
Theorem c88_encrypting_to_the_extracted_key : forall Y, sys_ok Y -> crypto_ok Y ->
  forall um d doc_path eph_path seed ek sk l rnd mp cp plain d2,
  s_pair Y seed = Some (ek, sk) -> carries Y (contents d doc_path) (ek ++ sk) ->
  get_ephemeral_key_hex Y um d doc_path eph_path = Some l ->
  eph_path <> mp -> contents d mp = Some plain ->
  runs Y um (TEncrypt rnd mp cp eph_path) (done d l) d2 ->
  exists c, contents d2 cp = Some c /\ s_decrypt Y seed c = Ok plain.
Proof.
  intros Y OK CR um d dp ep seed ek sk l rnd mp cp plain d2 P Ca G N M (calls & C & ->).
  apply c88_writes_the_documents_key in G as (pk & Ca' & ->).
  assert (pk = ek ++ sk) as ->.
  { destruct Ca as (c1 & d1 & A1 & A2 & A3 & _), Ca' as (c2 & d2' & B1 & B2 & B3 & _).
    rewrite A1 in B1. injection B1 as <-. rewrite A2 in B2. injection B2 as <-. congruence. }
  assert (Ce : contents (done d [Open ep um; Write ep (encode (ek ++ sk))]) ep = Some (encode (ek ++ sk))).
  { destruct (plain_done d um ep (encode (ek ++ sk))) as (m & E). exact (contents_eq _ _ _ _ E). }
  assert (Cm : contents (done d [Open ep um; Write ep (encode (ek ++ sk))]) mp = Some plain).
  { unfold contents. change [Open ep um; Write ep (encode (ek ++ sk))] with (write_with_msg um ep (encode (ek ++ sk))). rewrite plain_other by exact N. exact M. }
  cbn [tool_calls] in C. unfold p256_encrypt in C. rewrite Ce, (read_public_encode OK seed ek sk P) in C. cbn [obind fst] in C.
  rewrite Cm in C. cbn [obind] in C. destruct (s_encrypt Y ek rnd plain) as [c|] eqn:EN; [|discriminate]. cbn [ok_opt obind] in C.
  assert (X : calls = write_with_msg um cp c) by (injection C; auto). rewrite X.
  exists c. split.
  - destruct (plain_done (done d [Open ep um; Write ep (encode (ek ++ sk))]) um cp c) as (m & E). exact (contents_eq _ _ _ _ E).
  - eapply (cr_decrypt Y CR); eauto.
Qed.
Print Assumptions c88_encrypting_to_the_extracted_key.

(** *** Nothing is verified *)
(** The toy system, with a security module nobody vouches for. *)
Definition unvouched : sys := let Y := toy calm 0 in {|
  s_nsm := s_nsm Y; s_nsm_step := s_nsm_step Y; s_nsm_time := s_nsm_time Y; s_root := s_root Y;
  s_sha256 := s_sha256 Y; s_sha384 := s_sha384 Y; s_sha512 := s_sha512 Y;
  s_point_ok := s_point_ok Y; s_pair := s_pair Y; s_sign := s_sign Y; s_verify := s_verify Y;
  s_encrypt := s_encrypt Y; s_decrypt := s_decrypt Y; s_combine := s_combine Y; s_split := s_split Y;
  s_doc := s_doc Y; s_chain_ok := fun _ _ _ _ => false; s_cose_sig_ok := fun _ _ => false;
  s_rng := s_rng Y; s_io := s_io Y; s_version := s_version Y; s_commit := s_commit Y |}.
Definition forger_seed : bytes := repeat x07 32.
Definition forged : bytes := repeat x00 32 ++ (x04 :: forger_seed ++ repeat x00 32) ++ (x04 :: forger_seed ++ repeat x01 32) ++ repeat x00 96.
Definition forged_disk : disk := fun p => if bytes_eqb p (bs "doc") then Some (forged, 420) else None.

(** Success does not mean that the document is genuine: no signature, chain or time
    is looked at, so anyone's key can be in it. *)
Theorem c88_refuted_document_is_verified : ~ (forall Y um d doc_path eph_path l,
  get_ephemeral_key_hex Y um d doc_path eph_path = Some l ->
  exists cose doc secs, contents d doc_path = Some cose /\ attestation_doc_from_der Y cose (s_root Y) secs = Ok doc).
Proof.
  intros H.
  destruct (get_ephemeral_key_hex unvouched 420 forged_disk (bs "doc") (bs "key")) as [l|] eqn:E.
  2:{ vm_compute in E. discriminate E. }
  destruct (H _ _ _ _ _ _ E) as (cose & doc & secs & C & A). unfold attestation_doc_from_der in A.
  destruct (s_doc unvouched cose) as [dd|]; [|discriminate A]. destruct (validate_attestation_doc dd); [|discriminate A]. discriminate A.
Qed.
Print Assumptions c88_refuted_document_is_verified.

Example c88_nontrivial :
  carries unvouched (contents forged_disk (bs "doc")) ((x04 :: forger_seed ++ repeat x00 32) ++ (x04 :: forger_seed ++ repeat x01 32))
  /\ s_pair unvouched forger_seed = Some (x04 :: forger_seed ++ repeat x00 32, x04 :: forger_seed ++ repeat x01 32)
  /\ is_some (get_ephemeral_key_hex unvouched 420 forged_disk (bs "doc") (bs "key")) = true.
Proof.
  split; [|split; vm_compute; reflexivity].
  eexists forged, _. split; [reflexivity|]. split; [vm_compute; reflexivity|]. split; [vm_compute; reflexivity|].
  exists (x04 :: forger_seed ++ repeat x00 32), (x04 :: forger_seed ++ repeat x01 32). vm_compute. auto.
Qed.
