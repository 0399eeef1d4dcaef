(** serde_json codecs of the protocol messages: msg.rs:84-262
    (rename_all = "camelCase" on the enum renames the variants, not their
    fields), error.rs and p256 errors (names unchanged), state.rs (PascalCase,
    camelCase aliases), genesis.rs, qos_nsm/src/types.rs.  Generated by
    /verif/tools/gen_msg.py. *)
From Verif Require Import Base Utf8 Hex Json Types TypesJson JsonComb Msg MsgBorsh.
Local Open Scope N_scope.

(** state.rs:21-52: legacy PascalCase names, camelCase aliases on input *)
Definition phase_name (p : phase) : bytes :=
  match p with
  | UnrecoverableError => bs "UnrecoverableError" | WaitingForBootInstruction => bs "WaitingForBootInstruction"
  | GenesisBooted => bs "GenesisBooted" | WaitingForQuorumShards => bs "WaitingForQuorumShards"
  | QuorumKeyProvisioned => bs "QuorumKeyProvisioned" | WaitingForForwardedKey => bs "WaitingForForwardedKey" end.
Definition phase_alias (p : phase) : bytes :=
  match p with
  | UnrecoverableError => bs "unrecoverableError" | WaitingForBootInstruction => bs "waitingForBootInstruction"
  | GenesisBooted => bs "genesisBooted" | WaitingForQuorumShards => bs "waitingForQuorumShards"
  | QuorumKeyProvisioned => bs "quorumKeyProvisioned" | WaitingForForwardedKey => bs "waitingForForwardedKey" end.
Definition all_phases : list phase :=
  [UnrecoverableError; WaitingForBootInstruction; GenesisBooted; WaitingForQuorumShards; QuorumKeyProvisioned; WaitingForForwardedKey].
Definition js_phase : jcodec phase :=
  JCodec (fun p => str (phase_name p))
         (fun d j => match enum_text j d with
                     | Some s => find (fun p => bytes_eqb s (phase_name p) || bytes_eqb s (phase_alias p)) all_phases
                     | None => None end)
         (fun _ => true) 0.

(** qos_nsm/src/types.rs:20-46 *)
Definition v_nsm_error_code : jvariants nsm_error_code_sum :=
  v_unit (bs "Success")
  (v_unit (bs "InvalidArgument")
  (v_unit (bs "InvalidIndex")
  (v_unit (bs "InvalidResponse")
  (v_unit (bs "ReadOnlyIndex")
  (v_unit (bs "InvalidOperation")
  (v_unit (bs "BufferTooSmall")
  (v_unit (bs "InputTooLarge")
  (v_unit (bs "InternalError") v_nil)))))))).
Definition js_nsm_code : jcodec nsm_error_code := js_iso nsm_error_code_of nsm_error_code_to (js_enum v_nsm_error_code).

(** qos_nsm/src/types.rs NsmDigest *)
Definition v_nsm_digest : jvariants nsm_digest_sum :=
  v_unit (bs "SHA256")
  (v_unit (bs "SHA384")
  (v_unit (bs "SHA512") v_nil)).
Definition js_digest : jcodec nsm_digest := js_iso nsm_digest_of nsm_digest_to (js_enum v_nsm_digest).


(** qos_nsm/src/types.rs NsmResponse *)
Definition v_nsm_response : jvariants nsm_response_sum :=
  v_new (bs "describePCR") (js_struct false (f_cons (bs "lock") js_bool (f_one (bs "data") js_hex)))
  (v_new (bs "extendPCR") (js_struct false (f_one (bs "data") js_hex))
  (v_unit (bs "lockPCR")
  (v_unit (bs "lockPCRs")
  (v_new (bs "describeNSM") (js_struct false (f_cons (bs "version_major") js_u16 (f_cons (bs "version_minor") js_u16 (f_cons (bs "version_patch") js_u16 (f_cons (bs "module_id") js_string (f_cons (bs "max_pcrs") js_u16 (f_cons (bs "locked_pcrs") js_set_u16 (f_one (bs "digest") js_digest))))))))
  (v_new (bs "attestation") (js_struct false (f_one (bs "document") js_hex))
  (v_new (bs "getRandom") (js_struct false (f_one (bs "random") js_hex))
  (v_new (bs "error") js_nsm_code v_nil))))))).
Definition js_nsm_response : jcodec nsm_response := js_iso nsm_response_of nsm_response_to (js_enum v_nsm_response).

(** qos_p256/src/lib.rs:45-95 *)
Definition v_p256_error : jvariants p256_error_sum :=
  v_new (bs "QosHex") js_string
  (v_new (bs "IOError") js_string
  (v_unit (bs "FailedToSerializeEnvelope")
  (v_unit (bs "FailedToDeserializeEnvelope")
  (v_unit (bs "AesGcm256DecryptError")
  (v_unit (bs "AesGcm256EncryptError")
  (v_unit (bs "FailedToCreateAes256GcmCipher")
  (v_unit (bs "FailedToDeserializePublicKey")
  (v_unit (bs "FailedToCoercePublicKeyToIntendedLength")
  (v_unit (bs "FailedToCoerceNonceToIntendedLength")
  (v_unit (bs "FailedToDeserializeSignature")
  (v_unit (bs "FailedSignatureVerification")
  (v_unit (bs "FailedToReadSecret")
  (v_unit (bs "FailedToReadPublicKey")
  (v_unit (bs "EncodedPublicKeyTooLong")
  (v_unit (bs "EncodedPublicKeyTooShort")
  (v_unit (bs "HkdfExpansionFailed")
  (v_unit (bs "MasterSeedInvalidUtf8")
  (v_unit (bs "MasterSeedInvalidLength")
  (v_unit (bs "InvalidMasterSeed")
  (v_unit (bs "CannotCoerceLenToU8") v_nil)))))))))))))))))))).
Definition js_p256_error : jcodec p256_error := js_iso p256_error_of p256_error_to (js_enum v_p256_error).

(** error.rs:23-211 *)
Definition v_perr : jvariants perr_sum :=
  v_unit (bs "InvalidShare")
  (v_unit (bs "ReconstructionErrorEmptySecret")
  (v_unit (bs "ReconstructionErrorIncorrectPubKey")
  (v_unit (bs "IOError")
  (v_new (bs "InvalidManifestApproval") js_approval
  (v_unit (bs "NotEnoughApprovals")
  (v_new (bs "NoMatchingRoute") js_phase
  (v_new (bs "InvalidPivotHash") (js_struct false (f_cons (bs "expected") js_string (f_one (bs "actual") js_string)))
  (v_unit (bs "OversizeMsg")
  (v_unit (bs "InvalidMsg")
  (v_unit (bs "EnclaveClient")
  (v_unit (bs "DecryptionFailed")
  (v_unit (bs "InvalidPrivateKey")
  (v_unit (bs "FailedToParseFromString")
  (v_unit (bs "BadEphemeralKeyPath")
  (v_unit (bs "CannotModifyPostPivotStatic")
  (v_new (bs "FailedToGetEphemeralKey") js_p256_error
  (v_unit (bs "FailedToPutEphemeralKey")
  (v_unit (bs "CannotRotateNonExistentEphemeralKey")
  (v_new (bs "CannotDeleteEphemeralKey") js_string
  (v_new (bs "FailedToGetQuorumKey") js_p256_error
  (v_unit (bs "FailedToPutQuorumKey")
  (v_unit (bs "FailedToGetManifestEnvelope")
  (v_unit (bs "FailedToPutManifestEnvelope")
  (v_unit (bs "FailedToPutPivot")
  (v_unit (bs "AppClientRecvTimeout")
  (v_unit (bs "AppClientRecvInterrupted")
  (v_unit (bs "AppClientRecvConnectionClosed")
  (v_new (bs "AppClientConnectError") js_string
  (v_new (bs "AppClientSendError") js_string
  (v_new (bs "AppClientError") js_string
  (v_unit (bs "OversizedPayload")
  (v_unit (bs "ProtocolMsgDeserialization")
  (v_unit (bs "BadShareSetApprovals")
  (v_unit (bs "CouldNotVerifyApproval")
  (v_unit (bs "NotShareSetMember")
  (v_unit (bs "NotManifestSetMember")
  (v_new (bs "P256Error") js_p256_error
  (v_new (bs "InvalidP256DRKey") js_p256_error
  (v_unit (bs "IncorrectSecretLen")
  (v_new (bs "QosAttestError") js_string
  (v_new (bs "DifferentQuorumKey") (js_struct false (f_cons (bs "expected") js_string (f_one (bs "actual") js_string)))
  (v_new (bs "DifferentManifestSet") (js_struct false (f_cons (bs "expected") js_string (f_one (bs "actual") js_string)))
  (v_new (bs "DifferentNamespaceName") (js_struct false (f_cons (bs "expected") js_string (f_one (bs "actual") js_string)))
  (v_new (bs "LowNonce") (js_struct false (f_cons (bs "expected") js_u32 (f_one (bs "actual") js_u32)))
  (v_new (bs "DifferentPcr3") (js_struct false (f_cons (bs "expected") js_string (f_one (bs "actual") js_string)))
  (v_unit (bs "MissingEphemeralKey")
  (v_unit (bs "InvalidEphemeralKey")
  (v_unit (bs "InvalidEncryptedQuorumKeySignature")
  (v_unit (bs "EncryptedQuorumKeyInvalidLen")
  (v_unit (bs "InvalidQuorumSecret")
  (v_unit (bs "WrongQuorumKey")
  (v_new (bs "InvalidStateTransition") (js_tuple2 js_phase js_phase)
  (v_unit (bs "DuplicateApproval")
  (v_new (bs "DifferentManifest") (js_struct false (f_cons (bs "expected") js_string (f_one (bs "actual") js_string)))
  (v_new (bs "QosCrypto") js_string
  (v_unit (bs "PoolExpandError")
  (v_new (bs "InvalidPivotEnv") js_string
  (v_unit (bs "MissingLiveEphemeralKey")
  (v_unit (bs "DuplicateQuorumMember")
  (v_unit (bs "LegacyGenesisNotSupported") v_nil)))))))))))))))))))))))))))))))))))))))))))))))))))))))))))).
Definition js_perr : jcodec perr := js_iso perr_of perr_to (js_enum v_perr).

(** genesis.rs:19-37 *)
Definition js_genesis_set : jcodec genesis_set :=
  js_iso (fun p : list quorum_member * N => GenesisSet (fst p) (snd p)) (fun s => (gs_members s, gs_threshold s))
    (js_struct false (f_cons (bs "members") (js_vec js_member) (f_one (bs "threshold") js_u32))).
(** genesis.rs:39-55 *)
Definition js_member_shard : jcodec member_shard :=
  js_iso (fun p : quorum_member * bytes => MemberShard (fst p) (snd p)) (fun s => (sh_member s, sh_shard s))
    (js_struct false (f_cons (bs "member") js_member (f_one (bs "shard") js_hex))).
(** genesis.rs:80-103 (camelCase) *)
Definition js_member_output : jcodec genesis_member_output :=
  js_iso (fun p : quorum_member * (bytes * bytes) => let '(a, (b, c)) := p in GenesisMemberOutput a b c)
    (fun s => (gm_member s, (gm_share s, gm_share_hash s)))
    (js_struct false (f_cons (bs "shareSetMember") js_member
      (f_cons (bs "encryptedQuorumKeyShare") js_hex (f_one (bs "shareHash") (js_hex_n 64))))).
(** genesis.rs:117-167 *)
Definition js_genesis_output : jcodec genesis_output :=
  js_iso (fun p : genesis_set * (option bytes * (bytes * (list genesis_member_output * (list (list member_shard) *
                 (option bytes * (bytes * (bytes * (bytes * bytes)))))))) =>
           let '(a, (b, (c, (d, (e, (f, (g, (h, (i, j))))))))) := p in GenesisOutput a b c d e f g h i j)
    (fun o => (go_set o, (go_dr_key o, (go_quorum_key o, (go_member_outputs o, (go_recovery_permutations o,
              (go_dr_key_wrapped o, (go_quorum_key_hash o, (go_test_ciphertext o, (go_test_signature o, go_test_message o))))))))))
    (js_struct false
      (f_cons (bs "set") js_genesis_set (f_opt (bs "dr_key") js_hex (f_cons (bs "quorum_key") js_hex
      (f_cons (bs "member_outputs") (js_vec js_member_output) (f_cons (bs "recovery_permutations") (js_vec (js_vec js_member_shard))
      (f_opt (bs "dr_key_wrapped_quorum_key") js_hex (f_cons (bs "quorum_key_hash") (js_hex_n 64)
      (f_cons (bs "test_message_ciphertext") js_hex (f_cons (bs "test_message_signature") js_hex
      (f_one (bs "test_message") js_hex))))))))))).

(** msg.rs:81-258 *)
Definition v_msg : jvariants msg_sum :=
  v_new (bs "protocolErrorResponse") js_perr
  (v_unit (bs "statusRequest")
  (v_new (bs "statusResponse") js_phase
  (v_new (bs "bootStandardRequest") (js_struct false (f_cons (bs "manifest_envelope") js_versioned_envelope (f_one (bs "pivot") js_hex)))
  (v_new (bs "bootStandardResponse") (js_struct false (f_one (bs "nsm_response") js_nsm_response))
  (v_new (bs "bootGenesisRequest") (js_struct false (f_cons (bs "set") js_genesis_set (f_opt1 (bs "dr_key") js_hex)))
  (v_new (bs "bootGenesisResponse") (js_struct false (f_cons (bs "nsm_response") js_nsm_response (f_one (bs "genesis_output") js_genesis_output)))
  (v_new (bs "provisionRequest") (js_struct false (f_cons (bs "share") js_hex (f_one (bs "approval") js_approval)))
  (v_new (bs "provisionResponse") (js_struct false (f_one (bs "reconstructed") js_bool))
  (v_new (bs "proxyRequest") (js_struct false (f_one (bs "data") js_hex))
  (v_new (bs "proxyResponse") (js_struct false (f_one (bs "data") js_hex))
  (v_unit (bs "liveAttestationDocRequest")
  (v_new (bs "liveAttestationDocResponse") (js_struct false (f_cons (bs "nsm_response") js_nsm_response (f_opt1 (bs "manifest_envelope") js_versioned_envelope)))
  (v_new (bs "bootKeyForwardRequest") (js_struct false (f_cons (bs "manifest_envelope") js_versioned_envelope (f_one (bs "pivot") js_hex)))
  (v_new (bs "bootKeyForwardResponse") (js_struct false (f_one (bs "nsm_response") js_nsm_response))
  (v_new (bs "exportKeyRequest") (js_struct false (f_cons (bs "manifest_envelope") js_versioned_envelope (f_one (bs "cose_sign1_attestation_doc") js_hex)))
  (v_new (bs "exportKeyResponse") (js_struct false (f_cons (bs "encrypted_quorum_key") js_hex (f_one (bs "signature") js_hex)))
  (v_new (bs "injectKeyRequest") (js_struct false (f_cons (bs "encrypted_quorum_key") js_hex (f_one (bs "signature") js_hex)))
  (v_unit (bs "injectKeyResponse")
  (v_unit (bs "manifestEnvelopeRequest")
  (v_new (bs "manifestEnvelopeResponse") (js_struct false (f_opt1 (bs "manifest_envelope") js_versioned_envelope))
  (v_unit (bs "versionRequest")
  (v_new (bs "versionResponse") (js_struct false (f_cons (bs "version") js_string (f_one (bs "commit") js_string)))
  (v_skip v_nil))))))))))))))))))))))).
Definition js_msg : jcodec msg := js_iso msg_of msg_to (js_enum v_msg).

