(** Wire-level vocabulary of the enclave protocol: phases, NSM requests and
    responses, errors and messages.
    Models /repo/src/qos_core/src/protocol/{msg.rs,error.rs,state.rs},
    /repo/src/qos_core/src/protocol/services/genesis.rs (types) and
    /repo/src/qos_nsm/src/types.rs (types).
    Payload strings built with [format!] are replaced by short fixed tags
    (byte lists): no property depends on their text. *)
From Verif Require Import Base Types.
Local Open Scope N_scope.

(** state.rs:21-52, in declaration order *)
Inductive phase :=
| UnrecoverableError | WaitingForBootInstruction | GenesisBooted
| WaitingForQuorumShards | QuorumKeyProvisioned | WaitingForForwardedKey.

(** Derived [PartialEq] of the phase. *)
Definition phase_eqb (a b : phase) : bool :=
  match a, b with
  | UnrecoverableError, UnrecoverableError
  | WaitingForBootInstruction, WaitingForBootInstruction
  | GenesisBooted, GenesisBooted
  | WaitingForQuorumShards, WaitingForQuorumShards
  | QuorumKeyProvisioned, QuorumKeyProvisioned
  | WaitingForForwardedKey, WaitingForForwardedKey => true
  | _, _ => false
  end.
Lemma phase_eqb_eq a b : phase_eqb a b = true <-> a = b.
Proof. destruct a, b; cbn; split; congruence. Qed.

(** qos_nsm/src/types.rs:20-46 *)
Inductive nsm_error_code :=
| NsmSuccess | NsmInvalidArgument | NsmInvalidIndex | NsmInvalidResponse
| NsmReadOnlyIndex | NsmInvalidOperation | NsmBufferTooSmall | NsmInputTooLarge
| NsmInternalError.

(** types.rs NsmDigest *)
Inductive nsm_digest := SHA256 | SHA384 | SHA512.
Definition digest_eqb (a b : nsm_digest) : bool :=
  match a, b with SHA256, SHA256 | SHA384, SHA384 | SHA512, SHA512 => true | _, _ => false end.

(** types.rs NsmRequest *)
Inductive nsm_request :=
| DescribePCR (index : N)
| ExtendPCR (index : N) (data : bytes)
| LockPCR (index : N)
| LockPCRs (range : N)
| DescribeNSM
| Attestation (user_data nonce public_key : option bytes)
| GetRandom.

(** types.rs NsmResponse.  [locked_pcrs] is a [BTreeSet<u16>]; the model keeps a
    list and only ever asks for membership. *)
Inductive nsm_response :=
| RDescribePCR (lock : bool) (data : bytes)
| RExtendPCR (data : bytes)
| RLockPCR
| RLockPCRs
| RDescribeNSM (major minor patch : N) (module_id : bytes) (max_pcrs : N)
               (locked_pcrs : list N) (digest : nsm_digest)
| RAttestation (document : bytes)
| RGetRandom (random : bytes)
| RError (code : nsm_error_code).

(** qos_p256/src/lib.rs:45-95 *)
Inductive p256_error :=
| PQosHex (s : bytes) | PIOError (s : bytes)
| FailedToSerializeEnvelope | FailedToDeserializeEnvelope
| AesGcm256DecryptError | AesGcm256EncryptError
| FailedToCreateAes256GcmCipher | FailedToDeserializePublicKey
| FailedToCoercePublicKeyToIntendedLength | FailedToCoerceNonceToIntendedLength
| FailedToDeserializeSignature | FailedSignatureVerification
| FailedToReadSecret | FailedToReadPublicKey
| EncodedPublicKeyTooLong | EncodedPublicKeyTooShort
| HkdfExpansionFailed | MasterSeedInvalidUtf8 | MasterSeedInvalidLength
| InvalidMasterSeed | CannotCoerceLenToU8.

(** error.rs:23-211, in declaration order *)
Inductive perr :=
| InvalidShare | ReconstructionErrorEmptySecret | ReconstructionErrorIncorrectPubKey
| IOError | InvalidManifestApproval (a : approval) | NotEnoughApprovals
| NoMatchingRoute (p : phase) | InvalidPivotHash (expected actual : bytes)
| OversizeMsg | InvalidMsg | EnclaveClient | DecryptionFailed | InvalidPrivateKey
| FailedToParseFromString | BadEphemeralKeyPath | CannotModifyPostPivotStatic
| FailedToGetEphemeralKey (e : p256_error) | FailedToPutEphemeralKey
| CannotRotateNonExistentEphemeralKey | CannotDeleteEphemeralKey (s : bytes)
| FailedToGetQuorumKey (e : p256_error) | FailedToPutQuorumKey
| FailedToGetManifestEnvelope | FailedToPutManifestEnvelope | FailedToPutPivot
| AppClientRecvTimeout | AppClientRecvInterrupted | AppClientRecvConnectionClosed
| AppClientConnectError (s : bytes) | AppClientSendError (s : bytes) | AppClientError (s : bytes)
| OversizedPayload | ProtocolMsgDeserialization | BadShareSetApprovals
| CouldNotVerifyApproval | NotShareSetMember | NotManifestSetMember
| P256Error (e : p256_error) | InvalidP256DRKey (e : p256_error) | IncorrectSecretLen
| QosAttestError (s : bytes)
| DifferentQuorumKey (expected actual : bytes) | DifferentManifestSet (expected actual : bytes)
| DifferentNamespaceName (expected actual : bytes) | LowNonce (expected actual : N)
| DifferentPcr3 (expected actual : bytes) | MissingEphemeralKey | InvalidEphemeralKey
| InvalidEncryptedQuorumKeySignature | EncryptedQuorumKeyInvalidLen | InvalidQuorumSecret
| WrongQuorumKey | InvalidStateTransition (from to : phase) | DuplicateApproval
| DifferentManifest (expected actual : bytes) | QosCrypto (s : bytes) | PoolExpandError
| InvalidPivotEnv (s : bytes) | MissingLiveEphemeralKey | DuplicateQuorumMember
| LegacyGenesisNotSupported.

(** genesis.rs:19-37 *)
Record genesis_set := GenesisSet { gs_members : list quorum_member; gs_threshold : N }.
(** genesis.rs:39-58 *)
Record member_shard := MemberShard { sh_member : quorum_member; sh_shard : bytes }.
(** genesis.rs:77-97 *)
Record genesis_member_output := GenesisMemberOutput {
  gm_member : quorum_member; gm_share : bytes; gm_share_hash : bytes }.
(** genesis.rs:113-160 *)
Record genesis_output := GenesisOutput {
  go_set : genesis_set; go_dr_key : option bytes; go_quorum_key : bytes;
  go_member_outputs : list genesis_member_output;
  go_recovery_permutations : list (list member_shard);
  go_dr_key_wrapped : option bytes; go_quorum_key_hash : bytes;
  go_test_ciphertext : bytes; go_test_signature : bytes; go_test_message : bytes }.

(** msg.rs:81-258, in declaration order.  [BootStandardJsonEnvelopeRequest]
    carries its envelope in a [JsonBytes] wrapper on the Borsh wire only. *)
Inductive msg :=
| ProtocolErrorResponse (e : perr)
| StatusRequest
| StatusResponse (p : phase)
| BootStandardRequest (env : versioned_envelope) (pivot : bytes)
| BootStandardResponse (nsm : nsm_response)
| BootGenesisRequest (set : genesis_set) (dr_key : option bytes)
| BootGenesisResponse (nsm : nsm_response) (out : genesis_output)
| ProvisionRequest (share : bytes) (a : approval)
| ProvisionResponse (reconstructed : bool)
| ProxyRequest (data : bytes)
| ProxyResponse (data : bytes)
| LiveAttestationDocRequest
| LiveAttestationDocResponse (nsm : nsm_response) (env : option versioned_envelope)
| BootKeyForwardRequest (env : versioned_envelope) (pivot : bytes)
| BootKeyForwardResponse (nsm : nsm_response)
| ExportKeyRequest (env : versioned_envelope) (doc : bytes)
| ExportKeyResponse (encrypted_quorum_key signature : bytes)
| InjectKeyRequest (encrypted_quorum_key signature : bytes)
| InjectKeyResponse
| ManifestEnvelopeRequest
| ManifestEnvelopeResponse (env : option versioned_envelope)
| VersionRequest
| VersionResponse (version commit : bytes)
| BootStandardJsonEnvelopeRequest (env : versioned_envelope) (pivot : bytes).

(** aws_nitro_enclaves_nsm_api::api::AttestationDoc (the decoded attestation
    document).  [pcrs] is a BTreeMap<usize, _>: association list, first
    occurrence wins; keys are distinct in a decoded document. *)
Record att_doc := AttDoc {
  ad_module_id : bytes; ad_digest : nsm_digest; ad_timestamp : N;
  ad_pcrs : list (N * bytes); ad_certificate : bytes; ad_cabundle : list bytes;
  ad_public_key : option bytes; ad_user_data : option bytes; ad_nonce : option bytes }.
