(** The Borsh byte layout of what crosses the wire or is signed: what a client
    written against the format, not against this library, writes and reads.
    Little-endian integers, a u32 count before every string, byte string and
    list, one byte in front of an optional value (0 absent, 1 present), one
    byte for the alternative of an enum, fields in declaration order.  The
    numbers of the alternatives are those of the declarations in
    /repo/src/qos_core/src/protocol/{msg,error,state}.rs,
    /repo/src/qos_nsm/src/types.rs and /repo/src/qos_p256/src/lib.rs, counted
    there by a script that does not look at the model. *)
From Coq Require Import Sorting.Sorted.
From Verif Require Import Base Utf8 Json Types TypesJson JsonComb Msg.
From Verif Require Proxy.
Local Open Scope N_scope.

Definition tag (n : N) (rest : bytes) : bytes := n2b n :: rest.
Definition lay_u16 (n : N) : bytes := [n2b (n mod 256); n2b (n / 256 mod 256)].
Definition lay_u32 (n : N) : bytes :=
  [n2b (n mod 256); n2b (n / 256 mod 256); n2b (n / 65536 mod 256); n2b (n / 16777216 mod 256)].
Definition lay_u64 (n : N) : bytes := lay_u32 (n mod 2 ^ 32) ++ lay_u32 (n / 2 ^ 32).
Definition count {A} (l : list A) : N := N.of_nat (length l).
Definition lay_bytes (s : bytes) : bytes := lay_u32 (count s) ++ s.
Definition lay_list {A} (f : A -> bytes) (l : list A) : bytes := lay_u32 (count l) ++ concat (map f l).
Definition lay_opt {A} (f : A -> bytes) (o : option A) : bytes :=
  match o with None => tag 0 [] | Some a => tag 1 (f a) end.
Definition lay_bool (b : bool) : bytes := [if b then x01 else x00].

Definition fit_bytes (s : bytes) : Prop := count s < 2 ^ 32.
(** A text is a string of Unicode scalar values in UTF-8. *)
Definition fit_text (s : bytes) : Prop :=
  count s < 2 ^ 32 /\
  exists cs, s = utf8_enc cs /\ Forall (fun c => c < 0xD800 \/ 0xE000 <= c < 0x110000) cs.
Definition fit_list {A} (f : A -> Prop) (l : list A) : Prop := count l < 2 ^ 32 /\ Forall f l.
Definition fit_opt {A} (f : A -> Prop) (o : option A) : Prop := forall a, o = Some a -> f a.

(** boot.rs:91-109 *)
Definition lay_restart (r : restart_policy) : bytes := match r with Never => tag 0 [] | Always => tag 1 [] end.
(** boot.rs:131-166 *)
Definition lay_bridge (b : bridge_config) : bytes :=
  match b with
  | BServer port host => tag 0 (lay_u16 port ++ lay_bytes host)
  | BClient port host => tag 1 (lay_u16 port ++ lay_opt lay_bytes host)
  end.
Definition fit_bridge (b : bridge_config) : Prop :=
  match b with
  | BServer port host => port < 2 ^ 16 /\ fit_text host
  | BClient port host => port < 2 ^ 16 /\ fit_opt fit_text host
  end.
(** boot.rs:268-290 *)
Definition lay_member (m : quorum_member) : bytes := lay_bytes (m_alias m) ++ lay_bytes (m_pub_key m).
Definition fit_member (m : quorum_member) : Prop := fit_text (m_alias m) /\ fit_bytes (m_pub_key m).
(** boot.rs:329-371 *)
Definition lay_set (s : member_set) : bytes := lay_u32 (threshold s) ++ lay_list lay_member (members s).
Definition fit_set (s : member_set) : Prop := threshold s < 2 ^ 32 /\ fit_list fit_member (members s).
(** boot.rs:373-416 *)
Definition lay_patch (s : patch_set) : bytes := lay_u32 (ps_threshold s) ++ lay_list lay_bytes (ps_members s).
Definition fit_patch (s : patch_set) : Prop := ps_threshold s < 2 ^ 32 /\ fit_list fit_bytes (ps_members s).
(** boot.rs:418-446 *)
Definition lay_namespace (n : namespace) : bytes :=
  lay_bytes (ns_name n) ++ lay_u32 (ns_nonce n) ++ lay_bytes (ns_quorum_key n).
Definition fit_namespace (n : namespace) : Prop :=
  fit_text (ns_name n) /\ ns_nonce n < 2 ^ 32 /\ fit_bytes (ns_quorum_key n).
(** boot.rs:47-77 *)
Definition lay_enclave (n : nitro_config) : bytes :=
  lay_bytes (pcr0 n) ++ lay_bytes (pcr1 n) ++ lay_bytes (pcr2 n) ++ lay_bytes (pcr3 n)
  ++ lay_bytes (aws_root_certificate n) ++ lay_bytes (qos_commit n).
Definition fit_enclave (n : nitro_config) : Prop :=
  fit_bytes (pcr0 n) /\ fit_bytes (pcr1 n) /\ fit_bytes (pcr2 n) /\ fit_bytes (pcr3 n)
  /\ fit_bytes (aws_root_certificate n) /\ fit_text (qos_commit n).
(** boot.rs:190-222 and 224-244 *)
Definition lay_pivot (p : pivot_config) : bytes :=
  pv_hash p ++ lay_restart (pv_restart p) ++ lay_list lay_bridge (pv_bridge p) ++ lay_bool (pv_debug p)
  ++ lay_list lay_bytes (pv_args p).
Definition fit_pivot (p : pivot_config) : Prop :=
  length (pv_hash p) = 32%nat /\ fit_list fit_bridge (pv_bridge p) /\ fit_list fit_text (pv_args p).
Definition lay_pivot_v0 (p : pivot_config_v0) : bytes :=
  pv0_hash p ++ lay_restart (pv0_restart p) ++ lay_list lay_bytes (pv0_args p).
Definition fit_pivot_v0 (p : pivot_config_v0) : Prop :=
  length (pv0_hash p) = 32%nat /\ fit_list fit_text (pv0_args p).
(** boot.rs:459-493 and 495-522 *)
Definition lay_manifest (m : manifest) : bytes :=
  lay_namespace (mf_namespace m) ++ lay_pivot (mf_pivot m) ++ lay_set (mf_manifest_set m)
  ++ lay_set (mf_share_set m) ++ lay_enclave (mf_enclave m) ++ lay_patch (mf_patch_set m).
Definition fit_manifest (m : manifest) : Prop :=
  fit_namespace (mf_namespace m) /\ fit_pivot (mf_pivot m) /\ fit_set (mf_manifest_set m)
  /\ fit_set (mf_share_set m) /\ fit_enclave (mf_enclave m) /\ fit_patch (mf_patch_set m).
Definition lay_manifest_v0 (m : manifest_v0) : bytes :=
  lay_namespace (mf0_namespace m) ++ lay_pivot_v0 (mf0_pivot m) ++ lay_set (mf0_manifest_set m)
  ++ lay_set (mf0_share_set m) ++ lay_enclave (mf0_enclave m) ++ lay_patch (mf0_patch_set m).
Definition fit_manifest_v0 (m : manifest_v0) : Prop :=
  fit_namespace (mf0_namespace m) /\ fit_pivot_v0 (mf0_pivot m) /\ fit_set (mf0_manifest_set m)
  /\ fit_set (mf0_share_set m) /\ fit_enclave (mf0_enclave m) /\ fit_patch (mf0_patch_set m).
(** boot.rs:571-589 *)
Definition lay_approval (a : approval) : bytes := lay_bytes (ap_signature a) ++ lay_member (ap_member a).
Definition fit_approval (a : approval) : Prop := fit_bytes (ap_signature a) /\ fit_member (ap_member a).
(** boot.rs:606-650 *)
Definition lay_envelope (e : manifest_envelope) : bytes :=
  lay_manifest (e1_manifest e) ++ lay_list lay_approval (e1_manifest_approvals e)
  ++ lay_list lay_approval (e1_share_approvals e).
Definition fit_envelope (e : manifest_envelope) : Prop :=
  fit_manifest (e1_manifest e) /\ fit_list fit_approval (e1_manifest_approvals e)
  /\ fit_list fit_approval (e1_share_approvals e).
Definition lay_envelope_v0 (e : manifest_envelope_v0) : bytes :=
  lay_manifest_v0 (e0_manifest e) ++ lay_list lay_approval (e0_manifest_approvals e)
  ++ lay_list lay_approval (e0_share_approvals e).
Definition fit_envelope_v0 (e : manifest_envelope_v0) : Prop :=
  fit_manifest_v0 (e0_manifest e) /\ fit_list fit_approval (e0_manifest_approvals e)
  /\ fit_list fit_approval (e0_share_approvals e).
(** manifest.rs:340-354: a V2 envelope has no Borsh form. *)
Definition lay_versioned (e : versioned_envelope) : bytes :=
  match e with VE1 x => lay_envelope x | VE0 x => lay_envelope_v0 x | VE2 _ => [] end.
Definition fit_versioned (e : versioned_envelope) : Prop :=
  match e with VE1 x => fit_envelope x | VE0 x => fit_envelope_v0 x | VE2 _ => False end.

(** state.rs:21-52 *)
Definition lay_phase (p : phase) : bytes :=
  match p with
  | UnrecoverableError => tag 0 [] | WaitingForBootInstruction => tag 1 [] | GenesisBooted => tag 2 []
  | WaitingForQuorumShards => tag 3 [] | QuorumKeyProvisioned => tag 4 [] | WaitingForForwardedKey => tag 5 []
  end.
(** qos_p256/src/lib.rs P256Error *)
Definition lay_p256 (e : p256_error) : bytes :=
  match e with
  | PQosHex s => tag 0 (lay_bytes s)
  | PIOError s => tag 1 (lay_bytes s)
  | FailedToSerializeEnvelope => tag 2 []
  | FailedToDeserializeEnvelope => tag 3 []
  | AesGcm256DecryptError => tag 4 []
  | AesGcm256EncryptError => tag 5 []
  | FailedToCreateAes256GcmCipher => tag 6 []
  | FailedToDeserializePublicKey => tag 7 []
  | FailedToCoercePublicKeyToIntendedLength => tag 8 []
  | FailedToCoerceNonceToIntendedLength => tag 9 []
  | FailedToDeserializeSignature => tag 10 []
  | FailedSignatureVerification => tag 11 []
  | FailedToReadSecret => tag 12 []
  | FailedToReadPublicKey => tag 13 []
  | EncodedPublicKeyTooLong => tag 14 []
  | EncodedPublicKeyTooShort => tag 15 []
  | HkdfExpansionFailed => tag 16 []
  | MasterSeedInvalidUtf8 => tag 17 []
  | MasterSeedInvalidLength => tag 18 []
  | InvalidMasterSeed => tag 19 []
  | CannotCoerceLenToU8 => tag 20 []
  end.
Definition fit_p256 (e : p256_error) : Prop :=
  match e with
  | PQosHex s => fit_text s
  | PIOError s => fit_text s
  | _ => True
  end.
(** error.rs ProtocolError *)
Definition lay_perr (e : perr) : bytes :=
  match e with
  | InvalidShare => tag 0 []
  | ReconstructionErrorEmptySecret => tag 1 []
  | ReconstructionErrorIncorrectPubKey => tag 2 []
  | IOError => tag 3 []
  | InvalidManifestApproval a => tag 4 (lay_approval a)
  | NotEnoughApprovals => tag 5 []
  | NoMatchingRoute p => tag 6 (lay_phase p)
  | InvalidPivotHash e a => tag 7 (lay_bytes e ++ lay_bytes a)
  | OversizeMsg => tag 8 []
  | InvalidMsg => tag 9 []
  | EnclaveClient => tag 10 []
  | DecryptionFailed => tag 11 []
  | InvalidPrivateKey => tag 12 []
  | FailedToParseFromString => tag 13 []
  | BadEphemeralKeyPath => tag 14 []
  | CannotModifyPostPivotStatic => tag 15 []
  | FailedToGetEphemeralKey e => tag 16 (lay_p256 e)
  | FailedToPutEphemeralKey => tag 17 []
  | CannotRotateNonExistentEphemeralKey => tag 18 []
  | CannotDeleteEphemeralKey s => tag 19 (lay_bytes s)
  | FailedToGetQuorumKey e => tag 20 (lay_p256 e)
  | FailedToPutQuorumKey => tag 21 []
  | FailedToGetManifestEnvelope => tag 22 []
  | FailedToPutManifestEnvelope => tag 23 []
  | FailedToPutPivot => tag 24 []
  | AppClientRecvTimeout => tag 25 []
  | AppClientRecvInterrupted => tag 26 []
  | AppClientRecvConnectionClosed => tag 27 []
  | AppClientConnectError s => tag 28 (lay_bytes s)
  | AppClientSendError s => tag 29 (lay_bytes s)
  | AppClientError s => tag 30 (lay_bytes s)
  | OversizedPayload => tag 31 []
  | ProtocolMsgDeserialization => tag 32 []
  | BadShareSetApprovals => tag 33 []
  | CouldNotVerifyApproval => tag 34 []
  | NotShareSetMember => tag 35 []
  | NotManifestSetMember => tag 36 []
  | P256Error e => tag 37 (lay_p256 e)
  | InvalidP256DRKey e => tag 38 (lay_p256 e)
  | IncorrectSecretLen => tag 39 []
  | QosAttestError s => tag 40 (lay_bytes s)
  | DifferentQuorumKey e a => tag 41 (lay_bytes e ++ lay_bytes a)
  | DifferentManifestSet e a => tag 42 (lay_bytes e ++ lay_bytes a)
  | DifferentNamespaceName e a => tag 43 (lay_bytes e ++ lay_bytes a)
  | LowNonce e a => tag 44 (lay_u32 e ++ lay_u32 a)
  | DifferentPcr3 e a => tag 45 (lay_bytes e ++ lay_bytes a)
  | MissingEphemeralKey => tag 46 []
  | InvalidEphemeralKey => tag 47 []
  | InvalidEncryptedQuorumKeySignature => tag 48 []
  | EncryptedQuorumKeyInvalidLen => tag 49 []
  | InvalidQuorumSecret => tag 50 []
  | WrongQuorumKey => tag 51 []
  | InvalidStateTransition f t => tag 52 (lay_phase f ++ lay_phase t)
  | DuplicateApproval => tag 53 []
  | DifferentManifest e a => tag 54 (lay_bytes e ++ lay_bytes a)
  | QosCrypto s => tag 55 (lay_bytes s)
  | PoolExpandError => tag 56 []
  | InvalidPivotEnv s => tag 57 (lay_bytes s)
  | MissingLiveEphemeralKey => tag 58 []
  | DuplicateQuorumMember => tag 59 []
  | LegacyGenesisNotSupported => tag 60 []
  end.
Definition fit_perr (e : perr) : Prop :=
  match e with
  | InvalidManifestApproval a => fit_approval a
  | InvalidPivotHash e a => fit_text e /\ fit_text a
  | FailedToGetEphemeralKey e => fit_p256 e
  | CannotDeleteEphemeralKey s => fit_text s
  | FailedToGetQuorumKey e => fit_p256 e
  | AppClientConnectError s => fit_text s
  | AppClientSendError s => fit_text s
  | AppClientError s => fit_text s
  | P256Error e => fit_p256 e
  | InvalidP256DRKey e => fit_p256 e
  | QosAttestError s => fit_text s
  | DifferentQuorumKey e a => fit_text e /\ fit_text a
  | DifferentManifestSet e a => fit_text e /\ fit_text a
  | DifferentNamespaceName e a => fit_text e /\ fit_text a
  | LowNonce e a => e < 2 ^ 32 /\ a < 2 ^ 32
  | DifferentPcr3 e a => fit_text e /\ fit_text a
  | DifferentManifest e a => fit_text e /\ fit_text a
  | QosCrypto s => fit_text s
  | InvalidPivotEnv s => fit_text s
  | _ => True
  end.

(** qos_nsm/src/types.rs *)
Definition lay_code (c : nsm_error_code) : bytes :=
  match c with
  | NsmSuccess => tag 0 [] | NsmInvalidArgument => tag 1 [] | NsmInvalidIndex => tag 2 [] | NsmInvalidResponse => tag 3 []
  | NsmReadOnlyIndex => tag 4 [] | NsmInvalidOperation => tag 5 [] | NsmBufferTooSmall => tag 6 []
  | NsmInputTooLarge => tag 7 [] | NsmInternalError => tag 8 []
  end.
Definition lay_digest (d : nsm_digest) : bytes :=
  match d with SHA256 => tag 0 [] | SHA384 => tag 1 [] | SHA512 => tag 2 [] end.
Definition lay_nsm (r : nsm_response) : bytes :=
  match r with
  | RDescribePCR lock data => tag 0 (lay_bool lock ++ lay_bytes data)
  | RExtendPCR data => tag 1 (lay_bytes data)
  | RLockPCR => tag 2 []
  | RLockPCRs => tag 3 []
  | RDescribeNSM major minor patch module_id max_pcrs locked digest =>
      tag 4 (lay_u16 major ++ lay_u16 minor ++ lay_u16 patch ++ lay_bytes module_id ++ lay_u16 max_pcrs
             ++ lay_list lay_u16 locked ++ lay_digest digest)
  | RAttestation document => tag 5 (lay_bytes document)
  | RGetRandom random => tag 6 (lay_bytes random)
  | RError code => tag 7 (lay_code code)
  end.
Definition fit_nsm (r : nsm_response) : Prop :=
  match r with
  | RDescribePCR _ data | RExtendPCR data => fit_bytes data
  | RLockPCR | RLockPCRs | RError _ => True
  | RDescribeNSM major minor patch module_id max_pcrs locked _ =>
      major < 2 ^ 16 /\ minor < 2 ^ 16 /\ patch < 2 ^ 16 /\ fit_text module_id /\ max_pcrs < 2 ^ 16
      /\ fit_list (fun x => x < 2 ^ 16) locked /\ StronglySorted N.lt locked
  | RAttestation document => fit_bytes document
  | RGetRandom random => fit_bytes random
  end.

(** msg.rs:84-262.  The genesis messages are never written as Borsh
    (msg.rs:330-347); the JSON envelope travels as its text. *)
Definition json_text (e : versioned_envelope) : bytes := write (jser js_versioned_envelope e).
Definition lay_msg (m : msg) : bytes :=
  match m with
  | ProtocolErrorResponse e => tag 0 (lay_perr e)
  | StatusRequest => tag 1 []
  | StatusResponse p => tag 2 (lay_phase p)
  | BootStandardRequest env pivot => tag 3 (lay_versioned env ++ lay_bytes pivot)
  | BootStandardResponse nsm => tag 4 (lay_nsm nsm)
  | BootGenesisRequest _ _ => []
  | BootGenesisResponse _ _ => []
  | ProvisionRequest share a => tag 7 (lay_bytes share ++ lay_approval a)
  | ProvisionResponse reconstructed => tag 8 (lay_bool reconstructed)
  | ProxyRequest data => tag 9 (lay_bytes data)
  | ProxyResponse data => tag 10 (lay_bytes data)
  | LiveAttestationDocRequest => tag 11 []
  | LiveAttestationDocResponse nsm env => tag 12 (lay_nsm nsm ++ lay_opt lay_versioned env)
  | BootKeyForwardRequest env pivot => tag 13 (lay_versioned env ++ lay_bytes pivot)
  | BootKeyForwardResponse nsm => tag 14 (lay_nsm nsm)
  | ExportKeyRequest env doc => tag 15 (lay_versioned env ++ lay_bytes doc)
  | ExportKeyResponse key signature => tag 16 (lay_bytes key ++ lay_bytes signature)
  | InjectKeyRequest key signature => tag 17 (lay_bytes key ++ lay_bytes signature)
  | InjectKeyResponse => tag 18 []
  | ManifestEnvelopeRequest => tag 19 []
  | ManifestEnvelopeResponse env => tag 20 (lay_opt lay_versioned env)
  | VersionRequest => tag 21 []
  | VersionResponse version commit => tag 22 (lay_bytes version ++ lay_bytes commit)
  | BootStandardJsonEnvelopeRequest env pivot => tag 23 (lay_bytes (json_text env) ++ lay_bytes pivot)
  end.
Definition fit_msg (m : msg) : Prop :=
  match m with
  | ProtocolErrorResponse e => fit_perr e
  | BootStandardRequest env pivot | BootKeyForwardRequest env pivot | ExportKeyRequest env pivot =>
      fit_versioned env /\ fit_bytes pivot
  | BootStandardResponse nsm | BootKeyForwardResponse nsm => fit_nsm nsm
  | BootGenesisRequest _ _ | BootGenesisResponse _ _ => False
  | ProvisionRequest share a => fit_bytes share /\ fit_approval a
  | ProxyRequest data | ProxyResponse data => fit_bytes data
  | LiveAttestationDocResponse nsm env => fit_nsm nsm /\ fit_opt fit_versioned env
  | ExportKeyResponse key signature | InjectKeyRequest key signature => fit_bytes key /\ fit_bytes signature
  | ManifestEnvelopeResponse env => fit_opt fit_versioned env
  | VersionResponse version commit => fit_text version /\ fit_text commit
  | BootStandardJsonEnvelopeRequest env pivot =>
      wf_envelope env = true /\ fit_bytes (json_text env) /\ fit_bytes pivot
  | StatusRequest | StatusResponse _ | ProvisionResponse _ | LiveAttestationDocRequest | InjectKeyResponse
  | ManifestEnvelopeRequest | VersionRequest => True
  end.

(** genesis.rs:19-160: what the genesis attestation commits to *)
Definition lay_genesis_set (s : genesis_set) : bytes := lay_list lay_member (gs_members s) ++ lay_u32 (gs_threshold s).
Definition fit_genesis_set (s : genesis_set) : Prop := fit_list fit_member (gs_members s) /\ gs_threshold s < 2 ^ 32.
Definition lay_shard (s : member_shard) : bytes := lay_member (sh_member s) ++ lay_bytes (sh_shard s).
Definition fit_shard (s : member_shard) : Prop := fit_member (sh_member s) /\ fit_bytes (sh_shard s).
Definition lay_member_output (o : genesis_member_output) : bytes :=
  lay_member (gm_member o) ++ lay_bytes (gm_share o) ++ gm_share_hash o.
Definition fit_member_output (o : genesis_member_output) : Prop :=
  fit_member (gm_member o) /\ fit_bytes (gm_share o) /\ length (gm_share_hash o) = 64%nat.
Definition lay_genesis (o : genesis_output) : bytes :=
  lay_genesis_set (go_set o) ++ lay_opt lay_bytes (go_dr_key o) ++ lay_bytes (go_quorum_key o)
  ++ lay_list lay_member_output (go_member_outputs o) ++ lay_list (lay_list lay_shard) (go_recovery_permutations o)
  ++ lay_opt lay_bytes (go_dr_key_wrapped o) ++ go_quorum_key_hash o ++ lay_bytes (go_test_ciphertext o)
  ++ lay_bytes (go_test_signature o) ++ lay_bytes (go_test_message o).
Definition fit_genesis (o : genesis_output) : Prop :=
  fit_genesis_set (go_set o) /\ fit_opt fit_bytes (go_dr_key o) /\ fit_bytes (go_quorum_key o)
  /\ fit_list fit_member_output (go_member_outputs o) /\ fit_list (fit_list fit_shard) (go_recovery_permutations o)
  /\ fit_opt fit_bytes (go_dr_key_wrapped o) /\ length (go_quorum_key_hash o) = 64%nat /\ fit_bytes (go_test_ciphertext o)
  /\ fit_bytes (go_test_signature o) /\ fit_bytes (go_test_message o).

(** qos_net/src/{error,proxy_msg}.rs; usize is 64 bits *)
Definition lay_net_error (e : Proxy.net_error) : bytes :=
  match e with
  | Proxy.QOSIOError s => tag 0 (lay_bytes s)
  | Proxy.OversizeMsg => tag 1 []
  | Proxy.OversizedPayloadN => tag 2 []
  | Proxy.InvalidMsgN => tag 3 []
  | Proxy.ParseError s => tag 4 (lay_bytes s)
  | Proxy.DNSResolutionError s => tag 5 (lay_bytes s)
  | Proxy.ReadOverflow got room => tag 6 (lay_u64 got ++ lay_u64 room)
  | Proxy.TooManyConnections n => tag 7 (lay_u64 n)
  end.
Definition fit_net_error (e : Proxy.net_error) : Prop :=
  match e with
  | Proxy.QOSIOError s | Proxy.ParseError s | Proxy.DNSResolutionError s => fit_text s
  | Proxy.ReadOverflow got room => got < 2 ^ 64 /\ room < 2 ^ 64
  | Proxy.TooManyConnections n => n < 2 ^ 64
  | _ => True
  end.
Definition lay_proxy (m : Proxy.proxy_msg) : bytes :=
  match m with
  | Proxy.PError e => tag 0 (lay_net_error e)
  | Proxy.StatusRequestP => tag 1 []
  | Proxy.StatusResponseP n => tag 2 (lay_u64 n)
  | Proxy.ConnectByName hostname port dns_resolvers dns_port =>
      tag 3 (lay_bytes hostname ++ lay_u16 port ++ lay_list lay_bytes dns_resolvers ++ lay_u16 dns_port)
  | Proxy.ConnectByIp ip port => tag 4 (lay_bytes ip ++ lay_u16 port)
  | Proxy.ConnectResponse remote_ip => tag 5 (lay_bytes remote_ip)
  end.
Definition fit_proxy (m : Proxy.proxy_msg) : Prop :=
  match m with
  | Proxy.PError e => fit_net_error e
  | Proxy.StatusRequestP => True
  | Proxy.StatusResponseP n => n < 2 ^ 64
  | Proxy.ConnectByName hostname port dns_resolvers dns_port =>
      fit_text hostname /\ port < 2 ^ 16 /\ fit_list fit_text dns_resolvers /\ dns_port < 2 ^ 16
  | Proxy.ConnectByIp ip port => fit_text ip /\ port < 2 ^ 16
  | Proxy.ConnectResponse remote_ip => fit_text remote_ip
  end.

(** The messages whose Borsh bytes are determined by their meaning: those that
    hold no manifest envelope, whose decoder has two schemas to try or reads
    JSON text (C37, C49), and no module description, whose list of locked
    registers may be sent in any order. *)
Definition plain (m : msg) : Prop :=
  match m with
  | BootStandardRequest _ _ | BootKeyForwardRequest _ _ | ExportKeyRequest _ _
  | BootStandardJsonEnvelopeRequest _ _ | LiveAttestationDocResponse _ _ | ManifestEnvelopeResponse _
  | BootStandardResponse _ | BootKeyForwardResponse _ => False
  | _ => True
  end.
