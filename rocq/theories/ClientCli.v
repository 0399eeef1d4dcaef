(** The client's command line: src/qos_client/src/cli/mod.rs (default features).

    What each command line makes the client do, up to the call of the service
    function: the tables of tokens (mod.rs:300-880), the option readers
    (mod.rs:931-1317), the runner (1319-1437) and the handlers (1439-1935).
    Paths and addresses are byte strings; the services themselves are modelled
    in Client.v, ClientNet.v and FileTools.v.  Not modelled: printed texts. *)
From Verif Require Import Base Json Types TypesJson CliParser Client.
Local Open Scope N_scope.

(** mod.rs:229-277 the commands and their names *)
Inductive command :=
| HostHealth | EnclaveStatus | EnclaveVersion | GenerateFileKey | BootGenesis | AfterGenesis | VerifyGenesis
| GenerateManifest | ApproveManifest | BootStandard | GetAttestationDoc | GetEphemeralKeyHex | ProxyReEncryptShare
| PostShare | GenerateManifestEnvelope | DangerousDevBoot | ProvisionYubiKey | AdvancedProvisionYubiKey | PivotHash
| ShamirSplit | ShamirReconstruct | YubiKeySign | YubiKeyPublic | Display | JsonToBorsh | YubiKeyPivReset
| YubiKeyChangePin | BootKeyFwd | ExportKey | InjectKey | P256Verify | P256Sign | P256AsymmetricEncrypt | P256AsymmetricDecrypt.
Definition command_names : list (bytes * command) :=
  [(bs "host-health", HostHealth); (bs "enclave-status", EnclaveStatus); (bs "enclave-version", EnclaveVersion);
   (bs "generate-file-key", GenerateFileKey); (bs "generate-manifest-envelope", GenerateManifestEnvelope); (bs "boot-genesis", BootGenesis);
   (bs "after-genesis", AfterGenesis); (bs "verify-genesis", VerifyGenesis); (bs "generate-manifest", GenerateManifest);
   (bs "approve-manifest", ApproveManifest); (bs "boot-standard", BootStandard); (bs "get-attestation-doc", GetAttestationDoc);
   (bs "get-ephemeral-key-hex", GetEphemeralKeyHex); (bs "proxy-re-encrypt-share", ProxyReEncryptShare); (bs "post-share", PostShare);
   (bs "dangerous-dev-boot", DangerousDevBoot); (bs "provision-yubikey", ProvisionYubiKey); (bs "advanced-provision-yubikey", AdvancedProvisionYubiKey);
   (bs "pivot-hash", PivotHash); (bs "shamir-split", ShamirSplit); (bs "shamir-reconstruct", ShamirReconstruct); (bs "yubikey-sign", YubiKeySign);
   (bs "yubikey-public", YubiKeyPublic); (bs "yubikey-piv-reset", YubiKeyPivReset); (bs "yubikey-change-pin", YubiKeyChangePin); (bs "display", Display);
   (bs "json-to-borsh", JsonToBorsh); (bs "boot-key-fwd", BootKeyFwd); (bs "export-key", ExportKey); (bs "inject-key", InjectKey);
   (bs "p256-verify", P256Verify); (bs "p256-sign", P256Sign); (bs "p256-asymmetric-encrypt", P256AsymmetricEncrypt);
   (bs "p256-asymmetric-decrypt", P256AsymmetricDecrypt)].
Fixpoint lookup {A} (n : bytes) (l : list (bytes * A)) : option A :=
  match l with [] => None | (k, a) :: r => if bytes_eqb k n then Some a else lookup n r end.
Definition command_from (s : bytes) : option command := lookup s command_names.

(** mod.rs:31-79 *)
Definition HOST_IP := bs "host-ip".            Definition HOST_PORT := bs "host-port".         Definition ALIAS := bs "alias".
Definition NAMESPACE := bs "namespace".        Definition NONCE := bs "nonce".                 Definition RESTART_POLICY := bs "restart-policy".
Definition PIVOT_PATH := bs "pivot-path".      Definition PIVOT_ARGS := bs "pivot-args".       Definition UNSAFE_SKIP_ATTESTATION := bs "unsafe-skip-attestation".
Definition UNSAFE_EPH_PATH_OVERRIDE := bs "unsafe-eph-path-override".                          Definition ENDPOINT_BASE_PATH := bs "endpoint-base-path".
Definition QOS_RELEASE_DIR := bs "qos-release-dir".                                            Definition PCR3_PREIMAGE_PATH := bs "pcr3-preimage-path".
Definition PIVOT_HASH_PATH := bs "pivot-hash-path".                                            Definition SHARE_SET_DIR := bs "share-set-dir".
Definition MANIFEST_SET_DIR := bs "manifest-set-dir".                                          Definition PATCH_SET_DIR := bs "patch-set-dir".
Definition NAMESPACE_DIR := bs "namespace-dir".                                                Definition UNSAFE_AUTO_CONFIRM := bs "unsafe-auto-confirm".
Definition PUB_PATH := bs "pub-path".          Definition DEBUG_MODE := bs "debug-mode".       Definition BRIDGE_CONFIG := bs "bridge-config".
Definition DNS_RESOLVERS := bs "dns-resolvers". Definition YUBIKEY := bs "yubikey".            Definition SECRET_PATH := bs "secret-path".
Definition SHARE_PATH := bs "share-path".      Definition OUTPUT_PATH := bs "output-path".     Definition QUORUM_KEY_PATH := bs "quorum-key-path".
Definition MANIFEST_APPROVALS_DIR := bs "manifest-approvals-dir".                              Definition MANIFEST_PATH := bs "manifest-path".
Definition MANIFEST_ENVELOPE_PATH := bs "manifest-envelope-path".                              Definition APPROVAL_PATH := bs "approval-path".
Definition EPH_WRAPPED_SHARE_PATH := bs "eph-wrapped-share-path".                              Definition ATTESTATION_DOC_PATH := bs "attestation-doc-path".
Definition MASTER_SEED_PATH := bs "master-seed-path".                                          Definition SHARE := bs "share".
Definition OUTPUT_DIR := bs "output-dir".      Definition THRESHOLD := bs "threshold".         Definition TOTAL_SHARES := bs "total-shares".
Definition FILE_PATH := bs "file-path".        Definition DISPLAY_TYPE := bs "display-type".   Definition DR_KEY_PATH := bs "dr-key-path".
Definition CURRENT_PIN_PATH := bs "current-pin-path".                                          Definition NEW_PIN_PATH := bs "new-pin-path".
Definition ENCRYPTED_QUORUM_KEY_PATH := bs "encrypted-quorum-key-path".                        Definition PAYLOAD := bs "payload".
Definition PAYLOAD_PATH := bs "payload-path".  Definition SIGNATURE_PATH := bs "signature-path". Definition EPHEMERAL_KEY_PATH := bs "ephemeral-key-path".
Definition CIPHERTEXT_PATH := bs "ciphertext-path".                                            Definition PLAINTEXT_PATH := bs "plaintext-path".
Definition OUTPUT_HEX := bs "output-hex".      Definition VALIDATION_TIME_OVERRIDE := bs "validation-time-override".
Definition JSON := bs "json".                  Definition USE_MANIFEST_VERSION := bs "use-manifest-version".

(** mod.rs:286-620 the tokens: a value is required, or optional, or it is a flag *)
Definition must (n : bytes) : token := tk_required true (tk_takes_value true (token_new n)).
Definition may (n : bytes) : token := tk_takes_value true (token_new n).
Definition flag (n : bytes) : token := token_new n.
Definition pivot_args_token : token := tk_default_value (bs "[]") (may PIVOT_ARGS).
Definition debug_mode_token : token := tk_default_value (bs "false") (may DEBUG_MODE).
Definition yubikey_token : token := tk_forbids [SECRET_PATH] (flag YUBIKEY).
Definition secret_path_token : token := tk_forbids [YUBIKEY] (may SECRET_PATH).
Definition share_token : token := tk_allow_multiple true (must SHARE).
(** mod.rs:615-635 base *)
Definition base : list token := [must HOST_IP; must HOST_PORT; may ENDPOINT_BASE_PATH].
(** mod.rs:637-920 *)
Definition tokens (c : command) : list token :=
  match c with
  | HostHealth | EnclaveStatus | EnclaveVersion => base
  | GenerateFileKey => [must MASTER_SEED_PATH; must PUB_PATH]
  | BootGenesis => base ++ [must NAMESPACE_DIR; must SHARE_SET_DIR; must PCR3_PREIMAGE_PATH; flag UNSAFE_SKIP_ATTESTATION; must QOS_RELEASE_DIR; may DR_KEY_PATH]
  | AfterGenesis => [yubikey_token; secret_path_token; must SHARE_PATH; must ALIAS; must NAMESPACE_DIR; must QOS_RELEASE_DIR; must PCR3_PREIMAGE_PATH;
                     flag UNSAFE_SKIP_ATTESTATION; may CURRENT_PIN_PATH; may VALIDATION_TIME_OVERRIDE]
  | VerifyGenesis => [must NAMESPACE_DIR; must MASTER_SEED_PATH]
  | GenerateManifest => [must NONCE; must NAMESPACE; must PIVOT_HASH_PATH; must RESTART_POLICY; must QOS_RELEASE_DIR; must PCR3_PREIMAGE_PATH; must MANIFEST_PATH;
                         must MANIFEST_SET_DIR; must SHARE_SET_DIR; may PATCH_SET_DIR; must QUORUM_KEY_PATH; pivot_args_token; may BRIDGE_CONFIG; may DNS_RESOLVERS;
                         debug_mode_token; may USE_MANIFEST_VERSION]
  | ApproveManifest => [yubikey_token; secret_path_token; must MANIFEST_PATH; must MANIFEST_APPROVALS_DIR; must QOS_RELEASE_DIR; must PCR3_PREIMAGE_PATH;
                        must PIVOT_HASH_PATH; must ALIAS; must QUORUM_KEY_PATH; must MANIFEST_SET_DIR; must SHARE_SET_DIR; may PATCH_SET_DIR; flag UNSAFE_AUTO_CONFIRM]
  | BootStandard => base ++ [must PIVOT_PATH; may MANIFEST_ENVELOPE_PATH; must PCR3_PREIMAGE_PATH; flag UNSAFE_SKIP_ATTESTATION]
  | GetAttestationDoc => base ++ [must ATTESTATION_DOC_PATH; may MANIFEST_ENVELOPE_PATH]
  | ProxyReEncryptShare => [yubikey_token; secret_path_token; must SHARE_PATH; must APPROVAL_PATH; must EPH_WRAPPED_SHARE_PATH; must ATTESTATION_DOC_PATH; must PCR3_PREIMAGE_PATH;
                            must MANIFEST_SET_DIR; may MANIFEST_ENVELOPE_PATH; must ALIAS; flag UNSAFE_SKIP_ATTESTATION; may UNSAFE_EPH_PATH_OVERRIDE; flag UNSAFE_AUTO_CONFIRM]
  | PostShare => base ++ [must APPROVAL_PATH; must EPH_WRAPPED_SHARE_PATH]
  | GenerateManifestEnvelope => [must MANIFEST_APPROVALS_DIR; must MANIFEST_PATH; may MANIFEST_ENVELOPE_PATH]
  | DangerousDevBoot => base ++ [must PIVOT_PATH; must RESTART_POLICY; pivot_args_token; may UNSAFE_EPH_PATH_OVERRIDE]
  | ProvisionYubiKey => [must PUB_PATH; yubikey_token]
  | AdvancedProvisionYubiKey => [must MASTER_SEED_PATH; may CURRENT_PIN_PATH]
  | PivotHash => [must OUTPUT_PATH; must PIVOT_PATH]
  | ShamirSplit => [secret_path_token; must TOTAL_SHARES; must THRESHOLD; must OUTPUT_DIR]
  | ShamirReconstruct => [share_token; must OUTPUT_PATH]
  | YubiKeySign => [must PAYLOAD]
  | YubiKeyPublic | YubiKeyPivReset => []
  | YubiKeyChangePin => [may CURRENT_PIN_PATH; must NEW_PIN_PATH]
  | GetEphemeralKeyHex => [must ATTESTATION_DOC_PATH; must EPHEMERAL_KEY_PATH]
  | Display => [must FILE_PATH; must DISPLAY_TYPE; flag JSON]
  | JsonToBorsh => [must FILE_PATH; must DISPLAY_TYPE; must OUTPUT_PATH]
  | BootKeyFwd => base ++ [may MANIFEST_ENVELOPE_PATH; must PIVOT_PATH; must ATTESTATION_DOC_PATH]
  | ExportKey => base ++ [may MANIFEST_ENVELOPE_PATH; must ATTESTATION_DOC_PATH; must ENCRYPTED_QUORUM_KEY_PATH]
  | InjectKey => base ++ [must ENCRYPTED_QUORUM_KEY_PATH]
  | P256Verify => [must PAYLOAD_PATH; must SIGNATURE_PATH; must PUB_PATH]
  | P256Sign => [must PAYLOAD_PATH; must SIGNATURE_PATH; must MASTER_SEED_PATH]
  | P256AsymmetricEncrypt => [must PLAINTEXT_PATH; must CIPHERTEXT_PATH; must PUB_PATH]
  | P256AsymmetricDecrypt => [must PLAINTEXT_PATH; must CIPHERTEXT_PATH; must MASTER_SEED_PATH; flag OUTPUT_HEX]
  end.

(** *** Readers of option values; [None] is a panic *)
(** boot.rs:121-131 RestartPolicy::try_from *)
Definition ascii_lower (b : byte) : byte := if (65 <=? b2n b) && (b2n b <=? 90) then n2b (b2n b + 32) else b.
Definition restart_from (s : bytes) : option restart_policy :=
  let l := map ascii_lower s in
  if bytes_eqb l (bs "never") then Some Never else if bytes_eqb l (bs "always") then Some Always else None.
(** the text between the brackets: mod.rs:1038-1050, 1081-1093 *)
Definition bracketed (v : bytes) : option bytes :=
  match v with
  | c :: r => if byte_eqb c "[" then match rev r with d :: i => if byte_eqb d "]" then Some (rev i) else None | [] => None end else None
  | [] => None
  end.
(** mod.rs:1036-1056 pivot_args *)
Definition pivot_args_from (v : bytes) : option (list bytes) :=
  let? i := bracketed v in Some (match i with [] => [] | _ => split_on ","%byte i end).
(** mod.rs:1058-1077 bridge_config *)
Definition bridge_port (b : bridge_config) : N := match b with BServer p _ | BClient p _ => p end.
Fixpoint distinct_ports (l : list bridge_config) : bool :=
  match l with [] => true | b :: r => negb (existsb (fun x => bridge_port x =? bridge_port b) r) && distinct_ports r end.
Definition bridge_config_from (v : bytes) : option (list bridge_config) :=
  let? l := json_from_slice (js_vec js_bridge) v in if distinct_ports l then Some l else None.
(** mod.rs:1079-1108 dns_resolvers *)
Definition dns_from (v : bytes) : option (list ip_addr) :=
  let? i := bracketed v in match i with [] => Some [] | _ => mapM parse_ip_addr (split_on ","%byte i) end.
(** bool::from_str *)
Definition bool_from (v : bytes) : option bool :=
  if bytes_eqb v (bs "true") then Some true else if bytes_eqb v (bs "false") then Some false else None.
(** mod.rs:81-96 *)
Inductive display_type := DtManifest | DtManifestEnvelope | DtGenesisOutput.
Definition display_from (v : bytes) : option display_type :=
  if bytes_eqb v (bs "manifest") then Some DtManifest else if bytes_eqb v (bs "manifest-envelope") then Some DtManifestEnvelope
  else if bytes_eqb v (bs "genesis-output") then Some DtGenesisOutput else None.
(** an optional value and its reader *)
Definition maybe {A} (f : bytes -> option A) (o : option bytes) : option (option A) :=
  match o with Some v => let? x := f v in Some (Some x) | None => Some None end.

(** services.rs:238-281 PairOrYubi::from_inputs: which key is opened *)
Inductive signer := YubiKey (pin_path : option bytes) | SecretFile (path : bytes).
Definition from_inputs (yubikey : bool) (secret pin : option bytes) : option signer :=
  match yubikey, secret with
  | true, None => Some (YubiKey pin)
  | false, Some p => Some (SecretFile p)
  | _, _ => None
  end.

(** *** The service calls the handlers make (mod.rs:1439-1935) *)
Inductive action :=
| DoHealth (url : bytes) | DoStatus (url : bytes) | DoVersion (url : bytes)
| DoGenerateFileKey (master_seed pub : bytes)
| DoBootGenesis (uri namespace_dir share_set release pcr3 : bytes) (dr_key : option bytes) (skip : bool)
| DoAfterGenesis (key : signer) (share alias namespace_dir release pcr3 : bytes) (skip : bool) (time : option N)
| DoVerifyGenesis (namespace_dir master_seed : bytes)
| DoGenerateManifest (version nonce : N) (namespace : bytes) (restart : restart_policy) (pivot_hash release pcr3 manifest : bytes) (args : list bytes)
    (share_set manifest_set : bytes) (patch_set : option bytes) (quorum_key : bytes) (bridge : list bridge_config) (dns : option (list ip_addr)) (debug : bool)
| DoApprove (key : signer) (manifest approvals release pcr3 pivot_hash quorum_key manifest_set share_set : bytes) (patch_set : option bytes) (alias : bytes) (auto : bool)
| DoBootStandard (uri pivot envelope pcr3 : bytes) (skip : bool)
| DoGetAttestationDoc (uri doc envelope : bytes)
| DoGetEphemeralKeyHex (doc eph : bytes)
| DoProxyReEncrypt (key : signer) (share envelope approval eph_share doc pcr3 alias manifest_set : bytes) (skip : bool) (eph : option bytes) (auto : bool)
| DoPostShare (uri eph_share approval : bytes)
| DoDisplay (t : display_type) (file : bytes) (json : bool)
| DoJsonToBorsh (t : display_type) (file output : bytes)
| DoDangerousDevBoot (uri pivot : bytes) (restart : restart_policy) (args : list bytes) (bridge : list bridge_config) (eph : option bytes)
| DoGenerateEnvelope (approvals manifest : bytes) (envelope : option bytes)
| DoPivotHash (pivot output : bytes)
| DoShamirSplit (secret : bytes) (total threshold : N) (dir : bytes)
| DoShamirReconstruct (shares : list bytes) (output : bytes)
| DoBootKeyFwd (uri envelope pivot doc : bytes)
| DoExportKey (uri envelope doc key : bytes)
| DoInjectKey (uri key : bytes)
| DoVerify (payload signature pub : bytes) | DoSign (payload signature master_seed : bytes)
| DoEncrypt (plain cipher pub : bytes) | DoDecrypt (plain cipher master_seed : bytes) (hex : bool)
| DoProvisionYubiKey (pub : bytes) | DoAdvancedProvision (master_seed : bytes) (pin : option bytes)
| DoYubiSign (payload : bytes) | DoYubiPublic | DoPivReset | DoChangePin (current new : bytes).

Definition U32_MAX1 : N := 4294967296.
Definition U64_MAX1 : N := 18446744073709551616.
Section Act.
  Context (s : bytes -> option bytes) (f : bytes -> bool) (mu : bytes -> option (list bytes)).
  (** mod.rs:931-945 path *)
  Definition url (route : bytes) : option bytes :=
    let? ip := s HOST_IP in let? port := s HOST_PORT in
    Some (bs "http://" ++ ip ++ bs ":" ++ port ++ bs "/" ++ match s ENDPOINT_BASE_PATH with Some b => b | None => bs "qos" end ++ bs "/" ++ route).
  Definition path_message : option bytes := url (bs "message").
  Definition key : option signer := from_inputs (f YUBIKEY) (s SECRET_PATH) (s CURRENT_PIN_PATH).
  Definition bridge_config_opt : option (list bridge_config) := match s BRIDGE_CONFIG with Some v => bridge_config_from v | None => Some [] end.
  Definition act (c : command) : option action :=
    match c with
    | HostHealth => let? u := url (bs "host-health") in Some (DoHealth u)
    | EnclaveStatus => let? u := path_message in Some (DoStatus u)
    | EnclaveVersion => let? u := path_message in Some (DoVersion u)
    | GenerateFileKey => let? m := s MASTER_SEED_PATH in let? p := s PUB_PATH in Some (DoGenerateFileKey m p)
    | BootGenesis =>
      let? u := path_message in let? n := s NAMESPACE_DIR in let? ss := s SHARE_SET_DIR in let? r := s QOS_RELEASE_DIR in let? p := s PCR3_PREIMAGE_PATH in
      Some (DoBootGenesis u n ss r p (s DR_KEY_PATH) (f UNSAFE_SKIP_ATTESTATION))
    | AfterGenesis =>
      let? k := key in let? sh := s SHARE_PATH in let? a := s ALIAS in let? n := s NAMESPACE_DIR in let? r := s QOS_RELEASE_DIR in let? p := s PCR3_PREIMAGE_PATH in
      let? t := maybe (parse_unsigned U64_MAX1) (s VALIDATION_TIME_OVERRIDE) in
      Some (DoAfterGenesis k sh a n r p (f UNSAFE_SKIP_ATTESTATION) t)
    | VerifyGenesis => let? n := s NAMESPACE_DIR in let? m := s MASTER_SEED_PATH in Some (DoVerifyGenesis n m)
    | GenerateManifest =>
      let? no := s NONCE in let? no := parse_unsigned U32_MAX1 no in let? ns := s NAMESPACE in let? rp := s RESTART_POLICY in let? rp := restart_from rp in
      let? ph := s PIVOT_HASH_PATH in let? r := s QOS_RELEASE_DIR in let? p := s PCR3_PREIMAGE_PATH in let? m := s MANIFEST_PATH in
      let? ar := s PIVOT_ARGS in let? ar := pivot_args_from ar in let? ss := s SHARE_SET_DIR in let? ms := s MANIFEST_SET_DIR in let? q := s QUORUM_KEY_PATH in
      let? b := bridge_config_opt in let? d := maybe dns_from (s DNS_RESOLVERS) in
      let? de := match s DEBUG_MODE with Some v => bool_from v | None => Some false end in
      let? v := match s USE_MANIFEST_VERSION with Some v => parse_unsigned U32_MAX1 v | None => Some 1 end in
      if (v =? 1) || (v =? 2) then Some (DoGenerateManifest v no ns rp ph r p m ar ss ms (s PATCH_SET_DIR) q b d de) else None
    | ApproveManifest =>
      let? k := key in let? m := s MANIFEST_PATH in let? ad := s MANIFEST_APPROVALS_DIR in let? r := s QOS_RELEASE_DIR in let? p := s PCR3_PREIMAGE_PATH in
      let? ph := s PIVOT_HASH_PATH in let? q := s QUORUM_KEY_PATH in let? ms := s MANIFEST_SET_DIR in let? ss := s SHARE_SET_DIR in let? a := s ALIAS in
      Some (DoApprove k m ad r p ph q ms ss (s PATCH_SET_DIR) a (f UNSAFE_AUTO_CONFIRM))
    | BootStandard =>
      let? u := path_message in let? pv := s PIVOT_PATH in let? e := s MANIFEST_ENVELOPE_PATH in let? p := s PCR3_PREIMAGE_PATH in
      Some (DoBootStandard u pv e p (f UNSAFE_SKIP_ATTESTATION))
    | GetAttestationDoc => let? u := path_message in let? d := s ATTESTATION_DOC_PATH in let? e := s MANIFEST_ENVELOPE_PATH in Some (DoGetAttestationDoc u d e)
    | GetEphemeralKeyHex => let? d := s ATTESTATION_DOC_PATH in let? e := s EPHEMERAL_KEY_PATH in Some (DoGetEphemeralKeyHex d e)
    | ProxyReEncryptShare =>
      let? k := key in let? sh := s SHARE_PATH in let? e := s MANIFEST_ENVELOPE_PATH in let? ap := s APPROVAL_PATH in let? es := s EPH_WRAPPED_SHARE_PATH in
      let? d := s ATTESTATION_DOC_PATH in let? p := s PCR3_PREIMAGE_PATH in let? a := s ALIAS in let? ms := s MANIFEST_SET_DIR in
      Some (DoProxyReEncrypt k sh e ap es d p a ms (f UNSAFE_SKIP_ATTESTATION) (s UNSAFE_EPH_PATH_OVERRIDE) (f UNSAFE_AUTO_CONFIRM))
    | PostShare => let? u := path_message in let? es := s EPH_WRAPPED_SHARE_PATH in let? ap := s APPROVAL_PATH in Some (DoPostShare u es ap)
    | Display => let? t := s DISPLAY_TYPE in let? t := display_from t in let? p := s FILE_PATH in Some (DoDisplay t p (f JSON))
    | JsonToBorsh => let? t := s DISPLAY_TYPE in let? t := display_from t in let? p := s FILE_PATH in let? o := s OUTPUT_PATH in Some (DoJsonToBorsh t p o)
    | DangerousDevBoot =>
      let? u := path_message in let? pv := s PIVOT_PATH in let? rp := s RESTART_POLICY in let? rp := restart_from rp in
      let? ar := s PIVOT_ARGS in let? ar := pivot_args_from ar in let? b := bridge_config_opt in
      Some (DoDangerousDevBoot u pv rp ar b (s UNSAFE_EPH_PATH_OVERRIDE))
    | GenerateManifestEnvelope => let? ad := s MANIFEST_APPROVALS_DIR in let? m := s MANIFEST_PATH in Some (DoGenerateEnvelope ad m (s MANIFEST_ENVELOPE_PATH))
    | PivotHash => let? pv := s PIVOT_PATH in let? o := s OUTPUT_PATH in Some (DoPivotHash pv o)
    | ShamirSplit =>
      let? sp := s SECRET_PATH in let? n := s TOTAL_SHARES in let? n := parse_unsigned U64_MAX1 n in let? k := s THRESHOLD in let? k := parse_unsigned U64_MAX1 k in
      let? d := s OUTPUT_DIR in Some (DoShamirSplit sp n k d)
    | ShamirReconstruct => let? l := mu SHARE in let? o := s OUTPUT_PATH in Some (DoShamirReconstruct l o)
    | BootKeyFwd => let? u := path_message in let? e := s MANIFEST_ENVELOPE_PATH in let? pv := s PIVOT_PATH in let? d := s ATTESTATION_DOC_PATH in Some (DoBootKeyFwd u e pv d)
    | ExportKey => let? u := path_message in let? e := s MANIFEST_ENVELOPE_PATH in let? d := s ATTESTATION_DOC_PATH in let? q := s ENCRYPTED_QUORUM_KEY_PATH in Some (DoExportKey u e d q)
    | InjectKey => let? u := path_message in let? q := s ENCRYPTED_QUORUM_KEY_PATH in Some (DoInjectKey u q)
    | P256Verify => let? p := s PAYLOAD_PATH in let? g := s SIGNATURE_PATH in let? k := s PUB_PATH in Some (DoVerify p g k)
    | P256Sign => let? p := s PAYLOAD_PATH in let? g := s SIGNATURE_PATH in let? k := s MASTER_SEED_PATH in Some (DoSign p g k)
    | P256AsymmetricEncrypt => let? p := s PLAINTEXT_PATH in let? c := s CIPHERTEXT_PATH in let? k := s PUB_PATH in Some (DoEncrypt p c k)
    | P256AsymmetricDecrypt => let? p := s PLAINTEXT_PATH in let? c := s CIPHERTEXT_PATH in let? k := s MASTER_SEED_PATH in Some (DoDecrypt p c k (f OUTPUT_HEX))
    | ProvisionYubiKey => let? p := s PUB_PATH in Some (DoProvisionYubiKey p)
    | AdvancedProvisionYubiKey => let? m := s MASTER_SEED_PATH in Some (DoAdvancedProvision m (s CURRENT_PIN_PATH))
    | YubiKeySign => let? p := s PAYLOAD in Some (DoYubiSign p)
    | YubiKeyPublic => Some DoYubiPublic
    | YubiKeyPivReset => Some DoPivReset
    | YubiKeyChangePin => let? c := s CURRENT_PIN_PATH in let? n := s NEW_PIN_PATH in Some (DoChangePin c n)
    end.
End Act.

(** mod.rs:1319-1437 ClientRunner: [Failed] is a panic or an exit with status 1 before any
    service is called *)
Inductive ran := Failed | PrintedVersion | PrintedHelp | Ran (a : action).
Definition client_run (args : list bytes) : ran :=
  match command_parse command_from tokens args with
  | Panic | Done (Err _) => Failed
  | Done (Ok (c, m)) =>
    if p_version m then PrintedVersion
    else if p_help m then PrintedHelp
    else match act (get_single m) (fun n => match get_flag m n with Some b => b | None => false end) (get_multiple m) c with
         | Some a => Ran a
         | None => Failed
         end
  end.
