(** The operator's commands that talk to an enclave, through the host's HTTP
    server: /repo/src/qos_client/src/lib.rs (request), the posting half of
    /repo/src/qos_client/src/cli/services.rs, /repo/src/qos_host/src/host.rs:246-281.
    Between two requests of a command other parties may send the enclave
    anything; each request may get lost on the way, or its answer may. *)
From Verif Require Import Base Utf8 Hex Borsh Json Types TypesBorsh TypesJson JsonComb Msg MsgBorsh MsgJson World Attest Services State Wire Client.
Local Open Scope N_scope.

(** qos_host/src/lib.rs:32-33 *)
Definition HOST_MAX_MSG_LEN : N := 268435456.
(** qos_core/src/io/stream.rs:16-18 *)
Definition STREAM_MAX : N := 134217728.
(** qos_client/src/lib.rs:16: [take(MAX_SIZE)] *)
Definition MAX_SIZE : N := 4294967295.
Definition take_size (b : bytes) : bytes := if lenN b <=? MAX_SIZE then b else firstn (N.to_nat MAX_SIZE) b.

(** What happens to one request: it never reaches the enclave; the enclave
    serves it but no answer comes back in time; it is answered. *)
Inductive fate := Lost | Cut | Through.
Inductive who := Me | Other.

(** Why a request failed, as far as the command can tell: lib.rs:65-108 (the
    texts are not modelled). *)
Inductive cerr := Unserializable (e : perr) | NoAnswer | Status (code : N) | Undecodable (e : perr) | Unexpected (m : msg).

Section ClientNet.
  Context (Y : sys).
  Notation st := (st Y).

  (** The enclave, the byte strings it has processed (ghost), and what the
      network will do to the requests to come. *)
  Record net := Net { n_st : st; n_log : list (who * bytes); n_script : list (list bytes * fate) }.

  Definition deliver (w : who) (b : bytes) (n : net) : option bytes * net :=
    let '(a, s') := process Y b (n_st n) in (a, Net s' (n_log n ++ [(w, b)]) (n_script n)).
  Fixpoint others (l : list bytes) (n : net) : net :=
    match l with [] => n | b :: r => others r (snd (deliver Other b n)) end.
  Definition next_fate (n : net) : fate * net :=
    match n_script n with
    | [] => (Lost, n)
    | (l, f) :: r => (f, others l (Net (n_st n) (n_log n) r))
    end.

  (** host.rs:246-281 message, with client.rs:72-92 SocketClient::call (a fresh
      connection per call, pool.rs:35-40) and stream.rs:191-245: status and body,
      [None] if no HTTP answer arrives. *)
  Definition host_error (e : perr) (code : N) : option (N * bytes) :=
    match json_error e with Some b => Some (code, b) | None => None end.
  Definition exchange (b : bytes) (n : net) : option (N * bytes) * net :=
    let '(f, n1) := next_fate n in
    if HOST_MAX_MSG_LEN <? lenN b then (host_error OversizeMsg 400, n1)
    else if STREAM_MAX <? lenN b then (host_error EnclaveClient 500, n1)
    else match f with
         | Lost => (None, n1)
         | Cut => (None, snd (deliver Me b n1))
         | Through =>
           let '(a, n2) := deliver Me b n1 in
           match a with
           | Some a => if STREAM_MAX <? lenN a then (host_error EnclaveClient 500, n2) else (Some (200, a), n2)
           | None => (host_error EnclaveClient 500, n2)
           end
         end.

  (** lib.rs:65-108 post_wire; ureq reports every status from 400 on as an error *)
  Definition post_wire (m : msg) (e : encoding) (n : net) : result cerr msg * net :=
    match to_wire m e with
    | Err x => (Err (Unserializable x), n)
    | Ok b =>
      let '(a, n') := exchange b n in
      (match a with
       | None => Err NoAnswer
       | Some (code, body) =>
         if 400 <=? code then Err (Status code)
         else match from_wire (take_size body) with Ok (r, _) => Ok r | Err x => Err (Undecodable x) end
       end, n')
    end.
  (** lib.rs:44-49, 58-63 *)
  Definition post_json (m : msg) : net -> result cerr msg * net := post_wire m EJson.
  Definition post_borsh (m : msg) : net -> result cerr msg * net := post_wire m EBorsh.
  (** lib.rs:26-33 post *)
  Definition post (m : msg) (n : net) : result cerr msg * net :=
    match post_json m n with
    | (Ok (ProtocolErrorResponse ProtocolMsgDeserialization), n') => post_borsh m n'
    | r => r
    end.
  (** services.rs:1358-1381 post_request_with_encoding_fallback *)
  Fixpoint post_fallback {A} (m : msg) (es : list encoding) (parse : msg -> option A) (errs : list cerr) (n : net)
    : result (list cerr) A * net :=
    match es with
    | [] => (Err errs, n)
    | e :: r =>
      match post_wire m e n with
      | (Ok a, n') => match parse a with Some x => (Ok x, n') | None => post_fallback m r parse (errs ++ [Unexpected a]) n' end
      | (Err x, n') => post_fallback m r parse (errs ++ [x]) n'
      end
    end.
  (** services.rs:1394-1403 manifest_envelope_protocol_encodings *)
  Definition envelope_encodings (e : versioned_envelope) : list encoding :=
    match e with VE2 _ => [EJson] | VE1 _ | VE0 _ => [EBorsh; EJson] end.

  (** services.rs:1440-1477 boot_standard_attestation_doc_with_fallback *)
  Definition boot_doc (e : versioned_envelope) (pivot : bytes) (n : net) : result cerr bytes * net :=
    match post_borsh (BootStandardJsonEnvelopeRequest e pivot) n with
    | (Ok (BootStandardResponse (RAttestation d)), n1) => (Ok d, n1)
    | (_, n1) =>
      match post_borsh (BootStandardRequest e pivot) n1 with
      | (Ok (BootStandardResponse (RAttestation d)), n2) => (Ok d, n2)
      | (Ok r, n2) => (Err (Unexpected r), n2)
      | (Err x, n2) => (Err x, n2)
      end
    end.

  (** key.rs:14-24 EncryptedQuorumKey as JSON *)
  Definition js_encrypted_key : jcodec (bytes * bytes) :=
    js_struct false (f_cons (bs "encrypted_quorum_key") js_hex (f_one (bs "signature") js_hex)).

  (** The commands.  A command answers with the files it writes (or, for the
      last three, what it prints); [None] is an error or a panic. *)
  Inductive command :=
  | BootGenesis (share_set : dir) (dr_key : option file) (pcrs pcr3_preimage : file) (skip : bool) (now : N)
  | BootStandard (pivot envelope pcr3_preimage : file) (skip : bool) (now : N)
  | BootKeyForward (envelope pivot : file)
  | ExportKey (envelope doc : file)
  | InjectKey (key : file)
  | PostShare (share approval : file)
  | GetAttestationDoc
  | EnclaveStatus
  | EnclaveVersion.

  (** services.rs:1309-1320, 1340-1350 the expected responses *)
  Definition forward_doc (m : msg) : option bytes :=
    match m with BootKeyForwardResponse (RAttestation d) => Some d | _ => None end.
  Definition exported (m : msg) : option (bytes * bytes) :=
    match m with ExportKeyResponse k g => Some (k, g) | _ => None end.

  (** services.rs:1479-1530 boot_standard, after the document was received *)
  Definition boot_accept (e : versioned_envelope) (pcr3_preimage : file) (skip : bool) (now : N) (cose : bytes) : option unit :=
    let? d := extract_attestation_doc Y cose skip now in
    if skip then Some tt
    else let? role := find_pcr3 pcr3_preimage in
         if pcr3_preimage_ok Y role (env_manifest e) && doc_is_setup_of Y d (env_manifest e)
         then let? pk := ad_public_key d in let? _ := ok_opt (public_from_bytes Y pk) in Some tt
         else None.

  Definition fail {A} (n : net) : option A * net := (None, n).
  Definition run (c : command) (n : net) : option (list bytes) * net :=
    match c with
    | BootGenesis set dr pcrs pcr3 skip now =>   (* services.rs:491-611 *)
      match genesis_request Y set dr with
      | Some (BootGenesisRequest gs dk as m) =>
        let '(r, n') := post_json m n in
        (let? r := ok_opt r in let? o := genesis_accept Y gs dk r pcrs pcr3 skip now in
         Some [enc c_genesis_output (fst o); snd o], n')
      | _ => fail n
      end
    | BootStandard pivot envelope pcr3 skip now =>   (* services.rs:1479-1530 *)
      match pivot, read_manifest_envelope_compat envelope with
      | Some p, Some e =>
        let '(r, n') := boot_doc e p n in
        (let? d := ok_opt r in let? _ := boot_accept e pcr3 skip now d in Some [], n')
      | _, _ => fail n
      end
    | BootKeyForward envelope pivot =>   (* services.rs:1285-1324 *)
      match pivot, read_manifest_envelope_compat envelope with
      | Some p, Some e =>
        let '(r, n') := post_fallback (BootKeyForwardRequest e p) (envelope_encodings e) forward_doc [] n in
        (let? d := ok_opt r in Some [d], n')
      | _, _ => fail n
      end
    | ExportKey envelope doc =>   (* services.rs:1326-1356 *)
      match read_manifest_envelope_compat envelope, doc with
      | Some e, Some d =>
        let '(r, n') := post_fallback (ExportKeyRequest e d) (envelope_encodings e) exported [] n in
        (let? k := ok_opt r in Some [write (jser js_encrypted_key k)], n')
      | _, _ => fail n
      end
    | InjectKey key =>   (* services.rs:1405-1429 *)
      match (let? c := key in json_from_slice js_encrypted_key c) with
      | Some (k, g) =>
        match post (InjectKeyRequest k g) n with
        | (Ok InjectKeyResponse, n') => (Some [], n')
        | (_, n') => fail n'
        end
      | None => fail n
      end
    | PostShare share approval =>   (* services.rs:1799-1822 *)
      match share_request share approval with
      | Some m =>
        match post m n with
        | (Ok (ProvisionResponse b), n') => (Some [if b then bs "reconstructed" else bs "*not* reconstructed"], n')
        | (_, n') => fail n'
        end
      | None => fail n
      end
    | GetAttestationDoc =>   (* services.rs:1532-1568 *)
      match post LiveAttestationDocRequest n with
      | (Ok (LiveAttestationDocResponse (RAttestation d) (Some e)), n') => (Some [d; write (jser js_versioned_envelope e)], n')
      | (_, n') => fail n'
      end
    | EnclaveStatus =>   (* cli/mod.rs:1477-1490 *)
      match post StatusRequest n with
      | (Ok (StatusResponse p), n') => (Some [write (jser js_phase p)], n')
      | (_, n') => fail n'
      end
    | EnclaveVersion =>   (* cli/mod.rs:1492-1505 *)
      match post VersionRequest n with
      | (Ok (VersionResponse v g), n') => (Some [v; g], n')
      | (_, n') => fail n'
      end
    end.
End ClientNet.
Arguments Net {Y}. Arguments n_st {Y}. Arguments n_log {Y}. Arguments n_script {Y}.
