(** The sample application: src/signed_echo/src/lib.rs and main.rs.
    Axum's extractors and the JSON body writer are modelled by what they do:
    a body that is not UTF-8 is answered 400, [Json] writes compact serde_json.
    [fetch] (lib.rs:165-182, ureq) is the environment's choice.  Not modelled:
    the HTTP transport, the decoding of the query string. *)
From Verif Require Import Base Utf8 Hex Json Types TypesJson Msg World Attest Services Client.
Local Open Scope N_scope.

Record http_reply := Reply { code : N; body : bytes }.
(** lib.rs:22 *)
Definition DOMAIN : bytes := bs "echo app signed".
(** lib.rs:59-65 SignedEchoPayload and 67-82 SignedGetUrlPayload, in the order of their fields *)
Definition echo_payload (message : bytes) (time : N) : json :=
  JObj [(Some (bs "domain"), str DOMAIN); (Some (bs "message"), str message); (Some (bs "time"), JInt (Z.of_N time))].
Definition get_url_payload (url : bytes) (status : N) (body : bytes) (time : N) : json :=
  JObj [(Some (bs "domain"), str DOMAIN); (Some (bs "url"), str url); (Some (bs "status"), JInt (Z.of_N status)); (Some (bs "body"), str body); (Some (bs "time"), JInt (Z.of_N time))].
(** lib.rs:184-193 AppError *)
Inductive app_error := ESystemTime | EQuorumKey | ESerialize | ESign | EFetch (t : bytes) | EFetchStatus (n : N) | EFetchRead (t : bytes).
Record echo_response := EchoResponse { signed_payload_json : bytes; signature_hex : bytes; public_key_hex : bytes }.

(** what [ureq] makes of a GET: an error, or a status and a body (which may fail to be read as text) *)
Inductive fetched := NoAnswer (t : bytes) | Answer (status : N) (text : result bytes bytes).

Section App.
  Context (Y : sys).
  (** lib.rs:140-159 sign_json_payload *)
  Definition sign_json_payload (key : file) (payload : json) : result app_error echo_response :=
    match read_pair Y key with
    | None => Err EQuorumKey
    | Some (seed, k) => match canon payload with
                        | None => Err ESerialize
                        | Some p => Ok (EchoResponse p (encode (s_sign Y seed p)) (encode (public_to_bytes k)))
                        end
    end.
  (** lib.rs:165-182 fetch *)
  Definition fetch (f : fetched) : result app_error (N * bytes) :=
    match f with
    | NoAnswer t => Err (EFetch t)
    | Answer s t => if (200 <=? s) && (s <? 300) then match t with Ok b => Ok (s, b) | Err e => Err (EFetchRead e) end else Err (EFetchStatus s)
    end.
  (** lib.rs:101-108 signed_echo with 130-138 sign_payload; [now] is the system clock, [None] before the Unix epoch *)
  Definition signed_echo (key : file) (now : option N) (text : bytes) : result app_error echo_response :=
    match now with
    | None => Err ESystemTime
    | Some t => sign_json_payload key (echo_payload text t)
    end.
  (** lib.rs:110-128 signed_get_url *)
  Definition signed_get_url (key : file) (now : option N) (web : bytes -> fetched) (url : bytes) : result app_error echo_response :=
    match fetch (web url) with
    | Err e => Err e
    | Ok (status, b) => match now with
                        | None => Err ESystemTime
                        | Some t => sign_json_payload key (get_url_payload url status b t)
                        end
    end.
  (** lib.rs:201-230 IntoResponse for AppError *)
  Definition error_reply (e : app_error) : http_reply :=
    Reply (match e with EFetch _ | EFetchStatus _ | EFetchRead _ => 502 | _ => 500 end)
      (write (JObj [(Some (bs "error"), str match e with
        | ESystemTime => bs "system time is before the Unix epoch"
        | EQuorumKey => bs "failed to read quorum key"
        | ESerialize => bs "failed to serialize signed payload"
        | ESign => bs "failed to sign payload"
        | EFetch t => bs "failed to fetch url: " ++ t
        | EFetchStatus n => bs "fetched url returned non-success status: " ++ print_N n
        | EFetchRead t => bs "failed to read fetched url response: " ++ t
        end)])).
  Definition ok_reply (r : echo_response) : http_reply :=
    Reply 200 (write (JObj [(Some (bs "signed_payload_json"), str (signed_payload_json r)); (Some (bs "signature_hex"), str (signature_hex r)); (Some (bs "public_key_hex"), str (public_key_hex r))])).
  Definition reply_of (r : result app_error echo_response) : http_reply := match r with Ok a => ok_reply a | Err e => error_reply e end.

  (** lib.rs:90-97 router.  Requests that reach no handler: 404 and 405. *)
  Inductive request := Health | Echo (b : bytes) | GetUrl (q : option bytes) | Unrouted | WrongMethod.
  Definition router (key : file) (now : option N) (web : bytes -> fetched) (r : request) : http_reply :=
    match r with
    | Health => Reply 200 (write (JObj [(Some (bs "status"), str (bs "healthy"))]))
    | Echo b => if utf8_valid b then reply_of (signed_echo key now b) else Reply 400 (bs "Request body didn't contain valid UTF-8")
    | GetUrl None => Reply 400 (bs "Failed to deserialize query string")
    | GetUrl (Some u) => reply_of (signed_get_url key now web u)
    | Unrouted => Reply 404 []
    | WrongMethod => Reply 405 []
    end.
End App.

(** main.rs:12-62 the command line *)
Record cli := Cli { host : bytes; port : N; quorum_key_path : bytes }.
Definition default_cli : cli := Cli (bs "127.0.0.1") 3000 (bs "/qos.quorum.key").
Fixpoint cli_parse_from (c : cli) (args : list bytes) : option cli :=
  match args with
  | [] => Some c
  | a :: r =>
    if bytes_eqb a (bs "--host") then match r with v :: r' => cli_parse_from (Cli v (port c) (quorum_key_path c)) r' | [] => None end
    else if bytes_eqb a (bs "--port") then match r with v :: r' => let? p := parse_unsigned 65536 v in cli_parse_from (Cli (host c) p (quorum_key_path c)) r' | [] => None end
    else if bytes_eqb a (bs "--quorum-file") then match r with v :: r' => cli_parse_from (Cli (host c) (port c) v) r' | [] => None end
    else None
  end.
Definition cli_parse (args : list bytes) : option cli := cli_parse_from default_cli args.
