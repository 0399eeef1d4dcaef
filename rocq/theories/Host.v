(** The host's HTTP server in front of an enclave: /repo/src/qos_host/src/host.rs
    (the read-only routes; the message route is [exchange] in ClientNet.v) and the
    response body of /repo/src/qos_host/src/lib.rs:56-66. *)
From Verif Require Import Base Utf8 Hex Borsh Json Types TypesBorsh TypesJson JsonComb Msg MsgBorsh MsgJson World Attest Services State Wire ClientNet.
Local Open Scope N_scope.

(** lib.rs:56-66 EnclaveInfo *)
Record enclave_info := EnclaveInfo { ei_phase : phase; ei_envelope : option versioned_envelope; ei_key : option bytes }.

(** Option fields without serde attributes: [null] when absent (written), missing
    or [null] read as absent. *)
Definition null_ser {A} (c : jcodec A) (o : option A) : json := match o with Some a => jser c a | None => JNull end.
(** serde derive of EnclaveInfo with rename_all = "camelCase"; host.rs:241 Json(info) *)
Definition js_enclave_info : jcodec enclave_info :=
  let names := [bs "phase"; bs "manifestEnvelope"; bs "ephemeralKey"] in
  JCodec
    (fun i => JObj [(Some (bs "phase"), jser js_phase (ei_phase i));
                    (Some (bs "manifestEnvelope"), null_ser js_versioned_envelope (ei_envelope i));
                    (Some (bs "ephemeralKey"), null_ser js_string (ei_key i))])
    (fun d j => match dec_struct names false d j with
                | Some [p; e; k] =>
                  let? p := req js_phase d p in let? e := opt_dec js_versioned_envelope d e in
                  let? k := opt_dec js_string d k in Some (EnclaveInfo p e k)
                | _ => None end)
    (fun i => opt_wf js_versioned_envelope (ei_envelope i) && opt_wf js_string (ei_key i))
    (S (Nat.max 2 (Nat.max (jneed js_phase) (Nat.max (jneed js_versioned_envelope) (jneed js_string))))).

Section Host.
  Context (Y : sys).
  Notation net := (net Y).

  (** client.rs:72-92 SocketClient::call on a single-stream pool: an error ([None])
      if the request is too long to frame, or is lost, or no answer comes back in
      time, or the answer is too long to frame. *)
  Definition host_call (b : bytes) (n : net) : option bytes * net :=
    let '(f, n1) := next_fate Y n in
    if STREAM_MAX <? lenN b then (None, n1)
    else match f with
         | Lost => (None, n1)
         | Cut => (None, snd (deliver Y Me b n1))
         | Through =>
           let '(a, n2) := deliver Y Me b n1 in
           (match a with Some a => if STREAM_MAX <? lenN a then None else Some a | None => None end, n2)
         end.
  (** [ProtocolMsg::X.to_json_wire().expect(..)], the call, [from_wire_any]; [None]
      is any of the errors. *)
  Definition ask (m : msg) (n : net) : option msg * net :=
    match to_wire m EJson with
    | Err _ => (None, n)
    | Ok b =>
      let '(a, n') := host_call b n in
      (match a with
       | Some a => match from_wire a with Ok (r, _) => Some r | Err _ => None end
       | None => None end, n')
    end.

  (** host.rs:143-152: the derived Debug text of a phase is its name *)
  Definition health_status (p : phase) : N :=
    match p with
    | UnrecoverableError | WaitingForBootInstruction | WaitingForQuorumShards | WaitingForForwardedKey => 503
    | QuorumKeyProvisioned | GenesisBooted => 200
    end.
  (** host.rs:109-164 enclave_health: status and, unless it is 500, the body
      (the texts of the errors are not modelled) *)
  Definition enclave_health (n : net) : (N * option bytes) * net :=
    let '(r, n') := ask StatusRequest n in
    (match r with
     | Some (StatusResponse p) => (health_status p, Some (phase_name p))
     | _ => (500, None)
     end, n').

  (** host.rs:285-305 get_eph_key_from_attestation_doc *)
  Definition eph_key_of (r : option msg) : option bytes :=
    match r with
    | Some (LiveAttestationDocResponse (RAttestation d) _) =>
      let? doc := s_doc Y d in let? k := ad_public_key doc in Some (encode k)
    | _ => None
    end.
  (** host.rs:166-243 enclave_info, 307-331 get_manifest_envelope: [None] is
      the 500 of lib.rs:35-46, [Some i] is 200 with body [i].  The vitals line
      printed to the host's log (host.rs:206-229) is not modelled. *)
  Definition get_info (n : net) : option enclave_info * net :=
    match ask StatusRequest n with
    | (Some (StatusResponse p), n1) =>
      match ask ManifestEnvelopeRequest n1 with
      | (Some (ManifestEnvelopeResponse e), n2) =>
        let '(r, n3) := ask LiveAttestationDocRequest n2 in
        (Some (EnclaveInfo p e (eph_key_of r)), n3)
      | (_, n2) => (None, n2)
      end
    | (_, n1) => (None, n1)
    end.
  Definition info_response (n : net) : (N * option bytes) * net :=
    let '(r, n') := get_info n in
    (match r with Some i => (200, Some (write (jser js_enclave_info i))) | None => (500, None) end, n').
End Host.
