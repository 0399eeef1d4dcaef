(** The protocol state machine: /repo/src/qos_core/src/protocol/state.rs. *)
From Verif Require Import Base Types TypesJson Msg World Attest Services.
Local Open Scope N_scope.
Local Open Scope m_scope.

Section State.
  Context (Y : sys).
  Local Notation M := (M Y).
  Local Notation st := (st Y).

  (** A handler answers [None] when the request is not its own, otherwise
      [Some (Ok response)] or [Some (Err error-response)] (state.rs:55-57). *)
  Definition handler := msg -> st -> option (result msg msg) * st.
  Definition answer {A} (f : A -> msg) (m : M A) (s : st) : option (result msg msg) * st :=
    match m s with
    | (Ok a, s') => (Some (Ok (f a)), s')
    | (Err e, s') => (Some (Err (ProtocolErrorResponse e)), s')
    end.

  (** state.rs:381-390 *)
  Definition h_status : handler := fun r s =>
    match r with StatusRequest => (Some (Ok (StatusResponse (st_phase s))), s) | _ => (None, s) end.
  (** state.rs:395-407 *)
  Definition h_version : handler := fun r s =>
    match r with VersionRequest => (Some (Ok (VersionResponse (s_version Y) (s_commit Y))), s) | _ => (None, s) end.
  (** state.rs:409-422 *)
  Definition ok_of {A} (m : M A) : M (option A) :=
    fun s => match m s with (Ok a, s') => (Ok (Some a), s') | (Err _, s') => (Ok None, s') end.
  Definition h_manifest_envelope : handler := fun r s =>
    match r with
    | ManifestEnvelopeRequest => answer ManifestEnvelopeResponse (ok_of (get_manifest_envelope Y)) s
    | _ => (None, s) end.
  (** state.rs:424-439 *)
  Definition h_provision : handler := fun r s =>
    match r with ProvisionRequest sh a => answer ProvisionResponse (provision Y sh a) s | _ => (None, s) end.
  (** state.rs:442-464 *)
  Definition h_boot_standard : handler := fun r s =>
    match r with
    | BootStandardRequest e pv => answer BootStandardResponse (boot_standard Y e pv) s
    | BootStandardJsonEnvelopeRequest e pv => answer BootStandardResponse (boot_standard Y e pv) s
    | _ => (None, s) end.
  (** state.rs:466-484 *)
  Definition h_boot_genesis : handler := fun r s =>
    match r with
    | BootGenesisRequest set dr => answer (fun p => BootGenesisResponse (snd p) (fst p)) (boot_genesis Y set dr) s
    | _ => (None, s) end.
  (** state.rs:486-506 *)
  Definition h_live_attestation_doc : handler := fun r s =>
    match r with
    | LiveAttestationDocRequest =>
      answer (fun p => LiveAttestationDocResponse (fst p) (snd p))
        (do n <- live_attestation_doc Y; do e <- ok_of (get_manifest_envelope Y); ret (n, e)) s
    | _ => (None, s) end.
  (** state.rs:508-525 *)
  Definition h_boot_key_forward : handler := fun r s =>
    match r with
    | BootKeyForwardRequest e pv => answer BootKeyForwardResponse (boot_key_forward Y e pv) s
    | _ => (None, s) end.
  (** state.rs:527-555 *)
  Definition h_export_key : handler := fun r s =>
    match r with
    | ExportKeyRequest e d => answer (fun p => ExportKeyResponse (fst p) (snd p)) (export_key Y e d) s
    | _ => (None, s) end.
  (** state.rs:557-580 *)
  Definition h_inject_key : handler := fun r s =>
    match r with
    | InjectKeyRequest k g => answer (fun _ => InjectKeyResponse) (inject_key Y k g) s
    | _ => (None, s) end.

  (** state.rs:59-63 *)
  Record route := Route { r_handler : handler; r_ok : phase; r_err : phase }.

  (** state.rs:98-184, 258-319 *)
  Definition routes (p : phase) : list route :=
    let status := Route h_status p p in
    let version := Route h_version p p in
    let menv := Route h_manifest_envelope p p in
    let live := Route h_live_attestation_doc p p in
    match p with
    | UnrecoverableError => [status; version; menv; live]
    | GenesisBooted => [status; version]
    | WaitingForBootInstruction =>
      [status; version; menv;
       Route h_boot_genesis GenesisBooted UnrecoverableError;
       Route h_boot_standard WaitingForQuorumShards UnrecoverableError;
       Route h_boot_key_forward WaitingForForwardedKey UnrecoverableError]
    | WaitingForQuorumShards =>
      [status; version; live; menv; Route h_provision QuorumKeyProvisioned UnrecoverableError]
    | QuorumKeyProvisioned => [status; version; live; menv; Route h_export_key p p]
    | WaitingForForwardedKey =>
      [status; version; live; menv; Route h_inject_key QuorumKeyProvisioned UnrecoverableError]
    end.

  (** state.rs:321-366 transition *)
  Definition allowed (p : phase) : list phase :=
    match p with
    | UnrecoverableError => []
    | WaitingForBootInstruction => [UnrecoverableError; GenesisBooted; WaitingForQuorumShards; WaitingForForwardedKey]
    | GenesisBooted => [UnrecoverableError]
    | WaitingForQuorumShards => [UnrecoverableError; QuorumKeyProvisioned]
    | QuorumKeyProvisioned => [UnrecoverableError]
    | WaitingForForwardedKey => [UnrecoverableError; QuorumKeyProvisioned]
    end.
  Definition transition (next : phase) : M unit := fun s =>
    if phase_eqb (st_phase s) next then (Ok tt, s)
    else if memb phase_eqb next (allowed (st_phase s)) then (Ok tt, set_phase next s)
    else (Err (InvalidStateTransition (st_phase s) next), set_phase UnrecoverableError s).

  (** state.rs:66-96 try_msg *)
  Definition try_msg (rt : route) (r : msg) (s : st) : option (result msg msg) * st :=
    let '(resp, s1) := r_handler rt r s in
    match resp with
    | Some (Ok (ProvisionResponse false)) => (resp, s1)
    | None => (None, s1)
    | Some res =>
      let target := match res with Ok _ => r_ok rt | Err _ => r_err rt end in
      match transition target s1 with
      | (Ok _, s2) => (resp, s2)
      | (Err e, s2) => (Some (Err (ProtocolErrorResponse e)), s2)
      end
    end.

  (** state.rs:238-255 handle_msg_response *)
  Fixpoint try_routes (l : list route) (r : msg) (s : st) : msg * st :=
    match l with
    | [] => (ProtocolErrorResponse (NoMatchingRoute (st_phase s)), s)
    | rt :: rest =>
      match try_msg rt r s with
      | (None, s1) => try_routes rest r s1
      | (Some (Ok m), s1) => (m, s1)
      | (Some (Err m), s1) => (m, s1)
      end
    end.
  Definition handle (r : msg) (s : st) : msg * st := try_routes (routes (st_phase s)) r s.

  (** A sequence of requests served by one process (requests are serialised by
      the lock in processor.rs:42). *)
  Fixpoint serve (rs : list msg) (s : st) : list msg * st :=
    match rs with
    | [] => ([], s)
    | r :: rest => let '(a, s1) := handle r s in let '(l, s2) := serve rest s1 in (a :: l, s2)
    end.

  (** state.rs:197-220 ProtocolState::new in a production build *)
  Definition fresh (f : fsys) (n : s_nsm Y) (rc ic : nat) (tr : list (entry Y)) : st :=
    St WaitingForBootInstruction [] None f n rc ic tr.
End State.
Arguments Route {Y}.
