(** Specification vocabulary for the protocol properties.  Nothing here uses
    the routing tables or services of the model. *)
From Verif Require Import Base Hex Types Json TypesJson Msg World.
Local Open Scope N_scope.

(** Which requests each phase serves (C02). *)
Definition served (p : phase) (r : msg) : bool :=
  match r with
  | StatusRequest | VersionRequest => true
  | ManifestEnvelopeRequest => negb (phase_eqb p GenesisBooted)
  | LiveAttestationDocRequest => negb (phase_eqb p GenesisBooted) && negb (phase_eqb p WaitingForBootInstruction)
  | BootStandardRequest _ _ | BootStandardJsonEnvelopeRequest _ _ | BootKeyForwardRequest _ _
  | BootGenesisRequest _ _ => phase_eqb p WaitingForBootInstruction
  | ProvisionRequest _ _ => phase_eqb p WaitingForQuorumShards
  | InjectKeyRequest _ _ => phase_eqb p WaitingForForwardedKey
  | ExportKeyRequest _ _ => phase_eqb p QuorumKeyProvisioned
  | _ => false
  end.

(** The documented phase graph (C01). *)
Inductive edge : phase -> phase -> Prop :=
| E_genesis : edge WaitingForBootInstruction GenesisBooted
| E_boot : edge WaitingForBootInstruction WaitingForQuorumShards
| E_forward : edge WaitingForBootInstruction WaitingForForwardedKey
| E_boot_err : edge WaitingForBootInstruction UnrecoverableError
| E_provision : edge WaitingForQuorumShards QuorumKeyProvisioned
| E_provision_err : edge WaitingForQuorumShards UnrecoverableError
| E_inject : edge WaitingForForwardedKey QuorumKeyProvisioned
| E_inject_err : edge WaitingForForwardedKey UnrecoverableError.

Definition terminal (p : phase) : Prop :=
  p = GenesisBooted \/ p = UnrecoverableError \/ p = QuorumKeyProvisioned.

(** Requests documented as read-only (C03). *)
Definition read_only (r : msg) : bool :=
  match r with
  | StatusRequest | VersionRequest | ManifestEnvelopeRequest | LiveAttestationDocRequest | ExportKeyRequest _ _ => true
  | _ => false
  end.

(** A boot request and what it carries. *)
Definition boot_of (r : msg) : option (versioned_envelope * bytes) :=
  match r with
  | BootStandardRequest e pv | BootStandardJsonEnvelopeRequest e pv | BootKeyForwardRequest e pv => Some (e, pv)
  | _ => None
  end.
(** The phase a successful boot request leads to. *)
Definition boot_target (r : msg) : phase :=
  match r with BootKeyForwardRequest _ _ => WaitingForForwardedKey | _ => WaitingForQuorumShards end.
Definition boot_answer (r : msg) (n : nsm_response) : msg :=
  match r with BootKeyForwardRequest _ _ => BootKeyForwardResponse n | _ => BootStandardResponse n end.
Definition is_error (m : msg) : bool := match m with ProtocolErrorResponse _ => true | _ => false end.

(** Requests as they come off the wire: strings are UTF-8, integers fit, environment maps are valid. *)
Definition wf_req (r : msg) : bool :=
  match r with
  | BootStandardRequest e _ | BootStandardJsonEnvelopeRequest e _ | BootKeyForwardRequest e _
  | ExportKeyRequest e _ => wf_envelope e
  | ProvisionRequest _ a => jwf js_approval a
  | _ => true
  end.

(** A file's content, ignoring its permission bits. *)
Definition content (f : fsys) (s : slot) : option bytes := option_map fst (f (Main s)).

(** The manifest envelope stored in a file system. *)
Definition stored (f : fsys) (e : versioned_envelope) : Prop :=
  exists c, content f Manif = Some c /\ envelope_try_from_slice_compat c = Some e.

(** The requests that may install a quorum key, in the phases that serve them. *)
Definition key_request (p : phase) (r : msg) : Prop :=
  (exists sh a, r = ProvisionRequest sh a /\ p = WaitingForQuorumShards)
  \/ (exists c g, r = InjectKeyRequest c g /\ p = WaitingForForwardedKey).

(** No file-system call fails. *)
Definition no_faults (Y : sys) : Prop := forall n, s_io Y n = NoFault.
