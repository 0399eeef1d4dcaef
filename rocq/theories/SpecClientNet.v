(** What C63 says. *)
From Verif Require Import Base Utf8 Hex Borsh Json Types TypesBorsh TypesJson JsonComb Msg MsgBorsh MsgJson World Attest Services State Wire SpecWire Client ClientNet.
Local Open Scope N_scope.

(** The enclave takes the bytes [b] as the request [m] and acts on it. *)
Definition executes (b : bytes) (m : msg) : Prop := fits b /\ exists e, from_wire b = Ok (m, e).

Definition sent_by_me (log : list (who * bytes)) : list bytes :=
  map snd (filter (fun p => match fst p with Me => true | Other => false end) log).
(** At most one of [l] is acted on. *)
Definition at_most_one_executed (l : list bytes) : Prop :=
  forall l1 b l2 b' l3, l = l1 ++ b :: l2 ++ b' :: l3 -> forall m m', executes b m -> executes b' m' -> False.

Section Spec.
  Context (Y : sys).
  (** What the operator asked the enclave for, by the command and the files it names. *)
  Definition requested (c : command) (m : msg) : Prop :=
    match c with
    | BootGenesis set dr _ _ _ _ => genesis_request Y set dr = Some m
    | BootStandard pivot envelope _ _ _ =>
      exists p e, pivot = Some p /\ read_manifest_envelope_compat envelope = Some e /\ m = BootStandardJsonEnvelopeRequest e p
    | BootKeyForward envelope pivot =>
      exists p e, pivot = Some p /\ read_manifest_envelope_compat envelope = Some e /\ m = BootKeyForwardRequest e p
    | ExportKey envelope doc =>
      exists d e, doc = Some d /\ read_manifest_envelope_compat envelope = Some e /\ m = ExportKeyRequest e d
    | InjectKey key => exists b k g, key = Some b /\ json_from_slice js_encrypted_key b = Some (k, g) /\ m = InjectKeyRequest k g
    | PostShare share approval => share_request share approval = Some m
    | GetAttestationDoc => m = LiveAttestationDocRequest
    | EnclaveStatus => m = StatusRequest
    | EnclaveVersion => m = VersionRequest
    end.
  (** The answer [r] is of the kind asked for, passes the command's own checks,
      and [files] is what the command should leave behind for it. *)
  Definition good_answer (c : command) (m r : msg) (files : list bytes) : Prop :=
    match c with
    | BootGenesis _ _ pcrs pcr3 skip now =>
      exists gs dk o d, m = BootGenesisRequest gs dk /\ r = BootGenesisResponse (RAttestation d) o
        /\ genesis_accept Y gs dk r pcrs pcr3 skip now = Some (o, d) /\ files = [enc c_genesis_output o; d]
    | BootStandard _ _ pcr3 skip now =>
      exists e p d, m = BootStandardJsonEnvelopeRequest e p /\ r = BootStandardResponse (RAttestation d)
        /\ boot_accept Y e pcr3 skip now d = Some tt /\ files = []
    | BootKeyForward _ _ => exists d, r = BootKeyForwardResponse (RAttestation d) /\ files = [d]
    | ExportKey _ _ => exists k g, r = ExportKeyResponse k g /\ files = [write (jser js_encrypted_key (k, g))]
    | InjectKey _ => r = InjectKeyResponse /\ files = []
    | PostShare _ _ => exists b, r = ProvisionResponse b /\ files = [if b then bs "reconstructed" else bs "*not* reconstructed"]
    | GetAttestationDoc => exists d e, r = LiveAttestationDocResponse (RAttestation d) (Some e) /\ files = [d; write (jser js_versioned_envelope e)]
    | EnclaveStatus => exists p, r = StatusResponse p /\ files = [write (jser js_phase p)]
    | EnclaveVersion => exists v g, r = VersionResponse v g /\ files = [v; g]
    end.

  (** The encoding in which the request reaches this enclave. *)
  Definition carrier (c : command) : encoding := match c with BootStandard _ _ _ _ _ => EBorsh | _ => EJson end.
  (** Nothing is lost for the next two requests, and nobody else talks to the enclave. *)
  Definition undisturbed (n : net Y) : Prop := exists r, n_script n = ([], Through) :: ([], Through) :: r.
End Spec.
