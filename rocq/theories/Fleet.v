(** A fleet: any number of enclaves running this code side by side, and the
    requests their hosts send them.  Each enclave is the state machine of
    State.v; the enclaves share nothing but what the hosts, who are not trusted,
    carry from one to another.  Models the setting of key forwarding,
    /repo/src/qos_core/src/protocol/services/key.rs:26-137 (export by one enclave,
    injection into another), and of one enclave process per host
    (/repo/src/qos_core/src/protocol/processor.rs:30-72). *)
From Verif Require Import Base Types TypesJson Msg World Attest Services State SpecProtocol SpecAttest SpecExport Reach.
Local Open Scope N_scope.

Section Fleet.
  Context (Y : sys).

  (** One request served by one enclave.  [sv_reply] is [None] if the enclave
      process died while serving it. *)
  Record served_one := Served {
    sv_who : nat; sv_before : st Y; sv_request : msg; sv_reply : option msg; sv_after : st Y
  }.

  Definition put (cl : nat -> st Y) (i : nat) (s : st Y) : nat -> st Y :=
    fun j => if Nat.eqb j i then s else cl j.

  (** The security module of enclave [j] signed [cose] for this document's contents. *)
  Definition signed_for (cl : nat -> st Y) (j : nat) (cose : bytes) (d : att_doc) : Prop :=
    exists x, In x (st_trace (cl j))
      /\ en_ev x = EvNsm (Attestation (ad_user_data d) (ad_nonce d) (ad_public_key d)) (RAttestation cose).

  (** What attestation promises: a document that verifies against the vendor's
      root and carries the measurements (PCR0-3) of this code was made by the
      security module of an enclave that runs it.  Assumed of the documents sent
      along with export requests; nothing is assumed of any other request. *)
  Definition hardware_honest (cl : nat -> st Y) (r : msg) : Prop :=
    forall new cose t d, r = ExportKeyRequest new cose -> doc_authentic Y cose t d ->
    let n := vm_enclave (env_manifest new) in
    pcr_is d 0 (pcr0 n) -> pcr_is d 1 (pcr1 n) -> pcr_is d 2 (pcr2 n) -> pcr_is d 3 (pcr3 n) ->
    exists j, signed_for cl j cose d.

  (** Histories of the fleet, with the log of requests, newest first: every
      enclave starts without files; any of them may be sent any request at any
      time, may die at any trace entry made while serving one, or between
      requests, and starts again on the files left behind. *)
  Inductive fleet : (nat -> st Y) -> list served_one -> Prop :=
  | F_init cl : (forall i, exists f n rc ic, cl i = fresh Y f n rc ic [] /\ forall p, f (Main p) = None) -> fleet cl []
  | F_step cl log i r a s' : fleet cl log -> wf_req r = true -> hardware_honest cl r ->
      handle Y r (cl i) = (a, s') ->
      fleet (put cl i s') (Served i (cl i) r (Some a) s' :: log)
  | F_crash cl log i r newer x mid rc ic : fleet cl log -> wf_req r = true -> hardware_honest cl r ->
      st_trace (snd (handle Y r (cl i))) = newer ++ x :: mid ++ st_trace (cl i) ->
      let s' := fresh Y (en_fs x) (en_nsm x) rc ic (x :: mid ++ st_trace (cl i)) in
      fleet (put cl i s') (Served i (cl i) r None s' :: log)
  | F_restart cl log i rc ic : fleet cl log ->
      fleet (put cl i (fresh Y (st_fs (cl i)) (st_nsm (cl i)) rc ic (st_trace (cl i)))) log.
End Fleet.
Arguments Served {Y} _ _ _ _ _.
Arguments sv_who {Y} _. Arguments sv_before {Y} _. Arguments sv_request {Y} _. Arguments sv_reply {Y} _. Arguments sv_after {Y} _.
