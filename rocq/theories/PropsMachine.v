(** C01-C03: the phase machine.  Every statement quantifies over the system
    (device, cryptography, randomness, fault schedule), the state and the requests. *)
From Coq Require Import Relations.
From Verif Require Import Base Types TypesJson Msg World Attest Services State SpecProtocol Reach Run HandleProofs ProtocolProofs
  EffectProofs SpecHistory HistoryProofs Toy ToyRuns.
Local Open Scope N_scope.

(** ** C01 phases *)
(** The phase a process reports is the phase it is in. *)
Theorem c01_status_reports_phase : forall Y s, handle Y StatusRequest s = (StatusResponse (st_phase s), s).
Proof. intros Y s. unfold handle, routes. destruct (st_phase s) eqn:E; cbn; unfold transition; cbn; rewrite E; reflexivity. Qed.
Print Assumptions c01_status_reports_phase.

Theorem c01_one_edge_per_request : forall Y r s,
  st_phase (snd (handle Y r s)) = st_phase s \/ edge (st_phase s) (st_phase (snd (handle Y r s))).
Proof. intros Y r s. apply handle_edge. Qed.
Print Assumptions c01_one_edge_per_request.

(** After any requests a fresh process reports a phase on a path of edges from WaitingForBootInstruction. *)
Theorem c01_phase_path : forall Y f n rc ic tr rs,
  exists p, fst (handle Y StatusRequest (snd (serve Y rs (fresh Y f n rc ic tr)))) = StatusResponse p
    /\ clos_refl_trans phase edge WaitingForBootInstruction p.
Proof.
  intros. exists (st_phase (snd (serve Y rs (fresh Y f n rc ic tr)))). split.
  - now rewrite c01_status_reports_phase.
  - apply (serve_path rs (fresh Y f n rc ic tr)).
Qed.
Print Assumptions c01_phase_path.

Theorem c01_terminal_phases : forall Y rs s, terminal (st_phase s) -> st_phase (snd (serve Y rs s)) = st_phase s.
Proof. intros Y rs s. apply serve_terminal. Qed.
Print Assumptions c01_terminal_phases.

Example c01_nontrivial :
  map shape (fst (serve (toy calm 0) full_run (start calm 0))) =
  [StatusResponse WaitingForBootInstruction; BootStandardResponse RLockPCRs;
   ProvisionResponse false; ProvisionResponse true; StatusResponse QuorumKeyProvisioned]
  /\ terminal (st_phase s_done).
Proof. split; [exact toy_run|]. right; right. vm_compute. reflexivity. Qed.

(** ** C02 requests outside their phase *)
Theorem c02_unserved_refused_without_effect : forall Y r s, served (st_phase s) r = false ->
  handle Y r s = (ProtocolErrorResponse (NoMatchingRoute (st_phase s)), s).
Proof. intros Y r s. apply handle_unserved. Qed.
Print Assumptions c02_unserved_refused_without_effect.

(** Conversely a served request is never answered with NoMatchingRoute. *)
Theorem c02_served_is_routed : forall Y r s, served (st_phase s) r = true ->
  forall p, fst (handle Y r s) <> ProtocolErrorResponse (NoMatchingRoute p).
Proof. intros Y r s. apply handle_served. Qed.
Print Assumptions c02_served_is_routed.

Example c02_nontrivial : served (st_phase s_done) boot_std = false /\ served (st_phase s_booted) (prov1 0) = true
  /\ served (st_phase s_booted) (StatusResponse GenesisBooted) = false.
Proof. vm_compute. auto. Qed.

(** ** C03 read-only requests *)
Theorem c03_read_only : forall Y r s, read_only r = true ->
  let s' := snd (handle Y r s) in
  st_phase s' = st_phase s /\ st_fs s' = st_fs s /\ st_shares s' = st_shares s /\ st_pending s' = st_pending s
  /\ exists new, st_trace s' = new ++ st_trace s /\ Forall (fun x => en_fs x = st_fs s) new.
Proof.
  intros Y r s H s'. pose proof (read_only_quiet r s H) as Q. fold s' in Q.
  split; [apply (fx_phase _ _ _ Q)|]. split; [now apply quiet_fs|]. split; [apply (fx_shares _ _ _ Q)|].
  split; [apply (fx_pending _ _ _ Q)|]. destruct (fx_new _ _ _ Q) as (n & A & B & _). eauto.
Qed.
Print Assumptions c03_read_only.

(** An export that succeeds, and a live attestation, in a provisioned enclave. *)
Example c03_nontrivial : read_only export2 = true /\ is_error (fst (handle T export2 s_done)) = false
  /\ is_error (fst (handle T LiveAttestationDocRequest s_done)) = false /\ is_some (content (st_fs s_done) Quorum) = true.
Proof. vm_compute. auto. Qed.
