(** Histories of the enclave: requests, and process crashes after any trace
    entry (any file-system step, any NSM answer) followed by a restart of the
    enclave process on the files left behind.  The in-memory state is lost on a
    crash (state.rs:197-220 builds it anew).  Fault and randomness counters may
    be anything after a restart. *)
From Verif Require Import Base Types TypesJson Msg World Attest Services State SpecProtocol.

Section Reach.
  Context (Y : sys).
  Inductive reach : st Y -> Prop :=
  | R_init f n rc ic : (forall s, f (Main s) = None) -> reach (fresh Y f n rc ic [])
  | R_step s r : reach s -> wf_req r = true -> reach (snd (handle Y r s))
  | R_crash s newer x older rc ic : reach s -> st_trace s = newer ++ x :: older ->
      reach (fresh Y (en_fs x) (en_nsm x) rc ic (x :: older)).

  (** Every file-system state that ever existed in the history of [s]: the
      initial one, each trace entry, the current one; with the trace up to it. *)
  Inductive moment (s : st Y) : list (entry Y) -> fsys -> Prop :=
  | Mo_now : moment s (st_trace s) (st_fs s)
  | Mo_past newer x older : st_trace s = newer ++ x :: older -> moment s (x :: older) (en_fs x).

  (** [t] comes after [s] in some history: more requests, and restarts after a
      crash at any point not before [s]. *)
  Inductive later (s : st Y) : st Y -> Prop :=
  | L_now : later s s
  | L_step t r : later s t -> wf_req r = true -> later s (snd (handle Y r t))
  | L_crash t newer x mid rc ic : later s t -> st_trace t = newer ++ x :: mid ++ st_trace s ->
      later s (fresh Y (en_fs x) (en_nsm x) rc ic (x :: mid ++ st_trace s))
  | L_restart rc ic : later s (fresh Y (st_fs s) (st_nsm s) rc ic (st_trace s)).
End Reach.
