(** What the wire-level properties (C36, C37, C49, C50) say. *)
From Verif Require Import Base Types Json TypesJson Msg World Attest Services State Wire.
Local Open Scope N_scope.

(** The request limit of protocol/mod.rs:20-21: 128 MiB. *)
Definition fits (b : bytes) : Prop := N.of_nat (length b) <= 128 * 1024 * 1024.

(** [b] is a JSON message, in the wire format, saying that the request failed with [e]. *)
Definition json_failure (e : perr) (b : bytes) : Prop := from_wire b = Ok (ProtocolErrorResponse e, EJson).

(** Follow object members by name. *)
Fixpoint member (path : list bytes) (j : json) : option json :=
  match path with
  | [] => Some j
  | k :: p => match jget k j with Some x => member p x | None => None end
  end.

Section Conc.
  Context (Y : sys).
  Notation st := (st Y).
  Notation conf := (conf Y).
  (** [log] is a sequential execution that explains configuration [c]: the
      requests of [log], processed one after the other from [s0], give the
      current state, and every finished request got the answer it gets there. *)
  Definition explains (s0 : st) (c : conf) (log : list (nat * bytes)) : Prop :=
    NoDup (map fst log)
    /\ (forall i b, In (i, b) log -> (i < length (c_tasks Y c))%nat)
    /\ snd (process_all Y (map snd log) s0) = c_state Y c
    /\ (forall i b r, nth_error (c_tasks Y c) i = Some (Replied Y b r) ->
          exists k, nth_error log k = Some (i, b) /\ nth_error (fst (process_all Y (map snd log) s0)) k = Some r).

  (** Task [i] is inside the critical section. *)
  Definition inside (c : conf) (i : nat) : Prop :=
    exists b, (exists m e s, nth_error (c_tasks Y c) i = Some (Holding Y b m e s)) \/ (exists r, nth_error (c_tasks Y c) i = Some (Handled Y b r)).
End Conc.
