(** What C66 and C67 say. *)
From Verif Require Import Base Calls.

(** The history as the callers and the server's processor see it. *)
Inductive observation : Type :=
| OInvoke (i : nat) (q : bytes)              (* the [i]-th call starts, with request [q] *)
| OServe (q : bytes) (a : option bytes)      (* the server processes [q], received from this pool; [None]: dies *)
| OServeOther (q : bytes) (a : option bytes) (* the server processes a request of somebody else *)
| OReturn (i : nat) (a : bytes)              (* the [i]-th call returns [a] *)
| OFail (i : nat).                           (* the [i]-th call fails or is abandoned *)
Definition observe (e : event) : observation :=
  match e with
  | Invoke i q => OInvoke i q | Serve _ q a => OServe q a | ServeOther q a => OServeOther q a
  | Return i a => OReturn i a | Fail i => OFail i
  end.
Definition observed {S} (x : cstate S) : list observation := map observe (hist x).

(** The requests processed, one after the other, from one state of the server to another. *)
Inductive processed {S} (proc : bytes -> S -> option bytes -> S -> Prop) : S -> list observation -> S -> Prop :=
| P_nil s : processed proc s [] s
| P_serve s l s' q a s'' : processed proc s l s' -> proc q s' a s'' -> processed proc s (l ++ [OServe q a]) s''
| P_other s l s' q a s'' : processed proc s l s' -> proc q s' a s'' -> processed proc s (l ++ [OServeOther q a]) s''
| P_invoke s l s' i q : processed proc s l s' -> processed proc s (l ++ [OInvoke i q]) s'
| P_return s l s' i a : processed proc s l s' -> processed proc s (l ++ [OReturn i a]) s'
| P_fail s l s' i : processed proc s l s' -> processed proc s (l ++ [OFail i]) s'.

(** [at_ h p e]: the [p]-th thing that happened is [e]. *)
Definition at_ (h : list observation) (p : nat) (e : observation) : Prop := nth_error h p = Some e.

(** [owner] says for which call the server processed each request. *)
Record correlated (h : list observation) (owner : nat -> nat) : Prop := {
  (* the server processes only what a caller asked for, after it asked *)
  processed_was_asked : forall p q a, at_ h p (OServe q a) -> exists v, v < p /\ at_ h v (OInvoke (owner p) q);
  (* and for each call at most once *)
  processed_once : forall p q a p' q' a', at_ h p (OServe q a) -> at_ h p' (OServe q' a') -> owner p = owner p' -> p = p';
  (* what a call returns is the server's answer to its own request *)
  returned_own_answer : forall r i a, at_ h r (OReturn i a) -> exists p q, p < r /\ at_ h p (OServe q (Some a)) /\ owner p = i;
  (* a call starts once *)
  invoked_once : forall v i q v' q', at_ h v (OInvoke i q) -> at_ h v' (OInvoke i q') -> v = v'
}.

(** A call holds a stream. *)
Definition holds (c : pcall) (h : nat) : Prop := guard_of (p_stage c) = Some h.
