(** /repo/src/qos_crypto/src/n_choose_k.rs.  [usize] is 64 bits; arithmetic
    wraps (release profile, no overflow-checks: Cargo.toml:124-138). *)
From Verif Require Import Base.

Definition usize_wrap (x : N) : N := (x mod 18446744073709551616)%N.
(** :65-67 factorial *)
Fixpoint wfactorial (n : nat) : N :=
  match n with O => 1%N | S m => usize_wrap (N.of_nat n * wfactorial m) end.
(** :61-63 expected_combinations_count; [None] is the division-by-zero panic. *)
Definition expected_combinations_count (n k : nat) : option N :=
  let d := usize_wrap (wfactorial k * wfactorial (n - k)) in
  if N.eqb d 0 then None else Some (wfactorial n / d)%N.
(** Vec::with_capacity of 24-byte elements panics above isize::MAX bytes. *)
Definition with_capacity (c : N) : option unit :=
  if (9223372036854775807 <? 24 * c)%N then None else Some tt.

Inductive outcome (A : Type) := Returns (a : A) | Panics | StillRunning.
Arguments Returns {A}. Arguments Panics {A}. Arguments StillRunning {A}.

(** :47-50: the position to increment, scanning down from [k]. *)
Fixpoint scan (n k : nat) (idx : list nat) (i : nat) : nat :=
  match i with
  | S (S _ as i') => if Nat.eqb (nth i' idx 0) (n - k + i') then scan n k idx i' else i
  | _ => i
  end.
(** :52-56: increment position [i - 1] and reset the later positions to
    consecutive values (the [for] loop as [seq]). *)
Definition bump (k : nat) (idx : list nat) (i : nat) : list nat :=
  firstn (i - 1) idx ++ seq (S (nth (i - 1) idx 0)) (k - i + 1).
(** :41-43: clone the selected elements; an index out of range panics. *)
Fixpoint select {T} (input : list T) (idx : list nat) : option (list T) :=
  match idx with
  | [] => Some []
  | i :: r => match nth_error input i, select input r with
              | Some x, Some xs => Some (x :: xs) | _, _ => None end
  end.
(** :38-57: the loop, [fuel] iterations of it. *)
Fixpoint comb_loop {T} (fuel : nat) (input : list T) (k : nat) (idx : list nat) (combos : list (list T)) : outcome (list (list T)) :=
  match fuel with
  | O => StillRunning
  | S f =>
    let n := length input in
    if Nat.leb (nth 0 idx 0) (n - k)
    then match select input idx with
         | Some c => comb_loop f input k (bump k idx (scan n k idx k)) (combos ++ [c])
         | None => Panics end
    else Returns combos
  end.
(** :27-60 *)
Definition combinations {T} (fuel : nat) (input : list T) (k : nat) : outcome (list (list T)) :=
  let n := length input in
  if Nat.ltb n k || Nat.eqb k 0 then Returns []
  else match expected_combinations_count n k with
       | None => Panics
       | Some c => match with_capacity c with
                   | None => Panics
                   | Some _ => comb_loop fuel input k (seq 0 k) [] end
       end.
