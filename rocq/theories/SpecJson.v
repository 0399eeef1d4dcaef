(** Specification of "the same JSON document up to what QOS canonical JSON
    ignores" (C32), independent of the canonicaliser. *)
From Verif Require Import Base Utf8 Hex Json JsonProofs.
From Coq Require Import Permutation.

Definition key_ok (p : option bytes * json) : Prop := exists k, fst p = Some k /\ utf8_valid k = true.

Inductive jeq : json -> json -> Prop :=
| je_refl a : jeq a a
| je_sym a b : jeq a b -> jeq b a
| je_trans a b c : jeq a b -> jeq b c -> jeq a c
  (* an integer and its decimal text *)
| je_int z : jeq (JInt z) (str (print_Z z))
  (* inside arrays and members *)
| je_arr l1 l2 x y : jeq x y -> jeq (JArr (l1 ++ x :: l2)) (JArr (l1 ++ y :: l2))
| je_obj m1 m2 k x y : jeq x y -> jeq (JObj (m1 ++ (k, x) :: m2)) (JObj (m1 ++ (k, y) :: m2))
  (* member order *)
| je_perm m m' : Permutation m m' -> NoDup (map fst m) -> Forall key_ok m -> jeq (JObj m) (JObj m')
  (* a null member is an absent member *)
| je_null m1 m2 k : ~ In (Some k) (map fst m1) -> jeq (JObj (m1 ++ (Some k, JNull) :: m2)) (JObj (m1 ++ m2))
  (* of repeated keys the last counts *)
| je_dup m1 m2 k x : In (Some k) (map fst m2) -> jeq (JObj (m1 ++ (Some k, x) :: m2)) (JObj (m1 ++ m2)).
