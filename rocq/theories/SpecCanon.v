(** Specification of canonical JSON as a form (C32): what [qos_json] writes. *)
From Verif Require Import Base Utf8 Hex Json.
From Coq Require Import Sorted.


(** Texts are compared by their UTF-16 code units. *)
Inductive lex_before : list N -> list N -> Prop :=
| lb_end x l : lex_before [] (x :: l)
| lb_less x y a b : (x < y)%N -> lex_before (x :: a) (y :: b)
| lb_same x a b : lex_before a b -> lex_before (x :: a) (x :: b).
(** No numbers, no null members, the members of every object in strictly
    ascending order (hence none twice). *)
Inductive canonical_form : json -> Prop :=
| cf_null : canonical_form JNull
| cf_bool b : canonical_form (JBool b)
| cf_str s : utf8_valid s = true -> canonical_form (JStr (Some s))
| cf_arr l : Forall canonical_form l -> canonical_form (JArr l)
| cf_obj (m : list (bytes * json)) :
    Forall (fun p => utf8_valid (fst p) = true /\ snd p <> JNull /\ canonical_form (snd p)) m ->
    StronglySorted (fun p q => lex_before (utf16 (fst p)) (utf16 (fst q))) m ->
    canonical_form (JObj (map (fun p => (Some (fst p), snd p)) m)).
