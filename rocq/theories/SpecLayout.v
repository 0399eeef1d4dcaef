(** Specification for C93: the texts of one JSON value, and when two JSON values
    hold the same members in another order.  Independent of the parser. *)
From Verif Require Import Base Utf8 Hex Json.
From Coq Require Import Permutation.
Local Open Scope N_scope.

(** White space: blanks, tabs, line feeds, carriage returns. *)
Definition blank (w : bytes) : Prop := Forall (fun c : byte => c = x20 \/ c = x09 \/ c = x0a \/ c = x0d) w.

(** The text between the quotes of a string: every character as itself, as a
    two-character escape, or as one \uXXXX (two for a surrogate pair). *)
Inductive spells : bytes -> bytes -> Prop :=
| sp_nil : spells [] []
| sp_raw c s t : c <> x22 -> c <> x5c -> 32 <= b2n c -> spells s t -> spells (c :: s) (c :: t)
| sp_esc c e s t :
    In (c, e) [(x22, x22); (x5c, x5c); (x2f, x2f); (x08, "b"%byte); (x0c, "f"%byte); (x0a, "n"%byte); (x0d, "r"%byte); (x09, "t"%byte)] ->
    spells s t -> spells (c :: s) (x5c :: e :: t)
| sp_unicode a b c d n s t :
    hex4 a b c d = Some n -> ~ (55296 <= n < 57344) ->
    spells s t -> spells (utf8_char n ++ s) (x5c :: "u"%byte :: a :: b :: c :: d :: t)
| sp_pair a b c d a' b' c' d' hi lo s t :
    hex4 a b c d = Some hi -> 55296 <= hi < 56320 ->
    hex4 a' b' c' d' = Some lo -> 56320 <= lo < 57344 ->
    spells s t ->
    spells (utf8_char (65536 + (hi - 55296) * 1024 + (lo - 56320)) ++ s)
           (x5c :: "u"%byte :: a :: b :: c :: d :: x5c :: "u"%byte :: a' :: b' :: c' :: d' :: t).
Definition quoted (s q : bytes) : Prop := utf8_valid s = true /\ exists t, spells s t /\ q = x22 :: t ++ [x22].

(** [laid j b]: [b] is a text of [j]. *)
Inductive laid : json -> bytes -> Prop :=
| la_null : laid JNull (bs "null")
| la_true : laid (JBool true) (bs "true")
| la_false : laid (JBool false) (bs "false")
| la_int z : (-9223372036854775808 <= z < 18446744073709551616)%Z -> laid (JInt z) (print_Z z)
| la_str s q : quoted s q -> laid (JStr (Some s)) q
| la_arr0 w : blank w -> laid (JArr []) ("["%byte :: w ++ ["]"%byte])
| la_arr l b : laid_elems l b -> laid (JArr l) ("["%byte :: b)
| la_obj0 w : blank w -> laid (JObj []) ("{"%byte :: w ++ ["}"%byte])
| la_obj m b : laid_members m b -> laid (JObj m) ("{"%byte :: b)
with laid_elems : list json -> bytes -> Prop :=
| le_last x b w1 w2 : laid x b -> blank w1 -> blank w2 -> laid_elems [x] (w1 ++ b ++ w2 ++ ["]"%byte])
| le_more x b w1 w2 l t : laid x b -> blank w1 -> blank w2 -> laid_elems l t ->
    laid_elems (x :: l) (w1 ++ b ++ w2 ++ ","%byte :: t)
with laid_members : list (option bytes * json) -> bytes -> Prop :=
| lm_last k q x b w1 w2 w3 w4 : quoted k q -> laid x b -> blank w1 -> blank w2 -> blank w3 -> blank w4 ->
    laid_members [(Some k, x)] (w1 ++ q ++ w2 ++ ":"%byte :: w3 ++ b ++ w4 ++ ["}"%byte])
| lm_more k q x b w1 w2 w3 w4 m t : quoted k q -> laid x b -> blank w1 -> blank w2 -> blank w3 -> blank w4 ->
    laid_members m t ->
    laid_members ((Some k, x) :: m) (w1 ++ q ++ w2 ++ ":"%byte :: w3 ++ b ++ w4 ++ ","%byte :: t).

(** A document: one value between white space. *)
Definition document (j : json) (b : bytes) : Prop :=
  exists w1 t w2, blank w1 /\ blank w2 /\ laid j t /\ b = w1 ++ t ++ w2.

(** The same value, the members of any of its objects (without repeated keys)
    in another order. *)
Inductive reordered : json -> json -> Prop :=
| ro_same j : reordered j j
| ro_arr l l' : Forall2 reordered l l' -> reordered (JArr l) (JArr l')
| ro_obj m m1 m2 : Forall2 (fun p q => fst p = fst q /\ reordered (snd p) (snd q)) m m1 ->
    NoDup (map fst m) -> Permutation m1 m2 -> reordered (JObj m) (JObj m2).

(** Two files holding the same JSON document. *)
Definition same_document (b b' : bytes) : Prop :=
  exists j j', document j b /\ document j' b' /\ reordered j j'.
