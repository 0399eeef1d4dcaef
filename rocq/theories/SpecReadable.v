(** How text that may not be UTF-8 is shown (the Unicode standard's "best
    practice for using U+FFFD", section 3.9, which String::from_utf8_lossy
    follows): characters stand; every maximal beginning of a character that is
    not completed, and every byte that begins no character, becomes one U+FFFD. *)
From Verif Require Import Base Utf8.
Local Open Scope N_scope.

Definition a_char (w : bytes) : Prop := exists c, (c < 0xD800 \/ 0xE000 <= c < 0x110000) /\ w = utf8_char c.
Definition begins_char (w : bytes) : Prop := exists x, a_char (w ++ x).
(** [w] is what is replaced when [w ++ l] remains. *)
Definition broken (w l : bytes) : Prop :=
  w <> [] /\ (length w = 1%nat \/ begins_char w)
  /\ (forall c r, a_char c -> w ++ l <> c ++ r)
  /\ (forall y z, y <> [] -> l = y ++ z -> ~ begins_char (w ++ y)).
Inductive readable : bytes -> bytes -> Prop :=
| rd_nil : readable [] []
| rd_char c l t : a_char c -> readable l t -> readable (c ++ l) (c ++ t)
| rd_bad w l t : broken w l -> readable l t -> readable (w ++ l) ([xef; xbf; xbd] ++ t).
