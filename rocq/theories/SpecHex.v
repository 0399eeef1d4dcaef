(** Independent specification of hexadecimal text. *)
From Verif Require Import Base.
Local Open Scope N_scope.

(** Value of one lower- or upper-case hex digit, by position in the alphabet. *)
Definition lower_digits : list byte := list_byte_of_string "0123456789abcdef".
Definition upper_digits : list byte := list_byte_of_string "0123456789ABCDEF".

Definition digit_value (c : byte) (v : nat) : Prop :=
  nth_error lower_digits v = Some c \/ nth_error upper_digits v = Some c.

(** [hex_text s b]: [s] is a strict hexadecimal spelling of the bytes [b]
    (two digits per byte, most significant first). *)
Inductive hex_text : bytes -> bytes -> Prop :=
| hex_nil : hex_text [] []
| hex_cons h l vh vl s b :
    digit_value h vh -> digit_value l vl -> hex_text s b ->
    hex_text (h :: l :: s) (n2b (16 * N.of_nat vh + N.of_nat vl) :: b).

(** The lower-case spelling of one byte. *)
Definition lower_pair (b : byte) : bytes :=
  match nth_error lower_digits (N.to_nat (b2n b / 16)),
        nth_error lower_digits (N.to_nat (b2n b mod 16)) with
  | Some h, Some l => [h; l]
  | _, _ => []
  end.
