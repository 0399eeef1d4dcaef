(** Borsh (the `borsh` crate, derive macros used all over
    /repo/src/qos_core/src/protocol).  The crate itself is not in /repo; these
    are the encodings of its specification: little-endian fixed width integers,
    u32 length prefixes for [Vec]/[String], one tag byte for enums/[Option],
    strict 0/1 booleans, structs as concatenated fields.
    [dec] is [BorshDeserialize::deserialize] (returns the unread rest);
    [from_slice] is [try_from_slice] (the rest must be empty).  Decoding errors
    are collapsed to [None]. *)
From Verif Require Import Base Utf8.
Local Open Scope N_scope.

Record codec (A : Type) := Codec {
  enc : A -> bytes;
  dec : bytes -> option (A * bytes);
  wf : A -> bool      (* values the encoder accepts: lengths fit u32, UTF-8 *)
}.
Arguments Codec {A}.
Arguments enc {A}.
Arguments dec {A}.
Arguments wf {A}.

Definition from_slice {A} (c : codec A) (b : bytes) : option A :=
  match dec c b with Some (a, []) => Some a | _ => None end.

(** borsh::to_vec: fails on unencodable values. *)
Definition to_vec {A} (c : codec A) (a : A) : option bytes :=
  if wf c a then Some (enc c a) else None.

(** *** Primitive codecs *)
Definition c_uint (k : nat) : codec N :=
  Codec (fun x => le_enc k x)
        (fun b => match take k b with Some (h, r) => Some (le_dec h, r) | None => None end)
        (fun x => x <? pow256 k).
Definition c_u8 := c_uint 1.
Definition c_u16 := c_uint 2.
Definition c_u32 := c_uint 4.
Definition c_u64 := c_uint 8.

Definition c_bool : codec bool :=
  Codec (fun b : bool => [if b then x01 else x00])
        (fun l => match l with
                  | x :: r => if byte_eqb x x00 then Some (false, r)
                              else if byte_eqb x x01 then Some (true, r) else None
                  | [] => None end)
        (fun _ => true).

Definition c_unit : codec unit :=
  Codec (fun _ => []) (fun b => Some (tt, b)) (fun _ => true).

(** [u8; n] *)
Definition c_fixed (n : nat) : codec bytes :=
  Codec (fun x => x) (fun b => take n b) (fun x => (length x =? n)%nat).

Definition U32_LIMIT : N := 4294967296.

(** Vec<u8> *)
Definition c_bytes : codec bytes :=
  Codec (fun x => le_enc 4 (lenN x) ++ x)
        (fun b => match take 4 b with
                  | Some (h, r) =>
                    if lenN r <? le_dec h then None else take (N.to_nat (le_dec h)) r
                  | None => None end)
        (fun x => lenN x <? U32_LIMIT).

(** String: Vec<u8> plus UTF-8 check *)
Definition c_string : codec bytes :=
  Codec (fun x => le_enc 4 (lenN x) ++ x)
        (fun b => match dec c_bytes b with
                  | Some (s, r) => if utf8_valid s then Some (s, r) else None
                  | None => None end)
        (fun x => (lenN x <? U32_LIMIT) && utf8_valid x).

(** Sequencing *)
Definition c_pair {A B} (ca : codec A) (cb : codec B) : codec (A * B) :=
  Codec (fun p => enc ca (fst p) ++ enc cb (snd p))
        (fun b => match dec ca b with
                  | Some (x, r) => match dec cb r with
                                   | Some (y, r') => Some ((x, y), r')
                                   | None => None end
                  | None => None end)
        (fun p => wf ca (fst p) && wf cb (snd p)).

(** Vec<T> for element codecs with non-empty encodings.  The element count is
    binary; recursion is on the remaining input (an element needs >= 1 byte). *)
Fixpoint dec_list {A} (ca : codec A) (fuel : nat) (n : N) (b : bytes) : option (list A * bytes) :=
  if n =? 0 then Some ([], b)
  else match fuel with
       | O => None
       | S f =>
         match dec ca b with
         | Some (x, r) =>
           match dec_list ca f (n - 1) r with
           | Some (xs, r') => Some (x :: xs, r')
           | None => None end
         | None => None end
       end.

Definition c_vec {A} (ca : codec A) : codec (list A) :=
  Codec (fun l => le_enc 4 (lenN l) ++ concat (map (enc ca) l))
        (fun b => match take 4 b with
                  | Some (h, r) => dec_list ca (length r) (le_dec h) r
                  | None => None end)
        (fun l => (lenN l <? U32_LIMIT) && forallb (wf ca) l).

(** Option<T> *)
Definition c_option {A} (ca : codec A) : codec (option A) :=
  Codec (fun o => match o with None => [x00] | Some a => x01 :: enc ca a end)
        (fun b => match b with
                  | x :: r =>
                    if byte_eqb x x00 then Some (None, r)
                    else if byte_eqb x x01 then
                      match dec ca r with Some (a, r') => Some (Some a, r') | None => None end
                    else None
                  | [] => None end)
        (fun o => match o with None => true | Some a => wf ca a end).

(** Transport along a bijection (records and enums vs. products and sums). *)
Definition c_iso {A B} (f : A -> B) (g : B -> A) (ca : codec A) : codec B :=
  Codec (fun b => enc ca (g b))
        (fun l => match dec ca l with Some (a, r) => Some (f a, r) | None => None end)
        (fun b => wf ca (g b)).

(** Restriction by a validity check made by the decoder. *)
Definition c_check {A} (ok : A -> bool) (ca : codec A) : codec A :=
  Codec (enc ca)
        (fun l => match dec ca l with
                  | Some (a, r) => if ok a then Some (a, r) else None
                  | None => None end)
        (fun a => wf ca a && ok a).

(** Enums: a tag byte selecting one of the alternatives, numbered from 0. *)
Record tcodec (B : Type) := TCodec {
  tenc : B -> N * bytes;
  tdec : N -> bytes -> option (B * bytes);
  twf : B -> bool
}.
Arguments TCodec {B}.
Arguments tenc {B}.
Arguments tdec {B}.
Arguments twf {B}.

Definition t_nil : tcodec Empty_set :=
  TCodec (fun e : Empty_set => match e return N * bytes with end)
         (fun _ _ => None)
         (fun e : Empty_set => match e return bool with end).

Definition t_cons {A B} (ca : codec A) (tb : tcodec B) : tcodec (A + B) :=
  TCodec (fun s => match s with
                   | inl a => (0, enc ca a)
                   | inr b => let p := tenc tb b in (N.succ (fst p), snd p) end)
         (fun n l => if n =? 0 then
                       match dec ca l with Some (a, r) => Some (inl a, r) | None => None end
                     else
                       match tdec tb (n - 1) l with Some (b, r) => Some (inr b, r) | None => None end)
         (fun s => match s with inl a => wf ca a | inr b => twf tb b end).

Definition c_enum {B} (t : tcodec B) : codec B :=
  Codec (fun b => n2b (fst (tenc t b)) :: snd (tenc t b))
        (fun l => match l with x :: r => tdec t (b2n x) r | [] => None end)
        (fun b => twf t b && (fst (tenc t b) <? 256)).
