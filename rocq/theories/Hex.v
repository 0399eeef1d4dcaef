(** Model of /repo/src/qos_hex/src/lib.rs (encode, decode, decode_to_buf,
    decode_from_vec).  Rust [&str] inputs are byte lists holding valid UTF-8;
    the functions below never need validity except where the code checks it. *)
From Verif Require Import Base Utf8.
Local Open Scope N_scope.

(** lib.rs:5-6  STR_MAX_LENGTH = 256 * MEGABYTE *)
Definition STR_MAX_LENGTH : N := 268435456.

(** lib.rs:20-41.  Payloads of [ParseInt] and [InvalidUtf8] dropped. *)
Inductive hex_error :=
| LengthOne | OddLength | NotHexChar | ParseInt | ExceedsMaxLength
| NonAsciiChar | InvalidUtf8 | StringDoesNotMatchBufferLength.

(** lib.rs:8-17 HEX_BYTES: the 512 character table. *)
Definition HEX_BYTES : bytes := Eval vm_compute in bs
 ("000102030405060708090a0b0c0d0e0f101112131415161718191a1b1c1d1e1f" ++
  "202122232425262728292a2b2c2d2e2f303132333435363738393a3b3c3d3e3f" ++
  "404142434445464748494a4b4c4d4e4f505152535455565758595a5b5c5d5e5f" ++
  "606162636465666768696a6b6c6d6e6f707172737475767778797a7b7c7d7e7f" ++
  "808182838485868788898a8b8c8d8e8f909192939495969798999a9b9c9d9e9f" ++
  "a0a1a2a3a4a5a6a7a8a9aaabacadaeafb0b1b2b3b4b5b6b7b8b9babbbcbdbebf" ++
  "c0c1c2c3c4c5c6c7c8c9cacbcccdcecfd0d1d2d3d4d5d6d7d8d9dadbdcdddedf" ++
  "e0e1e2e3e4e5e6e7e8e9eaebecedeeeff0f1f2f3f4f5f6f7f8f9fafbfcfdfeff").

(** lib.rs:184-195 encode: [HEX_BYTES.get(2*b .. 2*b+2)] for every byte. *)
Definition hex_pair (b : byte) : bytes :=
  firstn 2 (skipn (2 * N.to_nat (b2n b)) HEX_BYTES).
Definition encode (l : bytes) : bytes := concat (map hex_pair l).

(** One digit of Rust's [u8::from_str_radix(_, 16)]. *)
Definition digit16 (c : byte) : option N :=
  let n := b2n c in
  if (48 <=? n) && (n <=? 57) then Some (n - 48)
  else if (97 <=? n) && (n <=? 102) then Some (n - 87)
  else if (65 <=? n) && (n <=? 70) then Some (n - 55)
  else None.

(** [u8::from_str_radix(s, 16)] on a two character string: the standard
    library accepts one leading '+' sign. *)
Definition from_str_radix16_2 (a b : byte) : option N :=
  if byte_eqb a "+" then digit16 b
  else
    match digit16 a, digit16 b with
    | Some x, Some y => Some (16 * x + y)
    | _, _ => None
    end.

(** lib.rs:55-60 *)
Definition verify_ascii (b : byte) : bool := b2n b <? 128.

(** lib.rs:95-108: body of the per-pair closure. *)
Definition decode_pair (a b : byte) : result hex_error byte :=
  if negb (verify_ascii a) then Err NonAsciiChar
  else if negb (verify_ascii b) then Err NonAsciiChar
  else match from_str_radix16_2 a b with
       | Some n => Ok (n2b n)
       | None => Err ParseInt
       end.

(** lib.rs:92-109: [(0..len).step_by(2).map(..).collect()], called with even
    length only. *)
Fixpoint decode_pairs (l : bytes) : result hex_error bytes :=
  match l with
  | a :: b :: l' =>
    match decode_pair a b with
    | Err e => Err e
    | Ok x => match decode_pairs l' with Err e => Err e | Ok r => Ok (x :: r) end
    end
  | _ => Ok []
  end.

(** lib.rs:78-85: optional [0x] prefix (only called on length >= 2). *)
Definition strip_0x (s : bytes) : bytes :=
  match s with
  | a :: b :: r => if byte_eqb a "0" && byte_eqb b "x" then r else s
  | _ => s
  end.

(** lib.rs:75-113 decode *)
Definition decode (s : bytes) : result hex_error bytes :=
  match s with
  | [] => Ok []
  | [_] => Err LengthOne
  | _ =>
    let t := strip_0x s in
    match N.even (lenN t), lenN t <? STR_MAX_LENGTH with
    | true, true => decode_pairs t
    | _, false => Err ExceedsMaxLength
    | false, true => Err OddLength
    end
  end.

(** lib.rs:127-162 decode_to_buf; [blen] is the length of [buf], the result is
    the new content of the whole buffer on success. *)
Definition decode_to_buf (s : bytes) (blen : N) : result hex_error bytes :=
  match s with
  | [] => if blen =? 0 then Ok [] else Err StringDoesNotMatchBufferLength
  | [_] => Err LengthOne
  | _ =>
    let t := strip_0x s in
    if negb (N.even (lenN t)) then Err OddLength
    else if negb (lenN t / 2 =? blen) then Err StringDoesNotMatchBufferLength
    else decode_pairs t
  end.

(** Unicode White_Space as used by Rust [str::trim]. *)
Definition is_white (c : N) : bool :=
  ((9 <=? c) && (c <=? 13)) || (c =? 32) || (c =? 133) || (c =? 160) || (c =? 5760)
  || ((8192 <=? c) && (c <=? 8202)) || (c =? 8232) || (c =? 8233) || (c =? 8239)
  || (c =? 8287) || (c =? 12288).

Fixpoint drop_white (cs : list N) : list N :=
  match cs with c :: r => if is_white c then drop_white r else cs | [] => [] end.

Definition trim (cs : list N) : list N := rev (drop_white (rev (drop_white cs))).

(** lib.rs:171-175 decode_from_vec *)
Definition decode_from_vec (v : bytes) : result hex_error bytes :=
  match utf8_dec v with
  | None => Err InvalidUtf8
  | Some cs => decode (utf8_enc (trim cs))
  end.
