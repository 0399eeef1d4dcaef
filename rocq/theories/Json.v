(** JSON text as handled by the [serde_json] crate (1.0.143, not in /repo) which
    /repo/src/qos_json/src/lib.rs and the manifest codecs build on, and QOS
    canonical JSON (qos_json/src/lib.rs:26-177).

    [parse] is lenient like serde_json's [IgnoredAny]: strings only need to be
    lexically well formed (the decoded text is [None] when a surrogate escape is
    unpaired or the bytes are not UTF-8), nesting is unbounded.  The typed
    decoders (TypesJson.v) and [strict] impose what serde_json imposes on the
    parts it does not ignore.  Floats keep their raw text. *)
From Verif Require Import Base Utf8 Hex.
From Coq Require Import Decimal DecimalN.
Local Open Scope N_scope.

Inductive json :=
| JNull
| JBool (b : bool)
| JInt (z : Z)                      (* an integer token fitting i64 or u64 *)
| JFloat (raw : bytes)              (* any other number token *)
| JStr (s : option bytes)           (* None: lexically fine but not valid text *)
| JArr (l : list json)
| JObj (m : list (option bytes * json)).   (* members in source order, duplicates kept *)

Definition str (s : bytes) : json := JStr (Some s).

(** ** Decimal numbers *)
Fixpoint bytes_of_uint (u : uint) : bytes :=
  match u with
  | Nil => []
  | D0 u => "0"%byte :: bytes_of_uint u | D1 u => "1"%byte :: bytes_of_uint u
  | D2 u => "2"%byte :: bytes_of_uint u | D3 u => "3"%byte :: bytes_of_uint u
  | D4 u => "4"%byte :: bytes_of_uint u | D5 u => "5"%byte :: bytes_of_uint u
  | D6 u => "6"%byte :: bytes_of_uint u | D7 u => "7"%byte :: bytes_of_uint u
  | D8 u => "8"%byte :: bytes_of_uint u | D9 u => "9"%byte :: bytes_of_uint u
  end.

Fixpoint uint_of_bytes (l : bytes) : option uint :=
  match l with
  | [] => Some Nil
  | c :: r =>
    let? u := uint_of_bytes r in
    match c with
    | "0" => Some (D0 u) | "1" => Some (D1 u) | "2" => Some (D2 u) | "3" => Some (D3 u)
    | "4" => Some (D4 u) | "5" => Some (D5 u) | "6" => Some (D6 u) | "7" => Some (D7 u)
    | "8" => Some (D8 u) | "9" => Some (D9 u)
    | _ => None
    end%byte
  end.

Definition print_N (n : N) : bytes := bytes_of_uint (N.to_uint n).
Definition print_Z (z : Z) : bytes :=
  match z with Zneg p => "-"%byte :: print_N (Npos p) | _ => print_N (Z.to_N z) end.

(** value of a digit string; None when a byte is not a digit *)
Definition dec_val (l : bytes) : option N :=
  let? u := uint_of_bytes l in Some (N.of_uint u).

(** Rust [str::parse::<uN>()]: optional '+', at least one digit, value < limit *)
Definition parse_unsigned (limit : N) (s : bytes) : option N :=
  let t := match s with c :: r => if byte_eqb c "+" then r else s | [] => s end in
  match t with
  | [] => None
  | _ => match dec_val t with
         | Some n => if n <? limit then Some n else None
         | None => None
         end
  end.

(** ** String writer: serde_json's [format_escaped_str] *)
Definition hex_digit (n : N) : byte :=
  match n with
  | 0 => "0" | 1 => "1" | 2 => "2" | 3 => "3" | 4 => "4" | 5 => "5" | 6 => "6" | 7 => "7"
  | 8 => "8" | 9 => "9" | 10 => "a" | 11 => "b" | 12 => "c" | 13 => "d" | 14 => "e" | _ => "f"
  end%byte.

Definition esc_byte (b : byte) : bytes :=
  let n := b2n b in
  if byte_eqb b x22 then [x5c; x22]            (* quote *)
  else if byte_eqb b x5c then [x5c; x5c]       (* backslash *)
  else if n <? 32 then
    if n =? 8 then [x5c; "b"%byte]
    else if n =? 9 then [x5c; "t"%byte]
    else if n =? 10 then [x5c; "n"%byte]
    else if n =? 12 then [x5c; "f"%byte]
    else if n =? 13 then [x5c; "r"%byte]
    else [x5c; "u"%byte; "0"%byte; "0"%byte; hex_digit (n / 16); hex_digit (n mod 16)]
  else [b].

Definition write_str (s : bytes) : bytes := x22 :: concat (map esc_byte s) ++ [x22].

(** ** Compact writer (serde_json::to_vec); [None] texts never occur in values
    that are written. *)
Definition opt_str (s : option bytes) : bytes := match s with Some x => x | None => [] end.

Fixpoint write (j : json) : bytes :=
  match j with
  | JNull => bs "null"
  | JBool true => bs "true"
  | JBool false => bs "false"
  | JInt z => print_Z z
  | JFloat raw => raw
  | JStr s => write_str (opt_str s)
  | JArr [] => bs "[]"
  | JArr (x :: l) =>
    "["%byte :: write x ++ concat (map (fun y => ","%byte :: write y) l) ++ ["]"%byte]
  | JObj [] => bs "{}"
  | JObj ((k, x) :: m) =>
    "{"%byte :: write_str (opt_str k) ++ ":"%byte :: write x
    ++ concat (map (fun p => ","%byte :: write_str (opt_str (fst p)) ++ ":"%byte :: write (snd p)) m)
    ++ ["}"%byte]
  end.

(** ** Lexing *)
Definition is_ws (c : byte) : bool :=
  byte_eqb c x20 || byte_eqb c x0a || byte_eqb c x09 || byte_eqb c x0d.
Fixpoint skip_ws (l : bytes) : bytes :=
  match l with c :: r => if is_ws c then skip_ws r else l | [] => [] end.

Definition is_digit (c : byte) : bool := (48 <=? b2n c) && (b2n c <=? 57).
Fixpoint span_digits (l : bytes) : bytes * bytes :=
  match l with
  | c :: r => if is_digit c then let p := span_digits r in (c :: fst p, snd p) else ([], l)
  | [] => ([], [])
  end.

Inductive stok := TB (b : byte) | TU (n : N).   (* a byte, or a \uXXXX escape *)

Definition hex4 (a b c d : byte) : option N :=
  match digit16 a, digit16 b, digit16 c, digit16 d with
  | Some w, Some x, Some y, Some z => Some (((w * 16 + x) * 16 + y) * 16 + z)
  | _, _, _, _ => None
  end.

Definition simple_escape (e : byte) : option byte :=
  if byte_eqb e x22 then Some x22 else if byte_eqb e x5c then Some x5c
  else if byte_eqb e "/" then Some "/"%byte
  else if byte_eqb e "b" then Some x08 else if byte_eqb e "f" then Some x0c
  else if byte_eqb e "n" then Some x0a else if byte_eqb e "r" then Some x0d
  else if byte_eqb e "t" then Some x09 else None.

(** after the opening quote *)
Fixpoint lex_str (l : bytes) : option (list stok * bytes) :=
  match l with
  | [] => None
  | c :: r =>
    if byte_eqb c x22 then Some ([], r)
    else if byte_eqb c x5c then
      match r with
      | [] => None
      | e :: r1 =>
        if byte_eqb e "u" then
          match r1 with
          | a :: b :: c' :: d :: r2 =>
            match hex4 a b c' d with
            | Some n => match lex_str r2 with Some (ts, r') => Some (TU n :: ts, r') | None => None end
            | None => None
            end
          | _ => None
          end
        else
          match simple_escape e with
          | Some b => match lex_str r1 with Some (ts, r') => Some (TB b :: ts, r') | None => None end
          | None => None
          end
      end
    else if b2n c <? 32 then None
    else match lex_str r with Some (ts, r') => Some (TB c :: ts, r') | None => None end
  end.

(** assemble the text; surrogate pairs must be well formed *)
Fixpoint assemble (ts : list stok) : option bytes :=
  match ts with
  | [] => Some []
  | TB b :: r => let? x := assemble r in Some (b :: x)
  | TU n :: r =>
    if is_scalar n then let? x := assemble r in Some (utf8_char n ++ x)
    else if n <? 56320 then     (* high surrogate *)
      match r with
      | TU m :: r' =>
        if (56320 <=? m) && (m <? 57344) then
          let? x := assemble r' in
          Some (utf8_char (65536 + (n - 55296) * 1024 + (m - 56320)) ++ x)
        else None
      | _ => None
      end
    else None
  end.

Definition str_text (ts : list stok) : option bytes :=
  match assemble ts with
  | Some x => if utf8_valid x then Some x else None
  | None => None
  end.

Definition parse_string (l : bytes) : option (option bytes * bytes) :=
  match lex_str l with Some (ts, r) => Some (str_text ts, r) | None => None end.

(** -?(0|[1-9][0-9]* )(\.[0-9]+)?([eE][+-]?[0-9]+)? *)
Definition I64_MIN_ABS : N := 9223372036854775808.
Definition U64_LIMIT : N := 18446744073709551616.

Definition lex_frac (l : bytes) : option (bytes * bytes) :=
  match l with
  | c :: r => if byte_eqb c "." then
                let p := span_digits r in
                match fst p with [] => None | ds => Some (c :: ds, snd p) end
              else Some ([], l)
  | [] => Some ([], [])
  end.
Definition lex_exp (l : bytes) : option (bytes * bytes) :=
  match l with
  | c :: r =>
    if byte_eqb c "e" || byte_eqb c "E" then
      let q := match r with
               | s :: r' => if byte_eqb s "+" || byte_eqb s "-" then ([s], r') else ([], r)
               | [] => ([], []) end in
      let p := span_digits (snd q) in
      match fst p with [] => None | ds => Some (c :: fst q ++ ds, snd p) end
    else Some ([], l)
  | [] => Some ([], [])
  end.

Definition int_token (neg : bool) (ds : bytes) : json :=
  match dec_val ds with
  | Some n =>
    if neg then
      if (n =? 0) || (I64_MIN_ABS <? n) then JFloat ("-"%byte :: ds) else JInt (- Z.of_N n)
    else if n <? U64_LIMIT then JInt (Z.of_N n) else JFloat ds
  | None => JFloat ds
  end.

Definition parse_number (l : bytes) : option (json * bytes) :=
  let '(neg, l1) := match l with c :: r => if byte_eqb c "-" then (true, r) else (false, l) | [] => (false, l) end in
  let p := span_digits l1 in
  match fst p with
  | [] => None
  | d :: ds' =>
    if byte_eqb d "0" && negb (match ds' with [] => true | _ => false end) then None
    else
      match lex_frac (snd p) with
      | None => None
      | Some (fr, l2) =>
        match lex_exp l2 with
        | None => None
        | Some (ex, l3) =>
          match fr, ex with
          | [], [] => Some (int_token neg (fst p), l3)
          | _, _ => Some (JFloat ((if neg then ["-"%byte] else []) ++ fst p ++ fr ++ ex), l3)
          end
        end
      end
  end.

Fixpoint lit (w l : bytes) : option bytes :=
  match w, l with
  | [], _ => Some l
  | a :: w', b :: l' => if byte_eqb a b then lit w' l' else None
  | _, [] => None
  end.

(** ** Parser (fuel: see [parse]) *)
Fixpoint parse_value (f : nat) (l : bytes) {struct f} : option (json * bytes) :=
  match f with
  | O => None
  | S f' =>
    match skip_ws l with
    | [] => None
    | c :: r =>
      if byte_eqb c "n" then let? r' := lit (bs "ull") r in Some (JNull, r')
      else if byte_eqb c "t" then let? r' := lit (bs "rue") r in Some (JBool true, r')
      else if byte_eqb c "f" then let? r' := lit (bs "alse") r in Some (JBool false, r')
      else if byte_eqb c x22 then let? p := parse_string r in Some (JStr (fst p), snd p)
      else if byte_eqb c "[" then
        match skip_ws r with
        | d :: r' => if byte_eqb d "]" then Some (JArr [], r')
                     else let? p := parse_elems f' r in Some (JArr (fst p), snd p)
        | [] => None
        end
      else if byte_eqb c "{" then
        match skip_ws r with
        | d :: r' => if byte_eqb d "}" then Some (JObj [], r')
                     else let? p := parse_members f' r in Some (JObj (fst p), snd p)
        | [] => None
        end
      else parse_number (c :: r)
    end
  end
with parse_elems (f : nat) (l : bytes) {struct f} : option (list json * bytes) :=
  match f with
  | O => None
  | S f' =>
    match parse_value f' l with
    | None => None
    | Some (x, r) =>
      match skip_ws r with
      | c :: r' => if byte_eqb c "," then let? p := parse_elems f' r' in Some (x :: fst p, snd p)
                   else if byte_eqb c "]" then Some ([x], r') else None
      | [] => None
      end
    end
  end
with parse_members (f : nat) (l : bytes) {struct f} : option (list (option bytes * json) * bytes) :=
  match f with
  | O => None
  | S f' =>
    match skip_ws l with
    | q :: r0 =>
      if byte_eqb q x22 then
        match parse_string r0 with
        | None => None
        | Some (k, r1) =>
          match skip_ws r1 with
          | c :: r2 =>
            if byte_eqb c ":" then
              match parse_value f' r2 with
              | None => None
              | Some (x, r3) =>
                match skip_ws r3 with
                | d :: r4 =>
                  if byte_eqb d "," then let? p := parse_members f' r4 in Some ((k, x) :: fst p, snd p)
                  else if byte_eqb d "}" then Some ([(k, x)], r4) else None
                | [] => None
                end
              end
            else None
          | [] => None
          end
        end
      else None
    | [] => None
    end
  end.

(** serde_json::from_slice: one value, then only whitespace. *)
Definition parse (l : bytes) : option json :=
  match parse_value (2 * length l + 2) l with
  | Some (j, r) => match skip_ws r with [] => Some j | _ => None end
  | None => None
  end.

(** ** Strict validity: what [serde_json::Value] (and serde's buffered Content)
    accept.  [d] is the remaining recursion budget (128 at the top). *)
(** |m * 10^e| rounds to a finite f64; serde_json rejects others as
    "number out of range". *)
Definition F64_LIMIT : N := 2 ^ 1024 - 2 ^ 970.
Definition float_in_range (raw : bytes) : bool :=
  let l1 := match raw with c :: r => if byte_eqb c "-" then r else raw | [] => raw end in
  let p := span_digits l1 in
  let q := match snd p with c :: r => if byte_eqb c "." then span_digits r else ([], snd p) | [] => ([], []) end in
  let ex := match snd q with
            | c :: r =>
              match r with
              | s :: r' =>
                if byte_eqb s "-" then match dec_val r' with Some n => Some (true, n) | None => None end
                else if byte_eqb s "+" then match dec_val r' with Some n => Some (false, n) | None => None end
                else match dec_val r with Some n => Some (false, n) | None => None end
              | [] => None
              end
            | [] => Some (false, 0)
            end in
  match dec_val (fst p ++ fst q), ex with
  | Some m, Some (neg, e) =>
    let k := lenN (fst q) in
    if m =? 0 then true
    else if neg then m <? F64_LIMIT * 10 ^ (k + e)
    else if e <=? k then m <? F64_LIMIT * 10 ^ (k - e)
    else if 400 <? e - k then false else m * 10 ^ (e - k) <? F64_LIMIT
  | _, _ => false
  end.

Fixpoint strict (d : nat) (j : json) {struct j} : bool :=
  match j with
  | JNull | JBool _ | JInt _ => true
  | JFloat raw => float_in_range raw
  | JStr (Some _) => true
  | JStr None => false
  | JArr l => match d with O => false | S O => false | S d' => forallb (strict d') l end
  | JObj m => match d with O => false | S O => false
              | S d' => forallb (fun p => is_some (fst p) && strict d' (snd p)) m end
  end.

Definition MAX_DEPTH : nat := 128.

(** serde_json::from_slice::<serde_json::Value>(buf), duplicates still listed *)
Definition parse_strict (l : bytes) : option json :=
  match parse l with Some j => if strict MAX_DEPTH j then Some j else None | None => None end.

(** [Value::get(key)]: objects only, the last duplicate wins (Map::insert). *)
Definition okey_eqb (k : bytes) (o : option bytes) : bool :=
  match o with Some x => bytes_eqb k x | None => false end.
Fixpoint find_last {A} (k : bytes) (m : list (option bytes * A)) : option A :=
  match m with
  | [] => None
  | (o, v) :: r => match find_last k r with
                   | Some x => Some x
                   | None => if okey_eqb k o then Some v else None end
  end.
Definition jget (k : bytes) (j : json) : option json :=
  match j with JObj m => find_last k m | _ => None end.

(** ** QOS canonical JSON: qos_json/src/lib.rs *)
(** UTF-16 code units of a text (lib.rs:139-141, [encode_utf16]) *)
Definition utf16_char (c : N) : list N :=
  if c <? 65536 then [c] else [55296 + (c - 65536) / 1024; 56320 + (c - 65536) mod 1024].
Definition utf16 (s : bytes) : list N :=
  match utf8_dec s with Some cs => concat (map utf16_char cs) | None => [] end.

Fixpoint lexN_leb (a b : list N) : bool :=
  match a, b with
  | [], _ => true
  | _ :: _, [] => false
  | x :: a', y :: b' => if x <? y then true else if y <? x then false else lexN_leb a' b'
  end.

Definition key_leb (a b : bytes) : bool := lexN_leb (utf16 a) (utf16 b).

(** serde_json::Map is a BTreeMap: later duplicates replace earlier ones. *)
Fixpoint dedup_last {A} (m : list (bytes * A)) : list (bytes * A) :=
  match m with
  | [] => []
  | (k, v) :: r => if existsb (fun p => bytes_eqb k (fst p)) r then dedup_last r else (k, v) :: dedup_last r
  end.

Fixpoint insert_key {A} (k : bytes) (v : A) (m : list (bytes * A)) : list (bytes * A) :=
  match m with
  | [] => [(k, v)]
  | (k', v') :: r => if key_leb k k' then (k, v) :: m else (k', v') :: insert_key k v r
  end.
Fixpoint sort_keys {A} (m : list (bytes * A)) : list (bytes * A) :=
  match m with [] => [] | (k, v) :: r => insert_key k v (sort_keys r) end.

(** Normal form of a [serde_json::Value] whose writing gives the canonical
    bytes: lib.rs:87-153 (null members dropped, members sorted by UTF-16,
    integers as decimal strings, floats refused). *)
Fixpoint oseq {A} (l : list (option A)) : option (list A) :=
  match l with
  | [] => Some []
  | None :: _ => None
  | Some x :: r => let? xs := oseq r in Some (x :: xs)
  end.

Fixpoint norm (j : json) : option json :=
  match j with
  | JNull => Some JNull
  | JBool b => Some (JBool b)
  | JInt z => Some (str (print_Z z))
  | JFloat _ => None
  | JStr (Some s) => Some (str s)
  | JStr None => None
  | JArr l => let? l' := oseq (map norm l) in Some (JArr l')
  | JObj m =>
    let? m1 := oseq (map (fun p => match fst p with
                                   | Some k => Some (k, norm (snd p))
                                   | None => None end) m) in
    let? m2 := oseq (map (fun p => let? x := snd p in Some (fst p, x))
                 (filter (fun p => negb (match snd p with Some JNull => true | _ => false end))
                    (dedup_last m1))) in
    Some (JObj (map (fun p => (Some (fst p), snd p)) (sort_keys m2)))
  end.

(** lib.rs:26-29 to_vec / lib.rs:68-72 value_to_vec *)
Definition canon (j : json) : option bytes := let? n := norm j in Some (write n).
