(** Model of /repo/src/qos_core/src/protocol/services/boot/env.rs (PivotEnv).
    A [BTreeMap<PivotEnvVarName, PivotEnvValue>] is an association list sorted
    strictly by the byte order of the names (Rust [String: Ord]).
    [PivotEnvValue] has the single variant [Plain], so a value is its text. *)
From Verif Require Import Base Utf8 Borsh Types.
Local Open Scope N_scope.

(** env.rs:10-14 *)
Definition MAX_PIVOT_ENV_VARS : N := 512.
Definition MAX_PIVOT_ENV_NAME_LEN : N := 1024.
Definition MAX_PIVOT_ENV_VALUE_LEN : N := 65536.

Definition is_ascii_alpha (b : byte) : bool :=
  let n := b2n b in ((65 <=? n) && (n <=? 90)) || ((97 <=? n) && (n <=? 122)).
Definition is_ascii_digit (b : byte) : bool := let n := b2n b in (48 <=? n) && (n <=? 57).
Definition is_underscore (b : byte) : bool := byte_eqb b "_".

(** env.rs:38-68 PivotEnvVarName::new (error texts collapsed).  [chars] of a
    UTF-8 string: a non-ASCII char has only bytes >= 128, which no class
    accepts, so scanning bytes decides the same. *)
Definition name_new (name : bytes) : option bytes :=
  if MAX_PIVOT_ENV_NAME_LEN <? lenN name then None
  else match name with
       | [] => None
       | first :: rest =>
         if negb (is_ascii_alpha first || is_underscore first) then None
         else if existsb (fun c => negb (is_ascii_alpha c || is_ascii_digit c || is_underscore c)) rest then None
         else Some name
       end.

(** env.rs:131-148 PivotEnvPlainValue::new *)
Definition value_new (v : bytes) : option bytes :=
  if existsb (byte_eqb x00) v then None
  else if MAX_PIVOT_ENV_VALUE_LEN <? lenN v then None
  else Some v.

(** byte-lexicographic order *)
Fixpoint bytes_ltb (a b : bytes) : bool :=
  match a, b with
  | _, [] => false
  | [], _ :: _ => true
  | x :: a', y :: b' => if b2n x <? b2n y then true else if b2n y <? b2n x then false else bytes_ltb a' b'
  end.

(** BTreeMap::insert / get / remove *)
Fixpoint map_insert {V} (k : bytes) (v : V) (m : list (bytes * V)) : list (bytes * V) :=
  match m with
  | [] => [(k, v)]
  | (k', v') :: r =>
    if bytes_eqb k k' then (k, v) :: r
    else if bytes_ltb k k' then (k, v) :: m
    else (k', v') :: map_insert k v r
  end.
Fixpoint map_get {V} (k : bytes) (m : list (bytes * V)) : option V :=
  match m with [] => None | (k', v') :: r => if bytes_eqb k k' then Some v' else map_get k r end.
Fixpoint map_remove {V} (k : bytes) (m : list (bytes * V)) : list (bytes * V) :=
  match m with [] => [] | (k', v') :: r => if bytes_eqb k k' then r else (k', v') :: map_remove k r end.

(** env.rs:317-326 check_limits *)
Definition check_limits (e : pivot_env) : bool := negb (MAX_PIVOT_ENV_VARS <? lenN e).

(** env.rs:266-270 *)
Definition env_new : pivot_env := [].

(** env.rs:290-307 insert: returns the map afterwards and Ok(previous)/Err.
    [n] and [v] are already validated names and values. *)
Definition env_insert (n v : bytes) (e : pivot_env) : pivot_env * result unit (option bytes) :=
  let previous := map_get n e in
  let e1 := map_insert n v e in
  if check_limits e1 then (e1, Ok previous)
  else
    match previous with
    | Some p => (map_insert n p e1, Err tt)
    | None => (map_remove n e1, Err tt)
    end.

(** env.rs:329-339 TryFrom<BTreeMap> *)
Definition env_try_from (m : list (bytes * bytes)) : option pivot_env :=
  if check_limits m then Some m else None.

(** BTreeMap collect: repeated inserts, later duplicates replace the value *)
Definition map_collect {V} (l : list (bytes * V)) : list (bytes * V) :=
  fold_left (fun m p => map_insert (fst p) (snd p) m) l [].

(** Borsh: env.rs:103-113, 193-203, 234-253, 341-354.  borsh 1.5 without
    de_strict_order reads a Vec of pairs and collects it. *)
Definition c_env_name : codec bytes := c_check (fun n => is_some (name_new n)) c_string.
Definition c_env_value : codec bytes :=
  c_iso (fun s : bytes + Empty_set => match s with inl v => v | inr e => match e return bytes with end end)
        (fun v => inl v)
        (c_enum (t_cons (c_check (fun v => is_some (value_new v)) c_string) t_nil)).
Definition env_dec (b : bytes) : option (pivot_env * bytes) :=
  match dec (c_vec (c_pair c_env_name c_env_value)) b with
  | Some (l, r) => match env_try_from (map_collect l) with Some e => Some (e, r) | None => None end
  | None => None
  end.
Definition env_enc (e : pivot_env) : bytes := enc (c_vec (c_pair c_env_name c_env_value)) e.

(** the pairwise sorted invariant of a BTreeMap, as a boolean *)
Fixpoint sorted_keys {V} (m : list (bytes * V)) : bool :=
  match m with
  | [] => true
  | (k, _) :: r => match r with [] => true | (k', _) :: _ => bytes_ltb k k' && sorted_keys r end
  end.

(** What every PivotEnv value satisfies (C39). *)
Definition env_ok (e : pivot_env) : bool :=
  sorted_keys e && forallb (fun p => is_some (name_new (fst p)) && is_some (value_new (snd p)) && utf8_valid (snd p)) e
  && (lenN e <=? MAX_PIVOT_ENV_VARS).
