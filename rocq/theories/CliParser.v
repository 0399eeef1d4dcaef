(** The command line token parser: src/qos_core/src/parser.rs.
    Strings are their UTF-8 bytes. Not modelled: the help texts and the
    rendering of [Parser::info] (parser.rs:226-266, 338-356), which no parse
    result depends on. *)
From Verif Require Import Base Env.

(** parser.rs:5-9 *)
Definition HELP : bytes := bs "help".
Definition VERSION : bytes := bs "version".
Definition INPUT_PREFIX : bytes := bs "--".
Definition HELP_INPUT : bytes := bs "--help".
Definition VERSION_INPUT : bytes := bs "--version".

(** parser.rs:11-24 ParserError *)
Inductive parser_error : Type :=
| UnexpectedInput (s : bytes)
| DuplicateInput (s : bytes)
| MutuallyExclusiveInput (a b : bytes)
| MissingValue (s : bytes)
| MissingInput (s : bytes).

(** parser.rs:358-367 TokenType *)
Inductive token_type : Type :=
| TFlag
| TSingle (s : bytes)
| TMultiple (l : list bytes).

(** parser.rs:269-281 Token, without the help text.  [default_value] is
    only ever built as [TokenType::Single] (parser.rs:333-336), so it is a
    string here; the fields are private to the module. *)
Record token : Type := {
  t_name : bytes;
  t_required : bool;
  t_requires : option bytes;
  t_forbids : list bytes;
  t_takes_value : bool;
  t_default : option bytes;
  t_user : option token_type;
  t_multiple : bool }.

(** parser.rs:286-292 Token::new, and the builder methods 296-336 *)
Definition token_new (name : bytes) : token :=
  {| t_name := name; t_required := false; t_requires := None; t_forbids := []; t_takes_value := false;
     t_default := None; t_user := None; t_multiple := false |}.
Definition tk_allow_multiple (b : bool) (t : token) : token :=
  {| t_name := t_name t; t_required := t_required t; t_requires := t_requires t; t_forbids := t_forbids t;
     t_takes_value := t_takes_value t; t_default := t_default t; t_user := t_user t; t_multiple := b |}.
Definition tk_required (b : bool) (t : token) : token :=
  {| t_name := t_name t; t_required := b; t_requires := t_requires t; t_forbids := t_forbids t;
     t_takes_value := t_takes_value t; t_default := t_default t; t_user := t_user t; t_multiple := t_multiple t |}.
Definition tk_requires (s : bytes) (t : token) : token :=
  {| t_name := t_name t; t_required := t_required t; t_requires := Some s; t_forbids := t_forbids t;
     t_takes_value := t_takes_value t; t_default := t_default t; t_user := t_user t; t_multiple := t_multiple t |}.
Definition tk_forbids (l : list bytes) (t : token) : token :=
  {| t_name := t_name t; t_required := t_required t; t_requires := t_requires t; t_forbids := l;
     t_takes_value := t_takes_value t; t_default := t_default t; t_user := t_user t; t_multiple := t_multiple t |}.
Definition tk_takes_value (b : bool) (t : token) : token :=
  {| t_name := t_name t; t_required := t_required t; t_requires := t_requires t; t_forbids := t_forbids t;
     t_takes_value := b; t_default := t_default t; t_user := t_user t; t_multiple := t_multiple t |}.
Definition tk_default_value (s : bytes) (t : token) : token :=
  {| t_name := t_name t; t_required := t_required t; t_requires := t_requires t; t_forbids := t_forbids t;
     t_takes_value := t_takes_value t; t_default := Some s; t_user := t_user t; t_multiple := t_multiple t |}.
(** the field update [token.user_value = Some(..)] (parser.rs:509) *)
Definition set_user (v : token_type) (t : token) : token :=
  {| t_name := t_name t; t_required := t_required t; t_requires := t_requires t; t_forbids := t_forbids t;
     t_takes_value := t_takes_value t; t_default := t_default t; t_user := Some v; t_multiple := t_multiple t |}.

(** parser.rs:409-414 TokenMap: BTreeMap of name to token *)
Definition token_map : Type := list (bytes * token).

(** parser.rs:584-586 TokenMap::insert *)
Definition tm_insert (t : token) (m : token_map) : token_map := map_insert (t_name t) t m.
(** parser.rs:589-601 TokenMap::default *)
Definition tm_default : token_map := tm_insert (token_new VERSION) (tm_insert (token_new HELP) []).
(** parser.rs:167-176 Parser::new().token(..).token(..)... *)
Definition parser_of (ts : list token) : token_map := fold_left (fun m t => tm_insert t m) ts tm_default.

(** str::starts_with *)
Fixpoint starts_with (p s : bytes) : bool :=
  match p, s with
  | [], _ => true
  | a :: p', b :: s' => byte_eqb a b && starts_with p' s'
  | _, _ => false
  end.
(** [format!("--{name}")] *)
Definition dashed (name : bytes) : bytes := INPUT_PREFIX ++ name.

(** parser.rs:555-574 check_input *)
Definition check_input (m : token_map) (input : bytes) : result parser_error unit :=
  if negb (starts_with INPUT_PREFIX input) then Err (UnexpectedInput input)
  else
    let name := skipn 2 input in
    match map_get name m with
    | None => Err (UnexpectedInput input)
    | Some t => if negb (t_multiple t) && is_some (t_user t) then Err (DuplicateInput name) else Ok tt
    end.

(** parser.rs:388-396 push_val *)
Definition push_val (old : token_type) (v : bytes) : result parser_error token_type :=
  match old with
  | TMultiple l => Ok (TMultiple (l ++ [v]))
  | _ => Err (DuplicateInput v)
  end.
(** parser.rs:492-503: store the value *)
Definition store (t : token) (v : bytes) : result parser_error token_type :=
  if t_multiple t then
    match t_user t with
    | Some old => push_val old v
    | None => Ok (TMultiple [v])
    end
  else Ok (TSingle v).

(** parser.rs:463-510: the loop of do_parse.  Simplification: on an error the
    partially filled table is not returned (both callers in /repo,
    parser.rs:78-88 and 116-122, drop it). *)
Fixpoint fill (m : token_map) (inputs : list bytes) : result parser_error token_map :=
  match inputs with
  | [] => Ok m
  | input :: rest =>
    match check_input m input with
    | Err e => Err e
    | Ok tt =>
      let name := skipn 2 input in
      match map_get name m with
      | None => Err (UnexpectedInput name)
      | Some t =>
        if t_takes_value t then
          match rest with
          | v :: rest' =>
            if negb (starts_with INPUT_PREFIX v) then
              match store t v with
              | Ok u => fill (map_insert name (set_user u t) m) rest'
              | Err e => Err e
              end
            else
              match t_default t with
              | Some d => match store t d with
                          | Ok u => fill (map_insert name (set_user u t) m) rest
                          | Err e => Err e
                          end
              | None => Err (MissingValue name)
              end
          | [] =>
            match t_default t with
            | Some d => match store t d with
                        | Ok u => fill (map_insert name (set_user u t) m) rest
                        | Err e => Err e
                        end
            | None => Err (MissingValue name)
            end
          end
        else fill (map_insert name (set_user TFlag t) m) rest
      end
    end
  end.

(** [inputs.contains(..)] *)
Definition contains (s : bytes) (inputs : list bytes) : bool := memb bytes_eqb s inputs.

(** parser.rs:541-548: the inner loop over [forbids] *)
Fixpoint check_forbids (name : bytes) (forbids : list bytes) (inputs : list bytes) : result parser_error unit :=
  match forbids with
  | [] => Ok tt
  | o :: r => if contains (dashed o) inputs then Err (MutuallyExclusiveInput name o) else check_forbids name r inputs
  end.
(** parser.rs:526-549: one iteration *)
Definition check_token (t : token) (inputs : list bytes) : result parser_error unit :=
  if t_required t && negb (is_some (t_user t)) then Err (MissingInput (t_name t))
  else if is_some (t_user t) then
    match t_requires t with
    | Some o => if negb (contains (dashed o) inputs) then Err (MissingInput o)
                else check_forbids (t_name t) (t_forbids t) inputs
    | None => check_forbids (t_name t) (t_forbids t) inputs
    end
  else Ok tt.
(** parser.rs:524-552 check_constraints *)
Fixpoint check_constraints (m : token_map) (inputs : list bytes) : result parser_error unit :=
  match m with
  | [] => Ok tt
  | (_, t) :: r => match check_token t inputs with
                   | Err e => Err e
                   | Ok tt => check_constraints r inputs
                   end
  end.
(** parser.rs:462-516 do_parse *)
Definition do_parse (m : token_map) (inputs : list bytes) : result parser_error token_map :=
  match fill m inputs with
  | Err e => Err e
  | Ok m' => match check_constraints m' inputs with
             | Err e => Err e
             | Ok tt => Ok m'
             end
  end.

(** What a call does: return, or panic ([expect], [Vec::remove]). *)
Inductive outcome (A : Type) : Type :=
| Done (a : A)
| Panic.
Arguments Done {A} _.
Arguments Panic {A}.

(** parser.rs:422-443 TokenMap::parse *)
Definition tm_parse (m : token_map) (inputs : list bytes) : outcome (result parser_error token_map) :=
  if contains HELP_INPUT inputs then
    match map_get HELP m with
    | Some h => Done (Ok (map_insert HELP (set_user TFlag h) m))
    | None => Panic
    end
  else if contains VERSION_INPUT inputs then
    match map_get VERSION m with
    | Some v => Done (Ok (map_insert VERSION (set_user TFlag v) m))
    | None => Panic
    end
  else Done (do_parse m inputs).

(** parser.rs:577-581 type_of *)
Definition type_of (m : token_map) (name : bytes) : option token_type :=
  match map_get name m with
  | None => None
  | Some t => match t_user t with
              | Some u => Some u
              | None => match t_default t with Some d => Some (TSingle d) | None => None end
              end
  end.
(** parser.rs:446-459 get_multiple, get_single, get_flag (with 370-386) *)
Definition get_multiple (m : token_map) (name : bytes) : option (list bytes) :=
  match type_of m name with Some (TMultiple l) => Some l | _ => None end.
Definition get_single (m : token_map) (name : bytes) : option bytes :=
  match type_of m name with Some (TSingle s) => Some s | _ => None end.
Definition get_flag (m : token_map) (name : bytes) : option bool :=
  match type_of m name with Some TFlag => Some true | Some _ => Some false | None => None end.
(** parser.rs:180-188 help, version *)
Definition p_help (m : token_map) : bool := match get_flag m HELP with Some b => b | None => false end.
Definition p_version (m : token_map) : bool := match get_flag m VERSION with Some b => b | None => false end.

(** parser.rs:78-88 OptionsParser::parse; [ts] are the tokens [T::parser()]
    registers *)
Definition options_parse (ts : list token) (inputs : list bytes) : outcome (result parser_error token_map) :=
  let inputs := match inputs with
                | i :: r => if starts_with INPUT_PREFIX i then inputs else r
                | [] => []
                end in
  tm_parse (parser_of ts) inputs.

(** parser.rs:116-141 CommandParser::parse and extract_command; [from] is
    [C::from(String)] (which may panic on unknown commands) and [tokens] the
    tokens [command.parser()] registers. *)
Definition command_parse {C} (from : bytes -> option C) (tokens : C -> list token) (inputs : list bytes)
  : outcome (result parser_error (C * token_map)) :=
  match inputs with
  | [] => Panic                                   (* Vec::remove(0) *)
  | _ :: [] => Done (Err (MissingInput (bs "No command provided")))
  | _ :: c :: r =>
    match from c with
    | None => Panic
    | Some cmd =>
      match tm_parse (parser_of (tokens cmd)) r with
      | Panic => Panic
      | Done (Err e) => Done (Err e)
      | Done (Ok m) => Done (Ok (cmd, m))
      end
    end
  end.
