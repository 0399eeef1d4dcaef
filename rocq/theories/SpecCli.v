(** What the user of the CLI parser relies on (C44), in terms of the
    registered tokens and the argument list. *)
From Verif Require Import Base CliParser.

(** The token registered under [n]: the last one registered, where "help"
    and "version" are always registered first. *)
Definition registered (ts : list token) (n : bytes) : option token :=
  find (fun t => bytes_eqb (t_name t) n) (rev ts ++ [token_new VERSION; token_new HELP]).

(** A token as the builder makes it: nothing parsed into it yet. *)
Definition unset (t : token) : Prop := t_user t = None.

Definition is_option (s : bytes) : Prop := exists n, s = bs "--" ++ n.

(** The argument list read as a sequence of occurrences: the name, and the
    value it got (typed by the user, or the default). *)
Inductive reads (ts : list token) : list bytes -> list (bytes * option bytes) -> Prop :=
| R_end : reads ts [] []
| R_flag n t rest occ :
    registered ts n = Some t -> t_takes_value t = false ->
    reads ts rest occ ->
    reads ts ((bs "--" ++ n) :: rest) ((n, None) :: occ)
| R_value n t v rest occ :
    registered ts n = Some t -> t_takes_value t = true -> ~ is_option v ->
    reads ts rest occ ->
    reads ts ((bs "--" ++ n) :: v :: rest) ((n, Some v) :: occ)
| R_default n t d rest occ :
    registered ts n = Some t -> t_takes_value t = true -> t_default t = Some d ->
    (rest = [] \/ exists i r, rest = i :: r /\ is_option i) ->
    reads ts rest occ ->
    reads ts ((bs "--" ++ n) :: rest) ((n, Some d) :: occ).

Definition given (n : bytes) (occ : list (bytes * option bytes)) : Prop := In n (map fst occ).
(** the values given to [n], in order *)
Definition values (n : bytes) (occ : list (bytes * option bytes)) : list bytes :=
  flat_map (fun p => if bytes_eqb (fst p) n then match snd p with Some v => [v] | None => [] end else []) occ.

Record acceptable (ts : list token) (occ : list (bytes * option bytes)) : Prop := {
  acc_once : forall n t, registered ts n = Some t -> t_multiple t = false ->
    count_occ bytes_dec (map fst occ) n <= 1;
  acc_required : forall n t, registered ts n = Some t -> t_required t = true -> given n occ;
  acc_requires : forall n t o, given n occ -> registered ts n = Some t -> t_requires t = Some o -> given o occ;
  acc_forbids : forall n t o, given n occ -> registered ts n = Some t -> In o (t_forbids t) -> ~ given o occ }.
