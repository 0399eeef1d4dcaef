(** Specification for pivot environments (C39). *)
From Verif Require Import Base Utf8 Json Env TypesJson.
Local Open Scope N_scope.

(** POSIX style variable names, written as a character class. *)
Definition letter (b : byte) : Prop := 65 <= b2n b <= 90 \/ 97 <= b2n b <= 122 \/ b2n b = 95.
Definition digit (b : byte) : Prop := 48 <= b2n b <= 57.
Definition good_name (n : bytes) : Prop :=
  (exists c r, n = c :: r /\ letter c /\ Forall (fun d => letter d \/ digit d) r) /\ (length n <= 1024)%nat.
Definition good_value (v : bytes) : Prop := ~ In x00 v /\ lenN v <= 65536.

(** Every way the API makes a PivotEnv. *)
Inductive env_made : list (bytes * bytes) -> Prop :=
| made_new : env_made env_new
| made_insert e n0 v0 n v : env_made e ->
    name_new n0 = Some n -> value_new v0 = Some v -> env_made (fst (env_insert n v e))
| made_from l e : (* TryFrom<BTreeMap<..>>: a map of validated names and values *)
    Forall (fun p => exists n0 v0, name_new n0 = Some (fst p) /\ value_new v0 = Some (snd p)) l ->
    env_try_from (map_collect l) = Some e -> env_made e
| made_borsh b r e : env_dec b = Some (e, r) -> env_made e
| made_json j d e : jdec js_env d j = Some e -> env_made e.

(** What every such value satisfies. *)
Definition env_limits (e : list (bytes * bytes)) : Prop :=
  (length e <= 512)%nat /\ NoDup (map fst e) /\
  Forall (fun p => good_name (fst p) /\ good_value (snd p)) e.
