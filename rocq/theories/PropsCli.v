(** C44: the command line parser. *)
From Verif Require Import Base Env EnvProofs CliParser SpecCli CliProofs.

Lemma parse_iff ts inputs m :
  Forall unset ts -> ~ In (bs "--help") inputs -> ~ In (bs "--version") inputs ->
  tm_parse (parser_of ts) inputs = Done (Ok m) ->
  exists occ, reads ts inputs occ /\ acceptable ts occ /\ holds ts m occ.
Proof.
  intros F NH NV E. unfold tm_parse in E.
  destruct (contains HELP_INPUT inputs) eqn:C1; [apply contains_iff in C1; contradiction|].
  destruct (contains VERSION_INPUT inputs) eqn:C2; [apply contains_iff in C2; contradiction|].
  injection E as E. unfold do_parse in E. destruct (fill (parser_of ts) inputs) as [m'|] eqn:FI; [|discriminate].
  eapply fill_sound in FI as (occ & A & B & C); [|reflexivity|apply holds_init, F|intros ? ? _ _; cbn; lia].
  cbn [app] in *. destruct (check_constraints m' inputs) as [[]|] eqn:K; [|discriminate]. injection E as <-.
  exists occ. split; [assumption|]. split; [|exact C]. eapply constraints_iff; eassumption.
Qed.

Lemma single_value ts inputs occ n t : reads ts inputs occ -> once ts occ -> registered ts n = Some t -> given n occ ->
  t_takes_value t = true -> t_multiple t = false -> exists v, values n occ = [v].
Proof.
  intros A O R I T M.
  assert (V1 : length (values n occ) <= 1).
  { specialize (O n t R M). clear -O. induction occ as [|[k o] occ IH]; [cbn; lia|]. cbn [map fst count_occ] in O.
    unfold values. cbn [flat_map fst snd]. rewrite app_length. destruct (bytes_dec k n) as [->|N].
    - rewrite bytes_eqb_refl. assert (X : count_occ bytes_dec (map fst occ) n = 0) by lia.
      apply count_occ_not_In, values_absent in X. unfold values in X. rewrite X. destruct o; cbn; lia.
    - destruct (bytes_eqb_spec k n); [congruence|]. cbn. now apply IH. }
  assert (V2 : exists v, In (n, Some v) occ).
  { clear -A I R T. unfold given in I. induction A; cbn in I; [contradiction|..];
    (destruct I as [->|I]; [|destruct (IHA I) as (w & W); exists w; now right]); [congruence|eexists; left; reflexivity..]. }
  destruct V2 as (v & V2).
  assert (V3 : In v (values n occ)).
  { unfold values. apply in_flat_map. exists (n, Some v). split; [assumption|]. cbn. rewrite bytes_eqb_refl. now left. }
  destruct (values n occ) as [|w [|? ?]]; [destruct V3|now exists w|cbn in V1; lia].
Qed.
Lemma help_registered ts : registered ts HELP = None -> False.
Proof. unfold registered. rewrite find_app. destruct (find _ (rev ts)); [discriminate|]. cbn. discriminate. Qed.
Lemma version_registered ts : registered ts VERSION = None -> False.
Proof. unfold registered. rewrite find_app. destruct (find _ (rev ts)); [discriminate|]. cbn. discriminate. Qed.

(** Parsing succeeds exactly on the argument lists that can be read as
    registered tokens, with every constraint of every token met. *)
Theorem c44_accepts_exactly ts inputs :
  Forall unset ts -> ~ In (bs "--help") inputs -> ~ In (bs "--version") inputs ->
  (exists m, tm_parse (parser_of ts) inputs = Done (Ok m)) <->
  (exists occ, reads ts inputs occ /\ acceptable ts occ).
Proof.
  intros F NH NV. split.
  - intros (m & E). destruct (parse_iff _ _ _ F NH NV E) as (occ & A & B & _). now exists occ.
  - intros (occ & A & B). unfold tm_parse.
    destruct (contains HELP_INPUT inputs) eqn:C1; [apply contains_iff in C1; contradiction|].
    destruct (contains VERSION_INPUT inputs) eqn:C2; [apply contains_iff in C2; contradiction|].
    unfold do_parse. destruct (fill_complete _ _ _ A (parser_of ts) [] (holds_init _ F)) as (m & E).
    { exact (acc_once _ _ B). }
    pose proof E as E'. eapply fill_sound in E' as (occ' & A' & B' & C'); [|reflexivity|apply holds_init, F|intros ? ? _ _; cbn; lia].
    cbn [app] in *. rewrite <- (reads_functional _ _ _ A _ A') in *.
    exists m. rewrite E. apply (constraints_iff _ _ _ _ A B' C') in B. now rewrite B.
Qed.
Print Assumptions c44_accepts_exactly.

(** What a successful parse returns for each name. *)
Theorem c44_values_read_back ts inputs m :
  Forall unset ts -> ~ In (bs "--help") inputs -> ~ In (bs "--version") inputs ->
  tm_parse (parser_of ts) inputs = Done (Ok m) ->
  exists occ, reads ts inputs occ /\ acceptable ts occ /\
    (forall n, registered ts n = None ->
      get_single m n = None /\ get_multiple m n = None /\ get_flag m n = None) /\
    (forall n t, registered ts n = Some t -> given n occ -> t_takes_value t = false ->
      get_flag m n = Some true /\ get_single m n = None /\ get_multiple m n = None) /\
    (forall n t, registered ts n = Some t -> given n occ -> t_takes_value t = true -> t_multiple t = false ->
      exists v, values n occ = [v] /\ get_single m n = Some v /\ get_multiple m n = None /\ get_flag m n = Some false) /\
    (forall n t, registered ts n = Some t -> given n occ -> t_takes_value t = true -> t_multiple t = true ->
      get_multiple m n = Some (values n occ) /\ get_single m n = None) /\
    (forall n t, registered ts n = Some t -> ~ given n occ ->
      get_single m n = t_default t /\ get_multiple m n = None /\
      get_flag m n = match t_default t with Some _ => Some false | None => None end).
Proof.
  intros F NH NV E. destruct (parse_iff _ _ _ F NH NV E) as (occ & A & B & [S G]).
  exists occ. split; [assumption|]. split; [assumption|].
  assert (TY : forall n t, registered ts n = Some t -> type_of m n =
     match stored t n occ with Some u => Some u | None => match t_default t with Some d => Some (TSingle d) | None => None end end).
  { intros n t R. unfold type_of. rewrite G, R. reflexivity. }
  unfold get_single, get_multiple, get_flag. split; [|split; [|split; [|split]]].
  - intros n R. unfold type_of. rewrite G, R. auto.
  - intros n t R GV T. rewrite (TY _ _ R). unfold stored, given in *. destruct (in_dec _ _ _); [|contradiction]. rewrite T. auto.
  - intros n t R GV T M. rewrite (TY _ _ R). destruct (single_value ts inputs occ n t A (acc_once _ _ B) R GV T M) as (v & V).
    exists v. unfold stored, given in *. destruct (in_dec _ _ _); [|contradiction]. rewrite T, M, V. auto.
  - intros n t R GV T M. rewrite (TY _ _ R). unfold stored, given in *. destruct (in_dec _ _ _); [|contradiction]. rewrite T, M. auto.
  - intros n t R GV. rewrite (TY _ _ R). unfold stored, given in *. destruct (in_dec _ _ _); [contradiction|]. destruct (t_default t); auto.
Qed.
Print Assumptions c44_values_read_back.

(** The argument list determines the reading, so the two theorems above
    speak of the same occurrences. *)
Theorem c44_reading_unique ts inputs a b : reads ts inputs a -> reads ts inputs b -> a = b.
Proof. intros A B. exact (reads_functional _ _ _ A _ B). Qed.
Print Assumptions c44_reading_unique.

(** [--help] anywhere wins over everything else; [--version] over everything
    but [--help]; the other tokens then read as if nothing had been given. *)
Theorem c44_help_short_circuits ts inputs :
  Forall unset ts -> In (bs "--help") inputs ->
  exists m, tm_parse (parser_of ts) inputs = Done (Ok m) /\ p_help m = true /\ forall n t, n <> bs "help" -> registered ts n = Some t -> get_single m n = t_default t /\ get_multiple m n = None /\ get_flag m n <> Some true.
Proof.
  intros F I. apply contains_iff in I. unfold tm_parse. change HELP_INPUT with (bs "--help"). rewrite I.
  destruct (holds_init ts F) as [S G]. rewrite parser_of_get.
  destruct (registered ts HELP) as [h|] eqn:R; [|apply help_registered in R as []].
  eexists. split; [reflexivity|]. split.
  - unfold p_help, get_flag, type_of. rewrite map_get_insert, bytes_eqb_refl. reflexivity.
  - intros n t N Q. unfold get_single, get_multiple, get_flag, type_of. rewrite map_get_insert.
    destruct (bytes_eqb_spec n HELP); [contradiction|]. rewrite parser_of_get, Q. rewrite (registered_unset _ _ _ F Q).
    destruct (t_default t); repeat split; congruence.
Qed.
Print Assumptions c44_help_short_circuits.
Theorem c44_version_short_circuits ts inputs :
  Forall unset ts -> In (bs "--version") inputs -> ~ In (bs "--help") inputs ->
  exists m, tm_parse (parser_of ts) inputs = Done (Ok m) /\ p_version m = true /\ forall n t, n <> bs "version" -> registered ts n = Some t -> get_single m n = t_default t /\ get_multiple m n = None /\ get_flag m n <> Some true.
Proof.
  intros F I NH. apply contains_iff in I. unfold tm_parse.
  destruct (contains HELP_INPUT inputs) eqn:C1; [apply contains_iff in C1; contradiction|].
  change VERSION_INPUT with (bs "--version"). rewrite I.
  destruct (holds_init ts F) as [S G]. rewrite parser_of_get.
  destruct (registered ts VERSION) as [h|] eqn:R; [|apply version_registered in R as []].
  eexists. split; [reflexivity|]. split.
  - unfold p_version, get_flag, type_of. rewrite map_get_insert, bytes_eqb_refl. reflexivity.
  - intros n t N Q. unfold get_single, get_multiple, get_flag, type_of. rewrite map_get_insert.
    destruct (bytes_eqb_spec n VERSION); [contradiction|]. rewrite parser_of_get, Q. rewrite (registered_unset _ _ _ F Q).
    destruct (t_default t); repeat split; congruence.
Qed.
Print Assumptions c44_version_short_circuits.

(** The parser itself never panics, whatever was registered. *)
Theorem c44_never_panics ts inputs : tm_parse (parser_of ts) inputs <> Panic.
Proof.
  unfold tm_parse. rewrite !parser_of_get.
  destruct (contains HELP_INPUT inputs).
  { destruct (registered ts HELP) eqn:R; [congruence|apply help_registered in R as []]. }
  destruct (contains VERSION_INPUT inputs); [|congruence].
  destruct (registered ts VERSION) eqn:R; [congruence|apply version_registered in R as []].
Qed.
Print Assumptions c44_never_panics.

(** Binaries that take only options drop their own name, binaries that take a
    command drop their name and the command; nothing else is dropped. *)
Theorem c44_options_drop_the_binary_name ts name args :
  ~ is_option name -> options_parse ts (name :: args) = tm_parse (parser_of ts) args.
Proof. intros N. apply starts_false in N. unfold options_parse. now rewrite N. Qed.
Theorem c44_options_without_binary_name ts args :
  (forall a r, args = a :: r -> is_option a) -> options_parse ts args = tm_parse (parser_of ts) args.
Proof.
  intros N. unfold options_parse. destruct args as [|a r]; [reflexivity|].
  destruct (starts_with INPUT_PREFIX a) eqn:E; [reflexivity|]. apply starts_false in E. exfalso. apply E, (N a r eq_refl).
Qed.
Theorem c44_command_parses_the_rest {C} (from : bytes -> option C) tokens name c args cmd m :
  command_parse from tokens (name :: c :: args) = Done (Ok (cmd, m)) <->
  from c = Some cmd /\ tm_parse (parser_of (tokens cmd)) args = Done (Ok m).
Proof.
  cbn [command_parse]. destruct (from c) as [k|]; [|split; [discriminate|intros [? _]; discriminate]].
  split.
  - destruct (tm_parse (parser_of (tokens k)) args) as [[m'|e]|] eqn:E; try discriminate. intros Q. injection Q as -> ->. auto.
  - intros [Q E]. injection Q as ->. now rewrite E.
Qed.
Print Assumptions c44_options_drop_the_binary_name.
Print Assumptions c44_options_without_binary_name.
Print Assumptions c44_command_parses_the_rest.
(** Without a command the answer is an error; the command parser panics only on
    an empty argument list (no program name) and where reading the command does. *)
Theorem c44_command_missing_or_unknown {C} (from : bytes -> option C) tokens :
  (forall name, command_parse from tokens [name] = Done (Err (MissingInput (bs "No command provided"))))
  /\ (forall inputs, command_parse from tokens inputs = Panic <->
        inputs = [] \/ exists name c args, inputs = name :: c :: args /\ from c = None)
  /\ (forall name c args cmd e, from c = Some cmd ->
        (command_parse from tokens (name :: c :: args) = Done (Err e) <-> tm_parse (parser_of (tokens cmd)) args = Done (Err e))).
Proof.
  split; [reflexivity|]. split.
  - intros [|name [|c args]]; cbn [command_parse].
    + split; [now left|reflexivity].
    + split; [discriminate|]. intros [E|(n & c & a & E & _)]; discriminate.
    + destruct (from c) as [cmd|] eqn:F.
      * split; [|intros [E|(n & c' & a & E & N)]; [discriminate|injection E as -> -> ->; congruence]].
        pose proof (c44_never_panics (tokens cmd) args) as NP. destruct (tm_parse (parser_of (tokens cmd)) args) as [[m|e]|]; [discriminate|discriminate|contradiction].
      * split; [|reflexivity]. intros _. right. eauto 6.
  - intros name c args cmd e F. cbn [command_parse]. rewrite F. destruct (tm_parse (parser_of (tokens cmd)) args) as [[m|x]|]; [split; discriminate| |split; discriminate].
    split; intros E; injection E as ->; reflexivity.
Qed.
Print Assumptions c44_command_missing_or_unknown.

(** *** A non-trivial case: the table of parser.rs:606-638 and the argument
    list of parser.rs:641-655. *)
Definition demo : list token :=
  [ tk_takes_value true (tk_required true (token_new (bs "required-with-value")));
    tk_takes_value false (tk_requires (bs "optional-value") (token_new (bs "requires-no-value")));
    tk_takes_value true (tk_allow_multiple true (token_new (bs "multiple")));
    tk_default_value (bs "default1") (tk_takes_value true (token_new (bs "optional-with-default")));
    tk_forbids [bs "forbid2-no-value"] (tk_takes_value true (token_new (bs "forbid1-with-value")));
    tk_forbids [bs "forbid1-with-value"] (token_new (bs "forbid2-no-value"));
    tk_takes_value true (token_new (bs "optional-value")) ].
Definition demo_args : list bytes := map bs
  [ "--required-with-value"; "val1"; "--requires-no-value"; "--multiple"; "val2"; "--multiple"; "val3";
    "--optional-with-default"; "--forbid1-with-value"; "val4"; "--optional-value"; "val5" ]%string.
Example c44_nontrivial :
  Forall unset demo /\ ~ In (bs "--help") demo_args /\ ~ In (bs "--version") demo_args /\ exists m, tm_parse (parser_of demo) demo_args = Done (Ok m) /\ get_single m (bs "required-with-value") = Some (bs "val1") /\
  get_flag m (bs "requires-no-value") = Some true /\
  get_multiple m (bs "multiple") = Some [bs "val2"; bs "val3"] /\
  get_single m (bs "optional-with-default") = Some (bs "default1") /\
  get_flag m (bs "forbid2-no-value") = None.
Proof.
  split; [repeat constructor|].
  split; [intros I; apply contains_iff in I; vm_compute in I; discriminate|].
  split; [intros I; apply contains_iff in I; vm_compute in I; discriminate|].
  eexists. split; [vm_compute; reflexivity|]. repeat split; vm_compute; reflexivity.
Qed.
(** the error cases of parser.rs:690-779 *)
Example c44_nontrivial_errors :
  tm_parse (parser_of demo) (map bs ["--requires-no-value"; "--required-with-value"; "--forbid2-with-default"; "a"]%string)
    = Done (Err (MissingValue (bs "required-with-value"))) /\
  tm_parse (parser_of demo) (map bs ["--forbid2-no-value"; "--multiple"; "beans"; "--required-with-value"; "a"; "--forbid2-no-value"; "--multiple"; "based"]%string)
    = Done (Err (DuplicateInput (bs "forbid2-no-value"))) /\
  tm_parse (parser_of demo) (map bs ["--requires-no-value"; "--optional-with-default"; "420"]%string)
    = Done (Err (MissingInput (bs "required-with-value"))) /\
  tm_parse (parser_of demo) (map bs ["--requires-no-value"; "--required-with-value"; "brawndo"; "--vape-nation"]%string)
    = Done (Err (UnexpectedInput (bs "--vape-nation"))) /\
  tm_parse (parser_of demo) (map bs ["--forbid1-with-value"; "eataly"; "--forbid2-no-value"]%string)
    = Done (Err (MutuallyExclusiveInput (bs "forbid1-with-value") (bs "forbid2-no-value"))).
Proof. repeat split; vm_compute; reflexivity. Qed.
