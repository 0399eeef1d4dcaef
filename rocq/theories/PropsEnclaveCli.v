(** C51: the enclave's command line selects its files and socket. *)
From Verif Require Import Base Env EnvProofs Json CliParser SpecCli CliProofs PropsCli Pool EnclaveCli.

(** the arguments after the binary's own name *)
Definition arguments (args : list bytes) : list bytes :=
  match args with
  | i :: r => if starts_with (bs "--") i then args else r
  | [] => []
  end.
(** the value of option [n]: what the user typed, otherwise the default *)
Definition chosen (n default : bytes) (occ : list (bytes * option bytes)) : bytes :=
  match values n occ with v :: _ => v | [] => default end.

Lemma enclave_unset : Forall unset enclave_tokens.
Proof. repeat constructor. Qed.
Lemma unset_default ts m n t : registered ts n = Some t -> get_single m n = t_default t -> t_default t <> None -> get_single m n <> None.
Proof. congruence. Qed.

(** An enclave that starts was given exactly one socket, and uses the files
    named on its command line, or the built-in names. *)
Theorem c51_runs_as_told args c :
  enclave_execute args = RunReaper c ->
  exists occ, reads enclave_tokens (arguments args) occ /\
    e_quorum c = chosen (bs "quorum-file") (bs "/qos.quorum.key") occ /\
    e_pivot c = chosen (bs "pivot-file") (bs "/qos.pivot.bin") occ /\
    e_ephemeral c = chosen (bs "ephemeral-file") (bs "/qos.ephemeral.key") occ /\
    e_manifest c = chosen (bs "manifest-file") (bs "/qos.manifest") occ /\
    ~ given (bs "mock") occ /\
    ((exists u, values (bs "usock") occ = [u] /\ e_socket c = AUnix u /\ ~ given (bs "cid") occ /\ ~ given (bs "port") occ) \/
     (exists x y i p, values (bs "cid") occ = [x] /\ values (bs "port") occ = [y] /\ ~ given (bs "usock") occ /\
        parse_unsigned U32 x = Some i /\ parse_unsigned U32 y = Some p /\ e_socket c = AVsock i p 0)).
Proof.
  unfold enclave_execute, options_parse. change (match args with [] => [] | i :: r => if starts_with INPUT_PREFIX i then args else r end) with (arguments args).
  set (a := arguments args).
  destruct (in_dec bytes_dec (bs "--help") a) as [IH|NH].
  { destruct (c44_help_short_circuits enclave_tokens a enclave_unset IH) as (m & E & H & _). rewrite E, H. destruct (p_version m); discriminate. }
  destruct (in_dec bytes_dec (bs "--version") a) as [IV|NV].
  { destruct (c44_version_short_circuits enclave_tokens a enclave_unset IV NH) as (m & E & H & _). rewrite E, H. discriminate. }
  destruct (tm_parse (parser_of enclave_tokens) a) as [[m|e]|] eqn:E; try discriminate.
  destruct (c44_values_read_back enclave_tokens a m enclave_unset NH NV E) as (occ & R & A & _ & FL & SG & _ & ABS).
  destruct (p_version m); [discriminate|]. destruct (p_help m); [discriminate|].
  assert (K : forall n t d, registered enclave_tokens n = Some t -> t_takes_value t = true -> t_multiple t = false -> t_default t = Some d ->
     get_single m n = Some (chosen n d occ)).
  { intros n t d RG T M D. unfold chosen. destruct (in_dec bytes_dec n (map fst occ)) as [I|I].
    - destruct (SG n t RG I T M) as (v & V & G & _). now rewrite V, G.
    - destruct (ABS n t RG I) as (G & _). now rewrite G, (values_absent _ _ I). }
  rewrite (K EPHEMERAL_FILE_OPT _ _ eq_refl eq_refl eq_refl eq_refl), (K QUORUM_FILE_OPT _ _ eq_refl eq_refl eq_refl eq_refl),
    (K MANIFEST_FILE_OPT _ _ eq_refl eq_refl eq_refl eq_refl), (K PIVOT_FILE_OPT _ _ eq_refl eq_refl eq_refl eq_refl).
  assert (S : forall n t, registered enclave_tokens n = Some t -> t_takes_value t = true -> t_multiple t = false -> t_default t = None ->
     (get_single m n = None /\ ~ given n occ) \/ (exists v, values n occ = [v] /\ get_single m n = Some v)).
  { intros n t RG T M D. destruct (in_dec bytes_dec n (map fst occ)) as [I|I].
    - right. destruct (SG n t RG I T M) as (v & V & G & _). eauto.
    - left. destruct (ABS n t RG I) as (G & _). split; [congruence|exact I]. }
  assert (MK : given MOCK occ -> get_flag m MOCK = Some true) by (intros G; exact (proj1 (FL MOCK _ eq_refl G eq_refl))).
  destruct (get_flag m MOCK) as [[|]|] eqn:F; try discriminate.
  1-2: unfold enclave_socket;
    destruct (S CID _ eq_refl eq_refl eq_refl eq_refl) as [[GC NC]|(x & VX & GC)];
    destruct (S PORT _ eq_refl eq_refl eq_refl eq_refl) as [[GP NP]|(y & VY & GP)];
    destruct (S USOCK _ eq_refl eq_refl eq_refl eq_refl) as [[GU NU]|(u & VU & GU)]; rewrite GC; try rewrite GP; try rewrite GU; try discriminate;
    [destruct (unix_addr_new u) as [ad|] eqn:UA; [|discriminate]|destruct (parse_unsigned U32 x) as [i|] eqn:PX; [|discriminate]; destruct (parse_unsigned U32 y) as [p|] eqn:PY; [|discriminate]];
    intros Q; injection Q as <-; exists occ; cbn [e_quorum e_pivot e_ephemeral e_manifest e_socket];
    (split; [exact R|]); do 4 (split; [reflexivity|]); (split; [intros G; apply MK in G; congruence|]).
  1,3: left; exists u; unfold unix_addr_new in UA; destruct (_ && _); [|discriminate]; injection UA as <-; auto.
  all: right; exists x, y, i, p; auto 10.
Qed.
Print Assumptions c51_runs_as_told.

(** With the built-in names, the files the enclave writes (the four files and
    the temporary files of the three written by renaming) are all different. *)
Theorem c51_default_files_distinct :
  NoDup [bs "/qos.quorum.key"; bs "/qos.pivot.bin"; bs "/qos.ephemeral.key"; bs "/qos.manifest";
         tmp_path (bs "/qos.quorum.key"); tmp_path (bs "/qos.ephemeral.key"); tmp_path (bs "/qos.manifest")].
Proof.
  vm_compute. repeat constructor; cbn [In]; intros H;
  repeat match type of H with _ \/ _ => destruct H as [H|H]; [discriminate H|] end; exact H.
Qed.
Print Assumptions c51_default_files_distinct.

(** Finding: nothing refuses file names that collide; the enclave starts with
    one name for two files, or with names sharing a temporary file. *)
Theorem c51_refuted_files_always_distinct :
  exists args c, enclave_execute args = RunReaper c /\ e_quorum c <> e_ephemeral c /\ tmp_path (e_quorum c) = tmp_path (e_ephemeral c).
Proof.
  exists (map bs ["qos_core"; "--usock"; "/q.sock"; "--quorum-file"; "/k.a"; "--ephemeral-file"; "/k.b"]%string).
  eexists. split; [vm_compute; reflexivity|]. split; [discriminate|reflexivity].
Qed.
Print Assumptions c51_refuted_files_always_distinct.

(** Non-trivial cases *)
Example c51_nontrivial :
  enclave_execute (map bs ["qos_core"; "--cid"; "16"; "--port"; "3"]%string)
    = RunReaper {| e_ephemeral := bs "/qos.ephemeral.key"; e_quorum := bs "/qos.quorum.key"; e_manifest := bs "/qos.manifest";
                   e_pivot := bs "/qos.pivot.bin"; e_socket := AVsock 16 3 0 |} /\
  enclave_execute (map bs ["qos_core"; "--cid"; "16"; "--port"; "3"; "--usock"; "/x"]%string) = Crash /\
  enclave_execute (map bs ["qos_core"]%string) = TaskPanics /\
  enclave_execute (map bs ["qos_core"; "--cid"; "--help"]%string) = ShowHelp /\
  tmp_path (bs "/qos.manifest") = bs "/qos.tmp" /\ tmp_path (bs "/a.b/c") = bs "/a.b/c.tmp" /\ tmp_path (bs "/d/.hid") = bs "/d/.hid.tmp".
Proof. repeat split; vm_compute; reflexivity. Qed.
