(** C77: what the command lines of qos_host, qos_net and qos_bridge make them do. *)
From Coq Require Import ZifyBool ZifyN ZifyNat Permutation.
From Verif Require Import Base Env EnvProofs Json Types TypesJson CliParser SpecCli CliProofs PropsCli Pool PropsPool Client ClientProofs SpecClient ClientSets ClientCli PropsClientCli DaemonCli.
Local Open Scope N_scope.

(** *** Specification *)
(** A program's options ([options], [laid], [one], [opt], [parsed], [parsed_or],
    [flagged] are those of C75), and which of them are required, go only
    together, or never together. *)
Record rules := { required : list string; together : list (string * string); apart : list (string * string) }.
Definition permitted (o : options) (r : rules) (args : list bytes) : Prop :=
  exists l, laid o args l /\ NoDup l /\ (forall n, In n (required r) -> In n l)
    /\ (forall a b, In (a, b) (together r) -> In a l -> In b l) /\ (forall a b, In (a, b) (apart r) -> In a l -> ~ In b l).
Definition u32 : bytes -> option N := parse_unsigned (2 ^ 32).
Definition u16 : bytes -> option N := parse_unsigned (2 ^ 16).
Definition u64 : bytes -> option N := parse_unsigned (2 ^ 64).
(** a path that can be the name of a unix socket *)
Definition socket_name (u : bytes) : Prop := lenN u < 108 /\ ~ In x00 u.

Definition host_options : options := (Build_options ["cid"; "port"; "usock"; "host-ip"; "host-port"; "endpoint-base-path"; "socket-timeout"; "vsock-to-host"] [] ["socket-timeout"])%string.
Definition host_rules : rules := (Build_rules ["host-ip"; "host-port"] [("cid", "port"); ("port", "cid")]
  [("cid", "usock"); ("port", "usock"); ("usock", "port"); ("usock", "cid"); ("vsock-to-host", "usock")])%string.
Definition proxy_options : options := (Build_options ["cid"; "port"; "usock"; "max-connections"; "pool-size"] [] ["max-connections"; "pool-size"])%string.
Definition proxy_rules : rules := (Build_rules [] [("cid", "port"); ("port", "cid")]
  [("cid", "usock"); ("port", "usock"); ("usock", "port"); ("usock", "cid"); ("pool-size", "port"); ("pool-size", "cid")])%string.
Definition bridge_options : options := (Build_options ["control-url"; "cid"; "usock"; "host-port-override"; "vsock-to-host"; "egress-bin-path"] ["egress-host"] [])%string.
Definition bridge_rules : rules := (Build_rules [] [] [("cid", "usock"); ("usock", "cid"); ("vsock-to-host", "usock")])%string.

(** what the options say *)
Definition host_told (args : list bytes) (c : host_config) : Prop :=
  ((exists cid port b, parsed args "cid" u32 cid /\ parsed args "port" u32 port /\ parsed_or args "vsock-to-host" bool_from false b /\ hc_enclave c = AVsock cid port (if b : bool then 1 else 0))
   \/ (exists u, one args "usock" u /\ socket_name u /\ hc_enclave c = AUnix u))
  /\ parsed_or args "socket-timeout" u64 20000 (hc_timeout_ms c) /\ parsed args "host-ip" parse_ip (hc_ip c) /\ parsed args "host-port" u16 (hc_port c)
  /\ opt args "endpoint-base-path" (hc_base c).
Definition proxy_told (args : list bytes) (c : proxy_config) : Prop :=
  ((exists cid port, parsed args "cid" u32 cid /\ parsed args "port" u32 port /\ pc_listens c = [AVsock cid port 0])
   \/ (exists u n p, one args "usock" u /\ socket_name u /\ parsed_or args "pool-size" (parse_unsigned 256) 1 n /\ n <> 0 /\ pool_new (AUnix u) (N.to_nat n) = Ok p /\ pc_listens c = p_addresses p))
  /\ parsed_or args "max-connections" u64 256 (pc_max_connections c).
Definition ingress_told (args : list bytes) (c : ingress_config) : Prop :=
  ((exists cid b, parsed args "cid" u32 cid /\ parsed_or args "vsock-to-host" bool_from true b /\ ic_enclave c = AVsock cid 3001 (if b : bool then 1 else 0))
   \/ (exists u, one args "usock" u /\ socket_name u /\ ic_enclave c = AUnix u))
  /\ one args "control-url" (ic_control_url c) /\ opt args "egress-bin-path" (ic_egress_bin c)
  /\ (forall p, ic_override c = Some p <-> parsed args "host-port-override" u16 p).
Definition egress_told (args : list bytes) (c : egress_config) : Prop :=
  parsed args "cid" u32 (ec_cid c) /\ (exists b, parsed_or args "vsock-to-host" bool_from true b /\ ec_flags c = if b : bool then 1 else 0)
  /\ ec_port c = 1000 /\ flagged args "egress-host" (ec_on_host c).

(** *** The tables agree *)
Definition pin (x : string * string) (l : list (string * string)) : bool := existsb (fun y => String.eqb (fst x) (fst y) && String.eqb (snd x) (snd y)) l.
Lemma pin_iff x l : pin x l = true <-> In x l.
Proof.
  unfold pin. rewrite existsb_exists. split.
  - intros ([a b] & I & E). destruct x as [c d]. apply andb_true_iff in E as [E1 E2]. cbn [fst snd] in *. apply String.eqb_eq in E1, E2. now subst.
  - intros I. exists x. split; [exact I|]. now rewrite !String.eqb_refl.
Qed.
Definition str_of (w : bytes) : string := string_of_list_byte w.
Definition tokens_agree (ts : list token) (o : options) (r : rules) : bool :=
  forallb (fun t => let n := name_of t in
    bytes_eqb (bs n) (t_name t) && negb (t_multiple t) && Bool.eqb (t_required t) (sin n (required r))
    && match t_requires t with Some w => bytes_eqb (bs (str_of w)) w && pin (n, str_of w) (together r) | None => true end
    && forallb (fun w => bytes_eqb (bs (str_of w)) w && pin (n, str_of w) (apart r)) (t_forbids t)
    && (if t_takes_value t then sin n (vals o) && Bool.eqb (is_some (t_default t)) (sin n (bare o))
        else String.eqb n "help" || String.eqb n "version" || sin n (flags o)))
    (rev ts ++ [token_new VERSION; token_new HELP])
  && forallb (registered_as ts t_takes_value) (vals o)
  && forallb (registered_as ts (fun t => negb (t_takes_value t))) (flags o)
  && forallb (registered_as ts (fun t => t_takes_value t && is_some (t_default t))) (bare o)
  && forallb (registered_as ts t_required) (required r)
  && forallb (fun x => registered_as ts (fun t => match t_requires t with Some w => bytes_eqb w (bs (snd x)) | None => false end) (fst x)) (together r)
  && forallb (fun x => registered_as ts (fun t => memb bytes_eqb (bs (snd x)) (t_forbids t)) (fst x)) (apart r)
  && forallb (fun n => negb (String.eqb n "help") && negb (String.eqb n "version")) (flags o ++ vals o ++ bare o).

Lemma count_NoDup (l : list string) : NoDup l <-> forall n, (count_occ string_dec l n <= 1)%nat.
Proof. apply NoDup_count_occ. Qed.
Lemma count_map_bs l n : count_occ bytes_dec (map bs l) (bs n) = count_occ string_dec l n.
Proof. induction l as [|x l IH]; [reflexivity|]. cbn [map count_occ]. rewrite IH. destruct (bytes_dec (bs x) (bs n)) as [E|E], (string_dec x n) as [F|F]; try reflexivity; [apply bs_inj in E; contradiction|subst; contradiction]. Qed.

Section Agreeing.
  Context (ts : list token) (o : options) (r : rules) (AG : tokens_agree ts o r = true) (U : Forall unset ts).
  Ltac part A := pose proof AG as A; unfold tokens_agree in A; repeat rewrite andb_true_iff in A.
  Lemma t_covers n t : registered ts n = Some t -> exists k, n = bs k /\ t_multiple t = false /\ (t_required t = true <-> In k (required r))
    /\ (forall w, t_requires t = Some w -> exists v, w = bs v /\ In (k, v) (together r)) /\ (forall w, In w (t_forbids t) -> exists v, w = bs v /\ In (k, v) (apart r))
    /\ (if t_takes_value t then In k (vals o) /\ (t_default t <> None <-> In k (bare o)) else k = "help"%string \/ k = "version"%string \/ In k (flags o)).
  Proof.
    intros R. destruct (registered_in _ _ _ R) as [I N]. part A. destruct A as [[[[[[[A _] _] _] _] _] _] _]. rewrite forallb_forall in A. specialize (A t I). cbv zeta in A. repeat rewrite andb_true_iff in A.
    destruct A as [[[[[A MU] RQ] RS] FB] K]. apply bytes_eqb_eq in A. apply negb_true_iff in MU. apply eqb_prop in RQ. exists (name_of t). split; [congruence|]. split; [exact MU|].
    split; [rewrite RQ; apply sin_iff|]. split.
    { intros w W. rewrite W in RS. apply andb_true_iff in RS as [R1 R2]. apply bytes_eqb_eq in R1. exists (str_of w). split; [congruence|apply pin_iff; exact R2]. }
    split.
    { intros w W. rewrite forallb_forall in FB. specialize (FB w W). apply andb_true_iff in FB as [R1 R2]. apply bytes_eqb_eq in R1. exists (str_of w). split; [congruence|apply pin_iff; exact R2]. }
    destruct (t_takes_value t).
    - apply andb_true_iff in K as [K1 K2]. apply sin_iff in K1. apply eqb_prop in K2. split; [exact K1|]. rewrite <- sin_iff. rewrite <- K2. destruct (t_default t); cbn; split; congruence.
    - apply orb_true_iff in K as [K|K]; [|right; right; apply sin_iff; exact K]. apply orb_true_iff in K as [K|K]; apply String.eqb_eq in K; auto.
  Qed.
  Lemma reg_as f k : registered_as ts f k = true -> exists t, registered ts (bs k) = Some t /\ f t = true.
  Proof. unfold registered_as. destruct (registered ts (bs k)) as [t|]; [eauto|discriminate]. Qed.
  Lemma t_laid_reads args l : laid o args l -> (exists occ, reads ts args occ /\ map fst occ = map bs l) /\ ~ In (bs "--help") args /\ ~ In (bs "--version") args.
  Proof.
    part A. destruct A as [[[[[[[_ A1] A2] A3] _] _] _] A4]. rewrite forallb_forall in A1, A2, A3, A4.
    assert (NHV : forall k, In k (flags o) \/ In k (vals o) \/ In k (bare o) -> k <> "help"%string /\ k <> "version"%string).
    { intros k K. specialize (A4 k ltac:(rewrite !in_app_iff; tauto)). apply andb_true_iff in A4 as [X Y]. apply negb_true_iff in X, Y. apply String.eqb_neq in X, Y. auto. }
    assert (DD : forall n w, n <> w -> dash (bs n) <> dash (bs w)) by (intros n w N E; apply N, bs_inj, dash_inj, E).
    assert (VV : forall v w, starts_with (bs "--") v = false -> v <> dash (bs w)) by (intros v w S E; subst; rewrite starts_dash in S; discriminate).
    change (bs "--help") with (dash (bs "help")). change (bs "--version") with (dash (bs "version")).
    induction 1 as [|n rest l I L ((occ & R & E) & H1 & H2)|n v rest l I V L ((occ & R & E) & H1 & H2)|n rest l I HD L ((occ & R & E) & H1 & H2)].
    - split; [exists []; split; [constructor|reflexivity]|split; intros []].
    - destruct (reg_as _ _ (A2 n I)) as (t & RT & TV). apply negb_true_iff in TV. destruct (NHV n (or_introl I)) as [X Y]. split.
      + exists ((bs n, None) :: occ). split; [exact (R_flag _ _ _ _ _ RT TV R)|cbn [map fst]; now rewrite E].
      + split; (intros [J|J]; [first [exact (DD _ _ X J)|exact (DD _ _ Y J)]|contradiction]).
    - destruct (reg_as _ _ (A1 n I)) as (t & RT & TV). destruct (NHV n (or_intror (or_introl I))) as [X Y]. split.
      + exists ((bs n, Some v) :: occ). split; [refine (R_value _ _ _ _ _ _ RT TV _ R); apply starts_false; exact V|cbn [map fst]; now rewrite E].
      + split; (intros [J|[J|J]]; [first [exact (DD _ _ X J)|exact (DD _ _ Y J)]|exact (VV _ _ V J)|contradiction]).
    - destruct (reg_as _ _ (A3 n I)) as (t & RT & TV). apply andb_true_iff in TV as [TV TD]. destruct (t_default t) as [d|] eqn:D; [|discriminate]. destruct (NHV n (or_intror (or_intror I))) as [X Y]. split.
      + exists ((bs n, Some d) :: occ). split; [refine (R_default _ _ _ _ _ _ RT TV D _ R)|cbn [map fst]; now rewrite E].
        destruct rest as [|i q]; [now left|right; exists i, q; split; [reflexivity|apply starts_iff; exact HD]].
      + split; (intros [J|J]; [first [exact (DD _ _ X J)|exact (DD _ _ Y J)]|contradiction]).
  Qed.
  Lemma t_reads_laid args occ : reads ts args occ -> ~ In (bs "--help") args -> ~ In (bs "--version") args -> exists l, laid o args l /\ map fst occ = map bs l.
  Proof.
    induction 1 as [|k t rest occ RG TV R IH|k t v rest occ RG TV NO R IH|k t d rest occ RG TV TD HD R IH]; intros NH NV; [exists []; split; [constructor|reflexivity]|..].
    - destruct IH as (l & L & E); [intros J; apply NH; now right|intros J; apply NV; now right|]. destruct (t_covers _ _ RG) as (n & -> & _ & _ & _ & _ & K). rewrite TV in K.
      destruct K as [-> |[-> |K]]; [exfalso; apply NH; now left|exfalso; apply NV; now left|]. exists (n :: l). split; [exact (L_flag _ _ _ _ K L)|cbn [map fst]; now rewrite E].
    - destruct IH as (l & L & E); [intros J; apply NH; right; right; exact J|intros J; apply NV; right; right; exact J|]. destruct (t_covers _ _ RG) as (n & -> & _ & _ & _ & _ & K). rewrite TV in K.
      exists (n :: l). split; [refine (L_value _ _ _ _ _ (proj1 K) _ L); apply starts_false; exact NO|cbn [map fst]; now rewrite E].
    - destruct IH as (l & L & E); [intros J; apply NH; now right|intros J; apply NV; now right|]. destruct (t_covers _ _ RG) as (n & -> & _ & _ & _ & _ & K). rewrite TV in K.
      exists (n :: l). split; [|cbn [map fst]; now rewrite E]. refine (L_bare _ _ _ _ _ _ L); [apply K; congruence|].
      destruct HD as [-> |(i & q & -> & O)]; [exact I|]. apply starts_iff in O. exact O.
  Qed.
  Lemma given_in (occ : list (bytes * option bytes)) l k : map fst occ = map bs l -> given (bs k) occ <-> In k l.
  Proof.
    intros E. unfold given. rewrite E, in_map_iff. split; [intros (x & X & I); apply bs_inj in X; now subst|intros I; exists k; auto].
  Qed.
  Lemma given_registered args occ n : reads ts args occ -> given n occ -> exists t, registered ts n = Some t.
  Proof.
    intros R G. unfold given in G. induction R as [|k t rest occ RG TV R IH|k t v rest occ RG TV NO R IH|k t d rest occ RG TV TD HD R IH]; cbn [map fst] in G; [destruct G|..]; (destruct G as [<-|G]; [eauto|exact (IH G)]).
  Qed.
  (** exactly the permitted command lines are read *)
  Lemma permitted_iff args : permitted o r args <-> ~ In (bs "--help") args /\ ~ In (bs "--version") args /\ exists m, tm_parse (parser_of ts) args = Done (Ok m).
  Proof.
    part A. destruct A as [[[[[[[_ _] _] _] A5] A6] A7] _]. rewrite forallb_forall in A5, A6, A7. split.
    - intros (l & L & ND & RQ & TG & AP). destruct (t_laid_reads args l L) as ((occ & R & E) & NH & NV). split; [exact NH|]. split; [exact NV|].
      apply (proj2 (c44_accepts_exactly ts args U NH NV)). exists occ. split; [exact R|]. constructor.
      + intros n t RG MU. rewrite E. destruct (t_covers _ _ RG) as (k & -> & _). rewrite count_map_bs. now apply count_NoDup.
      + intros n t RG Q. destruct (t_covers _ _ RG) as (k & -> & _ & K & _). apply (given_in occ l k E), RQ, K, Q.
      + intros n t w G RG X. destruct (t_covers _ _ RG) as (k & -> & _ & _ & K & _). destruct (K w X) as (v & -> & P). apply (given_in occ l v E). apply (TG k v P), (given_in occ l k E), G.
      + intros n t w G RG F. destruct (t_covers _ _ RG) as (k & -> & _ & _ & _ & K & _). destruct (K w F) as (v & -> & P). rewrite (given_in occ l v E). apply (AP k v P), (given_in occ l k E), G.
    - intros (NH & NV & m & P). destruct (proj1 (c44_accepts_exactly ts args U NH NV) (ex_intro _ m P)) as (occ & R & AC).
      destruct (t_reads_laid args occ R NH NV) as (l & L & E). exists l. split; [exact L|]. split; [|split; [|split]].
      + apply count_NoDup. intros n. destruct (in_dec string_dec n l) as [I|I].
        * apply (given_in occ l n E) in I. destruct (given_registered _ _ _ R I) as [t RG]. rewrite <- count_map_bs, <- E. apply (acc_once _ _ AC _ _ RG). destruct (t_covers _ _ RG) as (k & _ & K & _). exact K.
        * apply (count_occ_not_In string_dec) in I. rewrite I. lia.
      + intros n I. destruct (reg_as _ _ (A5 n I)) as (t & RG & Q). apply (given_in occ l n E), (acc_required _ _ AC _ _ RG Q).
      + intros a b I J. destruct (reg_as _ _ (A6 _ I)) as (t & RG & Q). cbn [fst snd] in *. destruct (t_requires t) as [w|] eqn:W; [|discriminate Q]. apply bytes_eqb_eq in Q as ->.
        apply (given_in occ l b E). eapply (acc_requires _ _ AC (bs a)); [apply (given_in occ l a E), J|exact RG|exact W].
      + intros a b I J K. destruct (reg_as _ _ (A7 _ I)) as (t & RG & Q). cbn [fst snd] in *. apply memb_bytes in Q.
        apply (given_in occ l b E) in K. revert K. eapply (acc_forbids _ _ AC (bs a)); [apply (given_in occ l a E), J|exact RG|exact Q].
  Qed.
  Lemma permitted_typed args a b : permitted o r args -> In (a, b) (apart r) -> typed (bs a) args <> [] -> typed (bs b) args = [].
  Proof.
    intros (l & L & _ & _ & _ & AP) I T. destruct (typed (bs b) args) as [|v q] eqn:V; [reflexivity|]. exfalso.
    destruct (t_laid_reads args l L) as ((occ & R & E) & _).
    assert (G : forall k, typed (bs k) args <> [] -> In k l) by (intros k K; apply typed_in in K; apply (reads_given ts args occ R (bs k)) in K; now apply (given_in occ l k E)).
    apply (AP a b I (G a T)). apply G. rewrite V. discriminate.
  Qed.
  Lemma execute_iff {A} (conf : token_map -> option A) name args a : starts_with (bs "--") name = false ->
    (exists t, registered ts HELP = Some t) -> flag_ok ts HELP = true -> (exists t, registered ts VERSION = Some t) -> flag_ok ts VERSION = true ->
    execute ts conf (name :: args) = Starts a <-> permitted o r args /\ exists m, tm_parse (parser_of ts) args = Done (Ok m) /\ conf m = Some a.
  Proof.
    intros N (t1 & R1) F1 (t2 & R2) F2. unfold execute. rewrite c44_options_drop_the_binary_name by (apply starts_false; exact N). rewrite permitted_iff. split.
    - destruct (tm_parse (parser_of ts) args) as [[m|e]|] eqn:P; try discriminate. destruct (p_version m) eqn:V; [discriminate|]. destruct (p_help m) eqn:H; [discriminate|].
      destruct (conf m) as [x|] eqn:C; [|discriminate]. intros E. injection E as <-.
      assert (NH : ~ In (bs "--help") args). { intros I. destruct (c44_help_short_circuits ts args U I) as (m' & P' & H' & _). rewrite P in P'. injection P' as <-. congruence. }
      assert (NV : ~ In (bs "--version") args). { intros I. destruct (c44_version_short_circuits ts args U I NH) as (m' & P' & H' & _). rewrite P in P'. injection P' as <-. congruence. }
      split; [split; [exact NH|split; [exact NV|exists m; reflexivity]]|]. exists m. auto.
    - intros ((NH & NV & _) & m & P & C). rewrite P. unfold p_version, p_help.
      rewrite (no_flag_read ts args m VERSION t2 U NH NV P R2 F2 NV), (no_flag_read ts args m HELP t1 U NH NV P R1 F1 NH). now rewrite C.
  Qed.
End Agreeing.

(** *** Reading options *)
Section Options.
  Context (ts : list token) (args : list bytes) (m : token_map) (U : Forall unset ts) (NH : ~ In (bs "--help") args) (NV : ~ In (bs "--version") args) (P : tm_parse (parser_of ts) args = Done (Ok m)).
  Lemma o_one n v : single_ok ts (bs n) = true -> default_of ts (bs n) = None -> one args n v <-> get_single m (bs n) = Some v.
  Proof. exact (one_iff ts args m U NH NV P (bs n) v). Qed.
  Lemma o_opt n x : single_ok ts (bs n) = true -> default_of ts (bs n) = None -> opt args n x <-> get_single m (bs n) = x.
  Proof. exact (opt_iff ts args m U NH NV P (bs n) x). Qed.
  Lemma o_parsed {A} n (f : bytes -> option A) x : single_ok ts (bs n) = true -> default_of ts (bs n) = None -> parsed args n f x <-> exists v, get_single m (bs n) = Some v /\ f v = Some x.
  Proof. intros K D. unfold parsed. split; intros (v & V & G); exists v; (split; [apply (o_one n v K D), V|exact G]). Qed.
  Lemma o_or {A} n (f : bytes -> option A) d x : single_ok ts (bs n) = true -> default_of ts (bs n) = None ->
    parsed_or args n f d x <-> match get_single m (bs n) with Some v => f v | None => Some d end = Some x.
  Proof.
    intros K D. unfold parsed_or. rewrite (o_parsed n f x K D). change (typed (bs n) args = []) with (opt args n None). rewrite (o_opt n None K D).
    destruct (get_single m (bs n)) as [v|]; split.
    - intros [[? _]|(v' & E & G)]; [discriminate|]. congruence.
    - intros G. right. eauto.
    - intros [[_ ->]|(v' & E & _)]; [reflexivity|discriminate].
    - intros E. left. split; [reflexivity|congruence].
  Qed.
  Lemma o_default {A} n (f : bytes -> option A) d0 d x : single_ok ts (bs n) = true -> default_of ts (bs n) = Some d0 -> f d0 = Some d ->
    parsed_or args n f d x <-> exists v, get_single m (bs n) = Some v /\ f v = Some x.
  Proof. exact (default_iff ts args m U NH NV P (bs n) f d0 d x). Qed.
  Lemma o_flag n b : flag_ok ts (bs n) = true -> flagged args n b <-> (match get_flag m (bs n) with Some b => b | None => false end) = b.
  Proof.
    intros K. pose proof (flag_iff ts args m U NH NV P (bs n) K) as E. unfold flagged. rewrite <- E. destruct (match get_flag m (bs n) with Some b => b | None => false end), b; intuition congruence.
  Qed.
  Lemma o_present n d0 : single_ok ts (bs n) = true -> default_of ts (bs n) = Some d0 -> exists v, get_single m (bs n) = Some v.
  Proof. intros K D. destruct (single_is ts args m U NH NV P (bs n) K) as [_ E]. rewrite E, D. destruct (typed (bs n) args); eauto. Qed.
End Options.
Lemma new_unix_iff u a : new_unix u = Some a <-> socket_name u /\ a = AUnix u.
Proof.
  unfold new_unix, unix_addr_new, socket_name, SUN_PATH. destruct (N.ltb_spec (lenN u) 108) as [L|L]; cbn [andb].
  - destruct (memb byte_eqb x00 u) eqn:M; cbn [negb].
    + split; [discriminate|]. intros [[_ X] _]. exfalso. apply X. apply (memb_In byte_eqb byte_eqb_eq) in M. exact M.
    + split; [intros E; injection E as <-; split; [split; [exact L|]|reflexivity]|intros [_ ->]; reflexivity].
      intros I. assert (X : memb byte_eqb x00 u = true) by (apply (memb_In byte_eqb byte_eqb_eq); exact I). congruence.
  - split; [discriminate|]. intros [[X _] _]. lia.
Qed.
Lemma U32_eq v : parse_unsigned U32 v = u32 v. Proof. reflexivity. Qed.
Ltac sd := first [assumption | reflexivity | vm_compute; reflexivity].
Ltac agreed ts := (split; [eexists; vm_compute; reflexivity|split; [vm_compute; reflexivity|split; [eexists; vm_compute; reflexivity|vm_compute; reflexivity]]]).
Lemma obind_iff {A B} (x : option A) (k : A -> option B) b : obind x k = Some b <-> exists a, x = Some a /\ k a = Some b.
Proof. destruct x; cbn; split; [eauto|intros (a' & E & K); congruence|discriminate|intros (a' & E & _); discriminate]. Qed.

(** *** Theorems *)
(** qos_host serves on the address, base path and enclave socket typed; the
    URLs of the client's requests (C75) are the host's routes. *)
Theorem c77_host_starts_as_told : forall name args c, starts_with (bs "--") name = false ->
  host_execute (name :: args) = Starts c <-> permitted host_options host_rules args /\ host_told args c.
Proof.
  intros name args c N. unfold host_execute. assert (U : Forall unset host_tokens) by (repeat constructor). assert (AG : tokens_agree host_tokens host_options host_rules = true) by (vm_compute; reflexivity).
  rewrite (execute_iff host_tokens host_options host_rules AG U host_conf name args c N); [|eexists; vm_compute; reflexivity|vm_compute; reflexivity|eexists; vm_compute; reflexivity|vm_compute; reflexivity].
  assert (M : forall m, permitted host_options host_rules args -> tm_parse (parser_of host_tokens) args = Done (Ok m) -> host_conf m = Some c <-> host_told args c).
  { intros m PM P. destruct (proj1 (permitted_iff _ _ _ AG U args) PM) as (NH & NV & _).
    unfold host_told. rewrite (o_default host_tokens args m U NH NV P "socket-timeout" u64 (bs "20000") 20000) by sd.
    rewrite (o_parsed host_tokens args m U NH NV P "host-ip") by sd. rewrite (o_parsed host_tokens args m U NH NV P "host-port") by sd. rewrite (o_opt host_tokens args m U NH NV P "endpoint-base-path") by sd.
    assert (SK : ((exists cid port b, parsed args "cid" u32 cid /\ parsed args "port" u32 port /\ parsed_or args "vsock-to-host" bool_from false b /\ hc_enclave c = AVsock cid port (if b : bool then 1 else 0))
       \/ (exists u, one args "usock" u /\ socket_name u /\ hc_enclave c = AUnix u))
       <-> match get_single m (bs "cid"), get_single m (bs "port"), get_single m (bs "usock") with
               | Some c, Some p, None => let? c := parse_unsigned U32 c in let? p := parse_unsigned U32 p in let? f := to_host_flag false m in Some (AVsock c p f)
               | None, None, Some u => new_unix u
               | _, _, _ => None
               end = Some (hc_enclave c)).
    { pose proof (fun a b => permitted_typed _ _ _ AG args a b PM) as AP.
      assert (A1 : get_single m (bs "cid") <> None -> get_single m (bs "usock") = None).
      { intros X. apply (o_opt host_tokens args m U NH NV P "usock" None); [sd..|]. apply (AP "cid"%string "usock"%string); [vm_compute; tauto|].
        intros T. apply X. apply (o_opt host_tokens args m U NH NV P "cid" None); [sd..|]. exact T. }
      assert (A2 : get_single m (bs "port") <> None -> get_single m (bs "usock") = None).
      { intros X. apply (o_opt host_tokens args m U NH NV P "usock" None); [sd..|]. apply (AP "port"%string "usock"%string); [vm_compute; tauto|].
        intros T. apply X. apply (o_opt host_tokens args m U NH NV P "port" None); [sd..|]. exact T. }
      split.
      - intros [(ci & po & b & C & Q & V & E)|(u & O & SN & E)].
        + apply (o_parsed host_tokens args m U NH NV P) in C as (v1 & G1 & C); [|sd..]. apply (o_parsed host_tokens args m U NH NV P) in Q as (v2 & G2 & Q); [|sd..].
          apply (o_or host_tokens args m U NH NV P) in V; [|sd..]. rewrite A1 by (rewrite G1; discriminate). rewrite G1, G2. rewrite U32_eq, C. cbn [obind]. rewrite U32_eq, Q. cbn [obind]. unfold to_host_flag. rewrite V. cbn [obind]. now rewrite E.
        + apply (o_one host_tokens args m U NH NV P) in O; [|sd..]. rewrite O. destruct (get_single m (bs "cid")); [rewrite A1 in O by discriminate; discriminate|]. destruct (get_single m (bs "port")); [rewrite A2 in O by discriminate; discriminate|].
          apply new_unix_iff. auto.
      - destruct (get_single m (bs "cid")) as [v1|] eqn:G1, (get_single m (bs "port")) as [v2|] eqn:G2, (get_single m (bs "usock")) as [u|] eqn:G3; try discriminate.
        + intros E. apply obind_iff in E as (ci & C & E). apply obind_iff in E as (po & Q & E). apply obind_iff in E as (f & F & E). unfold to_host_flag in F. apply obind_iff in F as (b & B & F).
          left. exists ci, po, b. split; [apply (o_parsed host_tokens args m U NH NV P); [sd..|]; eauto|]. split; [apply (o_parsed host_tokens args m U NH NV P); [sd..|]; eauto|].
          split; [apply (o_or host_tokens args m U NH NV P); [sd..|]; exact B|]. congruence.
        + intros E. apply new_unix_iff in E as [SN E]. right. exists u. split; [apply (o_one host_tokens args m U NH NV P); [sd..|]; exact G3|]. auto. }
    rewrite SK. clear SK. unfold host_conf. destruct (o_present host_tokens args m U NH NV P "socket-timeout" (bs "20000")) as (tv & TV); [sd..|]. rewrite TV.
    rewrite obind_iff. split.
    - intros (sock & E1 & E). apply obind_iff in E as (t & E2 & E). apply obind_iff in E as (i & E3 & E). apply obind_iff in E as (ip & E4 & E). apply obind_iff in E as (p & E5 & E). apply obind_iff in E as (port & E6 & E).
      injection E as <-. cbn [hc_enclave hc_timeout_ms hc_ip hc_port hc_base]. split; [exact E1|]. split; [exists tv; auto|]. split; [exists i; auto|]. split; [exists p; auto|reflexivity].
    - intros (E1 & (v & Ev & E2) & (i & E3 & E4) & (p & E5 & E6) & E7). exists (hc_enclave c). split; [exact E1|]. injection Ev as <-. unfold u64 in E2. rewrite E2. cbn [obind]. rewrite E3. cbn [obind]. rewrite E4. cbn [obind].
      rewrite E5. cbn [obind]. unfold u16 in E6. rewrite E6. cbn [obind]. rewrite E7. destruct c. reflexivity. }
  split.
  - intros (PM & m & P & C). split; [exact PM|]. apply (M m PM P), C.
  - intros (PM & T). split; [exact PM|]. destruct (proj1 (permitted_iff _ _ _ AG U args) PM) as (_ & _ & m & P). exists m. split; [exact P|]. apply (M m PM P), T.
Qed.
Print Assumptions c77_host_starts_as_told.
Lemma starts_iff {A} ts o r (AG : tokens_agree ts o r = true) (U : Forall unset ts) (conf : token_map -> option A) (told : Prop) name args c :
  starts_with (bs "--") name = false ->
  (exists t, registered ts HELP = Some t) -> flag_ok ts HELP = true -> (exists t, registered ts VERSION = Some t) -> flag_ok ts VERSION = true ->
  (forall m, permitted o r args -> ~ In (bs "--help") args -> ~ In (bs "--version") args -> tm_parse (parser_of ts) args = Done (Ok m) -> conf m = Some c <-> told) ->
  execute ts conf (name :: args) = Starts c <-> permitted o r args /\ told.
Proof.
  intros N H1 H2 H3 H4 M. rewrite (execute_iff ts o r AG U conf name args c N H1 H2 H3 H4). split.
  - intros (PM & m & P & C). split; [exact PM|]. destruct (proj1 (permitted_iff _ _ _ AG U args) PM) as (NH & NV & _). apply (M m PM NH NV P), C.
  - intros (PM & T). split; [exact PM|]. destruct (proj1 (permitted_iff _ _ _ AG U args) PM) as (NH & NV & m & P). exists m. split; [exact P|]. apply (M m PM NH NV P), T.
Qed.

(** qos_net listens on the vsock port or on the unix sockets (C42) typed. *)
Theorem c77_proxy_starts_as_told : forall name args c, starts_with (bs "--") name = false ->
  proxy_execute (name :: args) = Starts c <-> permitted proxy_options proxy_rules args /\ proxy_told args c.
Proof.
  intros name args c N. unfold proxy_execute. assert (U : Forall unset proxy_tokens) by (repeat constructor). assert (AG : tokens_agree proxy_tokens proxy_options proxy_rules = true) by (vm_compute; reflexivity).
  apply (starts_iff proxy_tokens proxy_options proxy_rules AG U proxy_conf (proxy_told args c) name args c N); [eexists; vm_compute; reflexivity|vm_compute; reflexivity|eexists; vm_compute; reflexivity|vm_compute; reflexivity|].
  intros m PM NH NV P. unfold proxy_told.
  rewrite (o_default proxy_tokens args m U NH NV P "max-connections" u64 (bs "256") 256) by sd.
  pose proof (fun a b => permitted_typed _ _ _ AG args a b PM) as AP.
  pose proof (o_default proxy_tokens args m U NH NV P "pool-size" (parse_unsigned 256) (bs "1") 1) as PS.
  assert (AU : forall k, In (k, "usock"%string) (apart proxy_rules) -> single_ok proxy_tokens (bs k) = true -> default_of proxy_tokens (bs k) = None -> get_single m (bs k) <> None -> get_single m (bs "usock") = None).
  { intros k IN S1 S2 X. apply (o_opt proxy_tokens args m U NH NV P "usock" None); [sd..|]. apply (AP k "usock"%string); [exact IN|].
    intros T. apply X. apply (o_opt proxy_tokens args m U NH NV P k None); [exact S1|exact S2|]. exact T. }
  assert (A1 : get_single m (bs "cid") <> None -> get_single m (bs "usock") = None) by (apply AU; [vm_compute; tauto|sd..]).
  assert (A2 : get_single m (bs "port") <> None -> get_single m (bs "usock") = None) by (apply AU; [vm_compute; tauto|sd..]).
  assert (A3 : get_single m (bs "cid") <> None -> forall n, parsed_or args "pool-size" (parse_unsigned 256) 1 n -> n = 1).
  { intros X n [[_ E]|(v & O & _)]; [exact E|]. exfalso. apply X. apply (o_opt proxy_tokens args m U NH NV P "cid" None); [sd..|].
    apply (AP "pool-size"%string "cid"%string); [vm_compute; tauto|]. unfold one in O. rewrite O. discriminate. }
  assert (PZ : forall n, parsed_or args "pool-size" (parse_unsigned 256) 1 n <-> exists v, get_single m (bs "pool-size") = Some v /\ parse_unsigned 256 v = Some n) by (intros n; apply (o_default proxy_tokens args m U NH NV P "pool-size" (parse_unsigned 256) (bs "1") 1); sd).
  clear PS AU. unfold proxy_conf.
  destruct (o_present proxy_tokens args m U NH NV P "max-connections" (bs "256")) as (tv & TV); [sd..|]. rewrite TV.
  destruct (o_present proxy_tokens args m U NH NV P "pool-size" (bs "1")) as (pv & PV); [sd..|].
  split.
  - intros E. apply obind_iff in E as (v & Ev & E). apply obind_iff in E as (n & En & E). apply obind_iff in E as (a & Ea & E). apply obind_iff in E as (p & Ep & E). apply obind_iff in E as (x & Ex & E).
    injection E as <-. cbn [pc_listens pc_max_connections]. split; [|exists tv; auto].
    assert (Pn : parsed_or args "pool-size" (parse_unsigned 256) 1 n) by (apply PZ; eauto).
    assert (Po : pool_new a (N.to_nat n) = Ok p) by (destruct (pool_new a (N.to_nat n)); congruence).
    destruct (get_single m (bs "cid")) as [v1|] eqn:G1, (get_single m (bs "port")) as [v2|] eqn:G2, (get_single m (bs "usock")) as [u|] eqn:G3; try discriminate Ea.
    + apply obind_iff in Ea as (ci & C & Ea). apply obind_iff in Ea as (po & Q & Ea). injection Ea as <-. left. exists ci, po.
      split; [apply (o_parsed proxy_tokens args m U NH NV P); [sd..|]; eauto|]. split; [apply (o_parsed proxy_tokens args m U NH NV P); [sd..|]; eauto|].
      assert (n = 1) as -> by (apply A3; [discriminate|exact Pn]). change (N.to_nat 1) with 1%nat in Po. cbn in Po. injection Po as <-. reflexivity.
    + apply new_unix_iff in Ea as [SN ->]. right. exists u, n, p. split; [apply (o_one proxy_tokens args m U NH NV P); [sd..|]; exact G3|]. split; [exact SN|]. split; [exact Pn|].
      split; [intros ->; discriminate Po|]. split; [exact Po|reflexivity].
  - intros (SK & (v & Ev & Ex)). injection Ev as <-. rewrite PV. cbn [obind]. unfold u64 in Ex.
    destruct SK as [(ci & po & C & Q & L)|(u & n & p & O & SN & Pn & NZ & Po & L)].
    + apply (o_parsed proxy_tokens args m U NH NV P) in C as (v1 & G1 & C); [|sd..]. apply (o_parsed proxy_tokens args m U NH NV P) in Q as (v2 & G2 & Q); [|sd..].
      rewrite G1 in A1, A3. assert (parse_unsigned 256 pv = Some 1) as ->.
      { destruct (typed (bs "pool-size") args) as [|w q] eqn:W.
        - assert (X : parsed_or args "pool-size" (parse_unsigned 256) 1 1) by (left; auto). apply PZ in X as (v & E1 & E2). congruence.
        - exfalso. assert (X : typed (bs "cid") args = []) by (apply (AP "pool-size"%string "cid"%string); [vm_compute; tauto|rewrite W; discriminate]).
          apply (o_opt proxy_tokens args m U NH NV P "cid" None) in X; [congruence|sd..]. }
      cbn [obind]. rewrite G1, G2, A1 by discriminate. rewrite U32_eq, C. cbn [obind]. rewrite U32_eq, Q. cbn [obind]. change (N.to_nat 1) with 1%nat. cbn [pool_new gather obind app]. rewrite Ex. cbn [obind with_addresses p_addresses]. destruct c. cbn in L |- *. congruence.
    + apply (o_one proxy_tokens args m U NH NV P) in O; [|sd..]. rewrite O in *. destruct (get_single m (bs "cid")); [discriminate A1; discriminate|]. destruct (get_single m (bs "port")); [discriminate A2; discriminate|].
      apply PZ in Pn as (v & E1 & E2). assert (v = pv) as -> by congruence. rewrite E2. cbn [obind]. rewrite (proj2 (new_unix_iff u (AUnix u)) (conj SN eq_refl)). cbn [obind]. rewrite Po. cbn [obind]. rewrite Ex. cbn [obind]. destruct c. cbn in L |- *. congruence.
Qed.
Print Assumptions c77_proxy_starts_as_told.

(** qos_bridge's ingress side. *)
Theorem c77_ingress_starts_as_told : forall name args c, starts_with (bs "--") name = false ->
  ingress_execute (name :: args) = Starts c <-> permitted bridge_options bridge_rules args /\ ingress_told args c.
Proof.
  intros name args c N. unfold ingress_execute. assert (U : Forall unset bridge_tokens) by (repeat constructor). assert (AG : tokens_agree bridge_tokens bridge_options bridge_rules = true) by (vm_compute; reflexivity).
  apply (starts_iff bridge_tokens bridge_options bridge_rules AG U ingress_conf (ingress_told args c) name args c N); [eexists; vm_compute; reflexivity|vm_compute; reflexivity|eexists; vm_compute; reflexivity|vm_compute; reflexivity|].
  intros m PM NH NV P. unfold ingress_told.
  rewrite (o_one bridge_tokens args m U NH NV P "control-url") by sd. rewrite (o_opt bridge_tokens args m U NH NV P "egress-bin-path") by sd.
  assert (OV : forall p, parsed args "host-port-override" u16 p <-> match get_single m (bs "host-port-override") with Some v => parse_unsigned (2 ^ 16) v | None => None end = Some p).
  { intros p. rewrite (o_parsed bridge_tokens args m U NH NV P "host-port-override") by sd. destruct (get_single m (bs "host-port-override")) as [v|].
    - split; [intros (v' & E & G); injection E as <-; exact G|intros G; exists v; auto].
    - split; [intros (v' & E & _); discriminate|discriminate]. }
  assert (A1 : get_single m (bs "cid") <> None -> get_single m (bs "usock") = None).
  { intros X. apply (o_opt bridge_tokens args m U NH NV P "usock" None); [sd..|]. apply (permitted_typed _ _ _ AG args "cid"%string "usock"%string PM); [vm_compute; tauto|].
    intros T. apply X. apply (o_opt bridge_tokens args m U NH NV P "cid" None); [sd..|]. exact T. }
  unfold ingress_conf. split.
  - intros E. apply obind_iff in E as (a & Ea & E). apply obind_iff in E as (u & Eu & E). injection E as <-. cbn [ic_enclave ic_control_url ic_egress_bin ic_override].
    split; [|split; [exact Eu|split; [reflexivity|intros p; rewrite OV; reflexivity]]].
    destruct (get_single m (bs "cid")) as [v1|] eqn:G1, (get_single m (bs "usock")) as [s|] eqn:G3; try discriminate Ea.
    + apply obind_iff in Ea as (ci & C & Ea). apply obind_iff in Ea as (f & F & Ea). unfold to_host_flag in F. apply obind_iff in F as (b & B & F).
      left. exists ci, b. split; [apply (o_parsed bridge_tokens args m U NH NV P); [sd..|]; eauto|]. split; [apply (o_or bridge_tokens args m U NH NV P); [sd..|]; exact B|]. congruence.
    + apply new_unix_iff in Ea as [SN ->]. right. exists s. split; [apply (o_one bridge_tokens args m U NH NV P); [sd..|]; exact G3|]. auto.
  - intros (SK & Eu & Eb & Eo). rewrite Eu, Eb.
    assert (EO : match get_single m (bs "host-port-override") with Some v => parse_unsigned (2 ^ 16) v | None => None end = ic_override c).
    { destruct (match get_single m (bs "host-port-override") with Some v => parse_unsigned (2 ^ 16) v | None => None end) as [p|].
      - symmetry. apply Eo, OV. reflexivity.
      - destruct (ic_override c) as [p|]; [|reflexivity]. exfalso. assert (Z : parsed args "host-port-override" u16 p) by (apply Eo; reflexivity). apply OV in Z. discriminate. }
    rewrite EO. destruct SK as [(ci & b & C & V & E)|(s & O & SN & E)].
    + apply (o_parsed bridge_tokens args m U NH NV P) in C as (v1 & G1 & C); [|sd..]. apply (o_or bridge_tokens args m U NH NV P) in V; [|sd..]. rewrite G1 in *. rewrite A1 by discriminate.
      rewrite U32_eq, C. cbn [obind]. unfold to_host_flag. rewrite V. cbn [obind]. rewrite <- E. destruct c. reflexivity.
    + apply (o_one bridge_tokens args m U NH NV P) in O; [|sd..]. rewrite O in *. destruct (get_single m (bs "cid")); [discriminate A1; discriminate|].
      rewrite (proj2 (new_unix_iff s (AUnix s)) (conj SN eq_refl)). cbn [obind]. rewrite <- E. destruct c. reflexivity.
Qed.
Print Assumptions c77_ingress_starts_as_told.

(** qos_bridge's egress side, which never looks at the control URL or the unix socket. *)
Theorem c77_egress_starts_as_told : forall name args c, starts_with (bs "--") name = false ->
  egress_execute (name :: args) = Starts c <-> permitted bridge_options bridge_rules args /\ egress_told args c.
Proof.
  intros name args c N. unfold egress_execute. assert (U : Forall unset bridge_tokens) by (repeat constructor). assert (AG : tokens_agree bridge_tokens bridge_options bridge_rules = true) by (vm_compute; reflexivity).
  apply (starts_iff bridge_tokens bridge_options bridge_rules AG U egress_conf (egress_told args c) name args c N); [eexists; vm_compute; reflexivity|vm_compute; reflexivity|eexists; vm_compute; reflexivity|vm_compute; reflexivity|].
  intros m PM NH NV P. unfold egress_told. rewrite (o_parsed bridge_tokens args m U NH NV P "cid") by sd. rewrite (o_flag bridge_tokens args m U NH NV P "egress-host") by sd.
  unfold egress_conf, to_host_flag. split.
  - intros E. apply obind_iff in E as (v & Ev & E). apply obind_iff in E as (ci & Ec & E). apply obind_iff in E as (f & Ef & E). apply obind_iff in Ef as (b & Eb & Ef). injection E as <-. cbn [ec_cid ec_flags ec_port ec_on_host].
    split; [exists v; auto|]. split; [exists b; split; [apply (o_or bridge_tokens args m U NH NV P); [sd..|]; exact Eb|congruence]|]. auto.
  - intros ((v & Ev & Ec) & (b & Eb & Ef) & Ep & Eh). apply (o_or bridge_tokens args m U NH NV P) in Eb; [|sd..]. rewrite Ev. cbn [obind]. rewrite U32_eq, Ec. cbn [obind]. rewrite Eb. cbn [obind]. rewrite Eh, <- Ef, <- Ep. destruct c. reflexivity.
Qed.
Print Assumptions c77_egress_starts_as_told.

(** The client (C75) and the host, told the same address, port and base path,
    meet: the client's URL is the host's route at the host's address. *)
Theorem c77_client_reaches_the_host : forall name args c args' u r,
  starts_with (bs "--") name = false -> host_execute (name :: args) = Starts c -> reaches args' u r ->
  (forall n v, In n ["host-ip"; "host-port"; "endpoint-base-path"]%string -> opt args n v <-> opt args' n v) ->
  exists ip port, parse_ip ip = Some (hc_ip c) /\ u16 port = Some (hc_port c) /\ u = bs "http://" ++ ip ++ bs ":" ++ port ++ route (hc_base c) (bs "/" ++ bs r).
Proof.
  intros name args c args' u r N H (ip & port & base & I & Po & B & ->) SAME. apply c77_host_starts_as_told in H as (_ & _ & _ & (i & Ei & Gi) & (p & Ep & Gp) & Eb); [|exact N].
  assert (i = ip) as -> by (pose proof (proj1 (SAME "host-ip"%string (Some i) ltac:(cbn; tauto)) Ei) as X; unfold opt, one in *; cbn [olist] in X; congruence).
  assert (p = port) as -> by (pose proof (proj1 (SAME "host-port"%string (Some p) ltac:(cbn; tauto)) Ep) as X; unfold opt, one in *; cbn [olist] in X; congruence).
  assert (hc_base c = base) as ->. { pose proof (proj1 (SAME "endpoint-base-path"%string _ ltac:(cbn; tauto)) Eb) as X. unfold opt in *. rewrite B in X. destruct base, (hc_base c); cbn [olist] in X; congruence. }
  exists ip, port. split; [exact Gi|]. split; [exact Gp|]. reflexivity.
Qed.
Print Assumptions c77_client_reaches_the_host.

(** A port override that is no port number is dropped without a word: the
    bridge then binds the manifest's port, which the override was to avoid. *)
Theorem c77_refuted_a_bad_override_is_refused : exists name args c, starts_with (bs "--") name = false /\ one args "host-port-override" (bs "70000")
  /\ ingress_execute (name :: args) = Starts c /\ ic_override c = None.
Proof. eexists (bs "qos_bridge"), [bs "--cid"; bs "16"; bs "--control-url"; bs "http://h"; bs "--host-port-override"; bs "70000"], _. repeat split; vm_compute; reflexivity. Qed.
Print Assumptions c77_refuted_a_bad_override_is_refused.

(** The host's and the bridge's defaults for [--vsock-to-host] differ. *)
Theorem c77_to_host_defaults_differ : forall name args, starts_with (bs "--") name = false -> typed (bs "vsock-to-host") args = [] -> typed (bs "usock") args = [] ->
  (forall c, host_execute (name :: args) = Starts c -> exists cid port, hc_enclave c = AVsock cid port 0)
  /\ (forall c, ingress_execute (name :: args) = Starts c -> exists cid, ic_enclave c = AVsock cid 3001 1).
Proof.
  intros name args N V US. split; intros c H.
  - apply c77_host_starts_as_told in H as (_ & [(ci & po & b & _ & _ & B & E)|(u & O & _)] & _); [| |exact N].
    + destruct B as [[_ ->]|(v & O & _)]; [eauto|]. unfold one in O. congruence.
    + unfold one in O. congruence.
  - apply c77_ingress_starts_as_told in H as (_ & [(ci & b & _ & B & E)|(u & O & _)] & _); [| |exact N].
    + destruct B as [[_ ->]|(v & O & _)]; [eauto|]. unfold one in O. congruence.
    + unfold one in O. congruence.
Qed.
Print Assumptions c77_to_host_defaults_differ.

Definition c77_host_args : list bytes := (map bs ["--host-ip"; "10.0.0.1"; "--host-port"; "3001"; "--cid"; "16"; "--port"; "4"; "--vsock-to-host"; "true"])%string.
Example c77_nontrivial :
  host_execute (bs "qos_host" :: c77_host_args) = Starts (HostConfig (AVsock 16 4 1) 20000 (Ipv4 x0a x00 x00 x01) 3001 None)
  /\ (permitted host_options host_rules c77_host_args /\ host_told c77_host_args (HostConfig (AVsock 16 4 1) 20000 (Ipv4 x0a x00 x00 x01) 3001 None))
  /\ (exists p, pool_new (AUnix (bs "/s/a")) 3 = Ok p /\ proxy_execute (map bs ["qos_net"; "--usock"; "/s/a"; "--pool-size"; "3"]%string) = Starts (ProxyConfig (p_addresses p) 256))
  /\ proxy_execute (map bs ["qos_net"; "--usock"; "/s/a"; "--pool-size"; "0"]%string) = Crash
  /\ proxy_execute (map bs ["qos_net"; "--cid"; "16"; "--port"; "4"; "--pool-size"; "1"]%string) = Crash
  /\ ingress_execute (map bs ["qos_bridge"; "--cid"; "16"; "--control-url"; "http://h"; "--host-port-override"; "8080"]%string) = Starts (IngressConfig (AVsock 16 3001 1) (bs "http://h") (Some 8080) None)
  /\ egress_execute (map bs ["egress"; "--cid"; "3"; "--vsock-to-host"; "false"; "--egress-host"]%string) = Starts (EgressConfig true 3 1000 0)
  /\ host_execute (map bs ["qos_host"; "--host-ip"; "10.0.0.1"; "--host-port"; "65536"; "--usock"; "/s"]%string) = Crash.
Proof.
  assert (H : host_execute (bs "qos_host" :: c77_host_args) = Starts (HostConfig (AVsock 16 4 1) 20000 (Ipv4 x0a x00 x00 x01) 3001 None)) by (vm_compute; reflexivity).
  split; [exact H|]. split; [apply (c77_host_starts_as_told (bs "qos_host")); [reflexivity|exact H]|].
  split; [eexists; split; vm_compute; reflexivity|]. split; [vm_compute; reflexivity|]. split; [vm_compute; reflexivity|]. split; [vm_compute; reflexivity|]. split; vm_compute; reflexivity.
Qed.
