(** C75: what a command line makes the client do. *)
From Coq Require Import ZifyBool ZifyN ZifyNat Permutation.
From Verif Require Import Base Env EnvProofs Json Types TypesJson CliParser SpecCli CliProofs PropsCli Client ClientProofs SpecClient ClientSets ClientCli.
Local Open Scope N_scope.

(** *** Specification *)
Definition dash (n : bytes) : bytes := bs "--" ++ n.
(** The values typed for option [n]: the arguments right after "--n" that are not options. *)
Fixpoint typed (n : bytes) (args : list bytes) : list bytes :=
  match args with
  | [] => []
  | a :: r => match r with
              | v :: _ => if bytes_eqb a (dash n) && negb (starts_with (bs "--") v) then v :: typed n r else typed n r
              | [] => []
              end
  end.
Definition olist {A} (o : option A) : list A := match o with Some a => [a] | None => [] end.

Section Told.
  Context (args : list bytes).
  Definition one (n : string) (v : bytes) : Prop := typed (bs n) args = [v].
  Definition opt (n : string) (o : option bytes) : Prop := typed (bs n) args = olist o.
  Definition flagged (n : string) (b : bool) : Prop := b = true <-> In (dash (bs n)) args.
  Definition parsed {A} (n : string) (f : bytes -> option A) (x : A) : Prop := exists v, one n v /\ f v = Some x.
  (** an option with a default *)
  Definition parsed_or {A} (n : string) (f : bytes -> option A) (d x : A) : Prop := (typed (bs n) args = [] /\ x = d) \/ parsed n f x.
  Definition parsed_opt {A} (n : string) (f : bytes -> option A) (o : option A) : Prop :=
    match o with Some x => parsed n f x | None => typed (bs n) args = [] end.
  Definition reaches (u : bytes) (route : string) : Prop := exists ip port base, one "host-ip" ip /\ one "host-port" port
    /\ opt "endpoint-base-path" base /\ u = bs "http://" ++ ip ++ bs ":" ++ port ++ bs "/" ++ match base with Some b => b | None => bs "qos" end ++ bs "/" ++ bs route.
  (** the key the operator chose; the PIN file can be given to after-genesis only *)
  Definition opens (k : signer) (pins : bool) : Prop :=
    match k with
    | SecretFile p => one "secret-path" p /\ ~ In (dash (bs "yubikey")) args
    | YubiKey pin => In (dash (bs "yubikey")) args /\ typed (bs "secret-path") args = [] /\ opt "current-pin-path" pin /\ (pins = false -> pin = None)
    end.
  Definition told (a : action) : Prop :=
    match a with
    | DoHealth u => reaches u "host-health"
    | DoStatus u | DoVersion u => reaches u "message"
    | DoGenerateFileKey m p => one "master-seed-path" m /\ one "pub-path" p
    | DoBootGenesis u n ss r p dr skip => reaches u "message" /\ one "namespace-dir" n /\ one "share-set-dir" ss /\ one "qos-release-dir" r
        /\ one "pcr3-preimage-path" p /\ opt "dr-key-path" dr /\ flagged "unsafe-skip-attestation" skip
    | DoAfterGenesis k sh a n r p skip t => opens k true /\ one "share-path" sh /\ one "alias" a /\ one "namespace-dir" n /\ one "qos-release-dir" r
        /\ one "pcr3-preimage-path" p /\ flagged "unsafe-skip-attestation" skip /\ parsed_opt "validation-time-override" (parse_unsigned (2 ^ 64)) t
    | DoVerifyGenesis n m => one "namespace-dir" n /\ one "master-seed-path" m
    | DoGenerateManifest v no ns rp ph r p m ar ss ms ps q b d de =>
        parsed_or "use-manifest-version" (parse_unsigned (2 ^ 32)) 1 v /\ (v = 1 \/ v = 2)
        /\ parsed "nonce" (parse_unsigned (2 ^ 32)) no /\ one "namespace" ns /\ parsed "restart-policy" restart_from rp /\ one "pivot-hash-path" ph
        /\ one "qos-release-dir" r /\ one "pcr3-preimage-path" p /\ one "manifest-path" m /\ parsed_or "pivot-args" pivot_args_from [] ar
        /\ one "share-set-dir" ss /\ one "manifest-set-dir" ms /\ opt "patch-set-dir" ps /\ one "quorum-key-path" q
        /\ parsed_or "bridge-config" bridge_config_from [] b /\ parsed_opt "dns-resolvers" dns_from d /\ parsed_or "debug-mode" bool_from false de
    | DoApprove k m ad r p ph q ms ss ps a auto => opens k false /\ one "manifest-path" m /\ one "manifest-approvals-dir" ad /\ one "qos-release-dir" r
        /\ one "pcr3-preimage-path" p /\ one "pivot-hash-path" ph /\ one "quorum-key-path" q /\ one "manifest-set-dir" ms /\ one "share-set-dir" ss
        /\ opt "patch-set-dir" ps /\ one "alias" a /\ flagged "unsafe-auto-confirm" auto
    | DoBootStandard u pv e p skip => reaches u "message" /\ one "pivot-path" pv /\ one "manifest-envelope-path" e /\ one "pcr3-preimage-path" p
        /\ flagged "unsafe-skip-attestation" skip
    | DoGetAttestationDoc u d e => reaches u "message" /\ one "attestation-doc-path" d /\ one "manifest-envelope-path" e
    | DoGetEphemeralKeyHex d e => one "attestation-doc-path" d /\ one "ephemeral-key-path" e
    | DoProxyReEncrypt k sh e ap es d p a ms skip eph auto => opens k false /\ one "share-path" sh /\ one "manifest-envelope-path" e /\ one "approval-path" ap
        /\ one "eph-wrapped-share-path" es /\ one "attestation-doc-path" d /\ one "pcr3-preimage-path" p /\ one "alias" a /\ one "manifest-set-dir" ms
        /\ flagged "unsafe-skip-attestation" skip /\ opt "unsafe-eph-path-override" eph /\ flagged "unsafe-auto-confirm" auto
    | DoPostShare u es ap => reaches u "message" /\ one "eph-wrapped-share-path" es /\ one "approval-path" ap
    | DoDisplay t p js => parsed "display-type" display_from t /\ one "file-path" p /\ flagged "json" js
    | DoJsonToBorsh t p o => parsed "display-type" display_from t /\ one "file-path" p /\ one "output-path" o
    | DoDangerousDevBoot u pv rp ar b eph => reaches u "message" /\ one "pivot-path" pv /\ parsed "restart-policy" restart_from rp
        /\ parsed_or "pivot-args" pivot_args_from [] ar /\ b = [] /\ opt "unsafe-eph-path-override" eph
    | DoGenerateEnvelope ad m e => one "manifest-approvals-dir" ad /\ one "manifest-path" m /\ opt "manifest-envelope-path" e
    | DoPivotHash pv o => one "pivot-path" pv /\ one "output-path" o
    | DoShamirSplit sp n k d => one "secret-path" sp /\ parsed "total-shares" (parse_unsigned (2 ^ 64)) n /\ parsed "threshold" (parse_unsigned (2 ^ 64)) k /\ one "output-dir" d
    | DoShamirReconstruct l o => typed (bs "share") args = l /\ l <> [] /\ one "output-path" o
    | DoBootKeyFwd u e pv d => reaches u "message" /\ one "manifest-envelope-path" e /\ one "pivot-path" pv /\ one "attestation-doc-path" d
    | DoExportKey u e d q => reaches u "message" /\ one "manifest-envelope-path" e /\ one "attestation-doc-path" d /\ one "encrypted-quorum-key-path" q
    | DoInjectKey u q => reaches u "message" /\ one "encrypted-quorum-key-path" q
    | DoVerify p g k => one "payload-path" p /\ one "signature-path" g /\ one "pub-path" k
    | DoSign p g k => one "payload-path" p /\ one "signature-path" g /\ one "master-seed-path" k
    | DoEncrypt p c k => one "plaintext-path" p /\ one "ciphertext-path" c /\ one "pub-path" k
    | DoDecrypt p c k hex => one "plaintext-path" p /\ one "ciphertext-path" c /\ one "master-seed-path" k /\ flagged "output-hex" hex
    | DoProvisionYubiKey p => one "pub-path" p
    | DoAdvancedProvision m pin => one "master-seed-path" m /\ opt "current-pin-path" pin
    | DoYubiSign p => one "payload" p
    | DoYubiPublic | DoPivReset => True
    | DoChangePin c n => one "current-pin-path" c /\ one "new-pin-path" n
    end.
End Told.
(** The command, its name, and the options it understands. *)
Definition command_of (a : action) : command :=
  match a with
  | DoHealth _ => HostHealth | DoStatus _ => EnclaveStatus | DoVersion _ => EnclaveVersion | DoGenerateFileKey _ _ => GenerateFileKey
  | DoBootGenesis _ _ _ _ _ _ _ => BootGenesis | DoAfterGenesis _ _ _ _ _ _ _ _ => AfterGenesis | DoVerifyGenesis _ _ => VerifyGenesis
  | DoGenerateManifest _ _ _ _ _ _ _ _ _ _ _ _ _ _ _ _ => GenerateManifest | DoApprove _ _ _ _ _ _ _ _ _ _ _ _ => ApproveManifest
  | DoBootStandard _ _ _ _ _ => BootStandard | DoGetAttestationDoc _ _ _ => GetAttestationDoc | DoGetEphemeralKeyHex _ _ => GetEphemeralKeyHex
  | DoProxyReEncrypt _ _ _ _ _ _ _ _ _ _ _ _ => ProxyReEncryptShare | DoPostShare _ _ _ => PostShare | DoDisplay _ _ _ => Display
  | DoJsonToBorsh _ _ _ => JsonToBorsh | DoDangerousDevBoot _ _ _ _ _ _ => DangerousDevBoot | DoGenerateEnvelope _ _ _ => GenerateManifestEnvelope
  | DoPivotHash _ _ => PivotHash | DoShamirSplit _ _ _ _ => ShamirSplit | DoShamirReconstruct _ _ => ShamirReconstruct
  | DoBootKeyFwd _ _ _ _ => BootKeyFwd | DoExportKey _ _ _ _ => ExportKey | DoInjectKey _ _ => InjectKey | DoVerify _ _ _ => P256Verify
  | DoSign _ _ _ => P256Sign | DoEncrypt _ _ _ => P256AsymmetricEncrypt | DoDecrypt _ _ _ _ => P256AsymmetricDecrypt
  | DoProvisionYubiKey _ => ProvisionYubiKey | DoAdvancedProvision _ _ => AdvancedProvisionYubiKey | DoYubiSign _ => YubiKeySign
  | DoYubiPublic => YubiKeyPublic | DoPivReset => YubiKeyPivReset | DoChangePin _ _ => YubiKeyChangePin
  end.
Definition word_of (a : action) : bytes :=
  match a with
  | DoHealth _ => bs "host-health" | DoStatus _ => bs "enclave-status" | DoVersion _ => bs "enclave-version" | DoGenerateFileKey _ _ => bs "generate-file-key"
  | DoBootGenesis _ _ _ _ _ _ _ => bs "boot-genesis" | DoAfterGenesis _ _ _ _ _ _ _ _ => bs "after-genesis" | DoVerifyGenesis _ _ => bs "verify-genesis"
  | DoGenerateManifest _ _ _ _ _ _ _ _ _ _ _ _ _ _ _ _ => bs "generate-manifest" | DoApprove _ _ _ _ _ _ _ _ _ _ _ _ => bs "approve-manifest"
  | DoBootStandard _ _ _ _ _ => bs "boot-standard" | DoGetAttestationDoc _ _ _ => bs "get-attestation-doc" | DoGetEphemeralKeyHex _ _ => bs "get-ephemeral-key-hex"
  | DoProxyReEncrypt _ _ _ _ _ _ _ _ _ _ _ _ => bs "proxy-re-encrypt-share" | DoPostShare _ _ _ => bs "post-share" | DoDisplay _ _ _ => bs "display"
  | DoJsonToBorsh _ _ _ => bs "json-to-borsh" | DoDangerousDevBoot _ _ _ _ _ _ => bs "dangerous-dev-boot" | DoGenerateEnvelope _ _ _ => bs "generate-manifest-envelope"
  | DoPivotHash _ _ => bs "pivot-hash" | DoShamirSplit _ _ _ _ => bs "shamir-split" | DoShamirReconstruct _ _ => bs "shamir-reconstruct"
  | DoBootKeyFwd _ _ _ _ => bs "boot-key-fwd" | DoExportKey _ _ _ _ => bs "export-key" | DoInjectKey _ _ => bs "inject-key" | DoVerify _ _ _ => bs "p256-verify"
  | DoSign _ _ _ => bs "p256-sign" | DoEncrypt _ _ _ => bs "p256-asymmetric-encrypt" | DoDecrypt _ _ _ _ => bs "p256-asymmetric-decrypt"
  | DoProvisionYubiKey _ => bs "provision-yubikey" | DoAdvancedProvision _ _ => bs "advanced-provision-yubikey" | DoYubiSign _ => bs "yubikey-sign"
  | DoYubiPublic => bs "yubikey-public" | DoPivReset => bs "yubikey-piv-reset" | DoChangePin _ _ => bs "yubikey-change-pin"
  end.

(** *** What the parser's tables say, in terms of the typed values *)
Lemma tokens_unset c : Forall unset (tokens c).
Proof. destruct c; cbn [tokens base app]; repeat constructor. Qed.
Lemma dash_inj a b : dash a = dash b -> a = b.
Proof. apply app_inv_head. Qed.
Lemma starts_dash n : starts_with (bs "--") (dash n) = true.
Proof. apply starts_iff. now exists n. Qed.
Lemma typed_skip n v rest : starts_with (bs "--") v = false -> typed n (v :: rest) = typed n rest.
Proof.
  intros V. destruct rest as [|w rest]; [reflexivity|]. cbn [typed]. destruct (bytes_eqb v (dash n)) eqn:E; [|reflexivity].
  apply bytes_eqb_eq in E. rewrite E, starts_dash in V. discriminate.
Qed.
Lemma typed_option n k rest : (rest = [] \/ exists i r, rest = i :: r /\ is_option i) -> typed n (dash k :: rest) = typed n rest.
Proof.
  intros [->|(i & r & -> & O)]; [reflexivity|]. apply starts_iff in O. cbn [typed]. change INPUT_PREFIX with (bs "--") in O. rewrite O. cbn [negb]. now rewrite andb_false_r.
Qed.
Lemma typed_value n k v rest : starts_with (bs "--") v = false -> typed n (dash k :: v :: rest) = (if bytes_eqb k n then [v] else []) ++ typed n rest.
Proof.
  intros V. change (typed n (dash k :: v :: rest)) with (if bytes_eqb (dash k) (dash n) && negb (starts_with (bs "--") v) then v :: typed n (v :: rest) else typed n (v :: rest)).
  rewrite V, (typed_skip n v rest V). destruct (bytes_eqb k n) eqn:E.
  - apply bytes_eqb_eq in E as ->. rewrite (proj2 (bytes_eqb_eq _ _) eq_refl). reflexivity.
  - destruct (bytes_eqb (dash k) (dash n)) eqn:D; [|reflexivity]. apply bytes_eqb_eq, dash_inj in D. subst. rewrite (proj2 (bytes_eqb_eq _ _) eq_refl) in E. discriminate.
Qed.
Lemma reads_head ts args occ : reads ts args occ -> args = [] \/ exists i r, args = i :: r /\ is_option i.
Proof. intros R. inversion R; subst; [now left|right; eexists; eexists; split; [reflexivity|eexists; reflexivity]..]. Qed.
Lemma values_cons n k o occ : values n ((k, o) :: occ) = (if bytes_eqb k n then olist o else []) ++ values n occ.
Proof. unfold values. cbn [flat_map fst snd]. destruct o; reflexivity. Qed.
(** Without a default, exactly the typed values are read. *)
Lemma values_typed ts args occ n : reads ts args occ -> (forall t, registered ts n = Some t -> t_takes_value t = true /\ t_default t = None) -> values n occ = typed n args.
Proof.
  intros R D. induction R as [|k t rest occ RG TV R IH|k t v rest occ RG TV NO R IH|k t d rest occ RG TV TD HD R IH]; [reflexivity|..]; rewrite values_cons; fold (dash k).
  - rewrite typed_option by exact (reads_head _ _ _ R). rewrite IH. destruct (bytes_eqb k n); reflexivity.
  - rewrite typed_value by (apply starts_false in NO; exact NO). now rewrite IH.
  - rewrite typed_option by exact HD. rewrite IH. destruct (bytes_eqb k n) eqn:E; [|reflexivity]. apply bytes_eqb_eq in E as ->.
    destruct (D t RG) as [_ X]. congruence.
Qed.
(** With a default, the typed value or the default. *)
Lemma values_default ts args occ n t d : reads ts args occ -> registered ts n = Some t -> t_takes_value t = true -> t_default t = Some d ->
  (length (values n occ) <= 1)%nat -> typed n args = values n occ \/ (typed n args = [] /\ values n occ = [d]).
Proof.
  intros R RN TVN TDN. induction R as [|k t' rest occ RG TV R IH|k t' v rest occ RG TV NO R IH|k t' d' rest occ RG TV TD HD R IH]; [now left|..]; rewrite values_cons; fold (dash k); intros L; rewrite app_length in L.
  - rewrite typed_option by exact (reads_head _ _ _ R). destruct (IH ltac:(lia)) as [->|[-> E]]; [left|right; rewrite E]; destruct (bytes_eqb k n); auto.
  - rewrite typed_value by (apply starts_false in NO; exact NO). destruct (bytes_eqb k n) eqn:E; cbn [olist app length] in *; [|exact (IH ltac:(lia))].
    destruct (IH ltac:(lia)) as [->|[-> X]]; [now left|]. rewrite X in L. cbn in L. lia.
  - rewrite typed_option by exact HD. destruct (bytes_eqb k n) eqn:E; cbn [olist app length] in *; [|exact (IH ltac:(lia))].
    apply bytes_eqb_eq in E as ->. assert (d' = d) as -> by congruence. right.
    destruct (IH ltac:(lia)) as [X|[X Y]].
    + rewrite X. destruct (values n occ); [auto|cbn [length] in L; lia].
    + rewrite Y in L. cbn in L. lia.
Qed.
Definition default_of (ts : list token) (n : bytes) : option bytes := match registered ts n with Some t => t_default t | None => None end.
Definition single_ok (ts : list token) (n : bytes) : bool := match registered ts n with Some t => t_takes_value t && negb (t_multiple t) | None => true end.
Definition flag_ok (ts : list token) (n : bytes) : bool := match registered ts n with Some t => negb (t_takes_value t) && negb (is_some (t_default t)) | None => true end.
Definition multi_ok (ts : list token) (n : bytes) : bool :=
  match registered ts n with Some t => t_takes_value t && t_multiple t && t_required t && negb (is_some (t_default t)) | None => false end.

Lemma values_given ts args occ n t : reads ts args occ -> registered ts n = Some t -> t_takes_value t = true -> given n occ -> values n occ <> [].
Proof.
  intros R RG TV. unfold given. induction R as [|k t' rest occ RG' TV' R IH|k t' v rest occ RG' TV' NO R IH|k t' d' rest occ RG' TV' TD' HD R IH]; cbn [map fst]; rewrite ?values_cons; [intros []|..]; intros [E|I];
    try (apply IH in I; destruct (values n occ); [contradiction|destruct (bytes_eqb k n); cbn [olist app]; discriminate]); subst k.
  - congruence.
  - rewrite (proj2 (bytes_eqb_eq n n) eq_refl). discriminate.
  - rewrite (proj2 (bytes_eqb_eq n n) eq_refl). discriminate.
Qed.
Lemma typed_given ts args occ n t : reads ts args occ -> registered ts n = Some t -> t_takes_value t = true -> t_default t = None -> given n occ -> typed n args <> [].
Proof.
  intros R RG TV TD G. rewrite <- (values_typed ts args occ n R) by (intros t' E'; rewrite RG in E'; injection E' as <-; auto). exact (values_given ts args occ n t R RG TV G).
Qed.

Section Reading.
  Context (ts : list token) (args : list bytes) (m : token_map).
  Context (U : Forall unset ts) (NH : ~ In (bs "--help") args) (NV : ~ In (bs "--version") args) (P : tm_parse (parser_of ts) args = Done (Ok m)).
  Lemma single_is n : single_ok ts n = true -> (length (typed n args) <= 1)%nat /\ get_single m n = match typed n args with v :: _ => Some v | [] => default_of ts n end.
  Proof.
    intros K. destruct (c44_values_read_back ts args m U NH NV P) as (occ & R & A & N0 & _ & N2 & _ & N4). unfold single_ok, default_of in *.
    destruct (registered ts n) as [t|] eqn:RG.
    - apply andb_true_iff in K as [TV MU]. apply negb_true_iff in MU. destruct (in_dec bytes_dec n (map fst occ)) as [G|G].
      + destruct (N2 n t RG G TV MU) as (v & V & S1 & _). rewrite S1. destruct (t_default t) as [d|] eqn:TD.
        * destruct (values_default ts args occ n t d R RG TV TD ltac:(rewrite V; cbn; lia)) as [->|[-> E]]; [rewrite V; cbn; auto|].
          rewrite V in E. injection E as ->. cbn. auto.
        * rewrite <- (values_typed ts args occ n R) by (intros t' E'; rewrite RG in E'; injection E' as <-; auto). rewrite V. cbn. auto.
      + assert (V0 : values n occ = []) by (apply values_absent; exact G). destruct (N4 n t RG G) as (S1 & _). rewrite S1. destruct (t_default t) as [d|] eqn:TD.
        * destruct (values_default ts args occ n t d R RG TV TD ltac:(rewrite V0; cbn; lia)) as [->|[-> E]]; [rewrite V0; cbn; auto|cbn; auto].
        * rewrite <- (values_typed ts args occ n R) by (intros t' E'; rewrite RG in E'; injection E' as <-; auto). rewrite V0. cbn. auto.
    - rewrite <- (values_typed ts args occ n R) by (intros t' E'; congruence). destruct (N0 n RG) as (S1 & _). rewrite S1.
      assert (V0 : values n occ = []).
      { apply values_absent. intros I. clear - R RG I. induction R; cbn [map fst] in I; [destruct I|..]; destruct I as [<-|I]; auto; congruence. }
      rewrite V0. cbn. auto.
  Qed.
  Lemma one_iff n v : single_ok ts n = true -> default_of ts n = None -> typed n args = [v] <-> get_single m n = Some v.
  Proof.
    intros K D. destruct (single_is n K) as [L E]. rewrite E, D. destruct (typed n args) as [|w [|? ?]]; cbn [length] in L; [split; discriminate|split; congruence|lia].
  Qed.
  Lemma opt_iff n o : single_ok ts n = true -> default_of ts n = None -> typed n args = olist o <-> get_single m n = o.
  Proof.
    intros K D. destruct (single_is n K) as [L E]. rewrite E, D. destruct (typed n args) as [|w [|? ?]]; cbn [length] in L; [| |lia]; destruct o; cbn; split; congruence.
  Qed.
  Lemma none_iff n : single_ok ts n = true -> default_of ts n = None -> typed n args = [] <-> get_single m n = None.
  Proof. intros K D. exact (opt_iff n None K D). Qed.
  Lemma default_iff {A} n (f : bytes -> option A) d0 d x : single_ok ts n = true -> default_of ts n = Some d0 -> f d0 = Some d ->
    ((typed n args = [] /\ x = d) \/ exists v, typed n args = [v] /\ f v = Some x) <-> exists v, get_single m n = Some v /\ f v = Some x.
  Proof.
    intros K D F. destruct (single_is n K) as [L E]. rewrite E, D. destruct (typed n args) as [|w [|? ?]]; cbn [length] in L; [| |lia]; split.
    - intros [[_ ->]|(v & ? & _)]; [eauto|discriminate].
    - intros (v & V & X). injection V as <-. left. split; [reflexivity|congruence].
    - intros [[? _]|(v & V & X)]; [discriminate|]. injection V as <-. eauto.
    - intros (v & V & X). injection V as <-. right. eauto.
  Qed.
  Lemma flag_iff n : flag_ok ts n = true -> (match get_flag m n with Some b => b | None => false end) = true <-> In (dash n) args.
  Proof.
    intros K. destruct (c44_values_read_back ts args m U NH NV P) as (occ & R & A & N0 & N1 & _ & _ & N4). unfold flag_ok in K.
    pose proof (reads_given ts args occ R n) as G. fold (dash n) in G. rewrite G. destruct (registered ts n) as [t|] eqn:RG.
    - apply andb_true_iff in K as [TV TD]. apply negb_true_iff in TV. destruct (in_dec bytes_dec n (map fst occ)) as [I|I].
      + destruct (N1 n t RG I TV) as (-> & _). tauto.
      + destruct (N4 n t RG I) as (_ & _ & ->). destruct (t_default t); [discriminate|]. split; [discriminate|contradiction].
    - destruct (N0 n RG) as (_ & _ & ->). split; [discriminate|]. intros I. exfalso. clear - R RG I. unfold given in I.
      induction R; cbn [map fst] in I; [destruct I|..]; destruct I as [<-|I]; auto; congruence.
  Qed.
  Lemma multi_iff n l : multi_ok ts n = true -> typed n args = l <-> get_multiple m n = Some l.
  Proof.
    intros K. destruct (c44_values_read_back ts args m U NH NV P) as (occ & R & A & N0 & _ & _ & N3 & _). unfold multi_ok in K.
    destruct (registered ts n) as [t|] eqn:RG; [|discriminate]. destruct (t_default t) eqn:TD; [now rewrite !andb_false_r in K|].
    apply andb_true_iff in K as [K _]. apply andb_true_iff in K as [K RQ]. apply andb_true_iff in K as [TV MU].
    destruct (N3 n t RG (acc_required ts occ A n t RG RQ) TV MU) as [-> _]. rewrite (values_typed ts args occ n R) by (intros t' E'; rewrite RG in E'; injection E' as <-; auto).
    split; congruence.
  Qed.
End Reading.

(** *** One handler at a time *)
Ltac names := cbv beta iota delta [HOST_IP HOST_PORT ALIAS NAMESPACE NONCE RESTART_POLICY PIVOT_PATH PIVOT_ARGS UNSAFE_SKIP_ATTESTATION UNSAFE_EPH_PATH_OVERRIDE
  ENDPOINT_BASE_PATH QOS_RELEASE_DIR PCR3_PREIMAGE_PATH PIVOT_HASH_PATH SHARE_SET_DIR MANIFEST_SET_DIR PATCH_SET_DIR NAMESPACE_DIR UNSAFE_AUTO_CONFIRM PUB_PATH
  DEBUG_MODE BRIDGE_CONFIG DNS_RESOLVERS YUBIKEY SECRET_PATH SHARE_PATH OUTPUT_PATH QUORUM_KEY_PATH MANIFEST_APPROVALS_DIR MANIFEST_PATH MANIFEST_ENVELOPE_PATH
  APPROVAL_PATH EPH_WRAPPED_SHARE_PATH ATTESTATION_DOC_PATH MASTER_SEED_PATH SHARE OUTPUT_DIR THRESHOLD TOTAL_SHARES FILE_PATH DISPLAY_TYPE CURRENT_PIN_PATH DR_KEY_PATH
  NEW_PIN_PATH ENCRYPTED_QUORUM_KEY_PATH PAYLOAD PAYLOAD_PATH SIGNATURE_PATH EPHEMERAL_KEY_PATH CIPHERTEXT_PATH PLAINTEXT_PATH OUTPUT_HEX VALIDATION_TIME_OVERRIDE JSON
  USE_MANIFEST_VERSION U32_MAX1 U64_MAX1] in *.
Section Handler.
  Context (c : command) (args : list bytes) (m : token_map).
  Context (NH : ~ In (bs "--help") args) (NV : ~ In (bs "--version") args) (P : tm_parse (parser_of (tokens c)) args = Done (Ok m)).
  Let s := get_single m.
  Let f n := match get_flag m n with Some b => b | None => false end.
  Let U := tokens_unset c.
  Lemma one_s n v : single_ok (tokens c) (bs n) = true -> default_of (tokens c) (bs n) = None -> one args n v <-> s (bs n) = Some v.
  Proof. exact (one_iff (tokens c) args m U NH NV P (bs n) v). Qed.
  Lemma opt_s n o : single_ok (tokens c) (bs n) = true -> default_of (tokens c) (bs n) = None -> opt args n o <-> s (bs n) = o.
  Proof. exact (opt_iff (tokens c) args m U NH NV P (bs n) o). Qed.
  Lemma flagged_f n b : flag_ok (tokens c) (bs n) = true -> flagged args n b <-> f (bs n) = b.
  Proof.
    intros K. pose proof (flag_iff (tokens c) args m U NH NV P (bs n) K) as E. fold (f (bs n)) in E. unfold flagged. rewrite <- E. destruct (f (bs n)), b; intuition congruence.
  Qed.
  Lemma parsed_s {A} n (g : bytes -> option A) x : single_ok (tokens c) (bs n) = true -> default_of (tokens c) (bs n) = None -> parsed args n g x <-> exists v, s (bs n) = Some v /\ g v = Some x.
  Proof. intros K D. unfold parsed. split; intros (v & V & G); exists v; (split; [apply (one_s n v K D), V|exact G]). Qed.
  Lemma parsed_opt_s {A} n (g : bytes -> option A) o : single_ok (tokens c) (bs n) = true -> default_of (tokens c) (bs n) = None -> parsed_opt args n g o <-> maybe g (s (bs n)) = Some o.
  Proof.
    intros K D. unfold parsed_opt. destruct o as [x|].
    - rewrite (parsed_s n g x K D). unfold maybe. destruct (s (bs n)) as [v|]; [|split; [intros (v & E & _)|]; discriminate]. unfold obind. split.
      + intros (v' & E & G). injection E as <-. now rewrite G.
      + destruct (g v) eqn:G; [|discriminate]. intros E. injection E as ->. eauto.
    - change (typed (bs n) args = []) with (opt args n None). rewrite (opt_s n None K D). unfold maybe. destruct (s (bs n)) as [v|]; [|tauto]. unfold obind. destruct (g v); split; discriminate.
  Qed.
  Lemma parsed_or_default {A} n (g : bytes -> option A) d0 d x : single_ok (tokens c) (bs n) = true -> default_of (tokens c) (bs n) = Some d0 -> g d0 = Some d ->
    parsed_or args n g d x <-> exists v, s (bs n) = Some v /\ g v = Some x.
  Proof. exact (default_iff (tokens c) args m U NH NV P (bs n) g d0 d x). Qed.
  Lemma parsed_or_s {A} n (g : bytes -> option A) d x : single_ok (tokens c) (bs n) = true -> default_of (tokens c) (bs n) = None ->
    parsed_or args n g d x <-> match s (bs n) with Some v => g v | None => Some d end = Some x.
  Proof.
    intros K D. unfold parsed_or. rewrite (parsed_s n g x K D). change (typed (bs n) args = []) with (opt args n None). rewrite (opt_s n None K D).
    destruct (s (bs n)) as [v|]; split.
    - intros [[? _]|(v' & E & G)]; [discriminate|]. congruence.
    - intros G. right. eauto.
    - intros [[_ ->]|(v' & E & _)]; [reflexivity|discriminate].
    - intros E. left. split; [reflexivity|congruence].
  Qed.
  Lemma reaches_s u route : single_ok (tokens c) (bs "host-ip") = true -> default_of (tokens c) (bs "host-ip") = None -> single_ok (tokens c) (bs "host-port") = true -> default_of (tokens c) (bs "host-port") = None ->
    single_ok (tokens c) (bs "endpoint-base-path") = true -> default_of (tokens c) (bs "endpoint-base-path") = None -> reaches args u route <-> url s (bs route) = Some u.
  Proof.
    intros K1 D1 K2 D2 K3 D3. unfold reaches, url. split.
    - intros (ip & port & base & I & Q & B & ->). apply one_s in I; [|assumption..]. apply one_s in Q; [|assumption..]. apply opt_s in B; [|assumption..]. names. rewrite I. cbn [obind]. rewrite Q. cbn [obind]. now rewrite B.
    - intros E. apply obind_some in E as (ip & I & E). apply obind_some in E as (port & Q & E). exists ip, port, (s (bs "endpoint-base-path")).
      split; [apply one_s; assumption|]. split; [apply one_s; assumption|]. split; [apply opt_s; auto|]. injection E as <-. reflexivity.
  Qed.
  Lemma opens_s k (pins : bool) : single_ok (tokens c) (bs "secret-path") = true -> default_of (tokens c) (bs "secret-path") = None ->
    flag_ok (tokens c) (bs "yubikey") = true -> single_ok (tokens c) (bs "current-pin-path") = true -> default_of (tokens c) (bs "current-pin-path") = None ->
    (pins = false -> registered (tokens c) (bs "current-pin-path") = None) ->
    opens args k pins <-> key s f = Some k.
  Proof.
    intros K1 D1 F K2 D2 PN. unfold opens, key, from_inputs. pose proof (flagged_f "yubikey" true F) as FT. pose proof (flagged_f "yubikey" false F) as FF. unfold flagged in FT, FF. names.
    destruct k as [pin|p].
    - change (typed (bs "secret-path") args = []) with (opt args "secret-path" None). rewrite (opt_s "secret-path" None K1 D1), (opt_s "current-pin-path" pin K2 D2).
      assert (PN2 : pins = false -> s (bs "current-pin-path") = None).
      { intros E. destruct (c44_values_read_back (tokens c) args m U NH NV P) as (occ & _ & _ & N0 & _). apply (N0 _ (PN E)). }
      split.
      + intros (Y & S0 & C & _). replace (f (bs "yubikey")) with true by (symmetry; apply FT; tauto). rewrite S0, C. reflexivity.
      + destruct (f (bs "yubikey")); [|destruct (s (bs "secret-path")); discriminate]. destruct (s (bs "secret-path")); [discriminate|]. intros E. injection E as <-.
        split; [apply FT; reflexivity|]. auto.
    - rewrite (one_s "secret-path" p K1 D1). split.
      + intros (S0 & NY). replace (f (bs "yubikey")) with false by (symmetry; apply FF; split; [discriminate|contradiction]). now rewrite S0.
      + destruct (f (bs "yubikey")); [destruct (s (bs "secret-path")); discriminate|]. destruct (s (bs "secret-path")); [|discriminate]. intros E. injection E as ->.
        split; [reflexivity|]. intros I. apply FF in I; [discriminate|reflexivity].
  Qed.
  Lemma multi_s n l : multi_ok (tokens c) (bs n) = true -> typed (bs n) args = l <-> get_multiple m (bs n) = Some l.
  Proof. exact (multi_iff (tokens c) args m U NH NV P (bs n) l). Qed.
End Handler.

(** read one clause of [told] off the table, in either direction *)
Ltac side := first [assumption | reflexivity | vm_compute; reflexivity | intros; vm_compute; reflexivity | (let E := fresh in intros E; discriminate E)].
Ltac clause c args m NH NV P :=
  first [ eapply (one_s c args m NH NV P); [side|side|assumption]
        | eapply (opt_s c args m NH NV P); [side|side|reflexivity]
        | eapply (flagged_f c args m NH NV P); [side|reflexivity]
        | eapply (reaches_s c args m NH NV P); [side|side|side|side|side|side|assumption]
        | eapply (opens_s c args m NH NV P); [side|side|side|side|side|side|assumption]
        | eapply (parsed_opt_s c args m NH NV P); [side|side|assumption]
        | eapply (parsed_or_s c args m NH NV P); [side|side|assumption]
        | eapply (parsed_or_default c args m NH NV P); [side|side|side|eexists; split; [eassumption|assumption]]
        | eapply (parsed_s c args m NH NV P); [side|side|eexists; split; [eassumption|assumption]]
        | eapply (multi_s c args m NH NV P); [side|assumption] ].
Ltac binds E := repeat (let v := fresh "v" in let H := fresh "H" in apply obind_some in E as (v & H & E)).

Lemma default_present c args m n d0 : ~ In (bs "--help") args -> ~ In (bs "--version") args -> tm_parse (parser_of (tokens c)) args = Done (Ok m) ->
  single_ok (tokens c) n = true -> default_of (tokens c) n = Some d0 -> get_single m n <> None.
Proof. intros NH NV P K D. destruct (single_is (tokens c) args m (tokens_unset c) NH NV P n K) as [_ ->]. rewrite D. destruct (typed n args); discriminate. Qed.
Lemma unregistered c args m n : ~ In (bs "--help") args -> ~ In (bs "--version") args -> tm_parse (parser_of (tokens c)) args = Done (Ok m) ->
  registered (tokens c) n = None -> get_single m n = None.
Proof. intros NH NV P E. destruct (c44_values_read_back (tokens c) args m (tokens_unset c) NH NV P) as (occ & _ & _ & N0 & _). apply (N0 _ E). Qed.
Lemma required_typed c args m n t : ~ In (bs "--help") args -> ~ In (bs "--version") args -> tm_parse (parser_of (tokens c)) args = Done (Ok m) ->
  registered (tokens c) n = Some t -> t_required t = true -> t_takes_value t = true -> t_default t = None -> typed n args <> [].
Proof.
  intros NH NV P R Q TV TD. destruct (c44_values_read_back (tokens c) args m (tokens_unset c) NH NV P) as (occ & RD & A & _). exact (typed_given _ _ _ _ _ RD R TV TD (acc_required _ _ A _ _ R Q)).
Qed.
Lemma act_told c args m a : ~ In (bs "--help") args -> ~ In (bs "--version") args -> tm_parse (parser_of (tokens c)) args = Done (Ok m) ->
  act (get_single m) (fun n => match get_flag m n with Some b => b | None => false end) (get_multiple m) c = Some a -> command_of a = c /\ told args a.
Proof.
  intros NH NV P E. destruct c; cbn [act] in E; unfold path_message in E; binds E; 
  try (injection E as <-; split; [reflexivity|]; cbn [told]; repeat (apply conj); match goal with P : tm_parse (parser_of (tokens ?c)) _ = _ |- _ => clause c args m NH NV P end).
  - destruct ((v16 =? 1) || (v16 =? 2)) eqn:V; [|discriminate E]. injection E as <-. split; [reflexivity|]. cbn [told]. unfold bridge_config_opt in H13.
    assert (D : exists v, get_single m DEBUG_MODE = Some v /\ bool_from v = Some v15).
    { pose proof (default_present GenerateManifest args m DEBUG_MODE (bs "false") NH NV P eq_refl eq_refl) as X. destruct (get_single m DEBUG_MODE) as [x|]; [eauto|contradiction]. }
    destruct D as (dv & D1 & D2). clear H15.
    repeat (apply conj).
    2: lia.
    all: clause GenerateManifest args m NH NV P.
  - injection E as <-. split; [reflexivity|]. cbn [told]. unfold bridge_config_opt in H5. rewrite (unregistered DangerousDevBoot args m BRIDGE_CONFIG NH NV P eq_refl) in H5. injection H5 as <-.
    repeat (apply conj).
    5: reflexivity.
    all: clause DangerousDevBoot args m NH NV P.
  - injection E as <-. split; [reflexivity|]. cbn [told]. repeat (apply conj).
    2: { pose proof (required_typed ShamirReconstruct args m (bs "share") share_token NH NV P eq_refl eq_refl eq_refl eq_refl) as T.
         rewrite <- (proj2 (multi_s ShamirReconstruct args m NH NV P "share" v eq_refl) H). exact T. }
    all: clause ShamirReconstruct args m NH NV P.
  - injection E as <-. split; [reflexivity|exact I].
  - injection E as <-. split; [reflexivity|exact I].
Qed.
Ltac unclause c args m NH NV P H :=
  first [ eapply (one_s c args m NH NV P) in H; [|side..]
        | eapply (opt_s c args m NH NV P) in H; [|side..]
        | eapply (flagged_f c args m NH NV P) in H; [|side..]
        | eapply (reaches_s c args m NH NV P) in H; [|side..]
        | eapply (opens_s c args m NH NV P) in H; [|side..]
        | eapply (parsed_opt_s c args m NH NV P) in H; [|side..]
        | eapply (parsed_or_s c args m NH NV P) in H; [|side..]
        | (eapply (parsed_or_default c args m NH NV P) in H; [|side..]; let v := fresh "w" in let A := fresh "A" in let B := fresh "B" in destruct H as (v & A & B))
        | (eapply (parsed_s c args m NH NV P) in H; [|side..]; let v := fresh "w" in let A := fresh "A" in let B := fresh "B" in destruct H as (v & A & B))
        | eapply (multi_s c args m NH NV P) in H; [|side..] ].
Lemma obind_ok {A B} (o : option A) (k : A -> option B) x b : o = Some x -> k x = Some b -> obind o k = Some b.
Proof. intros -> E. exact E. Qed.
Ltac put := repeat (eapply obind_ok; [eassumption|cbv beta]).
Lemma told_act args m a : ~ In (bs "--help") args -> ~ In (bs "--version") args -> tm_parse (parser_of (tokens (command_of a))) args = Done (Ok m) ->
  told args a -> act (get_single m) (fun n => match get_flag m n with Some b => b | None => false end) (get_multiple m) (command_of a) = Some a.
Proof.
  intros NH NV P T. destruct a; cbn [told] in T; cbn [command_of] in P |- *; cbn [act]; unfold path_message;
  repeat match goal with T : _ /\ _ |- _ => destruct T end;
  repeat match goal with
  | P : tm_parse (parser_of (tokens ?c)) _ = _, H : one _ _ _ |- _ => unclause c args m NH NV P H
  | P : tm_parse (parser_of (tokens ?c)) _ = _, H : opt _ _ _ |- _ => unclause c args m NH NV P H
  | P : tm_parse (parser_of (tokens ?c)) _ = _, H : flagged _ _ _ |- _ => unclause c args m NH NV P H
  | P : tm_parse (parser_of (tokens ?c)) _ = _, H : reaches _ _ _ |- _ => unclause c args m NH NV P H
  | P : tm_parse (parser_of (tokens ?c)) _ = _, H : opens _ _ _ |- _ => unclause c args m NH NV P H
  | P : tm_parse (parser_of (tokens ?c)) _ = _, H : parsed_opt _ _ _ _ |- _ => unclause c args m NH NV P H
  | P : tm_parse (parser_of (tokens ?c)) _ = _, H : parsed_or _ _ _ _ _ |- _ => unclause c args m NH NV P H
  | P : tm_parse (parser_of (tokens ?c)) _ = _, H : parsed _ _ _ _ |- _ => unclause c args m NH NV P H
  | P : tm_parse (parser_of (tokens ?c)) _ = _, H : typed _ _ = _ |- _ => unclause c args m NH NV P H
  end.
  all: names.
  all: try (put; repeat match goal with H : _ = ?x |- _ => progress rewrite H end; reflexivity).
  all: try reflexivity.
  - put. eapply obind_ok; [rewrite A; exact B|cbv beta]. put. rewrite H11. destruct H0 as [-> | ->]; reflexivity.
  - put. eapply obind_ok; [unfold bridge_config_opt; rewrite (unregistered DangerousDevBoot args m BRIDGE_CONFIG NH NV P eq_refl); reflexivity|cbv beta].
    repeat match goal with H : _ = ?x |- _ => progress rewrite H end. reflexivity.
Qed.

(** *** Which command lines are well formed: a second piece of specification.
    Each command has options with a value, flags, and options whose value may
    be left out. *)
Record options := { vals : list string; flags : list string; bare : list string }.
Definition host : list string := ["host-ip"; "host-port"; "endpoint-base-path"]%string.
Definition key_options : list string * list string := (["secret-path"], ["yubikey"])%string.
Definition options_of (c : command) : options :=
  match c with
  | HostHealth | EnclaveStatus | EnclaveVersion => Build_options host [] []
  | GenerateFileKey => Build_options ["master-seed-path"; "pub-path"] [] []
  | BootGenesis => Build_options (host ++ ["namespace-dir"; "share-set-dir"; "pcr3-preimage-path"; "qos-release-dir"; "dr-key-path"]) ["unsafe-skip-attestation"] []
  | AfterGenesis => Build_options ["secret-path"; "share-path"; "alias"; "namespace-dir"; "qos-release-dir"; "pcr3-preimage-path"; "current-pin-path"; "validation-time-override"]
                      ["yubikey"; "unsafe-skip-attestation"] []
  | VerifyGenesis => Build_options ["namespace-dir"; "master-seed-path"] [] []
  | GenerateManifest => Build_options ["nonce"; "namespace"; "pivot-hash-path"; "restart-policy"; "qos-release-dir"; "pcr3-preimage-path"; "manifest-path"; "manifest-set-dir";
                          "share-set-dir"; "patch-set-dir"; "quorum-key-path"; "pivot-args"; "bridge-config"; "dns-resolvers"; "debug-mode"; "use-manifest-version"] []
                          ["pivot-args"; "debug-mode"]
  | ApproveManifest => Build_options ["secret-path"; "manifest-path"; "manifest-approvals-dir"; "qos-release-dir"; "pcr3-preimage-path"; "pivot-hash-path"; "alias"; "quorum-key-path";
                         "manifest-set-dir"; "share-set-dir"; "patch-set-dir"] ["yubikey"; "unsafe-auto-confirm"] []
  | BootStandard => Build_options (host ++ ["pivot-path"; "manifest-envelope-path"; "pcr3-preimage-path"]) ["unsafe-skip-attestation"] []
  | GetAttestationDoc => Build_options (host ++ ["attestation-doc-path"; "manifest-envelope-path"]) [] []
  | GetEphemeralKeyHex => Build_options ["attestation-doc-path"; "ephemeral-key-path"] [] []
  | ProxyReEncryptShare => Build_options ["secret-path"; "share-path"; "approval-path"; "eph-wrapped-share-path"; "attestation-doc-path"; "pcr3-preimage-path"; "manifest-set-dir";
                             "manifest-envelope-path"; "alias"; "unsafe-eph-path-override"] ["yubikey"; "unsafe-skip-attestation"; "unsafe-auto-confirm"] []
  | PostShare => Build_options (host ++ ["approval-path"; "eph-wrapped-share-path"]) [] []
  | GenerateManifestEnvelope => Build_options ["manifest-approvals-dir"; "manifest-path"; "manifest-envelope-path"] [] []
  | DangerousDevBoot => Build_options (host ++ ["pivot-path"; "restart-policy"; "pivot-args"; "unsafe-eph-path-override"]) [] ["pivot-args"]
  | ProvisionYubiKey => Build_options ["pub-path"] ["yubikey"] []
  | AdvancedProvisionYubiKey => Build_options ["master-seed-path"; "current-pin-path"] [] []
  | PivotHash => Build_options ["output-path"; "pivot-path"] [] []
  | ShamirSplit => Build_options ["secret-path"; "total-shares"; "threshold"; "output-dir"] [] []
  | ShamirReconstruct => Build_options ["share"; "output-path"] [] []
  | YubiKeySign => Build_options ["payload"] [] []
  | YubiKeyPublic | YubiKeyPivReset => Build_options [] [] []
  | YubiKeyChangePin => Build_options ["current-pin-path"; "new-pin-path"] [] []
  | Display => Build_options ["file-path"; "display-type"] ["json"] []
  | JsonToBorsh => Build_options ["file-path"; "display-type"; "output-path"] [] []
  | BootKeyFwd => Build_options (host ++ ["manifest-envelope-path"; "pivot-path"; "attestation-doc-path"]) [] []
  | ExportKey => Build_options (host ++ ["manifest-envelope-path"; "attestation-doc-path"; "encrypted-quorum-key-path"]) [] []
  | InjectKey => Build_options (host ++ ["encrypted-quorum-key-path"]) [] []
  | P256Verify => Build_options ["payload-path"; "signature-path"; "pub-path"] [] []
  | P256Sign => Build_options ["payload-path"; "signature-path"; "master-seed-path"] [] []
  | P256AsymmetricEncrypt => Build_options ["plaintext-path"; "ciphertext-path"; "pub-path"] [] []
  | P256AsymmetricDecrypt => Build_options ["plaintext-path"; "ciphertext-path"; "master-seed-path"] ["output-hex"] []
  end%string.
(** the arguments, cut into options; the list of the names given *)
Inductive laid (o : options) : list bytes -> list string -> Prop :=
| L_end : laid o [] []
| L_flag n rest l : In n (flags o) -> laid o rest l -> laid o (dash (bs n) :: rest) (n :: l)
| L_value n v rest l : In n (vals o) -> starts_with (bs "--") v = false -> laid o rest l -> laid o (dash (bs n) :: v :: rest) (n :: l)
| L_bare n rest l : In n (bare o) -> match rest with [] => True | i :: _ => starts_with (bs "--") i = true end -> laid o rest l -> laid o (dash (bs n) :: rest) (n :: l).
(** only the shares of shamir-reconstruct may be repeated *)
Definition well_formed (c : command) (args : list bytes) : Prop :=
  exists l, laid (options_of c) args l /\ forall n, n <> "share"%string -> (count_occ string_dec l n <= 1)%nat.

(** *** The tables agree *)
Lemma bs_inj a b : bs a = bs b -> a = b.
Proof. intros E. apply (f_equal string_of_list_byte) in E. unfold bs in E. now rewrite !string_of_list_byte_of_string in E. Qed.
Definition sin (n : string) (l : list string) : bool := existsb (String.eqb n) l.
Lemma sin_iff n l : sin n l = true <-> In n l.
Proof.
  unfold sin. rewrite existsb_exists. split; [intros (x & I & E); apply String.eqb_eq in E; congruence|intros I; exists n; split; [exact I|apply String.eqb_refl]].
Qed.
Definition name_of (t : token) : string := string_of_list_byte (t_name t).
(** every token but help and version is in the table, as what it is *)
Definition covered (o : options) (t : token) : bool :=
  (bytes_eqb (bs (name_of t)) (t_name t)) && negb (is_some (t_requires t)) &&
  Bool.eqb (t_multiple t) (String.eqb (name_of t) "share") &&
  (if t_takes_value t then sin (name_of t) (vals o) && Bool.eqb (is_some (t_default t)) (sin (name_of t) (bare o))
   else String.eqb (name_of t) "help" || String.eqb (name_of t) "version" || sin (name_of t) (flags o)).
Definition registered_as (ts : list token) (f : token -> bool) (n : string) : bool := match registered ts (bs n) with Some t => f t | None => false end.
Definition agree (c : command) : bool :=
  forallb (covered (options_of c)) (rev (tokens c) ++ [token_new VERSION; token_new HELP])
  && forallb (registered_as (tokens c) t_takes_value) (vals (options_of c))
  && forallb (registered_as (tokens c) (fun t => negb (t_takes_value t))) (flags (options_of c))
  && forallb (registered_as (tokens c) (fun t => t_takes_value t && is_some (t_default t))) (bare (options_of c))
  && negb (sin "help" (flags (options_of c))) && negb (sin "version" (flags (options_of c)))
  && negb (sin "help" (vals (options_of c))) && negb (sin "version" (vals (options_of c)))
  && negb (sin "help" (bare (options_of c))) && negb (sin "version" (bare (options_of c))).
Lemma all_agree c : agree c = true.
Proof. destruct c; vm_compute; reflexivity. Qed.
Lemma registered_in ts n t : registered ts n = Some t -> In t (rev ts ++ [token_new VERSION; token_new HELP]) /\ t_name t = n.
Proof. intros E. split; [apply find_some in E; apply E|exact (registered_name ts n t E)]. Qed.
Section Table.
  Context (c : command).
  Let o := options_of c.
  Lemma covers n t : registered (tokens c) n = Some t -> exists k, n = bs k /\ t_requires t = None /\ (t_multiple t = true <-> k = "share"%string)
    /\ (if t_takes_value t then In k (vals o) /\ (t_default t <> None <-> In k (bare o)) else k = "help"%string \/ k = "version"%string \/ In k (flags o)).
  Proof.
    intros R. destruct (registered_in _ _ _ R) as [I N]. pose proof (all_agree c) as A. unfold agree in A. repeat (apply andb_true_iff in A as [A _]).
    rewrite forallb_forall in A. specialize (A t I). unfold covered in A. apply andb_true_iff in A as [A K]. apply andb_true_iff in A as [A MU]. apply andb_true_iff in A as [A RQ].
    apply bytes_eqb_eq in A. exists (name_of t). split; [congruence|]. split; [destruct (t_requires t); [discriminate RQ|reflexivity]|].
    apply eqb_prop in MU. split; [rewrite MU; apply String.eqb_eq|]. destruct (t_takes_value t).
    - apply andb_true_iff in K as [K1 K2]. apply sin_iff in K1. apply eqb_prop in K2. split; [exact K1|]. rewrite <- sin_iff. fold o in K2. rewrite <- K2. destruct (t_default t); cbn; split; congruence.
    - apply orb_true_iff in K as [K|K]; [|right; right; apply sin_iff; exact K]. apply orb_true_iff in K as [K|K]; apply String.eqb_eq in K; auto.
  Qed.
  Ltac part A := pose proof (all_agree c) as A; unfold agree in A; repeat rewrite andb_true_iff in A; fold o in A.
  Lemma vals_registered k : In k (vals o) -> exists t, registered (tokens c) (bs k) = Some t /\ t_takes_value t = true.
  Proof.
    intros I. part A. destruct A as [[[[[[[[[_ A] _] _] _] _] _] _] _] _]. rewrite forallb_forall in A. specialize (A k I). unfold registered_as in A. destruct (registered (tokens c) (bs k)); [eauto|discriminate].
  Qed.
  Lemma flags_registered k : In k (flags o) -> exists t, registered (tokens c) (bs k) = Some t /\ t_takes_value t = false.
  Proof.
    intros I. part A. destruct A as [[[[[[[[[_ _] A] _] _] _] _] _] _] _]. rewrite forallb_forall in A. specialize (A k I). unfold registered_as in A. destruct (registered (tokens c) (bs k)); [|discriminate].
    apply negb_true_iff in A. eauto.
  Qed.
  Lemma bare_registered k : In k (bare o) -> exists t d, registered (tokens c) (bs k) = Some t /\ t_takes_value t = true /\ t_default t = Some d.
  Proof.
    intros I. part A. destruct A as [[[[[[[[[_ _] _] A] _] _] _] _] _] _]. rewrite forallb_forall in A. specialize (A k I). unfold registered_as in A. destruct (registered (tokens c) (bs k)) as [t|]; [|discriminate].
    apply andb_true_iff in A as [A B]. destruct (t_default t) as [d|] eqn:D; [eauto|discriminate].
  Qed.
  Lemma not_help k : In k (flags o) \/ In k (vals o) \/ In k (bare o) -> k <> "help"%string /\ k <> "version"%string.
  Proof.
    part A. destruct A as [[[[[[_ A1] A2] A3] A4] A5] A6]. repeat match goal with H : negb _ = true |- _ => apply negb_true_iff in H end.
    intros I. rewrite <- !sin_iff in I. split; intros ->; destruct I as [I|[I|I]]; congruence.
  Qed.
  Lemma laid_reads args l : laid o args l -> (exists occ, reads (tokens c) args occ /\ map fst occ = map bs l) /\ ~ In (bs "--help") args /\ ~ In (bs "--version") args.
  Proof.
    assert (DD : forall n w, n <> w -> dash (bs n) <> dash (bs w)) by (intros n w N E; apply N, bs_inj, dash_inj, E).
    assert (VV : forall v w, starts_with (bs "--") v = false -> v <> dash (bs w)) by (intros v w S E; subst; rewrite starts_dash in S; discriminate).
    change (bs "--help") with (dash (bs "help")). change (bs "--version") with (dash (bs "version")).
    induction 1 as [|n rest l I L ((occ & R & E) & H1 & H2)|n v rest l I V L ((occ & R & E) & H1 & H2)|n rest l I HD L ((occ & R & E) & H1 & H2)].
    - split; [exists []; split; [constructor|reflexivity]|split; intros []].
    - destruct (flags_registered n I) as (t & RT & TV). destruct (not_help n (or_introl I)) as [X Y]. split.
      + exists ((bs n, None) :: occ). split; [exact (R_flag _ _ _ _ _ RT TV R)|cbn [map fst]; now rewrite E].
      + split; (intros [J|J]; [first [exact (DD _ _ X J)|exact (DD _ _ Y J)]|contradiction]).
    - destruct (vals_registered n I) as (t & RT & TV). destruct (not_help n (or_intror (or_introl I))) as [X Y]. split.
      + exists ((bs n, Some v) :: occ). split; [refine (R_value _ _ _ _ _ _ RT TV _ R); apply starts_false; exact V|cbn [map fst]; now rewrite E].
      + split; (intros [J|[J|J]]; [first [exact (DD _ _ X J)|exact (DD _ _ Y J)]|exact (VV _ _ V J)|contradiction]).
    - destruct (bare_registered n I) as (t & d & RT & TV & TD). destruct (not_help n (or_intror (or_intror I))) as [X Y]. split.
      + exists ((bs n, Some d) :: occ). split; [refine (R_default _ _ _ _ _ _ RT TV TD _ R)|cbn [map fst]; now rewrite E].
        destruct rest as [|i r]; [now left|right; exists i, r; split; [reflexivity|apply starts_iff; exact HD]].
      + split; (intros [J|J]; [first [exact (DD _ _ X J)|exact (DD _ _ Y J)]|contradiction]).
  Qed.
  Lemma reads_laid args occ : reads (tokens c) args occ -> ~ In (bs "--help") args -> ~ In (bs "--version") args -> exists l, laid o args l /\ map fst occ = map bs l.
  Proof.
    induction 1 as [|k t rest occ RG TV R IH|k t v rest occ RG TV NO R IH|k t d rest occ RG TV TD HD R IH]; intros NH NV; [exists []; split; [constructor|reflexivity]|..].
    - destruct IH as (l & L & E); [intros J; apply NH; now right|intros J; apply NV; now right|]. destruct (covers _ _ RG) as (n & -> & _ & _ & K). rewrite TV in K.
      destruct K as [-> |[-> |K]]; [exfalso; apply NH; now left|exfalso; apply NV; now left|]. exists (n :: l). split; [exact (L_flag _ _ _ _ K L)|cbn [map fst]; now rewrite E].
    - destruct IH as (l & L & E); [intros J; apply NH; right; right; exact J|intros J; apply NV; right; right; exact J|]. destruct (covers _ _ RG) as (n & -> & _ & _ & K). rewrite TV in K.
      exists (n :: l). split; [refine (L_value _ _ _ _ _ (proj1 K) _ L); apply starts_false; exact NO|cbn [map fst]; now rewrite E].
    - destruct IH as (l & L & E); [intros J; apply NH; now right|intros J; apply NV; now right|]. destruct (covers _ _ RG) as (n & -> & _ & _ & K). rewrite TV in K.
      exists (n :: l). split; [|cbn [map fst]; now rewrite E]. refine (L_bare _ _ _ _ _ _ L); [apply K; congruence|].
      destruct HD as [-> |(i & r & -> & O)]; [exact I|]. apply starts_iff in O. exact O.
  Qed.
  Lemma count_bs l n : count_occ bytes_dec (map bs l) (bs n) = count_occ string_dec l n.
  Proof. induction l as [|x l IH]; [reflexivity|]. cbn [map count_occ]. rewrite IH. destruct (bytes_dec (bs x) (bs n)) as [E|E], (string_dec x n) as [F|F]; try reflexivity; [apply bs_inj in E; contradiction|subst; contradiction]. Qed.
  Lemma parses_well_formed args m : ~ In (bs "--help") args -> ~ In (bs "--version") args -> tm_parse (parser_of (tokens c)) args = Done (Ok m) -> well_formed c args.
  Proof.
    intros NH NV P. destruct (proj1 (c44_accepts_exactly (tokens c) args (tokens_unset c) NH NV) (ex_intro _ m P)) as (occ & R & A).
    destruct (reads_laid args occ R NH NV) as (l & L & E). exists l. split; [exact L|]. intros n N. rewrite <- count_bs, <- E.
    destruct (registered (tokens c) (bs n)) as [t|] eqn:RG.
    - apply (acc_once _ _ A _ _ RG). destruct (covers _ _ RG) as (k & K & _ & M & _). apply bs_inj in K as <-. destruct (t_multiple t); [|reflexivity]. exfalso. apply N, M. reflexivity.
    - assert (Z : ~ In (bs n) (map fst occ)). { remember (bs n) as q. intros I. clear - R RG I. induction R; cbn [map fst] in I; [destruct I|..]; destruct I as [I|I]; auto; congruence. }
      apply (proj1 (count_occ_not_In bytes_dec _ _)) in Z. exact (Nat.le_trans _ _ _ (Nat.eq_le_incl _ _ Z) (Nat.le_0_l 1)).
  Qed.
End Table.
Lemma typed_in n args : typed n args <> [] -> In (dash n) args.
Proof.
  induction args as [|a [|v r] IH]; [contradiction..|]. change (typed n (a :: v :: r)) with (if bytes_eqb a (dash n) && negb (starts_with (bs "--") v) then v :: typed n (v :: r) else typed n (v :: r)).
  destruct (bytes_eqb a (dash n)) eqn:E; [intros _; left; apply bytes_eqb_eq; exact E|]. cbn [andb]. intros T. right. exact (IH T).
Qed.
Lemma told_required args a n t : told args a -> registered (tokens (command_of a)) n = Some t -> t_required t = true -> In (dash n) args.
Proof.
  intros T R Q. destruct (registered_in _ _ _ R) as [I <-]. clear R.
  assert (ON : forall k v, one args k v -> In (dash (bs k)) args) by (intros k v O; apply typed_in; unfold one in O; rewrite O; discriminate).
  assert (PA : forall A k (f : bytes -> option A) v, parsed args k f v -> In (dash (bs k)) args) by (intros A k f v (w & O & _); exact (ON k w O)).
  assert (RE : forall u route, reaches args u route -> In (dash (bs "host-ip")) args /\ In (dash (bs "host-port")) args) by (intros u route (ip & po & ba & A & B & _); split; eapply ON; eassumption).
  destruct a; cbn [told] in T; cbn [command_of tokens base rev app] in I; repeat match goal with T : _ /\ _ |- _ => destruct T end;
    repeat (destruct I as [<-|I]; [try discriminate Q; cbn [t_name must tk_required tk_takes_value token_new]; 
      first [ eapply ON; eassumption | eapply PA; eassumption | eapply (proj1 (RE _ _ ltac:(eassumption))) | eapply (proj2 (RE _ _ ltac:(eassumption))) | apply typed_in; change (typed (bs "share") args <> []); congruence ]|]); destruct I.
Qed.
Lemma told_forbids args a n t w occ : told args a -> reads (tokens (command_of a)) args occ -> given n occ -> registered (tokens (command_of a)) n = Some t -> In w (t_forbids t) -> ~ given w occ.
Proof.
  intros T RD G R F GW. destruct (registered_in _ _ _ R) as [I <-].
  assert (UNR : registered (tokens (command_of a)) w = None -> False).
  { intros RG. unfold given in GW. clear - RD RG GW. revert GW. induction RD; cbn [map fst]; [intros []|..]; intros [<-|GW]; auto; congruence. }
  assert (OP : forall k pins, opens args k pins -> flag_ok (tokens (command_of a)) (bs "yubikey") = true -> (exists t, registered (tokens (command_of a)) (bs "secret-path") = Some t /\ t_takes_value t = true /\ t_default t = None) ->
     given (bs "yubikey") occ -> given (bs "secret-path") occ -> False).
  { intros k pins O _ (ts & RS & TV & TD) GY GS. pose proof (typed_given _ _ _ _ _ RD RS TV TD GS) as NE. apply (reads_given _ _ _ RD) in GY. destruct k; cbn [opens] in O.
    - destruct O as (_ & X & _). contradiction.
    - destruct O as (_ & X). contradiction. }
  destruct a; cbn [told] in T; cbn [command_of tokens base rev app] in I; repeat match goal with T : _ /\ _ |- _ => destruct T end;
    repeat (destruct I as [<-|I]; [try (destruct F; fail);
      destruct F as [<-|[]]; first [ apply UNR; reflexivity | eapply OP; [eassumption|reflexivity|eexists; split; [reflexivity|split; reflexivity]|assumption|assumption] ]|]); destruct I.
Qed.
Lemma told_parses args a : well_formed (command_of a) args -> told args a ->
  ~ In (bs "--help") args /\ ~ In (bs "--version") args /\ exists m, tm_parse (parser_of (tokens (command_of a))) args = Done (Ok m).
Proof.
  intros (l & L & C) T. destruct (laid_reads _ _ _ L) as ((occ & R & E) & NH & NV). split; [exact NH|]. split; [exact NV|].
  apply (proj2 (c44_accepts_exactly (tokens (command_of a)) args (tokens_unset _) NH NV)). exists occ. split; [exact R|]. constructor.
  - intros n t RG MU. rewrite E. destruct (covers _ _ _ RG) as (k & -> & _ & M & _). rewrite count_bs. apply C. intros ->. rewrite (proj2 M eq_refl) in MU. discriminate.
  - intros n t RG RQ. apply (reads_given _ _ _ R). exact (told_required _ _ _ _ T RG RQ).
  - intros n t w _ RG X. destruct (covers _ _ _ RG) as (k & _ & X' & _). congruence.
  - intros n t w G RG F. exact (told_forbids _ _ _ _ _ _ T R G RG F).
Qed.

Lemma lookup_in {A} n (l : list (bytes * A)) a : lookup n l = Some a -> In (n, a) l.
Proof.
  induction l as [|[k b] l IH]; cbn [lookup]; [discriminate|]. destruct (bytes_eqb k n) eqn:E; [|right; auto]. apply bytes_eqb_eq in E as ->. intros X. injection X as ->. now left.
Qed.
Lemma word_command word a : command_from word = Some (command_of a) <-> word = word_of a.
Proof.
  split; [|intros ->; destruct a; reflexivity]. intros E. apply lookup_in in E. remember (command_of a) as c eqn:C.
  repeat (destruct E as [E|E]; [injection E as <- <-; destruct a; try discriminate C; reflexivity|]). destruct E.
Qed.
Lemma no_flag_read ts args m n t : Forall unset ts -> ~ In (bs "--help") args -> ~ In (bs "--version") args -> tm_parse (parser_of ts) args = Done (Ok m) ->
  registered ts n = Some t -> flag_ok ts n = true -> ~ In (dash n) args -> (match get_flag m n with Some b => b | None => false end) = false.
Proof.
  intros U NH NV P R K N. pose proof (flag_iff ts args m U NH NV P n K) as F. destruct (match get_flag m n with Some b => b | None => false end); [|reflexivity]. exfalso. apply N, F. reflexivity.
Qed.
Lemma help_flags c : (exists t, registered (tokens c) HELP = Some t) /\ flag_ok (tokens c) HELP = true /\ (exists t, registered (tokens c) VERSION = Some t) /\ flag_ok (tokens c) VERSION = true.
Proof. destruct c; (split; [eexists; vm_compute; reflexivity|split; [vm_compute; reflexivity|split; [eexists; vm_compute; reflexivity|vm_compute; reflexivity]]]). Qed.

(** C75.  The client acts on exactly the well-formed command lines, and then
    does what the options say: the action's arguments are the typed values. *)
Theorem c75_does_what_the_command_line_says name word args a :
  client_run (name :: word :: args) = Ran a <-> word = word_of a /\ well_formed (command_of a) args /\ told args a.
Proof.
  unfold client_run. split.
  - destruct (command_parse command_from tokens (name :: word :: args)) as [[[c m]|e]|] eqn:P; try discriminate. apply c44_command_parses_the_rest in P as [C P].
    destruct (p_version m) eqn:V; [discriminate|]. destruct (p_help m) eqn:H; [discriminate|].
    assert (NH : ~ In (bs "--help") args).
    { intros I. destruct (c44_help_short_circuits (tokens c) args (tokens_unset c) I) as (m' & P' & H' & _). rewrite P in P'. injection P' as <-. congruence. }
    assert (NV : ~ In (bs "--version") args).
    { intros I. destruct (c44_version_short_circuits (tokens c) args (tokens_unset c) I NH) as (m' & P' & H' & _). rewrite P in P'. injection P' as <-. congruence. }
    destruct (act _ _ _ c) as [a'|] eqn:A; [|discriminate]. intros E. injection E as ->. destruct (act_told c args m a NH NV P A) as [<- T].
    split; [apply word_command; exact C|]. split; [exact (parses_well_formed _ args m NH NV P)|exact T].
  - intros (W & F & T). destruct (told_parses args a F T) as (NH & NV & m & P). apply word_command in W.
    rewrite (proj2 (c44_command_parses_the_rest command_from tokens name word args (command_of a) m) (conj W P)).
    destruct (help_flags (command_of a)) as ((t1 & R1) & F1 & (t2 & R2) & F2).
    unfold p_version, p_help. rewrite (no_flag_read (tokens (command_of a)) args m VERSION t2 (tokens_unset _) NH NV P R2 F2 NV), (no_flag_read (tokens (command_of a)) args m HELP t1 (tokens_unset _) NH NV P R1 F1 NH).
    now rewrite (told_act args m a NH NV P T).
Qed.
Print Assumptions c75_does_what_the_command_line_says.

(** Nothing unsafe happens unless it is spelled out on the command line. *)
Definition skips_attestation (a : action) : bool :=
  match a with DoBootGenesis _ _ _ _ _ _ s | DoAfterGenesis _ _ _ _ _ _ s _ | DoBootStandard _ _ _ _ s | DoProxyReEncrypt _ _ _ _ _ _ _ _ _ s _ _ => s | _ => false end.
Definition auto_confirms (a : action) : bool := match a with DoApprove _ _ _ _ _ _ _ _ _ _ _ c | DoProxyReEncrypt _ _ _ _ _ _ _ _ _ _ _ c => c | _ => false end.
Definition trusts_key_file (a : action) : option bytes := match a with DoProxyReEncrypt _ _ _ _ _ _ _ _ _ _ e _ | DoDangerousDevBoot _ _ _ _ _ e => e | _ => None end.
Theorem c75_unsafe_only_when_asked name word args a : client_run (name :: word :: args) = Ran a ->
  (skips_attestation a = true -> In (bs "--unsafe-skip-attestation") args) /\ (auto_confirms a = true -> In (bs "--unsafe-auto-confirm") args)
  /\ (forall p, trusts_key_file a = Some p -> typed (bs "unsafe-eph-path-override") args = [p])
  /\ (forall u pv rp ar b e, a = DoDangerousDevBoot u pv rp ar b e -> word = bs "dangerous-dev-boot").
Proof.
  intros E. apply c75_does_what_the_command_line_says in E as (W & _ & T).
  assert (FL : forall n b, flagged args n b -> b = true -> In (dash (bs n)) args) by (intros n b F; apply F).
  change (bs "--unsafe-skip-attestation") with (dash (bs "unsafe-skip-attestation")). change (bs "--unsafe-auto-confirm") with (dash (bs "unsafe-auto-confirm")).
  split; [|split; [|split]].
  - destruct a; try discriminate; cbn [told] in T; repeat match goal with T : _ /\ _ |- _ => destruct T end; apply FL; assumption.
  - destruct a; try discriminate; cbn [told] in T; repeat match goal with T : _ /\ _ |- _ => destruct T end; apply FL; assumption.
  - intros p X. destruct a; try discriminate X; cbn [told trusts_key_file] in T, X; repeat match goal with T : _ /\ _ |- _ => destruct T end; subst; assumption.
  - intros u pv rp ar b e ->. exact W.
Qed.
Print Assumptions c75_unsafe_only_when_asked.

(** An option the command does not have is never silently ignored. *)
Theorem c75_unknown_options_are_refused name word args a n : client_run (name :: word :: args) = Ran a -> In (bs "--" ++ n) args ->
  exists k, n = bs k /\ (In k (vals (options_of (command_of a))) \/ In k (flags (options_of (command_of a))) \/ In k (bare (options_of (command_of a)))).
Proof.
  intros E. apply c75_does_what_the_command_line_says in E as (_ & (l & L & _) & _). fold (dash n).
  assert (VV : forall v, starts_with (bs "--") v = false -> v <> dash n) by (intros v S E; subst; rewrite starts_dash in S; discriminate).
  induction L as [|k rest l I L IH|k v rest l I V L IH|k rest l I HD L IH]; intros J.
  - destruct J.
  - destruct J as [J|J]; [apply dash_inj in J; eauto|auto].
  - destruct J as [J|[J|J]]; [apply dash_inj in J; eauto|exfalso; exact (VV v V J)|auto].
  - destruct J as [J|J]; [apply dash_inj in J; eauto|auto].
Qed.
Print Assumptions c75_unknown_options_are_refused.

(** The order in which the options are given does not matter (but for that
    of the shares): an option is "--name" or "--name value". *)
Definition chunk (it : list bytes) : Prop := exists n, it = [dash n] \/ exists v, it = [dash n; v] /\ starts_with (bs "--") v = false.
Definition chunk_value (n : bytes) (it : list bytes) : list bytes := match it with [d; v] => if bytes_eqb d (dash n) then [v] else [] | _ => [] end.
Lemma chunks_head items : Forall chunk items -> match concat items with [] => True | i :: _ => starts_with (bs "--") i = true end.
Proof. destruct 1 as [|it items (n & [->|(v & -> & _)]) _]; [exact I|apply starts_dash..]. Qed.
Lemma typed_chunks n items : Forall chunk items -> typed n (concat items) = flat_map (chunk_value n) items.
Proof.
  induction 1 as [|it items (k & [->|(v & -> & V)]) F IH]; [reflexivity|..]; cbn [concat app flat_map chunk_value].
  - rewrite typed_option; [exact IH|]. pose proof (chunks_head items F) as H. destruct (concat items) as [|i r]; [now left|right; exists i, r; split; [reflexivity|apply starts_iff; exact H]].
  - rewrite typed_value by exact V. rewrite IH. apply (f_equal (fun x => x ++ _)). destruct (bytes_eqb k n) eqn:E.
    + apply bytes_eqb_eq in E as ->. now rewrite (proj2 (bytes_eqb_eq _ _) eq_refl).
    + destruct (bytes_eqb (dash k) (dash n)) eqn:D; [|reflexivity]. apply bytes_eqb_eq, dash_inj in D. subst. rewrite (proj2 (bytes_eqb_eq _ _) eq_refl) in E. discriminate.
Qed.
Definition laid1 (o : options) (it : list bytes) (n : string) : Prop :=
  (it = [dash (bs n)] /\ (In n (flags o) \/ In n (bare o))) \/ exists v, it = [dash (bs n); v] /\ In n (vals o) /\ starts_with (bs "--") v = false.
Lemma laid_chunks o items l : Forall chunk items -> laid o (concat items) l <-> Forall2 (laid1 o) items l.
Proof.
  intros F. split.
  - revert l. induction F as [|it items (k & [->|(v & -> & V)]) F IH]; intros l L; cbn [concat app] in L.
    + inversion L; subst. constructor.
    + inversion L as [|n rest l' I L'|n w rest l' I W L'|n rest l' I HD L']; subst.
      * constructor; [left; auto|auto].
      * exfalso. pose proof (chunks_head items F) as H2. match goal with H : _ = concat items |- _ => rewrite <- H in H2 end. congruence.
      * constructor; [left; auto|auto].
    + inversion L as [|n rest l' I L'|n w rest l' I W L'|n rest l' I HD L']; subst.
      * exfalso. inversion L'; subst; rewrite starts_dash in V; discriminate.
      * constructor; [right; eauto|auto].
      * congruence.
  - induction 1 as [|it n items l [(-> & [I|I])|(v & -> & I & V)] F2 IH]; cbn [concat app]; [constructor|inversion F; subst..].
    + apply L_flag; auto.
    + apply L_bare; auto. apply chunks_head; assumption.
    + apply L_value; auto.
Qed.
Lemma In_chunks n items : In (dash n) (concat items) <-> exists it, In it items /\ In (dash n) it.
Proof. rewrite in_concat. tauto. Qed.
Lemma told_ext args args' a : (forall n, n <> bs "share" -> typed n args = typed n args') -> typed (bs "share") args = typed (bs "share") args' ->
  (forall n, In (dash n) args <-> In (dash n) args') -> told args a -> told args' a.
Proof.
  intros T1 T2 I T.
  assert (T0 : forall n, typed n args' = typed n args) by (intros n; destruct (bytes_dec n (bs "share")) as [->|N]; symmetry; auto).
  assert (O : forall n v, one args n v -> one args' n v) by (intros n v H; unfold one; now rewrite T0).
  assert (O2 : forall n v, opt args n v -> opt args' n v) by (intros n v H; unfold opt; now rewrite T0).
  assert (FL : forall n b, flagged args n b -> flagged args' n b) by (intros n b H; unfold flagged in *; now rewrite <- I).
  assert (PA : forall A n (f : bytes -> option A) v, parsed args n f v -> parsed args' n f v) by (intros A n f v (w & H & E); exists w; auto).
  assert (PO : forall A n (f : bytes -> option A) d v, parsed_or args n f d v -> parsed_or args' n f d v) by (intros A n f d v [[H E]|H]; [left; rewrite T0; auto|right; auto]).
  assert (PP : forall A n (f : bytes -> option A) v, parsed_opt args n f v -> parsed_opt args' n f v) by (intros A n f [v|]; cbn [parsed_opt]; [apply PA|now rewrite T0]).
  assert (RE : forall u route, reaches args u route -> reaches args' u route) by (intros u route (ip & po & b & A & B & C & D); exists ip, po, b; auto).
  assert (OP : forall k b, opens args k b -> opens args' k b).
  { intros k b H. destruct k; cbn [opens] in *; [destruct H as (A & B & C & D)|destruct H as (A & B)].
    - split; [apply I; exact A|]. split; [rewrite T0; exact B|]. auto.
    - split; [auto|]. rewrite <- I. exact B. }
  destruct a; cbn [told] in *; rewrite ?T0; intuition eauto.
Qed.
Lemma perm_short {A} (l l' : list A) : Permutation l l' -> (length l <= 1)%nat -> l = l'.
Proof.
  intros P L. destruct l as [|x [|y l]]; [symmetry; apply Permutation_nil; exact P|symmetry; apply Permutation_length_1_inv; exact P|cbn [length] in L; lia].
Qed.
Lemma typed_short c args n : well_formed c args -> n <> bs "share" -> (length (typed n args) <= 1)%nat.
Proof.
  intros (l & L & C) N. assert (X : forall k, n = bs k -> (length (typed n args) <= count_occ string_dec l k)%nat).
  { intros k ->. clear C N. induction L as [|j rest l I L IH|j v rest l I V L IH|j rest l I HD L IH]; cbn [count_occ].
    - cbn. lia.
    - assert (Y : typed (bs k) (dash (bs j) :: rest) = typed (bs k) rest).
      { apply typed_option. inversion L; subst; [now left|right; eexists; eexists; split; [reflexivity|apply starts_iff; apply starts_dash]..]. }
      rewrite Y. destruct (string_dec j k); lia.
    - rewrite typed_value by exact V. rewrite app_length. destruct (string_dec j k) as [->|D].
      + destruct (bytes_eqb (bs k) (bs k)); cbn [length]; lia.
      + destruct (bytes_eqb (bs j) (bs k)) eqn:E; [apply bytes_eqb_eq, bs_inj in E; contradiction|cbn [length]; lia].
    - assert (Y : typed (bs k) (dash (bs j) :: rest) = typed (bs k) rest).
      { apply typed_option. inversion L; subst; [now left|right; eexists; eexists; split; [reflexivity|apply starts_iff; apply starts_dash]..]. }
      rewrite Y. destruct (string_dec j k); lia. }
  assert (K : n = bs (string_of_list_byte n)) by (unfold bs; now rewrite list_byte_of_string_of_list_byte).
  specialize (X _ K). pose proof (C (string_of_list_byte n)) as C'. assert (string_of_list_byte n <> "share"%string) by (intros E; rewrite E in K; contradiction). specialize (C' H). lia.
Qed.
Theorem c75_order_is_irrelevant name name' word items items' a : Forall chunk items -> Permutation items items' ->
  typed (bs "share") (concat items) = typed (bs "share") (concat items') ->
  client_run (name :: word :: concat items) = Ran a -> client_run (name' :: word :: concat items') = Ran a.
Proof.
  intros F P S E. assert (F' : Forall chunk items') by (apply (Permutation_Forall P); exact F).
  apply c75_does_what_the_command_line_says in E as (W & WF & T). apply c75_does_what_the_command_line_says. split; [exact W|]. split.
  - destruct WF as (l & L & C). apply laid_chunks in L; [|exact F]. destruct (Forall2_perm _ _ _ _ P L) as (l' & L' & P').
    exists l'. split; [apply laid_chunks; assumption|]. intros n N. rewrite <- (proj1 (Permutation_count_occ string_dec _ _) P' n). apply C. exact N.
  - refine (told_ext _ _ _ _ S _ T).
    + intros n N. apply perm_short; [|exact (typed_short _ _ _ WF N)]. rewrite !typed_chunks by assumption. apply Permutation_flat_map. exact P.
    + intros n. rewrite !In_chunks. split; intros (it & I & J); exists it; (split; [|exact J]); [apply (Permutation_in _ P)|apply (Permutation_in _ (Permutation_sym P))]; exact I.
Qed.
Print Assumptions c75_order_is_irrelevant.

(** The pivot's arguments: "[a,b,c]" means exactly a, b and c.  An argument
    with a comma, and a single empty argument, cannot be given. *)
Definition listed (l : list bytes) : bytes := bs "[" ++ join ","%byte l ++ bs "]".
Lemma bracketed_iff v i : bracketed v = Some i <-> v = bs "[" ++ i ++ bs "]".
Proof.
  unfold bracketed. split.
  - destruct v as [|c r]; [discriminate|]. destruct (byte_eqb c "[") eqn:C; [|discriminate]. apply byte_eqb_eq in C as ->.
    destruct (rev r) as [|d j] eqn:R; [discriminate|]. destruct (byte_eqb d "]") eqn:D; [|discriminate]. apply byte_eqb_eq in D as ->. intros E. injection E as <-.
    apply (f_equal (@rev byte)) in R. rewrite rev_involutive in R. cbn [rev] in R. rewrite R. reflexivity.
  - intros ->. change (bs "[") with ["["%byte]. change (bs "]") with ["]"%byte]. cbn [app]. rewrite rev_app_distr. cbn [rev app]. rewrite !(proj2 (byte_eqb_eq _ _) eq_refl). now rewrite rev_involutive.
Qed.
Lemma join_free_split c l : Forall (fun w => ~ In c w) l -> l <> [] -> split_on c (join c l) = l.
Proof.
  intros F. assert (A : forall w, ~ In c w -> split_on c w = [w]).
  { induction w as [|x w IH]; [reflexivity|]. intros N. cbn [split_on]. destruct (byte_eqb x c) eqn:E; [apply byte_eqb_eq in E; subst; exfalso; apply N; now left|].
    rewrite IH by (intros I; apply N; now right). reflexivity. }
  assert (B : forall w r, ~ In c w -> split_on c (w ++ c :: r) = w :: split_on c r).
  { induction w as [|x w IH]; intros r N; cbn [app split_on]; [now rewrite (proj2 (byte_eqb_eq c c) eq_refl)|].
    destruct (byte_eqb x c) eqn:E; [apply byte_eqb_eq in E; subst; exfalso; apply N; now left|]. rewrite IH by (intros I; apply N; now right). reflexivity. }
  induction F as [|w l NW F IH]; [congruence|]. intros _. destruct l as [|w2 l]; [exact (A w NW)|]. rewrite join_cons by discriminate. rewrite B by exact NW. now rewrite IH by discriminate.
Qed.
Theorem c75_pivot_args_exactly v l : pivot_args_from v = Some l <-> v = listed l /\ Forall (fun w => ~ In ","%byte w) l /\ l <> [[]].
Proof.
  unfold pivot_args_from, listed. rewrite obind_some. split.
  - intros (i & B & E). apply bracketed_iff in B. destruct i as [|x i].
    + injection E as <-. split; [exact B|]. split; [constructor|discriminate].
    + assert (l = split_on ","%byte (x :: i)) as -> by congruence. split; [rewrite split_join; exact B|]. split; [apply split_free|]. intros X. apply (f_equal (join ","%byte)) in X. rewrite split_join in X. discriminate.
  - intros (-> & F & N). exists (join ","%byte l). split; [apply bracketed_iff; reflexivity|]. destruct l as [|w l]; [reflexivity|].
    pose proof (join_free_split "," (w :: l) F ltac:(discriminate)) as J. destruct (join "," (w :: l)) as [|x i] eqn:E; [|congruence].
    exfalso. cbn in J. congruence.
Qed.
Print Assumptions c75_pivot_args_exactly.
(** The other readers: numbers, switches, policies, kinds of files, bridges. *)
Theorem c75_option_values :
  (forall v b, bool_from v = Some b <-> v = if b then bs "true" else bs "false")
  /\ (forall v t, display_from v = Some t <-> v = match t with DtManifest => bs "manifest" | DtManifestEnvelope => bs "manifest-envelope" | DtGenesisOutput => bs "genesis-output" end)
  /\ (forall v n, parse_unsigned (2 ^ 32) v = Some n <-> decimal v n)
  /\ (forall v p, restart_from v = Some p <-> map ascii_lower v = match p with Never => bs "never" | Always => bs "always" end)
  /\ (forall v l, bridge_config_from v = Some l -> NoDup (map bridge_port l)).
Proof.
  split; [|split; [|split; [|split]]].
  - intros v b. unfold bool_from. destruct (bytes_eqb v (bs "true")) eqn:A; [apply bytes_eqb_eq in A as ->; destruct b; split; intros X; congruence || discriminate|].
    destruct (bytes_eqb v (bs "false")) eqn:B; [apply bytes_eqb_eq in B as ->; destruct b; split; intros X; congruence || discriminate|].
    split; [discriminate|]. intros ->. destruct b; discriminate.
  - intros v t. unfold display_from. destruct (bytes_eqb v (bs "manifest")) eqn:A; [apply bytes_eqb_eq in A as ->; destruct t; split; intros X; congruence || discriminate|].
    destruct (bytes_eqb v (bs "manifest-envelope")) eqn:B; [apply bytes_eqb_eq in B as ->; destruct t; split; intros X; congruence || discriminate|].
    destruct (bytes_eqb v (bs "genesis-output")) eqn:C; [apply bytes_eqb_eq in C as ->; destruct t; split; intros X; congruence || discriminate|].
    split; [discriminate|]. intros ->. destruct t; discriminate.
  - exact decimal_iff.
  - intros v p. unfold restart_from. remember (map ascii_lower v) as w eqn:W. clear W v. destruct (bytes_eqb w (bs "never")) eqn:A; [apply bytes_eqb_eq in A as ->; destruct p; split; intros X; congruence || discriminate|].
    destruct (bytes_eqb w (bs "always")) eqn:B; [apply bytes_eqb_eq in B as ->; destruct p; split; intros X; congruence || discriminate|].
    split; [discriminate|]. intros ->. destruct p; discriminate.
  - intros v l E. unfold bridge_config_from in E. apply obind_some in E as (l' & _ & E). destruct (distinct_ports l') eqn:D; [|discriminate]. injection E as ->. clear v.
    induction l as [|b r IH]; [constructor|]. cbn [distinct_ports] in D. apply andb_true_iff in D as [D1 D2]. cbn [map]. constructor; [|auto].
    intros I. apply in_map_iff in I as (x & X & I). apply negb_true_iff in D1. assert (Y : existsb (fun x => bridge_port x =? bridge_port b) r = true) by (apply existsb_exists; exists x; split; [exact I|apply N.eqb_eq; exact X]). congruence.
Qed.
Print Assumptions c75_option_values.
(** Two consequences worth knowing: a dev boot cannot be given a bridge
    configuration (it is refused, although the handler would read it), and a
    manifest approval or a re-encryption cannot be given a PIN file. *)
Theorem c75_options_that_cannot_be_given name args a :
  (client_run (name :: bs "dangerous-dev-boot" :: args) = Ran a -> ~ In (bs "--bridge-config") args)
  /\ (client_run (name :: bs "approve-manifest" :: args) = Ran a -> ~ In (bs "--current-pin-path") args)
  /\ (client_run (name :: bs "proxy-re-encrypt-share" :: args) = Ran a -> ~ In (bs "--current-pin-path") args).
Proof.
  assert (G : forall word n, client_run (name :: word :: args) = Ran a -> In (bs "--" ++ bs n) args ->
    sin n (vals (options_of (command_of a)) ++ flags (options_of (command_of a)) ++ bare (options_of (command_of a))) = true /\ word = word_of a).
  { intros word n E J. destruct (c75_unknown_options_are_refused _ _ _ _ _ E J) as (k & K & I). apply bs_inj in K as <-. apply c75_does_what_the_command_line_says in E as (W & _).
    split; [apply sin_iff; rewrite !in_app_iff; tauto|exact W]. }
  split; [|split]; intros E J.
  - destruct (G _ "bridge-config"%string E J) as [S W]. destruct a; try discriminate W; discriminate S.
  - destruct (G _ "current-pin-path"%string E J) as [S W]. destruct a; try discriminate W; discriminate S.
  - destruct (G _ "current-pin-path"%string E J) as [S W]. destruct a; try discriminate W; discriminate S.
Qed.
Print Assumptions c75_options_that_cannot_be_given.

Example c75_nontrivial :
  client_run [bs "qos_client"; bs "boot-standard"; bs "--host-port"; bs "3000"; bs "--unsafe-skip-attestation"; bs "--host-ip"; bs "10.0.0.1"; bs "--pivot-path"; bs "p";
              bs "--manifest-envelope-path"; bs "e"; bs "--pcr3-preimage-path"; bs "q"] = Ran (DoBootStandard (bs "http://10.0.0.1:3000/qos/message") (bs "p") (bs "e") (bs "q") true)
  /\ client_run [bs "qos_client"; bs "boot-standard"; bs "--host-port"; bs "3000"; bs "--host-ip"; bs "10.0.0.1"; bs "--pivot-path"; bs "p"; bs "--unsafe-skip"; 
              bs "--manifest-envelope-path"; bs "e"; bs "--pcr3-preimage-path"; bs "q"] = Failed
  /\ client_run [bs "qos_client"; bs "shamir-reconstruct"; bs "--share"; bs "a"; bs "--output-path"; bs "o"; bs "--share"; bs "b"] = Ran (DoShamirReconstruct [bs "a"; bs "b"] (bs "o"))
  /\ client_run [bs "qos_client"; bs "display"; bs "--help"] = PrintedHelp
  /\ pivot_args_from (bs "[--port,80]") = Some [bs "--port"; bs "80"].
Proof. vm_compute. repeat split; reflexivity. Qed.
