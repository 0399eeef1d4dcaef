(** C65: the ceremonies, end to end. *)
From Coq Require Import ZifyBool ZifyN ZifyNat Permutation.
From Verif Require Import Base Utf8 Hex HexProofs Borsh BorshProofs Json Types TypesBorsh TypesJson StorageProofs MsgBorsh Msg World Run FsProofs Attest Services
  ServiceProofs BootProofs State SpecProtocol HandleProofs Reach Invariant ProtocolProofs
  SpecApproval ApprovalProofs SpecAttest AttestProofs SpecHistory SpecExport ExportProofs Shamir ShamirProofs PropsShamir
  SpecGenesis PropsGenesis PropsDocs CalmProofs PropsBoot PropsLive
  Client SpecClient ClientProofs ClientSets ClientFiles ClientApprove CodecExamples Toy ToyRuns ToyClient PropsClient PropsApprove PropsReencrypt
  PropsGenerate PropsEnvelope PropsGenesisClient PropsGenesisForgery.
Local Open Scope N_scope.

(** *** Specification: who does what. *)
(** Member [m] of the manifest set reviews the manifest [text] against the operator's files and confirms every question. *)
Record reviews (Y : sys) (a : generate_args) (text : bytes) (b : approve_args) (m : quorum_member) : Prop := Reviews {
  rv_manifest : aa_manifest b = Some text;
  rv_mset : aa_manifest_set b = ga_manifest_set a; rv_sset : aa_share_set b = ga_share_set a; rv_pset : aa_patch_set b = ga_patch_set a;
  rv_pcrs : aa_pcrs b = ga_pcrs a; rv_role : aa_pcr3 b = ga_pcr3 a; rv_pivot : aa_pivot_hash b = ga_pivot_hash a; rv_qkey : aa_quorum_key b = ga_quorum_key a;
  rv_self : exists seed ek sk, personal_key Y (aa_secret b) seed ek sk /\ m = QuorumMember (aa_alias b) (ek ++ sk);
  rv_yes : aa_auto b = false /\ all_confirmed 8 (aa_stdin b) }.
(** The file that the reviewer's command leaves. *)
Definition approval_left (Y : sys) (b : approve_args) : list (bytes * option bytes) :=
  match snd (approve_manifest Y b) with Some (n, t) => [(n, Some t)] | None => [] end.
(** Member [m] of the share set re-encrypts the share he took out of the genesis output to the enclave with document [cose]. *)
Record reencrypts (Y : sys) (a : generate_args) (etext cose : bytes) (output gdoc : option bytes) (m : quorum_member) (p : proxy_args) : Prop := Reencrypts {
  re_envelope : pa_envelope p = Some etext; re_doc : pa_doc p = Some cose; re_role : pa_pcr3 p = ga_pcr3 a; re_mset : pa_manifest_set p = ga_manifest_set a;
  re_self : pa_alias p = m_alias m /\ exists seed ek sk, personal_key Y (pa_secret p) seed ek sk /\ m_pub_key m = ek ++ sk;
  re_share : exists c, pa_share p = Some c /\ after_genesis Y (pa_secret p) (m_alias m) output gdoc (ga_pcrs a) (ga_pcr3 a) false (pa_now p) = Some c;
  re_safe : pa_skip p = false /\ pa_eph_override p = None;
  re_yes : pa_auto p = false /\ all_confirmed 4 (pa_stdin p) }.
(** What he then posts. *)
Definition posts (Y : sys) (p : proxy_args) (r : msg) : Prop :=
  exists asked t c, proxy_re_encrypt_share Y p = (asked, Some (t, c)) /\ share_request (Some c) (Some t) = Some r.
(** An enclave that has not booted. *)
Definition unbooted {Y} (D : device Y) (s : st Y) : Prop :=
  reach Y s /\ st_phase s = WaitingForBootInstruction /\ (forall f, st_fs s (Main f) = None) /\ blank D (st_nsm s).
(** The laws of the world in which the ceremonies are held. *)
Record laws {Y} (D : device Y) : Prop := Laws {
  lw_sys : sys_ok Y; lw_calm : no_faults Y; lw_crypto : crypto_ok Y; lw_sharing : sharing_ok Y; lw_total : primitives_total Y;
  lw_device : working D; lw_sig : forall seed x, length (s_sign Y seed x) = 64%nat; lw_root : 2 * lenN (s_root Y) < STR_MAX_LENGTH }.

Section Ceremony.
  Context {Y : sys} (D : device Y) (LW : laws D).

  Lemma directory_alias d t ms m : directory_set Y d t ms -> text_names d -> In m ms -> utf8_valid (m_alias m) = true /\ ~ In "."%byte (m_alias m).
  Proof.
    intros [(files & others & P & Fk & _ & ms' & F2 & Pm & _) _] TN I. apply (Permutation_in _ Pm) in I.
    assert (X : exists e, In e files /\ key_in Y e m).
    { clear - F2 I. induction F2 as [|e m' l l' K F IH]; [destruct I|]. destruct I as [->|I]; [exists e; split; [now left|exact K]|].
      destruct (IH I) as (e' & I' & K'). exists e'. split; [now right|exact K']. }
    destruct X as (e & Ie & (St & _)). split; [|apply St].
    eapply stem_valid; [|exact St]. unfold text_names in TN. rewrite Forall_forall in TN. apply TN. eapply Permutation_in; [apply Permutation_sym, P|]. apply in_or_app. now left.
  Qed.

  (** A reviewer leaves one approval file, with his approval in it. *)
  Lemma review_leaves a text m b who ms : reviews Y a text b who -> described_by Y a m -> manifest_in (Some text) m ->
    generate_manifest Y a = Some text \/ generate_manifest_v2 Y a = Some text -> text_inputs a ->
    directory_set Y (ga_manifest_set a) (threshold ms) (members ms) -> In who (members ms) ->
    exists e ap, approval_left Y b = [e] /\ approval_entry e /\ approval_in e ap /\ signed Y (manifest_hash Y m) ap /\ ap_member ap = who.
  Proof.
    intros R De Mi G TI DS I. destruct (rv_self _ _ _ _ _ R) as (seed & ek & sk & PK & Ew). destruct (rv_yes _ _ _ _ _ R) as [Au Ye].
    destruct (c60_approvable Y a text b seed ek sk (lw_sys D LW) (lw_root D LW) TI G (rv_manifest _ _ _ _ _ R) (rv_mset _ _ _ _ _ R) (rv_sset _ _ _ _ _ R)
      (rv_pset _ _ _ _ _ R) (rv_pcrs _ _ _ _ _ R) (rv_role _ _ _ _ _ R) (rv_pivot _ _ _ _ _ R) (rv_qkey _ _ _ _ _ R) PK Au Ye) as (asked & [name t] & H).
    destruct (directory_alias _ _ _ _ DS (ti_mset a TI) I) as [UA ND]. rewrite Ew in UA, ND. cbn [m_alias] in UA, ND.
    exists (name, Some t). unfold approval_left. rewrite H. cbn [snd].
    assert (NH : ~ hidden name).
    { apply c57_approve_iff in H as (_ & _ & _ & m' & _ & _ & _ & _ & -> & _). intros (r & E). destruct (aa_alias b) as [|x l]; [discriminate E|].
      cbn [app bs String.list_byte_of_string] in E. apply ND. left. cbn in E. congruence. }
    pose proof (rv_manifest _ _ _ _ _ R) as RM. assert (Mb : manifest_in (aa_manifest b) m) by (rewrite RM; exact Mi).
    destruct (c61_collects_what_was_approved Y b asked name t m (lw_sys D LW) (lw_crypto D LW) UA (lw_sig D LW) NH H Mb) as (AE & _).
    apply c57_approve_iff in H as (seed' & ek' & sk' & m' & PK' & Mi' & _ & _ & _ & Et).
    assert (m' = m) as ->. { destruct Mb as (c1 & E1 & D1), Mi' as (c2 & E2 & D2). congruence. }
    assert (seed' = seed /\ ek' = ek /\ sk' = sk) as (-> & -> & ->).
    { destruct PK as (c1 & E1 & S1 & P1), PK' as (c2 & E2 & S2 & P2). assert (c2 = c1) as -> by congruence. assert (seed' = seed) as -> by congruence. split; [reflexivity|]. split; congruence. }
    exists (Approval (s_sign Y seed (manifest_hash Y m)) who). split; [reflexivity|]. split; [exact AE|].
    pose proof PK as (c & _ & _ & P). destruct (ok_pair Y (lw_sys D LW) _ _ _ P) as (L1 & L2 & _). split; [|split; [|reflexivity]].
    - exists t. split; [reflexivity|]. rewrite Et, <- Ew. apply approval_reads. unfold portable. rewrite Ew. cbn [ap_member m_alias m_pub_key ap_signature].
      split; [exact UA|]. rewrite !lenN_length, app_length, L1, L2, (lw_sig D LW). split; reflexivity.
    - exists ek, sk. rewrite Ew. split; [now apply (pair_has_keys (lw_sys D LW) seed)|]. cbn [ap_signature]. exact (cr_verify Y (lw_crypto D LW) seed ek sk _ P).
  Qed.

  Lemma reviews_collect a text m ms (G : generate_manifest Y a = Some text \/ generate_manifest_v2 Y a = Some text) : text_inputs a ->
    described_by Y a m -> manifest_in (Some text) m -> directory_set Y (ga_manifest_set a) (threshold ms) (members ms) ->
    forall bs ws, Forall2 (reviews Y a text) bs ws -> incl ws (members ms) ->
    exists l, collected (flat_map (approval_left Y) bs) l /\ map ap_member l = ws /\ Forall (signed Y (manifest_hash Y m)) l.
  Proof.
    intros TI De Mi DS bs ws F. induction F as [|b w bs ws R F IH]; intros I.
    - exists []. split; [exists [], []; repeat split; constructor|]. split; [reflexivity|constructor].
    - destruct (IH (fun x H => I x (or_intror H))) as (l & (files & others & P & A & B & C) & M & Sg).
      destruct (review_leaves a text m b w ms R De Mi G TI DS (I w (or_introl eq_refl))) as (e & ap & L & E1 & E2 & E3 & E4).
      exists (ap :: l). split; [|split; [cbn; now rewrite E4, M|now constructor]].
      exists (e :: files), others. cbn [flat_map]. rewrite L. cbn [app]. split; [now constructor|]. split; [now constructor|]. split; [exact B|now constructor].
  Qed.
End Ceremony.

(** ** A quorum key is born in a genesis ceremony on one enclave.  An operator writes
    a manifest for it; a threshold of reviewers approve it; the envelope boots on a
    second enclave of the same release; a threshold of the genesis members re-encrypt
    their shares to it: it then holds the key of the genesis ceremony - whatever
    other requests it is sent in between. *)
Theorem c65_ceremonies_provision_the_key : forall Y (D : device Y), laws D ->
  (* the genesis ceremony *)
  forall set dr s0 x o s0' pcrs role_file role output,
  handle Y (BootGenesisRequest set dr) s0 = (BootGenesisResponse x o, s0') -> dv_good D (st_nsm s0) ->
  release_pcrs pcrs (dv_pcr D (st_nsm s0) 0) (dv_pcr D (st_nsm s0) 1) (dv_pcr D (st_nsm s0) 2) ->
  first_line_is role_file role -> dv_pcr D (st_nsm s0) 3 = s_sha384 Y (repeat x00 48 ++ role) -> output_file output o ->
  exists gcose seed, x = RAttestation gcose /\ seed_for Y seed (go_quorum_key o) /\
  (* the manifest *)
  forall a text pv ms, text_inputs a -> ga_pcrs a = pcrs -> ga_pcr3 a = role_file -> public_key_file Y (ga_quorum_key a) (go_quorum_key o) ->
  directory_set Y (ga_share_set a) (gs_threshold set) (gs_members set) ->
  directory_set Y (ga_manifest_set a) (threshold ms) (members ms) -> proper_members Y (members ms) ->
  (forall m1 m2, In m1 (members ms) -> In m2 (members ms) -> member_hash Y m1 = member_hash Y m2 -> m1 = m2) ->
  (exists l, first_line_is (ga_pivot_hash a) l /\ decode l = Ok (s_sha256 Y pv)) ->
  generate_manifest Y a = Some text \/ generate_manifest_v2 Y a = Some text ->
  (* its reviewers *)
  forall reviewers who, Forall2 (reviews Y a text) reviewers who -> incl who (members ms) -> NoDup who -> threshold ms <= lenN who ->
  exists etext e, generate_manifest_envelope Y (flat_map (approval_left Y) reviewers) (Some text) = Some etext /\ envelope_in (Some etext) e /\
  (* the boot *)
  forall s, unbooted D s -> (forall i, i < 4 -> dv_pcr D (st_nsm s) i = dv_pcr D (st_nsm s0) i) ->
  exists cose s', handle Y (BootStandardJsonEnvelopeRequest e pv) s = (BootStandardResponse (RAttestation cose), s') /\
  (* the holders *)
  forall (holders : list (nat * proxy_args)), NoDup (map fst holders) -> lenN holders = gs_threshold set ->
  Forall (fun h => dv_valid D (pa_now (snd h)) /\ exists m, nth_error (gs_members set) (fst h) = Some m /\ reencrypts Y a etext cose output (Some gcose) m (snd h)) holders ->
  exists rs, Forall2 (fun h r => posts Y (snd h) r) holders rs /\
  forall all, Forall (fun q => is_provision q = false -> wf_req q = true) all -> filter is_provision all = rs ->
    st_phase (snd (serve Y all s')) = QuorumKeyProvisioned /\ content (st_fs (snd (serve Y all s'))) Quorum = Some (encode seed).
Proof.
  intros Y D LW set dr s0 x o s0' pcrs role_file role output H Gd RP RL P3 OF. pose proof LW as [OK NF CR SH TOT WK SL RT].
  destruct (c59_honest_ceremony_accepted Y D OK CR SH WK set dr s0 x o s0' pcrs role_file role output H Gd RP RL P3 OF)
    as (gcose & seed & shares & -> & SF & (coeffs & Dr & Gn) & LS & _ & TAKE & _).
  exists gcose, seed. split; [reflexivity|]. split; [exact SF|].
  intros a text pv ms TI Ep Er QK DSs DSm PM HI PV G reviewers who RV Inc ND Th. subst pcrs role_file.
  assert (X : exists m, described_by Y a m /\ manifest_in (Some text) m /\ wf_manifest m = true).
  { destruct (c60_reads_back Y a text OK RT TI G) as (m & De & Mi). exists m. split; [exact De|]. split; [exact Mi|].
    apply (described_wf OK a m RT TI De).
    destruct G as [G|G].
    - apply c60_v1_iff in G as (y & Dy & _ & ->).
      destruct (manifest_storage (VM1 y) (described_wf OK a (VM1 y) RT TI Dy I)) as (b & S & R). destruct Mi as (c & E & Dc).
      cbn [manifest_to_storage_vec] in S. assert (m = VM1 y) as -> by congruence. exact I.
    - apply c60_v2_iff in G as (y & Dy & _ & En & St).
      destruct (manifest_storage (VM2 y) (described_wf OK a (VM2 y) RT TI Dy En)) as (b & S & R). destruct Mi as (c & E & Dc).
      assert (m = VM2 y) as -> by congruence. exact En. }
  destruct X as (m & De & Mi & Wm). pose proof (db_agrees _ _ _ De) as AG.
  assert (Ems : vm_manifest_set m = ms) by (apply (dset_unique Y (ga_manifest_set a)); [apply (ag_mset _ _ _ _ _ _ _ _ _ AG)|exact DSm]).
  assert (Ess : vm_share_set m = MemberSet (gs_threshold set) (gs_members set)) by (apply (dset_unique Y (ga_share_set a)); [apply (ag_sset _ _ _ _ _ _ _ _ _ AG)|exact DSs]).
  assert (Eqk : ns_quorum_key (vm_namespace m) = go_quorum_key o) by (apply (key_unique Y (ga_quorum_key a)); [apply (ag_key _ _ _ _ _ _ _ _ _ AG)|exact QK]).
  assert (Eph : vm_pivot_hash m = s_sha256 Y pv) by (apply (pivot_unique (ga_pivot_hash a)); [apply (ag_pivot _ _ _ _ _ _ _ _ _ AG)|exact PV]).
  destruct (ag_enclave _ _ _ _ _ _ _ _ _ AG) as (RP' & (role' & RL' & P3') & _ & _).
  assert (Epc : pcr0 (vm_enclave m) = dv_pcr D (st_nsm s0) 0 /\ pcr1 (vm_enclave m) = dv_pcr D (st_nsm s0) 1 /\ pcr2 (vm_enclave m) = dv_pcr D (st_nsm s0) 2).
  { apply pcrs_file_iff in RP, RP'. split; [congruence|]. split; congruence. }
  assert (Erl : role' = role). { apply find_pcr3_iff in RL, RL'. congruence. } subst role'.
  destruct (reviews_collect D LW a text m ms G TI De Mi DSm reviewers who RV Inc) as (l & Co & Ml & Sg).
  assert (AP : approved Y (vm_manifest_set m) (manifest_hash Y m) l).
  { rewrite Ems. split; [exact PM|]. split; [|split; [rewrite Ml; exact ND|]].
    - intros ap I. split; [apply Inc; rewrite <- Ml; now apply in_map|]. rewrite Forall_forall in Sg. now apply Sg.
    - rewrite <- (map_length ap_member), Ml, <- lenN_length. exact Th. }
  rewrite <- Ems in HI.
  destruct (c61_envelope_complete Y (flat_map (approval_left Y) reviewers) (Some text) m l Mi Wm Co AP HI) as (etext & e0 & GE & _).
  exists etext. destruct (c61_reads_back Y _ _ _ m GE Mi Wm) as (e & EI & Em & Esh & CA & We). exists e. split; [exact GE|]. split; [exact EI|].
  intros s (R & Ph & FS & BL) SAME.
  destruct (c64_approved_boot_succeeds Y D OK NF WK (proj1 TOT) s (BootStandardJsonEnvelopeRequest e pv) e pv eq_refl We Ph (FS _) (FS _) (FS _) BL CA Esh)
    as (cose & d & s' & setup & ek & sk & HB & PhB & (A1 & A2 & A3 & A4) & DM & DC & PKd & SPs & CE).
  { rewrite Em. symmetry. exact Eph. }
  exists cose, s'. split; [exact HB|]. intros holders NDh Lh FH.
  destruct (c58_holders_provision_the_enclave Y OK NF CR SH SL s (BootStandardJsonEnvelopeRequest e pv) e pv _ s' R We eq_refl eq_refl HB eq_refl) as (setup' & CE' & PROV).
  assert (setup' = setup) as -> by (apply encode_inj; congruence). clear CE'. rewrite Em in *.
  assert (GEN : forall now, dv_valid D now -> genuine Y cose now d m role).
  { intros now V. destruct Epc as (E0 & E1 & E2).
    constructor; [exact A1|exact A2|exact (A4 now V)|exact A3|exact P3'| |exact DC].
    rewrite P3', <- P3, E0, E1, E2. rewrite <- !SAME by lia. exact DM. }
  assert (Y0 : Forall (fun h => exists r, posts Y (snd h) r /\ holder_posts Y m (ek ++ sk) (nth (fst h) shares []) r) holders).
  { apply Forall_forall. intros [i p] Ih. rewrite Forall_forall in FH. destruct (FH _ Ih) as (V & mm & Emm & RE). cbn [fst snd] in *.
    destruct RE as [R1 R2 R3 R4 (R5 & own & e1 & g1 & R6 & R7) (c & R8 & R9) (R10 & R11) (R12 & R13)].
    destruct (TAKE _ i mm (pa_secret p) own e1 g1 V Emm R6 R7) as (c' & T1 & T2). assert (c' = c) as -> by congruence.
    destruct (ok_pair Y OK _ _ _ SPs) as (Le & Ls & Pe & Ps).
    assert (HKd : has_keys Y (QuorumMember [] (ek ++ sk)) ek sk) by (split; [reflexivity|]; auto).
    destruct (proj2 TOT ek (pa_rng p) (nth i shares []) Pe) as (cc & EC).
    assert (MK : QuorumMember (pa_alias p) (e1 ++ g1) = mm) by (rewrite R5, <- R7; destruct mm; reflexivity).
    assert (Imm : In mm (gs_members set)) by (eapply nth_error_In; exact Emm).
    destruct (c58_reencrypt_complete Y p own e1 g1 e c role cose d ek (nth i shares []) cc R6) as (asked & HP).
    { rewrite R1. exact EI. } { exact R8. } { rewrite R3. exact RL. } { exact R2. } { rewrite Em. exact (GEN _ V). }
    { rewrite R11. exists (ek ++ sk), sk. split; [exact PKd|exact HKd]. }
    { rewrite R4, Em. apply (ag_mset _ _ _ _ _ _ _ _ _ AG). } { rewrite Em. exact HI. }
    { apply check_sound in CA. exact CA. } { rewrite Em, Ess, MK. exact Imm. } { intros _. exact R13. } { exact T2. } { exact EC. }
    rewrite Em in HP.
    destruct (directory_alias _ _ _ _ DSs (ti_sset a TI) Imm) as [UA _]. rewrite <- R5 in UA.
    pose proof HP as HP'. apply (c58_honest_request Y p asked _ cc OK CR SL UA R11) in HP' as (_ & _ & _ & _ & _ & _ & r & _ & _ & _ & _ & _ & SR & _).
    exists r. split; [exists asked; eexists; exists cc; split; [exact HP|exact SR]|].
    exists p, asked. eexists. exists cc, e, cose, d. split; [exact HP|]. split; [exact SR|]. split; [exact R11|]. split; [exact UA|].
    split; [rewrite R1; exact EI|]. split; [exact Em|]. split; [exact R2|]. split; [exact A1|]. split; [exact PKd|].
    exists own, e1, g1, c. split; [exact R6|]. split; [exact R8|exact T2]. }
  assert (Z : exists rs, Forall2 (fun h r => posts Y (snd h) r) holders rs /\ Forall2 (holder_posts Y m (ek ++ sk)) (map (fun h => nth (fst h) shares []) holders) rs).
  { clear - Y0. induction Y0 as [|h l (r & A & B) F (rs & IH1 & IH2)]; [exists []; split; constructor|]. exists (r :: rs). split; [now constructor|]. cbn [map]. now constructor. }
  destruct Z as (rs & PO & HPs). exists rs. split; [exact PO|]. intros all Wall Fall.
  pose proof (c25_shares_distinct _ _ _ _ _ Gn) as [_ NDs].
  assert (IN : forall h, In h holders -> (fst h < length shares)%nat).
  { intros h Ih. rewrite Forall_forall in FH. destruct (FH _ Ih) as (_ & mm & Emm & _). rewrite LS. apply nth_error_Some. congruence. }
  destruct (PROV ek sk coeffs seed (lenN (gs_members set)) shares (map (fun h => nth (fst h) shares []) holders) all SPs) as (P1 & P2 & _).
  - rewrite Ess. exact Dr.
  - rewrite Ess. exact Gn.
  - rewrite Eqk. exact SF.
  - intros z Iz. apply in_map_iff in Iz as (h & <- & Ih). apply nth_In. now apply IN.
  - clear - NDh NDs IN. induction holders as [|h l IH]; cbn [map]; [constructor|]. cbn [map] in NDh. inversion NDh as [|? ? NI NDl]; subst. constructor.
    + intros Hin. apply in_map_iff in Hin as (h' & Eh & Ih). apply NI. apply in_map_iff. exists h'. split; [|exact Ih].
      apply (NoDup_nth shares []); [exact NDs|apply IN; now right|apply IN; now left|exact Eh].
    + apply IH; [exact NDl|]. intros h' Ih. apply IN. now right.
  - rewrite lenN_length, map_length, <- lenN_length, Ess. exact Lh.
  - exact Wall.
  - rewrite Fall. exact HPs.
  - split; [exact P1|exact P2].
Qed.
Print Assumptions c65_ceremonies_provision_the_key.

(** A concrete ceremony: 2 of 3 genesis members, 2 of 3 reviewers, the second and the third holder. *)
Lemma ts_laws : laws ts_device.
Proof.
  constructor; [exact TS_ok|intros n; reflexivity|exact TS_crypto|apply shamir_sharing| |exact ts_works| |reflexivity].
  - split; [exact TS_seeds|]. intros. eexists. reflexivity.
  - intros seed x. apply toy_hash_length.
Qed.
Definition cer_args : generate_args :=
  GenerateArgs 7 (bs "a/b") Always [bs "q"] [BServer 3000 (bs "0.0.0.0")] None false op_pivot op_pcrs op_role (Some (encode (go_quorum_key gout))) op_mset op_mset None.
Definition cer_text : bytes := match generate_manifest_v2 TS cer_args with Some t => t | None => [] end.
Definition cer_review (seed : bytes) (alias : string) : approve_args :=
  ApproveArgs (Some (encode seed)) (Some cer_text) op_pcrs op_role op_pivot (Some (encode (go_quorum_key gout))) op_mset op_mset None (bs alias) false (yes_yes 8).
Definition cer_holder (seed : bytes) (alias : string) (share etext cose : bytes) : proxy_args :=
  ProxyArgs (Some (encode seed)) (Some share) (Some cose) op_role (Some etext) op_mset (bs alias) false None false (yes_yes 4) 0 [].
Definition cer_share (seed : bytes) (alias : string) : bytes :=
  match after_genesis TS (Some (encode seed)) (bs alias) (Some (enc c_genesis_output gout)) (Some gcose) op_pcrs op_role false 0 with Some c => c | None => [] end.
Lemma yes_confirmed n : ask_all (repeat (QName []) n) (yes_yes n) = (repeat (QName []) n, true) -> all_confirmed n (yes_yes n).
Proof. intros E. apply ask_all_true in E as [_ E]. now rewrite repeat_length in E. Qed.
Lemma toy_key seed : length seed = 32%nat -> personal_key TS (Some (encode seed)) seed (firstn 65 (pub_of seed)) (skipn 65 (pub_of seed)).
Proof.
  intros L. exists (encode seed). split; [reflexivity|]. split; [now apply seed_of_hex_encode|].
  change (s_pair TS) with toy_pair. unfold pub_of. destruct (toy_pair seed) as [[e g]|] eqn:E; [|unfold toy_pair in E; rewrite L in E; discriminate E].
  destruct (ok_pair TS TS_ok seed e g E) as (Le & _). rewrite <- Le, firstn_app, Nat.sub_diag, firstn_all, firstn_O, app_nil_r, skipn_app, skipn_all, Nat.sub_diag. reflexivity.
Qed.
Lemma toy_self seed : firstn 65 (pub_of seed) ++ skipn 65 (pub_of seed) = pub_of seed. Proof. apply firstn_skipn. Qed.
Lemma cer_reviews seed alias who : length seed = 32%nat -> who = QuorumMember (bs alias) (pub_of seed) -> reviews TS cer_args cer_text (cer_review seed alias) who.
Proof.
  intros L ->. constructor; try reflexivity.
  - exists seed, (firstn 65 (pub_of seed)), (skipn 65 (pub_of seed)). split; [now apply toy_key|]. cbn [cer_review aa_alias]. now rewrite toy_self.
  - split; [reflexivity|]. apply yes_confirmed. vm_compute. reflexivity.
Qed.
Lemma cer_reencrypts seed alias who etext cose : length seed = 32%nat -> who = QuorumMember (bs alias) (pub_of seed) ->
  after_genesis TS (Some (encode seed)) (bs alias) (Some (enc c_genesis_output gout)) (Some gcose) op_pcrs op_role false 0 = Some (cer_share seed alias) ->
  reencrypts TS cer_args etext cose (Some (enc c_genesis_output gout)) (Some gcose) who (cer_holder seed alias (cer_share seed alias) etext cose).
Proof.
  intros L -> A. constructor; try reflexivity.
  - split; [reflexivity|]. exists seed, (firstn 65 (pub_of seed)), (skipn 65 (pub_of seed)). split; [now apply toy_key|]. cbn [m_pub_key]. now rewrite toy_self.
  - exists (cer_share seed alias). split; [reflexivity|exact A].
  - split; reflexivity.
  - split; [reflexivity|]. apply yes_confirmed. vm_compute. reflexivity.
Qed.
Example c65_nontrivial : exists etext e cose s' rs,
  generate_manifest_envelope TS (flat_map (approval_left TS) [cer_review seed_c "carol"; cer_review seed_a "alice"]) (Some cer_text) = Some etext
  /\ envelope_in (Some etext) e /\ handle TS (BootStandardJsonEnvelopeRequest e pivot) gs0 = (BootStandardResponse (RAttestation cose), s')
  /\ Forall2 (posts TS) [cer_holder seed_b "bob" (cer_share seed_b "bob") etext cose; cer_holder seed_c "carol" (cer_share seed_c "carol") etext cose] rs
  /\ st_phase (snd (serve TS (StatusRequest :: rs) s')) = QuorumKeyProvisioned
  /\ exists seed, content (st_fs (snd (serve TS (StatusRequest :: rs) s'))) Quorum = Some (encode seed) /\ seed_for TS seed (go_quorum_key gout).
Proof.
  destruct c59_honest_nontrivial as (_ & _ & _ & _ & Gd & (s0' & H) & RP & RL & P3 & _ & OF & _).
  destruct (c65_ceremonies_provision_the_key TS ts_device ts_laws gset None gs0 (RAttestation gcose) gout s0' op_pcrs op_role (repeat x06 48) (Some (enc c_genesis_output gout))
    H Gd RP RL P3 OF) as (gc & seed & Eg & SF & C). assert (gc = gcose) as -> by congruence. clear Eg.
  destruct (C cer_args cer_text pivot mset) with (reviewers := [cer_review seed_c "carol"; cer_review seed_a "alice"]) (who := [carol; alice]) as (etext & e & GE & EI & B).
  - constructor; try reflexivity; [repeat constructor|repeat constructor| |]; apply Forall_forall, (forallb_forall (fun e : bytes * option bytes => utf8_valid (fst e))); reflexivity.
  - reflexivity.
  - reflexivity.
  - exists (encode (go_quorum_key gout)), (firstn 65 (go_quorum_key gout)), (skipn 65 (go_quorum_key gout)). split; [reflexivity|].
    split; [vm_compute; reflexivity|]. apply public_keys. vm_compute. reflexivity.
  - change (directory_set TS op_mset (threshold mset) (members mset)). apply get_set_iff. vm_compute. reflexivity.
  - apply get_set_iff. vm_compute. reflexivity.
  - apply proper_iff. vm_compute. reflexivity.
  - intros m1 m2 I1 I2 E. cbn [members mset In] in I1, I2. destruct I1 as [<-|[<-|[<-|[]]]], I2 as [<-|[<-|[<-|[]]]]; try reflexivity; vm_compute in E; discriminate E.
  - apply pivot_hash_iff. vm_compute. reflexivity.
  - right. vm_compute. reflexivity.
  - constructor; [now apply cer_reviews|]. constructor; [now apply cer_reviews|constructor].
  - intros m [<-|[<-|[]]]; cbn; auto.
  - repeat constructor; cbn; intuition discriminate.
  - cbn. lia.
  - destruct (B gs0) as (cose & s' & HB & K).
    { split; [apply R_init; reflexivity|]. split; [reflexivity|]. split; [reflexivity|]. split; [split; reflexivity|]. intros i [->| ->]; split; reflexivity. }
    { reflexivity. }
    destruct (K [(1%nat, cer_holder seed_b "bob" (cer_share seed_b "bob") etext cose); (2%nat, cer_holder seed_c "carol" (cer_share seed_c "carol") etext cose)]) as (rs & PO & FIN).
    + repeat constructor; cbn; intuition discriminate.
    + reflexivity.
    + constructor; [|constructor; [|constructor]]; (split; [exact I|]).
      * exists bob. split; [reflexivity|]. apply cer_reencrypts; [reflexivity|reflexivity|vm_compute; reflexivity].
      * exists carol. split; [reflexivity|]. apply cer_reencrypts; [reflexivity|reflexivity|vm_compute; reflexivity].
    + exists etext, e, cose, s', rs. split; [exact GE|]. split; [exact EI|]. split; [exact HB|].
      inversion PO as [|? r1 ? l1 Q1 PO1]; subst. inversion PO1 as [|? r2 ? l2 Q2 PO2]; subst. inversion PO2; subst. cbn [snd] in Q1, Q2.
      split; [constructor; [exact Q1|constructor; [exact Q2|constructor]]|].
      destruct (FIN (StatusRequest :: [r1; r2])) as [F1 F2].
      { assert (PV : forall p r, posts TS p r -> is_provision r = true).
        { intros p r (asked & t & c & _ & SR). unfold share_request in SR. cbn [obind] in SR. apply obind_some in SR as (ap & _ & SR). assert (r = ProvisionRequest c ap) as -> by congruence. reflexivity. }
        constructor; [reflexivity|]. constructor; [rewrite (PV _ _ Q1); discriminate|]. constructor; [rewrite (PV _ _ Q2); discriminate|constructor]. }
      { assert (PV : forall p r, posts TS p r -> is_provision r = true).
        { intros p r (asked & t & c & _ & SR). unfold share_request in SR. cbn [obind] in SR. apply obind_some in SR as (ap & _ & SR). assert (r = ProvisionRequest c ap) as -> by congruence. reflexivity. }
        cbn [filter is_provision]. now rewrite (PV _ _ Q1), (PV _ _ Q2). }
      split; [exact F1|]. exists seed. split; [exact F2|exact SF].
Qed.
