(** C78: the development boot. *)
From Coq Require Import ZifyBool ZifyN ZifyNat Permutation.
From Verif Require Import Base Utf8 Hex HexProofs Borsh BorshProofs Json Types TypesBorsh TypesJson StorageProofs MsgBorsh MsgJson Msg World Run FsProofs Attest Services
  ServiceProofs BootProofs State SpecProtocol HandleProofs LaterProofs Reach Invariant ProtocolProofs
  SpecApproval ApprovalProofs SpecAttest AttestProofs SpecHistory HistoryProofs SpecExport ExportProofs Shamir ShamirProofs PropsShamir
  SpecGenesis PropsGenesis PropsDocs CalmProofs PropsBoot PropsLive PropsHistory PropsApproval
  Client SpecClient ClientProofs ClientSets ClientFiles ClientApprove CodecExamples Toy ToyRuns ToyClient
  PropsGenerate PropsGenesisForgery PropsCeremony Wire SpecWire WireProofs PropsWire NetProofs ClientNet SpecClientNet PropsClientNet PropsHost DevBoot.
Local Open Scope N_scope.

(** *** Specification *)
(** The request and the enclave's answer to it in the state [s] can be carried. *)
Definition room (Y : sys) (m : msg) (e : encoding) (s : st Y) : Prop :=
  exists b a, to_wire m e = Ok b /\ fits b /\ to_wire (fst (handle Y m s)) e = Ok a /\ fits a.
(** Everything the command sends to an enclave in the state [s] can be carried. *)
Definition roomy (Y : sys) (a : dev_args) (k : bytes * bytes) (pivot : bytes) (s : st Y) : Prop :=
  let boot := BootStandardJsonEnvelopeRequest (dev_envelope Y a k pivot) pivot in
  room Y boot EBorsh s
  /\ forall cose ek sk shares share rnd m, fst (handle Y boot s) = BootStandardResponse (RAttestation cose) -> dev_target Y a cose = Some (ek, sk) ->
     s_split Y (da_split a) (da_seed a) 2 2 = Some shares -> In share shares -> rnd = da_enc1 a \/ rnd = da_enc2 a -> dev_share Y a k pivot ek rnd share = Some m ->
     exists b, to_wire m EJson = Ok b /\ fits b.

Section Dev.
  Context {Y : sys}.
  Lemma dev_wf (OK : sys_ok Y) a k pivot : 2 * lenN (s_root Y) < STR_MAX_LENGTH -> s_pair Y (da_seed a) = Some k -> (forall seed x, length (s_sign Y seed x) = 64%nat) ->
    Forall (fun x => utf8_valid x = true) (da_args a) -> Forall port_ok (da_bridge a) -> wf_envelope (dev_envelope Y a k pivot) = true.
  Proof.
    intros Rt P SL TA TB. destruct k as [ek sk]. destruct (ok_pair Y OK _ _ _ P) as (L1 & L2 & _).
    assert (LK : 2 * lenN (ek ++ sk) <? STR_MAX_LENGTH = true) by (rewrite lenN_length, app_length, L1, L2; reflexivity).
    assert (LS : forall x, 2 * lenN (s_sign Y (da_seed a) x) <? STR_MAX_LENGTH = true) by (intros x; rewrite lenN_length, SL; reflexivity).
    assert (LH : lenN (s_sha256 Y pivot) =? 32 = true) by (rewrite lenN_length, (ok_sha256 Y OK); reflexivity).
    apply bridge_wf in TB. apply args_wf in TA. apply N.ltb_lt in Rt.
    assert (WM : jwf js_member (dev_member (ek, sk)) = true) by (change (utf8_valid DEV_MEMBER && (2 * lenN (ek ++ sk) <? STR_MAX_LENGTH) = true); rewrite LK; reflexivity).
    cbn [wf_envelope dev_envelope]. set (m := dev_manifest Y a (ek, sk) pivot).
    assert (Wm : jwf js_manifest m = true).
    { change (jwf js_namespace (mf_namespace m) && ((lenN (pv_hash (mf_pivot m)) =? 32) && jwf (js_vec js_bridge) (pv_bridge (mf_pivot m))
        && jwf (js_vec js_string) (pv_args (mf_pivot m))) && jwf js_member_set (mf_manifest_set m)
        && jwf js_member_set (mf_share_set m) && jwf js_nitro (mf_enclave m) && jwf js_patch_set (mf_patch_set m) = true).
      unfold m, dev_manifest. cbn [mf_namespace mf_pivot pv_hash pv_bridge pv_args mf_manifest_set mf_share_set mf_enclave mf_patch_set]. rewrite LH, TB, TA.
      assert (E1 : jwf js_namespace (Namespace DEV_NAMESPACE 4294967295 (public_to_bytes (ek, sk))) = true).
      { change (utf8_valid DEV_NAMESPACE && ((4294967295 <? 4294967296) && true) && (2 * lenN (ek ++ sk) <? STR_MAX_LENGTH) = true). rewrite LK. reflexivity. }
      assert (E2 : forall t, t <? 4294967296 = true -> jwf js_member_set (MemberSet t [dev_member (ek, sk)]) = true).
      { intros t T. change (((t <? 4294967296) && true) && (jwf js_member (dev_member (ek, sk)) && true) = true). rewrite T, WM. reflexivity. }
      assert (E3 : jwf js_nitro (NitroConfig (repeat x00 48) (repeat x00 48) (repeat x00 48) (repeat x00 48) (s_root Y) (bs "mock-qos-commit-ref")) = true).
      { cbn [js_nitro jwf js_hex js_string pcr0 pcr1 pcr2 pcr3 aws_root_certificate qos_commit]. rewrite Rt. reflexivity. }
      rewrite E1, !E2, E3 by reflexivity. reflexivity. }
    change (jwf js_manifest m && ((2 * lenN (s_sign Y (da_seed a) (manifest_hash Y (VM1 m))) <? STR_MAX_LENGTH) && jwf js_member (dev_member (ek, sk)) && true) && true = true).
    rewrite Wm, LS, WM. reflexivity.
  Qed.
End Dev.

Section Dev2.
  Context {Y : sys}.
  Lemma dev_signed (OK : sys_ok Y) (CR : crypto_ok Y) a k pivot : s_pair Y (da_seed a) = Some k ->
    signed Y (manifest_hash Y (VM1 (dev_manifest Y a k pivot))) (dev_approval Y a k pivot).
  Proof.
    intros P. destruct k as [ek sk]. exists ek, sk. split; [exact (pair_has_keys OK (da_seed a) ek sk DEV_MEMBER P)|]. exact (cr_verify Y CR (da_seed a) ek sk _ P).
  Qed.
  Lemma dev_checked (OK : sys_ok Y) (CR : crypto_ok Y) a k pivot : s_pair Y (da_seed a) = Some k -> check_approvals Y (dev_envelope Y a k pivot) = Ok tt.
  Proof.
    intros P. apply c09_approvals_complete.
    - intros m1 m2 [<-|[]] [<-|[]] _. reflexivity.
    - split; [|split; [|split]].
      + destruct k as [ek sk]. pose proof (pair_has_keys OK (da_seed a) ek sk DEV_MEMBER P) as HK.
        split; [constructor; [intros []|constructor]|]. exists [ek], [sk]. split; [reflexivity|]. split; [reflexivity|].
        split; [|split; (constructor; [intros []|constructor])].
        intros i m E. destruct i as [|[|i]]; try discriminate E. cbn in E. injection E as <-. exists ek, sk. split; [reflexivity|]. split; [reflexivity|exact HK].
      + intros x [<-|[]]. split; [left; reflexivity|]. now apply dev_signed.
      + constructor; [intros []|constructor].
      + reflexivity.
  Qed.
  (** A request that was answered was just carried out. *)
  Lemma posted m n x n' : post Y m n = (Ok x, n') -> x <> ProtocolErrorResponse InvalidMsg ->
    wf_req m = true /\ exists l, x = fst (handle Y m (meanwhile Y l (n_st n))) /\ n_st n' = snd (handle Y m (meanwhile Y l (n_st n))).
  Proof.
    rewrite post_is_json. intros P N. destruct (post_wire_inv Y m EJson n _ n' P) as (ls & SL & [[M Q]|(b & T & F & [_ M] & Q)]); [now destruct (Q x)|].
    destruct (Q x eq_refl) as (body & e' & FB & PB & DB). destruct (to_wire_json _ _ T) as [_ D]. rewrite (process_acts Y b m EJson _ F D) in PB.
    split; [apply (from_wire_wf b m EJson); [now apply fits_max|exact D]|]. exists (map snd ls). unfold meanwhile. fold (after Y ls (n_st n)).
    destruct (answer_json _ _ _ _ PB DB) as [->|E]; [|contradiction]. split; [reflexivity|].
    rewrite <- M, after_app. unfold after at 1. cbn [map snd process_all]. unfold process. rewrite (intake_fits b F), D. destruct (handle Y m (after Y ls (n_st n))). reflexivity.
  Qed.
  Lemma booted_by e p n d n' : boot_doc Y e p n = (Ok d, n') -> wf_envelope e = true /\ exists l l',
    fst (handle Y (BootStandardJsonEnvelopeRequest e p) (meanwhile Y l (n_st n))) = BootStandardResponse (RAttestation d)
    /\ n_st n' = meanwhile Y l' (snd (handle Y (BootStandardJsonEnvelopeRequest e p) (meanwhile Y l (n_st n)))).
  Proof.
    intros B. destruct (boot_once Y e p n _ n' B) as (log & ((_ & M) & _) & A & _). destruct (A d eq_refl) as (pre & b & post & -> & (F & en & D) & E).
    split; [exact (from_wire_wf b _ en (proj1 (fits_max b) F) D)|]. exists (map snd pre), (map snd post). split; [symmetry; exact E|]. rewrite <- M, after_app. unfold meanwhile. fold (after Y pre (n_st n)). unfold after at 1. cbn [map snd process_all].
    unfold process. rewrite (intake_fits b F), D. destruct (handle Y (BootStandardJsonEnvelopeRequest e p) (after Y pre (n_st n))) as [r s1]. cbn [snd].
    destruct (process_all Y (map snd post) s1). reflexivity.
  Qed.
  Lemma after_requests l (s : st Y) : exists rs, Forall (fun r => wf_req r = true) rs /\ meanwhile Y l s = snd (serve Y rs s).
  Proof. apply meanwhile_serve. Qed.
  Lemma serve_later rs : forall (s : st Y), Forall (fun r => wf_req r = true) rs -> later Y s (snd (serve Y rs s)).
  Proof.
    induction rs as [|m rs IH] using rev_ind; intros s F; [apply L_now|]. apply Forall_app in F as [F1 F2]. inversion F2; subst.
    rewrite serve_app, serve_cons. cbn [snd serve]. apply L_step; [now apply IH|assumption].
  Qed.
  Lemma kept_share (OK : sys_ok Y) c ap (s : st Y) e : reach Y s -> wf_req (ProvisionRequest c ap) = true -> stored (st_fs s) e ->
    fst (handle Y (ProvisionRequest c ap) s) = ProvisionResponse false ->
    exists e', stored (st_fs (snd (handle Y (ProvisionRequest c ap) s))) e' /\ extends e e' /\ env_share_approvals e' <> [].
  Proof.
    intros R W St H.
    destruct (handle_cases (ProvisionRequest c ap) s) as [[_ H1]|[(V & _)|[(set & dr & X & _)|[(e1 & pv & X & _)|[(sh & a & X & P)|(x & g & X & _)]]]]];
      try discriminate; [rewrite H1 in H; discriminate H|].
    clear X. rewrite (handle_provision c ap s P) in *. pose proof (stored_wf OK s e R P St) as We. destruct (provision Y c ap s) as [r1 s1] eqn:E.
    apply provision_spec in E as (_ & [[[x ->] _]|(e2 & plain & b & SO & Sb & X)]); [discriminate H|].
    assert (e2 = e) as -> by (eapply stored_inj; [eapply share_ok_stored; eauto|exact St]).
    destruct X as [(-> & _ & _ & F & _)|(seed & kk & s2 & _ & _ & _ & _ & _ & _ & _ & _ & _ & _ & r2 & _ & [[_ ->]|(x & _ & ->)])]; [|discriminate H|discriminate H].
    exists (push_share_approval ap e). split; [exact (stored_push _ ap e b _ We W Sb F)|]. split; [apply extends_push|].
    rewrite push_share_approvals. destruct (env_share_approvals e); discriminate.
  Qed.
End Dev2.

(** ** If the command says that the enclave is provisioned, then whatever the
    network did and whoever else talked to the enclave: it holds a key pair with
    the public key the command generated, runs the command's manifest and pivot,
    and both recorded share approvals are by the one generated member. *)
Theorem c78_success_is_real : forall Y, sys_ok Y -> forall a n n', reach Y (n_st n) -> dangerous_dev_boot Y a n = (true, n') ->
  exists k pivot seed e, s_pair Y (da_seed a) = Some k /\ da_pivot a = Some pivot
  /\ st_phase (n_st n') = QuorumKeyProvisioned
  /\ content (st_fs (n_st n')) Quorum = Some (encode seed) /\ s_pair Y seed = Some k
  /\ stored (st_fs (n_st n')) e /\ env_manifest e = VM1 (dev_manifest Y a k pivot) /\ content (st_fs (n_st n')) Pivot = Some pivot
  /\ (forall x, In x (env_share_approvals e) -> ap_member x = dev_member k) /\ (2 <= length (env_share_approvals e))%nat.
Proof.
  intros Y OK a n n' R H. unfold dangerous_dev_boot in H.
  destruct (s_pair Y (da_seed a)) as [k|] eqn:P; [|discriminate].
  destruct (s_split Y (da_split a) (da_seed a) 2 2) as [[|sh1 [|sh2 [|x l]]]|]; try discriminate.
  destruct (da_pivot a) as [pivot|]; [|discriminate]. exists k, pivot.
  destruct (boot_doc Y (dev_envelope Y a k pivot) pivot n) as [[cose|x] n1] eqn:B; [|discriminate].
  destruct (let? t := dev_target Y a cose in _) as [[ek m1]|] eqn:TG; [|discriminate].
  destruct (post Y m1 n1) as [[x1|x1] n2] eqn:P1; [|discriminate]. destruct x1; try discriminate. destruct reconstructed; [discriminate|].
  destruct (dev_share Y a k pivot ek (da_enc2 a) sh2) as [m2|]; [|discriminate].
  destruct (post Y m2 n2) as [[x2|x2] n3] eqn:P2; [|discriminate]. destruct x2; try discriminate. destruct reconstructed; [|discriminate].
  assert (n3 = n') as -> by (injection H; auto). clear H.
  destruct (booted_by _ _ _ _ _ B) as (We & l1 & l2 & A0 & E0).
  destruct (posted _ _ _ _ P1 ltac:(discriminate)) as (W1 & l3 & A1 & E1). destruct (posted _ _ _ _ P2 ltac:(discriminate)) as (W2 & l4 & A2 & E2).
  set (boot := BootStandardJsonEnvelopeRequest (dev_envelope Y a k pivot) pivot) in *.
  assert (R1 : reach Y (meanwhile Y l1 (n_st n))) by (now apply meanwhile_reach).
  destruct (handle Y boot (meanwhile Y l1 (n_st n))) as [r0 s0] eqn:HB. cbn [fst snd] in *. subst r0.
  destruct (c07_accepted_boot Y boot _ _ _ _ s0 R1 We eq_refl HB eq_refl) as (_ & SA & _ & ST & PV & _).
  assert (R0 : reach Y s0) by (replace s0 with (snd (handle Y boot (meanwhile Y l1 (n_st n)))) by (now rewrite HB); now apply R_step).
  assert (M1 : exists c, m1 = ProvisionRequest c (dev_approval Y a k pivot)).
  { destruct (dev_target Y a cose) as [t|]; [|discriminate TG]. cbn [obind] in TG. unfold dev_share in TG.
    destruct (ok_opt (s_encrypt Y (fst t) (da_enc1 a) sh1)) as [c|]; [|discriminate TG]. cbn [obind] in TG. exists c. now injection TG. }
  destruct M1 as [c1 ->].
  destruct (after_requests l2 s0) as (rs1 & F1 & Q1). destruct (after_requests l3 (n_st n1)) as (rs2 & F2 & Q2). destruct (after_requests l4 (n_st n2)) as (rs3 & F3 & Q3).
  set (t1 := meanwhile Y l3 (n_st n1)) in *. set (t2 := meanwhile Y l4 (n_st n2)) in *.
  assert (RN1 : reach Y (n_st n1)) by (rewrite E0; now apply meanwhile_reach).
  assert (RT1 : reach Y t1) by (now apply meanwhile_reach).
  assert (RN2 : reach Y (n_st n2)) by (rewrite E1; now apply R_step).
  assert (RT2 : reach Y t2) by (now apply meanwhile_reach).
  destruct (handle Y m2 t2) as [r2 s2] eqn:H2. cbn [fst snd] in A2, E2. subst r2.
  destruct (c05_success_means_installed Y OK m2 t2 _ s2 RT2 W2 H2 (or_introl eq_refl)) as (Ph & seed & e & CQ & SE & SF).
  assert (R2 : reach Y s2) by (replace s2 with (snd (handle Y m2 t2)) by (now rewrite H2); now apply R_step).
  assert (X1 : exists e1, stored (st_fs t1) e1 /\ extends (dev_envelope Y a k pivot) e1).
  { destruct (manifest_serve OK (rs1 ++ rs2) s0 _ R0 (proj2 (Forall_app _ _ _) (conj F1 F2)) ST) as [X|[X _]]; rewrite serve_app, <- Q1, <- E0, <- Q2 in X; [exact X|].
    exfalso. revert A1. unfold t1 in X |- *. rewrite handle_unserved; [discriminate|]. rewrite X. reflexivity. }
  destruct X1 as (e1 & S1 & X1). destruct (kept_share OK c1 _ t1 e1 RT1 W1 S1 (eq_sym A1)) as (e2 & S2 & X2 & NE). rewrite <- E1 in S2.
  assert (X3 : extends e2 e).
  { destruct (manifest_serve OK (rs3 ++ [m2]) (n_st n2) _ RN2 (proj2 (Forall_app _ _ _) (conj F3 (Forall_cons _ W2 (Forall_nil _)))) S2) as [(e3 & X & Y3)|[X _]];
      rewrite serve_app, <- Q3, serve_cons, H2 in X; cbn [snd serve] in X; [|congruence]. now rewrite (stored_inj _ _ _ SE X). }
  assert (X4 : extends (dev_envelope Y a k pivot) e) by (eapply extends_trans; [exact X1|eapply extends_trans; [exact X2|exact X3]]).
  destruct X4 as (EM & _ & _). change (env_manifest e = VM1 (dev_manifest Y a k pivot)) in EM.
  destruct (c11_recorded_share_approvals Y OK s2 _ _ R2 (Mo_now Y s2) ltac:(rewrite CQ; discriminate)) as (e' & SE' & AP & TH).
  assert (e' = e) as -> by (eapply stored_inj; eauto).
  exists seed, e. rewrite E2. split; [reflexivity|]. split; [reflexivity|]. split; [exact Ph|]. split; [exact CQ|].
  split. { destruct SF as (_ & ek' & sk' & SP & EQ). rewrite EM in EQ. cbn [vm_namespace dev_manifest mf_namespace ns_quorum_key] in EQ.
    destruct k as [ek1 sk1]. destruct (ok_pair Y OK _ _ _ P) as (L1 & _). destruct (ok_pair Y OK _ _ _ SP) as (L2 & _). unfold public_to_bytes in EQ. cbn [fst snd] in EQ.
    destruct (app_inv_length _ _ _ _ (eq_trans L1 (eq_sym L2)) EQ) as [<- <-]. exact SP. }
  split; [exact SE|]. split; [exact EM|].
  split. { assert (R2' : s2 = snd (serve Y ((rs1 ++ rs2) ++ ProvisionRequest c1 (dev_approval Y a k pivot) :: rs3 ++ [m2]) s0)).
    { rewrite serve_app, serve_app, serve_cons, serve_app, <- Q1, <- E0, <- Q2. cbn [snd]. fold t1. rewrite <- E1, <- Q3, serve_cons, H2. reflexivity. }
    apply (c06_pivot_write_once Y pivot s0 s2 PV). rewrite R2'. apply serve_later. rewrite !Forall_app. split; [now split|]. constructor; [exact W1|]. apply Forall_app. split; [exact F3|]. constructor; [exact W2|constructor]. }
  rewrite EM in TH, AP. split.
  - intros x I. destruct (AP x I) as [[M|[]] _]. symmetry. exact M.
  - destruct TH as [TH|TH].
    + exfalso. destruct X3 as (_ & _ & l & X3). rewrite TH in X3. destruct (env_share_approvals e2); [now apply NE|discriminate X3].
    + cbn [vm_share_set dev_manifest mf_share_set threshold] in TH. lia.
Qed.
Print Assumptions c78_success_is_real.

Section Dev3.
  Context {Y : sys}.
  Lemma provisioned_fits r : exists a, to_wire (ProvisionResponse r) EJson = Ok a /\ fits a.
  Proof.
    assert (K : match to_wire (ProvisionResponse r) EJson with Ok a => lenN a <=? MAX_ENCODED_MSG_LEN | Err _ => false end = true) by (destruct r; vm_compute; reflexivity).
    destruct (to_wire (ProvisionResponse r) EJson) as [a|]; [|discriminate]. exists a. split; [reflexivity|]. apply fits_max. now apply N.leb_le.
  Qed.
  Lemma post_through m n rest b r : n_script n = ([], Through) :: rest -> to_wire m EJson = Ok b -> fits b -> fst (handle Y m (n_st n)) = ProvisionResponse r ->
    exists n1, post Y m n = (Ok (ProvisionResponse r), n1) /\ n_st n1 = snd (handle Y m (n_st n)) /\ n_script n1 = rest.
  Proof.
    intros S T F A. destruct (to_wire_json _ _ T) as [_ D]. destruct (provisioned_fits r) as (a & TA & FA). destruct (to_wire_json _ _ TA) as [_ DA].
    assert (P : process Y b (n_st n) = (Some a, snd (handle Y m (n_st n)))).
    { unfold process. rewrite (intake_fits b F), D. destruct (handle Y m (n_st n)) as [x s']. cbn [fst snd] in *. subst x. unfold answer. now rewrite TA. }
    destruct (through Y m EJson n rest b a _ _ S T F ltac:(now rewrite P) FA DA) as (n1 & P1 & S1 & C1).
    exists n1. rewrite post_is_json. split; [exact P1|]. split; [now rewrite S1, P|exact C1].
  Qed.
  Lemma boot_through e p n rest d : n_script n = ([], Through) :: rest -> room Y (BootStandardJsonEnvelopeRequest e p) EBorsh (n_st n) ->
    fst (handle Y (BootStandardJsonEnvelopeRequest e p) (n_st n)) = BootStandardResponse (RAttestation d) ->
    exists n1, boot_doc Y e p n = (Ok d, n1) /\ n_st n1 = snd (handle Y (BootStandardJsonEnvelopeRequest e p) (n_st n)) /\ n_script n1 = rest.
  Proof.
    set (m := BootStandardJsonEnvelopeRequest e p). intros S (b & a & T & F & TA & FA) R.
    assert (D : from_wire b = Ok (m, EBorsh)) by (apply c37_other_borsh_messages_round_trip; [exact T|exact F|reflexivity|discriminate]).
    assert (DA : from_wire a = Ok (fst (handle Y m (n_st n)), EBorsh)).
    { apply c37_other_borsh_messages_round_trip; [exact TA|exact FA|rewrite R; reflexivity|rewrite R; discriminate]. }
    assert (PR : process Y b (n_st n) = (Some a, snd (handle Y m (n_st n)))).
    { unfold process. rewrite (intake_fits b F), D. destruct (handle Y m (n_st n)) as [r s']. cbn [fst snd] in *. unfold answer. now rewrite TA. }
    destruct (through Y m EBorsh n _ b a _ _ S T F ltac:(now rewrite PR) FA DA) as (n1 & P1 & S1 & C1).
    exists n1. unfold boot_doc, post_borsh. fold m. rewrite P1, R. split; [reflexivity|]. split; [now rewrite S1, PR|exact C1].
  Qed.
End Dev3.

(** ** Run against an enclave that has not been booted, over a network that works,
    in a world in which the primitives do, the command succeeds. *)
Theorem c78_dev_boot_provisions : forall Y (D : device Y), laws D -> forall a n k pivot rest,
  s_pair Y (da_seed a) = Some k -> length (da_seed a) = 32%nat -> da_pivot a = Some pivot -> da_override a = None ->
  Forall (fun x => utf8_valid x = true) (da_args a) -> Forall port_ok (da_bridge a) ->
  unbooted D (n_st n) -> n_script n = ([], Through) :: ([], Through) :: ([], Through) :: rest -> roomy Y a k pivot (n_st n) ->
  exists n', dangerous_dev_boot Y a n = (true, n') /\ st_phase (n_st n') = QuorumKeyProvisioned /\ content (st_fs (n_st n')) Quorum = Some (encode (da_seed a)).
Proof.
  intros Y D LW a n k pivot rest P LS PV OV TA TB (R & Ph & FS & BL) SC (RB & RS). pose proof LW as [OK NF CR SH TOT WK SL RT].
  pose proof (dev_wf OK a k pivot RT P SL TA TB) as We. pose proof (dev_checked OK CR a k pivot P) as CA.
  set (e := dev_envelope Y a k pivot) in *. set (boot := BootStandardJsonEnvelopeRequest e pivot) in *.
  destruct (c64_approved_boot_succeeds Y D OK NF WK (proj1 TOT) (n_st n) boot e pivot eq_refl We Ph (FS _) (FS _) (FS _) BL CA eq_refl eq_refl)
    as (cose & d & s0 & setup & ek & sk & HB & PhB & (A1 & A2 & A3 & A4) & DM & DC & PKd & SPs & CE).
  assert (AB : fst (handle Y boot (n_st n)) = BootStandardResponse (RAttestation cose)) by (rewrite HB; reflexivity).
  destruct (boot_through e pivot n _ cose SC RB AB) as (n1 & B1 & S1 & C1). fold boot in S1. rewrite HB in S1. cbn [snd] in S1.
  assert (TG : dev_target Y a cose = Some (ek, sk)).
  { unfold dev_target, extract_attestation_doc. rewrite A1. cbn [obind]. rewrite OV, PKd. cbn [obind].
    pose proof (pair_has_keys OK setup ek sk [] SPs) as HK. apply public_keys in HK. cbn [m_pub_key] in HK. rewrite HK. reflexivity. }
  destruct (ok_pair Y OK _ _ _ SPs) as (_ & _ & Pe & _).
  destruct (sh_split Y SH (da_split a) (da_seed a) 2 2) as (coeffs & Dr & Gn). destruct (shares_generate coeffs (da_seed a) 2 2) as [shares|] eqn:G.
  2:{ exfalso. apply c25_generate_refuses in G. apply G. split; [lia|]. split; [lia|]. split; [lia|]. intros E. rewrite E in LS. discriminate LS. }
  pose proof (c25_shares_distinct _ _ _ _ _ G) as [LN ND].
  destruct shares as [|sh1 [|sh2 [|x l]]]; try (exfalso; rewrite lenN_length in LN; cbn [length] in LN; lia).
  destruct (proj2 TOT ek (da_enc1 a) sh1 Pe) as (c1 & EC1). destruct (proj2 TOT ek (da_enc2 a) sh2 Pe) as (c2 & EC2).
  set (ap := dev_approval Y a k pivot).
  assert (DS1 : dev_share Y a k pivot ek (da_enc1 a) sh1 = Some (ProvisionRequest c1 ap)) by (unfold dev_share; rewrite EC1; reflexivity).
  assert (DS2 : dev_share Y a k pivot ek (da_enc2 a) sh2 = Some (ProvisionRequest c2 ap)) by (unfold dev_share; rewrite EC2; reflexivity).
  destruct (RS cose ek sk _ sh1 _ _ AB TG Gn (or_introl eq_refl) (or_introl eq_refl) DS1) as (b1 & T1 & F1).
  destruct (RS cose ek sk _ sh2 _ _ AB TG Gn (or_intror (or_introl eq_refl)) (or_intror eq_refl) DS2) as (b2 & T2 & F2).
  assert (W1 : wf_req (ProvisionRequest c1 ap) = true) by (apply (from_wire_wf b1 _ EJson); [now apply fits_max|exact (proj2 (to_wire_json _ _ T1))]).
  assert (W2 : wf_req (ProvisionRequest c2 ap) = true) by (apply (from_wire_wf b2 _ EJson); [now apply fits_max|exact (proj2 (to_wire_json _ _ T2))]).
  destruct (c54_honest_provisioning_completes Y OK NF CR SH (n_st n) boot e pivot _ s0 R We eq_refl eq_refl HB eq_refl) as (setup' & CE' & PROV).
  assert (setup' = setup) as -> by (apply encode_inj; congruence). clear CE'.
  assert (HS : forall sh c rnd, s_encrypt Y ek rnd sh = Ok c -> honest_share Y (env_manifest e) ek sh (ProvisionRequest c ap)).
  { intros sh c rnd E. exists c, ap, rnd. split; [reflexivity|]. split; [exact E|]. split; [left; reflexivity|]. exact (dev_signed OK CR a k pivot P). }
  destruct (PROV ek sk coeffs (da_seed a) 2 [sh1; sh2] [sh1; sh2] [ProvisionRequest c1 ap; ProvisionRequest c2 ap] SPs) as (Q1 & Q2 & Q3).
  { exact Dr. } { exact G. }
  { split; [exact LS|]. exists (fst k), (snd k). split; [rewrite P; now destruct k|reflexivity]. }
  { apply incl_refl. } { exact ND. } { reflexivity. } { constructor; [exact W1|constructor; [exact W2|constructor]]. }
  { cbn [filter is_provision]. constructor; [exact (HS _ _ _ EC1)|constructor; [exact (HS _ _ _ EC2)|constructor]]. }
  clear PROV HS. rewrite !serve_cons in Q1, Q2, Q3. cbn [snd serve fst] in Q1, Q2, Q3.
  set (s1 := snd (handle Y (ProvisionRequest c1 ap) s0)) in *.
  assert (Q4 : fst (handle Y (ProvisionRequest c1 ap) s0) = ProvisionResponse false /\ fst (handle Y (ProvisionRequest c2 ap) s1) = ProvisionResponse true).
  { change (threshold (vm_share_set (env_manifest e))) with 2 in Q3. cbn [combine filter map snd fst is_provision] in Q3. change (N.to_nat 2 - 1)%nat with 1%nat in Q3. cbn [repeat app] in Q3.
    split; [exact (f_equal (hd (ProvisionResponse false)) Q3)|]. exact (f_equal (fun l => hd (ProvisionResponse true) (tl l)) Q3). }
  destruct Q4 as [Q4 Q5].
  destruct (post_through (ProvisionRequest c1 ap) n1 _ b1 false C1 T1 F1 ltac:(rewrite S1; exact Q4)) as (n2 & P2 & S2 & C2). rewrite S1 in S2. fold s1 in S2.
  destruct (post_through (ProvisionRequest c2 ap) n2 _ b2 true C2 T2 F2 ltac:(rewrite S2; exact Q5)) as (n3 & P3 & S3 & _). rewrite S2 in S3.
  exists n3. split; [|rewrite S3; split; [exact Q1|exact Q2]].
  unfold dangerous_dev_boot. rewrite P, Gn, PV. fold e. rewrite B1, TG. cbn [obind fst]. rewrite DS1. cbn [obind]. rewrite P2, DS2, P3. reflexivity.
Qed.
Print Assumptions c78_dev_boot_provisions.
(** *** A run in the toy world *)
Definition dv_a : dev_args := DevArgs seed_q (repeat x07 32) [x01] [x02] (Some pivot) Always [bs "--flag"] [] None.
Definition dv_k : bytes * bytes := match s_pair TS seed_q with Some k => k | None => ([], []) end.
Definition dv_boot : msg := BootStandardJsonEnvelopeRequest (dev_envelope TS dv_a dv_k pivot) pivot.
Definition dv_cose : bytes := match fst (handle TS dv_boot gs0) with BootStandardResponse (RAttestation c) => c | _ => [] end.
Definition dv_ek : bytes := match dev_target TS dv_a dv_cose with Some (e, _) => e | None => [] end.
Definition dv_shares : list bytes := match s_split TS (da_split dv_a) seed_q 2 2 with Some l => l | None => [] end.
Definition ok_len (r : result perr bytes) : bool := match r with Ok b => lenN b <=? MAX_ENCODED_MSG_LEN | Err _ => false end.
Lemma ok_len_fits r : ok_len r = true -> exists b, r = Ok b /\ fits b.
Proof. destruct r as [b|]; [|discriminate]. intros H. exists b. split; [reflexivity|]. apply fits_max. now apply N.leb_le. Qed.
Lemma dv_boot_answer : fst (handle TS dv_boot gs0) = BootStandardResponse (RAttestation dv_cose). Proof. vm_compute. reflexivity. Qed.
Lemma dv_boot_room : ok_len (to_wire dv_boot EBorsh) && ok_len (to_wire (BootStandardResponse (RAttestation dv_cose)) EBorsh) = true. Proof. vm_compute. reflexivity. Qed.
Lemma dv_target_of : option_map fst (dev_target TS dv_a dv_cose) = Some dv_ek. Proof. vm_compute. reflexivity. Qed.
Lemma dv_split_of : s_split TS (da_split dv_a) (da_seed dv_a) 2 2 = Some dv_shares. Proof. vm_compute. reflexivity. Qed.
Lemma dv_share_room : forallb (fun r => forallb (fun s => match dev_share TS dv_a dv_k pivot dv_ek r s with Some m => ok_len (to_wire m EJson) | None => true end) dv_shares) [da_enc1 dv_a; da_enc2 dv_a] = true.
Proof. vm_compute. reflexivity. Qed.
Lemma dv_roomy : roomy TS dv_a dv_k pivot gs0.
Proof.
  split.
  - pose proof dv_boot_room as H. apply andb_true_iff in H as [H1 H2]. apply ok_len_fits in H1 as (b & T & F). apply ok_len_fits in H2 as (a & T' & F').
    exists b, a. split; [exact T|]. split; [exact F|]. fold dv_boot. rewrite dv_boot_answer. split; [exact T'|exact F'].
  - fold dv_boot. intros cose ek sk shares share rnd m A Tg S I Hr Ds. pose proof dv_target_of as K. pose proof dv_split_of as L. rewrite dv_boot_answer in A.
    assert (cose = dv_cose) as -> by exact (f_equal (fun m => match m with BootStandardResponse (RAttestation c) => c | _ => cose end) (eq_sym A)).
    rewrite Tg in K. assert (ek = dv_ek) as -> by exact (f_equal (fun o => match o with Some x => x | None => ek end) K).
    rewrite S in L. assert (shares = dv_shares) as -> by exact (f_equal (fun o => match o with Some x => x | None => shares end) L).
    pose proof dv_share_room as Q. rewrite forallb_forall in Q. assert (J : In rnd [da_enc1 dv_a; da_enc2 dv_a]) by (destruct Hr as [->| ->]; [now left|right; now left]).
    specialize (Q rnd J). cbv beta in Q. rewrite forallb_forall in Q. specialize (Q share I). cbv beta in Q. rewrite Ds in Q. now apply ok_len_fits.
Qed.
Definition dv_run (script : list (list bytes * fate)) : bool * phase :=
  let '(r, n) := dangerous_dev_boot TS dv_a (Net gs0 [] script) in (r, st_phase (n_st n)).
Definition thru : list bytes * fate := ([], Through).
(** A run that succeeds (the hypotheses of the second theorem hold of it), one
    whose last answer is lost (the enclave is provisioned, the command says no),
    and one during which somebody else boots the enclave first. *)
Example c78_nontrivial :
  (exists n', dangerous_dev_boot TS dv_a (Net gs0 [] [thru; thru; thru]) = (true, n') /\ st_phase (n_st n') = QuorumKeyProvisioned
     /\ content (st_fs (n_st n')) Quorum = Some (encode seed_q))
  /\ dv_run [thru; thru; ([], Cut)] = (false, QuorumKeyProvisioned)
  /\ dv_run [thru; thru; ([], Lost)] = (false, WaitingForQuorumShards)
  /\ dv_run [([match to_wire boot_std EBorsh with Ok b => b | Err _ => [] end], Through); thru; thru; thru] = (false, WaitingForQuorumShards).
Proof.
  split; [|split; [|split]]; [|vm_compute; reflexivity..].
  apply (c78_dev_boot_provisions TS ts_device ts_laws dv_a (Net gs0 [] [thru; thru; thru]) dv_k pivot []); [reflexivity|reflexivity|reflexivity|reflexivity| | | |reflexivity|].
  - repeat constructor.
  - constructor.
  - split; [apply R_init; reflexivity|]. split; [reflexivity|]. split; [reflexivity|]. split; [split; reflexivity|]. intros i [->| ->]; split; reflexivity.
  - exact dv_roomy.
Qed.
