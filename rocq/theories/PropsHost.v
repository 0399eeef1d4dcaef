(** C71: what the host's read-only HTTP routes say about the enclave. *)
From Coq Require Import Relations ZifyBool ZifyN ZifyNat.
From Verif Require Import Base Utf8 Hex HexProofs Borsh BorshProofs Json JsonProofs Types TypesBorsh TypesJson TypesJsonProofs TypesJsonLaws StorageProofs JsonComb JsonCombLaws
  Msg MsgBorsh MsgJson MsgJsonLaws JsonSound World FsProofs CalmProofs Attest Services State SpecProtocol SpecApproval SpecAttest SpecHistory HandleProofs Reach Invariant ProtocolProofs HistoryProofs
  PropsMachine PropsHistory PropsDocs
  Wire SpecWire WireProofs PropsWire NetProofs Client Toy ToyRuns ClientNet SpecClientNet PropsClientNet Host.
Local Open Scope N_scope.

(** *** Specification *)
(** The enclave after processing the byte strings [l] sent by other parties. *)
Definition meanwhile (Y : sys) (l : list bytes) (s : st Y) : st Y := snd (process_all Y l s).
(** The phases in which the enclave is doing the work it was booted for. *)
Definition working (p : phase) : Prop := p = QuorumKeyProvisioned \/ p = GenesisBooted.
(** A manifest was accepted by a boot of this process. *)
Definition booted (p : phase) : Prop := p = WaitingForQuorumShards \/ p = WaitingForForwardedKey \/ p = QuorumKeyProvisioned.

Section Proofs.
  Context (Y : sys).
  Notation net := (net Y).
  Notation meanwhile := (meanwhile Y).

  Lemma after_others l s : after Y (map (fun b => (Other, b)) l) s = meanwhile l s.
  Proof. unfold after, meanwhile. now rewrite map_map, map_id. Qed.
  Lemma meanwhile_serve l : forall s, exists ms, Forall (fun r => wf_req r = true) ms /\ meanwhile l s = snd (serve Y ms s).
  Proof.
    unfold PropsHost.meanwhile. induction l as [|b l IH]; intros s; [exists []; split; [constructor|reflexivity]|]. cbn [process_all].
    destruct (process Y b s) as [a s1] eqn:P. destruct (process_all Y l s1) as [as' s2] eqn:PA. cbn [snd].
    destruct (IH s1) as (ms & W & E). rewrite PA in E. cbn [snd] in E.
    unfold process in P. destruct (N.leb_spec (lenN b) MAX_ENCODED_MSG_LEN) as [L|L].
    - rewrite intake_fits in P by (now apply fits_max). destruct (from_wire b) as [[m e]|] eqn:F.
      + destruct (handle Y m s) as [r s'] eqn:H. inversion P; subst. exists (m :: ms). split; [constructor; [exact (from_wire_wf _ _ _ L F)|exact W]|].
        cbn [serve]. rewrite H. destruct (serve Y ms s1). reflexivity.
      + inversion P; subst. eauto.
    - rewrite intake_big in P by (rewrite fits_max; lia). inversion P; subst. eauto.
  Qed.
  Lemma meanwhile_reach l s : reach Y s -> reach Y (meanwhile l s).
  Proof. intros R. destruct (meanwhile_serve l s) as (ms & W & ->). now apply reach_serve. Qed.

  (** One request of the host. *)
  Lemma ask_inv m n r n' : ask Y m n = (r, n') -> exists l,
    (n_st n' = meanwhile l (n_st n) /\ r = None)
    \/ (n_st n' = snd (handle Y m (meanwhile l (n_st n)))
        /\ forall x, r = Some x -> x = ProtocolErrorResponse InvalidMsg \/ (x = fst (handle Y m (meanwhile l (n_st n))) /\ jwf js_msg x = true)).
  Proof.
    unfold ask. destruct (to_wire m EJson) as [b|e] eqn:T.
    2:{ intros [= <- <-]. exists []. left. split; reflexivity. }
    unfold host_call. destruct (next_fate Y n) as [f n1] eqn:NF.
    assert (N1 : exists l, n_st n1 = meanwhile l (n_st n)).
    { unfold next_fate in NF. destruct (n_script n) as [|[l f'] rest] eqn:S; inversion NF; subst; [exists []; reflexivity|]. exists l.
      destruct (others_moved Y l (Net (n_st n) (n_log n) rest)) as [[_ A] _]. cbn [n_st] in A. now rewrite <- A, after_others. }
    destruct N1 as (l & E1). destruct (STREAM_MAX <? lenN b) eqn:SM.
    { intros [= <- <-]. exists l. left. auto. }
    apply fits_stream in SM. destruct (to_wire_json m b T) as [_ D].
    assert (PR : process Y b (n_st n1) = (answer EJson (fst (handle Y m (n_st n1))), snd (handle Y m (n_st n1)))).
    { unfold process. rewrite (intake_fits b SM), D. now destruct (handle Y m (n_st n1)). }
    destruct f.
    - intros [= <- <-]. exists l. left. auto.
    - intros [= <- <-]. exists l. right. unfold deliver. rewrite PR. cbn [snd n_st]. rewrite E1. split; [reflexivity|discriminate].
    - unfold deliver. rewrite PR, E1. intros [= <- <-]. exists l. right. cbn [n_st]. split; [reflexivity|].
      intros x. set (h := fst (handle Y m (meanwhile l (n_st n)))). unfold answer. destruct (to_wire h EJson) as [a|] eqn:TA.
      + destruct (STREAM_MAX <? lenN a); [discriminate|]. destruct (to_wire_json h a TA) as [W DA]. rewrite DA. intros [= <-]. right. auto.
      + destruct (json_error InvalidMsg) as [a|] eqn:J; [|discriminate]. destruct (STREAM_MAX <? lenN a); [discriminate|].
        apply json_error_inv in J. rewrite J. intros [= <-]. now left.
  Qed.
  Lemma ask_through m n l rest b a : n_script n = (l, Through) :: rest -> to_wire m EJson = Ok b -> fits b ->
    to_wire (fst (handle Y m (meanwhile l (n_st n)))) EJson = Ok a -> fits a ->
    exists n', ask Y m n = (Some (fst (handle Y m (meanwhile l (n_st n)))), n')
      /\ n_st n' = snd (handle Y m (meanwhile l (n_st n))) /\ n_script n' = rest.
  Proof.
    intros S T F TA FA. unfold ask. rewrite T. unfold host_call, next_fate. rewrite S.
    destruct (others_moved Y l (Net (n_st n) (n_log n) rest)) as [[_ A] SC]. cbn [n_st n_script] in A, SC. rewrite after_others in A.
    rewrite (proj1 (fits_stream b) F). destruct (to_wire_json m b T) as [_ D]. destruct (to_wire_json _ a TA) as [_ DA].
    unfold deliver. rewrite <- A. unfold process. rewrite (intake_fits b F), D.
    destruct (handle Y m (meanwhile l (n_st n))) as [h s']. cbn [fst snd] in *. unfold answer. rewrite TA, (proj1 (fits_stream a) FA), DA.
    eexists. split; [reflexivity|]. split; [reflexivity|exact SC].
  Qed.
  Lemma status_wire : exists b, to_wire StatusRequest EJson = Ok b /\ fits b.
  Proof.
    assert (K : match to_wire StatusRequest EJson with Ok a => lenN a <=? MAX_ENCODED_MSG_LEN | _ => false end = true) by (vm_compute; reflexivity).
    destruct (to_wire StatusRequest EJson) as [a|]; [|discriminate]. exists a. split; [reflexivity|]. apply fits_max. now apply N.leb_le.
  Qed.
  Lemma manifest_wire : exists b, to_wire ManifestEnvelopeRequest EJson = Ok b /\ fits b.
  Proof.
    assert (K : match to_wire ManifestEnvelopeRequest EJson with Ok a => lenN a <=? MAX_ENCODED_MSG_LEN | _ => false end = true) by (vm_compute; reflexivity).
    destruct (to_wire ManifestEnvelopeRequest EJson) as [a|]; [|discriminate]. exists a. split; [reflexivity|]. apply fits_max. now apply N.leb_le.
  Qed.
  Lemma live_wire : exists b, to_wire LiveAttestationDocRequest EJson = Ok b /\ fits b.
  Proof.
    assert (K : match to_wire LiveAttestationDocRequest EJson with Ok a => lenN a <=? MAX_ENCODED_MSG_LEN | _ => false end = true) by (vm_compute; reflexivity).
    destruct (to_wire LiveAttestationDocRequest EJson) as [a|]; [|discriminate]. exists a. split; [reflexivity|]. apply fits_max. now apply N.leb_le.
  Qed.
  Lemma status_answer_wire p : exists b, to_wire (StatusResponse p) EJson = Ok b /\ fits b.
  Proof.
    assert (K : match to_wire (StatusResponse p) EJson with Ok a => lenN a <=? MAX_ENCODED_MSG_LEN | _ => false end = true) by (destruct p; vm_compute; reflexivity).
    destruct (to_wire (StatusResponse p) EJson) as [a|]; [|discriminate]. exists a. split; [reflexivity|]. apply fits_max. now apply N.leb_le.
  Qed.
End Proofs.

(** ** C71 *)
(** The health route never disturbs the enclave; unless it reports a failure of its
    own, it says 200 exactly when the enclave is provisioned or held a genesis
    ceremony, 503 otherwise, and names the phase. *)
Theorem c71_health_tells_the_phase : forall Y n code body n', enclave_health Y n = ((code, body), n') ->
  exists l, n_st n' = meanwhile Y l (n_st n)
   /\ ((code = 500 /\ body = None)
       \/ ((code = 200 <-> working (st_phase (n_st n'))) /\ (code = 503 <-> ~ working (st_phase (n_st n')))
           /\ body = Some (phase_name (st_phase (n_st n'))))).
Proof.
  intros Y n code body n' H. unfold enclave_health in H. destruct (ask Y StatusRequest n) as [r n1] eqn:A.
  assert (n1 = n') as -> by (injection H; auto).
  assert (H1 : match r with Some (StatusResponse p) => (health_status p, Some (phase_name p)) | _ => (500, None) end = (code, body)) by (injection H; auto). clear H.
  destruct (ask_inv Y StatusRequest n r n' A) as (l & [[E ->]|[E R]]); exists l.
  - split; [exact E|]. left. inversion H1. auto.
  - rewrite c01_status_reports_phase in E, R. cbn [fst snd] in *. split; [exact E|].
    destruct r as [x|]; [|left; inversion H1; auto]. destruct (R x eq_refl) as [->|[-> _]]; [left; inversion H1; auto|].
    inversion H1; subst. right. rewrite E. unfold working. destruct (st_phase (meanwhile Y l (n_st n))); cbn [health_status];
      (split; [split; [intros ?; try discriminate; auto|intros [K|K]; try discriminate K; reflexivity]|]);
      (split; [split; [intros K; try discriminate K; intros [J|J]; discriminate J|intros K; try reflexivity; exfalso; apply K; auto]|reflexivity]).
Qed.
Print Assumptions c71_health_tells_the_phase.

(** It reports a failure of its own only if the exchange with the enclave failed. *)
Theorem c71_health_answers : forall Y n l rest, n_script n = (l, Through) :: rest ->
  exists n', enclave_health Y n = ((health_status (st_phase (meanwhile Y l (n_st n))), Some (phase_name (st_phase (meanwhile Y l (n_st n))))), n')
    /\ n_st n' = meanwhile Y l (n_st n).
Proof.
  intros Y n l rest S. destruct status_wire as (b & T & F). destruct (status_answer_wire (st_phase (meanwhile Y l (n_st n)))) as (a & TA & FA).
  destruct (ask_through Y StatusRequest n l rest b a S T F) as (n' & A & E & _).
  - now rewrite c01_status_reports_phase.
  - exact FA.
  - rewrite c01_status_reports_phase in A, E. unfold enclave_health. rewrite A. exists n'. split; [reflexivity|exact E].
Qed.
Print Assumptions c71_health_answers.

Section Info.
  Context {Y : sys}.
  Lemma menv_answer (s : st Y) e : fst (handle Y ManifestEnvelopeRequest s) = ManifestEnvelopeResponse e ->
    (forall x, e = Some x -> stored (st_fs s) x) /\ (e = None -> no_faults Y -> forall x, ~ stored (st_fs s) x).
  Proof.
    destruct (phase_eqb (st_phase s) GenesisBooted) eqn:P.
    - assert (PG : st_phase s = GenesisBooted) by (destruct (st_phase s); discriminate || reflexivity).
      unfold handle. rewrite PG. cbn. discriminate.
    - assert (PG : st_phase s <> GenesisBooted) by (intros E; rewrite E in P; discriminate). rewrite (handle_manifest s PG). cbn [fst].
      unfold ok_of. destruct (get_manifest_envelope Y s) as [[v|x] s1] eqn:G; cbn [fst as_msg]; intros [= <-].
      + split; [|discriminate]. intros x [= <-]. destruct (get_manifest_ok s v s1 G) as (c & m & C & D). exists c. unfold content. now rewrite C.
      + split; [discriminate|]. intros _ NF y S. rewrite (calm_manifest NF y s S) in G. discriminate.
  Qed.
End Info.

(** What the info route reports was true of the enclave: the phase at one moment,
    the manifest at a later one, and the key at a still later one is the key in a
    document the security module gave for the manifest and ephemeral key then on
    disk.  It only ever sends read-only requests. *)
Theorem c71_info_tells_the_truth : forall Y, sys_ok Y -> forall n i n', reach Y (n_st n) -> get_info Y n = (Some i, n') ->
  exists l1 l2 l3,
    let s1 := meanwhile Y l1 (n_st n) in
    let s2 := meanwhile Y l2 s1 in
    let s3 := meanwhile Y l3 (snd (handle Y ManifestEnvelopeRequest s2)) in
    ei_phase i = st_phase s1
    /\ (forall e, ei_envelope i = Some e -> stored (st_fs s2) e)
    /\ (ei_envelope i = None -> no_faults Y -> forall e, ~ stored (st_fs s2) e)
    /\ (forall k, ei_key i = Some k -> exists q d doc pk, own_request Y (st_fs s3) q
          /\ said Y (st_trace (snd (handle Y LiveAttestationDocRequest s3))) q (RAttestation d)
          /\ s_doc Y d = Some doc /\ ad_public_key doc = Some pk /\ k = encode pk)
    /\ (n_st n' = s3 \/ n_st n' = snd (handle Y LiveAttestationDocRequest s3)).
Proof.
  intros Y OK n i n' R H. unfold get_info in H. destruct (ask Y StatusRequest n) as [r1 n1] eqn:A1.
  destruct (ask_inv Y StatusRequest n r1 n1 A1) as (l1 & [[_ ->]|[E1 R1]]); [discriminate|]. destruct r1 as [x1|]; [|discriminate].
  rewrite c01_status_reports_phase in E1, R1. cbn [fst snd] in *. destruct (R1 x1 eq_refl) as [->|[-> _]]; [discriminate|]. clear R1 A1.
  destruct (ask Y ManifestEnvelopeRequest n1) as [r2 n2] eqn:A2.
  destruct (ask_inv Y ManifestEnvelopeRequest n1 r2 n2 A2) as (l2 & [[_ ->]|[E2 R2]]); [discriminate|]. destruct r2 as [x2|]; [|discriminate].
  rewrite E1 in E2, R2. destruct (R2 x2 eq_refl) as [->|[X2 _]]; [discriminate|]. clear R2 A2. destruct x2; try discriminate. symmetry in X2.
  destruct (ask Y LiveAttestationDocRequest n2) as [r3 n3] eqn:A3. inversion H; subst; clear H.
  destruct (menv_answer _ _ X2) as [M1 M2].
  assert (R3 : forall l, reach Y (meanwhile Y l (snd (handle Y ManifestEnvelopeRequest (meanwhile Y l2 (meanwhile Y l1 (n_st n))))))).
  { intros l. apply meanwhile_reach, R_step; [|reflexivity]. now apply meanwhile_reach, meanwhile_reach. }
  destruct (ask_inv Y LiveAttestationDocRequest n2 r3 n' A3) as (l3 & [[E3 ->]|[E3 X3]]); exists l1, l2, l3; cbv zeta; cbn [ei_phase ei_envelope ei_key];
    rewrite E2 in E3; (split; [reflexivity|]); (split; [exact M1|]); (split; [exact M2|]).
  - split; [cbn; discriminate|]. now left.
  - split; [|right; exact E3]. rewrite E2 in X3. set (s3 := meanwhile Y l3 _) in *. intros k K. destruct r3 as [x3|]; [|discriminate].
    destruct (X3 x3 eq_refl) as [->|[X _]]; [discriminate|]. destruct x3; try discriminate. destruct nsm; try discriminate. cbn [eph_key_of] in K.
    destruct (s_doc Y document) as [doc|] eqn:SD; [|discriminate]. cbn [obind] in K. destruct (ad_public_key doc) as [pk|] eqn:PK; [|discriminate]. cbn [obind] in K. inversion K; subst.
    destruct (handle Y LiveAttestationDocRequest s3) as [ans s4] eqn:HL. cbn [fst snd] in *. subst ans.
    destruct (c55_answer_is_own_attestation Y OK s3 LiveAttestationDocRequest _ (RAttestation document) s4 (R3 l3) eq_refl HL eq_refl) as (q & older & OW & TR & _).
    assert (FS : st_fs s4 = st_fs s3).
    { pose proof (c03_read_only Y LiveAttestationDocRequest s3 eq_refl) as (_ & Q & _). cbv zeta in Q. now rewrite HL in Q. }
    exists q, document, doc, pk. split; [now rewrite <- FS|]. split; [|auto]. eexists. split; [rewrite TR; left; reflexivity|reflexivity].
Qed.
Print Assumptions c71_info_tells_the_truth.

(** The manifest it reports is final: from then on the enclave process keeps that
    manifest, whatever is sent to it. And a phase after the boot comes with a manifest. *)
Theorem c71_reported_manifest_is_final : forall Y, sys_ok Y -> no_faults Y -> forall n i n', reach Y (n_st n) -> get_info Y n = (Some i, n') ->
  (booted (ei_phase i) -> ei_envelope i <> None)
  /\ forall e, ei_envelope i = Some e -> forall l, exists e', stored (st_fs (meanwhile Y l (n_st n'))) e' /\ extends e e'.
Proof.
  intros Y OK NF n i n' R H. destruct (c71_info_tells_the_truth Y OK n i n' R H) as (l1 & l2 & l3 & T). cbv zeta in T.
  destruct T as (P & E & EN & _ & F). set (s1 := meanwhile Y l1 (n_st n)) in *. set (s2 := meanwhile Y l2 s1) in *.
  assert (R1 : reach Y s1) by (now apply meanwhile_reach). assert (R2 : reach Y s2) by (now apply meanwhile_reach).
  split.
  - intros B N. rewrite P in B.
    assert (S1 : exists e, stored (st_fs s1) e).
    { destruct (reach_inv OK s1 R1) as [SN _ _ _ PI]. unfold phase_inv in PI. destruct B as [B|[B|B]]; rewrite B in PI.
      - destruct PI as [W _]. destruct (waiting_stored _ W) as (e & S & _). eauto.
      - destruct PI as [W _]. destruct (waiting_stored _ W) as (e & S & _). eauto.
      - destruct PI as [Q _]. destruct (st_fs s1 (Main Quorum)) as [[c m]|] eqn:Q'; [|now destruct Q].
        destruct (SN c (content_some _ _ _ _ Q')) as (seed & k & e & pv & live & lk & sp & X). exists e. apply X. }
    destruct S1 as (e & S). destruct (meanwhile_serve Y l2 s1) as (ms & W & Q).
    destruct (c06_manifest_only_grows_without_faults Y OK NF ms s1 e R1 W S) as (e' & S' & _). rewrite <- Q in S'. exact (EN N NF e' S').
  - intros e Ee l. specialize (E e Ee).
    assert (G : forall s l, reach Y s -> forall e0, stored (st_fs s) e0 -> exists e', stored (st_fs (meanwhile Y l s)) e' /\ extends e0 e').
    { intros s l0 Rs e0 S. destruct (meanwhile_serve Y l0 s) as (ms & W & Q). rewrite Q. exact (c06_manifest_only_grows_without_faults Y OK NF ms s e0 Rs W S). }
    assert (RO : forall m s e0, read_only m = true -> stored (st_fs s) e0 -> stored (st_fs (snd (handle Y m s))) e0).
    { intros m s e0 O S. destruct (c03_read_only Y m s O) as (_ & Q & _). cbv zeta in Q. now rewrite Q. }
    apply (RO ManifestEnvelopeRequest s2 e eq_refl) in E.
    assert (RM : reach Y (snd (handle Y ManifestEnvelopeRequest s2))) by (now apply R_step).
    set (s3 := meanwhile Y l3 (snd (handle Y ManifestEnvelopeRequest s2))) in *. destruct (G _ l3 RM e E) as (e3 & S3 & X3). fold s3 in S3.
    assert (R3 : reach Y s3) by (now apply meanwhile_reach).
    assert (S4 : stored (st_fs (n_st n')) e3 /\ reach Y (n_st n')).
    { destruct F as [->| ->]; [auto|]. split; [now apply RO|now apply R_step]. }
    destruct S4 as [S4 R4]. destruct (G _ l R4 e3 S4) as (e4 & S5 & X5). exists e4. split; [exact S5|]. exact (extends_trans e e3 e4 X3 X5).
Qed.
Print Assumptions c71_reported_manifest_is_final.

(** Undisturbed, it reports the enclave's phase and stored manifest, provided the
    manifest fits into an answer; except after a genesis ceremony, when it fails. *)
Theorem c71_info_answers : forall Y, no_faults Y -> forall n rest, n_script n = ([], Through) :: ([], Through) :: ([], Through) :: rest ->
  (st_phase (n_st n) = GenesisBooted -> fst (get_info Y n) = None)
  /\ (st_phase (n_st n) <> GenesisBooted -> forall o a, (match o with Some e => stored (st_fs (n_st n)) e | None => forall e, ~ stored (st_fs (n_st n)) e end) ->
      to_wire (ManifestEnvelopeResponse o) EJson = Ok a -> fits a ->
      exists k, fst (get_info Y n) = Some (EnclaveInfo (st_phase (n_st n)) o k)).
Proof.
  intros Y NF n rest S. destruct status_wire as (b & T & F). destruct (status_answer_wire (st_phase (n_st n))) as (a0 & TA & FA).
  destruct (ask_through Y StatusRequest n [] _ b a0 S T F) as (n1 & A1 & E1 & S1); [now rewrite c01_status_reports_phase|exact FA|].
  rewrite c01_status_reports_phase in A1, E1. change (meanwhile Y [] (n_st n)) with (n_st n) in *. cbn [fst snd] in *.
  unfold get_info. rewrite A1. destruct manifest_wire as (b2 & T2 & F2). split.
  - intros P. destruct (ask Y ManifestEnvelopeRequest n1) as [r2 n2] eqn:A2.
    destruct (ask_inv Y ManifestEnvelopeRequest n1 r2 n2 A2) as (l2 & [[_ ->]|[_ R2]]); [reflexivity|]. destruct r2 as [x2|]; [|reflexivity].
    destruct (R2 x2 eq_refl) as [->|[X2 _]]; [reflexivity|]. rewrite E1 in X2.
    assert (PG : st_phase (meanwhile Y l2 (n_st n)) = GenesisBooted).
    { destruct (meanwhile_serve Y l2 (n_st n)) as (ms & _ & ->). rewrite (c01_terminal_phases Y ms (n_st n)); [exact P|]. unfold terminal. rewrite P. auto. }
    unfold handle in X2. rewrite PG in X2. cbn in X2. subst x2. reflexivity.
  - intros P o a O TO FO.
    assert (H : fst (handle Y ManifestEnvelopeRequest (n_st n)) = ManifestEnvelopeResponse o).
    { rewrite (handle_manifest (n_st n) P). cbn [fst]. unfold ok_of. destruct o as [e|].
      - rewrite (calm_manifest NF e (n_st n) O). reflexivity.
      - destruct (get_manifest_envelope Y (n_st n)) as [[v|x] s1] eqn:G; [|reflexivity]. exfalso.
        destruct (get_manifest_ok (n_st n) v s1 G) as (c & m & C & D). apply (O v). exists c. unfold content. now rewrite C. }
    destruct (ask_through Y ManifestEnvelopeRequest n1 [] _ b2 a S1 T2 F2) as (n2 & A2 & E2 & S2).
    + change (meanwhile Y [] (n_st n1)) with (n_st n1). now rewrite E1, H.
    + exact FO.
    + change (meanwhile Y [] (n_st n1)) with (n_st n1) in A2. rewrite E1, H in A2. rewrite A2.
      destruct (ask Y LiveAttestationDocRequest n2) as [r3 n3]. eexists. reflexivity.
Qed.
Print Assumptions c71_info_answers.

(** Every body the info route sends is read back by its reader (qos_bridge). *)
Lemma null_good {A} (c : jcodec A) o d : jlawful c -> opt_wf c o = true -> (jneed c <= d)%nat ->
  jok (null_ser c o) = true /\ strict d (null_ser c o) = true /\ opt_dec c (S d) (Some (null_ser c o)) = Some o.
Proof.
  intros L W D. destruct o as [a|]; [|repeat split; reflexivity]. destruct (L a W) as [(J & NN & G) _]. cbn [null_ser opt_wf opt_dec] in *.
  destruct (G d D) as [G1 G2]. split; [exact J|]. split; [exact G1|]. cbn [pred]. rewrite G2. destruct (jser c a); auto. congruence.
Qed.
Theorem c71_info_is_readable : forall Y n n' body, info_response Y n = ((200, Some body), n') ->
  exists i, get_info Y n = (Some i, n') /\ json_from_slice js_enclave_info body = Some i.
Proof.
  intros Y n n' body H. unfold info_response in H. destruct (get_info Y n) as [[i|] n1] eqn:G; inversion H; subst; clear H.
  exists i. split; [reflexivity|].
  assert (W : opt_wf js_versioned_envelope (ei_envelope i) = true /\ opt_wf js_string (ei_key i) = true).
  { unfold get_info in G. destruct (ask Y StatusRequest n) as [[[]|] m1]; try discriminate G.
    destruct (ask Y ManifestEnvelopeRequest m1) as [r2 m2] eqn:A2. destruct (ask_inv Y _ _ _ _ A2) as (l2 & [[_ ->]|[_ R2]]); [discriminate G|].
    destruct r2 as [x2|]; [|discriminate G]. destruct (R2 x2 eq_refl) as [->|[_ W2]]; [discriminate G|]. destruct x2; try discriminate G.
    destruct (ask Y LiveAttestationDocRequest m2) as [r3 m3]. inversion G; subst; clear G. cbn [ei_envelope ei_key]. split.
    - destruct env as [e|]; [|reflexivity]. exact W2.
    - destruct r3 as [x3|]; [|reflexivity]. destruct x3; try reflexivity. destruct nsm; try reflexivity. cbn [eph_key_of].
      destruct (s_doc Y document) as [doc|]; [|reflexivity]. cbn [obind]. destruct (ad_public_key doc); [|reflexivity]. cbn [obind opt_wf].
      change (utf8_valid (encode b) = true). apply ascii_valid, encode_ascii. }
  destruct W as [W1 W2]. destruct i as [p e k]. cbn [ei_phase ei_envelope ei_key] in *.
  destruct (null_good js_versioned_envelope e 127 js_versioned_envelope_law W1 ltac:(le128)) as (J1 & S1 & D1).
  destruct (null_good js_string k 127 js_string_law W2 ltac:(le128)) as (J2 & S2 & D2).
  set (j := jser js_enclave_info (EnclaveInfo p e k)).
  assert (JO : jok j = true).
  { change (jok j) with (jok (JObj [(Some (bs "phase"), str (phase_name p)); (Some (bs "manifestEnvelope"), null_ser js_versioned_envelope e); (Some (bs "ephemeralKey"), null_ser js_string k)])).
    cbn [jok forallb fst snd]. rewrite J1, J2. destruct p; reflexivity. }
  assert (SO : strict MAX_DEPTH j = true).
  { change (strict MAX_DEPTH j) with (forallb (fun p => is_some (fst p) && strict 127 (snd p))
      [(Some (bs "phase"), str (phase_name p)); (Some (bs "manifestEnvelope"), null_ser js_versioned_envelope e); (Some (bs "ephemeralKey"), null_ser js_string k)]).
    cbn [forallb fst snd]. rewrite S1, S2. reflexivity. }
  change (json_from_slice js_enclave_info (write j) = Some (EnclaveInfo p e k)). unfold json_from_slice. rewrite (parse_write j JO).
  assert (DS : jdec js_enclave_info MAX_DEPTH j =
    (let? p := req js_phase 128 (Some (str (phase_name p))) in let? e := opt_dec js_versioned_envelope 128 (Some (null_ser js_versioned_envelope e)) in
     let? k := opt_dec js_string 128 (Some (null_ser js_string k)) in Some (EnclaveInfo p e k))) by reflexivity.
  rewrite DS, D1, D2. destruct p; reflexivity.
Qed.
Print Assumptions c71_info_is_readable.

Section Unbooted.
  Context {Y : sys}.
  Lemma no_way_back p q : clos_refl_trans phase edge p q -> q = WaitingForBootInstruction -> p = WaitingForBootInstruction.
  Proof. induction 1 as [p q E|p|p q r _ IH1 _ IH2]; intros ->; [inversion E|reflexivity|]. auto. Qed.
  Lemma unbooted_step r (s : st Y) : st_phase s = WaitingForBootInstruction -> st_phase (snd (handle Y r s)) = WaitingForBootInstruction ->
    st_fs (snd (handle Y r s)) = st_fs s.
  Proof.
    intros P P'. destruct (handle_cases r s) as [[_ H]|[(_ & _ & Q)|[(set & dr & -> & _)|[(e & pv & B & _)|[(sh & a & -> & Q)|(c & g & -> & Q)]]]]].
    - now rewrite H.
    - exact (Run.quiet_fs _ _ Q).
    - rewrite (handle_genesis set dr s P) in P'. destruct (boot_genesis Y set dr s) as [[p|x] s1]; discriminate P'.
    - rewrite (handle_boot r e pv s P B) in P'. destruct (put_manifest_and_pivot Y e pv s) as [[n|x] s1]; cbn in P'; [|discriminate P'].
      destruct r; try discriminate B; discriminate P'.
    - congruence.
    - congruence.
  Qed.
  Lemma unbooted_files ms : forall s : st Y, st_phase s = WaitingForBootInstruction -> st_phase (snd (serve Y ms s)) = WaitingForBootInstruction ->
    st_fs (snd (serve Y ms s)) = st_fs s.
  Proof.
    induction ms as [|m ms IH]; intros s P P'; [reflexivity|]. rewrite serve_cons in *. cbn [snd] in *.
    assert (P1 : st_phase (snd (handle Y m s)) = WaitingForBootInstruction) by (exact (no_way_back _ _ (serve_path ms (snd (handle Y m s))) P')).
    rewrite (IH _ P1 P'). now apply unbooted_step.
  Qed.
End Unbooted.

(** Finding: the three fields are three separate questions, so a report need not
    have been true at any single moment.  Here the enclave is booted between them:
    the report says it still waits for a boot instruction, and shows the manifest. *)
Definition boot_bytes : bytes := match to_wire boot_std EBorsh with Ok b => b | Err _ => [] end.
Definition torn : net T := Net (start calm 0) [] [([], Through); ([boot_bytes], Through); ([], Through)].
Definition report (n : net T) : option (phase * bool * option bool) :=
  match fst (get_info T n) with
  | Some i => Some (ei_phase i, is_some (ei_envelope i), option_map (bytes_eqb (encode (pub_of (toy_hash 32 (le_enc 8 0))))) (ei_key i))
  | None => None end.
Lemma report_inv n p e k : report n = Some (p, e, k) -> exists i n', get_info T n = (Some i, n') /\ ei_phase i = p /\ is_some (ei_envelope i) = e.
Proof.
  unfold report. destruct (get_info T n) as [[i|] n']; cbn [fst]; [|discriminate]. intros H. exists i, n'. split; [reflexivity|].
  split; congruence.
Qed.
Lemma torn_report : report torn = Some (WaitingForBootInstruction, true, Some true).
Proof. vm_compute. reflexivity. Qed.
Lemma torn_start : n_st torn = start calm 0.
Proof. reflexivity. Qed.
Lemma start_waits : st_phase (start calm 0) = WaitingForBootInstruction.
Proof. reflexivity. Qed.
Lemma start_empty e : ~ stored (st_fs (start calm 0)) e.
Proof. intros (c & C & _). discriminate C. Qed.
Theorem c71_refuted_info_is_a_snapshot : ~ (forall Y, sys_ok Y -> no_faults Y -> forall n i n', reach Y (n_st n) -> get_info Y n = (Some i, n') ->
  exists l, ei_phase i = st_phase (meanwhile Y l (n_st n)) /\ forall e, ei_envelope i = Some e -> stored (st_fs (meanwhile Y l (n_st n))) e).
Proof.
  intros H. destruct (report_inv _ _ _ _ torn_report) as (i & n' & G & K1 & K2).
  destruct (ei_envelope i) as [e|] eqn:E; [|discriminate].
  assert (R : reach T (n_st torn)) by (rewrite torn_start; exact (start_reach calm 0)).
  destruct (H T T_ok T_calm torn i n' R G) as (l & P & S). specialize (S e E). rewrite K1 in P. clear G R H.
  rewrite torn_start in P, S. destruct (meanwhile_serve T l (start calm 0)) as (ms & _ & Q). rewrite Q in P, S.
  rewrite (unbooted_files ms (start calm 0) start_waits (eq_sym P)) in S. exact (start_empty e S).
Qed.
Print Assumptions c71_refuted_info_is_a_snapshot.

(** Non-vacuity: the toy enclave before its boot, booted, provisioned, after a
    genesis ceremony; a lost request. *)
Definition quiet3 : list (list bytes * fate) := [([], Through); ([], Through); ([], Through)].
Definition health (s : st T) (sc : list (list bytes * fate)) : N := fst (fst (enclave_health T (Net s [] sc))).
Example c71_nontrivial :
  report (Net (start calm 0) [] quiet3) = Some (WaitingForBootInstruction, false, None)
  /\ report (Net s_booted [] quiet3) = Some (WaitingForQuorumShards, true, Some true)
  /\ report (Net s_done [] quiet3) = Some (QuorumKeyProvisioned, true, Some false)
  /\ report (Net (set_phase GenesisBooted (start calm 0)) [] quiet3) = None
  /\ report (Net s_booted [] [([], Through); ([], Lost)]) = None
  /\ (health (start calm 0) quiet3, health s_booted quiet3, health s_done quiet3, health s_done []) = (503, 503, 200, 500)
  /\ is_some (snd (fst (info_response T (Net s_done [] quiet3)))) = true.
Proof. split; [|split; [|split; [|split; [|split; [|split]]]]]; vm_compute; reflexivity. Qed.
