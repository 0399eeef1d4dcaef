(** C36, C37, C49, C50: requests and responses as bytes. *)
From Coq Require Import ZifyBool ZifyN ZifyNat.
From Verif Require Import Base Utf8 Hex Borsh BorshProofs Json JsonProofs Types TypesBorsh TypesJson TypesJsonProofs JsonComb Msg MsgBorsh MsgJson MsgJsonLaws
  JsonSound World Attest Services State SpecProtocol Reach Wire SpecWire WireProofs WireConc CodecExamples Toy ToyRuns.
Local Open Scope N_scope.

Lemma fits_max b : fits b <-> lenN b <= MAX_ENCODED_MSG_LEN.
Proof. unfold fits, MAX_ENCODED_MSG_LEN. rewrite lenN_length. lia. Qed.
Lemma intake_fits b : fits b -> intake b = match from_wire b with Err e => inl (json_error e) | Ok d => inr d end.
Proof. intros F. apply fits_max in F. unfold intake. now replace (MAX_ENCODED_MSG_LEN <? lenN b) with false by lia. Qed.
Lemma intake_big b : ~ fits b -> intake b = inl (json_error OversizedPayload).
Proof. intros F. rewrite fits_max in F. unfold intake. now replace (MAX_ENCODED_MSG_LEN <? lenN b) with true by lia. Qed.

Lemma ok_eq {E A} (a b : A) : @Ok E A a = Ok b -> a = b.
Proof. intros H. now inversion H. Qed.

(** ** C36 *)
(** Every byte string is answered; no request makes the processor panic. *)
Theorem c36_always_answers : forall Y b (s : st Y), exists a, fst (process Y b s) = Some a.
Proof.
  intros Y b s. unfold process. destruct (intake b) as [r|[m e]] eqn:A; cbn [fst].
  - unfold intake in A. destruct (MAX_ENCODED_MSG_LEN <? lenN b).
    + inversion A; subst. destruct (json_error_ok OversizedPayload) as (x & -> & _); [unfold wire_error; auto|eauto].
    + destruct (from_wire b) as [d|e] eqn:F; [discriminate|]. inversion A; subst.
      destruct (json_error_ok e (from_wire_err _ _ F)) as (x & -> & _). eauto.
  - destruct (handle Y m s) as [r s']. cbn [fst]. unfold answer. destruct (to_wire r e); [eauto|].
    destruct (json_error_ok InvalidMsg) as (x & -> & _); [unfold wire_error; auto|eauto].
Qed.
Print Assumptions c36_always_answers.

(** Oversize, undecodable and Borsh genesis requests change nothing and are
    answered by the matching error, as JSON. *)
Theorem c36_refusals_change_nothing : forall Y b (s : st Y),
  (~ fits b -> exists a, process Y b s = (Some a, s) /\ json_failure OversizedPayload a)
  /\ (fits b -> json_from_slice js_msg b = None -> from_slice c_msg b = None ->
      exists a, process Y b s = (Some a, s) /\ json_failure ProtocolMsgDeserialization a)
  /\ (fits b -> forall m, from_slice c_msg b = Some m ->
      (exists set dr, m = BootGenesisRequest set dr) \/ (exists nsm out, m = BootGenesisResponse nsm out) ->
      exists a, process Y b s = (Some a, s) /\ json_failure LegacyGenesisNotSupported a).
Proof.
  intros Y b s. repeat split.
  - intros F. unfold process. rewrite (intake_big b F). destruct (json_error_ok OversizedPayload) as (a & -> & J); [unfold wire_error; auto|].
    exists a. split; [reflexivity|exact J].
  - intros F J B. unfold process. rewrite (intake_fits b F). unfold from_wire. rewrite J, B.
    destruct (json_error_ok ProtocolMsgDeserialization) as (a & -> & J'); [unfold wire_error; auto|]. exists a. split; [reflexivity|exact J'].
  - intros F m B G. unfold process. rewrite (intake_fits b F). unfold from_wire, json_from_slice.
    rewrite (borsh_not_json b m (proj1 (fits_max b) F) B), B.
    replace (is_genesis m) with true by (destruct G as [(? & ? & ->)|(? & ? & ->)]; reflexivity).
    destruct (json_error_ok LegacyGenesisNotSupported) as (a & -> & J'); [unfold wire_error; auto|]. exists a. split; [reflexivity|exact J'].
Qed.
Print Assumptions c36_refusals_change_nothing.

(** A decodable request is handled exactly once; its response is sent in the
    request's encoding, or as a JSON error if that encoding cannot hold it. *)
Theorem c36_answer_in_request_encoding : forall Y b m (s : st Y), fits b ->
  (json_from_slice js_msg b = Some m ->
     snd (process Y b s) = snd (handle Y m s)
     /\ (jwf js_msg (fst (handle Y m s)) = true ->
         exists a, fst (process Y b s) = Some a /\ from_wire a = Ok (fst (handle Y m s), EJson))
     /\ ((forall a, to_wire (fst (handle Y m s)) EJson <> Ok a) -> exists a, fst (process Y b s) = Some a /\ json_failure InvalidMsg a))
  /\ (from_slice c_msg b = Some m -> is_genesis m = false ->
     snd (process Y b s) = snd (handle Y m s)
     /\ (forall a, to_wire (fst (handle Y m s)) EBorsh = Ok a -> fst (process Y b s) = Some a)
     /\ ((forall a, to_wire (fst (handle Y m s)) EBorsh <> Ok a) -> exists a, fst (process Y b s) = Some a /\ json_failure InvalidMsg a)).
Proof.
  intros Y b m s F. split.
  - intros J. assert (P : process Y b s = (answer EJson (fst (handle Y m s)), snd (handle Y m s))).
    { unfold process. rewrite (intake_fits b F). unfold from_wire. rewrite J. now destruct (handle Y m s). }
    rewrite P. cbn [fst snd]. split; [reflexivity|]. split.
    + intros W. destruct (json_wire_rt _ W) as (a & T & D). exists a. unfold answer. rewrite T. auto.
    + intros N. unfold answer. destruct (to_wire (fst (handle Y m s)) EJson) as [a|]; [exfalso; exact (N a eq_refl)|].
      destruct (json_error_ok InvalidMsg) as (a & -> & J'); [unfold wire_error; auto|]. exists a. split; [reflexivity|exact J'].
  - intros B G. assert (P : process Y b s = (answer EBorsh (fst (handle Y m s)), snd (handle Y m s))).
    { unfold process. rewrite (intake_fits b F). unfold from_wire, json_from_slice. rewrite (borsh_not_json b m (proj1 (fits_max b) F) B), B, G.
      now destruct (handle Y m s). }
    rewrite P. cbn [fst snd]. split; [reflexivity|]. split.
    + intros a T. unfold answer. now rewrite T.
    + intros N. unfold answer. destruct (to_wire (fst (handle Y m s)) EBorsh) as [a|]; [exfalso; exact (N a eq_refl)|].
      destruct (json_error_ok InvalidMsg) as (a & -> & J'); [unfold wire_error; auto|]. exists a. split; [reflexivity|exact J'].
Qed.
Print Assumptions c36_answer_in_request_encoding.

(** So the properties proved of histories of requests hold of histories of
    arbitrary byte strings. *)
Theorem c36_bytes_stay_in_histories : forall Y b (s : st Y),
  (reach Y s -> reach Y (snd (process Y b s))) /\ (forall s0, later Y s0 s -> later Y s0 (snd (process Y b s))).
Proof.
  intros Y b s. assert (K : snd (process Y b s) = s \/ exists m, wf_req m = true /\ snd (process Y b s) = snd (handle Y m s)).
  { unfold process. destruct (N.leb_spec (lenN b) MAX_ENCODED_MSG_LEN) as [L|L].
    - rewrite intake_fits by (now apply fits_max). destruct (from_wire b) as [[m e]|] eqn:F; [right|now left].
      exists m. split; [exact (from_wire_wf _ _ _ L F)|]. now destruct (handle Y m s).
    - left. rewrite intake_big; [reflexivity|]. rewrite fits_max. lia. }
  split.
  - intros R. destruct K as [->|(m & W & ->)]; [exact R|now apply R_step].
  - intros s0 R. destruct K as [->|(m & W & ->)]; [exact R|now apply L_step].
Qed.
Print Assumptions c36_bytes_stay_in_histories.

(** Concurrent requests: at every point of every interleaving the state and all
    answers given so far are those of a sequential execution of the processed
    requests, and later points only extend it (so a request that arrives after
    another was answered comes after it). *)
Theorem c36_concurrent_requests_are_sequential : forall Y (s0 : st Y) c1 c2,
  csteps Y (Conf Y [] None s0) c1 -> csteps Y c1 c2 ->
  exists log later_log, explains Y s0 c1 log /\ explains Y s0 c2 (log ++ later_log).
Proof.
  intros Y s0 c1 c2 S1 S2. destruct (linv_steps Y s0 _ _ _ (linv_init Y s0) S1) as (log & I1). cbn [app] in I1.
  destruct (linv_steps Y s0 _ _ _ I1 S2) as (ext & I2). exists log, ext. split; now apply linv_explains.
Qed.
Print Assumptions c36_concurrent_requests_are_sequential.

Theorem c36_one_request_at_a_time : forall Y (s0 : st Y) c i j,
  csteps Y (Conf Y [] None s0) c -> inside Y c i -> inside Y c j -> i = j.
Proof.
  intros Y s0 c i j S (b & Hi) (b' & Hj). destruct (linv_steps Y s0 _ _ _ (linv_init Y s0) S) as (log & LI). cbn [app] in LI.
  assert (K : forall k x, (exists m e s, nth_error (c_tasks Y c) k = Some (Holding Y x m e s)) \/ (exists r, nth_error (c_tasks Y c) k = Some (Handled Y x r)) ->
    exists t, nth_error (c_tasks Y c) k = Some t /\ holds Y t).
  { intros k x [(m & e & s & E)|(r & E)]; eexists; (split; [exact E|exact Logic.I]). }
  destruct (K _ _ Hi) as (t & Et & Ht). destruct (K _ _ Hj) as (u & Eu & Hu). exact (linv_exclusive Y s0 c log i j t u LI Et Eu Ht Hu).
Qed.
Print Assumptions c36_one_request_at_a_time.

Definition status_json : bytes := bs """statusRequest""".
Definition status_borsh : bytes := [x01].
Example c36_nontrivial :
  json_from_slice js_msg status_json = Some StatusRequest /\ from_slice c_msg status_borsh = Some StatusRequest
  /\ fst (process T status_json s_done) = Some (bs "{""statusResponse"":""QuorumKeyProvisioned""}")
  /\ fst (process T status_borsh s_done) = Some [x02; x04]
  /\ exists c, csteps T (Conf T [] None s_done) c /\ length (c_tasks T c) = 2%nat /\ inside T c 0.
Proof.
  split; [vm_compute; reflexivity|]. split; [vm_compute; reflexivity|].
  split; [vm_compute; reflexivity|]. split; [vm_compute; reflexivity|].
  eexists. split.
  - eapply CS_step; [eapply CS_step; [eapply CS_step; [eapply CS_step; [apply CS_refl|apply (S_arrive T _ status_borsh)]|apply (S_arrive T _ status_json)]|]|].
    + apply (S_decode T _ 0 status_borsh StatusRequest EBorsh); [reflexivity|vm_compute; reflexivity].
    + apply (S_lock T _ 0 status_borsh StatusRequest EBorsh); reflexivity.
  - split; [reflexivity|]. exists status_borsh. left. eexists _, _, _. reflexivity.
Qed.

(** ** C37 *)
(** The intended property fails: whatever the bytes, these three requests are
    never decoded from Borsh. *)
Theorem c37_refuted_no_borsh_boot_forward_or_export : forall b m, from_wire b = Ok (m, EBorsh) ->
  (forall e p, m <> BootStandardRequest e p) /\ (forall e p, m <> BootKeyForwardRequest e p) /\ (forall e d, m <> ExportKeyRequest e d).
Proof.
  intros b m. unfold from_wire. destruct (json_from_slice js_msg b); [discriminate|]. destruct (from_slice c_msg b) as [m'|] eqn:B; [|discriminate].
  destruct (is_genesis m'); [discriminate|]. intros H. inversion H; subst. destruct b as [|x l]; [discriminate|].
  apply borsh_inv in B as [_ F]. repeat split; intros ? ? ->; exact F.
Qed.
Print Assumptions c37_refuted_no_borsh_boot_forward_or_export.

(** The encoder does write them, and what it writes is refused. *)
Theorem c37_refuted_what_is_written_is_refused : forall m b, to_wire m EBorsh = Ok b -> fits b ->
  (exists e p, m = BootStandardRequest e p) \/ (exists e p, m = BootKeyForwardRequest e p) \/ (exists e d, m = ExportKeyRequest e d) ->
  from_wire b = Err ProtocolMsgDeserialization.
Proof.
  intros m b T F K. unfold to_wire in T.
  assert (X : exists x l, b = x :: l /\ b2n x = tag_of m /\ parse b = None).
  { destruct (is_genesis m); [discriminate|]. unfold to_vec in T. destruct (wf c_msg m) eqn:W; [|discriminate]. apply ok_eq in T. symmetry in T. rename T into E.
    change (wf c_msg m) with (twf t_msg (msg_to m) && (fst (tenc t_msg (msg_to m)) <? 256)) in W. apply andb_true_iff in W as [W _].
    change (enc c_msg m) with (n2b (fst (tenc t_msg (msg_to m))) :: snd (tenc t_msg (msg_to m))) in E.
    set (k := fst (tenc t_msg (msg_to m))) in *. set (l := snd (tenc t_msg (msg_to m))) in *. exists (n2b k), l. split; [exact E|].
    assert (Tg : k = tag_of m) by (unfold k; destruct m; reflexivity). split; [rewrite Tg; destruct m; reflexivity|].
    destruct (parse b) as [j|] eqn:P; [exfalso|reflexivity]. rewrite E in P. pose proof (parse_first _ _ _ P) as Fi. pose proof (parse_all9 _ _ P) as A.
    rewrite Tg in Fi, A. destruct K as [(e & p & ->)|[(e & p & ->)|(e & d & ->)]]; cbn in Fi; try lia.
    cbn [forallb] in A. apply andb_true_iff in A as [_ A].
    assert (Ln : exists n r, l = le_enc 4 (lenN n) ++ n ++ r).
    { unfold l. cbn [msg_to]. unfold t_msg. cbn [tenc t_cons snd c_pair enc fst c_versioned_envelope].
      destruct e as [x|x|x]; [vm_compute in W; discriminate| |]; unfold c_envelope, c_envelope_v0, c_manifest, c_manifest_v0, c_namespace;
        destruct x as [mm ? ?]; destruct mm; cbn [enc c_iso c_pair fst snd e1_manifest e0_manifest]; match goal with |- context [enc c_string ?n] => exists n end;
        cbn [enc c_string]; rewrite <- !app_assoc; eexists; reflexivity. }
    destruct Ln as (n & r & ->). unfold fits in F. rewrite E in F. cbn [length] in F. rewrite !app_length, le_enc_length in F.
    destruct (le4_top (lenN n)) as (x0 & x1 & x2 & x3 & E4 & E9); [rewrite lenN_length; lia|]. rewrite E4 in A. cbn [forallb app] in A.
    rewrite E9 in A. destruct (ge9 x0), (ge9 x1), (ge9 x2); discriminate. }
  destruct X as (x & l & -> & Tg & P). unfold from_wire, json_from_slice. rewrite P.
  destruct (from_slice c_msg (x :: l)) as [m'|] eqn:B; [|reflexivity]. exfalso. apply borsh_inv in B as [Tg' Fa]. rewrite Tg in Tg'.
  destruct K as [(e & p & ->)|[(e & p & ->)|(e & d & ->)]]; destruct m'; try discriminate Tg'; exact Fa.
Qed.
Print Assumptions c37_refuted_what_is_written_is_refused.

(** What does hold: every other non-genesis Borsh message round trips (one that
    ends in a manifest envelope, if that envelope is not also readable in the
    other legacy schema). *)
Theorem c37_other_borsh_messages_round_trip : forall m b, to_wire m EBorsh = Ok b -> fits b -> envelope_inside m = false ->
  (forall e, last_envelope m = Some e -> forall v0 v1,
     ~ (from_slice c_envelope (enc c_versioned_envelope e) = Some v1 /\ from_slice c_envelope_v0 (enc c_versioned_envelope e) = Some v0)) ->
  from_wire b = Ok (m, EBorsh).
Proof.
  intros m b T F I U. unfold to_wire in T. destruct (is_genesis m) eqn:G; [discriminate|]. unfold to_vec in T.
  destruct (wf c_msg m) eqn:W; [|discriminate]. apply ok_eq in T. subst b.
  assert (B : from_slice c_msg (enc c_msg m) = Some m).
  { apply borsh_rt; auto. destruct (last_envelope m) as [e|] eqn:LE; [|exact Logic.I]. apply ver_env_last; [|now apply U].
    change (wf c_msg m) with (twf t_msg (msg_to m) && (fst (tenc t_msg (msg_to m)) <? 256)) in W. apply andb_true_iff in W as [W _].
    destruct m; try discriminate; cbn [last_envelope] in LE; subst; cbn [msg_to] in W; unfold t_msg in W; cbn [twf t_cons] in W.
    - cbn [wf c_pair fst snd c_option] in W. now apply andb_true_iff in W as [_ W].
    - exact W. }
  unfold from_wire, json_from_slice. rewrite (borsh_not_json _ m (proj1 (fits_max _) F) B), B, G. reflexivity.
Qed.
Print Assumptions c37_other_borsh_messages_round_trip.

(** And every message except the Borsh-only variant round trips as JSON. *)
Theorem c37_json_messages_round_trip : forall m, jwf js_msg m = true -> exists b, to_wire m EJson = Ok b /\ from_wire b = Ok (m, EJson).
Proof. exact json_wire_rt. Qed.
Print Assumptions c37_json_messages_round_trip.

Definition borsh_boot : msg := BootStandardRequest (VE1 ex_envelope) (bs "pivot").
Definition borsh_prov : msg := ProvisionRequest (bs "share") ex_approval.
Definition ok_len (r : result perr bytes) : N := match r with Ok b => lenN b | Err _ => 0 end.
Definition is_ok (r : result perr (msg * encoding)) : bool := match r with Ok _ => true | Err _ => false end.
Example c37_nontrivial :
  ok_len (to_wire borsh_boot EBorsh) = 1404
  /\ (forall b, to_wire borsh_boot EBorsh = Ok b -> is_ok (from_wire b) = false)
  /\ ok_len (to_wire borsh_prov EBorsh) = 221 /\ (forall b, to_wire borsh_prov EBorsh = Ok b -> is_ok (from_wire b) = true)
  /\ jwf js_msg borsh_boot = true.
Proof.
  split; [vm_compute; reflexivity|]. split; [intros b H; vm_compute in H; inversion H; vm_compute; reflexivity|].
  split; [vm_compute; reflexivity|]. split; [intros b H; vm_compute in H; inversion H; vm_compute; reflexivity|]. vm_compute. reflexivity.
Qed.

(** ** C49: on the wire a manifest that declares "v2" may be read as V1 *)
Definition v2_named : json :=
  match jser js_envelope ex_envelope with
  | JObj ((k, JObj m) :: r) => JObj ((k, JObj ((Some (bs "version"), str (bs "v2")) :: m)) :: r)
  | j => j
  end.
Definition v2_as_v1 : bytes :=
  write (JObj [(Some (bs "bootStandardRequest"), JObj [(Some (bs "manifest_envelope"), v2_named); (Some (bs "pivot"), str (bs "00"))])]).
Theorem c49_refuted_declared_v2_read_as_v1 : exists b j e p,
  from_wire b = Ok (BootStandardRequest (VE1 e) p, EJson) /\ parse b = Some j
  /\ member [bs "bootStandardRequest"; bs "manifest_envelope"; bs "manifest"; bs "version"] j = Some (JStr (Some (bs "v2"))).
Proof.
  exists v2_as_v1, (match parse v2_as_v1 with Some j => j | None => JNull end), ex_envelope, [x00].
  split; [vm_compute; reflexivity|]. split; vm_compute; reflexivity.
Qed.
Print Assumptions c49_refuted_declared_v2_read_as_v1.
(** The positive part of C49: only a manifest that has a "patchSet" (a field
    of V0 and V1 that V2 does not have) can be taken for an older one. *)
Lemma older_has_patch_set d j e : jdec js_versioned_envelope d j = Some e ->
  member [bs "manifest"; bs "version"] j <> None -> member [bs "manifest"; bs "patchSet"] j = None -> exists x, e = VE2 x.
Proof.
  cbn [js_versioned_envelope jdec member]. intros H V P.
  destruct (strict d j); [|discriminate]. destruct (jdec js_envelope_v2 d j) as [x|]; [inversion H; eauto|]. exfalso.
  destruct j as [| | | | | |m]; try (now apply V).
  destruct (jget (bs "manifest") (JObj m)) as [y|] eqn:M; [|now apply V].
  destruct y as [| | | | | |n]; try (now apply V).
  destruct (jget (bs "patchSet") (JObj n)) eqn:Q; [discriminate|]. clear V P.
  destruct (jdec js_envelope d (JObj m)) as [x|] eqn:E.
  - clear H. unfold js_envelope in E. cbn [jdec] in E. destruct (dec_struct _ false d (JObj m)) as [vs|] eqn:DS; [|discriminate].
    apply dec_struct_obj in DS. cbn [map] in DS. subst vs. rewrite M in E. cbn [req] in E.
    destruct (jdec js_manifest (pred d) (JObj n)) as [mv|] eqn:DM; [|discriminate]. clear E.
    unfold js_manifest in DM. cbn [jdec] in DM. destruct (dec_struct _ false (pred d) (JObj n)) as [vs|] eqn:DS; [|discriminate].
    apply dec_struct_obj in DS. cbn [map] in DS. subst vs. rewrite Q in DM.
    cbn [req] in DM; do 5 (match type of DM with obind ?o _ = _ => destruct o; [cbn [obind] in DM|discriminate DM] end); discriminate DM.
  - destruct (jdec js_envelope_v0 d (JObj m)) as [x|] eqn:E0; [|discriminate]. clear H E.
    unfold js_envelope_v0 in E0. cbn [jdec] in E0. destruct (dec_struct _ false d (JObj m)) as [vs|] eqn:DS; [|discriminate].
    apply dec_struct_obj in DS. cbn [map] in DS. subst vs. rewrite M in E0. cbn [req] in E0.
    destruct (jdec js_manifest_v0 (pred d) (JObj n)) as [mv|] eqn:DM; [|discriminate]. clear E0.
    unfold js_manifest_v0 in DM. cbn [jdec] in DM. destruct (dec_struct _ false (pred d) (JObj n)) as [vs|] eqn:DS; [|discriminate].
    apply dec_struct_obj in DS. cbn [map] in DS. subst vs. rewrite Q in DM.
    cbn [req] in DM; do 5 (match type of DM with obind ?o _ = _ => destruct o; [cbn [obind] in DM|discriminate DM] end); discriminate DM.
Qed.
Lemma enum_inv {A} (v : jvariants A) d j a : jdec (js_enum v) d j = Some a ->
  (exists s, j = JStr (Some s) /\ vdec v s d None = Some a)
  \/ (exists k x d1, j = JObj [(Some k, x)] /\ vdec v k d1 (Some x) = Some a).
Proof.
  cbn [js_enum jdec]. destruct j as [| | | |[s|]| |m]; try discriminate; [left; eauto|].
  destruct m as [|[[k|] x] [|? ?]]; try discriminate. destruct d as [|[|d]]; try discriminate. intros H. right. eauto 6.
Qed.
Lemma v_new_other {A B} n (c : jcodec A) (v : jvariants B) k d p b : vdec (v_new n c v) k d p = Some (inr b) -> vdec v k d p = Some b.
Proof.
  cbn [v_new vdec]. destruct (bytes_eqb k n); [destruct p as [x|]; [destruct (jdec c d x)|]; discriminate|].
  destruct (vdec v k d p); cbn [to_right]; [|discriminate]. intros H. injection H. congruence.
Qed.
Lemma v_unit_other {B} n (v : jvariants B) k d p b : vdec (v_unit n v) k d p = Some (inr b) -> vdec v k d p = Some b.
Proof.
  cbn [v_unit vdec]. destruct (bytes_eqb k n); [destruct p as [[]|]; discriminate|].
  destruct (vdec v k d p); cbn [to_right]; [|discriminate]. intros H. injection H. congruence.
Qed.
Lemma v_new_this {A B} n (c : jcodec A) (v : jvariants B) k d p a : vdec (v_new n c v) k d p = Some (inl a) ->
  k = n /\ exists x, p = Some x /\ jdec c d x = Some a.
Proof.
  cbn [v_new vdec]. intros H. destruct (bytes_eqb_spec k n) as [->|_].
  - split; [reflexivity|]. destruct p as [x|]; [|discriminate]. exists x. split; [reflexivity|]. destruct (jdec c d x); [|discriminate H]. injection H. congruence.
  - destruct (vdec v k d p); discriminate H.
Qed.

(** The request and the envelope it carries. *)
Definition carries (kind : bytes) (m : msg) (e : versioned_envelope) : Prop :=
  (kind = bs "bootStandardRequest" /\ exists p, m = BootStandardRequest e p)
  \/ (kind = bs "bootKeyForwardRequest" /\ exists p, m = BootKeyForwardRequest e p)
  \/ (kind = bs "exportKeyRequest" /\ exists p, m = ExportKeyRequest e p).
Lemma struct_first d x n1 n2 (c1 : jcodec versioned_envelope) (c2 : jcodec bytes) e p :
  jdec (js_struct false (f_cons n1 c1 (f_one n2 c2))) d x = Some (e, p) -> forall m, x = JObj m ->
  exists y d1, jget n1 x = Some y /\ jdec c1 d1 y = Some e.
Proof.
  cbn [js_struct jdec f_cons f_one fn fd]. intros H m ->. destruct (dec_struct _ false d (JObj m)) as [vs|] eqn:DS; [|discriminate].
  apply dec_struct_obj in DS. cbn [map] in DS. subst vs. destruct (jget n1 (JObj m)) as [y|]; [|discriminate]. cbn [req] in H.
  destruct (jdec c1 (pred d) y) as [a|] eqn:D; [|discriminate]. destruct (req c2 d (jget n2 (JObj m))) as [b|]; [|discriminate].
  injection H. intros _ <-. eauto.
Qed.
Lemma carried d j m kind e : jdec js_msg d j = Some m -> carries kind m e -> forall x, jget kind j = Some x -> forall o, x = JObj o ->
  exists y d1, jget (bs "manifest_envelope") x = Some y /\ jdec js_versioned_envelope d1 y = Some e.
Proof.
  unfold js_msg. cbn [js_iso jdec]. intros H C x G o X. destruct (jdec (js_enum v_msg) d j) as [a|] eqn:D; [|discriminate].
  assert (A : a = msg_to m) by (injection H; intros <-; symmetry; apply msg_to_of). clear H. subst a.
  apply enum_inv in D as [(s & -> & _)|(k & z & d1 & -> & D)]; [discriminate|].
  assert (K : forall k z, jget k (JObj [(Some k, z)]) = Some z)
    by (intros k0 z0; cbn [jget find_last okey_eqb]; destruct (bytes_eqb_spec k0 k0); congruence).
  destruct C as [(-> & p & ->)|[(-> & p & ->)|(-> & p & ->)]]; cbn [msg_to] in D; unfold v_msg in D;
    repeat first [apply v_new_other in D | apply v_unit_other in D];
    apply v_new_this in D as (-> & z' & Z & D); injection Z; intros <-; clear Z;
    rewrite K in G; injection G; intros <-; exact (struct_first _ _ _ _ _ _ _ _ D _ X).
Qed.
Theorem c49_declared_without_patch_set_is_v2 : forall b j r kind e,
  from_wire b = Ok (r, EJson) -> parse b = Some j -> carries kind r e ->
  member [kind; bs "manifest_envelope"; bs "manifest"; bs "version"] j <> None ->
  member [kind; bs "manifest_envelope"; bs "manifest"; bs "patchSet"] j = None ->
  exists x, e = VE2 x.
Proof.
  intros b j r kind e F P C V N. unfold from_wire, json_from_slice in F. rewrite P in F.
  destruct (jdec js_msg MAX_DEPTH j) as [m|] eqn:D.
  2:{ destruct (from_slice c_msg b) as [m|]; [destruct (is_genesis m)|]; discriminate F. }
  assert (M : m = r) by (injection F; auto). subst m. clear F.
  cbn [member] in V, N. destruct (jget kind j) as [x|] eqn:G; [|now destruct V].
  destruct x as [| | | | | |o]; try (now destruct V).
  destruct (carried _ _ _ _ _ D C _ G _ eq_refl) as (y & d1 & Y & E).
  cbn [member] in V, N. rewrite Y in V, N. exact (older_has_patch_set _ _ _ E V N).
Qed.
Print Assumptions c49_declared_without_patch_set_is_v2.
Definition v2_boot : bytes := match to_wire (BootStandardRequest (VE2 ex_envelope_v2) (bs "pivot")) EJson with Ok b => b | Err _ => [] end.
Example c49_nontrivial : exists j,
  from_wire v2_boot = Ok (BootStandardRequest (VE2 ex_envelope_v2) (bs "pivot"), EJson) /\ parse v2_boot = Some j
  /\ carries (bs "bootStandardRequest") (BootStandardRequest (VE2 ex_envelope_v2) (bs "pivot")) (VE2 ex_envelope_v2)
  /\ member [bs "bootStandardRequest"; bs "manifest_envelope"; bs "manifest"; bs "version"] j = Some (JStr (Some (bs "v2")))
  /\ member [bs "bootStandardRequest"; bs "manifest_envelope"; bs "manifest"; bs "patchSet"] j = None.
Proof.
  exists (match parse v2_boot with Some j => j | None => JNull end).
  split; [vm_compute; reflexivity|]. split; [vm_compute; reflexivity|]. split; [left; split; [reflexivity|eexists; reflexivity]|].
  split; vm_compute; reflexivity.
Qed.


(** ** C50 *)
Theorem c50_encodings_disjoint : forall b m, fits b -> from_slice c_msg b = Some m -> parse b = None.
Proof. intros b m F. apply borsh_not_json. now apply fits_max. Qed.
Print Assumptions c50_encodings_disjoint.
Example c50_nontrivial : fits status_borsh /\ from_slice c_msg status_borsh = Some StatusRequest /\ fits status_json /\ parse status_json <> None.
Proof. repeat split; vm_compute; discriminate. Qed.
