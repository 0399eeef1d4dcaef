(** Lemmas in property form and concrete values for the codec properties. *)
From Verif Require Import Base Utf8 Hex SpecHex HexProofs Borsh BorshProofs Json JsonProofs NormProofs
  Types TypesBorsh Env EnvProofs TypesJson TypesJsonProofs TypesJsonLaws StorageProofs SpecJson CanonProofs
  Builder SpecBuilder BuilderProofs SpecEnv EnvReach.
Require Import ZifyBool ZifyN ZifyNat.
Local Open Scope N_scope.

(** ** examples *)
Definition h32 : bytes := repeat xab 32.
Definition ex_ms : member_set := MemberSet 2 [QuorumMember (bs "alice") (repeat x01 130); QuorumMember (bs "bob") (repeat x02 130)].
Definition ex_nitro : nitro_config := NitroConfig (repeat x03 48) (repeat x04 48) (repeat x05 48) (repeat x06 48) [x30; x82] (bs "commit").
Definition ex_ns : namespace := Namespace (bs "ns") 7 (repeat x09 130).
Definition ex_ps : patch_set := PatchSet 1 [repeat x0a 130].
Definition ex_manifest : manifest :=
  Manifest ex_ns (PivotConfig h32 Always [BServer 3000 (bs "0.0.0.0"); BClient 53 None; BClient 443 (Some (bs "h"))] true [bs "--a"; bs "b"]) ex_ms ex_ms ex_nitro ex_ps.
Definition ex_manifest_v0 : manifest_v0 := ManifestV0 ex_ns (PivotConfigV0 h32 Never [bs "x"]) ex_ms ex_ms ex_nitro ex_ps.
Definition ex_manifest_v2 : manifest_v2 :=
  ManifestV2 ex_ns (PivotConfigV2 h32 Always [BServer 3000 (bs "0.0.0.0")] false [bs "q"] [(bs "A_1", bs "x=y"); (bs "_b", [])])
    ex_ms ex_ms ex_nitro (Some (DnsConfig [IpV4 (Ipv4 x08 x08 x04 x04)])).
Definition ex_approval : approval := Approval (repeat x07 64) (QuorumMember (bs "alice") (repeat x01 130)).
Definition ex_envelope := ManifestEnvelope ex_manifest [ex_approval] [].
Definition ex_envelope_v0 := ManifestEnvelopeV0 ex_manifest_v0 [ex_approval] [ex_approval].
Definition ex_envelope_v2 := ManifestEnvelopeV2 ex_manifest_v2 [ex_approval] [].

(** ** hex *)
Lemma hex_round_trip (b : bytes) : 2 * N.of_nat (length b) < 256 * 1024 * 1024 ->
  decode (encode b) = Ok b /\ decode (["0"; "x"]%byte ++ encode b) = Ok b.
Proof.
  intros H. split; [apply decode_encode|apply decode_prefixed_encode]; rewrite lenN_length; unfold STR_MAX_LENGTH; lia.
Qed.
Lemma hex_encode_lower (b : bytes) : encode b = concat (map lower_pair b) /\ length (encode b) = (2 * length b)%nat.
Proof.
  split; [|apply encode_length]. induction b as [|x b IH]; [reflexivity|].
  change (encode (x :: b)) with (hex_pair x ++ encode b). rewrite IH, hex_pair_lower. reflexivity.
Qed.
Lemma hex_decode_exact s b : ~ In "+"%byte s ->
  (decode s = Ok b <-> hex_text (strip_0x s) b /\ N.of_nat (length (strip_0x s)) < 256 * 1024 * 1024).
Proof. intros H. rewrite <- lenN_length. exact (decode_exact s b H). Qed.
Lemma hex_plus_refuted : exists s b, decode s = Ok b /\ ~ hex_text (strip_0x s) b.
Proof.
  exists (bs "+a"), [x0a]. split; [reflexivity|]. intros H. inversion H as [|? ? vh vl s b D1 D2 T]; subst.
  destruct D1 as [D1|D1]; apply nth_error_In in D1; repeat (destruct D1 as [D1|D1]; [discriminate D1|]); exact D1.
Qed.

(** ** borsh *)
Definition canonical {A} (c : codec A) : Prop :=
  (forall a, wf c a = true -> from_slice c (enc c a) = Some a) /\
  (forall b a, from_slice c b = Some a -> wf c a = true /\ b = enc c a) /\
  (forall a a', wf c a = true -> wf c a' = true -> enc c a = enc c a' -> a = a').
Lemma lawful_canonical {A} (c : codec A) : lawful c -> canonical c.
Proof. intros L. split; [|split]; [now apply lawful_slice_rt|now apply lawful_slice_canon|now apply lawful_inj]. Qed.
Lemma borsh_all_canonical :
  canonical c_manifest /\ canonical c_manifest_v0 /\ canonical c_envelope /\ canonical c_envelope_v0 /\
  canonical c_namespace /\ canonical c_pivot /\ canonical c_pivot_v0 /\ canonical c_nitro /\
  canonical c_member_set /\ canonical c_patch_set /\ canonical c_member /\ canonical c_approval /\
  canonical c_bridge /\ canonical c_restart /\ canonical c_bytes /\ canonical c_string.
Proof. repeat match goal with |- _ /\ _ => split end; apply lawful_canonical; auto using c_envelope_lawful, c_envelope_v0_lawful with law. Qed.

Lemma decode_borsh_exact {T U V} (ct : codec T) (cu : codec U) (f : T -> V) (g : U -> V) b v :
  lawful ct -> lawful cu ->
  decode_borsh ct cu f g b = Some v <->
  ((exists t, v = f t /\ (wf ct t = true /\ b = enc ct t) /\ ~ exists u, wf cu u = true /\ b = enc cu u) \/
   (exists u, v = g u /\ (wf cu u = true /\ b = enc cu u) /\ ~ exists t, wf ct t = true /\ b = enc ct t)).
Proof.
  intros Lt Lu. unfold decode_borsh.
  destruct (from_slice ct b) as [t|] eqn:Et, (from_slice cu b) as [u|] eqn:Eu.
  - apply (lawful_slice_canon _ Lt) in Et. apply (lawful_slice_canon _ Lu) in Eu. split; [discriminate|].
    intros [(t' & _ & _ & N)|(u' & _ & _ & N)]; exfalso; apply N; eauto.
  - apply (lawful_slice_canon _ Lt) in Et as [W E]. split.
    + intros H; inversion H; subst v. left. exists t. repeat split; auto.
      intros (u & Wu & Eb). rewrite Eb, (lawful_slice_rt _ Lu u Wu) in Eu. discriminate.
    + intros [(t' & -> & (W' & E') & _)|(u & _ & (Wu & Eb) & _)].
      * f_equal. f_equal. rewrite E in E'. now apply (lawful_inj _ Lt).
      * rewrite Eb, (lawful_slice_rt _ Lu u Wu) in Eu. discriminate.
  - apply (lawful_slice_canon _ Lu) in Eu as [W E]. split.
    + intros H; inversion H; subst v. right. exists u. repeat split; auto.
      intros (t & Wt & Eb). rewrite Eb, (lawful_slice_rt _ Lt t Wt) in Et. discriminate.
    + intros [(t & _ & (Wt & Eb) & _)|(u' & -> & (W' & E') & _)].
      * rewrite Eb, (lawful_slice_rt _ Lt t Wt) in Et. discriminate.
      * f_equal. f_equal. rewrite E in E'. now apply (lawful_inj _ Lu).
  - split; [discriminate|]. intros [(t & _ & (Wt & Eb) & _)|(u & _ & (Wu & Eb) & _)].
    + rewrite Eb, (lawful_slice_rt _ Lt t Wt) in Et. discriminate.
    + rewrite Eb, (lawful_slice_rt _ Lu u Wu) in Eu. discriminate.
Qed.

Lemma borsh_manifest_exclusive b v : dec_versioned_manifest b = Some v <->
  match v with
  | VM2 _ => False
  | VM1 m => (wf c_manifest m = true /\ b = enc c_manifest m) /\
             ~ exists m0, wf c_manifest_v0 m0 = true /\ b = enc c_manifest_v0 m0
  | VM0 m0 => (wf c_manifest_v0 m0 = true /\ b = enc c_manifest_v0 m0) /\
             ~ exists m, wf c_manifest m = true /\ b = enc c_manifest m
  end.
Proof.
  unfold dec_versioned_manifest. rewrite decode_borsh_exact by auto with law. split.
  - intros [(t & -> & H)|(u & -> & H)]; exact H.
  - destruct v; intros H; [contradiction|left|right]; eauto.
Qed.
Lemma borsh_envelope_exclusive b v r : dec_versioned_envelope b = Some (v, r) <-> r = [] /\
  match v with
  | VE2 _ => False
  | VE1 m => (wf c_envelope m = true /\ b = enc c_envelope m) /\
             ~ exists m0, wf c_envelope_v0 m0 = true /\ b = enc c_envelope_v0 m0
  | VE0 m0 => (wf c_envelope_v0 m0 = true /\ b = enc c_envelope_v0 m0) /\
             ~ exists m, wf c_envelope m = true /\ b = enc c_envelope m
  end.
Proof.
  pose proof (decode_borsh_exact c_envelope c_envelope_v0 VE1 VE0 b) as D.
  specialize (fun v => D v c_envelope_lawful c_envelope_v0_lawful).
  unfold dec_versioned_envelope. destruct (decode_borsh c_envelope c_envelope_v0 VE1 VE0 b) as [w|] eqn:E.
  - split.
    + intros H; inversion H; subst. split; auto. destruct (proj1 (D v) eq_refl) as [(t & -> & X)|(u & -> & X)]; exact X.
    + intros [-> H]. assert (X : Some w = Some v); [|inversion X; reflexivity]. apply D.
      destruct v; [contradiction|left|right]; eauto.
  - split; [discriminate|]. intros [-> H]. assert (X : @None versioned_envelope = Some v); [|discriminate X]. apply D.
    destruct v; [contradiction|left|right]; eauto.
Qed.

(** ambiguity *)
Definition amb_bytes : bytes :=
  let a1 := repeat x00 23 ++ [x28; x00; x00; x00] in
  let m := Manifest (Namespace [] 0 []) (PivotConfig h32 Never [] false [[]; a1]) (MemberSet 0 []) (MemberSet 0 [])
             (NitroConfig [] [] [] [] [] []) (PatchSet 0 []) in
  enc c_manifest m.
Definition opt_get {A} (o : option A) : o <> None -> A :=
  match o with Some a => fun _ => a | None => fun H => match H eq_refl with end end.
Lemma amb_1 : from_slice c_manifest amb_bytes <> None. Proof. vm_compute. discriminate. Qed.
Lemma amb_0 : from_slice c_manifest_v0 amb_bytes <> None. Proof. vm_compute. discriminate. Qed.
Lemma borsh_ambiguous : exists m m0, wf c_manifest m = true /\ wf c_manifest_v0 m0 = true /\
  enc c_manifest m = enc c_manifest_v0 m0 /\ dec_versioned_manifest (enc c_manifest m) = None.
Proof.
  destruct (from_slice c_manifest amb_bytes) as [m|] eqn:E1; [|destruct (amb_1 E1)].
  destruct (from_slice c_manifest_v0 amb_bytes) as [m0|] eqn:E0; [|destruct (amb_0 E0)].
  exists m, m0.
  assert (X : dec_versioned_manifest amb_bytes = None).
  { unfold dec_versioned_manifest, decode_borsh. now rewrite E1, E0. }
  apply (lawful_slice_canon _ c_manifest_lawful) in E1 as [W1 B1].
  apply (lawful_slice_canon _ c_manifest_v0_lawful) in E0 as [W0 B0].
  repeat split; auto; congruence.
Qed.

(** ** versions *)
Lemma declared_no_fallback b j m : parse_strict b = Some j -> jget (bs "manifest") j = Some m -> jget (bs "version") m <> None ->
  envelope_try_from_slice_compat b = None \/ (exists e, envelope_try_from_slice_compat b = Some (VE2 e)).
Proof.
  intros P M V. unfold envelope_try_from_slice_compat, enveloped_manifest_declares_a_version. rewrite P, M.
  destruct (jget (bs "version") m); [|congruence]. cbn [is_some].
  destruct (json_from_slice js_envelope_v2 b) as [e|]; [right; exists e|left]; reflexivity.
Qed.
Lemma declared_manifest_no_fallback b j : parse_strict b = Some j -> jget (bs "version") j <> None ->
  manifest_try_from_slice_compat b = None \/ (exists e, manifest_try_from_slice_compat b = Some (VM2 e)).
Proof.
  intros P V. unfold manifest_try_from_slice_compat, declares_a_version. rewrite P.
  destruct (jget (bs "version") j); [|congruence]. cbn [is_some].
  destruct (json_from_slice js_manifest_v2 b) as [e|]; [right; exists e|left]; reflexivity.
Qed.

Lemma dec_version_inv d j : dec_version d j = Some tt -> j = str (bs "v2") \/ jget (bs "v2") j = Some JNull.
Proof.
  unfold dec_version, enum_text. destruct j as [| | | |[s|]| |m]; try discriminate.
  - destruct (bytes_eqb_spec s (bs "v2")); [subst; auto|discriminate].
  - destruct m as [|[[k|] x] [|? ?]]; try discriminate; destruct x; try discriminate.
    destruct d as [|[|d]]; try discriminate. destruct (bytes_eqb_spec k (bs "v2")); [subst|discriminate]. right. reflexivity.
Qed.

Lemma dec_struct_obj names deny d m vs : dec_struct names deny d (JObj m) = Some vs -> vs = map (fun n => jget n (JObj m)) names.
Proof.
  unfold dec_struct. destruct d as [|[|d]]; try discriminate. destruct (_ && _)%bool; [|discriminate].
  intros H; inversion H. reflexivity.
Qed.

Lemma v2_means_v2 b e : envelope_try_from_slice_compat b = Some (VE2 e) ->
  exists j m, parse_strict b = Some j /\ jget (bs "manifest") j = Some m /\
    (jget (bs "version") m = Some (str (bs "v2")) \/
     exists o, jget (bs "version") m = Some o /\ jget (bs "v2") o = Some JNull).
Proof.
  unfold envelope_try_from_slice_compat, enveloped_manifest_declares_a_version, decode_borsh.
  destruct (parse_strict b) as [j|] eqn:P.
  2:{ destruct (json_from_slice js_envelope b); [discriminate|]. destruct (json_from_slice js_envelope_v0 b); [discriminate|].
      destruct (from_slice c_envelope b), (from_slice c_envelope_v0 b); discriminate. }
  destruct (jget (bs "manifest") j) as [m|] eqn:M.
  2:{ destruct (json_from_slice js_envelope b); [discriminate|]. destruct (json_from_slice js_envelope_v0 b); [discriminate|].
      destruct (from_slice c_envelope b), (from_slice c_envelope_v0 b); discriminate. }
  destruct (is_some (jget (bs "version") m)) eqn:V.
  2:{ destruct (json_from_slice js_envelope b); [discriminate|]. destruct (json_from_slice js_envelope_v0 b); [discriminate|].
      destruct (from_slice c_envelope b), (from_slice c_envelope_v0 b); discriminate. }
  intros H. exists j, m. split; auto. split; auto.
  unfold json_from_slice in H. unfold parse_strict in P. destruct (parse b) as [j'|] eqn:PP; [|discriminate].
  destruct (strict MAX_DEPTH j'); [|discriminate]. inversion P; subst j'.
  destruct j as [| | | | | |mm]; try discriminate M.
  destruct (jdec js_envelope_v2 MAX_DEPTH (JObj mm)) as [e'|] eqn:D; [|discriminate]. clear H P.
  unfold js_envelope_v2 in D. cbn [jdec] in D.
  destruct (dec_struct _ true MAX_DEPTH (JObj mm)) as [vs|] eqn:DS; [|discriminate].
  apply dec_struct_obj in DS. cbn [map] in DS. subst vs. rewrite M in D. cbn [req] in D.
  destruct (jdec js_manifest_v2 (pred MAX_DEPTH) m) as [mv|] eqn:DM; [|discriminate]. clear D.
  destruct m as [| | | | | |m2]; try discriminate V.
  unfold js_manifest_v2 in DM. cbn [jdec] in DM.
  destruct (dec_struct _ true (pred MAX_DEPTH) (JObj m2)) as [vs|] eqn:DS; [|discriminate].
  apply dec_struct_obj in DS. cbn [map] in DS. subst vs.
  destruct (jget (bs "version") (JObj m2)) as [o|] eqn:VV; [|discriminate].
  destruct (dec_version (pred (pred MAX_DEPTH)) o) as [[]|] eqn:DV; [|discriminate].
  apply dec_version_inv in DV as [->|DV]; [left; reflexivity|right; eauto].
Qed.

(** a V1 envelope whose manifest also carries "version":"v2" and an unknown
    member with an unpaired surrogate escape *)
Definition quirk_bytes : bytes :=
  match write (jser js_envelope ex_envelope) with
  | b => bs "{""manifest"":{""version"":""v2"",""x"":""\ud800""," ++ skipn 13 b
  end.
Definition quirk_ok (b : bytes) : bool :=
  match parse b with
  | Some j => match jget (bs "manifest") j with
              | Some m => match jget (bs "version") m with
                          | Some (JStr (Some s)) => bytes_eqb s (bs "v2")
                          | _ => false end
              | None => false end
  | None => false end
  && match envelope_try_from_slice_compat b with Some (VE1 _) => true | _ => false end.
Lemma quirk_true : quirk_ok quirk_bytes = true. Proof. vm_compute. reflexivity. Qed.
Lemma quirk_gen b : quirk_ok b = true -> exists j m e,
  parse b = Some j /\ jget (bs "manifest") j = Some m /\ jget (bs "version") m = Some (str (bs "v2")) /\
  envelope_try_from_slice_compat b = Some (VE1 e).
Proof.
  intros Q. unfold quirk_ok in Q. apply andb_true_iff in Q as [Q1 Q2].
  destruct (parse b) as [j|]; [|discriminate].
  destruct (jget (bs "manifest") j) as [m|] eqn:M; [|discriminate].
  destruct (jget (bs "version") m) as [[| | | |[s|]| |]|] eqn:V; try discriminate.
  apply bytes_eqb_eq in Q1. subst.
  destruct (envelope_try_from_slice_compat b) as [[|e|]|]; try discriminate.
  exists j, m, e. auto.
Qed.
Lemma declared_version_refuted : exists b j m e,
  parse b = Some j /\ jget (bs "manifest") j = Some m /\ jget (bs "version") m = Some (str (bs "v2")) /\
  envelope_try_from_slice_compat b = Some (VE1 e).
Proof. exists quirk_bytes. apply quirk_gen, quirk_true. Qed.

(** ** canonical JSON *)
Lemma canon_parses_back a : jok a = true -> exists n t, canon a = Some t /\ parse t = Some n /\ jeq a n /\ canon n = Some t.
Proof.
  intros Ha. destruct (canon_parse a Ha) as (n & N & C & P). exists n, (write n). repeat split; auto.
  - now apply norm_jeq.
  - unfold canon. rewrite <- (jeq_norm a n) by now apply norm_jeq. now rewrite N.
Qed.
Lemma manifest_v2_canon_inj m m' : jwf js_manifest_v2 m = true -> jwf js_manifest_v2 m' = true ->
  canon (jser js_manifest_v2 m) = canon (jser js_manifest_v2 m') -> m = m'.
Proof.
  intros W W' E. destruct (js_manifest_v2_law m W) as [G (n & N & Gn)], (js_manifest_v2_law m' W') as [G' (n' & N' & Gn')].
  apply canon_norm in E; [|apply G|apply G']. rewrite N, N' in E. inversion E; subst n'.
  assert (X : Some m = Some m'); [|now inversion X].
  rewrite <- (good_dec _ _ _ MAX_DEPTH Gn), <- (good_dec _ _ _ MAX_DEPTH Gn'); auto; le128.
Qed.

(** ** builder and env *)
Lemma builder_example : exists ops m, described ops (VM2 m) /\ mf2_dns m <> None /\ pv2_env (mf2_pivot m) <> [].
Proof.
  exists [SNamespace ex_ns; SHash []; SHash h32; SRestart Always; SBridge [BServer 3000 (bs "0.0.0.0")]; SArgs [bs "q"];
          SEnv [(bs "A_1", bs "x=y"); (bs "_b", [])]; SManifestSet ex_ms; SShareSet ex_ms; SEnclave ex_nitro; SDns (DnsConfig [IpV4 (Ipv4 x08 x08 x04 x04)])],
         ex_manifest_v2.
  split; [|split; discriminate]. apply builder_described. reflexivity.
Qed.

Lemma name_new_exact n : name_new n = Some n <-> good_name n.
Proof.
  split; [intros H; apply name_good; now rewrite H|]. intros [(c & r & -> & L & F) Len].
  unfold name_new, MAX_PIVOT_ENV_NAME_LEN. rewrite lenN_length.
  destruct (N.ltb_spec 1024 (N.of_nat (length (c :: r)))); [lia|].
  assert (U : forall x, letter x -> is_ascii_alpha x || is_underscore x = true).
  { intros x [H1|[H1|H1]]; unfold is_ascii_alpha, is_underscore; [lia|lia|].
    rewrite (b2n_inj x "_"%byte H1). now rewrite byte_eqb_refl, orb_true_r. }
  rewrite (U c L). cbn [negb].
  replace (existsb _ r) with false; [reflexivity|]. symmetry. apply not_true_iff_false. intros X.
  apply existsb_exists in X as (d & Hd & X). rewrite Forall_forall in F. destruct (F d Hd) as [Y|Y].
  - specialize (U d Y). lia.
  - unfold digit in Y. unfold is_ascii_digit in X. lia.
Qed.
Lemma value_new_exact v : value_new v = Some v <-> good_value v.
Proof.
  split; [intros H; apply value_good; now rewrite H|]. intros [N L]. unfold value_new, MAX_PIVOT_ENV_VALUE_LEN.
  destruct (existsb (byte_eqb x00) v) eqn:E.
  - exfalso. apply existsb_exists in E as (x & Hx & E). destruct (byte_eqb_spec x00 x); [subst; auto|discriminate].
  - destruct (N.ltb_spec 65536 (lenN v)); [lia|reflexivity].
Qed.
Lemma env_example : env_made [(bs "A_1", bs "x=y"); (bs "_b", [])].
Proof.
  change [(bs "A_1", bs "x=y"); (bs "_b", [])] with (fst (env_insert (bs "A_1") (bs "x=y") (fst (env_insert (bs "_b") [] env_new)))).
  apply (made_insert _ (bs "A_1") (bs "x=y")); [|reflexivity|reflexivity]. apply (made_insert _ (bs "_b") []); [constructor|reflexivity|reflexivity].
Qed.
