(** Whatever a JSON decoder returns is a value the Rust type can hold: texts are
    UTF-8, integers fit, hex fields are below the cap, environment maps valid. *)
From Verif Require Import Base Utf8 Hex HexProofs Json JsonProofs NormProofs Types TypesBorsh Env EnvProofs EnvReach TypesJson TypesJsonProofs
  JsonComb Msg MsgBorsh MsgJson.
Require Import ZifyBool ZifyN ZifyNat.
Local Open Scope N_scope.

(** every text in the document is UTF-8 *)
Definition otext (o : option bytes) : bool := match o with Some s => utf8_valid s | None => true end.
Fixpoint jtext (j : json) : bool :=
  match j with
  | JStr s => otext s
  | JArr l => forallb jtext l
  | JObj m => forallb (fun p => otext (fst p) && jtext (snd p)) m
  | _ => true
  end.
Lemma parse_string_text l o r : parse_string l = Some (o, r) -> otext o = true.
Proof.
  unfold parse_string. destruct (lex_str l) as [[ts r']|]; [|discriminate]. intros E. inversion E; subst.
  unfold str_text. destruct (assemble ts) as [x|]; [|reflexivity]. destruct (utf8_valid x) eqn:U; [exact U|reflexivity].
Qed.
Lemma parse_number_text l j r : parse_number l = Some (j, r) -> jtext j = true.
Proof.
  unfold parse_number. destruct (match l with [] => _ | _ => _ end) as [neg l1].
  destruct (fst (span_digits l1)) as [|d ds]; [discriminate|].
  destruct (_ && _); [discriminate|]. destruct (lex_frac _) as [[fr l2]|]; [|discriminate].
  destruct (lex_exp l2) as [[ex l3]|]; [|discriminate].
  assert (I : forall n ds, jtext (int_token n ds) = true).
  { intros n ds0. unfold int_token. destruct (dec_val ds0) as [v|]; [|reflexivity]. destruct n; [destruct (_ || _)|destruct (_ <? _)]; reflexivity. }
  destruct fr, ex; intros E; inversion E; subst; try reflexivity. apply I.
Qed.
Lemma parse_text f :
  (forall l j r, parse_value f l = Some (j, r) -> jtext j = true)
  /\ (forall l js r, parse_elems f l = Some (js, r) -> forallb jtext js = true)
  /\ (forall l m r, parse_members f l = Some (m, r) -> forallb (fun p => otext (fst p) && jtext (snd p)) m = true).
Proof.
  induction f as [|f (IV & IE & IM)]; [repeat split; discriminate|]. split; [|split].
  - intros l j r. cbn [parse_value]. destruct (skip_ws l) as [|c x]; [discriminate|].
    destruct (byte_eqb c "n"). { destruct (lit _ _); [|discriminate]. intros E; now inversion E. }
    destruct (byte_eqb c "t"). { destruct (lit _ _); [|discriminate]. intros E; now inversion E. }
    destruct (byte_eqb c "f"). { destruct (lit _ _); [|discriminate]. intros E; now inversion E. }
    destruct (byte_eqb c x22).
    { destruct (parse_string x) as [[o r']|] eqn:P; [|discriminate]. cbn [obind fst snd]. intros E; inversion E; subst.
      exact (parse_string_text _ _ _ P). }
    destruct (byte_eqb c "[").
    { destruct (skip_ws x) as [|d y]; [discriminate|]. destruct (byte_eqb d "]"); [intros E; now inversion E|].
      destruct (parse_elems f x) as [[js r']|] eqn:P; [|discriminate]. cbn [obind fst snd]. intros E; inversion E; subst.
      exact (IE _ _ _ P). }
    destruct (byte_eqb c "{").
    { destruct (skip_ws x) as [|d y]; [discriminate|]. destruct (byte_eqb d "}"); [intros E; now inversion E|].
      destruct (parse_members f x) as [[js r']|] eqn:P; [|discriminate]. cbn [obind fst snd]. intros E; inversion E; subst.
      exact (IM _ _ _ P). }
    apply parse_number_text.
  - intros l js r. cbn [parse_elems]. destruct (parse_value f l) as [[j r1]|] eqn:P; [|discriminate].
    pose proof (IV _ _ _ P) as T. destruct (skip_ws r1) as [|c r2]; [discriminate|]. destruct (byte_eqb c ",").
    + destruct (parse_elems f r2) as [[xs r3]|] eqn:Q; [|discriminate]. cbn [obind fst snd]. intros E; inversion E; subst.
      cbn [forallb]. now rewrite T, (IE _ _ _ Q).
    + destruct (byte_eqb c "]"); [|discriminate]. intros E; inversion E; subst. cbn. now rewrite T.
  - intros l m r. cbn [parse_members]. destruct (skip_ws l) as [|q r0]; [discriminate|]. destruct (byte_eqb q x22); [|discriminate].
    destruct (parse_string r0) as [[k r1]|] eqn:K; [|discriminate]. pose proof (parse_string_text _ _ _ K) as TK.
    destruct (skip_ws r1) as [|c r2]; [discriminate|]. destruct (byte_eqb c ":"); [|discriminate].
    destruct (parse_value f r2) as [[x r3]|] eqn:P; [|discriminate]. pose proof (IV _ _ _ P) as T.
    destruct (skip_ws r3) as [|d r4]; [discriminate|]. destruct (byte_eqb d ",").
    + destruct (parse_members f r4) as [[xs r5]|] eqn:Q; [|discriminate]. cbn [obind fst snd]. intros E; inversion E; subst.
      cbn [forallb fst snd]. now rewrite T, TK, (IM _ _ _ Q).
    + destruct (byte_eqb d "}"); [|discriminate]. intros E; inversion E; subst. cbn. now rewrite T, TK.
Qed.
Lemma parse_jtext b j : parse b = Some j -> jtext j = true.
Proof.
  unfold parse. destruct (parse_value _ b) as [[x r]|] eqn:E; [|discriminate]. destruct (skip_ws r); [|discriminate].
  intros X; inversion X; subst. now apply (parse_text _) in E.
Qed.

(** *** Soundness of the decoders *)
Definition sound {A} (c : jcodec A) : Prop := forall d j a, jtext j = true -> jdec c d j = Some a -> jwf c a = true.

Lemma decode_pairs_len k : forall t b, (length t <= k)%nat -> decode_pairs t = Ok b -> (2 * length b <= length t)%nat.
Proof.
  induction k as [|k IH]; intros t b Hk E.
  - destruct t; [|cbn in Hk; lia]. inversion E; cbn; lia.
  - destruct t as [|a [|c t]]; cbn [decode_pairs] in E; [inversion E; cbn; lia|inversion E; cbn; lia|].
    destruct (decode_pair a c); [|discriminate]. destruct (decode_pairs t) eqn:Et; [|discriminate].
    inversion E; subst. apply IH in Et; [|cbn in Hk; lia]. cbn [length]. lia.
Qed.
Lemma sound_string : sound js_string.
Proof. intros d j a T E. cbn in E. destruct j as [| | | |[s|]| |]; try discriminate. inversion E; subst. exact T. Qed.
Lemma sound_hex : sound js_hex.
Proof.
  intros d j a T E. cbn [js_hex jdec] in E. destruct j as [| | | |[s|]| |]; try discriminate.
  destruct (decode s) as [b|] eqn:D; [|discriminate]. inversion E; subst. cbn [js_hex jwf].
  destruct s as [|x [|y s]]; cbn [decode] in D; [inversion D; reflexivity|discriminate|].
  destruct (N.even _); destruct (N.ltb_spec (lenN (strip_0x (x :: y :: s))) STR_MAX_LENGTH); try discriminate.
  apply (decode_pairs_len _ _ _ (le_n _)) in D. rewrite lenN_length in *. lia.
Qed.
Lemma sound_hex_n n : sound (js_hex_n n).
Proof.
  intros d j a T E. cbn [js_hex_n jdec] in E. destruct j as [| | | |[s|]| |]; try discriminate.
  destruct (decode_to_buf s n) as [b|] eqn:D; [|discriminate]. inversion E; subst. cbn [js_hex_n jwf].
  assert (L : forall k t b, (length t <= k)%nat -> Nat.even (length t) = true -> decode_pairs t = Ok b -> length t = (2 * length b)%nat).
  { induction k as [|k IH]; intros t b' Hk He E'.
    - destruct t; [|cbn in Hk; lia]. inversion E'; reflexivity.
    - destruct t as [|a0 [|c t]]; cbn [decode_pairs] in E'; [inversion E'; reflexivity|discriminate|].
      destruct (decode_pair a0 c); [|discriminate]. destruct (decode_pairs t) eqn:Et; [|discriminate].
      inversion E'; subst. cbn [length]. rewrite (IH t _ ltac:(cbn in Hk; lia) He Et). lia. }
  destruct s as [|x [|y s]]; cbn [decode_to_buf] in D.
  - destruct (N.eqb_spec n 0); [|discriminate]. inversion D; subst. reflexivity.
  - discriminate.
  - destruct (N.even (lenN (strip_0x (x :: y :: s)))) eqn:Ev; [|discriminate]. cbn [negb] in D.
    destruct (N.eqb_spec (lenN (strip_0x (x :: y :: s)) / 2) n) as [Hn|]; [|discriminate]. cbn [negb] in D.
    rewrite even_lenN in Ev. pose proof (L _ _ _ (le_n _) Ev D) as HL.
    rewrite lenN_length, HL in Hn. rewrite Nat2N.inj_mul, N.mul_comm, N.div_mul in Hn by (cbn; lia).
    rewrite lenN_length. lia.
Qed.
Lemma parse_unsigned_lt limit s n : parse_unsigned limit s = Some n -> n < limit.
Proof.
  unfold parse_unsigned. destruct (match s with [] => _ | _ => _ end); [discriminate|].
  destruct (dec_val _) as [v|]; [|discriminate]. destruct (N.ltb_spec v limit); [|discriminate]. intros E; now inversion E; subst.
Qed.
Lemma sound_uint limit : limit <= U64_LIMIT -> sound (js_uint limit).
Proof.
  intros HL d j a T E. cbn [js_uint jdec] in E. cbn [js_uint jwf].
  assert (a < limit) by (destruct j as [| | | |[s|]| |]; try discriminate; now apply parse_unsigned_lt in E). lia.
Qed.
Lemma sound_u16 : sound js_u16. Proof. apply sound_uint. unfold U64_LIMIT. lia. Qed.
Lemma sound_u32 : sound js_u32. Proof. apply sound_uint. unfold U64_LIMIT. lia. Qed.
Lemma sound_bool : sound js_bool. Proof. intros d j a T E. reflexivity. Qed.
Lemma sound_restart : sound js_restart. Proof. intros d j a T E. reflexivity. Qed.
Lemma sound_phase : sound js_phase. Proof. intros d j a T E. reflexivity. Qed.
Lemma sound_dns : sound js_dns. Proof. intros d j a T E. reflexivity. Qed.
Lemma sound_vec {A} (c : jcodec A) : sound c -> sound (js_vec c).
Proof.
  intros S d j a T E. cbn [js_vec jdec] in E. destruct d as [|[|d]]; try discriminate. destruct j as [| | | | |l|]; try discriminate.
  cbn [js_vec jwf]. apply oseq_inv in E. cbn [jtext] in T. revert a E. induction l as [|x l IH]; intros [|y a] E; cbn in E; try discriminate; [reflexivity|].
  cbn [forallb] in *. apply andb_true_iff in T as [Tx T]. inversion E as [[E1 E2]]. rewrite (S _ _ _ Tx E1). cbn. now apply IH.
Qed.
Create HintDb jsound.
#[export] Hint Resolve sound_string sound_hex sound_hex_n sound_u16 sound_u32 sound_bool sound_restart sound_phase sound_dns sound_vec : jsound.

Definition ojt (o : option json) : Prop := match o with Some j => jtext j = true | None => True end.
Lemma find_last_text k m : forallb (fun p => otext (fst p) && jtext (snd p)) m = true -> ojt (find_last k m).
Proof.
  induction m as [|[o v] m IH]; cbn [forallb find_last fst snd]; intros H; [exact I|]. apply andb_true_iff in H as [H1 H2].
  specialize (IH H2). destruct (find_last k m); [exact IH|]. destruct (okey_eqb k o); [|exact I]. cbn. now apply andb_true_iff in H1.
Qed.
Lemma dec_struct_text names deny d j l : jtext j = true -> dec_struct names deny d j = Some l -> Forall ojt l.
Proof.
  unfold dec_struct. intros T. destruct d as [|[|d]]; try discriminate. destruct j as [| | | | |x|m]; try discriminate.
  - destruct (_ <=? _)%nat; [|discriminate]. intros E; inversion E; subst. apply Forall_app. split.
    + apply Forall_forall. intros o H. apply in_map_iff in H as (j & <- & H). cbn in *. rewrite forallb_forall in T. now apply T.
    + apply Forall_forall. intros o H. apply repeat_spec in H. now subst.
  - destruct (_ && _); [|discriminate]. intros E; inversion E; subst. apply Forall_forall. intros o H.
    apply in_map_iff in H as (n & <- & H). now apply find_last_text.
Qed.
Lemma sound_req {A} (c : jcodec A) d o a : sound c -> ojt o -> req c d o = Some a -> jwf c a = true.
Proof. intros S T E. destruct o as [j|]; [|discriminate]. eapply S; [exact T|exact E]. Qed.

Lemma sound_bridge : sound js_bridge.
Proof.
  intros d j a T E. cbn [js_bridge jdec] in E. destruct (strict d j); [|discriminate].
  assert (K : forall tag l, Forall ojt l -> dec_bridge_fields tag (Some l) = Some a -> jwf js_bridge a = true).
  { intros tag l F D. unfold dec_bridge_fields in D. destruct l as [|p [|h [|]]]; try discriminate.
    inversion F as [|? ? Fp F1]; subst. inversion F1 as [|? ? Fh _]; subst.
    destruct (req js_u16 0 p) as [port|] eqn:Ep; [|discriminate]. cbn [obind] in D.
    pose proof (sound_req _ _ _ _ sound_u16 Fp Ep) as Wp.
    destruct (bytes_eqb tag (bs "server")).
    - destruct (req js_string 0 h) as [host|] eqn:Eh; [|discriminate]. cbn [obind] in D. inversion D; subst.
      pose proof (sound_req _ _ _ _ sound_string Fh Eh) as Wh. cbn [js_bridge jwf]. rewrite Wp. exact Wh.
    - destruct (bytes_eqb tag (bs "client")); [|discriminate]. destruct h as [h|].
      + assert (X : h = JNull \/ (let? host := jdec js_string 0 h in Some (BClient port (Some host))) = Some a) by (destruct h; auto).
        destruct X as [->|X]; [inversion D; subst; cbn [js_bridge jwf]; now rewrite Wp|].
        destruct (jdec js_string 0 h) as [host|] eqn:Eh; [|discriminate]. cbn [obind] in X. inversion X; subst.
        pose proof (sound_string _ _ _ Fh Eh) as Wh. cbn [js_bridge jwf]. rewrite Wp. exact Wh.
      + inversion D; subst. cbn [js_bridge jwf]. now rewrite Wp. }
  destruct j as [| | | | |l|m]; try discriminate.
  - destruct l as [|[| | | |[tag|]| |] l]; try discriminate.
    destruct (dec_struct [K_port; K_host] false 2 (JArr l)) as [fs|] eqn:D; [|discriminate].
    eapply K; [|exact E]. eapply dec_struct_text; [|exact D]. cbn [jtext forallb] in *. now apply andb_true_iff in T.
  - destruct (count_key K_type m =? 1)%nat; [|discriminate].
    destruct (find_last K_type m) as [[| | | |[tag|]| |]|]; try discriminate.
    destruct (dec_struct [K_port; K_host] false 2 _) as [fs|] eqn:D; [|discriminate].
    eapply K; [|exact E]. eapply dec_struct_text; [|exact D]. cbn [jtext] in *. rewrite forallb_forall in *. intros p Hp.
    apply filter_In in Hp as [Hp _]. now apply T.
Qed.
#[export] Hint Resolve sound_bridge : jsound.

Ltac sstruct T E :=
  match type of E with match dec_struct ?n ?b ?d ?j with _ => _ end = _ =>
    let l := fresh "l" in let D := fresh "D" in let F := fresh "F" in
    destruct (dec_struct n b d j) as [l|] eqn:D; [|discriminate E];
    pose proof (dec_struct_text _ _ _ _ _ T D) as F; clear D T;
    repeat (let o := fresh "o" in destruct l as [|o l]; try discriminate E);
    repeat match goal with H : Forall ojt (_ :: _) |- _ => let x := fresh "Fo" in inversion H as [|? ? x ?]; subst; clear H end
  end;
  repeat match type of E with (let? _ := req ?c ?d ?o in _) = _ =>
    let R := fresh "R" in destruct (req c d o) eqn:R; [|discriminate E]; cbn [obind] in E;
    apply sound_req in R; [|solve [eauto with jsound]|assumption] end.
Ltac sdone E := inversion E; subst; cbn [jwf];
  repeat match goal with H : _ = true |- _ => rewrite H; clear H end; reflexivity.

Lemma sound_nitro : sound js_nitro.
Proof. intros d j a T E. cbn [js_nitro jdec] in E. sstruct T E. inversion E; subst. cbn [js_nitro jwf pcr0 pcr1 pcr2 pcr3 aws_root_certificate qos_commit]. now rewrite R, R0, R1, R2, R3, R4. Qed.
Lemma sound_pivot : sound js_pivot.
Proof. intros d j a T E. cbn [js_pivot jdec] in E. sstruct T E. inversion E; subst. cbn [js_pivot jwf pv_hash pv_bridge pv_args]. now rewrite R, R1, R3. Qed.
Lemma sound_pivot_v0 : sound js_pivot_v0.
Proof. intros d j a T E. cbn [js_pivot_v0 jdec] in E. sstruct T E. inversion E; subst. cbn [js_pivot_v0 jwf pv0_hash pv0_args]. now rewrite R, R1. Qed.
Lemma sound_member : sound js_member.
Proof. intros d j a T E. cbn [js_member jdec] in E. sstruct T E. inversion E; subst. cbn [js_member jwf m_alias m_pub_key]. now rewrite R, R0. Qed.
#[export] Hint Resolve sound_nitro sound_pivot sound_pivot_v0 sound_member : jsound.
Lemma sound_member_set : sound js_member_set.
Proof. intros d j a T E. cbn [js_member_set jdec] in E. sstruct T E. inversion E; subst. cbn [js_member_set jwf threshold members]. now rewrite R, R0. Qed.
Lemma sound_member_pub_key : sound js_member_pub_key.
Proof.
  intros d j a T E. cbn [js_member_pub_key jdec] in E. sstruct T E. apply sound_req in E; [exact E|auto with jsound|assumption].
Qed.
#[export] Hint Resolve sound_member_set sound_member_pub_key : jsound.
Lemma sound_patch_set : sound js_patch_set.
Proof. intros d j a T E. cbn [js_patch_set jdec] in E. sstruct T E. inversion E; subst. cbn [js_patch_set jwf ps_threshold ps_members]. now rewrite R, R0. Qed.
Lemma sound_namespace : sound js_namespace.
Proof. intros d j a T E. cbn [js_namespace jdec] in E. sstruct T E. inversion E; subst. cbn [js_namespace jwf ns_name ns_nonce ns_quorum_key]. now rewrite R, R0, R1. Qed.
#[export] Hint Resolve sound_patch_set sound_namespace : jsound.
Lemma sound_manifest : sound js_manifest.
Proof. intros d j a T E. cbn [js_manifest jdec] in E. sstruct T E. inversion E; subst. cbn [js_manifest jwf mf_namespace mf_pivot mf_manifest_set mf_share_set mf_enclave mf_patch_set]. now rewrite R, R0, R1, R2, R3, R4. Qed.
Lemma sound_manifest_v0 : sound js_manifest_v0.
Proof. intros d j a T E. cbn [js_manifest_v0 jdec] in E. sstruct T E. inversion E; subst. cbn [js_manifest_v0 jwf mf0_namespace mf0_pivot mf0_manifest_set mf0_share_set mf0_enclave mf0_patch_set]. now rewrite R, R0, R1, R2, R3, R4. Qed.
Lemma sound_approval : sound js_approval.
Proof. intros d j a T E. cbn [js_approval jdec] in E. sstruct T E. inversion E; subst. cbn [js_approval jwf ap_signature ap_member]. now rewrite R, R0. Qed.
#[export] Hint Resolve sound_manifest sound_manifest_v0 sound_approval : jsound.
Lemma sound_envelope : sound js_envelope.
Proof. intros d j a T E. cbn [js_envelope jdec] in E. sstruct T E. inversion E; subst. cbn [js_envelope jwf e1_manifest e1_manifest_approvals e1_share_approvals]. now rewrite R, R0, R1. Qed.
Lemma sound_envelope_v0 : sound js_envelope_v0.
Proof. intros d j a T E. cbn [js_envelope_v0 jdec] in E. sstruct T E. inversion E; subst. cbn [js_envelope_v0 jwf e0_manifest e0_manifest_approvals e0_share_approvals]. now rewrite R, R0, R1. Qed.
Lemma sound_env : sound js_env.
Proof.
  intros d j a T D. unfold js_env in D. cbn [jdec] in D. destruct d as [|[|d]]; try discriminate D. destruct j as [| | | | | |m]; try discriminate D.
  match type of D with (let? l := ?o in _) = _ => destruct o as [l|] eqn:E; [|discriminate] end. cbn [obind] in D.
  unfold env_try_from in D. destruct (check_limits (map_collect l)) eqn:C; [|discriminate]. inversion D; subst.
  cbn [js_env jwf]. unfold env_ok. rewrite map_collect_is_sorted. unfold check_limits in C.
  replace (lenN (map_collect l) <=? MAX_PIVOT_ENV_VARS) with true by lia. rewrite andb_true_r. cbn [andb]. apply forallb_forall.
  assert (F : Forall (fun p : bytes * bytes => is_some (name_new (fst p)) && is_some (value_new (snd p)) && utf8_valid (snd p) = true) (map_collect l)).
  { apply map_collect_Forall. clear C D. apply oseq_inv in E. cbn [jtext] in T. revert l E.
    induction m as [|[k x] m IH]; intros [|[n v] l] E; cbn [map] in E; try discriminate; constructor.
    - assert (E1 := f_equal (hd None) E). cbn [hd fst snd] in E1. destruct k as [k|]; [|discriminate E1].
      destruct (name_new k) eqn:Hn; [|discriminate E1]. cbn [obind] in E1.
      destruct (jdec js_env_value (S d) x) eqn:Hv; [|discriminate E1]. cbn [obind] in E1. inversion E1; subst.
      cbn [fst snd]. apply name_new_some in Hn as [_ ->].
      cbn [forallb fst snd] in T. apply andb_true_iff in T as [T _]. apply andb_true_iff in T as [_ T].
      unfold js_env_value in Hv. cbn [jdec] in Hv. destruct d as [|d]; [discriminate|].
      destruct x as [| | | | | |[|[[q|] y] [|]]]; try discriminate.
      destruct (bytes_eqb q (bs "plain")); [|discriminate].
      destruct (dec_struct [bs "value"] false (S d) y) as [[|[[| | | |[s|]| |]|] [|]]|] eqn:DS; try discriminate.
      apply value_new_some in Hv as [-> ->]. cbn [jtext forallb fst snd] in T. rewrite andb_true_r in T. apply andb_true_iff in T as [_ T].
      apply dec_struct_text in DS; [|exact T]. inversion DS as [|? ? H _]; subst. cbn in H. now rewrite H.
    - apply IH; [|now inversion E]. cbn [forallb] in T. now apply andb_true_iff in T. }
  intros p Hp. rewrite Forall_forall in F. auto.
Qed.
#[export] Hint Resolve sound_envelope sound_envelope_v0 sound_env : jsound.
Lemma sound_pivot_v2 : sound js_pivot_v2.
Proof.
  intros d j a T E. cbn [js_pivot_v2 jdec] in E. sstruct T E.
  match type of E with (let? g := ?o in _) = _ => destruct o as [g|] eqn:G; [|discriminate E] end. cbn [obind] in E.
  inversion E; subst. cbn [js_pivot_v2 jwf pv2_hash pv2_bridge pv2_args pv2_env]. rewrite R, R1, R3.
  destruct o4 as [x|]; [|now inversion G]. now rewrite (sound_env _ _ _ Fo4 G).
Qed.
#[export] Hint Resolve sound_pivot_v2 : jsound.
Lemma sound_manifest_v2 : sound js_manifest_v2.
Proof.
  intros d j a T E. cbn [js_manifest_v2 jdec] in E. sstruct T E.
  match type of E with (let? _ := ?o in _) = _ => destruct o as [v|]; [|discriminate E] end. cbn [obind] in E.
  repeat match type of E with (let? _ := req ?c ?d ?o in _) = _ =>
    let R := fresh "R" in destruct (req c d o) eqn:R; [|discriminate E]; cbn [obind] in E;
    apply sound_req in R; [|solve [eauto with jsound]|assumption] end.
  match type of E with (let? _ := ?o in _) = _ => destruct o as [g|]; [|discriminate E] end. cbn [obind] in E.
  inversion E; subst. cbn [js_manifest_v2 jwf mf2_namespace mf2_pivot mf2_manifest_set mf2_share_set mf2_enclave]. now rewrite R, R0, R1, R2, R3.
Qed.
#[export] Hint Resolve sound_manifest_v2 : jsound.
Lemma sound_envelope_v2 : sound js_envelope_v2.
Proof. intros d j a T E. cbn [js_envelope_v2 jdec] in E. sstruct T E. inversion E; subst. cbn [js_envelope_v2 jwf e2_manifest e2_manifest_approvals e2_share_approvals]. now rewrite R, R0, R1. Qed.
Lemma sound_versioned_envelope : sound js_versioned_envelope.
Proof.
  intros d j a T E. cbn [js_versioned_envelope jdec] in E. destruct (strict d j); [|discriminate].
  destruct (jdec js_envelope_v2 d j) as [e|] eqn:E2; [inversion E; subst; exact (sound_envelope_v2 _ _ _ T E2)|].
  destruct (jdec js_envelope d j) as [e|] eqn:E1; [inversion E; subst; exact (sound_envelope _ _ _ T E1)|].
  destruct (jdec js_envelope_v0 d j) as [e|] eqn:E0; [inversion E; subst; exact (sound_envelope_v0 _ _ _ T E0)|discriminate].
Qed.
#[export] Hint Resolve sound_versioned_envelope : jsound.

(** *** Combinators *)
Definition fsound {A} (f : jfields A) : Prop := forall d l a, Forall ojt l -> fd f d l = Some a -> fw f a = true.
Definition vsound {A} (v : jvariants A) : Prop := forall k d o a, ojt o -> vdec v k d o = Some a -> vwf v a = true.
Lemma opt_sound {A} (c : jcodec A) d o a : sound c -> ojt o -> opt_dec c d o = Some a -> opt_wf c a = true.
Proof.
  intros S T E. destruct o as [j|]; [|now inversion E].
  assert (X : j = JNull \/ (let? y := jdec c (pred d) j in Some (Some y)) = Some a) by (destruct j; auto).
  destruct X as [->|X]; [now inversion E|]. destruct (jdec c (pred d) j) as [y|] eqn:D; [|discriminate]. inversion X; subst. cbn. eapply S; eassumption.
Qed.
Lemma f_one_sound {A} n (c : jcodec A) : sound c -> fsound (f_one n c).
Proof. intros S d l a F E. cbn [f_one fd] in E. destruct l as [|o [|]]; try discriminate. inversion F; subst. eapply sound_req; eassumption. Qed.
Lemma f_opt1_sound {A} n (c : jcodec A) : sound c -> fsound (f_opt1 n c).
Proof. intros S d l a F E. cbn [f_opt1 fd] in E. destruct l as [|o [|]]; try discriminate. inversion F; subst. eapply opt_sound; eassumption. Qed.
Lemma f_cons_sound {A B} n (c : jcodec A) (f : jfields B) : sound c -> fsound f -> fsound (f_cons n c f).
Proof.
  intros S SF d l a F E. cbn [f_cons fd] in E. destruct l as [|o l]; try discriminate. inversion F; subst.
  destruct (req c d o) as [x|] eqn:R; [|discriminate]. cbn [obind] in E. destruct (fd f d l) as [y|] eqn:D; [|discriminate]. inversion E; subst.
  cbn [f_cons fw fst snd]. rewrite (sound_req _ _ _ _ S H1 R). eapply SF; eassumption.
Qed.
Lemma f_opt_sound {A B} n (c : jcodec A) (f : jfields B) : sound c -> fsound f -> fsound (f_opt n c f).
Proof.
  intros S SF d l a F E. cbn [f_opt fd] in E. destruct l as [|o l]; try discriminate. inversion F; subst.
  destruct (opt_dec c d o) as [x|] eqn:R; [|discriminate]. cbn [obind] in E. destruct (fd f d l) as [y|] eqn:D; [|discriminate]. inversion E; subst.
  cbn [f_opt fw fst snd]. rewrite (opt_sound _ _ _ _ S H1 R). eapply SF; eassumption.
Qed.
Lemma js_struct_sound {A} deny (f : jfields A) : fsound f -> sound (js_struct deny f).
Proof.
  intros SF d j a T E. cbn [js_struct jdec] in E. destruct (dec_struct (fn f) deny d j) as [l|] eqn:D; [|discriminate].
  eapply SF; [|exact E]. eapply dec_struct_text; eassumption.
Qed.
Lemma js_iso_sound {A B} (f : A -> B) (g : B -> A) (c : jcodec A) : (forall a, g (f a) = a) -> sound c -> sound (js_iso f g c).
Proof.
  intros GF S d j b T E. cbn [js_iso jdec] in E. destruct (jdec c d j) as [a|] eqn:D; [|discriminate]. inversion E; subst.
  cbn [js_iso jwf]. rewrite GF. eapply S; eassumption.
Qed.
Lemma js_tuple2_sound {A B} (a : jcodec A) (b : jcodec B) : sound a -> sound b -> sound (js_tuple2 a b).
Proof.
  intros Sa Sb d j p T E. cbn [js_tuple2 jdec] in E. destruct d as [|[|d]]; try discriminate.
  destruct j as [| | | | |[|x [|y [|]]]|]; try discriminate.
  cbn [jtext forallb] in T. rewrite andb_true_r in T. apply andb_true_iff in T as [Tx Ty].
  destruct (jdec a (S d) x) as [u|] eqn:Dx; [|discriminate]. cbn [obind] in E.
  destruct (jdec b (S d) y) as [v|] eqn:Dy; [|discriminate]. cbn [obind] in E. inversion E; subst.
  cbn [js_tuple2 jwf fst snd]. now rewrite (Sa _ _ _ Tx Dx), (Sb _ _ _ Ty Dy).
Qed.
Lemma v_nil_sound : vsound v_nil. Proof. intros k d o []. Qed.
Lemma v_unit_sound {B} n (v : jvariants B) : vsound v -> vsound (v_unit n v).
Proof.
  intros S k d o [[]|b] T E; [reflexivity|]. cbn [v_unit vdec vwf] in *. destruct (bytes_eqb k n).
  - destruct o as [[| | | | | |]|]; discriminate.
  - destruct (vdec v k d o) as [x|] eqn:D; [|discriminate]. inversion E; subst. eapply S; eassumption.
Qed.
Lemma v_new_sound {A B} n (c : jcodec A) (v : jvariants B) : sound c -> vsound v -> vsound (v_new n c v).
Proof.
  intros Sc S k d o s T E. cbn [v_new vdec vwf] in *. destruct (bytes_eqb k n).
  - destruct o as [x|]; [|discriminate]. destruct (jdec c d x) as [a|] eqn:D; [|discriminate]. inversion E; subst. eapply Sc; eassumption.
  - destruct (vdec v k d o) as [x|] eqn:D; [|discriminate]. inversion E; subst. eapply S; eassumption.
Qed.
Lemma v_skip_sound {A B} (v : jvariants B) : vsound v -> vsound (@v_skip A B v).
Proof.
  intros S k d o s T E. cbn [v_skip vdec vwf] in *. destruct (vdec v k d o) as [x|] eqn:D; [|discriminate]. inversion E; subst. eapply S; eassumption.
Qed.
Lemma js_enum_sound {A} (v : jvariants A) : vsound v -> sound (js_enum v).
Proof.
  intros S d j a T E. cbn [js_enum jdec] in E. destruct j as [| | | |[s|]| |[|[[k|] x] [|]]]; try discriminate.
  - eapply S; [|exact E]. exact I.
  - destruct d as [|[|d]]; try discriminate. eapply S; [|exact E]. cbn [jtext forallb fst snd] in T. cbn. rewrite andb_true_r in T. now apply andb_true_iff in T.
Qed.
Lemma in_set_insert x y s : In y (set_insert x s) -> y = x \/ In y s.
Proof.
  induction s as [|z s IH]; cbn; [intuition|]. destruct (x =? z); [cbn; tauto|]. destruct (x <? z); cbn; [intuition|]. intuition.
Qed.
Lemma set_insert_asc x s : ascending s = true -> ascending (set_insert x s) = true.
Proof.
  induction s as [|z s IH]; intros H; [reflexivity|]. cbn [set_insert]. destruct (N.eqb_spec x z); [exact H|].
  destruct (N.ltb_spec x z). { cbn [ascending]. cbn [ascending] in H. rewrite H. apply N.ltb_lt in H0. now rewrite H0. }
  cbn [ascending] in H. apply andb_true_iff in H as [H1 H2]. cbn [ascending]. rewrite (IH H2), andb_true_r.
  destruct s as [|w s]; cbn [set_insert]; [lia|]. destruct (x =? w); [exact H1|]. destruct (x <? w); [lia|exact H1].
Qed.
Lemma set_collect_ok (P : N -> bool) l : forallb P l = true -> ascending (set_collect l) = true /\ forallb P (set_collect l) = true.
Proof.
  unfold set_collect. assert (G : forall l s, ascending s = true -> forallb P s = true -> forallb P l = true ->
    ascending (fold_left (fun s x => set_insert x s) l s) = true /\ forallb P (fold_left (fun s x => set_insert x s) l s) = true).
  { induction l0 as [|x l0 IH]; intros s A F H; [auto|]. cbn [fold_left forallb] in *. apply andb_true_iff in H as [Hx H].
    apply IH; [now apply set_insert_asc| |exact H]. rewrite forallb_forall in *. intros y Hy. apply in_set_insert in Hy as [->|Hy]; auto. }
  intros H. now apply G.
Qed.
Lemma sound_set_u16 : sound js_set_u16.
Proof.
  intros d j a T E. cbn [js_set_u16 jdec] in E. destruct (jdec (js_vec js_u16) d j) as [l|] eqn:D; [|discriminate]. inversion E; subst.
  apply (sound_vec _ sound_u16 _ _ _ T) in D. destruct (set_collect_ok (jwf js_u16) l D) as [A F]. cbn [js_set_u16 jwf].
  rewrite A. cbn [js_vec jwf]. now rewrite F.
Qed.
#[export] Hint Resolve sound_set_u16 : jsound.

Ltac scomb := repeat first
  [ apply js_enum_sound | apply js_struct_sound | apply js_tuple2_sound
  | apply v_unit_sound | apply v_new_sound | apply v_skip_sound | apply v_nil_sound
  | apply f_cons_sound | apply f_opt_sound | apply f_one_sound | apply f_opt1_sound | apply sound_vec | solve [auto with jsound nocore] ].
Lemma sound_nsm_code : sound js_nsm_code.
Proof. apply js_iso_sound; [exact nsm_error_code_to_of|]. unfold v_nsm_error_code. scomb. Qed.
Lemma sound_digest : sound js_digest.
Proof. apply js_iso_sound; [exact nsm_digest_to_of|]. unfold v_nsm_digest. scomb. Qed.
#[export] Hint Resolve sound_nsm_code sound_digest : jsound.
Lemma sound_nsm_response : sound js_nsm_response.
Proof. apply js_iso_sound; [exact nsm_response_to_of|]. unfold v_nsm_response. scomb. Qed.
Lemma sound_p256_error : sound js_p256_error.
Proof. apply js_iso_sound; [exact p256_error_to_of|]. unfold v_p256_error. scomb. Qed.
#[export] Hint Resolve sound_nsm_response sound_p256_error : jsound.
Lemma sound_perr : sound js_perr.
Proof. apply js_iso_sound; [exact perr_to_of|]. unfold v_perr. scomb. Qed.
Lemma sound_genesis_set : sound js_genesis_set.
Proof. apply js_iso_sound; [now intros []|]. scomb. Qed.
Lemma sound_member_shard : sound js_member_shard.
Proof. apply js_iso_sound; [now intros []|]. scomb. Qed.
Lemma sound_member_output : sound js_member_output.
Proof. apply js_iso_sound; [now intros [? []]|]. scomb. Qed.
#[export] Hint Resolve sound_perr sound_genesis_set sound_member_shard sound_member_output : jsound.
Lemma sound_genesis_output : sound js_genesis_output.
Proof. apply js_iso_sound; [intros p; repeat (match goal with p : (_ * _)%type |- _ => destruct p end); reflexivity|]. scomb. Qed.
#[export] Hint Resolve sound_genesis_output : jsound.
Lemma sound_msg : sound js_msg.
Proof. apply js_iso_sound; [exact msg_to_of|]. unfold v_msg. scomb. Qed.
