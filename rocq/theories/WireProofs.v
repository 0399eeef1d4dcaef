(** Facts about the two wire encodings. *)
From Verif Require Import Base Utf8 Hex Borsh BorshProofs Json JsonProofs NormProofs Types TypesBorsh TypesJson TypesJsonProofs TypesJsonLaws JsonComb JsonCombLaws Msg MsgBorsh MsgJson MsgJsonLaws JsonSound World Attest Services State SpecProtocol Reach Wire.
Require Import ZifyBool ZifyN ZifyNat.
Local Open Scope N_scope.

(** ** JSON text holds no byte below 9 *)
Definition ge9 (b : byte) : bool := 9 <=? b2n b.
Notation all9 := (forallb ge9).
Lemma byte_eqb_true a b : byte_eqb a b = true -> a = b.
Proof. destruct (byte_eqb_spec a b); congruence. Qed.
Lemma all9_skip l : all9 (skip_ws l) = true -> all9 l = true.
Proof.
  induction l as [|c l IH]; [auto|]. cbn [skip_ws]. destruct (is_ws c) eqn:E; [|auto]. intros H. cbn [forallb]. rewrite (IH H).
  destruct c; try discriminate; reflexivity.
Qed.
Lemma all9_skip_eq l m : skip_ws l = m -> all9 m = true -> all9 l = true.
Proof. intros <-. apply all9_skip. Qed.
Lemma eqb_ge9 c d : byte_eqb c d = true -> ge9 d = true -> ge9 c = true.
Proof. intros E. apply byte_eqb_true in E. now subst. Qed.
Lemma all9_lit w : all9 w = true -> forall l r, lit w l = Some r -> all9 r = true -> all9 l = true.
Proof.
  induction w as [|a w IH]; cbn [lit forallb]; intros W l r H R; [now inversion H; subst|].
  destruct l as [|b l]; [discriminate|]. destruct (byte_eqb a b) eqn:E; [|discriminate].
  apply andb_true_iff in W as [W1 W2]. cbn [forallb]. rewrite (IH W2 _ _ H R), andb_true_r.
  apply byte_eqb_true in E. now subst.
Qed.
Lemma digit_ge9 c : is_digit c = true -> ge9 c = true.
Proof. unfold is_digit, ge9. lia. Qed.
Lemma all9_span l : all9 (snd (span_digits l)) = true -> all9 l = true.
Proof.
  induction l as [|c l IH]; [auto|]. cbn [span_digits]. destruct (is_digit c) eqn:E; [|auto]. cbn [snd forallb]. intros H.
  now rewrite (IH H), digit_ge9.
Qed.
Lemma hex_ge9 c n : digit16 c = Some n -> ge9 c = true.
Proof. destruct c; try discriminate; reflexivity. Qed.
Lemma simple_ge9 c n : simple_escape c = Some n -> ge9 c = true.
Proof. destruct c; try discriminate; reflexivity. Qed.
Lemma hex4_ge9 a b c d n : hex4 a b c d = Some n -> all9 [a; b; c; d] = true.
Proof.
  unfold hex4. destruct (digit16 a) eqn:A; [|discriminate]. destruct (digit16 b) eqn:B; [|discriminate].
  destruct (digit16 c) eqn:C; [|discriminate]. destruct (digit16 d) eqn:D; [|discriminate]. intros _. cbn [forallb].
  now rewrite (hex_ge9 _ _ A), (hex_ge9 _ _ B), (hex_ge9 _ _ C), (hex_ge9 _ _ D).
Qed.
Lemma all9_lex_str : forall k l, (length l <= k)%nat -> forall ts r, lex_str l = Some (ts, r) -> all9 r = true -> all9 l = true.
Proof.
  induction k as [|k IH]; intros l Hk ts r H R.
  - destruct l; [discriminate|cbn in Hk; lia].
  - destruct l as [|c l]; [discriminate|]. cbn [lex_str] in H. cbn [length] in Hk. cbn [forallb].
    destruct (byte_eqb c x22) eqn:E; [inversion H; subst; rewrite R, (eqb_ge9 _ _ E); reflexivity|].
    destruct (byte_eqb c x5c) eqn:E2.
    + rewrite (eqb_ge9 _ _ E2) by reflexivity. cbn [andb]. destruct l as [|e l]; [discriminate|]. cbn [forallb].
      destruct (byte_eqb e "u") eqn:E3.
      * rewrite (eqb_ge9 _ _ E3) by reflexivity. destruct l as [|a [|b [|c' [|d l]]]]; try discriminate.
        destruct (hex4 a b c' d) eqn:E4; [|discriminate]. destruct (lex_str l) as [[ts' r']|] eqn:E5; [|discriminate].
        inversion H; subst. apply hex4_ge9 in E4. cbn [forallb] in *. rewrite (IH l ltac:(cbn [length] in Hk; lia) _ _ E5 R).
        rewrite andb_true_r in *. destruct (ge9 a), (ge9 b), (ge9 c'), (ge9 d); auto.
      * destruct (simple_escape e) eqn:E4; [|discriminate]. destruct (lex_str l) as [[ts' r']|] eqn:E5; [|discriminate].
        inversion H; subst. rewrite (simple_ge9 _ _ E4), (IH l ltac:(cbn [length] in Hk; lia) _ _ E5 R). reflexivity.
    + destruct (N.ltb_spec (b2n c) 32) as [|G]; [discriminate|]. destruct (lex_str l) as [[ts' r']|] eqn:E5; [|discriminate].
      inversion H; subst. rewrite (IH l ltac:(lia) _ _ E5 R), andb_true_r. unfold ge9. lia.
Qed.
Lemma all9_string l s r : parse_string l = Some (s, r) -> all9 r = true -> all9 l = true.
Proof. unfold parse_string. destruct (lex_str l) as [[ts r']|] eqn:E; [|discriminate]. intros H R. inversion H; subst. eapply all9_lex_str; eauto. Qed.
Lemma all9_frac l f r : lex_frac l = Some (f, r) -> all9 r = true -> all9 l = true.
Proof.
  unfold lex_frac. destruct l as [|c l]; [now inversion 1; subst|]. destruct (byte_eqb c ".") eqn:E; [|now inversion 1; subst].
  destruct (fst (span_digits l)); [discriminate|]. intros H R. inversion H; subst. cbn [forallb]. rewrite (eqb_ge9 _ _ E), (all9_span _ R); reflexivity.
Qed.
Lemma all9_exp l f r : lex_exp l = Some (f, r) -> all9 r = true -> all9 l = true.
Proof.
  unfold lex_exp. destruct l as [|c l]; [now inversion 1; subst|]. destruct (byte_eqb c "e" || byte_eqb c "E") eqn:E; [|now inversion 1; subst].
  match goal with |- context [span_digits (snd ?q)] => set (Q := q) end.
  assert (HQ : all9 (snd Q) = true -> all9 l = true).
  { unfold Q. destruct l as [|s l]; [auto|]. destruct (byte_eqb s "+" || byte_eqb s "-") eqn:S; [|auto]. cbn [snd forallb]. intros ->.
    destruct s; try discriminate; reflexivity. }
  destruct (fst (span_digits (snd Q))); [discriminate|]. intros H R. inversion H; subst. cbn [forallb]. rewrite (HQ (all9_span _ R)).
  destruct c; try discriminate; reflexivity.
Qed.
Lemma all9_number l j r : parse_number l = Some (j, r) -> all9 r = true -> all9 l = true.
Proof.
  unfold parse_number. set (N1 := match l with [] => (false, l) | c :: r => if byte_eqb c "-" then (true, r) else (false, l) end).
  assert (HN : all9 (snd N1) = true -> all9 l = true).
  { unfold N1. destruct l as [|c l]; [auto|]. destruct (byte_eqb c "-") eqn:E; [|auto]. cbn [snd forallb]. intros ->. rewrite (eqb_ge9 _ _ E); reflexivity. }
  destruct N1 as [neg l1]. cbn [snd] in HN. destruct (fst (span_digits l1)) as [|d ds] eqn:D; [discriminate|].
  destruct (byte_eqb d "0" && _); [discriminate|]. destruct (lex_frac (snd (span_digits l1))) as [[fr l2]|] eqn:F; [|discriminate].
  destruct (lex_exp l2) as [[ex l3]|] eqn:X; [|discriminate]. intros H R.
  assert (r = l3) by (destruct fr, ex; inversion H; reflexivity). subst.
  apply HN, all9_span. eapply all9_frac; [exact F|]. eapply all9_exp; eauto.
Qed.
Lemma all9_parse : forall f,
  (forall l j r, parse_value f l = Some (j, r) -> all9 r = true -> all9 l = true)
  /\ (forall l j r, parse_elems f l = Some (j, r) -> all9 r = true -> all9 l = true)
  /\ (forall l j r, parse_members f l = Some (j, r) -> all9 r = true -> all9 l = true).
Proof.
  induction f as [|f (IV & IE & IM)]; [repeat split; discriminate|]. repeat split; intros l j r H R.
  - cbn [parse_value] in H. destruct (skip_ws l) as [|c t] eqn:Sk; [discriminate|]. apply (all9_skip_eq l _ Sk). cbn [forallb].
    destruct (byte_eqb c "n") eqn:E1; [rewrite (eqb_ge9 _ _ E1) by reflexivity; destruct (lit (bs "ull") t) eqn:L; inversion H; subst; eapply all9_lit; [|exact L|exact R]; reflexivity|].
    destruct (byte_eqb c "t") eqn:E2; [rewrite (eqb_ge9 _ _ E2) by reflexivity; destruct (lit (bs "rue") t) eqn:L; inversion H; subst; eapply all9_lit; [|exact L|exact R]; reflexivity|].
    destruct (byte_eqb c "f") eqn:E3; [rewrite (eqb_ge9 _ _ E3) by reflexivity; destruct (lit (bs "alse") t) eqn:L; inversion H; subst; eapply all9_lit; [|exact L|exact R]; reflexivity|].
    destruct (byte_eqb c x22) eqn:E4; [rewrite (eqb_ge9 _ _ E4) by reflexivity; destruct (parse_string t) as [[s t']|] eqn:L; inversion H; subst; eapply all9_string; [exact L|exact R]|].
    destruct (byte_eqb c "[") eqn:E5.
    { rewrite (eqb_ge9 _ _ E5) by reflexivity. cbn [andb]. destruct (skip_ws t) as [|d t'] eqn:S2; [discriminate|].
      destruct (byte_eqb d "]") eqn:E6; [inversion H; subst; apply (all9_skip_eq _ _ S2); cbn [forallb]; rewrite (eqb_ge9 _ _ E6); auto|].
      destruct (parse_elems f t) as [[x t2]|] eqn:P; inversion H; subst. eapply IE; [exact P|exact R]. }
    destruct (byte_eqb c "{") eqn:E7.
    { rewrite (eqb_ge9 _ _ E7) by reflexivity. cbn [andb]. destruct (skip_ws t) as [|d t'] eqn:S2; [discriminate|].
      destruct (byte_eqb d "}") eqn:E6; [inversion H; subst; apply (all9_skip_eq _ _ S2); cbn [forallb]; rewrite (eqb_ge9 _ _ E6); auto|].
      destruct (parse_members f t) as [[x t2]|] eqn:P; inversion H; subst. eapply IM; [exact P|exact R]. }
    exact (all9_number _ _ _ H R).
  - cbn [parse_elems] in H. destruct (parse_value f l) as [[x t]|] eqn:P; [|discriminate]. apply (IV _ _ _ P).
    destruct (skip_ws t) as [|c t'] eqn:S2; [discriminate|]. apply (all9_skip_eq _ _ S2). cbn [forallb].
    destruct (byte_eqb c ",") eqn:E.
    + rewrite (eqb_ge9 _ _ E) by reflexivity. destruct (parse_elems f t') as [[y t2]|] eqn:P2; inversion H; subst. eapply IE; [exact P2|exact R].
    + destruct (byte_eqb c "]") eqn:E2; [|discriminate]. inversion H; subst. rewrite (eqb_ge9 _ _ E2); auto.
  - cbn [parse_members] in H. destruct (skip_ws l) as [|q r0] eqn:S0; [discriminate|]. apply (all9_skip_eq _ _ S0). cbn [forallb].
    destruct (byte_eqb q x22) eqn:E; [|discriminate]. rewrite (eqb_ge9 _ _ E) by reflexivity. cbn [andb].
    destruct (parse_string r0) as [[k r1]|] eqn:P; [|discriminate]. apply (all9_string _ _ _ P).
    destruct (skip_ws r1) as [|c r2] eqn:S1; [discriminate|]. apply (all9_skip_eq _ _ S1). cbn [forallb].
    destruct (byte_eqb c ":") eqn:E1; [|discriminate]. rewrite (eqb_ge9 _ _ E1) by reflexivity. cbn [andb].
    destruct (parse_value f r2) as [[x r3]|] eqn:P1; [|discriminate]. apply (IV _ _ _ P1).
    destruct (skip_ws r3) as [|d r4] eqn:S3; [discriminate|]. apply (all9_skip_eq _ _ S3). cbn [forallb].
    destruct (byte_eqb d ",") eqn:E2.
    + rewrite (eqb_ge9 _ _ E2) by reflexivity. destruct (parse_members f r4) as [[y t2]|] eqn:P2; inversion H; subst. eapply IM; [exact P2|exact R].
    + destruct (byte_eqb d "}") eqn:E3; [|discriminate]. inversion H; subst. rewrite (eqb_ge9 _ _ E3); auto.
Qed.
Lemma parse_all9 b j : parse b = Some j -> all9 b = true.
Proof.
  unfold parse. destruct (parse_value _ b) as [[v r]|] eqn:E; [|discriminate]. destruct (skip_ws r) eqn:S; [|discriminate]. intros _.
  destruct (all9_parse (2 * length b + 2)) as (IV & _). apply (IV _ _ _ E). apply (all9_skip_eq _ _ S). reflexivity.
Qed.
(** The first byte of a JSON text: whitespace or printable. *)
Lemma parse_first c b j : parse (c :: b) = Some j -> b2n c = 9 \/ b2n c = 10 \/ b2n c = 13 \/ 32 <= b2n c.
Proof.
  unfold parse. destruct (parse_value _ (c :: b)) as [[v r]|] eqn:E; [|discriminate]. intros _.
  replace (2 * length (c :: b) + 2)%nat with (S (2 * length (c :: b) + 1)) in E by lia. cbn [parse_value skip_ws] in E.
  destruct c; cbn; try lia; exfalso; cbn in E; discriminate.
Qed.

(** ** Borsh requests *)
Lemma t_cons_inv {A B} (ca : codec A) (tb : tcodec B) n l s r : tdec (t_cons ca tb) n l = Some (s, r) ->
  (n = 0 /\ exists a, s = inl a /\ dec ca l = Some (a, r)) \/ (exists k, n = k + 1 /\ exists b, s = inr b /\ tdec tb k l = Some (b, r)).
Proof.
  cbn [tdec t_cons]. destruct (N.eqb_spec n 0) as [->|Hn].
  - destruct (dec ca l) as [[a r']|] eqn:E; [|discriminate]. intros H. inversion H; subst. left. split; [reflexivity|]. eauto.
  - destruct (tdec tb (n - 1) l) as [[b r']|] eqn:E; [|discriminate]. intros H. inversion H; subst. right. exists (n - 1). split; [lia|]. eauto.
Qed.
Lemma ver_env_then {A} (c : codec A) l a r : dec c [] = None -> dec (c_pair c_versioned_envelope c) l = Some (a, r) -> False.
Proof.
  intros Hc. cbn [dec c_pair c_versioned_envelope]. unfold dec_versioned_envelope.
  destruct (decode_borsh _ _ _ _ l); [rewrite Hc|]; discriminate.
Qed.
Lemma wf_approval_json a : wf c_approval a = true -> lenN (enc c_approval a) <= MAX_ENCODED_MSG_LEN -> jwf js_approval a = true.
Proof.
  destruct a as [sg [al pk]]. intros H L. unfold c_approval, c_member in *. cbn [wf enc c_iso c_pair fst snd ap_signature ap_member m_alias m_pub_key] in *.
  unfold js_approval, js_member. cbn [jwf ap_signature ap_member m_alias m_pub_key js_hex js_string].
  cbn [wf enc c_bytes c_string] in *. rewrite lenN_length, !app_length, !le_enc_length in L.
  unfold MAX_ENCODED_MSG_LEN, STR_MAX_LENGTH in *. rewrite !lenN_length in *. lia.
Qed.
Lemma json_envelope_wf t e : json_from_slice js_versioned_envelope t = Some e -> wf_envelope e = true.
Proof.
  unfold json_from_slice. destruct (parse t) as [j|] eqn:P; [|discriminate]. intros H.
  exact (sound_versioned_envelope MAX_DEPTH j e (parse_jtext _ _ P) H).
Qed.

(** msg.rs:81-258: the Borsh tag of a variant is its declaration index. *)
Definition tag_of (m : msg) : N :=
  match m with
  | ProtocolErrorResponse _ => 0 | StatusRequest => 1 | StatusResponse _ => 2 | BootStandardRequest _ _ => 3
  | BootStandardResponse _ => 4 | BootGenesisRequest _ _ => 5 | BootGenesisResponse _ _ => 6 | ProvisionRequest _ _ => 7
  | ProvisionResponse _ => 8 | ProxyRequest _ => 9 | ProxyResponse _ => 10 | LiveAttestationDocRequest => 11
  | LiveAttestationDocResponse _ _ => 12 | BootKeyForwardRequest _ _ => 13 | BootKeyForwardResponse _ => 14
  | ExportKeyRequest _ _ => 15 | ExportKeyResponse _ _ => 16 | InjectKeyRequest _ _ => 17 | InjectKeyResponse => 18
  | ManifestEnvelopeRequest => 19 | ManifestEnvelopeResponse _ => 20 | VersionRequest => 21 | VersionResponse _ _ => 22
  | BootStandardJsonEnvelopeRequest _ _ => 23
  end.
Definition borsh_fact (m : msg) (l : bytes) : Prop :=
  match m with
  | BootStandardRequest _ _ | BootKeyForwardRequest _ _ | ExportKeyRequest _ _ => False
  | ProxyRequest d | ProxyResponse d => lenN d < U32_LIMIT /\ l = le_enc 4 (lenN d) ++ d
  | ProvisionRequest sh a => wf c_approval a = true /\ exists p, l = p ++ enc c_approval a
  | BootStandardJsonEnvelopeRequest e _ => wf_envelope e = true
  | _ => True
  end.
Lemma borsh_inv x l m : from_slice c_msg (x :: l) = Some m -> b2n x = tag_of m /\ borsh_fact m l.
Proof.
  unfold from_slice. change (dec c_msg (x :: l)) with (match tdec t_msg (b2n x) l with Some (a, r) => Some (msg_of a, r) | None => None end).
  destruct (tdec t_msg (b2n x) l) as [[s r]|] eqn:E; [|discriminate]. destruct r as [|]; [|discriminate]. intros H. inversion H; subst m; clear H.
  unfold t_msg in E. generalize dependent (b2n x). clear x. intros n E.
  let rec go k := lazymatch k with
    | O => idtac
    | S ?k' => apply t_cons_inv in E as [(? & a & -> & E)|(n' & -> & s' & -> & E)]; [|rename n' into n; rename s' into s; go k'] end in go 24%nat.
  25: discriminate.
  all: repeat match goal with p : (_ * _)%type |- _ => destruct p end; (split; [cbn [tag_of msg_of]; clear E; lia|]);
    cbn [msg_of borsh_fact]; try exact I.
  all: try (exfalso; eapply ver_env_then; [|exact E]; reflexivity).
  - pose proof (c_pair_lawful _ _ c_bytes_lawful c_approval_lawful) as Lw. apply (BorshProofs.canon Lw) in E as [W E].
    cbn [wf enc c_pair fst snd] in *. apply andb_true_iff in W as [_ W]. split; [exact W|]. rewrite app_nil_r in E. eauto.
  - apply (BorshProofs.canon c_bytes_lawful) in E as [W E]. rewrite app_nil_r in E. cbn [wf enc c_bytes] in *. split; [lia|exact E].
  - apply (BorshProofs.canon c_bytes_lawful) in E as [W E]. rewrite app_nil_r in E. cbn [wf enc c_bytes] in *. split; [lia|exact E].
  - cbn [dec c_pair c_json_envelope] in E. destruct (dec c_bytes l) as [[t r]|]; [|discriminate].
    destruct (json_from_slice js_versioned_envelope t) as [e|] eqn:J; [|discriminate].
    destruct (dec c_bytes r) as [[? ?]|]; [|discriminate]. inversion E; subst. eapply json_envelope_wf; eauto.
Qed.

Lemma le4_top n : n < 134217728 -> exists a b c d, le_enc 4 n = [a; b; c; d] /\ ge9 d = false.
Proof.
  intros H. exists (n2b n), (n2b (n / 256)), (n2b (n / 256 / 256)), (n2b (n / 256 / 256 / 256)).
  split; [reflexivity|]. unfold ge9. rewrite b2n_n2b, !N.div_div by lia.
  assert (n / (256 * 256 * 256) < 8) by (apply N.div_lt_upper_bound; lia).
  change (256 * (256 * 256)) with (256 * 256 * 256). rewrite N.mod_small by lia. lia.
Qed.
Lemma borsh_not_json b m : lenN b <= MAX_ENCODED_MSG_LEN -> from_slice c_msg b = Some m -> parse b = None.
Proof.
  intros L H. destruct (parse b) as [j|] eqn:P; [|reflexivity]. exfalso. destruct b as [|x l]; [discriminate|].
  pose proof (borsh_inv _ _ _ H) as [T F]. pose proof (parse_all9 _ _ P) as A. pose proof (parse_first _ _ _ P) as Fi.
  cbn [forallb] in A. apply andb_true_iff in A as [A0 A]. unfold ge9 in A0.
  assert (D : forall d, l = le_enc 4 (lenN d) ++ d -> False).
  { intros d ->. unfold MAX_ENCODED_MSG_LEN in L. rewrite lenN_length in L. cbn [length] in L. rewrite app_length, le_enc_length in L.
    destruct (le4_top (lenN d)) as (a & b & c & e & E & E9); [rewrite lenN_length; lia|]. rewrite E in A. cbn [forallb app] in A.
    rewrite E9 in A. destruct (ge9 a), (ge9 b), (ge9 c); discriminate. }
  destruct m; cbn [tag_of borsh_fact] in *; try lia; try tauto; destruct F; eapply D; eassumption.
Qed.

(** ** Round trips *)
Lemma json_rt m : jwf js_msg m = true -> exists b, to_wire m EJson = Ok b /\ json_from_slice js_msg b = Some m.
Proof.
  intros W. destruct (js_msg_law m W) as [_ (n & N & G)]. exists (write n).
  assert (T : to_wire m EJson = match canon (jser js_msg m) with Some b => Ok b | None => Err InvalidMsg end).
  { destruct m; try discriminate W; unfold to_wire; now rewrite W. }
  rewrite T. unfold canon. rewrite N. split; [reflexivity|]. unfold json_from_slice.
  destruct G as (J & _ & D). rewrite (parse_write _ J). apply D, js_msg_need.
Qed.
Lemma json_wire_rt m : jwf js_msg m = true -> exists b, to_wire m EJson = Ok b /\ from_wire b = Ok (m, EJson).
Proof. intros W. destruct (json_rt m W) as (b & T & D). exists b. split; [exact T|]. unfold from_wire. now rewrite D. Qed.

Definition wire_error (e : perr) : Prop :=
  e = OversizedPayload \/ e = ProtocolMsgDeserialization \/ e = LegacyGenesisNotSupported \/ e = InvalidMsg.
Lemma json_error_ok e : wire_error e -> exists b, json_error e = Some b /\ from_wire b = Ok (ProtocolErrorResponse e, EJson).
Proof.
  intros W. destruct (json_wire_rt (ProtocolErrorResponse e)) as (b & T & D).
  - destruct W as [->|[->|[->| ->]]]; vm_compute; reflexivity.
  - exists b. unfold json_error. rewrite T. auto.
Qed.
Lemma from_wire_err b e : from_wire b = Err e -> wire_error e.
Proof.
  unfold from_wire, wire_error. destruct (json_from_slice js_msg b); [discriminate|]. destruct (from_slice c_msg b) as [m|].
  - destruct (is_genesis m); [|discriminate]. intros H. inversion H. auto.
  - intros H. inversion H. auto.
Qed.
Lemma jwf_msg_req m : jwf js_msg m = true -> wf_req m = true.
Proof.
  destruct m; try reflexivity; unfold js_msg, v_msg; cbn [wf_req jwf js_iso js_enum vwf v_new v_unit v_skip v_nil msg_to js_struct fw f_cons f_one f_opt f_opt1 fst snd js_versioned_envelope];
    intros H; try discriminate; apply andb_true_iff in H as [H1 H2]; auto.
Qed.
Lemma from_wire_wf b m e : lenN b <= MAX_ENCODED_MSG_LEN -> from_wire b = Ok (m, e) -> wf_req m = true.
Proof.
  intros L. unfold from_wire. destruct (json_from_slice js_msg b) as [m'|] eqn:J.
  - intros H. inversion H; subst. apply jwf_msg_req. unfold json_from_slice in J. destruct (parse b) as [j|] eqn:P; [|discriminate].
    exact (sound_msg _ _ _ (parse_jtext _ _ P) J).
  - destruct (from_slice c_msg b) as [m'|] eqn:B; [|discriminate]. destruct (is_genesis m'); [discriminate|].
    intros H. inversion H; subst. destruct b as [|x l]; [discriminate|]. apply borsh_inv in B as [_ F].
    destruct m; try reflexivity; cbn [borsh_fact wf_req] in *; try tauto.
    destruct F as (W & p & ->). apply wf_approval_json; [exact W|]. rewrite lenN_length in *. cbn [length] in L. rewrite app_length in L. lia.
Qed.

(** *** Borsh *)
Definition brt {A} (c : codec A) : Prop := forall a r, wf c a = true -> dec c (enc c a ++ r) = Some (a, r).
Lemma lawful_brt {A} (c : codec A) : lawful c -> brt c.
Proof. intros L a r. apply (rt L). Qed.
Lemma pair_brt {A B} (ca : codec A) (cb : codec B) : brt ca -> brt cb -> brt (c_pair ca cb).
Proof. intros Ha Hb [a b] r W. cbn in *. apply andb_true_iff in W as [Wa Wb]. now rewrite <- app_assoc, Ha, Hb. Qed.
Lemma iso_brt {A B} (f : A -> B) (g : B -> A) (c : codec A) : (forall b, f (g b) = b) -> brt c -> brt (c_iso f g c).
Proof. intros E H b r W. cbn in *. now rewrite H, E. Qed.
Definition trt {B} (t : tcodec B) : Prop := forall a r, twf t a = true -> tdec t (fst (tenc t a)) (snd (tenc t a) ++ r) = Some (a, r).
Lemma t_nil_rt : trt t_nil.
Proof. intros []. Qed.
Lemma t_cons_rt {A B} (ca : codec A) (tb : tcodec B) : brt ca -> trt tb -> trt (t_cons ca tb).
Proof.
  intros Ha Hb [a|b] r W; cbn [twf tenc tdec t_cons fst snd] in *.
  - cbn. now rewrite Ha.
  - replace (N.succ (fst (tenc tb b)) =? 0) with false by lia. replace (N.succ (fst (tenc tb b)) - 1) with (fst (tenc tb b)) by lia. now rewrite Hb.
Qed.
Lemma enum_brt {B} (t : tcodec B) : trt t -> brt (c_enum t).
Proof.
  intros H b r W. cbn [wf enc dec c_enum app] in *. apply andb_true_iff in W as [W1 W2]. rewrite b2n_n2b, N.mod_small by lia. now apply H.
Qed.
Lemma option_brt {A} (c : codec A) : brt c -> brt (c_option c).
Proof. intros H [a|] r W; cbn in *; [now rewrite H|reflexivity]. Qed.
Lemma set_u16_brt : brt c_set_u16.
Proof.
  intros l r W. cbn [wf enc dec c_set_u16] in *. apply andb_true_iff in W as [W A].
  rewrite (lawful_brt (c_vec c_u16)) by (first [exact W | apply c_vec_lawful; [apply c_uint_lawful|apply c_uint_nonempty]]).
  now rewrite set_collect_ascending.
Qed.
Lemma json_envelope_brt : brt c_json_envelope.
Proof.
  intros e r W. cbn [wf enc dec c_json_envelope] in *. apply andb_true_iff in W as [W1 W2].
  rewrite (lawful_brt c_bytes c_bytes_lawful) by exact W2. unfold json_from_slice.
  destruct (js_versioned_envelope_law e W1) as [(J & _ & D) _]. rewrite (parse_write _ J), (proj2 (D MAX_DEPTH ltac:(cbn; unfold MAX_DEPTH; lia))). reflexivity.
Qed.
Ltac brts := repeat first
  [ assumption | apply t_nil_rt | apply t_cons_rt | apply enum_brt | apply pair_brt | apply option_brt
  | apply set_u16_brt | apply json_envelope_brt
  | apply lawful_brt; solve [auto with law | apply c_uint_lawful | apply c_fixed_lawful | apply c_bool_lawful | apply c_unit_lawful | apply c_bytes_lawful | apply c_string_lawful ] ].
Lemma phase_brt : brt c_phase.
Proof. apply iso_brt; [exact phase_of_to|]. unfold t_phase. brts. Qed.
Lemma code_brt : brt c_nsm_code.
Proof. apply iso_brt; [exact nsm_error_code_of_to|]. unfold t_nsm_error_code. brts. Qed.
Lemma digest_brt : brt c_digest.
Proof. apply iso_brt; [exact nsm_digest_of_to|]. unfold t_nsm_digest. brts. Qed.
Lemma nsm_brt : brt c_nsm_response.
Proof. apply iso_brt; [exact nsm_response_of_to|]. unfold t_nsm_response. pose proof code_brt. pose proof digest_brt. brts. Qed.
Lemma p256_brt : brt c_p256_error.
Proof. apply iso_brt; [exact p256_error_of_to|]. unfold t_p256_error. brts. Qed.
Lemma perr_brt : brt c_perr.
Proof. apply iso_brt; [exact perr_of_to|]. unfold t_perr. pose proof phase_brt. pose proof p256_brt. brts. Qed.

Lemma tdec_hit {A B} (ca : codec A) (tb : tcodec B) l a r : dec ca l = Some (a, r) -> tdec (t_cons ca tb) 0 l = Some (inl a, r).
Proof. intros H. cbn. now rewrite H. Qed.
Lemma tdec_next {A B} (ca : codec A) (tb : tcodec B) n k l b r : (n =? 0) = false -> n - 1 = k -> tdec tb k l = Some (b, r) ->
  tdec (t_cons ca tb) n l = Some (inr b, r).
Proof. intros H0 <- H. cbn [tdec t_cons]. now rewrite H0, H. Qed.
Lemma msg_dec x l s : tdec t_msg (b2n x) l = Some (s, []) -> from_slice c_msg (x :: l) = Some (msg_of s).
Proof.
  intros H. unfold from_slice. change (dec c_msg (x :: l)) with (match tdec t_msg (b2n x) l with Some (a, r) => Some (msg_of a, r) | None => None end).
  now rewrite H.
Qed.
Lemma genesis_set_lawful : lawful c_genesis_set.
Proof. unfold c_genesis_set. solve_iso; auto with law. Qed.

(** The message has a Borsh-embedded manifest envelope that is followed by
    another field. *)
Definition envelope_inside (m : msg) : bool :=
  match m with BootStandardRequest _ _ | BootKeyForwardRequest _ _ | ExportKeyRequest _ _ => true | _ => false end.
Definition last_envelope (m : msg) : option versioned_envelope :=
  match m with LiveAttestationDocResponse _ o | ManifestEnvelopeResponse o => o | _ => None end.

Lemma ver_env_last e : wf c_versioned_envelope e = true ->
  (forall v0 v1, ~ (from_slice c_envelope (enc c_versioned_envelope e) = Some v1 /\ from_slice c_envelope_v0 (enc c_versioned_envelope e) = Some v0)) ->
  dec c_versioned_envelope (enc c_versioned_envelope e) = Some (e, []).
Proof.
  intros W U. cbn [dec c_versioned_envelope]. unfold dec_versioned_envelope, decode_borsh. destruct e as [x|x|x]; cbn [wf enc c_versioned_envelope] in *; [discriminate| |].
  - rewrite (lawful_slice_rt _ c_envelope_lawful x W) in *. destruct (from_slice c_envelope_v0 (enc c_envelope x)) as [y|]; [|reflexivity].
    exfalso. eapply U. split; reflexivity.
  - rewrite (lawful_slice_rt _ c_envelope_v0_lawful x W) in *. destruct (from_slice c_envelope (enc c_envelope_v0 x)) as [y|]; [|reflexivity].
    exfalso. eapply U. split; reflexivity.
Qed.
Lemma opt_ver_last o : match o with None => True | Some e => dec c_versioned_envelope (enc c_versioned_envelope e) = Some (e, []) end ->
  dec (c_option c_versioned_envelope) (enc (c_option c_versioned_envelope) o) = Some (o, []).
Proof. destruct o as [e|]; [|reflexivity]. intros H.
  change (dec (c_option c_versioned_envelope) (enc (c_option c_versioned_envelope) (Some e)))
    with (match dec c_versioned_envelope (enc c_versioned_envelope e) with Some (a, r') => Some (Some a, r') | None => None end).
  now rewrite H.
Qed.

Lemma brt_nil {A} (c : codec A) a : brt c -> wf c a = true -> dec c (enc c a) = Some (a, []).
Proof. intros H W. rewrite <- (app_nil_r (enc c a)). now apply H. Qed.

Lemma borsh_rt m : wf c_msg m = true -> is_genesis m = false -> envelope_inside m = false ->
  match last_envelope m with None => True | Some e => dec c_versioned_envelope (enc c_versioned_envelope e) = Some (e, []) end ->
  from_slice c_msg (enc c_msg m) = Some m.
Proof.
  intros W G I LE. rewrite <- (msg_of_to m) at 2.
  change (wf c_msg m) with (twf t_msg (msg_to m) && (fst (tenc t_msg (msg_to m)) <? 256)) in W. apply andb_true_iff in W as [W W'].
  change (enc c_msg m) with (n2b (fst (tenc t_msg (msg_to m))) :: snd (tenc t_msg (msg_to m))). apply msg_dec.
  rewrite b2n_n2b, N.mod_small by lia. clear W'. pose proof perr_brt. pose proof phase_brt. pose proof nsm_brt.
  destruct m; try discriminate; cbn [msg_to] in *; unfold t_msg in *; cbn [tenc t_cons fst snd twf] in *;
    repeat (eapply tdec_next; [reflexivity|reflexivity|]); apply tdec_hit; cbn [last_envelope] in LE;
    try solve [apply brt_nil; [brts|exact W]].
  - cbn [wf enc dec c_pair fst snd] in *. apply andb_true_iff in W as [W1 W2]. rewrite H1 by exact W1. rewrite (opt_ver_last _ LE). reflexivity.
  - apply opt_ver_last. exact LE.
Qed.
