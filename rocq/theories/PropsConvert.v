(** C74: files in Borsh and JSON are not confused; json-to-borsh and display --json. *)
From Coq Require Import ZifyBool ZifyN ZifyNat.
From Verif Require Import Base Utf8 Hex HexProofs Borsh BorshProofs Json JsonProofs NormProofs Types TypesBorsh TypesJson TypesJsonProofs TypesJsonLaws StorageProofs CodecExamples
  Msg World Attest Services CliParser Client FileTools.
Local Open Scope N_scope.

(** *** JSON texts contain no byte below 9 *)
Definition textual (p : bytes) : Prop := Forall (fun c => 9 <= b2n c) p.
Definition eats (l r : bytes) : Prop := exists p, l = p ++ r /\ textual p.
Lemma eats_refl l : eats l l. Proof. exists []. split; [reflexivity|constructor]. Qed.
Lemma eats_trans a b c : eats a b -> eats b c -> eats a c.
Proof. intros (p & -> & P) (q & -> & Q). exists (p ++ q). split; [now rewrite app_assoc|now apply Forall_app]. Qed.
Lemma eats_cons c l r : 9 <= b2n c -> eats l r -> eats (c :: l) r.
Proof. intros H (p & -> & P). exists (c :: p). split; [reflexivity|now constructor]. Qed.
Local Lemma byte_eqb_eq a b : byte_eqb a b = true <-> a = b.
Proof. split; [|intros ->; apply byte_eqb_refl]. unfold byte_eqb. intros E. now apply Byte.byte_dec_bl. Qed.
Lemma is_byte c d : byte_eqb c d = true -> 9 <= b2n d -> 9 <= b2n c.
Proof. intros E. apply byte_eqb_eq in E. now subst. Qed.
Ltac ok9 := vm_compute; discriminate.
Ltac is9 := match goal with H : byte_eqb ?c ?d = true |- 9 <= b2n ?c => apply (is_byte c d H); ok9 end.
Lemma skip_ws_eats l : eats l (skip_ws l).
Proof.
  induction l as [|c l IH]; [apply eats_refl|]. cbn [skip_ws]. destruct (is_ws c) eqn:E; [|apply eats_refl]. apply eats_cons; [|exact IH].
  unfold is_ws in E. repeat (apply orb_true_iff in E as [E|E]); is9.
Qed.
Lemma skip_ws_to l c r : skip_ws l = c :: r -> 9 <= b2n c -> eats l r.
Proof. intros E H. apply (eats_trans _ (c :: r)); [rewrite <- E; apply skip_ws_eats|apply eats_cons; [exact H|apply eats_refl]]. Qed.
Lemma span_eats l : eats l (snd (span_digits l)).
Proof.
  induction l as [|c l IH]; [apply eats_refl|]. cbn [span_digits]. destruct (is_digit c) eqn:E; cbn [snd]; [|apply eats_refl]. apply eats_cons; [|exact IH].
  unfold is_digit in E. lia.
Qed.
Lemma digit16_9 : forall b v, digit16 b = Some v -> 9 <= b2n b.
Proof. intros b v; destruct b; try ok9; vm_compute; discriminate. Qed.
Lemma escape_9 b v : simple_escape b = Some v -> 9 <= b2n b.
Proof. destruct b; try ok9; vm_compute; discriminate. Qed.
Lemma lex_str_eats : forall n l ts r, (length l <= n)%nat -> lex_str l = Some (ts, r) -> eats l r.
Proof.
  induction n as [|n IH]; intros l ts r L E; (destruct l as [|c l]; [discriminate|]); cbn [length] in L; [lia|].
  cbn [lex_str] in E. destruct (byte_eqb c x22) eqn:Q.
  { assert (l = r) as <- by (injection E; auto). apply eats_cons; [is9|apply eats_refl]. }
  destruct (byte_eqb c x5c) eqn:B.
  - destruct l as [|e r1]; [discriminate|]. apply eats_cons; [is9|]. cbn [length] in L. destruct (byte_eqb e "u") eqn:U.
    + destruct r1 as [|x1 [|x2 [|x3 [|x4 r2]]]]; try discriminate. cbn [length] in L.
      destruct (hex4 x1 x2 x3 x4) eqn:H4; [|discriminate]. destruct (lex_str r2) as [[ts' r']|] eqn:E2; [|discriminate].
      assert (r' = r) as -> by (injection E; auto). unfold hex4 in H4.
      destruct (digit16 x1) eqn:D1; [|discriminate]. destruct (digit16 x2) eqn:D2; [|discriminate]. destruct (digit16 x3) eqn:D3; [|discriminate]. destruct (digit16 x4) eqn:D4; [|discriminate].
      apply eats_cons; [is9|]. do 4 (apply eats_cons; [eapply digit16_9; eassumption|]). apply (IH r2 ts' r); [lia|exact E2].
    + destruct (simple_escape e) eqn:S1; [|discriminate]. destruct (lex_str r1) as [[ts' r']|] eqn:E2; [|discriminate].
      assert (r' = r) as -> by (injection E; auto). apply eats_cons; [exact (escape_9 _ _ S1)|]. apply (IH r1 ts' r); [lia|exact E2].
  - destruct (b2n c <? 32) eqn:C; [discriminate|]. destruct (lex_str l) as [[ts' r']|] eqn:E2; [|discriminate].
    assert (r' = r) as -> by (injection E; auto). apply eats_cons; [lia|]. apply (IH l ts' r); [lia|exact E2].
Qed.
Lemma string_eats l s r : parse_string l = Some (s, r) -> eats l r.
Proof.
  unfold parse_string. destruct (lex_str l) as [[ts r']|] eqn:E; [|discriminate]. intros X. assert (r' = r) as -> by (injection X; auto). exact (lex_str_eats _ l ts r (le_n _) E).
Qed.
Lemma frac_eats l f r : lex_frac l = Some (f, r) -> eats l r.
Proof.
  unfold lex_frac. destruct l as [|c l]; [intros X; injection X as <- <-; apply eats_refl|]. destruct (byte_eqb c ".") eqn:E.
  - pose proof (span_eats l) as S1. destruct (span_digits l) as [ds q]. cbn [fst snd] in *. destruct ds; [discriminate|]. intros X. injection X as <- <-. apply eats_cons; [is9|exact S1].
  - intros X; injection X as <- <-; apply eats_refl.
Qed.
Lemma exp_eats l f r : lex_exp l = Some (f, r) -> eats l r.
Proof.
  unfold lex_exp. destruct l as [|c l]; [intros X; injection X as <- <-; apply eats_refl|]. destruct (byte_eqb c "e" || byte_eqb c "E") eqn:E.
  2:{ intros X; injection X as <- <-; apply eats_refl. }
  assert (C9 : 9 <= b2n c) by (apply orb_true_iff in E as [E|E]; is9).
  set (q := match l with s :: r' => if byte_eqb s "+" || byte_eqb s "-" then ([s], r') else ([], l) | [] => ([], []) end).
  assert (Q : eats l (snd q)).
  { subst q. destruct l as [|s l]; [apply eats_refl|]. destruct (byte_eqb s "+" || byte_eqb s "-") eqn:D; cbn [snd]; [|apply eats_refl].
    apply eats_cons; [apply orb_true_iff in D as [D|D]; is9|apply eats_refl]. }
  pose proof (span_eats (snd q)) as S1. destruct (span_digits (snd q)) as [ds q']. cbn [fst snd] in *. destruct ds; [discriminate|]. intros X.
  assert (q' = r) as -> by (injection X; auto). apply eats_cons; [exact C9|]. exact (eats_trans _ _ _ Q S1).
Qed.
Lemma number_eats l j r : parse_number l = Some (j, r) -> eats l r.
Proof.
  unfold parse_number. set (h := match l with c :: r0 => if byte_eqb c "-" then (true, r0) else (false, l) | [] => (false, l) end).
  assert (H : eats l (snd h)).
  { subst h. destruct l as [|c l]; [apply eats_refl|]. destruct (byte_eqb c "-") eqn:D; cbn [snd]; [|apply eats_refl]. apply eats_cons; [is9|apply eats_refl]. }
  destruct h as [neg l1]. cbn [snd] in H. pose proof (span_eats l1) as S1. destruct (span_digits l1) as [ds q]. cbn [fst snd] in *.
  destruct ds as [|d ds']; [discriminate|]. destruct (byte_eqb d "0" && negb match ds' with [] => true | _ => false end); [discriminate|].
  destruct (lex_frac q) as [[fr l2]|] eqn:F; [|discriminate]. destruct (lex_exp l2) as [[ex l3]|] eqn:X; [|discriminate]. intros E.
  assert (l3 = r) as -> by (destruct fr, ex; injection E; auto).
  exact (eats_trans _ _ _ H (eats_trans _ _ _ S1 (eats_trans _ _ _ (frac_eats _ _ _ F) (exp_eats _ _ _ X)))).
Qed.
Lemma lit_eats w : forall l r, textual w -> lit w l = Some r -> eats l r.
Proof.
  induction w as [|a w IH]; intros l r T E; [injection E as <-; apply eats_refl|]. destruct l as [|b l]; [discriminate|]. cbn [lit] in E.
  destruct (byte_eqb a b) eqn:B; [|discriminate]. apply byte_eqb_eq in B as <-. inversion T; subst. apply eats_cons; auto.
Qed.
Lemma values_eat : forall f,
  (forall l j r, parse_value f l = Some (j, r) -> eats l r) /\ (forall l j r, parse_elems f l = Some (j, r) -> eats l r)
  /\ (forall l j r, parse_members f l = Some (j, r) -> eats l r).
Proof.
  induction f as [|f (IV & IE & IM)]; [split; [|split]; intros; discriminate|]. split; [|split]; intros l j r E.
  - cbn [parse_value] in E. destruct (skip_ws l) as [|c q] eqn:W; [discriminate|].
    destruct (byte_eqb c "n") eqn:C1. { destruct (lit _ _) as [q'|] eqn:L; [|discriminate]. assert (q' = r) as -> by (injection E; auto). refine (eats_trans _ _ _ (skip_ws_to _ _ _ W ltac:(is9)) (lit_eats _ _ _ _ L)). repeat constructor; ok9. }
    destruct (byte_eqb c "t") eqn:C2. { destruct (lit _ _) as [q'|] eqn:L; [|discriminate]. assert (q' = r) as -> by (injection E; auto). refine (eats_trans _ _ _ (skip_ws_to _ _ _ W ltac:(is9)) (lit_eats _ _ _ _ L)). repeat constructor; ok9. }
    destruct (byte_eqb c "f") eqn:C3. { destruct (lit _ _) as [q'|] eqn:L; [|discriminate]. assert (q' = r) as -> by (injection E; auto). refine (eats_trans _ _ _ (skip_ws_to _ _ _ W ltac:(is9)) (lit_eats _ _ _ _ L)). repeat constructor; ok9. }
    destruct (byte_eqb c x22) eqn:C4. { destruct (parse_string q) as [[s q']|] eqn:L; [|discriminate]. assert (q' = r) as -> by (injection E; auto). exact (eats_trans _ _ _ (skip_ws_to _ _ _ W ltac:(is9)) (string_eats _ _ _ L)). }
    destruct (byte_eqb c "[") eqn:C5.
    { apply (eats_trans _ q); [exact (skip_ws_to _ _ _ W ltac:(is9))|]. destruct (skip_ws q) as [|d q'] eqn:W2; [discriminate|]. destruct (byte_eqb d "]") eqn:D.
      - assert (q' = r) as -> by (injection E; auto). exact (skip_ws_to _ _ _ W2 ltac:(is9)).
      - destruct (parse_elems f q) as [[xs q'']|] eqn:P; [|discriminate]. assert (q'' = r) as -> by (injection E; auto). exact (IE _ _ _ P). }
    destruct (byte_eqb c "{") eqn:C6.
    { apply (eats_trans _ q); [exact (skip_ws_to _ _ _ W ltac:(is9))|]. destruct (skip_ws q) as [|d q'] eqn:W2; [discriminate|]. destruct (byte_eqb d "}") eqn:D.
      - assert (q' = r) as -> by (injection E; auto). exact (skip_ws_to _ _ _ W2 ltac:(is9)).
      - destruct (parse_members f q) as [[xs q'']|] eqn:P; [|discriminate]. assert (q'' = r) as -> by (injection E; auto). exact (IM _ _ _ P). }
    rewrite <- W in E. exact (eats_trans _ _ _ (skip_ws_eats l) (number_eats _ _ _ E)).
  - cbn [parse_elems] in E. destruct (parse_value f l) as [[x q]|] eqn:P; [|discriminate]. apply (eats_trans _ q); [exact (IV _ _ _ P)|].
    destruct (skip_ws q) as [|c q'] eqn:W; [discriminate|]. destruct (byte_eqb c ",") eqn:C.
    + destruct (parse_elems f q') as [[xs q'']|] eqn:P2; [|discriminate]. assert (q'' = r) as -> by (injection E; auto). exact (eats_trans _ _ _ (skip_ws_to _ _ _ W ltac:(is9)) (IE _ _ _ P2)).
    + destruct (byte_eqb c "]") eqn:C2; [|discriminate]. assert (q' = r) as -> by (injection E; auto). exact (skip_ws_to _ _ _ W ltac:(is9)).
  - cbn [parse_members] in E. destruct (skip_ws l) as [|q r0] eqn:W; [discriminate|]. destruct (byte_eqb q x22) eqn:Q; [|discriminate].
    apply (eats_trans _ r0); [exact (skip_ws_to _ _ _ W ltac:(is9))|]. destruct (parse_string r0) as [[k r1]|] eqn:P; [|discriminate]. apply (eats_trans _ r1); [exact (string_eats _ _ _ P)|].
    destruct (skip_ws r1) as [|c r2] eqn:W2; [discriminate|]. destruct (byte_eqb c ":") eqn:C; [|discriminate]. apply (eats_trans _ r2); [exact (skip_ws_to _ _ _ W2 ltac:(is9))|].
    destruct (parse_value f r2) as [[x r3]|] eqn:P2; [|discriminate]. apply (eats_trans _ r3); [exact (IV _ _ _ P2)|].
    destruct (skip_ws r3) as [|d r4] eqn:W3; [discriminate|]. destruct (byte_eqb d ",") eqn:D.
    + destruct (parse_members f r4) as [[xs q'']|] eqn:P3; [|discriminate]. assert (q'' = r) as -> by (injection E; auto). exact (eats_trans _ _ _ (skip_ws_to _ _ _ W3 ltac:(is9)) (IM _ _ _ P3)).
    + destruct (byte_eqb d "}") eqn:D2; [|discriminate]. assert (r4 = r) as -> by (injection E; auto). exact (skip_ws_to _ _ _ W3 ltac:(is9)).
Qed.
Lemma parse_textual b j : parse b = Some j -> textual b.
Proof.
  unfold parse. intros H. destruct (parse_value _ b) as [[x r]|] eqn:P; [|discriminate]. destruct (skip_ws r) eqn:W; [|discriminate].
  destruct (values_eat (2 * length b + 2)) as (V & _). destruct (eats_trans _ _ _ (V _ _ _ P) (skip_ws_eats r)) as (p & -> & T). rewrite W, app_nil_r. exact T.
Qed.
Lemma low_not_json b c : In c b -> b2n c < 9 -> parse b = None.
Proof.
  intros I L. destruct (parse b) as [j|] eqn:P; [|reflexivity]. apply parse_textual in P. unfold textual in P. rewrite Forall_forall in P. specialize (P c I). cbv beta in P. lia.
Qed.
Lemma restart_low r : exists c, In c (enc c_restart r) /\ b2n c < 9.
Proof. destruct r; eexists; (split; [now left|reflexivity]). Qed.
Lemma manifest_low m : exists c, In c (enc c_manifest m) /\ b2n c < 9.
Proof.
  destruct (restart_low (pv_restart (mf_pivot m))) as (c & I & L). exists c. split; [|exact L].
  cbn [enc c_manifest c_iso c_pair c_pivot fst snd]. rewrite !in_app_iff. right. left. right. left. exact I.
Qed.
Lemma manifest_v0_low m : exists c, In c (enc c_manifest_v0 m) /\ b2n c < 9.
Proof.
  destruct (restart_low (pv0_restart (mf0_pivot m))) as (c & I & L). exists c. split; [|exact L].
  cbn [enc c_manifest_v0 c_iso c_pair c_pivot_v0 fst snd]. rewrite !in_app_iff. right. left. right. left. exact I.
Qed.
Lemma envelope_low e : exists c, In c (enc c_envelope e) /\ b2n c < 9.
Proof. destruct (manifest_low (e1_manifest e)) as (c & I & L). exists c. split; [|exact L]. cbn [enc c_envelope c_iso c_pair fst snd]. apply in_or_app. now left. Qed.
Lemma envelope_v0_low e : exists c, In c (enc c_envelope_v0 e) /\ b2n c < 9.
Proof. destruct (manifest_v0_low (e0_manifest e)) as (c & I & L). exists c. split; [|exact L]. cbn [enc c_envelope_v0 c_iso c_pair fst snd]. apply in_or_app. now left. Qed.

(** *** Specification *)
(** A Borsh file of a manifest or envelope of version 0 or 1. *)
Inductive borsh_file : bytes -> Prop :=
| BF_manifest m : borsh_file (enc c_manifest m)
| BF_manifest_v0 m : borsh_file (enc c_manifest_v0 m)
| BF_envelope e : borsh_file (enc c_envelope e)
| BF_envelope_v0 e : borsh_file (enc c_envelope_v0 e).
(** The bytes are also the Borsh form of a manifest, or envelope, of the other version. *)
Definition also_v0 (b : bytes) : Prop := exists m0, wf c_manifest_v0 m0 = true /\ b = enc c_manifest_v0 m0.
Definition also_v1 (b : bytes) : Prop := exists m, wf c_manifest m = true /\ b = enc c_manifest m.
Definition also_v0_envelope (b : bytes) : Prop := exists e, wf c_envelope_v0 e = true /\ b = enc c_envelope_v0 e.
Definition also_v1_envelope (b : bytes) : Prop := exists e, wf c_envelope e = true /\ b = enc c_envelope e.
(** Reading gives exactly [v], or is refused, and refused exactly if the bytes are ambiguous. *)
Definition reads_as {V} (got : option V) (v : V) (ambiguous : Prop) : Prop :=
  (got = Some v /\ ~ ambiguous) \/ (got = None /\ ambiguous).

(** *** Theorems *)
(** No Borsh file of a manifest or envelope is a JSON text. *)
Theorem c74_borsh_is_never_json : forall b, borsh_file b -> parse b = None.
Proof.
  intros b [m|m|e|e].
  - destruct (manifest_low m) as (c & I & L). exact (low_not_json _ _ I L).
  - destruct (manifest_v0_low m) as (c & I & L). exact (low_not_json _ _ I L).
  - destruct (envelope_low e) as (c & I & L). exact (low_not_json _ _ I L).
  - destruct (envelope_v0_low e) as (c & I & L). exact (low_not_json _ _ I L).
Qed.
Print Assumptions c74_borsh_is_never_json.

Lemma decode_reads {T U V} (ct : codec T) (cu : codec U) (f : T -> V) (g : U -> V) : lawful ct -> lawful cu ->
  (forall t, wf ct t = true -> reads_as (decode_borsh ct cu f g (enc ct t)) (f t) (exists u, wf cu u = true /\ enc ct t = enc cu u)) /\
  (forall u, wf cu u = true -> reads_as (decode_borsh ct cu f g (enc cu u)) (g u) (exists t, wf ct t = true /\ enc cu u = enc ct t)).
Proof.
  intros Lt Lu. unfold decode_borsh, reads_as. split; intros x W.
  - rewrite (lawful_slice_rt _ Lt x W). destruct (from_slice cu (enc ct x)) as [u|] eqn:E.
    + right. split; [reflexivity|]. exists u. exact (lawful_slice_canon _ Lu _ _ E).
    + left. split; [reflexivity|]. intros (u & Wu & Eu). rewrite Eu, (lawful_slice_rt _ Lu u Wu) in E. discriminate.
  - rewrite (lawful_slice_rt _ Lu x W). destruct (from_slice ct (enc cu x)) as [t|] eqn:E.
    + right. split; [reflexivity|]. exists t. exact (lawful_slice_canon _ Lt _ _ E).
    + left. split; [reflexivity|]. intros (t & Wt & Et). rewrite Et, (lawful_slice_rt _ Lt t Wt) in E. discriminate.
Qed.
Lemma compat_borsh b : parse b = None -> manifest_try_from_slice_compat b = decode_borsh c_manifest c_manifest_v0 VM1 VM0 b.
Proof. intros P. unfold manifest_try_from_slice_compat, declares_a_version, parse_strict, json_from_slice. now rewrite P. Qed.
Lemma envelope_compat_borsh b : parse b = None -> envelope_try_from_slice_compat b = decode_borsh c_envelope c_envelope_v0 VE1 VE0 b.
Proof. intros P. unfold envelope_try_from_slice_compat, enveloped_manifest_declares_a_version, parse_strict, json_from_slice. now rewrite P. Qed.

(** A Borsh file is read back as exactly the manifest or envelope it was written for, unless
    it is also a Borsh file of the other version: then it is refused, never misread. *)
Theorem c74_borsh_file_reads_back :
  (forall m, wf c_manifest m = true -> reads_as (manifest_try_from_slice_compat (enc c_manifest m)) (VM1 m) (also_v0 (enc c_manifest m))) /\
  (forall m, wf c_manifest_v0 m = true -> reads_as (manifest_try_from_slice_compat (enc c_manifest_v0 m)) (VM0 m) (also_v1 (enc c_manifest_v0 m))) /\
  (forall e, wf c_envelope e = true -> reads_as (envelope_try_from_slice_compat (enc c_envelope e)) (VE1 e) (also_v0_envelope (enc c_envelope e))) /\
  (forall e, wf c_envelope_v0 e = true -> reads_as (envelope_try_from_slice_compat (enc c_envelope_v0 e)) (VE0 e) (also_v1_envelope (enc c_envelope_v0 e))).
Proof.
  destruct (decode_reads c_manifest c_manifest_v0 VM1 VM0 c_manifest_lawful c_manifest_v0_lawful) as [A B].
  destruct (decode_reads c_envelope c_envelope_v0 VE1 VE0 c_envelope_lawful c_envelope_v0_lawful) as [C D].
  split; [|split; [|split]]; intros x W.
  - rewrite compat_borsh by apply c74_borsh_is_never_json, BF_manifest. exact (A x W).
  - rewrite compat_borsh by apply c74_borsh_is_never_json, BF_manifest_v0. exact (B x W).
  - rewrite envelope_compat_borsh by apply c74_borsh_is_never_json, BF_envelope. exact (C x W).
  - rewrite envelope_compat_borsh by apply c74_borsh_is_never_json, BF_envelope_v0. exact (D x W).
Qed.
Print Assumptions c74_borsh_file_reads_back.

(** The version-1 form of what a file holds: version 2 has none. *)
Definition as_v1 (v : versioned_manifest) : option manifest :=
  match v with VM2 _ => None | VM1 m => Some m | VM0 m => Some (manifest_of_v0 m) end.
Definition envelope_as_v1 (v : versioned_envelope) : option manifest_envelope :=
  match v with
  | VE2 _ => None
  | VE1 e => Some e
  | VE0 e => Some (ManifestEnvelope (manifest_of_v0 (e0_manifest e)) (e0_manifest_approvals e) (e0_share_approvals e))
  end.
Lemma put_same d p v : put d p v p = v.
Proof. unfold put. now rewrite (proj2 (bytes_eqb_eq p p) eq_refl). Qed.
Lemma written d um p b : contents (done d [Open p um; Write p b]) p = Some b.
Proof. unfold done, contents. cbn [fold_left after]. now rewrite !put_same. Qed.
(** json-to-borsh: if it succeeds, reading the output gives the version-1 form of what the
    input file held, or is refused; a version-2 file is refused. *)
Theorem c74_json_to_borsh : forall um d input output l,
  (json_to_borsh um d DManifest input output = Some l -> exists v m, read_manifest_compat (contents d input) = Some v /\ as_v1 v = Some m
     /\ contents (done d l) output = Some (enc c_manifest m)
     /\ reads_as (read_manifest_compat (contents (done d l) output)) (VM1 m) (also_v0 (enc c_manifest m))) /\
  (json_to_borsh um d DManifestEnvelope input output = Some l -> exists v e, read_manifest_envelope_compat (contents d input) = Some v /\ envelope_as_v1 v = Some e
     /\ contents (done d l) output = Some (enc c_envelope e)
     /\ reads_as (read_manifest_envelope_compat (contents (done d l) output)) (VE1 e) (also_v0_envelope (enc c_envelope e))).
Proof.
  destruct c74_borsh_file_reads_back as (A & _ & C & _).
  intros um d input output l. split; intros H; cbn [json_to_borsh] in H.
  - destruct (read_manifest_v1_compat (contents d input)) as [m|] eqn:R; [|discriminate]. cbn [obind] in H. unfold to_vec in H. destruct (wf c_manifest m) eqn:W; [|discriminate].
    cbn [obind] in H. assert (X : l = [Open output um; Write output (enc c_manifest m)]) by (injection H; auto). rewrite X, written.
    unfold read_manifest_v1_compat in R. destruct (read_manifest_compat (contents d input)) as [v|]; [|discriminate]. exists v, m. split; [reflexivity|].
    split; [destruct v; [discriminate|injection R as ->; reflexivity|injection R as <-; reflexivity]|]. split; [reflexivity|]. exact (A m W).
  - destruct (read_envelope_v1_compat (contents d input)) as [e|] eqn:R; [|discriminate]. cbn [obind] in H. unfold to_vec in H. destruct (wf c_envelope e) eqn:W; [|discriminate].
    cbn [obind] in H. assert (X : l = [Open output um; Write output (enc c_envelope e)]) by (injection H; auto). rewrite X, written.
    unfold read_envelope_v1_compat in R. destruct (read_manifest_envelope_compat (contents d input)) as [v|]; [|discriminate]. exists v, e. split; [reflexivity|].
    split; [destruct v; [discriminate|injection R as ->; reflexivity|injection R as <-; reflexivity]|]. split; [reflexivity|]. exact (C e W).
Qed.
Print Assumptions c74_json_to_borsh.
(** Conversely it converts every file it should. *)
Theorem c74_json_to_borsh_succeeds : forall um d input output,
  (forall v m, read_manifest_compat (contents d input) = Some v -> as_v1 v = Some m -> wf c_manifest m = true ->
     exists l, json_to_borsh um d DManifest input output = Some l) /\
  (forall v e, read_manifest_envelope_compat (contents d input) = Some v -> envelope_as_v1 v = Some e -> wf c_envelope e = true ->
     exists l, json_to_borsh um d DManifestEnvelope input output = Some l).
Proof.
  intros um d input output. split; intros v x R A W; cbn [json_to_borsh].
  - unfold read_manifest_v1_compat. rewrite R. destruct v as [m|m|m]; [discriminate| |]; injection A as <-; cbn [obind]; unfold to_vec; rewrite W; cbn [obind]; eauto.
  - unfold read_envelope_v1_compat. rewrite R. destruct v as [m|m|m]; [discriminate| |]; injection A as <-; cbn [obind]; unfold to_vec; rewrite W; cbn [obind]; eauto.
Qed.
Print Assumptions c74_json_to_borsh_succeeds.

(** Finding: converting a version-0 file does not keep the manifest hash, which is what
    members signed: equal hashes would be a SHA-256 collision of two given strings. *)
Lemma v0_longer m : length (enc c_manifest (manifest_of_v0 m)) = (length (enc c_manifest_v0 m) + 5)%nat.
Proof.
  destruct m as [ns [h r args] ms ss en ps]. unfold manifest_of_v0. cbn [mf0_namespace mf0_pivot mf0_manifest_set mf0_share_set mf0_enclave mf0_patch_set pv0_hash pv0_restart pv0_args].
  cbn [enc c_manifest c_manifest_v0 c_iso c_pair c_pivot c_pivot_v0 fst snd mf_namespace mf_pivot mf_manifest_set mf_share_set mf_enclave mf_patch_set
       mf0_namespace mf0_pivot mf0_manifest_set mf0_share_set mf0_enclave mf0_patch_set pv_hash pv_restart pv_bridge pv_debug pv_args pv0_hash pv0_restart pv0_args].
  rewrite !app_length. change (length (enc (c_vec c_bridge) [])) with 4%nat. change (length (enc c_bool false)) with 1%nat. lia.
Qed.
Theorem c74_refuted_v0_conversion_keeps_the_hash : forall Y m0, as_v1 (VM0 m0) = Some (manifest_of_v0 m0) /\
  (manifest_hash Y (VM1 (manifest_of_v0 m0)) = manifest_hash Y (VM0 m0) ->
   enc c_manifest (manifest_of_v0 m0) <> enc c_manifest_v0 m0 /\ s_sha256 Y (enc c_manifest (manifest_of_v0 m0)) = s_sha256 Y (enc c_manifest_v0 m0)).
Proof.
  intros Y m0. split; [reflexivity|]. intros H. split; [|exact H].
  intros E. pose proof (v0_longer m0) as L. rewrite <- E in L. lia.
Qed.
Print Assumptions c74_refuted_v0_conversion_keeps_the_hash.

Lemma v2_declared m : jget (bs "version") (jser js_manifest_v2 m) = Some (str (bs "v2")).
Proof. destruct m as [a b c e f [g|]]; reflexivity. Qed.
(** display --json: a file holding what is printed is read as the same manifest or envelope,
    with version and approvals. *)
Theorem c74_displayed_json_reads_back :
  (forall m, wf_manifest m = true -> manifest_try_from_slice_compat (manifest_json m) = Some m) /\
  (forall e, wf_envelope e = true -> envelope_try_from_slice_compat (envelope_json e) = Some e).
Proof.
  split.
  - intros [m|m|m] W.
    + cbn [wf_manifest manifest_json] in *. destruct (js_manifest_v2_law m W) as [G _]. destruct (from_slice_good _ _ _ G ltac:(le128)) as [D PS].
      unfold manifest_try_from_slice_compat, declares_a_version. rewrite PS, D. rewrite v2_declared. reflexivity.
    + destruct (manifest_storage (VM1 m) W) as (b & E & R). injection E as <-. exact R.
    + destruct (manifest_storage (VM0 m) W) as (b & E & R). injection E as <-. exact R.
  - intros [e|e|e] W.
    + cbn [wf_envelope envelope_json] in *. destruct (js_envelope_v2_law e W) as [G _]. destruct (from_slice_good _ _ _ G ltac:(le128)) as [D PS].
      unfold envelope_try_from_slice_compat, enveloped_manifest_declares_a_version. rewrite PS, D.
      change (jget (bs "manifest") (jser js_envelope_v2 e)) with (Some (jser js_manifest_v2 (e2_manifest e))). cbv iota.
      rewrite v2_declared. reflexivity.
    + destruct (envelope_storage (VE1 e) W) as (b & E & R). injection E as <-. exact R.
    + destruct (envelope_storage (VE0 e) W) as (b & E & R). injection E as <-. exact R.
Qed.
Print Assumptions c74_displayed_json_reads_back.

(** Non-vacuity: unambiguous and ambiguous files exist; a version-0 JSON envelope is converted. *)
Example c74_nontrivial :
  wf c_envelope ex_envelope = true /\ ~ also_v0_envelope (enc c_envelope ex_envelope)
  /\ (exists m, wf c_manifest m = true /\ also_v0 (enc c_manifest m))
  /\ (exists l, json_to_borsh 420 (fun _ => Some (write (jser js_envelope_v0 ex_envelope_v0), 420)) DManifestEnvelope (bs "i") (bs "o") = Some l).
Proof.
  split; [vm_compute; reflexivity|]. split; [|split].
  - intros (e & W & E). assert (X : from_slice c_envelope_v0 (enc c_envelope ex_envelope) = Some e) by (rewrite E; apply lawful_slice_rt; [apply c_envelope_v0_lawful|exact W]).
    vm_compute in X. discriminate X.
  - destruct borsh_ambiguous as (m & m0 & W & W0 & E & _). exists m. split; [exact W|]. exists m0. auto.
  - eexists. vm_compute. reflexivity.
Qed.
