From Verif Require Import Base Utf8 Hex SpecHex.
Require Import ZifyBool ZifyN ZifyNat.
Local Open Scope N_scope.

Lemma hex_pair_lower b : hex_pair b = lower_pair b.
Proof.
  apply bytes_eqb_eq. revert b. apply byte_sweep. vm_compute. reflexivity.
Qed.

Lemma hex_pair_shape b : exists h l, hex_pair b = [h; l] /\ decode_pair h l = Ok b
   /\ h <> "+"%byte /\ l <> "x"%byte /\ verify_ascii h = true /\ verify_ascii l = true
   /\ is_white (b2n h) = false /\ is_white (b2n l) = false.
Proof.
  assert (H : (match hex_pair b with
    | [h; l] => match decode_pair h l with Ok x => byte_eqb x b | _ => false end
       && negb (byte_eqb h "+") && negb (byte_eqb l "x") && verify_ascii h && verify_ascii l
       && negb (is_white (b2n h)) && negb (is_white (b2n l))
    | _ => false end = true)%bool).
  { revert b. apply byte_sweep. vm_compute. reflexivity. }
  destruct (hex_pair b) as [|h [|l [|]]]; try discriminate.
  exists h, l. rewrite !andb_true_iff, !negb_true_iff in H.
  destruct H as [[[[[[H H1] H2] H3] H4] H5] H6].
  destruct (decode_pair h l) as [x|]; [|discriminate].
  destruct (byte_eqb_spec x b); [subst|discriminate].
  destruct (byte_eqb_spec h "+"); [discriminate|].
  destruct (byte_eqb_spec l "x"); [discriminate|]. repeat split; auto.
Qed.

Lemma encode_length l : length (encode l) = (2 * length l)%nat.
Proof.
  unfold encode. induction l as [|b l IH]; [reflexivity|].
  cbn [map concat]. rewrite app_length, IH.
  destruct (hex_pair_shape b) as (h & l' & -> & _). cbn [length]. lia.
Qed.

Lemma decode_pairs_encode l : decode_pairs (encode l) = Ok l.
Proof.
  induction l as [|b l IH]; [reflexivity|].
  unfold encode in *; cbn [map concat].
  destruct (hex_pair_shape b) as (h & l' & -> & E & _). cbn [app decode_pairs].
  now rewrite E, IH.
Qed.

Lemma encode_cons b l : exists h t, encode (b :: l) = h :: t :: encode l /\ t <> "x"%byte.
Proof.
  unfold encode; cbn [map concat].
  destruct (hex_pair_shape b) as (h & t & -> & E & H1 & H2 & _). now exists h, t.
Qed.

Lemma strip_encode l : strip_0x (encode l) = encode l.
Proof.
  destruct l as [|b l]; [reflexivity|].
  destruct (encode_cons b l) as (h & t & -> & Ht). cbn [strip_0x].
  destruct (byte_eqb_spec t "x"); [congruence|]. now rewrite andb_false_r.
Qed.

Lemma encode_lenN l : lenN (encode l) = 2 * lenN l.
Proof. rewrite !lenN_length, encode_length. lia. Qed.

Lemma encode_even l : N.even (lenN (encode l)) = true.
Proof. rewrite encode_lenN. apply N.even_spec. now exists (lenN l). Qed.

Lemma decode_encode l : 2 * lenN l < STR_MAX_LENGTH -> decode (encode l) = Ok l.
Proof.
  intros H. destruct l as [|b l]; [reflexivity|].
  pose proof (strip_encode (b :: l)) as Hs. pose proof (encode_even (b :: l)) as He.
  pose proof (encode_lenN (b :: l)) as Hl. pose proof (decode_pairs_encode (b :: l)) as Hd.
  destruct (encode_cons b l) as (h & t & E & _). rewrite E in *.
  unfold decode. rewrite Hs, He, Hl, Hd. destruct (N.ltb_spec (2 * lenN (b :: l)) STR_MAX_LENGTH); [reflexivity|lia].
Qed.

Lemma decode_prefixed_encode l :
  2 * lenN l < STR_MAX_LENGTH -> decode (["0"; "x"]%byte ++ encode l) = Ok l.
Proof.
  intros H. cbn [app decode strip_0x]. rewrite !byte_eqb_refl. cbn [andb].
  rewrite encode_even, encode_lenN, decode_pairs_encode.
  destruct (N.ltb_spec (2 * lenN l) STR_MAX_LENGTH); [reflexivity|lia].
Qed.

Lemma decode_to_buf_encode l : decode_to_buf (encode l) (lenN l) = Ok l.
Proof.
  destruct l as [|b l]; [reflexivity|].
  pose proof (strip_encode (b :: l)) as Hs. pose proof (encode_even (b :: l)) as He.
  pose proof (encode_lenN (b :: l)) as Hl. pose proof (decode_pairs_encode (b :: l)) as Hd.
  destruct (encode_cons b l) as (h & t & E & _). rewrite E in *.
  unfold decode_to_buf. rewrite Hs, He, Hl, Hd. cbn [negb].
  rewrite N.mul_comm, N.div_mul by lia. now rewrite N.eqb_refl.
Qed.

(** *** What decode accepts *)
Lemma digit16_spec c v : digit16 c = Some v <-> (v < 16 /\ digit_value c (N.to_nat v)).
Proof.
  split.
  - assert (H : forall c, (match digit16 c with
         | Some v => (v <? 16) && (match nth_error lower_digits (N.to_nat v) with Some d => byte_eqb d c | None => false end
                     || match nth_error upper_digits (N.to_nat v) with Some d => byte_eqb d c | None => false end)
         | None => true end = true)%bool).
    { apply byte_sweep. vm_compute. reflexivity. }
    intros E. specialize (H c). rewrite E in H. apply andb_true_iff in H as [H1 H2].
    split; [lia|]. apply orb_true_iff in H2. unfold digit_value. destruct H2 as [H2|H2]; [left|right];
    destruct (nth_error _ _) as [d|]; try discriminate; destruct (byte_eqb_spec d c); congruence.
  - intros [Hv [H|H]].
    + assert (E : forall k, (k < 16)%nat -> forall d, nth_error lower_digits k = Some d -> digit16 d = Some (N.of_nat k)).
      { intros k Hk d. do 16 (destruct k as [|k]; [intros E; injection E as <-; reflexivity|]). lia. }
      apply E in H; [|lia]. now rewrite N2Nat.id in H.
    + assert (E : forall k, (k < 16)%nat -> forall d, nth_error upper_digits k = Some d -> digit16 d = Some (N.of_nat k)).
      { intros k Hk d. do 16 (destruct k as [|k]; [intros E; injection E as <-; reflexivity|]). lia. }
      apply E in H; [|lia]. now rewrite N2Nat.id in H.
Qed.

Lemma digit_ascii c v : digit16 c = Some v -> verify_ascii c = true /\ c <> "+"%byte.
Proof.
  intros E. assert (H : forall c, (match digit16 c with Some v => verify_ascii c && negb (byte_eqb c "+") | None => true end = true)%bool).
  { apply byte_sweep. vm_compute. reflexivity. }
  specialize (H c). rewrite E in H. apply andb_true_iff in H as [H1 H2]. split; auto.
  intros ->. now rewrite byte_eqb_refl in H2.
Qed.

Lemma decode_pairs_sound n : forall s b, (length s <= n)%nat ->
  Nat.even (length s) = true -> ~ In "+"%byte s ->
  decode_pairs s = Ok b -> hex_text s b.
Proof.
  induction n as [|n IH]; intros s b Hn He Hp E.
  { destruct s; [|cbn in Hn; lia]. inversion E. constructor. }
  destruct s as [|a [|c s]]; cbn [decode_pairs] in E; [inversion E; constructor|discriminate|].
  unfold decode_pair in E.
  destruct (verify_ascii a); [|discriminate]. destruct (verify_ascii c); [|discriminate].
  cbn [negb] in E. unfold from_str_radix16_2 in E.
  destruct (byte_eqb_spec a "+") as [->|Hne]; [elim Hp; now left|].
  destruct (digit16 a) as [va|] eqn:Ea; [|discriminate].
  destruct (digit16 c) as [vc|] eqn:Ec; [|discriminate].
  destruct (decode_pairs s) as [r|] eqn:Er; [|discriminate]. inversion E; subst.
  apply digit16_spec in Ea as [Ha1 Ha2], Ec as [Hc1 Hc2].
  rewrite <- (N2Nat.id va), <- (N2Nat.id vc). constructor; auto.
  apply IH; auto; [cbn in Hn; lia|]. intros Hi. apply Hp. now do 2 right.
Qed.

Lemma decode_pairs_complete s b : hex_text s b -> decode_pairs s = Ok b.
Proof.
  induction 1 as [|h l vh vl s b Hh Hl Ht IH]; [reflexivity|].
  cbn [decode_pairs]. unfold decode_pair.
  assert (Bnd : forall c v, digit_value c v -> (v < 16)%nat).
  { intros c v [H|H]; apply (nth_error_Some_bound_index _ _ ) || idtac;
    assert (v < length lower_digits \/ v < length upper_digits)%nat as Hlt
      by (first [left; apply nth_error_Some; congruence | right; apply nth_error_Some; congruence]);
    change (length lower_digits) with 16%nat in Hlt; change (length upper_digits) with 16%nat in Hlt; lia. }
  assert (Eh : digit16 h = Some (N.of_nat vh)) by (apply digit16_spec; split; [specialize (Bnd _ _ Hh); lia | now rewrite Nat2N.id]).
  assert (El : digit16 l = Some (N.of_nat vl)) by (apply digit16_spec; split; [specialize (Bnd _ _ Hl); lia | now rewrite Nat2N.id]).
  destruct (digit_ascii _ _ Eh) as [-> Hp]. destruct (digit_ascii _ _ El) as [-> _]. cbn [negb].
  unfold from_str_radix16_2. destruct (byte_eqb_spec h "+"); [congruence|].
  now rewrite Eh, El, IH.
Qed.

Lemma hex_text_length s b : hex_text s b -> length s = (2 * length b)%nat.
Proof. induction 1; cbn [length]; lia. Qed.

Lemma even_lenN {A} (l : list A) : N.even (lenN l) = Nat.even (length l).
Proof.
  rewrite lenN_length. destruct (Nat.even (length l)) eqn:E.
  - apply Nat.even_spec in E as [k ->]. apply N.even_spec. exists (N.of_nat k). lia.
  - destruct (N.even (N.of_nat (length l))) eqn:E2; [|reflexivity].
    apply N.even_spec in E2 as [k Hk]. rewrite <- E. symmetry. apply Nat.even_spec. exists (N.to_nat k). lia.
Qed.

Lemma strip_In c s : In c (strip_0x s) -> In c s.
Proof.
  destruct s as [|a [|b r]]; cbn [strip_0x]; auto.
  destruct (_ && _)%bool; auto. intros H; now do 2 right.
Qed.

(** Exact acceptance for inputs without '+'. *)
Lemma decode_exact s b : ~ In "+"%byte s ->
  (decode s = Ok b <->
   hex_text (strip_0x s) b /\ lenN (strip_0x s) < STR_MAX_LENGTH).
Proof.
  intros Hp. split.
  - intros E. destruct s as [|x [|y s]]; cbn [decode] in E.
    + inversion E; subst. split; [constructor|reflexivity].
    + discriminate.
    + assert (Hp' : ~ In "+"%byte (strip_0x (x :: y :: s))) by (intros H; apply Hp, strip_In, H).
      set (t := strip_0x (x :: y :: s)) in *.
      destruct (N.even (lenN t)) eqn:Ee; destruct (N.ltb_spec (lenN t) STR_MAX_LENGTH); try discriminate.
      split; auto. rewrite even_lenN in Ee. eapply decode_pairs_sound; eauto.
  - intros [Ht Hl]. pose proof (hex_text_length _ _ Ht) as HL.
    pose proof (decode_pairs_complete _ _ Ht) as Hd.
    destruct s as [|x [|y s]].
    + cbn in Ht. inversion Ht; subst. reflexivity.
    + cbn in Ht. inversion Ht.
    + unfold decode. set (t := strip_0x (x :: y :: s)) in *.
      rewrite even_lenN, HL.
      replace (Nat.even (2 * length b)) with true by (symmetry; apply Nat.even_spec; now exists (length b)).
      destruct (N.ltb_spec (lenN t) STR_MAX_LENGTH); [exact Hd|lia].
Qed.

(** decode_to_buf agrees with decode plus a length check. *)
Lemma decode_to_buf_decode s n :
  lenN (strip_0x s) < STR_MAX_LENGTH ->
  forall b, decode_to_buf s n = Ok b <-> decode s = Ok b /\ lenN b = n.
Proof.
  intros Hl b.
  assert (Len : forall k t b, (length t <= k)%nat -> Nat.even (length t) = true -> decode_pairs t = Ok b -> length t = (2 * length b)%nat).
  { induction k as [|k IH]; intros t b' Hk He E.
    - destruct t; [|cbn in Hk; lia]. inversion E; reflexivity.
    - destruct t as [|a [|c t]]; cbn [decode_pairs] in E; [inversion E; reflexivity|discriminate|].
      destruct (decode_pair a c); [|discriminate]. destruct (decode_pairs t) eqn:Et; [|discriminate].
      inversion E; subst. cbn [length]. rewrite (IH t a1); auto; cbn in Hk; lia. }
  destruct s as [|x [|y s]]; cbn [decode decode_to_buf].
  - destruct (N.eqb_spec n 0) as [->|N0]; split.
    + intros E; inversion E; subst. split; reflexivity.
    + intros [E _]; congruence.
    + intros E; discriminate.
    + intros [E H]. inversion E; subst. cbn in N0. congruence.
  - split; [discriminate|intros [E _]; discriminate].
  - set (t := strip_0x (x :: y :: s)) in *.
    destruct (N.even (lenN t)) eqn:Ee; cbn [negb]; destruct (N.ltb_spec (lenN t) STR_MAX_LENGTH); try lia;
      try (split; [discriminate|intros [E _]; discriminate]).
    rewrite even_lenN in Ee.
    split.
    + destruct (N.eqb_spec (lenN t / 2) n); cbn [negb]; [|discriminate].
      intros E. split; auto. pose proof (Len (length t) t b (le_n _) Ee E) as HL.
      subst n. rewrite !lenN_length, HL. rewrite Nat2N.inj_mul, N.mul_comm, N.div_mul by (cbn; lia). lia.
    + intros [E Hn]. pose proof (Len (length t) t b (le_n _) Ee E) as HL.
      replace (lenN t / 2) with n; [now rewrite N.eqb_refl|].
      subst n. rewrite !lenN_length, HL. rewrite Nat2N.inj_mul, N.mul_comm, N.div_mul by (cbn; lia). lia.
Qed.

(** The sign hole. *)
Lemma decode_plus : decode (bs "+a") = Ok [x0a] /\ decode (bs "0a") = Ok [x0a].
Proof. split; reflexivity. Qed.

(** *** decode_from_vec *)
Lemma encode_ascii l : forallb (fun b => b2n b <? 128) (encode l) = true.
Proof.
  induction l as [|b l IH]; [reflexivity|]. unfold encode in *; cbn [map concat].
  rewrite forallb_app, IH, andb_true_r.
  destruct (hex_pair_shape b) as (h & t & -> & _ & _ & _ & H1 & H2 & _).
  unfold verify_ascii in *. cbn. now rewrite H1, H2.
Qed.

Lemma utf8_enc_ascii l : forallb (fun b => b2n b <? 128) l = true -> utf8_enc (map b2n l) = l.
Proof.
  induction l as [|b l IH]; [reflexivity|]. cbn [forallb]. intros H. apply andb_true_iff in H as [Hb H].
  unfold utf8_enc; cbn [map concat]. unfold utf8_char at 1. rewrite Hb, n2b_b2n. cbn [app]. f_equal. now apply IH.
Qed.

Lemma utf8_dec_ascii l : forallb (fun b => b2n b <? 128) l = true -> utf8_dec l = Some (map b2n l).
Proof.
  intros H. rewrite <- (utf8_enc_ascii l H) at 1. apply utf8_dec_enc.
  unfold scalars. rewrite forallb_forall in *. intros x Hx. apply in_map_iff in Hx as (b & <- & Hb).
  apply H in Hb. unfold is_scalar. lia.
Qed.

Lemma drop_white_app w cs : forallb is_white w = true -> drop_white (w ++ cs) = drop_white cs.
Proof.
  induction w as [|c w IH]; [reflexivity|]. cbn. intros H. apply andb_true_iff in H as [-> H]. auto.
Qed.

Lemma drop_white_id cs : forallb (fun c => negb (is_white c)) cs = true -> drop_white cs = cs.
Proof. destruct cs as [|c cs]; [reflexivity|]. cbn. intros H. apply andb_true_iff in H as [H _]. now destruct (is_white c). Qed.

Lemma forallb_rev {A} (f : A -> bool) l : forallb f (rev l) = forallb f l.
Proof.
  induction l as [|x l IH]; [reflexivity|]. cbn. rewrite forallb_app, IH. cbn. rewrite andb_true_r. apply andb_comm.
Qed.

Lemma trim_surround w1 w2 cs :
  forallb is_white w1 = true -> forallb is_white w2 = true ->
  forallb (fun c => negb (is_white c)) cs = true -> trim (w1 ++ cs ++ w2) = cs.
Proof.
  intros H1 H2 Hc. unfold trim. rewrite drop_white_app by auto.
  destruct cs as [|c cs].
  { cbn [app]. replace (drop_white w2) with (@nil N); [reflexivity|].
    rewrite <- (app_nil_r w2). rewrite drop_white_app; auto. }
  assert (E : drop_white ((c :: cs) ++ w2) = (c :: cs) ++ w2).
  { cbn in Hc |- *. apply andb_true_iff in Hc as [Hc _]. now destruct (is_white c). }
  rewrite E, rev_app_distr, drop_white_app by (now rewrite forallb_rev).
  rewrite drop_white_id by (now rewrite forallb_rev). apply rev_involutive.
Qed.

Lemma encode_not_white l : forallb (fun c => negb (is_white c)) (map b2n (encode l)) = true.
Proof.
  induction l as [|b l IH]; [reflexivity|]. unfold encode in *; cbn [map concat].
  rewrite map_app, forallb_app, IH, andb_true_r.
  destruct (hex_pair_shape b) as (h & t & -> & _ & _ & _ & _ & _ & H1 & H2).
  cbn [map forallb]. now rewrite H1, H2.
Qed.

(** A key file with surrounding ASCII whitespace still decodes. *)
Lemma decode_from_vec_encode w1 w2 l :
  forallb (fun b => (b2n b <? 128) && is_white (b2n b))%bool w1 = true ->
  forallb (fun b => (b2n b <? 128) && is_white (b2n b))%bool w2 = true ->
  2 * lenN l < STR_MAX_LENGTH ->
  decode_from_vec (w1 ++ encode l ++ w2) = Ok l.
Proof.
  intros H1 H2 Hl.
  assert (Sp : forall w, forallb (fun b => (b2n b <? 128) && is_white (b2n b))%bool w = true ->
     forallb (fun b => b2n b <? 128) w = true /\ forallb is_white (map b2n w) = true).
  { induction w as [|b w IH]; [now split|]. cbn. intros H. apply andb_true_iff in H as [H H'].
    apply andb_true_iff in H as [-> ->]. apply IH in H' as [-> ->]. now split. }
  apply Sp in H1 as [A1 W1], H2 as [A2 W2].
  unfold decode_from_vec. rewrite utf8_dec_ascii.
  - rewrite !map_app, trim_surround; auto using encode_not_white.
    rewrite utf8_enc_ascii by apply encode_ascii. now apply decode_encode.
  - rewrite !forallb_app, A1, A2, encode_ascii. reflexivity.
Qed.

Lemma encode_inj a b : encode a = encode b -> a = b.
Proof.
  intros E. pose proof (decode_pairs_encode a) as Ha. rewrite E, decode_pairs_encode in Ha. congruence.
Qed.

Lemma encode_app a b : encode (a ++ b) = encode a ++ encode b.
Proof. unfold encode. now rewrite map_app, concat_app. Qed.
