(** C33: the exact language the hex decoder accepts, plus signs included, for
    every input text.  The strict reading (hexadecimal digits only) is refuted
    in PropsCodec; this file says precisely what is accepted instead. *)
From Verif Require Import Base Utf8 Hex SpecHex HexProofs.
Local Open Scope N_scope.

(** Specification.  Two characters per byte; each pair is two hexadecimal
    digits, most significant first, or a plus sign and one digit. *)
Inductive signed_hex_text : bytes -> bytes -> Prop :=
| signed_nil : signed_hex_text [] []
| signed_two h l vh vl s b :
    digit_value h vh -> digit_value l vl -> signed_hex_text s b ->
    signed_hex_text (h :: l :: s) (n2b (16 * N.of_nat vh + N.of_nat vl) :: b)
| signed_plus l vl s b :
    digit_value l vl -> signed_hex_text s b ->
    signed_hex_text ("+"%byte :: l :: s) (n2b (N.of_nat vl) :: b).

Lemma digit_value_16 c v : digit_value c v <-> digit16 c = Some (N.of_nat v).
Proof.
  rewrite digit16_spec, Nat2N.id. split; [|tauto]. intros H. split; auto.
  assert (v < length lower_digits \/ v < length upper_digits)%nat as Hlt
    by (destruct H as [H|H]; [left|right]; apply nth_error_Some; congruence).
  change (length lower_digits) with 16%nat in Hlt; change (length upper_digits) with 16%nat in Hlt; lia.
Qed.

Lemma digit16_value c v : digit16 c = Some v -> digit_value c (N.to_nat v).
Proof. intros H. now apply digit16_spec in H as [_ H]. Qed.

Lemma signed_sound n : forall s b, (length s <= n)%nat ->
  Nat.even (length s) = true -> decode_pairs s = Ok b -> signed_hex_text s b.
Proof.
  induction n as [|n IH]; intros s b Hn He E.
  { destruct s; [|cbn in Hn; lia]. inversion E. constructor. }
  destruct s as [|a [|c s]]; cbn [decode_pairs] in E; [inversion E; constructor|discriminate|].
  unfold decode_pair in E.
  destruct (verify_ascii a); [|discriminate]. destruct (verify_ascii c); [|discriminate].
  cbn [negb] in E. unfold from_str_radix16_2 in E.
  destruct (byte_eqb_spec a "+") as [->|Hne].
  - destruct (digit16 c) as [vc|] eqn:Ec; [|discriminate].
    destruct (decode_pairs s) as [r|] eqn:Er; [|discriminate]. inversion E; subst.
    apply digit16_value in Ec. rewrite <- (N2Nat.id vc). constructor; auto.
    apply IH; auto. cbn in Hn; lia.
  - destruct (digit16 a) as [va|] eqn:Ea; [|discriminate].
    destruct (digit16 c) as [vc|] eqn:Ec; [|discriminate].
    destruct (decode_pairs s) as [r|] eqn:Er; [|discriminate]. inversion E; subst.
    apply digit16_value in Ea, Ec.
    rewrite <- (N2Nat.id va), <- (N2Nat.id vc). constructor; auto.
    apply IH; auto. cbn in Hn; lia.
Qed.

Lemma signed_complete s b : signed_hex_text s b -> decode_pairs s = Ok b.
Proof.
  induction 1 as [|h l vh vl s b Hh Hl Ht IH|l vl s b Hl Ht IH]; [reflexivity| |];
    cbn [decode_pairs]; unfold decode_pair; apply digit_value_16 in Hl;
    destruct (digit_ascii _ _ Hl) as [-> _].
  - apply digit_value_16 in Hh. destruct (digit_ascii _ _ Hh) as [-> Hp]. cbn [negb].
    unfold from_str_radix16_2. destruct (byte_eqb_spec h "+"); [congruence|]. now rewrite Hh, Hl, IH.
  - change (verify_ascii "+") with true. cbn [negb]. unfold from_str_radix16_2.
    rewrite byte_eqb_refl. now rewrite Hl, IH.
Qed.

Lemma signed_length s b : signed_hex_text s b -> length s = (2 * length b)%nat.
Proof. induction 1; cbn [length]; lia. Qed.

(** a spelled text never starts with the prefix, so removing it is unambiguous *)
Lemma signed_not_prefixed r b : ~ signed_hex_text ("0" :: "x" :: r)%byte b.
Proof.
  intros H. apply signed_complete in H. discriminate H.
Qed.

(** The decoder: success exactly on an optional [0x] followed by such a text of
    fewer than 256 MiB characters, with the spelled bytes. *)
Theorem c33_hex_decode_language : forall s b,
  decode s = Ok b <->
  exists t, (s = t \/ s = "0" :: "x" :: t)%byte /\ signed_hex_text t b /\
            N.of_nat (length t) < 256 * 1024 * 1024.
Proof.
  intros s b. split.
  - intros E. destruct s as [|x [|y s]].
    + injection E as <-. exists []. split; [now left|]. split; [constructor|cbn; lia].
    + discriminate.
    + unfold decode in E. exists (strip_0x (x :: y :: s)).
      split.
      { cbn [strip_0x]. destruct (byte_eqb_spec x "0") as [->|]; [|now left].
        destruct (byte_eqb_spec y "x") as [->|]; [now right|now left]. }
      cbv zeta in E. set (t := strip_0x (x :: y :: s)) in *.
      destruct (N.even (lenN t)) eqn:Ee; destruct (N.ltb_spec (lenN t) STR_MAX_LENGTH) as [L|L]; try discriminate.
      rewrite even_lenN in Ee. split; [eapply signed_sound; eauto|].
      rewrite lenN_length in L. exact L.
  - intros (t & Hs & Ht & Hl).
    assert (Es : strip_0x s = t /\ (s = [] \/ exists x y r, s = x :: y :: r)).
    { destruct Hs as [-> | ->].
      - destruct t as [|x [|y r]]; [split; [reflexivity|now left]|inversion Ht|].
        split; [|right; now exists x, y, r]. cbn [strip_0x].
        destruct (byte_eqb_spec x "0") as [->|]; [|reflexivity].
        destruct (byte_eqb_spec y "x") as [->|]; [|reflexivity].
        elim (signed_not_prefixed _ _ Ht).
      - split; [reflexivity|right; now exists "0"%byte, "x"%byte, t]. }
    destruct Es as [Es Sh]. pose proof (signed_length _ _ Ht) as HL.
    pose proof (signed_complete _ _ Ht) as Hd.
    destruct Sh as [-> |(x & y & r & ->)].
    + cbn in Es. subst t. inversion Ht; subst. reflexivity.
    + unfold decode. rewrite Es. cbv zeta. rewrite even_lenN, HL.
      replace (Nat.even (2 * length b)) with true by (symmetry; apply Nat.even_spec; now exists (length b)).
      rewrite lenN_length.
      destruct (N.ltb_spec (N.of_nat (length t)) STR_MAX_LENGTH) as [L|L]; [exact Hd|].
      exfalso. change STR_MAX_LENGTH with (256 * 1024 * 1024) in L. lia.
Qed.
Print Assumptions c33_hex_decode_language.

(** Decoding into a buffer of [n] bytes: success exactly on texts of [n] bytes. *)
Theorem c33_fixed_size_exact : forall s n b, 2 * n + 2 < 256 * 1024 * 1024 ->
  (decode_to_buf s n = Ok b <-> decode s = Ok b /\ N.of_nat (length b) = n).
Proof.
  intros s n b L. destruct (N.ltb_spec (lenN (strip_0x s)) STR_MAX_LENGTH) as [Ls|Ls].
  - rewrite (decode_to_buf_decode s n Ls), lenN_length. reflexivity.
  - change STR_MAX_LENGTH with (256 * 1024 * 1024) in Ls. split.
    + intros E. exfalso. unfold decode_to_buf in E. destruct s as [|x [|y s]].
      * destruct (n =? 0); [|discriminate]. cbn in Ls. lia.
      * discriminate.
      * cbv zeta in E. destruct (negb (N.even _)); [discriminate|].
        destruct (N.eqb_spec (lenN (strip_0x (x :: y :: s)) / 2) n) as [<-|]; [|discriminate].
        cbn [negb] in E. clear E. pose proof (N.div_mod (lenN (strip_0x (x :: y :: s))) 2 ltac:(lia)).
        pose proof (N.mod_lt (lenN (strip_0x (x :: y :: s))) 2 ltac:(lia)). lia.
    + intros [E _]. exfalso. apply c33_hex_decode_language in E as (t & Hs & Ht & Hl).
      rewrite lenN_length in Ls. destruct Hs as [-> | ->].
      * assert (length (strip_0x t) <= length t)%nat.
        { destruct t as [|x [|y t]]; cbn [strip_0x]; [lia|lia|]. destruct (byte_eqb x "0"); [|reflexivity]. destruct (byte_eqb y "x"); [|reflexivity]. cbn [length]. apply le_S, le_S, le_n. }
        lia.
      * cbn [strip_0x] in Ls. cbn in Ls. lia.
Qed.
Print Assumptions c33_fixed_size_exact.

Example c33_language_nontrivial :
  decode (bs "0x+aFf") = Ok [x0a; xff] /\ signed_hex_text (bs "+aFf") [x0a; xff] /\
  decode_to_buf (bs "0aff") 2 = Ok [x0a; xff] /\ (forall b, decode_to_buf (bs "0a") 2 <> Ok b) /\
  (forall b, decode (bs "f+") <> Ok b) /\ (forall b, decode (bs "-a") <> Ok b).
Proof.
  split; [reflexivity|]. split; [|split; [reflexivity|split; [intros b; discriminate|split; intros b; discriminate]]].
  apply (signed_plus "a" 10 (bs "Ff") [xff]); [left; reflexivity|].
  apply (signed_two "F" "f" 15 15 [] []); [right; reflexivity|left; reflexivity|constructor].
Qed.
