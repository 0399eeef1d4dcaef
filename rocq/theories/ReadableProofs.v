From Verif Require Import Base Utf8 Json Pool EnclaveHost SpecReadable.
From Coq Require Import ZifyBool ZifyN ZifyNat.
Local Open Scope N_scope.

Lemma scalar_iff c : is_scalar c = true <-> (c < 0xD800 \/ 0xE000 <= c < 0x110000).
Proof. unfold is_scalar. lia. Qed.
Lemma begins_iff w : begins_char w <-> exists x c, utf8_next (w ++ x) = Some (c, []).
Proof.
  split.
  - intros (x & c & S & E). exists x, c. rewrite E. rewrite <- (app_nil_r (utf8_char c)). apply utf8_next_enc, scalar_iff, S.
  - intros (x & c & H). apply utf8_next_inv in H as [S E]. rewrite app_nil_r in E. exists x, c. split; [now apply scalar_iff|exact E].
Qed.
Lemma no_char l : utf8_next l = None <-> (forall c r, a_char c -> l <> c ++ r).
Proof.
  split.
  - intros H c r (n & S & ->) ->. rewrite utf8_next_enc in H by now apply scalar_iff. discriminate.
  - intros H. destruct (utf8_next l) as [[c r]|] eqn:E; [|reflexivity]. apply utf8_next_inv in E as [S ->]. exfalso.
    apply (H (utf8_char c) r); [|reflexivity]. exists c. split; [now apply scalar_iff|reflexivity].
Qed.
Lemma bad_len_le l : l <> [] -> utf8_next l = None -> (1 <= bad_len l <= length l)%nat.
Proof.
  intros Ne _. destruct l as [|b0 [|b1 r]]; [congruence|cbn; lia|]. unfold bad_len.
  repeat match goal with |- context [if ?b then _ else _] => destruct b end; cbn [length]; try lia; destruct r as [|b2 r]; cbn [length];
    repeat match goal with |- context [if ?b then _ else _] => destruct b end; lia.
Qed.
Lemma cont_within b : is_cont b = true <-> 128 <= b2n b < 192. Proof. unfold is_cont. lia. Qed.

Lemma begin2 b0 b1 : (let n0 := b2n b0 in
    let second := if (224 =? n0) then within 160 191 b1 else if (237 =? n0) then within 128 159 b1
                  else if (240 =? n0) then within 144 191 b1 else if (244 =? n0) then within 128 143 b1 else within 128 191 b1 in
    ((224 <=? n0) && (n0 <? 240) && second = true -> exists x c, utf8_next ([b0; b1] ++ x) = Some (c, []))
    /\ ((240 <=? n0) && (n0 <? 245) && second = true -> forall b2, is_cont b2 = true -> exists x c, utf8_next ([b0; b1; b2] ++ x) = Some (c, []))).
Proof.
  cbv zeta. unfold within. pose proof (b2n_lt b1) as L1. split.
  - intros H. exists [x80], ((b2n b0 - 224) * 4096 + (b2n b1 - 128) * 64). cbn [app utf8_next]. change (is_cont x80) with true. change (b2n x80 - 128) with 0.
    unfold is_cont, is_scalar.
    destruct (224 =? b2n b0) eqn:A; [|destruct (237 =? b2n b0) eqn:B; [|destruct (240 =? b2n b0) eqn:C; [|destruct (244 =? b2n b0) eqn:D]]];
    replace (b2n b0 <? 128) with false by lia; replace (b2n b0 <? 192) with false by lia; replace (b2n b0 <? 224) with false by lia; replace (b2n b0 <? 240) with true by lia;
    match goal with |- (if ?g then _ else _) = _ => replace g with true by lia end; f_equal; f_equal; lia.
  - intros H b2 K. apply cont_within in K. exists [x80], ((b2n b0 - 240) * 262144 + (b2n b1 - 128) * 4096 + (b2n b2 - 128) * 64). cbn [app utf8_next]. change (is_cont x80) with true. change (b2n x80 - 128) with 0.
    unfold is_cont, is_scalar.
    destruct (224 =? b2n b0) eqn:A; [|destruct (237 =? b2n b0) eqn:B; [|destruct (240 =? b2n b0) eqn:C; [|destruct (244 =? b2n b0) eqn:D]]];
    replace (b2n b0 <? 128) with false by lia; replace (b2n b0 <? 192) with false by lia; replace (b2n b0 <? 224) with false by lia; replace (b2n b0 <? 240) with false by lia; replace (b2n b0 <? 248) with true by lia;
    match goal with |- (if ?g then _ else _) = _ => replace g with true by lia end; f_equal; f_equal; lia.
Qed.
Lemma bad_begins l : l <> [] -> utf8_next l = None -> length (firstn (bad_len l) l) = 1%nat \/ begins_char (firstn (bad_len l) l).
Proof.
  intros Ne H. destruct l as [|b0 [|b1 r]]; [congruence|now left|].
  pose proof (begin2 b0 b1) as B. cbv zeta in B. unfold bad_len. 
  set (second := if (224 =? b2n b0) then _ else _) in *. clearbody second.
  destruct B as [B2 B3].
  destruct ((224 <=? b2n b0) && (b2n b0 <? 240)) eqn:E.
  - destruct second; [|now left]. right. cbn [firstn]. apply begins_iff, B2. reflexivity.
  - destruct ((240 <=? b2n b0) && (b2n b0 <? 245)) eqn:F; [|now left]. destruct second; [|now left]. right. specialize (B3 eq_refl).
    assert (T : begins_char [b0; b1]).
    { destruct (B3 x80 eq_refl) as (x & c & X). apply begins_iff. exists (x80 :: x), c. exact X. }
    destruct r as [|b2 r]; [exact T|]. destruct (is_cont b2) eqn:K; [|exact T]. cbn [firstn]. apply begins_iff, B3, K.
Qed.
Lemma bad_max l y z : l <> [] -> utf8_next l = None -> y <> [] -> skipn (bad_len l) l = y ++ z -> ~ begins_char (firstn (bad_len l) l ++ y).
Proof.
  intros Ne H Ny E B. apply begins_iff in B as (x & c & B). rewrite <- app_assoc in B.
  destruct l as [|b0 [|b1 r]]; [congruence|destruct y; [congruence|discriminate E]|].
  destruct y as [|y0 y]; [congruence|]. cbn [app] in E, B. remember (y ++ x) as q eqn:Q. clear Q. remember (y ++ z) as q' eqn:Q. clear Q Ne Ny.
  assert (S2 : bad_len (b0 :: b1 :: r) = 1%nat -> utf8_next (b0 :: b1 :: q) = Some (c, [])).
  { intros L. rewrite L in *. cbn [skipn firstn app] in *. injection E as <- _. exact B. }
  assert (S3 : bad_len (b0 :: b1 :: r) = 2%nat -> exists b2, hd_error r = Some b2 /\ utf8_next (b0 :: b1 :: b2 :: q) = Some (c, [])).
  { intros L. rewrite L in *. cbn [skipn firstn app] in *. subst r. now exists y0. }
  assert (S4 : bad_len (b0 :: b1 :: r) = 3%nat -> exists b2 b3, hd_error r = Some b2 /\ hd_error (tl r) = Some b3 /\ utf8_next (b0 :: b1 :: b2 :: b3 :: q) = Some (c, [])).
  { intros L. rewrite L in *. destruct r as [|b2 r]; [discriminate E|]. cbn [skipn firstn app] in *. subst r. now exists b2, y0. }
  clear B E. pose proof (b2n_lt b0) as L0. pose proof (b2n_lt b1) as L1. unfold bad_len in *. cbn [utf8_next] in *. unfold is_cont, is_scalar, within in *.
  destruct (b2n b0 <? 128) eqn:N1; [discriminate|].
  destruct (b2n b0 <? 192) eqn:N2.
  { replace (224 <=? b2n b0) with false in * by lia. replace (240 <=? b2n b0) with false in * by lia. discriminate (S2 eq_refl). }
  destruct (b2n b0 <? 224) eqn:N3.
  { replace (224 <=? b2n b0) with false in * by lia. replace (240 <=? b2n b0) with false in * by lia. cbn [andb] in S2. specialize (S2 eq_refl).
    destruct (_ && _); discriminate. }
  replace (224 <=? b2n b0) with true in * by lia.
  destruct (b2n b0 <? 240) eqn:N4.
  - cbn [andb] in *. replace (240 =? b2n b0) with false in * by lia. replace (244 =? b2n b0) with false in * by lia.
    destruct (if 224 =? b2n b0 then _ else _) eqn:SEC.
    + destruct (S3 eq_refl) as (b2 & Hr & K). destruct r as [|b2' r]; [discriminate Hr|]. injection Hr as ->. destruct (_ && _); discriminate.
    + specialize (S2 eq_refl). destruct q as [|b2 q]; [discriminate S2|]. pose proof (b2n_lt b2) as L2.
      destruct (_ && _) eqn:K in S2; [|discriminate S2]. clear - K SEC N3 N4 L1 L2.
      destruct (224 =? b2n b0) eqn:A; [lia|]. destruct (237 =? b2n b0) eqn:D; lia.
  - replace (240 <=? b2n b0) with true in * by lia. replace (224 =? b2n b0) with false in * by lia. replace (237 =? b2n b0) with false in * by lia. cbn [andb] in *.
    destruct (b2n b0 <? 248) eqn:N5.
    2:{ replace (b2n b0 <? 245) with false in * by lia. discriminate (S2 eq_refl). }
    destruct (b2n b0 <? 245) eqn:N6.
    + destruct (if 240 =? b2n b0 then _ else _) eqn:SEC.
      * destruct r as [|b2 r].
        { destruct (S3 eq_refl) as (b2 & Hr & _). discriminate Hr. }
        destruct ((128 <=? b2n b2) && (b2n b2 <? 192)) eqn:K2.
        -- destruct (S4 eq_refl) as (b2' & b3 & Hr & Hr2 & K). cbn [hd_error tl] in *. injection Hr as <-. destruct r as [|b3' r]; [discriminate Hr2|]. injection Hr2 as ->.
           destruct (_ && _) eqn:Z in H; [discriminate|]. rewrite K2, Z in K. discriminate.
        -- destruct (S3 eq_refl) as (b2' & Hr & K). cbn [hd_error] in Hr. injection Hr as <-. destruct q as [|b3 q]; [discriminate K|].
           rewrite K2 in K. rewrite Bool.andb_false_r in K. discriminate K.
      * specialize (S2 eq_refl). destruct q as [|b2 [|b3 q]]; try discriminate S2. pose proof (b2n_lt b2) as L2. pose proof (b2n_lt b3) as L3.
        destruct (_ && _) eqn:K in S2; [|discriminate S2]. clear - K SEC N4 N6 L1 L2 L3.
        destruct (240 =? b2n b0) eqn:A; [lia|]. destruct (244 =? b2n b0) eqn:D; lia.
    + specialize (S2 eq_refl). destruct q as [|b2 [|b3 q]]; try discriminate S2. pose proof (b2n_lt b2) as L2. pose proof (b2n_lt b3) as L3.
      destruct (_ && _) eqn:K in S2; [|discriminate S2]. clear - K N6 L1 L2 L3. lia.
Qed.
Lemma bad_broken l : l <> [] -> utf8_next l = None -> broken (firstn (bad_len l) l) (skipn (bad_len l) l).
Proof.
  intros Ne H. pose proof (bad_len_le l Ne H) as L. split; [|split; [|split]].
  - intros X. apply (f_equal (@length byte)) in X. rewrite firstn_length in X. cbn [length] in X. lia.
  - now apply bad_begins.
  - rewrite firstn_skipn. now apply no_char.
  - intros y z Ny E. eapply bad_max; eauto.
Qed.

Lemma lossy_readable fuel : forall l, (length l <= fuel)%nat -> readable l (lossy_fuel fuel l).
Proof.
  induction fuel as [|f IH]; intros l L; [destruct l; [constructor|cbn in L; lia]|]. destruct l as [|b l]; [constructor|].
  cbn [lossy_fuel]. destruct (utf8_next (b :: l)) as [[c r]|] eqn:E.
  - pose proof (utf8_next_inv _ _ _ E) as [S E2]. assert (K : (length r <= f)%nat).
    { apply (f_equal (@length byte)) in E2. rewrite app_length in E2. cbn [length] in *.
      assert (length (utf8_char c) <> 0)%nat by (unfold utf8_char; repeat match goal with |- context [if ?b then _ else _] => destruct b end; discriminate). lia. }
    rewrite E2. apply rd_char; [exists c; split; [now apply scalar_iff|reflexivity]|]. now apply IH.
  - assert (Ne : b :: l <> []) by discriminate. pose proof (bad_len_le _ Ne E) as K.
    rewrite <- (firstn_skipn (bad_len (b :: l)) (b :: l)) at 1. apply rd_bad; [now apply bad_broken|]. apply IH.
    rewrite skipn_length. cbn [length] in *. lia.
Qed.
Lemma broken_longer w1 l1 w2 l2 : broken w1 l1 -> broken w2 l2 -> w1 ++ l1 = w2 ++ l2 -> (length w2 <= length w1)%nat.
Proof.
  intros (N1 & _ & _ & M1) (N2 & B2 & _) E. destruct (Nat.le_gt_cases (length w2) (length w1)) as [|G]; [assumption|exfalso].
  assert (X : w2 = w1 ++ skipn (length w1) w2).
  { rewrite <- (firstn_skipn (length w1) w2) at 1. f_equal. apply (f_equal (firstn (length w1))) in E.
    rewrite firstn_app, Nat.sub_diag, firstn_O, app_nil_r, firstn_all in E. rewrite firstn_app in E.
    replace (length w1 - length w2)%nat with 0%nat in E by lia. rewrite firstn_O, app_nil_r in E. now symmetry. }
  destruct B2 as [B2|B2]; [destruct w1; [congruence|cbn in *; lia]|]. set (y := skipn (length w1) w2) in *.
  apply (M1 y l2); [intros Y; rewrite Y, app_nil_r in X; rewrite X in G; lia| |now rewrite <- X].
  rewrite X, <- app_assoc in E. now apply app_inv_head in E.
Qed.
Lemma readable_fun l t : readable l t -> forall u, readable l u -> t = u.
Proof.
  intros H. induction H as [|c l t C H IH|w l t B H IH]; intros u U.
  - inversion U as [|c l t C X E1 E2|w l t B X E1 E2]; [reflexivity|..].
    + destruct C as (n & _ & ->). exfalso. apply app_eq_nil in E1 as [E1 _]. revert E1. unfold utf8_char.
      repeat match goal with |- context [if ?b then _ else _] => destruct b end; discriminate.
    + apply app_eq_nil in E1 as [E1 _]. destruct B as (N & _). congruence.
  - inversion U as [E1|c2 l2 t2 C2 X E1 E2|w l2 t2 B X E1 E2].
    + exfalso. destruct C as (n & _ & ->). symmetry in E1. apply app_eq_nil in E1 as [E1 _]. revert E1. unfold utf8_char.
      repeat match goal with |- context [if ?b then _ else _] => destruct b end; discriminate.
    + destruct C as (n & S & ->), C2 as (m & S2 & ->). apply scalar_iff in S, S2. apply (f_equal utf8_next) in E1.
      rewrite !utf8_next_enc in E1 by assumption. injection E1 as -> ->. f_equal. now apply IH.
    + exfalso. destruct B as (_ & _ & B & _). exact (B _ _ C E1).
  - inversion U as [E1|c2 l2 t2 C2 X E1 E2|w2 l2 t2 B2 X E1 E2].
    + symmetry in E1. apply app_eq_nil in E1 as [E1 _]. destruct B as (N & _). congruence.
    + exfalso. destruct B as (_ & _ & B & _). exact (B _ _ C2 (eq_sym E1)).
    + assert (L : length w = length w2).
      { pose proof (broken_longer _ _ _ _ B B2 (eq_sym E1)). pose proof (broken_longer _ _ _ _ B2 B E1). lia. }
      apply (f_equal (firstn (length w))) in E1 as E3. rewrite L in E3 at 1. rewrite !firstn_app, !Nat.sub_diag, !firstn_O, !app_nil_r, !firstn_all in E3. subst w2.
      apply app_inv_head in E1. subst l2. f_equal. now apply IH.
Qed.
