From Verif Require Import Base Utf8 Borsh.
Require Import ZifyBool ZifyN ZifyNat.
Local Open Scope N_scope.

(** A codec is lawful when encoding round-trips with any continuation, and
    decoding succeeds only on (prefixes that are) encodings. *)
Record lawful {A} (c : codec A) : Prop := Lawful {
  rt : forall a r, wf c a = true -> dec c (enc c a ++ r) = Some (a, r);
  canon : forall b a r, dec c b = Some (a, r) -> wf c a = true /\ b = enc c a ++ r
}.
Arguments rt {A c}.
Arguments canon {A c}.

Definition nonempty {A} (c : codec A) : Prop := forall a, wf c a = true -> (1 <= length (enc c a))%nat.

Lemma lawful_slice_rt {A} (c : codec A) : lawful c ->
  forall a, wf c a = true -> from_slice c (enc c a) = Some a.
Proof.
  intros L a H. unfold from_slice. rewrite <- (app_nil_r (enc c a)), (rt L) by auto. reflexivity.
Qed.

Lemma lawful_slice_canon {A} (c : codec A) : lawful c ->
  forall b a, from_slice c b = Some a -> wf c a = true /\ b = enc c a.
Proof.
  intros L b a. unfold from_slice. destruct (dec c b) as [[x [|]]|] eqn:E; try discriminate.
  intros H; inversion H; subst. apply (canon L) in E as [E1 E2]. rewrite app_nil_r in E2. auto.
Qed.

Lemma lawful_slice_iff {A} (c : codec A) : lawful c ->
  forall b a, from_slice c b = Some a <-> (wf c a = true /\ b = enc c a).
Proof.
  intros L b a; split; [now apply lawful_slice_canon|].
  intros [H ->]. now apply lawful_slice_rt.
Qed.

Lemma lawful_inj {A} (c : codec A) : lawful c ->
  forall a a', wf c a = true -> wf c a' = true -> enc c a = enc c a' -> a = a'.
Proof.
  intros L a a' H H' E. apply (lawful_slice_rt c L) in H. apply (lawful_slice_rt c L) in H'.
  rewrite E in H. congruence.
Qed.

Lemma lawful_prefix_free {A} (c : codec A) : lawful c ->
  forall a a' r r', wf c a = true -> wf c a' = true -> enc c a ++ r = enc c a' ++ r' -> a = a' /\ r = r'.
Proof.
  intros L a a' r r' H H' E. apply (rt L a r) in H. apply (rt L a' r') in H'.
  rewrite E in H. rewrite H in H'. inversion H'; auto.
Qed.

Lemma c_uint_lawful k : lawful (c_uint k).
Proof.
  split; cbn.
  - intros a r H. rewrite take_app by apply le_enc_length. rewrite le_dec_enc by lia. reflexivity.
  - intros b a r. destruct (take k b) as [[h r']|] eqn:E; [|discriminate].
    intros H; inversion H; subst. apply take_inv in E as [-> <-].
    rewrite le_enc_dec. split; auto. pose proof (le_dec_lt h). lia.
Qed.

Lemma c_uint_nonempty k : nonempty (c_uint (S k)).
Proof. intros a _. cbn [enc c_uint]. rewrite le_enc_length. lia. Qed.

Lemma c_bool_lawful : lawful c_bool.
Proof.
  split; cbn.
  - intros [] r _; reflexivity.
  - intros [|x b] a r; [discriminate|].
    destruct (byte_eqb_spec x x00) as [->|]; [intros E; inversion E; subst; auto|].
    destruct (byte_eqb_spec x x01) as [->|]; [intros E; inversion E; subst; auto|discriminate].
Qed.

Lemma c_bool_nonempty : nonempty c_bool.
Proof. intros a _. cbn. lia. Qed.

Lemma c_unit_lawful : lawful c_unit.
Proof. split; cbn; [intros [] r _; reflexivity | intros b [] r E; inversion E; auto]. Qed.

Lemma c_fixed_lawful n : lawful (c_fixed n).
Proof.
  split; cbn.
  - intros a r H. apply take_app. lia.
  - intros b a r E. apply take_inv in E as [-> <-]. split; [lia|reflexivity].
Qed.

Lemma c_bytes_lawful : lawful c_bytes.
Proof.
  split; cbn [dec enc wf c_bytes].
  - intros a r H. rewrite <- app_assoc, take_app by apply le_enc_length.
    change U32_LIMIT with (pow256 4) in H. rewrite le_dec_enc by lia.
    rewrite lenN_app. destruct (N.ltb_spec (lenN a + lenN r) (lenN a)); [lia|].
    apply take_app. rewrite lenN_length. lia.
  - intros b a r. destruct (take 4 b) as [[h r']|] eqn:E; [|discriminate].
    destruct (N.ltb_spec (lenN r') (le_dec h)) as [|H]; [discriminate|].
    intros E2. apply take_inv in E as [-> Eh], E2 as [-> El].
    assert (lenN a = le_dec h) as -> by (rewrite lenN_length; lia).
    split; [pose proof (le_dec_lt h) as Hl; rewrite Eh in Hl; change U32_LIMIT with (pow256 4); lia|].
    rewrite <- Eh, le_enc_dec. now rewrite app_assoc.
Qed.

Lemma c_bytes_nonempty : nonempty c_bytes.
Proof. intros a _. cbn [enc c_bytes]. rewrite app_length, le_enc_length. lia. Qed.

Lemma c_string_lawful : lawful c_string.
Proof.
  destruct c_bytes_lawful as [R C]. split.
  - intros a r H. cbn [wf c_string] in H. apply andb_true_iff in H as [H1 H2].
    cbn [dec enc c_string]. specialize (R a r H1). cbn [enc c_bytes] in R. rewrite R, H2. reflexivity.
  - intros b a r. cbn [dec c_string]. destruct (dec c_bytes b) as [[s r']|] eqn:E; [|discriminate].
    destruct (utf8_valid s) eqn:V; [|discriminate]. intros X; inversion X; subst.
    apply C in E as [E1 E2]. split; [cbn in *; now rewrite E1, V | exact E2].
Qed.

Lemma c_string_nonempty : nonempty c_string.
Proof. intros a _. cbn [enc c_string]. rewrite app_length, le_enc_length. lia. Qed.

Lemma c_pair_lawful {A B} (ca : codec A) (cb : codec B) :
  lawful ca -> lawful cb -> lawful (c_pair ca cb).
Proof.
  intros [Ra Ca] [Rb Cb]. split; cbn.
  - intros [x y] r H. cbn in *. apply andb_true_iff in H as [H1 H2].
    rewrite <- app_assoc, Ra, Rb by auto. reflexivity.
  - intros b [x y] r. destruct (dec ca b) as [[x' r']|] eqn:E; [|discriminate].
    destruct (dec cb r') as [[y' r'']|] eqn:E2; [|discriminate].
    intros X; inversion X; subst; cbn. apply Ca in E as [-> ->]. apply Cb in E2 as [-> ->].
    split; [reflexivity|now rewrite app_assoc].
Qed.

Lemma c_pair_nonempty_l {A B} (ca : codec A) (cb : codec B) : nonempty ca -> nonempty (c_pair ca cb).
Proof.
  intros H [x y] W. cbn in W. apply andb_true_iff in W as [W _]. cbn [enc c_pair fst snd].
  rewrite app_length. specialize (H x W). lia.
Qed.

Lemma dec_list_rt {A} (ca : codec A) (L : lawful ca) (NE : nonempty ca) :
  forall l fuel r, forallb (wf ca) l = true -> (length (concat (map (enc ca) l)) <= fuel)%nat ->
  dec_list ca fuel (lenN l) (concat (map (enc ca) l) ++ r) = Some (l, r).
Proof.
  induction l as [|x l IH]; intros fuel r W F.
  - destruct fuel; reflexivity.
  - cbn [forallb] in W. apply andb_true_iff in W as [Wx W].
    cbn [map] in *; cbn [concat] in *. rewrite app_length in F. pose proof (NE x Wx).
    destruct fuel as [|f]; [lia|]. cbn [dec_list].
    replace (lenN (x :: l) =? 0) with false by (rewrite lenN_length; cbn [length]; lia).
    rewrite <- app_assoc, (rt L) by auto.
    replace (lenN (x :: l) - 1) with (lenN l) by (rewrite !lenN_length; cbn [length]; lia).
    rewrite IH by (auto; lia). reflexivity.
Qed.

Lemma dec_list_canon {A} (ca : codec A) (L : lawful ca) :
  forall fuel n b l r, dec_list ca fuel n b = Some (l, r) ->
  n = lenN l /\ forallb (wf ca) l = true /\ b = concat (map (enc ca) l) ++ r.
Proof.
  induction fuel as [|f IH]; intros n b l r; cbn [dec_list]; destruct (N.eqb_spec n 0) as [->|Hn].
  - intros E; inversion E; subst. repeat split.
  - discriminate.
  - intros E; inversion E; subst. repeat split.
  - destruct (dec ca b) as [[x r']|] eqn:E; [|discriminate].
    destruct (dec_list ca f (n - 1) r') as [[xs r'']|] eqn:E2; [|discriminate].
    intros X; inversion X; subst. apply IH in E2 as (Hl & Hw & ->). apply (canon L) in E as [Wx ->].
    split; [rewrite lenN_length in *; cbn [length]; lia|].
    split; [cbn; now rewrite Wx|]. cbn [map concat]. now rewrite app_assoc.
Qed.

Lemma c_vec_lawful {A} (ca : codec A) : lawful ca -> nonempty ca -> lawful (c_vec ca).
Proof.
  intros L NE. split; cbn [dec enc wf c_vec].
  - intros a r H. apply andb_true_iff in H as [H1 H2].
    rewrite <- app_assoc, take_app by apply le_enc_length.
    change U32_LIMIT with (pow256 4) in H1. rewrite le_dec_enc by lia.
    apply dec_list_rt; auto. rewrite app_length. lia.
  - intros b a r. destruct (take 4 b) as [[h r']|] eqn:E; [|discriminate].
    intros E2. apply take_inv in E as [-> Eh]. apply dec_list_canon in E2 as (Hn & Hw & ->); auto.
    rewrite Hw, <- Hn. pose proof (le_dec_lt h) as Hl. rewrite Eh in Hl.
    split; [change U32_LIMIT with (pow256 4); lia|].
    rewrite <- Eh, le_enc_dec. now rewrite app_assoc.
Qed.

Lemma c_vec_nonempty {A} (ca : codec A) : nonempty (c_vec ca).
Proof. intros a _. cbn [enc c_vec]. rewrite app_length, le_enc_length. lia. Qed.

Lemma c_option_lawful {A} (ca : codec A) : lawful ca -> lawful (c_option ca).
Proof.
  intros [R C]. split; cbn [dec enc wf c_option].
  - intros [a|] r H; cbn [app].
    + rewrite (R a r H). reflexivity.
    + reflexivity.
  - intros [|x b] o r; [discriminate|].
    destruct (byte_eqb_spec x x00) as [->|]; [intros E; inversion E; subst; auto|].
    destruct (byte_eqb_spec x x01) as [->|]; [|discriminate].
    destruct (dec ca b) as [[a r']|] eqn:E; [|discriminate].
    intros X; inversion X; subst. apply C in E as [-> ->]. auto.
Qed.

Lemma c_option_nonempty {A} (ca : codec A) : nonempty (c_option ca).
Proof. intros [a|] _; cbn; lia. Qed.

Lemma c_iso_lawful {A B} (f : A -> B) (g : B -> A) (ca : codec A) :
  (forall b, f (g b) = b) -> (forall a, g (f a) = a) -> lawful ca -> lawful (c_iso f g ca).
Proof.
  intros FG GF [R C]. split; cbn [dec enc wf c_iso].
  - intros b r H. rewrite (R _ _ H), FG. reflexivity.
  - intros l b r. destruct (dec ca l) as [[a r']|] eqn:E; [|discriminate].
    intros X; inversion X; subst. rewrite GF. now apply C in E.
Qed.

Lemma c_iso_nonempty {A B} (f : A -> B) (g : B -> A) (ca : codec A) : nonempty ca -> nonempty (c_iso f g ca).
Proof. intros H b W. apply H, W. Qed.

Lemma c_check_lawful {A} ok (ca : codec A) : lawful ca -> lawful (c_check ok ca).
Proof.
  intros [R C]. split; cbn [dec enc wf c_check].
  - intros a r H. apply andb_true_iff in H as [H1 H2]. rewrite R by auto. now rewrite H2.
  - intros b a r. destruct (dec ca b) as [[x r']|] eqn:E; [|discriminate].
    destruct (ok x) eqn:O; [|discriminate]. intros X; inversion X; subst.
    apply C in E as [-> ->]. now rewrite O.
Qed.

Record tlawful {B} (t : tcodec B) : Prop := TLawful {
  trt : forall b r, twf t b = true -> tdec t (fst (tenc t b)) (snd (tenc t b) ++ r) = Some (b, r);
  tcanon : forall n l b r, tdec t n l = Some (b, r) ->
    twf t b = true /\ fst (tenc t b) = n /\ l = snd (tenc t b) ++ r
}.

Lemma t_nil_lawful : tlawful t_nil.
Proof. split; [intros []|intros n l []]. Qed.

Lemma t_cons_lawful {A B} (ca : codec A) (tb : tcodec B) : lawful ca -> tlawful tb -> tlawful (t_cons ca tb).
Proof.
  intros [R C] [TR TC]. split.
  - intros [a|b] r H; cbn [twf tdec tenc t_cons fst snd] in *.
    + cbn. now rewrite R.
    + replace (N.succ (fst (tenc tb b)) =? 0) with false by lia.
      replace (N.succ (fst (tenc tb b)) - 1) with (fst (tenc tb b)) by lia.
      now rewrite TR.
  - intros n l s r; cbn [tdec t_cons]. destruct (N.eqb_spec n 0) as [->|Hn].
    + destruct (dec ca l) as [[a r']|] eqn:E; [|discriminate]. intros X; inversion X; subst.
      apply C in E as [H ->]. cbn. auto.
    + destruct (tdec tb (n - 1) l) as [[b r']|] eqn:E; [|discriminate]. intros X; inversion X; subst.
      apply TC in E as (H1 & H2 & ->). cbn. rewrite H1, H2. repeat split; lia.
Qed.

Lemma c_enum_lawful {B} (t : tcodec B) : tlawful t -> lawful (c_enum t).
Proof.
  intros [R C]. split; cbn [dec enc wf c_enum].
  - intros b r H. apply andb_true_iff in H as [H1 H2]. cbn [app].
    rewrite b2n_n2b, N.mod_small by lia. now apply R.
  - intros [|x l] b r; [discriminate|]. intros E. apply C in E as (H1 & H2 & ->).
    rewrite H1, H2. cbn [app]. rewrite n2b_b2n. pose proof (b2n_lt x). split; [lia|reflexivity].
Qed.

Lemma c_enum_nonempty {B} (t : tcodec B) : nonempty (c_enum t).
Proof. intros b _. cbn. lia. Qed.
