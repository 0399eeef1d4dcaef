(** Laws of the combinators of JsonComb.v. *)
From Verif Require Import Base Utf8 Hex Json JsonProofs NormProofs Types TypesJson TypesJsonProofs TypesJsonLaws StorageProofs JsonComb.
Require Import ZifyBool ZifyN ZifyNat.
Local Open Scope N_scope.

Lemma fok_mono k k' o o' : (k <= k')%nat -> fok k o o' -> fok k' o o'.
Proof.
  intros L. destruct o as [v|], o' as [v'|]; cbn; auto. unfold vok. intros ((A & B & C) & (D & E & F) & N).
  repeat split; auto; intros d Hd; (apply C || apply F); lia.
Qed.
Lemma F2_impl {A B} (P Q : A -> B -> Prop) l m : (forall a b, P a b -> Q a b) -> Forall2 P l m -> Forall2 Q l m.
Proof. intros H F. induction F; constructor; auto. Qed.
Lemma F2_length {A B} (P : A -> B -> Prop) l m : Forall2 P l m -> length l = length m.
Proof. intros F. induction F; cbn; auto. Qed.
Definition flawful {A} (f : jfields A) : Prop :=
  forall a, fw f a = true -> length (fs f a) = length (fn f) /\
    exists os, Forall2 (fok (fneed f)) (fs f a) os /\
      forall d, (fneed f < d)%nat -> fd f d (fs f a) = Some a /\ fd f d os = Some a.

Lemma one_fok {A} (c : jcodec A) a : jlawful c -> jwf c a = true ->
  exists n, fok (jneed c) (Some (jser c a)) (Some n) /\ forall d, (jneed c < d)%nat -> req c d (Some (jser c a)) = Some a /\ req c d (Some n) = Some a.
Proof.
  intros L W. destruct (L a W) as [G (n & N & Gn)]. exists n. split; [apply (fok_good c a n); auto|].
  intros d Hd. cbn [req]. split; (eapply good_dec; [eassumption|lia]).
Qed.
Lemma opt_fok {A} (c : jcodec A) o : jlawful c -> opt_wf c o = true ->
  exists n, fok (jneed c) (opt_ser c o) n /\ forall d, (jneed c < d)%nat -> opt_dec c d (opt_ser c o) = Some o /\ opt_dec c d n = Some o.
Proof.
  intros L W. destruct o as [a|]; [|exists None; split; [exact I|intros; split; reflexivity]].
  destruct (L a W) as [G (n & N & Gn)]. exists (Some n). split; [apply (fok_good c a n); auto|].
  intros d Hd. cbn [opt_ser opt_dec].
  assert (D1 : jdec c (pred d) (jser c a) = Some a) by (eapply good_dec; [eassumption|lia]).
  assert (D2 : jdec c (pred d) n = Some a) by (eapply good_dec; [eassumption|lia]).
  destruct G as (_ & G & _), Gn as (_ & Gn & _). split.
  - destruct (jser c a); try congruence; now rewrite D1.
  - destruct n; try congruence; now rewrite D2.
Qed.
Lemma f_one_law {A} n (c : jcodec A) : jlawful c -> flawful (f_one n c).
Proof.
  intros L a W. split; [reflexivity|]. destruct (one_fok c a L W) as (x & F & D). exists [Some x].
  split; [constructor; [exact F|constructor]|]. exact D.
Qed.
Lemma f_opt1_law {A} n (c : jcodec A) : jlawful c -> flawful (f_opt1 n c).
Proof.
  intros L a W. split; [reflexivity|]. destruct (opt_fok c a L W) as (x & F & D). exists [x].
  split; [constructor; [exact F|constructor]|]. exact D.
Qed.
Lemma f_cons_law {A B} n (c : jcodec A) (f : jfields B) : jlawful c -> flawful f -> flawful (f_cons n c f).
Proof.
  intros L LF [a b] W. cbn [f_cons fw fst snd] in W. apply andb_true_iff in W as [Wa Wb].
  destruct (one_fok c a L Wa) as (x & F & D). destruct (LF b Wb) as (Len & os & Fs & Ds).
  split; [cbn; now rewrite Len|]. exists (Some x :: os). cbn [f_cons fs fneed fd fst snd]. split.
  - constructor; [eapply fok_mono; [|exact F]; lia|]. eapply F2_impl; [|exact Fs]. intros ? ?. apply fok_mono. lia.
  - intros d Hd. destruct (D d ltac:(lia)) as [-> ->]. destruct (Ds d ltac:(lia)) as [-> ->]. split; reflexivity.
Qed.
Lemma f_opt_law {A B} n (c : jcodec A) (f : jfields B) : jlawful c -> flawful f -> flawful (f_opt n c f).
Proof.
  intros L LF [a b] W. cbn [f_opt fw fst snd] in W. apply andb_true_iff in W as [Wa Wb].
  destruct (opt_fok c a L Wa) as (x & F & D). destruct (LF b Wb) as (Len & os & Fs & Ds).
  split; [cbn; now rewrite Len|]. exists (x :: os). cbn [f_opt fs fneed fd fst snd]. split.
  - constructor; [eapply fok_mono; [|exact F]; lia|]. eapply F2_impl; [|exact Fs]. intros ? ?. apply fok_mono. lia.
  - intros d Hd. destruct (D d ltac:(lia)) as [-> ->]. destruct (Ds d ltac:(lia)) as [-> ->]. split; reflexivity.
Qed.
Lemma map_fst_combine {A B} (l : list A) (m : list B) : length l = length m -> map fst (combine l m) = l.
Proof. revert m. induction l as [|x l IH]; intros [|y m] H; cbn in *; try discriminate; [reflexivity|]. f_equal. apply IH. lia. Qed.
Lemma map_snd_combine {A B} (l : list A) (m : list B) : length l = length m -> map snd (combine l m) = m.
Proof. revert m. induction l as [|x l IH]; intros [|y m] H; cbn in *; try discriminate; [reflexivity|]. f_equal. apply IH. lia. Qed.

Lemma js_struct_law {A} deny (f : jfields A) : names_ok (fn f) = true -> flawful f -> jlawful (js_struct deny f).
Proof.
  intros NO LF a W. cbn [js_struct jwf] in W. destruct (LF a W) as (Len & os & F & D).
  assert (Lo : length os = length (fn f)) by (rewrite <- Len; symmetry; eapply F2_length; exact F).
  destruct (struct_law (fneed f) (fn f) (combine (fn f) (fs f a)) (combine (fn f) os)) as [S1 (n & N & S2)];
    [apply map_fst_combine; lia|apply map_fst_combine; lia|exact NO|rewrite !map_snd_combine by lia; exact F|].
  rewrite map_snd_combine in S1 by lia. rewrite map_snd_combine in S2 by lia.
  split; [|exists n; split; [exact N|]].
  - destruct S1 as (J & NN & DD & _). split; [exact J|split; [exact NN|]]. intros d Hd. cbn [js_struct jneed] in Hd.
    destruct (DD d Hd) as [D1 D2]. split; [exact D1|]. cbn [js_struct jdec jser]. rewrite D2. apply D. lia.
  - destruct S2 as (J & NN & DD & _). split; [exact J|split; [exact NN|]]. intros d Hd. cbn [js_struct jneed] in Hd.
    destruct (DD d Hd) as [D1 D2]. split; [exact D1|]. cbn [js_struct jdec jser]. rewrite D2. apply D. lia.
Qed.
Lemma good_iso {A B} (f : A -> B) (g : B -> A) (c : jcodec A) a j : good c a j -> good (js_iso f g c) (f a) j.
Proof.
  intros (J & NN & D). split; [exact J|split; [exact NN|]]. intros d Hd. destruct (D d Hd) as [D1 D2]. split; [exact D1|].
  cbn [js_iso jdec]. now rewrite D2.
Qed.
Lemma js_iso_law {A B} (f : A -> B) (g : B -> A) (c : jcodec A) : (forall b, f (g b) = b) -> jlawful c -> jlawful (js_iso f g c).
Proof.
  intros E L b W. destruct (L (g b) W) as [G (n & N & Gn)].
  apply (good_iso f g) in G. apply (good_iso f g) in Gn. rewrite E in G, Gn.
  split; [exact G|]. exists n. split; [exact N|exact Gn].
Qed.
Lemma js_tuple2_law {A B} (a : jcodec A) (b : jcodec B) : jlawful a -> jlawful b -> jlawful (js_tuple2 a b).
Proof.
  intros La Lb [x y] W. cbn [js_tuple2 jwf fst snd] in W. apply andb_true_iff in W as [Wx Wy].
  destruct (La x Wx) as [Gx (nx & Nx & Gnx)]. destruct (Lb y Wy) as [Gy (ny & Ny & Gny)].
  assert (K : forall jx jy, good a x jx -> good b y jy -> good (js_tuple2 a b) (x, y) (JArr [jx; jy])).
  { intros jx jy (J1 & N1 & D1) (J2 & N2 & D2). split; [cbn; now rewrite J1, J2|]. split; [discriminate|].
    intros d Hd. cbn [js_tuple2 jneed] in Hd. destruct d as [|[|d]]; [lia|lia|].
    destruct (D1 (S d) ltac:(lia)) as [S1 E1]. destruct (D2 (S d) ltac:(lia)) as [S2 E2].
    cbn [strict js_tuple2 jdec forallb]. rewrite S1, S2, E1, E2. split; reflexivity. }
  split; [now apply K|]. exists (JArr [nx; ny]). split; [|now apply K]. cbn [js_tuple2 jser fst snd norm map oseq].
  rewrite Nx, Ny. reflexivity.
Qed.

(** *** Enums *)
Definition vlawful {A} (v : jvariants A) : Prop :=
  forall a, vwf v a = true ->
    (exists n, In n (vn v) /\ vser v a = str n /\ forall d, vdec v n d None = Some a)
    \/ (exists n x x', In n (vn v) /\ vser v a = JObj [(Some n, x)] /\ norm x = Some x'
         /\ vok (vneed v) x /\ vok (vneed v) x'
         /\ forall d, (vneed v <= d)%nat -> vdec v n d (Some x) = Some a /\ vdec v n d (Some x') = Some a).
Lemma v_nil_law : vlawful v_nil.
Proof. intros []. Qed.
Lemma vok_mono k k' v : (k <= k')%nat -> vok k v -> vok k' v.
Proof. intros L (A & B & C). repeat split; auto. intros d Hd. apply C. lia. Qed.
Lemma fresh_name n (l : list bytes) m : negb (existsb (bytes_eqb n) l) = true -> In m l -> bytes_eqb m n = false.
Proof.
  intros F I. destruct (bytes_eqb_spec m n) as [->|]; [|reflexivity]. apply negb_true_iff in F.
  assert (existsb (bytes_eqb n) l = true) by (apply existsb_exists; exists n; split; [exact I|apply bytes_eqb_refl]). congruence.
Qed.
Lemma v_unit_law {B} n (v : jvariants B) : negb (existsb (bytes_eqb n) (vn v)) = true -> vlawful v -> vlawful (v_unit n v).
Proof.
  intros F L [[]|b] W.
  - left. exists n. cbn. split; [now left|]. split; [reflexivity|]. intros d. now rewrite bytes_eqb_refl.
  - destruct (L b W) as [(m & I & E & D)|(m & x & x' & I & E & N & V & V' & D)]; [left|right].
    + exists m. cbn [v_unit vn vser vdec]. split; [now right|]. split; [exact E|]. intros d.
      rewrite (fresh_name _ _ _ F I), D. reflexivity.
    + exists m, x, x'. cbn [v_unit vn vser vdec vneed]. split; [now right|]. split; [exact E|]. split; [exact N|]. split; [exact V|].
      split; [exact V'|]. intros d Hd. rewrite (fresh_name _ _ _ F I). destruct (D d Hd) as [-> ->]. split; reflexivity.
Qed.
Lemma v_new_law {A B} n (c : jcodec A) (v : jvariants B) : negb (existsb (bytes_eqb n) (vn v)) = true ->
  jlawful c -> vlawful v -> vlawful (v_new n c v).
Proof.
  intros F Lc L [a|b] W.
  - right. destruct (Lc a W) as [G (x' & N & Gn)]. exists n, (jser c a), x'. cbn [v_new vn vser vdec vneed].
    split; [now left|]. split; [reflexivity|]. split; [exact N|].
    split; [eapply good_vok; [exact G|lia]|]. split; [eapply good_vok; [exact Gn|lia]|].
    intros d Hd. rewrite bytes_eqb_refl. rewrite (good_dec _ _ _ d G) by lia. rewrite (good_dec _ _ _ d Gn) by lia. split; reflexivity.
  - destruct (L b W) as [(m & I & E & D)|(m & x & x' & I & E & N & V & V' & D)]; [left|right].
    + exists m. cbn [v_new vn vser vdec]. split; [now right|]. split; [exact E|]. intros d.
      rewrite (fresh_name _ _ _ F I), D. reflexivity.
    + exists m, x, x'. cbn [v_new vn vser vdec vneed]. split; [now right|]. split; [exact E|]. split; [exact N|].
      split; [eapply vok_mono; [|exact V]; lia|]. split; [eapply vok_mono; [|exact V']; lia|].
      intros d Hd. rewrite (fresh_name _ _ _ F I). destruct (D d ltac:(lia)) as [-> ->]. split; reflexivity.
Qed.
Lemma v_skip_law {A B} (v : jvariants B) : vlawful v -> vlawful (@v_skip A B v).
Proof.
  intros L [a|b] W; [discriminate|].
  destruct (L b W) as [(m & I & E & D)|(m & x & x' & I & E & N & V & V' & D)]; [left|right].
  - exists m. cbn [v_skip vn vser vdec]. split; [exact I|]. split; [exact E|]. intros d. now rewrite D.
  - exists m, x, x'. cbn [v_skip vn vser vdec vneed]. split; [exact I|]. split; [exact E|]. split; [exact N|]. split; [exact V|].
    split; [exact V'|]. intros d Hd. destruct (D d Hd) as [-> ->]. split; reflexivity.
Qed.
Lemma norm_single n x x' : norm x = Some x' -> x' <> JNull -> norm (JObj [(Some n, x)]) = Some (JObj [(Some n, x')]).
Proof.
  intros N NN. pose proof (norm_obj [(n, x)] [(n, x')]) as H. cbn [map fst snd rekey sort_keys] in H.
  apply H; [constructor; [intros []|constructor]|]. constructor; [|constructor]. cbn. auto.
Qed.
Lemma js_enum_law {A} (v : jvariants A) : forallb utf8_valid (vn v) = true -> vlawful v -> jlawful (js_enum v).
Proof.
  intros U L a W. rewrite forallb_forall in U. cbn [js_enum jwf] in W.
  destruct (L a W) as [(m & I & E & D)|(m & x & x' & I & E & N & V & V' & D)].
  - assert (G : good (js_enum v) a (str m)).
    { split; [cbn; now apply U|]. split; [discriminate|]. intros d _. split; [reflexivity|]. cbn [js_enum jdec str]. apply D. }
    cbn [js_enum jser]. rewrite E. split; [exact G|]. exists (str m). split; [reflexivity|exact G].
  - assert (G : forall y, vok (vneed v) y -> (forall d, (vneed v <= d)%nat -> vdec v m d (Some y) = Some a) ->
        good (js_enum v) a (JObj [(Some m, y)])).
    { intros y (J & NN & S) Dy. split; [cbn; rewrite J, (U _ I); reflexivity|]. split; [discriminate|].
      intros d Hd. cbn [js_enum jneed] in Hd. destruct d as [|[|d]]; [lia|lia|]. cbn [strict forallb fst snd is_some andb].
      rewrite S by lia. split; [reflexivity|]. cbn [js_enum jdec]. apply Dy. lia. }
    cbn [js_enum jser]. rewrite E. split; [apply G; [exact V|intros d Hd; now apply D]|].
    exists (JObj [(Some m, x')]). split; [apply norm_single; [exact N|apply V']|]. apply G; [exact V'|intros d Hd; now apply D].
Qed.
