(** The reader of IP addresses accepts exactly the texts of SpecIp.v. *)
From Coq Require Import ZifyBool ZifyN ZifyNat.
From Verif Require Import Base Hex SpecHex HexProofs Json JsonProofs Types TypesJson TypesJsonProofs ClientSets SpecIp.
Local Open Scope N_scope.

Definition no_head (p : byte -> bool) (r : bytes) : Prop := match r with c :: _ => p c = false | [] => True end.

(** ** Octets *)
Lemma span_digits_eq l : l = fst (span_digits l) ++ snd (span_digits l) /\ forallb is_digit (fst (span_digits l)) = true
  /\ no_head is_digit (snd (span_digits l)).
Proof.
  induction l as [|c l (E & F & N)]; [repeat split|]. cbn [span_digits]. destruct (is_digit c) eqn:D; cbn [fst snd app forallb].
  - rewrite D, F. split; [now rewrite <- E|]. now split.
  - repeat split. exact D.
Qed.
Lemma is_digit_val c : is_digit c = true -> dec_digit c (b2n c - 48).
Proof. unfold is_digit, dec_digit. lia. Qed.
Lemma dec_digit_is c v : dec_digit c v -> is_digit c = true /\ b2n c - 48 = v /\ 48 <= b2n c <= 57.
Proof. unfold is_digit, dec_digit. lia. Qed.
Lemma zero_digit c : byte_eqb c "0" = true <-> b2n c = 48.
Proof.
  destruct (byte_eqb_spec c "0"%byte) as [->|Ne]; [split; reflexivity|]. split; [discriminate|]. intros H. exfalso. apply Ne.
  assert (S : forall c, implb (b2n c =? 48) (byte_eqb c "0"%byte) = true) by (apply byte_sweep; vm_compute; reflexivity).
  specialize (S c). rewrite H in S. cbn in S. now destruct (byte_eqb_spec c "0"%byte).
Qed.

Lemma octet_digits s b : octet_text s b -> forallb is_digit s = true /\ s <> [].
Proof.
  intros [x a X|x y a d X Y _|x y z a d e X Y Z _ _]; cbn [forallb]; split; try discriminate;
    repeat match goal with H : dec_digit _ _ |- _ => apply dec_digit_is in H as (-> & _ & _) end; reflexivity.
Qed.
Lemma parse_octet_iff l b r : parse_octet l = Some (b, r) <-> exists s, l = s ++ r /\ octet_text s b /\ no_head is_digit r.
Proof.
  split.
  - unfold parse_octet. destruct (span_digits_eq l) as (E & F & N). destruct (span_digits l) as [ds t]. cbn [fst snd] in *.
    destruct ds as [|c ds]; [discriminate|]. destruct (_ && _) eqn:Z; [discriminate|]. destruct (3 <? _)%nat eqn:L; [discriminate|].
    destruct (dec_val (c :: ds)) as [n|] eqn:V; [|discriminate]. destruct (n <? 256) eqn:B; [|discriminate].
    intros H. injection H as <- <-. exists (c :: ds). split; [exact E|]. split; [|exact N].
    apply dec_val_iff in V as [_ V]. unfold dval in V.
    destruct ds as [|d [|e [|f ds]]]; [..|cbn [length] in L; lia]; cbn [forallb] in F; cbn [fold_left] in V;
      repeat match goal with H : (_ && _)%bool = true |- _ => apply andb_prop in H as [? H] end;
      repeat match goal with H : is_digit ?c = true |- _ => apply is_digit_val in H end.
    + replace n with (b2n c - 48) by lia. now constructor.
    + assert (b2n c <> 48). { intros Q0. apply zero_digit in Q0. rewrite Q0 in Z. discriminate Z. }
      replace n with (10 * (b2n c - 48) + (b2n d - 48)) by lia. unfold dec_digit in *. constructor; unfold dec_digit; lia.
    + assert (b2n c <> 48). { intros Q0. apply zero_digit in Q0. rewrite Q0 in Z. discriminate Z. }
      replace n with (100 * (b2n c - 48) + 10 * (b2n d - 48) + (b2n e - 48)) by lia. unfold dec_digit in *. constructor; unfold dec_digit; lia.
  - intros (s & -> & O & N). destruct (octet_digits s b O) as [D _]. unfold parse_octet.
    rewrite (span_digits_app s r D N). cbn [fst snd].
    assert (V : forall n, Forall (fun c => 48 <= b2n c <= 57) s -> n = dval 0 s -> dec_val s = Some n) by (intros n H1 H2; apply dec_val_iff; now split).
    unfold dval in V.
    destruct O as [x a X|x y a d X Y A|x y z a d e X Y Z A B]; cbn [fold_left length Nat.ltb Nat.leb negb] in *;
      repeat match goal with H : dec_digit _ _ |- _ => apply dec_digit_is in H as (_ & ? & ?) end; unfold dec_digit in *.
    + rewrite Bool.andb_false_r. rewrite (V a); [|repeat constructor; lia|lia]. replace (a <? 256) with true by lia. reflexivity.
    + destruct (byte_eqb x "0") eqn:Q; [apply zero_digit in Q; lia|]. cbn [andb].
      rewrite (V (10 * a + d)); [|repeat constructor; lia|lia]. replace (10 * a + d <? 256) with true by lia. reflexivity.
    + destruct (byte_eqb x "0") eqn:Q; [apply zero_digit in Q; lia|]. cbn [andb].
      rewrite (V (100 * a + 10 * d + e)); [|repeat constructor; lia|lia]. replace (_ <? 256) with true by lia. reflexivity.
Qed.

Lemma parse_dot_iff l r : parse_dot l = Some r <-> l = "."%byte :: r.
Proof.
  unfold parse_dot. destruct l as [|c l]; cbn [lit]; [split; discriminate|]. destruct (byte_eqb_spec "."%byte c) as [<-|N].
  - split; intros H; injection H as ->; reflexivity.
  - split; [discriminate|]. intros H. injection H as -> _. now contradiction N.
Qed.
Lemma read_ipv4_iff l i r : read_ipv4 l = Some (i, r) <-> exists s, l = s ++ r /\ dotted s i /\ no_head is_digit r.
Proof.
  unfold read_ipv4. split.
  - destruct (parse_octet l) as [[a l1]|] eqn:A; [|discriminate]. cbn [obind].
    destruct (parse_dot l1) as [l2|] eqn:D1; [|discriminate]. cbn [obind]. apply parse_dot_iff in D1.
    destruct (parse_octet l2) as [[b l3]|] eqn:B; [|discriminate]. cbn [obind].
    destruct (parse_dot l3) as [l4|] eqn:D2; [|discriminate]. cbn [obind]. apply parse_dot_iff in D2.
    destruct (parse_octet l4) as [[c l5]|] eqn:C; [|discriminate]. cbn [obind].
    destruct (parse_dot l5) as [l6|] eqn:D3; [|discriminate]. cbn [obind]. apply parse_dot_iff in D3.
    destruct (parse_octet l6) as [[d l7]|] eqn:D; [|discriminate]. cbn [obind]. intros H. injection H as <- <-.
    apply parse_octet_iff in A as (sa & -> & A & _). apply parse_octet_iff in B as (sb & -> & B & _).
    apply parse_octet_iff in C as (sc & -> & C & _). apply parse_octet_iff in D as (sd & -> & D & N). subst l1 l3 l5.
    exists (sa ++ "."%byte :: sb ++ "."%byte :: sc ++ "."%byte :: sd). split.
    + repeat (rewrite <- app_assoc; cbn [app]). reflexivity.
    + split; [|exact N]. exists sa, sb, sc, sd. cbn [ip_a ip_b ip_c ip_d]. auto.
  - intros (s & -> & (sa & sb & sc & sd & -> & A & B & C & D) & N).
    assert (O : forall s b r, octet_text s b -> no_head is_digit r -> parse_octet (s ++ r) = Some (b, r)) by (intros s b q H1 H2; apply parse_octet_iff; eauto).
    assert (P : forall r, parse_dot ("."%byte :: r) = Some r) by (intros q; now apply parse_dot_iff).
    repeat (rewrite <- app_assoc; cbn [app]).
    rewrite (O _ _ _ A) by reflexivity. cbn [obind]. rewrite P. cbn [obind].
    rewrite (O _ _ _ B) by reflexivity. cbn [obind]. rewrite P. cbn [obind].
    rewrite (O _ _ _ C) by reflexivity. cbn [obind]. rewrite P. cbn [obind].
    rewrite (O _ _ _ D) by exact N. cbn [obind]. destruct i; reflexivity.
Qed.

(** ** Groups *)
Lemma digit16_of c v : digit_value c v -> digit16 c = Some (N.of_nat v).
Proof.
  intros V. apply digit16_spec. rewrite Nat2N.id. split; [|exact V].
  destruct V as [V|V]; [assert (X : nth_error lower_digits v <> None) by (rewrite V; discriminate)|assert (X : nth_error upper_digits v <> None) by (rewrite V; discriminate)];
    apply nth_error_Some in X; cbn in X; lia.
Qed.
Definition hval (ds : list N) : N := fold_left (fun n d => 16 * n + d) ds 0.
Lemma span_hex_eq l : exists s, l = s ++ snd (span_hex l) /\ map digit16 s = map Some (fst (span_hex l)) /\ no_head is_hex (snd (span_hex l)).
Proof.
  induction l as [|c l (s & E & M & N)]; [exists []; repeat split|]. cbn [span_hex]. destruct (digit16 c) as [d|] eqn:D; cbn [fst snd].
  - exists (c :: s). cbn [app map]. rewrite D, M, <- E. repeat split. exact N.
  - exists []. repeat split. cbn [no_head]. unfold is_hex. now rewrite D.
Qed.
Lemma span_hex_digits s ds : map digit16 s = map Some ds -> forall r, no_head is_hex r -> span_hex (s ++ r) = (ds, r).
Proof.
  revert ds. induction s as [|c s IH]; intros [|d ds] M r N; try discriminate M; cbn [app].
  - destruct r as [|c r]; [reflexivity|]. cbn [no_head] in N. unfold is_hex in N. cbn [span_hex]. destruct (digit16 c); [discriminate|reflexivity].
  - cbn [map] in M. injection M as D M. cbn [span_hex]. rewrite D, (IH ds M r N). reflexivity.
Qed.
Lemma hex_number_iff s n : hex_number s n <-> exists ds, map digit16 s = map Some ds /\ ds <> [] /\ n = hval ds.
Proof.
  split.
  - intros H. induction H as [c v V|s n c v H (ds & M & Ne & ->) V].
    + exists [N.of_nat v]. cbn [map]. rewrite (digit16_of c v V). split; [reflexivity|]. split; [discriminate|]. unfold hval. cbn [fold_left]. lia.
    + exists (ds ++ [N.of_nat v]). rewrite !map_app, M. cbn [map]. rewrite (digit16_of c v V). split; [reflexivity|]. split; [now destruct ds|].
      unfold hval. rewrite fold_left_app. reflexivity.
  - intros (ds & M & Ne & ->). revert ds M Ne. induction s as [|c s IH] using rev_ind; intros ds M Ne; [destruct ds; [now contradiction Ne|discriminate M]|].
    destruct (exists_last Ne) as (ds0 & d & X0). subst ds. clear Ne. rename ds0 into ds. rewrite !map_app in M. cbn [map] in M.
    apply app_inj_tail in M as [M D]. assert (X := D). apply digit16_spec in X as [_ X].
    unfold hval. rewrite fold_left_app. cbn [fold_left]. rewrite <- (N2Nat.id d) at 1.
    destruct ds as [|e ds].
    + destruct s; [|discriminate M]. cbn [fold_left app]. rewrite N.mul_0_r, N.add_0_l. now constructor.
    + apply (hn_more s _ c (N.to_nat d)); [|exact X]. apply (IH (e :: ds) M). discriminate.
Qed.
Lemma read_group_iff l g r : read_group l = Some (g, r) <-> exists s, l = s ++ r /\ group_text s g /\ no_head is_hex r.
Proof.
  split.
  - unfold read_group. destruct (span_hex_eq l) as (s & E & M & N). destruct (span_hex l) as [ds t]. cbn [fst snd] in *.
    destruct ds as [|d ds]; [discriminate|]. destruct (4 <? _)%nat eqn:L; [discriminate|]. intros H. injection H as <- <-.
    exists s. split; [exact E|]. split; [|exact N]. split.
    + assert (length s = length (d :: ds)) by (rewrite <- (map_length digit16 s), M; apply map_length). lia.
    + exists (hval (d :: ds)). split; [|reflexivity]. apply hex_number_iff. exists (d :: ds). repeat split; [exact M|discriminate].
  - intros (s & -> & (L & n & H & ->) & N). apply hex_number_iff in H as (ds & M & Ne & ->). unfold read_group.
    rewrite (span_hex_digits s ds M r N). cbn [fst snd].
    assert (length s = length ds) by (rewrite <- (map_length digit16 s), M; apply map_length).
    destruct ds as [|d ds]; [now contradiction Ne|]. replace (4 <? length (d :: ds))%nat with false by lia. reflexivity.
Qed.
Lemma group_hex s g : group_text s g -> forallb is_hex s = true.
Proof.
  intros (_ & n & H & _). apply hex_number_iff in H as (ds & M & _ & _). revert ds M.
  induction s as [|c s IH]; intros [|d ds] M; try discriminate M; [reflexivity|]. cbn [map] in M. injection M as D M. cbn [forallb].
  rewrite (IH ds M). unfold is_hex. now rewrite D.
Qed.

(** ** Runs of groups *)
Definition sep (first : bool) : bytes := if first then [] else [":"%byte].
Lemma after_colon_iff {A} first (f : bytes -> option (A * bytes)) l x r :
  after_colon first f l = Some (x, r) <-> exists t, l = sep first ++ t /\ f t = Some (x, r).
Proof.
  destruct first; cbn [after_colon sep app].
  - split; [intros H; now exists l|]. intros (t & -> & H). exact H.
  - destruct l as [|c l]; [split; [discriminate|intros (t & H & _); discriminate H]|]. destruct (byte_eqb_spec c ":"%byte) as [->|N].
    + split; [intros H; now exists l|]. intros (t & E & H). injection E as ->. exact H.
    + split; [discriminate|]. intros (t & E & _). injection E as -> _. now contradiction N.
Qed.
Lemma hex_some s gs : hex_groups s gs -> some_groups s gs.
Proof. intros H. induction H; [now constructor|now constructor]. Qed.

Lemma read_groups_sound k : forall first l gs v4 r, read_groups k first l = (gs, v4, r) ->
  gs = [] /\ r = l /\ v4 = false
  \/ exists s, l = sep first ++ s ++ r /\ (length gs <= k)%nat /\ some_groups s gs /\ (v4 = false -> hex_groups s gs).
Proof.
  induction k as [|k IH]; intros first l gs v4 r H; cbn [read_groups] in H.
  - injection H as <- <- <-. now left.
  - destruct (match k with O => None | _ => after_colon first read_ipv4 l end) as [[i q]|] eqn:V.
    + injection H as <- <- <-. right. destruct k; [discriminate V|]. apply after_colon_iff in V as (t & -> & V).
      apply read_ipv4_iff in V as (s & -> & D & _). exists s. cbn [length]. repeat split; [lia|now constructor|discriminate].
    + destruct (after_colon first read_group l) as [[g q]|] eqn:G.
      * destruct (read_groups k false q) as [[gs' v'] r'] eqn:R. injection H as <- <- <-. right.
        apply after_colon_iff in G as (t & -> & G). apply read_group_iff in G as (s & -> & G & _).
        destruct (IH _ _ _ _ _ R) as [(-> & -> & ->)|(s' & -> & L & S & X)].
        -- exists s. cbn [length]. repeat split; [lia|now constructor|now constructor].
        -- exists (s ++ ":"%byte :: s'). cbn [sep length app]. rewrite <- app_assoc. cbn [app]. repeat split; [lia|now constructor|].
           intros E. constructor; [exact G|now apply X].
      * injection H as <- <- <-. now left.
Qed.

Lemma stops_head r : stops r -> match r with c :: _ => c = ":"%byte | [] => True end /\ no_head is_hex r.
Proof. intros [->|(t & ->)]; split; try exact I; reflexivity. Qed.
Lemma read_one k first s g r : group_text s g -> match r with c :: _ => c = ":"%byte | [] => True end -> no_head is_hex r ->
  read_groups (S k) first (sep first ++ s ++ r) = let '(gs, v4, q) := read_groups k false r in (g :: gs, v4, q).
Proof.
  intros G C N. cbn [read_groups]. destruct (match k with O => None | _ => after_colon first read_ipv4 (sep first ++ s ++ r) end) as [[i q]|] eqn:V.
  - destruct k; [discriminate V|]. apply after_colon_iff in V as (t & E & V). apply app_inv_head in E. subst t.
    rewrite (group_not_ipv4 s r (group_hex s g G) C) in V. discriminate V.
  - assert (A : after_colon first read_group (sep first ++ s ++ r) = Some (g, r)).
    { apply after_colon_iff. exists (s ++ r). split; [reflexivity|]. apply read_group_iff. now exists s. }
    rewrite A. reflexivity.
Qed.
Lemma read_hex s gs : hex_groups s gs -> forall k first r, (length gs <= k)%nat -> stops r ->
  read_groups k first (sep first ++ s ++ r) = (gs, false, r).
Proof.
  intros H. induction H as [s g G|s g t gs G H IH]; intros [|k] first r L S; cbn [length] in L; try lia; destruct (stops_head r S) as [C N].
  - rewrite (read_one k first s g r G C N), (read_none k r S). reflexivity.
  - rewrite <- app_assoc. cbn [app]. rewrite (read_one k first s g _ G) by reflexivity.
    specialize (IH k false r ltac:(lia) S). cbn [sep app] in IH. rewrite IH. reflexivity.
Qed.
Lemma read_some s gs : some_groups s gs -> forall k first, (length gs <= k)%nat ->
  exists v4, read_groups k first (sep first ++ s) = (gs, v4, []).
Proof.
  intros H. induction H as [s g G|s i D|s g t gs G H IH]; intros [|k] first L; cbn [length] in L; try lia.
  - exists false. pose proof (read_one k first s g [] G I I) as R. rewrite app_nil_r in R. rewrite R, read_none by now left. reflexivity.
  - destruct k as [|k]; [lia|]. exists true. cbn [read_groups].
    assert (A : after_colon first read_ipv4 (sep first ++ s) = Some (i, [])).
    { apply after_colon_iff. exists s. split; [reflexivity|]. apply read_ipv4_iff. exists s. rewrite app_nil_r. now split. }
    rewrite A. reflexivity.
  - rewrite (read_one k first s g (":"%byte :: t) G) by reflexivity. destruct (IH k false ltac:(lia)) as (v & R). cbn [sep app] in R.
    rewrite R. now exists v.
Qed.

(** ** Whole addresses *)
Lemma ipv6_of_iff l i : ipv6_of l = Some i <-> l = all_groups i.
Proof.
  unfold ipv6_of, all_groups. split.
  - intros H. do 8 (destruct l as [|? l]; [discriminate|]). destruct l; [|discriminate]. injection H as <-. reflexivity.
  - intros ->. destruct i; reflexivity.
Qed.
Lemma lit_colons l r : lit (bs "::") l = Some r <-> l = ":"%byte :: ":"%byte :: r.
Proof.
  change (bs "::") with [":"%byte; ":"%byte]. destruct l as [|c l]; cbn [lit]; [split; discriminate|].
  destruct (byte_eqb_spec ":"%byte c) as [<-|N]; [|split; [discriminate|intros H; injection H as -> _; now contradiction N]].
  destruct l as [|c l]; cbn [lit]; [split; discriminate|].
  destruct (byte_eqb_spec ":"%byte c) as [<-|N]; [|split; [discriminate|intros H; injection H as -> _; now contradiction N]].
  split; intros H; injection H as ->; reflexivity.
Qed.
Lemma read_ipv6_sound l i : read_ipv6 l = Some (i, []) -> ipv6_text l i.
Proof.
  unfold read_ipv6. destruct (read_groups 8 true l) as [[head v4] r] eqn:R. destruct (read_groups_sound _ _ _ _ _ _ R) as [(-> & -> & ->)|(s & E & L & S & X)].
  - cbn [length Nat.eqb]. destruct (lit (bs "::") l) as [q|] eqn:C; [|discriminate]. cbn [obind]. apply lit_colons in C. subst l.
    destruct (read_groups (8 - (0 + 1)) true q) as [[tl w] z] eqn:R2. destruct (ipv6_of _) as [j|] eqn:I; [|discriminate]. cbn [obind].
    intros H. injection H as <- ->. apply ipv6_of_iff in I. right. cbn [app] in I.
    exists [], q, [], tl, (8 - 0 - length tl)%nat. split; [reflexivity|]. split; [now left|].
    destruct (read_groups_sound _ _ _ _ _ _ R2) as [(-> & <- & _)|(s & -> & L & S & _)].
    + split; [now left|]. split; [cbn [length]; lia|]. symmetry. exact I.
    + cbn [sep app]. rewrite app_nil_r. split; [now right|]. split; [lia|]. symmetry. exact I.
  - cbn [sep app] in E. subst l. destruct (length head =? 8)%nat eqn:L8.
    + destruct (ipv6_of head) as [j|] eqn:I; [|discriminate]. cbn [obind]. intros H. injection H as <- ->. apply ipv6_of_iff in I. subst head.
      rewrite app_nil_r. now left.
    + destruct v4; [discriminate|]. specialize (X eq_refl). destruct (lit (bs "::") r) as [q|] eqn:C; [|discriminate]. cbn [obind]. apply lit_colons in C. subst r.
      destruct (read_groups (8 - (length head + 1)) true q) as [[tl w] z] eqn:R2. destruct (ipv6_of _) as [j|] eqn:I; [|discriminate]. cbn [obind].
      intros H. injection H as <- ->. apply ipv6_of_iff in I. right.
      exists s, q, head, tl, (8 - length head - length tl)%nat. split; [reflexivity|]. split; [now right|].
      destruct (read_groups_sound _ _ _ _ _ _ R2) as [(-> & <- & _)|(s2 & -> & L2 & S2 & _)].
      * split; [now left|]. split; [cbn [length]; lia|]. symmetry. exact I.
      * cbn [sep app]. rewrite app_nil_r. split; [now right|]. split; [clear - L2 L8 L; cbn [length] in *; lia|]. symmetry. exact I.
Qed.
Lemma read_ipv6_complete l i : ipv6_text l i -> read_ipv6 l = Some (i, []).
Proof.
  unfold read_ipv6. intros [S|(front & back & fg & bg & n & -> & F & B & N & E)].
  - destruct (read_some _ _ S 8%nat true ltac:(cbn; lia)) as (v & R). cbn [sep app] in R. rewrite R. cbn [length all_groups Nat.eqb].
    change [g0 i; g1 i; g2 i; g3 i; g4 i; g5 i; g6 i; g7 i] with (all_groups i).
    rewrite (proj2 (ipv6_of_iff (all_groups i) i) eq_refl). reflexivity.
  - assert (L : (length fg + n + length bg = 8)%nat).
    { apply (f_equal (@length group)) in E. unfold group in *. rewrite !app_length, repeat_length in E. cbn [all_groups length] in E. lia. }
    assert (R : read_groups 8 true (front ++ ":"%byte :: ":"%byte :: back) = (fg, false, ":"%byte :: ":"%byte :: back)).
    { destruct F as [(-> & ->)|F]; [reflexivity|]. apply (read_hex front fg F 8%nat true); [lia|]. right. now exists back. }
    rewrite R. replace (length fg =? 8)%nat with false by lia. rewrite (proj2 (lit_colons _ back) eq_refl). cbn [obind].
    assert (T : exists v, read_groups (8 - (length fg + 1)) true back = (bg, v, [])).
    { destruct B as [(-> & ->)|B]; [|apply (read_some back bg B _ true); lia]. exists false.
      destruct (8 - (length fg + 1))%nat as [|[|k]]; reflexivity. }
    destruct T as (v & ->). replace (8 - length fg - length bg)%nat with n by lia.
    assert (I : ipv6_of (fg ++ repeat zero_group n ++ bg) = Some i) by (apply ipv6_of_iff; symmetry; exact E).
    rewrite I. reflexivity.
Qed.
Lemma ipv6_not_ipv4 l i : ipv6_text l i -> read_ipv4 l = None.
Proof.
  intros [S|(front & back & fg & bg & n & -> & F & _)].
  - inversion S as [s g G E1 E2|s j D E1 E2|s g t gs G H E1 E2]. apply group_not_ipv4; [exact (group_hex _ _ G)|reflexivity].
  - destruct F as [(-> & _)|F]; [reflexivity|]. destruct F as [s g G|s g t gs G H].
    + apply group_not_ipv4; [exact (group_hex _ _ G)|reflexivity].
    + rewrite <- app_assoc. apply group_not_ipv4; [exact (group_hex _ _ G)|reflexivity].
Qed.
Lemma parse_ip_addr_iff s i : parse_ip_addr s = Some i <-> ip_text s i.
Proof.
  unfold parse_ip_addr. split.
  - destruct (read_ipv4 s) as [[j r]|] eqn:V.
    + destruct r; [|discriminate]. intros H. injection H as <-. apply read_ipv4_iff in V as (t & -> & D & _). rewrite app_nil_r. exact D.
    + destruct (read_ipv6 s) as [[j r]|] eqn:W; [|discriminate]. destruct r; [|discriminate]. intros H. injection H as <-. now apply read_ipv6_sound.
  - destruct i as [j|j]; cbn [ip_text]; intros H.
    + rewrite (proj2 (read_ipv4_iff s j [])); [reflexivity|]. exists s. rewrite app_nil_r. now split.
    + rewrite (ipv6_not_ipv4 s j H), (read_ipv6_complete s j H). reflexivity.
Qed.
