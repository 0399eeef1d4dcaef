(** Round-trip laws of the JSON codecs of the manifest types, both for the
    plain serde_json writing and for the canonical normal form. *)
From Verif Require Import Base Utf8 Hex HexProofs Json JsonProofs NormProofs Types TypesBorsh Env EnvProofs TypesJson.
From Coq Require Import Permutation.
Require Import ZifyBool ZifyN ZifyNat.
Local Open Scope N_scope.

Definition good {A} (c : jcodec A) (a : A) (j : json) : Prop :=
  jok j = true /\ j <> JNull /\ (forall d, (jneed c <= d)%nat -> strict d j = true /\ jdec c d j = Some a).

Definition jlawful {A} (c : jcodec A) : Prop :=
  forall a, jwf c a = true -> good c a (jser c a) /\ exists n, norm (jser c a) = Some n /\ good c a n.

Lemma jlawful_same {A} (c : jcodec A) :
  (forall a, jwf c a = true -> good c a (jser c a) /\ norm (jser c a) = Some (jser c a)) -> jlawful c.
Proof. intros H a Ha. destruct (H a Ha) as [G N]. split; auto. eauto. Qed.

(** ** Leaves *)
Lemma js_string_law : jlawful js_string.
Proof.
  apply jlawful_same. intros s Hs. cbn [js_string jwf jser] in *. split; [|reflexivity].
  split; [exact Hs|]. split; [discriminate|]. intros d _. split; reflexivity.
Qed.

Lemma js_hex_law : jlawful js_hex.
Proof.
  apply jlawful_same. intros b Hb. cbn [js_hex jwf jser] in *. split; [|reflexivity].
  repeat split.
  - cbn. apply ascii_valid, encode_ascii.
  - discriminate.
  - cbn. rewrite decode_encode by lia. reflexivity.
Qed.

Lemma js_hex_n_law n : jlawful (js_hex_n n).
Proof.
  apply jlawful_same. intros b Hb. cbn [js_hex_n jwf jser] in *. split; [|reflexivity].
  apply N.eqb_eq in Hb. subst n.
  repeat split.
  - cbn. apply ascii_valid, encode_ascii.
  - discriminate.
  - cbn [js_hex_n jdec str]. rewrite decode_to_buf_encode. reflexivity.
Qed.

Lemma print_Z_of_N n : print_Z (Z.of_N n) = print_N n.
Proof. destruct n; reflexivity. Qed.

Lemma js_uint_law limit : jlawful (js_uint limit).
Proof.
  intros n Hn. cbn [js_uint jwf jser] in *. unfold U64_LIMIT in *. split.
  - repeat split.
    + cbn [jok]. lia.
    + discriminate.
    + cbn [js_uint jdec]. rewrite print_Z_of_N. apply parse_unsigned_print. lia.
  - exists (str (print_N n)). split; [cbn [norm]; now rewrite print_Z_of_N|].
    repeat split.
    + cbn [jok str okey]. rewrite <- print_Z_of_N. apply print_Z_utf8.
    + discriminate.
    + cbn [js_uint jdec str]. apply parse_unsigned_print. lia.
Qed.

Lemma js_bool_law : jlawful js_bool.
Proof. apply jlawful_same. intros b _. split; [|reflexivity]. repeat split; discriminate || auto. Qed.

Lemma js_restart_law : jlawful js_restart.
Proof. apply jlawful_same. intros [|] _; (split; [|reflexivity]); repeat split; try discriminate. Qed.

Lemma octet_sweep b : (let p := print_N (b2n b) in
   match p with [] => false | c :: r =>
     negb (byte_eqb c "0" && negb (match r with [] => true | _ => false end)) && negb (3 <? length (c :: r))%nat
     && match dec_val (c :: r) with Some n => (n <? 256) && byte_eqb (n2b n) b | None => false end end) = true.
Proof. apply (byte_sweep (fun b => let p := print_N (b2n b) in
   match p with [] => false | c :: r =>
     negb (byte_eqb c "0" && negb (match r with [] => true | _ => false end)) && negb (3 <? length (c :: r))%nat
     && match dec_val (c :: r) with Some n => (n <? 256) && byte_eqb (n2b n) b | None => false end end)).
  vm_compute. reflexivity. Qed.

Lemma parse_octet_print b r : match r with c :: _ => is_digit c = false | [] => True end ->
  parse_octet (print_N (b2n b) ++ r) = Some (b, r).
Proof.
  intros Hr. unfold parse_octet. rewrite span_digits_app; [|apply print_N_digits|exact Hr].
  cbn [fst snd]. pose proof (octet_sweep b) as H. cbv zeta in H.
  destruct (print_N (b2n b)) as [|c l]; [discriminate|].
  destruct (byte_eqb c "0" && _); [discriminate|].
  destruct (3 <? _)%nat; [discriminate|].
  destruct (dec_val (c :: l)) as [n|]; [|discriminate].
  destruct (n <? 256); [|discriminate]. cbn in H. destruct (byte_eqb_spec (n2b n) b); [now subst|discriminate].
Qed.

Lemma read_ipv4_print i r : match r with c :: _ => is_digit c = false | [] => True end -> read_ipv4 (print_ip i ++ r) = Some (i, r).
Proof.
  intros R. destruct i as [a b c d]. unfold read_ipv4, print_ip. cbn [ip_a ip_b ip_c ip_d].
  repeat (rewrite <- app_assoc; cbn [app]).
  rewrite parse_octet_print by reflexivity. cbn [obind parse_dot lit]. rewrite byte_eqb_refl. cbn [obind].
  rewrite parse_octet_print by reflexivity. cbn [obind parse_dot lit]. rewrite byte_eqb_refl. cbn [obind].
  rewrite parse_octet_print by reflexivity. cbn [obind parse_dot lit]. rewrite byte_eqb_refl. cbn [obind].
  rewrite parse_octet_print by exact R. reflexivity.
Qed.
Lemma parse_ip_print i : parse_ip (print_ip i) = Some i.
Proof. unfold parse_ip. pose proof (read_ipv4_print i [] I) as H. rewrite app_nil_r in H. now rewrite H. Qed.

Lemma print_N_ascii n : forallb (fun b => b2n b <? 128) (print_N n) = true.
Proof.
  apply forallb_forall. intros b Hb. pose proof (print_N_digits n) as D. rewrite forallb_forall in D.
  specialize (D b Hb). unfold is_digit in D. lia.
Qed.
Lemma print_ip_ascii i : forallb (fun b => b2n b <? 128) (print_ip i) = true.
Proof.
  unfold print_ip. rewrite !forallb_app. cbn [forallb]. rewrite !forallb_app. cbn [forallb]. rewrite !forallb_app. cbn [forallb].
  rewrite !print_N_ascii. reflexivity.
Qed.

(** *** IPv6 *)
Definition is_hex (c : byte) : bool := match digit16 c with Some _ => true | None => false end.
Lemma span_hex_app h r : forallb is_hex h = true -> match r with c :: _ => is_hex c = false | [] => True end ->
  span_hex (h ++ r) = (fst (span_hex h), r).
Proof.
  intros H R. induction h as [|c h IH]; cbn [app].
  - destruct r as [|c r]; [reflexivity|]. unfold is_hex in R. cbn [span_hex]. destruct (digit16 c); [discriminate|reflexivity].
  - cbn [forallb] in H. apply andb_prop in H as [Hc H]. unfold is_hex in Hc. cbn [span_hex]. destruct (digit16 c); [|discriminate].
    rewrite (IH H). reflexivity.
Qed.
Lemma group_sweep a b : (let p := print_group (a, b) in
  forallb is_hex p && match read_group p with Some (g, []) => group_eqb g (a, b) | _ => false end) = true.
Proof.
  apply (byte_sweep2 (fun a b => let p := print_group (a, b) in
    forallb is_hex p && match read_group p with Some (g, []) => group_eqb g (a, b) | _ => false end)). vm_compute. reflexivity.
Qed.
Lemma group_eqb_eq a b : group_eqb a b = true <-> a = b.
Proof.
  destruct a as [a1 a2], b as [b1 b2]. unfold group_eqb. cbn [fst snd]. rewrite andb_true_iff.
  destruct (byte_eqb_spec a1 b1), (byte_eqb_spec a2 b2); split; intros H; try (destruct H; discriminate); try congruence; now split.
Qed.
Lemma print_group_hex g : forallb is_hex (print_group g) = true.
Proof. destruct g as [a b]. pose proof (group_sweep a b) as H. cbv zeta in H. now apply andb_prop in H as [H _]. Qed.
Lemma read_group_print g r : match r with c :: _ => is_hex c = false | [] => True end -> read_group (print_group g ++ r) = Some (g, r).
Proof.
  intros R. pose proof (print_group_hex g) as X. destruct g as [a b]. pose proof (group_sweep a b) as H. cbv zeta in H.
  apply andb_prop in H as [_ H]. unfold read_group in *. rewrite (span_hex_app _ _ X R). cbn [fst snd].
  pose proof (span_hex_app _ [] X I) as Z. rewrite app_nil_r in Z. rewrite Z in H. cbn [fst snd] in H.
  destruct (fst (span_hex (print_group (a, b)))) as [|d ds]; [discriminate|].
  destruct (4 <? length (d :: ds))%nat; [discriminate|]. apply group_eqb_eq in H. now rewrite H.
Qed.
Lemma print_group_cons g : exists c l, print_group g = c :: l /\ is_hex c = true.
Proof.
  pose proof (print_group_hex g) as X. pose proof (read_group_print g [] I) as R. destruct (print_group g) as [|c l]; [discriminate|].
  exists c, l. split; [reflexivity|]. now apply andb_prop in X as [X _].
Qed.
Lemma digit_hex c : is_digit c = true -> is_hex c = true.
Proof. intros H. pose proof (byte_sweep (fun c => implb (is_digit c) (is_hex c)) eq_refl c) as S. cbv beta in S. rewrite H in S. exact S. Qed.
Lemma span_digits_inv l : exists ds, l = ds ++ snd (span_digits l) /\ forallb is_digit ds = true.
Proof.
  induction l as [|c l (ds & E & D)]; [now exists []|]. cbn [span_digits]. destruct (is_digit c) eqn:C.
  - exists (c :: ds). cbn [snd app forallb]. rewrite C, D, <- E. split; reflexivity.
  - now exists [].
Qed.
(** A hexadecimal group is not the start of a dotted address. *)
Lemma group_not_ipv4 h r : forallb is_hex h = true -> match r with c :: _ => c = ":"%byte | [] => True end -> read_ipv4 (h ++ r) = None.
Proof.
  intros X R. unfold read_ipv4. destruct (parse_octet (h ++ r)) as [[o t]|] eqn:P; [|reflexivity]. cbn [obind].
  assert (T : t = snd (span_digits (h ++ r))).
  { unfold parse_octet in P. destruct (fst (span_digits (h ++ r))) as [|c l]; [discriminate|].
    destruct (_ && _); [discriminate|]. destruct (3 <? _)%nat; [discriminate|]. destruct (dec_val _) as [n|]; [|discriminate].
    destruct (n <? 256); [|discriminate]. now injection P. }
  clear P. assert (G : parse_dot t = None); [|now rewrite G].
  subst t. clear o. revert R. induction h as [|c h IH]; intros R; cbn [app].
  - destruct r as [|c r]; [reflexivity|]. subst c. reflexivity.
  - cbn [forallb] in X. apply andb_prop in X as [Xc X]. cbn [span_digits]. destruct (is_digit c) eqn:D; cbn [snd]; [apply (IH X R)|].
    unfold parse_dot. cbn [lit]. destruct (byte_eqb_spec "."%byte c) as [<-|_]; [discriminate Xc|reflexivity].
Qed.
(** What follows a run of groups: the end of the text, or "::". *)
Definition stops (r : bytes) : Prop := r = [] \/ exists t, r = ":"%byte :: ":"%byte :: t.
Lemma colon_not_ipv4 t : read_ipv4 (":"%byte :: t) = None. Proof. reflexivity. Qed.
Lemma colon_not_group t : read_group (":"%byte :: t) = None. Proof. reflexivity. Qed.
Lemma stops_after (l : list group) r : stops r ->
  match print_more l ++ r with c :: _ => c = ":"%byte | [] => True end.
Proof. intros [-> |(t & ->)]; destruct l; cbn [print_more app]; auto. Qed.
Lemma stops_after_hex (l : list group) r : stops r ->
  match print_more l ++ r with c :: _ => is_hex c = false | [] => True end.
Proof. intros S. pose proof (stops_after l r S) as H. destruct (print_more l ++ r); [exact I|]. subst b. reflexivity. Qed.
Lemma read_none k r : stops r -> read_groups k false r = ([], false, r).
Proof.
  intros S. destruct k as [|k]; [reflexivity|]. cbn [read_groups]. destruct S as [-> |(t & ->)]; destruct k; cbn [after_colon];
    rewrite ?byte_eqb_refl, ?colon_not_ipv4, ?colon_not_group; reflexivity.
Qed.
Lemma read_more l : forall k r, (length l <= k)%nat -> stops r -> read_groups k false (print_more l ++ r) = (l, false, r).
Proof.
  induction l as [|g l IH]; intros k r K S; [cbn [print_more app]; now apply read_none|].
  destruct k as [|k]; [cbn in K; lia|]. cbn [length] in K. cbn [print_more app read_groups after_colon]. rewrite byte_eqb_refl.
  rewrite <- app_assoc. rewrite (group_not_ipv4 _ _ (print_group_hex g) (stops_after l r S)).
  rewrite (read_group_print g _ (stops_after_hex l r S)). rewrite IH by (lia || exact S). destruct k; reflexivity.
Qed.
Lemma read_run l k r : (length l <= k)%nat -> stops r -> read_groups k true (print_groups l ++ r) = (l, false, r).
Proof.
  intros K S. destruct l as [|g l]; cbn [print_groups app].
  - destruct k as [|k]; [reflexivity|]. cbn [read_groups after_colon].
    destruct S as [-> |(t & ->)]; destruct k; rewrite ?colon_not_ipv4, ?colon_not_group; reflexivity.
  - destruct k as [|k]; [cbn in K; lia|]. cbn [length] in K. cbn [read_groups after_colon].
    rewrite <- app_assoc. rewrite (group_not_ipv4 _ _ (print_group_hex g) (stops_after l r S)).
    rewrite (read_group_print g _ (stops_after_hex l r S)). rewrite read_more by (lia || exact S). destruct k; reflexivity.
Qed.
(** The run found is a run of zeros. *)
Definition zeros_at (l : list group) (s n : nat) : Prop := (s + n <= length l)%nat /\ forall i, (s <= i < s + n)%nat -> nth_error l i = Some zero_group.
Lemma longest_run_zeros l : forall p i cs cl ls ll, i = length p ->
  zeros_at (p ++ l) ls ll -> (cl = 0%nat \/ (zeros_at (p ++ l) cs cl /\ cs + cl = i)%nat) ->
  zeros_at (p ++ l) (fst (longest_run l i cs cl ls ll)) (snd (longest_run l i cs cl ls ll)).
Proof.
  induction l as [|g l IH]; intros p i cs cl ls ll I L C; [exact L|].
  assert (E : p ++ g :: l = (p ++ [g]) ++ l) by now rewrite <- app_assoc.
  assert (I' : S i = length (p ++ [g])) by (rewrite app_length; cbn; lia).
  cbn [longest_run]. destruct (group_eqb g zero_group) eqn:G.
  - apply group_eqb_eq in G. subst g.
    set (cs' := if (cl =? 0)%nat then i else cs).
    assert (C' : zeros_at (p ++ zero_group :: l) cs' (S cl) /\ (cs' + S cl = S i)%nat).
    { assert (N : nth_error (p ++ zero_group :: l) i = Some zero_group) by (rewrite nth_error_app2 by lia; subst i; now rewrite Nat.sub_diag).
      assert (LT : (i < length (p ++ zero_group :: l))%nat) by (rewrite app_length; cbn; lia).
      unfold cs'. destruct C as [-> |[[C1 C2] C3]].
      - cbn [Nat.eqb]. split; [|lia]. split; [lia|]. intros j J. replace j with i by lia. exact N.
      - destruct (Nat.eqb_spec cl 0) as [-> |_].
        + split; [|lia]. split; [lia|]. intros j J. replace j with i by lia. exact N.
        + split; [|lia]. split; [lia|]. intros j J. destruct (Nat.eq_dec j i) as [-> |]; [exact N|]. apply C2. lia. }
    destruct (ll <? S cl)%nat; rewrite E; apply IH; rewrite <- ?E; auto; try (right; exact C'); apply C'.
  - rewrite E. apply IH; rewrite <- ?E; auto.
Qed.
Lemma zeros_repeat n : forall (l : list group), (n <= length l)%nat -> (forall i, (i < n)%nat -> nth_error l i = Some zero_group) -> firstn n l = repeat zero_group n.
Proof.
  induction n as [|n IH]; intros l L Z; [reflexivity|]. destruct l as [|g l]; [cbn in L; lia|]. cbn [firstn repeat].
  pose proof (Z 0%nat ltac:(lia)) as Z0. cbn in Z0. injection Z0 as ->. f_equal. apply IH; [cbn in L; lia|]. intros i I. exact (Z (S i) ltac:(lia)).
Qed.
Lemma zeros_split l s n : zeros_at l s n -> l = firstn s l ++ repeat zero_group n ++ skipn (s + n) l.
Proof.
  intros [L Z]. rewrite <- (firstn_skipn s l) at 1. f_equal.
  rewrite <- (firstn_skipn n (skipn s l)) at 1. f_equal.
  - apply zeros_repeat; [rewrite skipn_length; lia|]. intros i I. rewrite <- (Z (s + i)%nat ltac:(lia)).
    rewrite <- (firstn_skipn s l) at 2. rewrite nth_error_app2; rewrite firstn_length_le by lia; [f_equal; lia|lia].
  - clear Z L. revert l. induction s as [|s IH]; intros l; [reflexivity|]. destruct l; [now rewrite !skipn_nil|]. cbn [skipn Nat.add]. apply IH.
Qed.
Lemma ipv6_of_groups i : ipv6_of (groups i) = Some i. Proof. now destruct i. Qed.
Lemma read_mapped x : read_groups 7 true (bs "ffff:" ++ print_ip x) = ([(xff, xff); (ip_a x, ip_b x); (ip_c x, ip_d x)], true, []).
Proof.
  change (bs "ffff:" ++ print_ip x) with (print_group (xff, xff) ++ ":"%byte :: print_ip x).
  remember (":"%byte :: print_ip x) as r eqn:R. cbn [read_groups after_colon].
  rewrite (group_not_ipv4 _ r (print_group_hex _)) by now subst r.
  rewrite (read_group_print _ r) by now subst r. subst r. rewrite byte_eqb_refl.
  pose proof (read_ipv4_print x [] I) as H. rewrite app_nil_r in H. rewrite H. reflexivity.
Qed.
Lemma read_ipv6_print i : read_ipv6 (print_ipv6 i) = Some (i, []).
Proof.
  unfold print_ipv6. destruct (forallb (group_eqb zero_group) (firstn 5 (groups i)) && group_eqb (g5 i) (xff, xff)) eqn:M.
  - destruct i as [a b c d e f [p1 p2] [q1 q2]]. cbn [groups firstn forallb g0 g1 g2 g3 g4 g5 g6 g7] in M.
    rewrite !andb_true_iff in M. rewrite !group_eqb_eq in M. destruct M as [(<- & <- & <- & <- & <- & _) ->].
    cbn [g6 g7 fst snd]. unfold read_ipv6. set (x := Ipv4 p1 p2 q1 q2).
    pose proof (read_run [] 8 (bs "::ffff:" ++ print_ip x) ltac:(cbn; lia) ltac:(right; now eexists)) as R.
    change (print_groups [] ++ bs "::ffff:" ++ print_ip x) with (bs "::ffff:" ++ print_ip x) in R. rewrite R.
    change (lit (bs "::") (bs "::ffff:" ++ print_ip x)) with (Some (bs "ffff:" ++ print_ip x)). cbn [length Nat.eqb obind Nat.sub Nat.add].
    rewrite read_mapped. reflexivity.
  - cbv zeta. pose proof (longest_run_zeros (groups i) [] 0 0 0 0 0 eq_refl) as Z. cbn [app] in Z.
    specialize (Z ltac:(split; [cbn; lia|intros; lia]) (or_introl eq_refl)).
    destruct (longest_run (groups i) 0 0 0 0 0) as [s n]. cbn [fst snd] in *.
    assert (L8 : length (groups i) = 8%nat) by reflexivity.
    destruct (Nat.ltb_spec 1 n) as [N|N].
    + pose proof (zeros_split _ _ _ Z) as E. destruct Z as [Z _]. unfold read_ipv6.
      assert (LH : length (firstn s (groups i)) = s) by (rewrite firstn_length_le; lia).
      assert (LT : length (skipn (s + n) (groups i)) = (8 - (s + n))%nat) by (rewrite skipn_length; lia).
      set (h := firstn s (groups i)) in *. set (t := skipn (s + n) (groups i)) in *.
      rewrite (read_run h 8 (bs "::" ++ print_groups t)); [|lia|right; now eexists].
      rewrite LH. destruct (Nat.eqb_spec s 8) as [X|_]; [lia|].
      change (lit (bs "::") (bs "::" ++ print_groups t)) with (Some (print_groups t)). cbn [obind].
      pose proof (read_run t (8 - (s + 1)) [] ltac:(lia) (or_introl eq_refl)) as R. rewrite app_nil_r in R. rewrite R.
      replace (8 - s - length t)%nat with n by lia. rewrite <- E, ipv6_of_groups. reflexivity.
    + unfold read_ipv6. pose proof (read_run (groups i) 8 [] ltac:(lia) (or_introl eq_refl)) as R. rewrite app_nil_r in R. rewrite R.
      rewrite L8. cbn [Nat.eqb]. rewrite ipv6_of_groups. reflexivity.
Qed.
Lemma ipv6_not_ipv4 i : read_ipv4 (print_ipv6 i) = None.
Proof.
  unfold print_ipv6. destruct (_ && _); [reflexivity|]. cbv zeta.
  assert (G : forall l r, stops r -> read_ipv4 (print_groups l ++ r) = None).
  { intros [|g l] r S; cbn [print_groups app].
    - destruct S as [-> |(t & ->)]; reflexivity.
    - rewrite <- app_assoc. apply group_not_ipv4; [apply print_group_hex|]. now apply stops_after. }
  destruct (1 <? _)%nat.
  - apply G. right. now eexists.
  - pose proof (G (groups i) [] (or_introl eq_refl)) as H. now rewrite app_nil_r in H.
Qed.
Lemma parse_ip_addr_print i : parse_ip_addr (print_ip_addr i) = Some i.
Proof.
  unfold parse_ip_addr. destruct i as [i|i]; cbn [print_ip_addr].
  - pose proof (read_ipv4_print i [] I) as H. rewrite app_nil_r in H. now rewrite H.
  - now rewrite ipv6_not_ipv4, read_ipv6_print.
Qed.
Lemma is_hex_ascii h : forallb is_hex h = true -> forallb (fun b => b2n b <? 128) h = true.
Proof.
  intros H. apply forallb_forall. intros b B. rewrite forallb_forall in H. specialize (H b B). unfold is_hex, digit16 in H.
  destruct ((48 <=? b2n b) && (b2n b <=? 57)) eqn:E1; [lia|]. destruct ((97 <=? b2n b) && (b2n b <=? 102)) eqn:E2; [lia|].
  destruct ((65 <=? b2n b) && (b2n b <=? 70)) eqn:E3; [lia|discriminate].
Qed.
Lemma print_groups_ascii l : forallb (fun b => b2n b <? 128) (print_groups l) = true.
Proof.
  assert (M : forall l, forallb (fun b => b2n b <? 128) (print_more l) = true).
  { clear l. induction l as [|g l IH]; [reflexivity|]. cbn [print_more forallb]. rewrite forallb_app, IH, (is_hex_ascii _ (print_group_hex g)). reflexivity. }
  destruct l as [|g l]; [reflexivity|]. cbn [print_groups]. rewrite forallb_app, M, (is_hex_ascii _ (print_group_hex g)). reflexivity.
Qed.
Lemma print_ip_addr_ascii i : forallb (fun b => b2n b <? 128) (print_ip_addr i) = true.
Proof.
  destruct i as [i|i]; cbn [print_ip_addr]; [apply print_ip_ascii|]. unfold print_ipv6. destruct (_ && _).
  - rewrite forallb_app, print_ip_ascii. reflexivity.
  - cbv zeta. destruct (1 <? _)%nat; rewrite ?forallb_app, !print_groups_ascii; reflexivity.
Qed.

Lemma js_ip_law : jlawful js_ip.
Proof.
  apply jlawful_same. intros i _. split; [|reflexivity]. repeat split.
  - cbn [js_ip jser str jok okey]. apply ascii_valid, print_ip_addr_ascii.
  - discriminate.
  - cbn [js_ip jser jdec str]. apply parse_ip_addr_print.
Qed.

(** ** Vec *)
Lemma js_vec_law {A} (c : jcodec A) : jlawful c -> jlawful (js_vec c).
Proof.
  intros L l. cbn [js_vec jwf]. intros H.
  assert (G : exists ns, oseq (map norm (map (jser c) l)) = Some ns /\
     Forall2 (fun a j => good c a j) l (map (jser c) l) /\ Forall2 (fun a j => good c a j) l ns).
  { induction l as [|a l IH]; [exists []; repeat split; constructor|].
    cbn [forallb] in H. apply andb_true_iff in H as [H1 H2]. destruct (IH H2) as (ns & E & F1 & F2).
    destruct (L a H1) as [G (n & N & Gn)]. exists (n :: ns). cbn [map oseq]. rewrite N, E. repeat split; constructor; auto. }
  destruct G as (ns & E & F1 & F2).
  assert (K : forall js, Forall2 (fun a j => good c a j) l js -> good (js_vec c) l (JArr js)).
  { intros js F. split; [|split; [discriminate|]].
    - cbn [jok]. clear -F. induction F as [|a j l js [G _] F IH]; cbn; [reflexivity|now rewrite G].
    - intros d Hd. cbn [js_vec jneed] in Hd. destruct d as [|[|d]]; [lia|lia|].
      cbn [strict js_vec jdec].
      assert (D : (jneed c <= S d)%nat) by lia. clear -F D. induction F as [|a j l js (_ & _ & G) F [IH1 IH2]]; [auto|].
      destruct (G (S d) D) as [G1 G2]. cbn [forallb map oseq]. rewrite G1, IH1, G2. cbn [andb]. split; [reflexivity|].
      rewrite IH2. reflexivity. }
  split; [apply K, F1|]. exists (JArr ns). cbn [js_vec jser norm]. rewrite E. cbn [obind]. split; [reflexivity|]. apply K, F2.
Qed.

(** ** Structs *)
Definition pres (fields : list (bytes * option json)) : list (bytes * json) :=
  flat_map (fun f => match snd f with Some v => [(fst f, v)] | None => [] end) fields.

Lemma ser_struct_pres fields : ser_struct fields = JObj (map rekey (pres fields)).
Proof.
  unfold ser_struct, pres. f_equal. induction fields as [|[k [v|]] r IH]; cbn; [reflexivity| |exact IH].
  f_equal. exact IH.
Qed.

Fixpoint nodupb (l : list bytes) : bool :=
  match l with [] => true | x :: r => negb (existsb (bytes_eqb x) r) && nodupb r end.
Lemma nodupb_NoDup l : nodupb l = true -> NoDup l.
Proof.
  induction l as [|x l IH]; cbn; [constructor|]. intros H. apply andb_true_iff in H as [H1 H2].
  constructor; auto. intros Hin. apply negb_true_iff in H1. rewrite <- not_true_iff_false in H1.
  apply H1, existsb_exists. exists x. split; auto. apply bytes_eqb_refl.
Qed.
Definition names_ok (l : list bytes) : bool := nodupb l && forallb utf8_valid l.

Fixpoint assoc (k : bytes) (m : list (bytes * json)) : option json :=
  match m with [] => None | (k', v) :: r => if bytes_eqb k k' then Some v else assoc k r end.

Lemma assoc_notin k m : ~ In k (map fst m) -> assoc k m = None.
Proof.
  induction m as [|[k' v] m IH]; cbn; [auto|]. intros H. destruct (bytes_eqb_spec k k'); [subst; tauto|]. apply IH; tauto.
Qed.
Lemma assoc_In k v m : NoDup (map fst m) -> In (k, v) m -> assoc k m = Some v.
Proof.
  induction m as [|[k' v'] m IH]; cbn [map fst assoc]; intros ND H; [contradiction|destruct H as [E|H]].
  - inversion E; subst. now rewrite bytes_eqb_refl.
  - inversion ND as [|? ? N1 N2]; subst. destruct (bytes_eqb_spec k k').
    + subst. exfalso. apply N1. apply in_map_iff. exists (k', v). auto.
    + auto.
Qed.
Lemma assoc_Some k v m : assoc k m = Some v -> In (k, v) m.
Proof.
  induction m as [|[k' v'] m IH]; cbn; [discriminate|]. destruct (bytes_eqb_spec k k'); intros H; [inversion H; subst; auto|right; auto].
Qed.
Lemma assoc_perm k m m' : NoDup (map fst m) -> Permutation m m' -> assoc k m = assoc k m'.
Proof.
  intros ND P. assert (ND' : NoDup (map fst m')) by (eapply Permutation_NoDup; [apply Permutation_map, P|auto]).
  destruct (assoc k m) as [v|] eqn:E.
  - apply assoc_Some in E. symmetry. apply assoc_In; auto. eapply Permutation_in; eauto.
  - destruct (assoc k m') as [v|] eqn:E'; [|reflexivity]. apply assoc_Some in E'.
    apply Permutation_sym in P. rewrite (assoc_In k v m) in E; [discriminate|auto|eapply Permutation_in; eauto].
Qed.

Lemma find_last_rekey k m : NoDup (map fst m) -> find_last k (map rekey m) = assoc k m.
Proof.
  induction m as [|[k' v] m IH]; cbn [map fst find_last assoc rekey snd]; intros ND; [reflexivity|].
  inversion ND as [|? ? N1 N2]; subst. rewrite IH by auto. cbn [okey_eqb].
  destruct (bytes_eqb_spec k k').
  - subst. rewrite assoc_notin; auto.
  - destruct (assoc k m); reflexivity.
Qed.

Lemma count_key_rekey k m : NoDup (map fst m) -> (count_key k (map rekey m) <= 1)%nat.
Proof.
  unfold count_key. induction m as [|[k' v] m IH]; cbn [map fst filter rekey okey_eqb]; intros ND; [cbn; lia|].
  inversion ND as [|? ? N1 N2]; subst. specialize (IH N2).
  destruct (bytes_eqb_spec k k'); cbn [List.length]; [|lia].
  subst. assert (E : filter (fun p : option bytes * json => okey_eqb k' (fst p)) (map rekey m) = []).
  { clear -N1. induction m as [|[k v] m IH]; cbn; [reflexivity|]. cbn in N1.
    destruct (bytes_eqb_spec k' k); [subst; tauto|]. apply IH; tauto. }
  rewrite E. cbn. lia.
Qed.

Lemma pres_keys fields k : In k (map fst (pres fields)) -> In k (map fst fields).
Proof.
  induction fields as [|[k' [v|]] r IH]; cbn; [auto| |]; intros H; [destruct H; auto|auto].
Qed.
Lemma pres_nodup fields : NoDup (map fst fields) -> NoDup (map fst (pres fields)).
Proof.
  induction fields as [|[k [v|]] r IH]; cbn; intros ND; [constructor| |].
  - inversion ND; subst. constructor; auto. intros H. apply pres_keys in H. auto.
  - inversion ND; auto.
Qed.
Lemma assoc_pres fields : NoDup (map fst fields) ->
  map (fun k => assoc k (pres fields)) (map fst fields) = map snd fields.
Proof.
  intros ND. rewrite map_map.
  assert (K : forall f, In f fields -> assoc (fst f) (pres fields) = snd f).
  { intros [k o] Hin. cbn [fst snd]. revert Hin ND. induction fields as [|[k' o'] r IH]; [contradiction|].
    intros [E|H] ND; inversion ND as [|? ? N1 N2]; subst.
    - inversion E; subst. destruct o as [v|]; cbn; [now rewrite bytes_eqb_refl|].
      apply assoc_notin. intros H. apply pres_keys in H. auto.
    - assert (k <> k') by (intros ->; apply N1, in_map_iff; exists (k', o); auto).
      destruct o' as [v|]; cbn; [destruct (bytes_eqb_spec k k'); [contradiction|]|]; auto. }
  clear ND. induction fields as [|f r IH]; cbn [map]; [reflexivity|]. f_equal.
  - apply K. now left.
  - apply map_ext_in. intros g Hg. apply K. now right.
Qed.

Definition vok (k : nat) (v : json) : Prop :=
  jok v = true /\ v <> JNull /\ forall d, (k <= d)%nat -> strict d v = true.
Definition fok (k : nat) (o o' : option json) : Prop :=
  match o, o' with
  | None, None => True
  | Some v, Some v' => vok k v /\ vok k v' /\ norm v = Some v'
  | _, _ => False
  end.

Lemma perm_struct k names fields m : map fst fields = names -> names_ok names = true ->
  Forall (fun f => match snd f with Some v => vok k v | None => True end) fields ->
  Permutation m (pres fields) ->
  let j := JObj (map rekey m) in
  jok j = true /\ j <> JNull /\
  (forall d, (Nat.max 2 (S k) <= d)%nat -> strict d j = true /\
     forall deny, dec_struct names deny d j = Some (map snd fields)) /\
  map (fun n => jget n j) names = map snd fields /\
  (forall n, ~ In n names -> jget n j = None).
Proof.
  intros <- NO F P j. apply andb_true_iff in NO as [ND U]. apply nodupb_NoDup in ND.
  rewrite forallb_forall in U.
  pose proof (pres_nodup _ ND) as NDp.
  assert (NDm : NoDup (map fst m)) by (eapply Permutation_NoDup; [apply Permutation_map, Permutation_sym, P|auto]).
  assert (Fm : Forall (fun p => vok k (snd p) /\ In (fst p) (map fst fields)) m).
  { eapply Permutation_Forall; [apply Permutation_sym, P|].
    clear -F. apply Forall_forall. intros [k' v] H.
    unfold pres in H. apply in_flat_map in H as ([k0 [v0|]] & H0 & E); [|contradiction E]. destruct E as [E|[]]. cbn in E. inversion E; subst.
    rewrite Forall_forall in F. specialize (F _ H0). cbn in F. split; auto. cbn.
    apply in_map_iff. exists (k', Some v). auto. }
  rewrite Forall_forall in Fm.
  assert (GET : map (fun n => jget n j) (map fst fields) = map snd fields).
  { rewrite <- (assoc_pres fields ND). apply map_ext. intros n. cbn [j jget].
    rewrite find_last_rekey by auto. now apply assoc_perm. }
  repeat apply conj; auto.
  - apply jok_obj_rekey. apply Forall_forall. intros p Hp. destruct (Fm p Hp) as [(V & _) I]. auto.
  - discriminate.
  - intros d Hd. destruct d as [|[|d]]; [lia|lia|]. split.
    + cbn [j strict]. apply forallb_forall. intros p Hp. apply in_map_iff in Hp as (q & <- & Hq).
      destruct (Fm q Hq) as [(_ & _ & S) _]. cbn [rekey fst snd is_some andb]. apply S. lia.
    + intros deny. cbn [j dec_struct].
      assert (forallb (fun p : option bytes * json => is_some (fst p)) (map rekey m) = true) as ->.
      { apply forallb_forall. intros p Hp. apply in_map_iff in Hp as (q & <- & Hq). reflexivity. }
      assert (forallb (fun n => (count_key n (map rekey m) <=? 1)%nat) (map fst fields) = true) as ->.
      { apply forallb_forall. intros n _. apply Nat.leb_le. now apply count_key_rekey. }
      assert (forallb (fun p : option bytes * json => okey_in (map fst fields) (fst p)) (map rekey m) = true) as ->.
      { apply forallb_forall. intros p Hp. apply in_map_iff in Hp as (q & <- & Hq). cbn [rekey fst okey_in].
        destruct (Fm q Hq) as [_ I]. apply existsb_exists. exists (fst q). split; auto. apply bytes_eqb_refl. }
      rewrite orb_true_r. cbn [andb]. f_equal. exact GET.
  - intros n Hn. cbn [j jget]. rewrite find_last_rekey by auto. apply assoc_notin.
    intros H. apply Hn. apply in_map_iff in H as (q & <- & Hq). destruct (Fm q Hq) as [_ I]. exact I.
Qed.

Lemma struct_law k names fields fields' : map fst fields = names -> map fst fields' = names ->
  names_ok names = true -> Forall2 (fok k) (map snd fields) (map snd fields') ->
  let ok j vals :=
    jok j = true /\ j <> JNull /\
    (forall d, (Nat.max 2 (S k) <= d)%nat -> strict d j = true /\
       forall deny, dec_struct names deny d j = Some vals) /\
    map (fun n => jget n j) names = vals /\
    (forall n, ~ In n names -> jget n j = None) in
  ok (ser_struct fields) (map snd fields) /\
  exists n, norm (ser_struct fields) = Some n /\ ok n (map snd fields').
Proof.
  intros E E' NO F ok. rewrite ser_struct_pres. split.
  - apply (perm_struct k names fields (pres fields)); auto.
    clear -F. revert fields' F. induction fields as [|[n o] r IH]; intros [|[n' o'] r'] F; cbn in *; inversion F; subst; constructor; eauto.
    destruct o, o'; cbn in *; try tauto.
  - exists (JObj (map rekey (sort_keys (pres fields')))). split.
    + apply norm_obj.
      * apply pres_nodup. rewrite E. apply andb_true_iff in NO as [ND _]. now apply nodupb_NoDup.
      * clear -E E' F. subst names. revert fields' E' F. induction fields as [|[n o] r IH]; intros [|[n' o'] r'] E' F; cbn in *; try discriminate.
        { constructor. }
        { inversion E'; inversion F; subst. destruct o, o'; cbn in *; try tauto; eauto. constructor; eauto. cbn.
          match goal with H : vok _ _ /\ _ |- _ => destruct H as ((_ & _ & _) & (_ & X & _) & Y) end. auto. }
    + apply (perm_struct k names fields'); auto.
      * clear -F. revert fields F. induction fields' as [|[n o] r IH]; intros [|[n' o'] r'] F; cbn in *; inversion F; subst; constructor; eauto.
        destruct o, o'; cbn in *; try tauto.
      * apply sort_keys_perm.
Qed.

Lemma good_vok {A} (c : jcodec A) a j k : good c a j -> (jneed c <= k)%nat -> vok k j.
Proof. intros (G1 & G2 & G3) H. repeat split; auto. intros d Hd. apply G3. lia. Qed.

Lemma good_dec {A} (c : jcodec A) a j d : good c a j -> (jneed c <= d)%nat -> jdec c d j = Some a.
Proof. intros (G1 & G2 & G3) H. now apply G3. Qed.

Lemma fok_good {A} (c : jcodec A) a n k : good c a (jser c a) -> norm (jser c a) = Some n -> good c a n -> (jneed c <= k)%nat ->
  fok k (Some (jser c a)) (Some n).
Proof. intros. repeat split; eauto using good_vok; try (eapply good_vok; eauto). Qed.

#[export] Hint Resolve js_string_law js_hex_law js_hex_n_law js_uint_law js_bool_law js_restart_law js_ip_law js_vec_law : jlaw.

(** Given [L : jlawful c] for each field codec, obtain the normal forms. *)
Ltac field_law c a H n G N Gn :=
  let L := fresh in assert (L : jlawful c) by (eauto with jlaw);
  destruct (L a H) as [G (n & N & Gn)]; clear L.

Ltac splitwf := repeat match goal with H : (_ && _)%bool = true |- _ => apply andb_true_iff in H as [? ?] end.

(** finish: apply struct_law at [k] with explicit normalised fields *)
Ltac struct_finish k names f f' :=
  let S1 := fresh in let S2 := fresh in
  destruct (struct_law k names f f' eq_refl eq_refl eq_refl) as [S1 (?n & ?N & S2)];
  [ cbn [map snd]; repeat (apply Forall2_cons || apply Forall2_nil); try (eapply fok_good; [eassumption|eassumption|eassumption|cbn; lia])
  | ].

Ltac read_struct S :=
  let J := fresh in let NN := fresh in let D := fresh in
  destruct S as (J & NN & D & _); split; [exact J|split; [exact NN|]];
  let d := fresh "d" in let Hd := fresh in intros d Hd; cbn in Hd;
  let D1 := fresh in let D2 := fresh in
  destruct (D d ltac:(cbn; lia)) as [D1 D2]; split; [exact D1|];
  cbn [jdec]; rewrite D2; cbn [map snd req].

Ltac dec_fields := repeat (erewrite good_dec by (eassumption || (cbn; lia)); cbn [obind]); try reflexivity.
