(** Key sets read from a directory. *)
From Coq Require Import Permutation Sorting.Sorted ZifyBool ZifyN ZifyNat.
From Verif Require Import Base Utf8 Hex HexProofs Borsh Json JsonProofs Types TypesBorsh TypesJson Msg World Attest Services Builder CliParser CliProofs
  SpecApproval ApprovalProofs ExportProofs Client SpecClient ClientProofs.
Local Open Scope N_scope.

(** ** Splitting *)
Fixpoint join (c : byte) (ws : list bytes) : bytes :=
  match ws with [] => [] | [w] => w | w :: r => w ++ c :: join c r end.
Lemma split_nonempty c l : split_on c l <> [].
Proof. destruct l as [|x r]; cbn [split_on]; [discriminate|]. destruct (byte_eqb x c); [discriminate|]. destruct (split_on c r); discriminate. Qed.
Lemma join_cons c w ws : ws <> [] -> join c (w :: ws) = w ++ c :: join c ws.
Proof. destruct ws; [congruence|reflexivity]. Qed.
Lemma split_join c l : join c (split_on c l) = l.
Proof.
  induction l as [|x r IH]; [reflexivity|]. cbn [split_on]. pose proof (split_nonempty c r) as N.
  destruct (byte_eqb_spec x c) as [->|E].
  - rewrite join_cons by exact N. cbn [app]. now rewrite IH.
  - destruct (split_on c r) as [|w ws]; [congruence|]. destruct ws as [|w2 ws]; cbn [join app] in *; now rewrite IH.
Qed.
Lemma split_free c l : Forall (fun w => ~ In c w) (split_on c l).
Proof.
  induction l as [|x r IH]; cbn [split_on]; [repeat constructor; easy|].
  destruct (byte_eqb_spec x c) as [->|E]; [constructor; [easy|exact IH]|].
  destruct (split_on c r) as [|w ws]; [repeat constructor; cbn; intros [?|[]]; congruence|].
  inversion IH; subst. constructor; [|assumption]. intros [?|?]; [congruence|auto].
Qed.
Lemma split_word c w : ~ In c w -> split_on c w = [w].
Proof.
  induction w as [|x w IH]; intros N; cbn [split_on]; [reflexivity|].
  destruct (byte_eqb_spec x c) as [->|E]; [exfalso; apply N; now left|]. rewrite IH; [reflexivity|]. intros I. apply N. now right.
Qed.
Lemma split_app c w r : ~ In c w -> split_on c (w ++ c :: r) = w :: split_on c r.
Proof.
  induction w as [|x w IH]; intros N; cbn [split_on app].
  - destruct (byte_eqb_spec c c); [reflexivity|congruence].
  - destruct (byte_eqb_spec x c) as [->|E]; [exfalso; apply N; now left|]. rewrite IH; [reflexivity|]. intros I. apply N. now right.
Qed.
Lemma split_last c r w : ~ In c w -> split_on c (r ++ c :: w) = split_on c r ++ [w].
Proof.
  intros N. induction r as [|x r IH]; cbn [split_on app].
  - destruct (byte_eqb_spec c c); [|congruence]. now rewrite split_word.
  - destruct (byte_eqb_spec x c) as [->|E]; [now rewrite IH|]. rewrite IH.
    destruct (split_on c r) as [|y ys] eqn:S; [now apply split_nonempty in S|]. reflexivity.
Qed.

Lemma stem_iff name a : hd [] (split_file_name name) = a <-> stem name a.
Proof.
  unfold split_file_name, stem. split.
  - intros <-. pose proof (split_join "." name) as J. pose proof (split_free "." name) as F. pose proof (split_nonempty "." name) as N.
    destruct (split_on "." name) as [|w ws]; [congruence|]. inversion F; subst. cbn [hd]. split; [assumption|].
    destruct ws as [|w2 ws]; [left; reflexivity|right]. exists (join "." (w2 :: ws)). now rewrite <- join_cons by discriminate.
  - intros [N [-> |[r ->]]]; [now rewrite split_word|now rewrite split_app].
Qed.
Lemma last_app {A} (l : list A) x d : last (l ++ [x]) d = x.
Proof. induction l as [|y l IH]; [reflexivity|]. cbn [app last]. destruct (l ++ [x]) eqn:E; [destruct l; discriminate|exact IH]. Qed.
Lemma join_last c w ws : ws <> [] -> exists r, join c (ws ++ [w]) = r ++ c :: w.
Proof.
  induction ws as [|x ws IH]; [congruence|]. intros _. destruct ws as [|y ws]; [exists x; reflexivity|].
  destruct IH as [r E]; [discriminate|]. cbn [app] in *. exists (x ++ c :: r). rewrite join_cons by discriminate. rewrite E.
  rewrite <- app_assoc. reflexivity.
Qed.
Lemma extension_iff name e : last_is e (split_file_name name) = true <-> extension name e.
Proof.
  unfold last_is, split_file_name, extension. rewrite bytes_eqb_eq. split.
  - intros <-. pose proof (split_join "." name) as J. pose proof (split_free "." name) as F. pose proof (split_nonempty "." name) as N.
    destruct (exists_last N) as (ws & w & E). rewrite E in *. rewrite last_app. apply Forall_app in F as [_ F]. inversion F; subst. split; [assumption|].
    destruct ws as [|w2 ws]; [left; reflexivity|right].
    destruct (join_last "." w (w2 :: ws)) as [r Er]; [discriminate|]. exists r. exact Er.
  - intros [N [-> |[r ->]]]; [now rewrite split_word|]. rewrite split_last by exact N. apply last_app.
Qed.
Lemma hidden_iff n : starts_with (bs "._") n = true <-> hidden n.
Proof. rewrite starts_with_iff. reflexivity. Qed.
Lemma key_name_iff e : negb (starts_with (bs "._") (fst e)) && last_is PUB_EXT (split_file_name (fst e)) = true <-> key_name e.
Proof.
  unfold key_name. rewrite andb_true_iff, extension_iff, negb_true_iff, <- hidden_iff.
  destruct (starts_with (bs "._") (fst e)); split; intuition congruence.
Qed.

(** ** Order *)
Lemma text_le_iff a : forall b, bytes_cmp a b <> Gt <-> text_le a b.
Proof.
  induction a as [|x a IH]; intros [|y b]; cbn [bytes_cmp].
  - split; [intros _; exists []; left; split; [reflexivity|now exists []]|intros _; discriminate].
  - split; [intros _; exists []; left; split; [reflexivity|now exists (y :: b)]|intros _; discriminate].
  - split; [congruence|]. intros (p & [[Ep [r E]]|(x1 & y1 & r & s & E1 & E2 & _)]); [subst p; discriminate|].
    destruct p; discriminate.
  - destruct (N.compare_spec (b2n x) (b2n y)) as [E|L|G].
    + apply b2n_inj in E. subst y. rewrite IH. split.
      * intros (p & [[-> [r ->]]|(x1 & y1 & r & s & -> & -> & H)]).
        -- exists (x :: p). left. split; [reflexivity|now exists r].
        -- exists (x :: p). right. exists x1, y1, r, s. auto.
      * intros (p & [[Ep [r Er]]|(x1 & y1 & r & s & E1 & E2 & H)]).
        -- subst p. cbn [app] in Er. exists a. left. split; [reflexivity|]. exists r. congruence.
        -- destruct p as [|z p]; cbn [app] in *; [injection E1 as E1 _; injection E2 as E2 _; subst; lia|].
           injection E1 as _ E1. injection E2 as _ E2. exists p. right. exists x1, y1, r, s. auto.
    + split; [|discriminate]. intros _. exists []. right. exists x, y, a, b. auto.
    + split; [congruence|]. intros (p & [[Ep [r Er]]|(x1 & y1 & r & s & E1 & E2 & H)]).
      * subst p. cbn [app] in Er. injection Er as Er _. subst. lia.
      * destruct p as [|z p]; cbn [app] in *; injection E1 as E1 _; injection E2 as E2 _; subst; lia.
Qed.
Lemma bytes_cmp_refl a : bytes_cmp a a = Eq.
Proof. induction a as [|x a IH]; cbn [bytes_cmp]; [reflexivity|]. now rewrite N.compare_refl. Qed.
Lemma member_le_iff a b : member_leb a b = true <-> member_le a b.
Proof.
  unfold member_leb, member_le. rewrite <- !text_le_iff. destruct (bytes_cmp (m_alias a) (m_alias b)) eqn:E.
  - apply bytes_cmp_eq in E. rewrite E. split.
    + intros H. left. split; [reflexivity|]. destruct (bytes_cmp (m_pub_key a) (m_pub_key b)); congruence.
    + intros [[_ H]|[N _]]; [|congruence]. destruct (bytes_cmp (m_pub_key a) (m_pub_key b)); congruence.
  - split; [|reflexivity]. intros _. right. split; [|discriminate]. intros X. rewrite X, bytes_cmp_refl in E. discriminate.
  - split; [discriminate|]. intros [[X _]|[_ H]]; [rewrite X, bytes_cmp_refl in E; discriminate|congruence].
Qed.
Lemma sorted_strongly l : sorted l <-> StronglySorted member_le l.
Proof.
  split.
  - induction 1 as [|m l H S IH]; constructor; [exact IH|]. apply Forall_forall. intros x I. apply member_le_iff. auto.
  - induction 1 as [|m l S IH H]; constructor; [|exact IH]. intros x I. apply member_le_iff. rewrite Forall_forall in H. auto.
Qed.

(** ** mapM and filters *)
Lemma mapM_iff {A B} (f : A -> option B) l : forall r, mapM f l = Some r <-> Forall2 (fun a b => f a = Some b) l r.
Proof.
  induction l as [|a l IH]; intros r; cbn [mapM].
  - split; [intros E; assert (r = []) as -> by congruence; constructor|inversion 1; reflexivity].
  - rewrite obind_some. split.
    + intros (b & E & H). apply obind_some in H as (bs & E2 & H). assert (r = b :: bs) as -> by congruence. constructor; [exact E|now apply IH].
    + inversion 1 as [|a' b l' bs' E F]; subst. exists b. split; [exact E|]. apply IH in F. rewrite F. reflexivity.
Qed.
Lemma Forall2_impl2 {A B} (P Q : A -> B -> Prop) l r : (forall a b, P a b -> Q a b) -> Forall2 P l r -> Forall2 Q l r.
Proof. intros H. induction 1; constructor; auto. Qed.
Lemma Forall2_perm {A B} (P : A -> B -> Prop) l l' r : Permutation l l' -> Forall2 P l r -> exists r', Forall2 P l' r' /\ Permutation r r'.
Proof.
  intros Pm. revert r. induction Pm as [|x l l' Pm IH|x y l|l l' l'' P1 IH1 P2 IH2]; intros r F.
  - inversion F; subst. exists []. split; constructor.
  - inversion F as [|a b l0 r0 E F']; subst. destruct (IH _ F') as (r' & F2 & Pr). exists (b :: r'). split; constructor; auto.
  - inversion F as [|a b l0 r0 E F']; subst. inversion F' as [|a2 b2 l2 r2 E2 F2]; subst. exists (b2 :: b :: r2). split; [repeat constructor; auto|constructor].
  - destruct (IH1 _ F) as (r' & F2 & Pr). destruct (IH2 _ F2) as (r'' & F3 & Pr'). exists r''. split; [exact F3|now transitivity r'].
Qed.
Lemma filter_partition {A} (f : A -> bool) l : Permutation l (filter f l ++ filter (fun x => negb (f x)) l).
Proof.
  induction l as [|a l IH]; cbn [filter]; [constructor|]. destruct (f a); cbn [negb app]; [now constructor|].
  now apply Permutation_cons_app.
Qed.
Lemma filter_perm {A} (f : A -> bool) l l' : Permutation l l' -> Permutation (filter f l) (filter f l').
Proof.
  induction 1; cbn [filter]; try constructor.
  - destruct (f x); [now constructor|assumption].
  - destruct (f x), (f y); try constructor; apply Permutation_refl.
  - etransitivity; eauto.
Qed.
Lemma filter_all {A} (f : A -> bool) l : Forall (fun x => f x = true) l -> filter f l = l.
Proof. induction 1 as [|a l E _ IH]; cbn [filter]; [reflexivity|]. now rewrite E, IH. Qed.
Lemma filter_none {A} (f : A -> bool) l : Forall (fun x => f x = false) l -> filter f l = [].
Proof. induction 1 as [|a l E _ IH]; cbn [filter]; [reflexivity|]. now rewrite E. Qed.
Lemma filter_filter {A} (f g : A -> bool) l : filter f (filter g l) = filter (fun x => g x && f x) l.
Proof. induction l as [|a l IH]; cbn [filter]; [reflexivity|]. destruct (g a); cbn [filter andb]; [destruct (f a); now rewrite IH|exact IH]. Qed.
Lemma partition_filter {A} (f : A -> bool) l files others : Permutation l (files ++ others) ->
  Forall (fun x => f x = true) files -> Forall (fun x => f x = false) others -> Permutation (filter f l) files.
Proof.
  intros P F O. apply (filter_perm f) in P. rewrite filter_app, (filter_all f files F), (filter_none f others O), app_nil_r in P. exact P.
Qed.

(** ** Numbers *)
Definition key_entry (e : bytes * file) : bool := negb (starts_with (bs "._") (fst e)) && last_is PUB_EXT (split_file_name (fst e)).
Lemma key_entry_iff e : key_entry e = true <-> key_name e.
Proof. exact (key_name_iff e). Qed.
Lemma with_pub d : with_ext PUB_EXT d = filter key_entry d.
Proof. unfold with_ext, find_file_paths. rewrite filter_filter. reflexivity. Qed.
Definition threshold_entry (e : bytes * file) : bool :=
  negb (starts_with (bs "._") (fst e)) && match split_file_name (fst e) with [w] => bytes_eqb w QUORUM_THRESHOLD_FILE | _ => false end.
Lemma threshold_entry_iff e : threshold_entry e = true <-> threshold_name e.
Proof.
  destruct e as [n f]. unfold threshold_entry, threshold_name. cbn [fst]. rewrite andb_true_iff. split.
  - intros [_ H]. unfold split_file_name in H. pose proof (split_join "." n) as J.
    destruct (split_on "." n) as [|w [|w2 ws]]; try discriminate. apply bytes_eqb_eq in H. exact (eq_trans (eq_sym J) H).
  - intros E. rewrite E. split; reflexivity.
Qed.

Definition dval (v : N) (ds : bytes) : N := fold_left (fun v c => 10 * v + (b2n c - 48)) ds v.
Lemma of_uint_acc_val u : forall acc, N.pos (Pos.of_uint_acc u acc) = dval (N.pos acc) (bytes_of_uint u).
Proof. unfold dval. induction u; intros acc; cbn [Pos.of_uint_acc bytes_of_uint fold_left]; [reflexivity|..]; rewrite IHu; f_equal; match goal with |- context [b2n ?b] => let v := eval vm_compute in (b2n b) in change (b2n b) with v end; lia. Qed.
Lemma of_uint_val u : N.of_uint u = dval 0 (bytes_of_uint u).
Proof.
  unfold dval, N.of_uint. induction u; cbn [Pos.of_uint bytes_of_uint fold_left]; try reflexivity; try exact IHu; apply of_uint_acc_val.
Qed.
Lemma uint_of_bytes_inv l : forall u, uint_of_bytes l = Some u <-> l = bytes_of_uint u.
Proof.
  intros u. split; [|intros ->; apply uint_bytes]. revert u.
  induction l as [|b r IH]; intros u; cbn [uint_of_bytes].
  - intros E. assert (u = Decimal.Nil) as -> by congruence. reflexivity.
  - intros E. apply obind_some in E as (u' & E & H). apply IH in E. subst r.
    destruct b; try discriminate; assert (X : u = _) by (injection H as H; symmetry; exact H); rewrite X; reflexivity.
Qed.
Lemma digits_uint ds : Forall (fun c => 48 <= b2n c <= 57) ds -> exists u, ds = bytes_of_uint u.
Proof.
  induction 1 as [|c ds H _ [u ->]]; [exists Decimal.Nil; reflexivity|].
  destruct c; try (exfalso; cbn in H; lia);
  [exists (Decimal.D0 u)|exists (Decimal.D1 u)|exists (Decimal.D2 u)|exists (Decimal.D3 u)|exists (Decimal.D4 u)|exists (Decimal.D5 u)
  |exists (Decimal.D6 u)|exists (Decimal.D7 u)|exists (Decimal.D8 u)|exists (Decimal.D9 u)]; reflexivity.
Qed.
Lemma uint_digits u : Forall (fun c => 48 <= b2n c <= 57) (bytes_of_uint u).
Proof. induction u; cbn [bytes_of_uint]; constructor; auto; cbn; lia. Qed.
Lemma dec_val_iff l n : dec_val l = Some n <-> Forall (fun c => 48 <= b2n c <= 57) l /\ n = dval 0 l.
Proof.
  unfold dec_val. rewrite obind_some. split.
  - intros (u & E & H). apply uint_of_bytes_inv in E. subst l. split; [apply uint_digits|]. rewrite <- of_uint_val. congruence.
  - intros [F ->]. destruct (digits_uint l F) as [u ->]. exists u. split; [apply uint_bytes|]. now rewrite of_uint_val.
Qed.
Lemma decimal_iff w n : parse_unsigned 4294967296 w = Some n <-> decimal w n.
Proof.
  assert (G : forall ds, (match ds with [] => None | _ => match dec_val ds with Some n => if n <? 4294967296 then Some n else None | None => None end end) = Some n
     <-> ds <> [] /\ n < 4294967296 /\ Forall (fun c => 48 <= b2n c <= 57) ds /\ n = dval 0 ds).
  { intros ds. split.
    - destruct ds as [|c r] eqn:Ed; [discriminate|]. rewrite <- Ed. destruct (dec_val ds) as [m|] eqn:D; [|discriminate].
      apply dec_val_iff in D as [F D]. destruct (N.ltb_spec m 4294967296); [|discriminate]. intros E. assert (m = n) as <- by congruence.
      repeat (split; [congruence || assumption|]). exact D.
    - intros (N & L & F & E). destruct ds as [|c r] eqn:Ed; [congruence|]. rewrite <- Ed in *.
      replace (dec_val ds) with (Some n) by (symmetry; apply dec_val_iff; now split).
      destruct (N.ltb_spec n 4294967296); [reflexivity|lia]. }
  unfold parse_unsigned, decimal. cbv zeta. rewrite G. destruct w as [|c r].
  - split.
    + intros (N & H). congruence.
    + intros (ds & [<-|E] & N & _); congruence.
  - destruct (byte_eqb_spec c "+") as [->|Nc].
    + split.
      * intros H. exists r. split; [now right|exact H].
      * intros (ds & [<-|E] & H); [|assert (ds = r) as -> by congruence; exact H].
        destruct H as (_ & _ & F & _). inversion F as [|x l X Y Z]. cbn in X. lia.
    + split.
      * intros H. exists (c :: r). split; [now left|exact H].
      * intros (ds & [<-|E] & H); [exact H|congruence].
Qed.

(** ** The first line of a file *)
Lemma utf8_enc_app a b : utf8_enc (a ++ b) = utf8_enc a ++ utf8_enc b.
Proof. unfold utf8_enc. now rewrite map_app, concat_app. Qed.
Lemma utf8_char_last c : is_scalar c = true -> exists p b, utf8_char c = p ++ [b] /\ ((p = [] /\ b2n b = c) \/ 128 <= b2n b).
Proof.
  intros H. unfold is_scalar in H. unfold utf8_char. destruct (N.ltb_spec c 128); [exists [], (n2b c); split; [reflexivity|left; split; [reflexivity|rewrite b2n_n2b, N.mod_small by lia; reflexivity]]|].
  assert (G : 128 <= b2n (n2b (128 + c mod 64))).
  { rewrite b2n_n2b. assert (c mod 64 < 64) by (apply N.mod_lt; lia). rewrite N.mod_small by lia. lia. }
  destruct (c <? 2048); [eexists [_], _; split; [reflexivity|now right]|].
  destruct (c <? 65536); [eexists [_; _], _; split; [reflexivity|now right]|eexists [_; _; _], _; split; [reflexivity|now right]].
Qed.
Lemma scalars_app a b : scalars (a ++ b) = scalars a && scalars b.
Proof. unfold scalars. apply forallb_app. Qed.
Lemma utf8_dec_snoc l b : b2n b < 128 -> utf8_dec (l ++ [b]) = option_map (fun cs => cs ++ [b2n b]) (utf8_dec l).
Proof.
  intros L. destruct (utf8_dec l) as [cs|] eqn:D; cbn [option_map].
  - apply utf8_dec_inv in D as [S ->].
    replace (utf8_enc cs ++ [b]) with (utf8_enc (cs ++ [b2n b])).
    + apply utf8_dec_enc. rewrite scalars_app, S. cbn. rewrite andb_true_r. unfold is_scalar. destruct (N.ltb_spec (b2n b) 55296); [reflexivity|lia].
    + rewrite utf8_enc_app. f_equal. unfold utf8_enc. cbn. unfold utf8_char. destruct (N.ltb_spec (b2n b) 128); [|lia]. cbn. now rewrite n2b_b2n.
  - destruct (utf8_dec (l ++ [b])) as [cs|] eqn:D2; [|reflexivity]. exfalso. apply utf8_dec_inv in D2 as [S E].
    destruct (rev cs) as [|c r] eqn:R.
    + assert (cs = []) as -> by (rewrite <- (rev_involutive cs), R; reflexivity). destruct l; discriminate.
    + assert (cs = rev r ++ [c]) as -> by (rewrite <- (rev_involutive cs), R; reflexivity).
      rewrite scalars_app in S. apply andb_true_iff in S as [S1 S2]. cbn in S2. rewrite andb_true_r in S2.
      destruct (utf8_char_last c S2) as (p & x & Ec & [[-> Ex]|G]).
      * rewrite utf8_enc_app in E. unfold utf8_enc at 2 in E. cbn [map concat] in E. rewrite Ec in E. cbn [app] in E.
        apply app_inj_tail in E as [E _]. subst l. rewrite utf8_dec_enc in D by exact S1. discriminate.
      * rewrite utf8_enc_app in E. unfold utf8_enc at 2 in E. cbn [map concat] in E. rewrite Ec, app_nil_r, app_assoc in E.
        apply app_inj_tail in E as [_ E]. subst x. lia.
Qed.
Lemma trim_snoc cs w : is_white w = true -> trim (cs ++ [w]) = trim cs.
Proof.
  intros W. destruct (trim_split cs) as (b & a & E & Fb & Fa & H1 & H2). rewrite E at 1. rewrite <- !app_assoc.
  apply trim_unique; try assumption. apply Forall_app. split; [exact Fa|]. now constructor.
Qed.
Lemma trim_text_snoc l b : b2n b < 128 -> is_white (b2n b) = true -> trim_text (l ++ [b]) = trim_text l.
Proof.
  intros L W. unfold trim_text. rewrite utf8_dec_snoc by exact L. destruct (utf8_dec l) as [cs|]; [|reflexivity].
  cbn [option_map obind]. now rewrite trim_snoc.
Qed.
Lemma trim_text_chomp l : trim_text (chomp l) = trim_text l.
Proof.
  unfold chomp. destruct (rev l) as [|x [|y r]] eqn:R.
  - assert (l = []) as -> by (rewrite <- (rev_involutive l), R; reflexivity). reflexivity.
  - destruct (byte_eqb_spec x x0a) as [->|]; [|reflexivity].
    assert (l = [x0a]) as -> by (rewrite <- (rev_involutive l), R; reflexivity). reflexivity.
  - destruct (byte_eqb_spec x x0a) as [->|]; [|reflexivity].
    assert (E : l = (rev r ++ [y]) ++ [x0a]) by (rewrite <- (rev_involutive l), R; reflexivity). rewrite E.
    destruct (byte_eqb_spec y x0d) as [->|]; [rewrite !trim_text_snoc by reflexivity; reflexivity|].
    rewrite (trim_text_snoc (rev r ++ [y])) by reflexivity. reflexivity.
Qed.
Lemma trim_text_valid l w : trim_text l = Some w -> utf8_valid l = true.
Proof. unfold trim_text, utf8_valid. destruct (utf8_dec l); [reflexivity|discriminate]. Qed.

Lemma read_threshold_iff f t : read_threshold f = Some t <-> exists c, f = Some c /\ first_line_number c t.
Proof.
  unfold read_threshold, first_line_number. rewrite obind_some. split.
  - intros (c & -> & H). exists c. split; [reflexivity|]. apply obind_some in H as (l & F & H). apply obind_some in H as (w & T & P).
    unfold first_line in F. destruct c as [|x c]; [discriminate|]. split; [discriminate|].
    destruct (cut_line (x :: c)) as [a b] eqn:E. cbn [fst] in F. apply if_some in F as [V F].
    exists a, b, w. split; [now apply cut_line_iff|]. split; [|now apply decimal_iff].
    apply trim_text_iff. rewrite <- trim_text_chomp. congruence.
  - intros (c & -> & Nc & l & rest & w & L & S & D). exists c. split; [reflexivity|].
    apply cut_line_iff in L. apply trim_text_iff in S. rewrite <- trim_text_chomp in S. apply decimal_iff in D.
    unfold first_line. destruct c as [|x c]; [congruence|]. rewrite L. cbn [fst]. rewrite (trim_text_valid _ _ S). cbn [obind]. now rewrite S.
Qed.

Lemma find_threshold_iff d t : find_threshold d = Some t <->
  exists c others, Permutation d ((bs "quorum_threshold", Some c) :: others) /\ Forall (fun e => ~ threshold_name e) others /\ first_line_number c t.
Proof.
  unfold find_threshold, find_file_paths. rewrite filter_filter. change (fun x => _ && _) with threshold_entry.
  rewrite obind_some. split.
  - intros (ts & E & H). apply mapM_iff in E. destruct ts as [|t' [|]]; try discriminate. assert (t' = t) as -> by congruence.
    inversion E as [|e t2 l r R F Ef]; subst. inversion F; subst. apply read_threshold_iff in R as (c & Ec & R).
    pose proof (filter_partition threshold_entry d) as P. rewrite <- Ef in P.
    assert (Ie : In e (filter threshold_entry d)) by (rewrite <- Ef; now left). apply filter_In in Ie as [_ Ie]. apply threshold_entry_iff in Ie.
    exists c, (filter (fun x => negb (threshold_entry x)) d). split; [|split; [|exact R]].
    + destruct e as [n f]. cbn [snd fst] in *. unfold threshold_name in Ie. cbn [fst] in Ie. subst n f. exact P.
    + apply Forall_forall. intros x I N. apply filter_In in I as [_ I]. apply threshold_entry_iff in N. rewrite N in I. discriminate.
  - intros (c & others & P & F & R).
    assert (Q : Permutation (filter threshold_entry d) [(bs "quorum_threshold", Some c)]).
    { eapply partition_filter; [exact P|repeat constructor|]. apply Forall_forall. intros x I.
      rewrite Forall_forall in F. specialize (F x I). destruct (threshold_entry x) eqn:X; [|reflexivity].
      exfalso. apply F. now apply threshold_entry_iff. }
    apply Permutation_sym, Permutation_length_1_inv in Q. rewrite Q. exists [t]. split; [|reflexivity].
    apply mapM_iff. constructor; [|constructor]. cbn [snd]. apply read_threshold_iff. eauto.
Qed.

Section Sets.
  Context {Y : sys}.
  Lemma public_hex_iff f e g : public_from_hex_file Y f = Some (e, g) <->
    exists c, f = Some c /\ decode_from_vec c = Ok (e ++ g) /\ has_keys Y (QuorumMember [] (e ++ g)) e g.
  Proof.
    unfold public_from_hex_file. rewrite obind_some. split.
    - intros (c & -> & H). exists c. split; [reflexivity|]. apply obind_some in H as (b & D & H). apply ok_opt_some in D, H.
      pose proof H as H2. change b with (m_pub_key (QuorumMember [] b)) in H2. apply public_keys in H2. pose proof H2 as (E & _). cbn [m_pub_key] in E. subst b. now split.
    - intros (c & -> & D & K). exists c. split; [reflexivity|]. rewrite D. cbn [ok_opt obind]. apply ok_opt_some.
      change (e ++ g) with (m_pub_key (QuorumMember [] (e ++ g))) at 1. now apply public_keys.
  Qed.
  Lemma read_member_iff e m : read_member Y e = Some m <-> key_in Y e m.
  Proof.
    unfold read_member, key_in. rewrite obind_some. split.
    - intros ([ek sk] & P & E). assert (m = QuorumMember (hd [] (split_file_name (fst e))) (ek ++ sk)) as -> by (unfold public_to_bytes in E; cbn in E; congruence).
      apply public_hex_iff in P as (c & F & D & K). split; [now apply stem_iff|]. exists c, ek, sk. split; [exact F|]. split; [exact D|].
      destruct K as (K1 & K2). split; [reflexivity|exact K2].
    - intros [S (c & ek & sk & F & D & K)]. apply stem_iff in S. pose proof K as (E & K'). exists (ek, sk). split.
      + apply public_hex_iff. exists c. split; [exact F|]. split; [rewrite <- E; exact D|]. split; [reflexivity|exact K'].
      + destruct m as [al pk]. cbn [m_alias m_pub_key] in *. unfold public_to_bytes. cbn [fst snd]. rewrite <- E. f_equal. f_equal. exact S.
  Qed.

  Lemma get_members_iff d keys : get_members Y d = Some keys <->
    exists files others, Permutation d (files ++ others) /\ Forall key_name files /\ Forall (fun e => ~ key_name e) others
       /\ exists ms, Forall2 (key_in Y) files ms /\ Permutation keys ms /\ StronglySorted member_le keys.
  Proof.
    unfold get_members. rewrite with_pub, obind_some. split.
    - intros (ms & M & E). apply mapM_iff in M. assert (keys = sort_members ms) as -> by congruence.
      exists (filter key_entry d), (filter (fun x => negb (key_entry x)) d). split; [apply filter_partition|]. split; [|split].
      + apply Forall_forall. intros x I. apply filter_In in I as [_ I]. now apply key_entry_iff.
      + apply Forall_forall. intros x I N. apply filter_In in I as [_ I]. apply key_entry_iff in N. rewrite N in I. discriminate.
      + exists ms. split; [eapply Forall2_impl2; [|exact M]; intros a b; apply read_member_iff|]. split; [apply sort_perm|].
        apply sorted_strongly. apply sort_sorted.
    - intros (files & others & P & Fk & Fo & ms & F2 & Pm & So).
      assert (Q : Permutation (filter key_entry d) files).
      { eapply partition_filter; [exact P| |].
        - eapply Forall_impl; [|exact Fk]. intros x H. now apply key_entry_iff.
        - apply Forall_forall. intros x I. rewrite Forall_forall in Fo. specialize (Fo x I). destruct (key_entry x) eqn:X; [|reflexivity].
          exfalso. apply Fo. now apply key_entry_iff. }
      destruct (Forall2_perm _ _ _ _ (Permutation_sym Q) F2) as (ms' & F2' & Pm').
      exists ms'. split; [apply mapM_iff; eapply Forall2_impl2; [|exact F2']; intros a b; apply read_member_iff|].
      f_equal. apply sorted_unique; [apply sort_sorted|now apply sorted_strongly|]. rewrite sort_perm. rewrite Pm. now apply Permutation_sym.
  Qed.
  Lemma get_set_iff d s : get_set Y d = Some s <-> directory_set Y d (threshold s) (members s).
  Proof.
    unfold get_set, directory_set. rewrite obind_some. split.
    - intros (ms & M & H). apply obind_some in H as (t & T & E). assert (s = MemberSet t ms) as -> by congruence.
      split; [now apply get_members_iff|now apply find_threshold_iff].
    - intros [M T]. apply get_members_iff in M. apply find_threshold_iff in T. exists (members s). split; [exact M|]. rewrite T.
      destruct s; reflexivity.
  Qed.
  Lemma get_genesis_iff d s : get_genesis_set Y d = Some s <-> directory_set Y d (gs_threshold s) (gs_members s).
  Proof.
    unfold get_genesis_set, directory_set. rewrite obind_some. split.
    - intros (ms & M & H). apply obind_some in H as (t & T & E). assert (s = GenesisSet ms t) as -> by congruence.
      split; [now apply get_members_iff|now apply find_threshold_iff].
    - intros [M T]. apply get_members_iff in M. apply find_threshold_iff in T. exists (gs_members s). split; [exact M|]. rewrite T.
      destruct s; reflexivity.
  Qed.

  (** Patch sets: the keys alone. *)
  Definition anon (k : bytes) : quorum_member := QuorumMember [] k.
  Lemma sort_keys_members l : map anon (sort_keys l) = sort_members (map anon l).
  Proof.
    assert (G : forall k l, map anon (insert_key k l) = insert_member (anon k) (map anon l)).
    { intros k. induction l0 as [|x r IH]; [reflexivity|]. cbn [insert_key map insert_member].
      assert (E : member_leb (anon k) (anon x) = key_leb k x) by (unfold member_leb, key_leb; cbn; now destruct (bytes_cmp k x)).
      rewrite E. destruct (key_leb k x); cbn [map]; [reflexivity|]. now rewrite IH. }
    induction l as [|k l IH]; [reflexivity|]. cbn [sort_keys map sort_members]. now rewrite G, IH.
  Qed.
  Lemma anon_inj l : forall l', map anon l = map anon l' -> l = l'.
  Proof. induction l as [|a l IH]; intros [|b l'] E; try discriminate; [reflexivity|]. cbn in E. injection E as E1 E2. f_equal; [exact E1|now apply IH]. Qed.
  Lemma sort_keys_eq l l' : Permutation l l' -> sort_keys l = sort_keys l'.
  Proof. intros P. apply anon_inj. rewrite !sort_keys_members. apply sort_eq_perm. now apply Permutation_map. Qed.

  (** Nothing depends on the order of the listing. *)
  Lemma mapM_perm {A B} (f : A -> option B) l l' : Permutation l l' ->
    match mapM f l with None => mapM f l' = None | Some r => exists r', mapM f l' = Some r' /\ Permutation r r' end.
  Proof.
    intros P. destruct (mapM f l) as [r|] eqn:E.
    - apply mapM_iff in E. destruct (Forall2_perm _ _ _ _ P E) as (r' & F & Pr). exists r'. split; [now apply mapM_iff|exact Pr].
    - destruct (mapM f l') as [r'|] eqn:E'; [|reflexivity]. exfalso. apply mapM_iff in E'.
      destruct (Forall2_perm _ _ _ _ (Permutation_sym P) E') as (r & F & _). apply mapM_iff in F. congruence.
  Qed.
  Lemma find_threshold_perm d d' : Permutation d d' -> find_threshold d = find_threshold d'.
  Proof.
    intros P. destruct (find_threshold d) as [t|] eqn:E.
    - symmetry. apply find_threshold_iff. apply find_threshold_iff in E as (c & o & P' & R). exists c, o. split; [|exact R]. rewrite <- P. exact P'.
    - destruct (find_threshold d') as [t|] eqn:E'; [|reflexivity]. exfalso. apply find_threshold_iff in E' as (c & o & P' & R).
      rewrite <- P in P'. assert (X : find_threshold d = Some t) by (apply find_threshold_iff; exists c, o; now split). congruence.
  Qed.
  Lemma get_members_perm d d' : Permutation d d' -> get_members Y d = get_members Y d'.
  Proof.
    intros P. unfold get_members. rewrite !with_pub. pose proof (mapM_perm (read_member Y) _ _ (filter_perm key_entry _ _ P)) as H.
    destruct (mapM (read_member Y) (filter key_entry d)) as [r|].
    - destruct H as (r' & -> & Pr). cbn [obind]. f_equal. now apply sort_eq_perm.
    - now rewrite H.
  Qed.
  Lemma get_set_perm d d' : Permutation d d' -> get_set Y d = get_set Y d'.
  Proof. intros P. unfold get_set. now rewrite (get_members_perm d d' P), (find_threshold_perm d d' P). Qed.
  Lemma get_genesis_perm d d' : Permutation d d' -> get_genesis_set Y d = get_genesis_set Y d'.
  Proof. intros P. unfold get_genesis_set. now rewrite (get_members_perm d d' P), (find_threshold_perm d d' P). Qed.
  Lemma get_patch_perm d d' : Permutation d d' -> get_patch_set Y d = get_patch_set Y d'.
  Proof.
    intros P. unfold get_patch_set. rewrite !with_pub, (find_threshold_perm d d' P).
    match goal with |- obind (mapM ?f _) _ = _ => pose proof (mapM_perm f _ _ (filter_perm key_entry _ _ P)) as H; destruct (mapM f (filter key_entry d)) as [r|] end.
    - destruct H as (r' & -> & Pr). cbn [obind]. now rewrite (sort_keys_eq _ _ Pr).
    - now rewrite H.
  Qed.
End Sets.
