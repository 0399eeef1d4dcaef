(** Facts about the canonical normal form of JSON values. *)
From Verif Require Import Base Utf8 Hex Json JsonProofs.
From Coq Require Import Permutation.
Require Import ZifyBool ZifyN ZifyNat.
Local Open Scope N_scope.

Lemma oseq_map_some {A B} (f : A -> option B) (g : A -> B) l :
  (forall x, In x l -> f x = Some (g x)) -> oseq (map f l) = Some (map g l).
Proof.
  induction l as [|x l IH]; intros H; cbn [map oseq]; [reflexivity|].
  rewrite H by now left. rewrite IH by (intros; apply H; now right). reflexivity.
Qed.

Lemma oseq_inv {A} (l : list (option A)) r : oseq l = Some r -> l = map Some r.
Proof.
  revert r; induction l as [|[x|] l IH]; cbn; intros r H; [inversion H; reflexivity| |discriminate].
  destruct (oseq l); [|discriminate]. inversion H; subst. cbn. f_equal. now apply IH.
Qed.

Lemma insert_key_perm {A} k (v : A) m : Permutation (insert_key k v m) ((k, v) :: m).
Proof.
  induction m as [|[k' v'] m IH]; cbn; [auto|].
  destruct (key_leb k k'); [auto|]. eapply perm_trans; [apply perm_skip, IH|apply perm_swap].
Qed.

Lemma sort_keys_perm {A} (m : list (bytes * A)) : Permutation (sort_keys m) m.
Proof.
  induction m as [|[k v] m IH]; cbn; [auto|].
  eapply perm_trans; [apply insert_key_perm|apply perm_skip, IH].
Qed.

Lemma existsb_key_In {A} k (m : list (bytes * A)) :
  existsb (fun p => bytes_eqb k (fst p)) m = true <-> In k (map fst m).
Proof.
  rewrite existsb_exists, in_map_iff. split.
  - intros ([k' v] & H & E). apply bytes_eqb_eq in E. exists (k', v). auto.
  - intros ([k' v] & E & H). cbn in E; subst. exists (k, v). split; auto. apply bytes_eqb_refl.
Qed.

Lemma dedup_nodup {A} (m : list (bytes * A)) : NoDup (map fst m) -> dedup_last m = m.
Proof.
  induction m as [|[k v] m IH]; cbn [map fst dedup_last]; intros H; [reflexivity|].
  inversion H as [|? ? H1 H2]; subst. rewrite IH by auto.
  destruct (existsb _ m) eqn:E; [|reflexivity]. apply existsb_key_In in E. contradiction.
Qed.

Lemma filter_all {A} (f : A -> bool) l : (forall x, In x l -> f x = true) -> filter f l = l.
Proof.
  induction l as [|x l IH]; intros H; cbn; [reflexivity|].
  rewrite H by now left. now rewrite IH by (intros; apply H; now right).
Qed.

(** Norm of an object whose keys are distinct valid texts and whose values are
    not null. *)
Lemma norm_obj (m : list (bytes * json)) (n : list (bytes * json)) :
  NoDup (map fst m) ->
  Forall2 (fun p q => fst p = fst q /\ norm (snd p) = Some (snd q) /\ snd q <> JNull) m n ->
  norm (JObj (map (fun p => (Some (fst p), snd p)) m))
    = Some (JObj (map (fun p => (Some (fst p), snd p)) (sort_keys n))).
Proof.
  intros ND F. cbn [norm].
  rewrite map_map. cbn [fst snd].
  rewrite (oseq_map_some _ (fun p => (fst p, norm (snd p)))) by reflexivity.
  cbn [obind].
  rewrite dedup_nodup by (rewrite map_map; exact ND).
  rewrite filter_all.
  2:{ intros p Hp. apply in_map_iff in Hp as (q & <- & Hq). cbn [snd].
      apply In_nth_error in Hq as [i Hi].
      clear - F Hi. revert i Hi. induction F as [|a b m n (E1 & E2 & E3) F IH]; intros [|i] Hi; cbn in Hi; try discriminate.
      - inversion Hi; subst. rewrite E2. destruct (snd b); try reflexivity. congruence.
      - eapply IH; eauto. }
  rewrite map_map. cbn [fst snd].
  assert (E : map (fun x : bytes * json => let? x0 := norm (snd x) in Some (fst x, x0)) m = map Some n).
  { clear ND. induction F as [|[k a] [k' b] m n (E1 & E2 & E3) F IH]; cbn [map]; [reflexivity|].
    cbn in E1, E2. subst. cbn [fst snd]. rewrite E2. cbn [obind]. now rewrite IH. }
  rewrite E.
  assert (O : oseq (map Some n) = Some n) by (clear; induction n as [|x n IH]; cbn; [reflexivity|now rewrite IH]).
  rewrite O. reflexivity.
Qed.

(** ** Key order *)
Lemma lexN_refl a : lexN_leb a a = true.
Proof. induction a as [|x a IH]; cbn; [reflexivity|]. now rewrite N.ltb_irrefl. Qed.

Lemma lexN_total a : forall b, lexN_leb a b = true \/ lexN_leb b a = true.
Proof.
  induction a as [|x a IH]; intros [|y b]; cbn; auto.
  destruct (N.ltb_spec x y), (N.ltb_spec y x); auto; try lia.
Qed.

Lemma lexN_antisym a : forall b, lexN_leb a b = true -> lexN_leb b a = true -> a = b.
Proof.
  induction a as [|x a IH]; intros [|y b]; cbn; auto; try discriminate.
  destruct (N.ltb_spec x y), (N.ltb_spec y x); try lia; try discriminate.
  intros H1 H2. f_equal; [lia|]. now apply IH.
Qed.

Lemma lexN_trans a : forall b c, lexN_leb a b = true -> lexN_leb b c = true -> lexN_leb a c = true.
Proof.
  induction a as [|x a IH]; intros [|y b] [|z c]; cbn; auto; try discriminate.
  destruct (N.ltb_spec x y), (N.ltb_spec y x), (N.ltb_spec y z), (N.ltb_spec z y), (N.ltb_spec x z), (N.ltb_spec z x);
    try lia; try discriminate; auto. apply IH.
Qed.

Lemma utf16_char_cases c : is_scalar c = true ->
  (utf16_char c = [c] /\ ~ (55296 <= c < 56320)) \/
  (exists h l, utf16_char c = [h; l] /\ 55296 <= h < 56320 /\ c = 65536 + (h - 55296) * 1024 + (l - 56320) /\ 56320 <= l).
Proof.
  unfold is_scalar, utf16_char. intros H. destruct (N.ltb_spec c 65536); [left; split; [auto|lia]|].
  right. do 2 eexists. split; [reflexivity|].
  pose proof (N.div_mod (c - 65536) 1024 ltac:(lia)). pose proof (N.mod_lt (c - 65536) 1024 ltac:(lia)).
  assert ((c - 65536) / 1024 < 1024) by (apply N.div_lt_upper_bound; lia).
  remember ((c - 65536) / 1024) as q. remember ((c - 65536) mod 1024) as t. lia.
Qed.

Lemma utf16_units_inj cs : forall cs', scalars cs = true -> scalars cs' = true ->
  concat (map utf16_char cs) = concat (map utf16_char cs') -> cs = cs'.
Proof.
  unfold scalars. induction cs as [|c cs IH]; intros [|c' cs'] H H' E; auto.
  - cbn [map] in E. cbn in H'. apply andb_true_iff in H' as [H' _].
    destruct (utf16_char_cases c' H') as [[X _]|(h & l & X & _)];
    change (concat (utf16_char c' :: map utf16_char cs')) with (utf16_char c' ++ concat (map utf16_char cs')) in E;
    rewrite X in E; discriminate.
  - cbn [map] in E. cbn in H. apply andb_true_iff in H as [H _].
    change (concat (utf16_char c :: map utf16_char cs)) with (utf16_char c ++ concat (map utf16_char cs)) in E.
    destruct (utf16_char_cases c H) as [[X _]|(h & l & X & _)]; rewrite X in E; discriminate.
  - cbn [forallb] in H, H'. apply andb_true_iff in H as [H Hs], H' as [H' Hs'].
    cbn [map] in E.
    change (concat (utf16_char c :: map utf16_char cs)) with (utf16_char c ++ concat (map utf16_char cs)) in E.
    change (concat (utf16_char c' :: map utf16_char cs')) with (utf16_char c' ++ concat (map utf16_char cs')) in E.
    destruct (utf16_char_cases c H) as [[X X1]|(h & l & X & X1 & X2 & X3)], (utf16_char_cases c' H') as [[Y Y1]|(h' & l' & Y & Y1 & Y2 & Y3)];
      rewrite X, Y in E; cbn [app] in E; inversion E; subst; try lia.
    + f_equal. now apply IH.
    + f_equal. now apply IH.
Qed.

Lemma utf16_inj a b : utf8_valid a = true -> utf8_valid b = true -> utf16 a = utf16 b -> a = b.
Proof.
  unfold utf8_valid, utf16. destruct (utf8_dec a) as [ca|] eqn:Ea; [|discriminate].
  destruct (utf8_dec b) as [cb|] eqn:Eb; [|discriminate]. intros _ _ E.
  apply utf8_dec_inv in Ea as [Sa ->], Eb as [Sb ->]. f_equal. now apply utf16_units_inj.
Qed.

Lemma key_antisym a b : utf8_valid a = true -> utf8_valid b = true ->
  key_leb a b = true -> key_leb b a = true -> a = b.
Proof. intros Ha Hb H1 H2. apply utf16_inj; auto. now apply lexN_antisym. Qed.

Lemma insert_key_comm {A} k (v : A) k' v' m : utf8_valid k = true -> utf8_valid k' = true -> k <> k' ->
  insert_key k v (insert_key k' v' m) = insert_key k' v' (insert_key k v m).
Proof.
  intros Hk Hk' Hne.
  assert (X : key_leb k k' = negb (key_leb k' k)).
  { destruct (key_leb k k') eqn:E1, (key_leb k' k) eqn:E2; auto.
    - exfalso. apply Hne. now apply key_antisym.
    - exfalso. destruct (lexN_total (utf16 k) (utf16 k')); unfold key_leb in *; congruence. }
  assert (T : forall a b c, key_leb a b = true -> key_leb b c = true -> key_leb a c = true)
    by (intros a b c; apply lexN_trans).
  assert (TT : forall a b, key_leb a b = false -> key_leb b a = true).
  { intros a b E. unfold key_leb in *. destruct (lexN_total (utf16 a) (utf16 b)); congruence. }
  induction m as [|[x w] m IH]; cbn [insert_key].
  - rewrite X. destruct (key_leb k' k); reflexivity.
  - destruct (key_leb k' x) eqn:E1, (key_leb k x) eqn:E2; cbn [insert_key]; rewrite ?E1, ?E2.
    + rewrite X. destruct (key_leb k' k); reflexivity.
    + assert (key_leb k k' = false) as ->.
      { destruct (key_leb k k') eqn:E; auto. rewrite (T k k' x) in E2; auto. }
      reflexivity.
    + assert (key_leb k' k = false) as ->.
      { destruct (key_leb k' k) eqn:E; auto. rewrite (T k' k x) in E1; auto. }
      reflexivity.
    + now rewrite IH.
Qed.

Lemma sort_keys_perm_eq {A} (m m' : list (bytes * A)) : Permutation m m' -> NoDup (map fst m) ->
  Forall (fun p => utf8_valid (fst p) = true) m -> sort_keys m = sort_keys m'.
Proof.
  induction 1 as [|[k v] m m' P IH|[k v] [k' v'] m|m m' m'' P1 IH1 P2 IH2]; intros ND F.
  - reflexivity.
  - cbn in *. inversion ND; inversion F; subst. now rewrite IH.
  - cbn in *. inversion ND as [|? ? N1 N2]; inversion F as [|? ? F1 F2]; subst. inversion F2; subst.
    apply insert_key_comm; auto. intros ->. apply N1. now left.
  - rewrite IH1 by auto. apply IH2.
    + eapply Permutation_NoDup; [apply Permutation_map, P1|auto].
    + eapply Permutation_Forall; eauto.
Qed.

(** ** norm on writable values *)
Lemma print_Z_utf8 z : utf8_valid (print_Z z) = true.
Proof.
  apply ascii_valid. assert (K : forall n, forallb (fun b => b2n b <? 128) (print_N n) = true).
  { intros n. apply forallb_forall. intros b Hb. pose proof (print_N_digits n) as D. rewrite forallb_forall in D.
    specialize (D b Hb). unfold is_digit in D. lia. }
  destruct z; cbn [print_Z]; apply K.
Qed.

Lemma dedup_In {A} (m : list (bytes * A)) p : In p (dedup_last m) -> In p m.
Proof.
  induction m as [|[k v] m IH]; cbn; auto. destruct (existsb _ m); cbn; intros H; [right; auto|].
  destruct H; auto.
Qed.

Lemma dedup_keys {A} (m : list (bytes * A)) k : In k (map fst (dedup_last m)) <-> In k (map fst m).
Proof.
  induction m as [|[k' v] m IH]; cbn [dedup_last map fst]; [tauto|].
  destruct (existsb _ m) eqn:E.
  - rewrite IH. apply existsb_key_In in E. cbn. split; [auto|]. intros [->|]; auto.
  - cbn. rewrite IH. tauto.
Qed.

Lemma dedup_NoDup {A} (m : list (bytes * A)) : NoDup (map fst (dedup_last m)).
Proof.
  induction m as [|[k v] m IH]; cbn [dedup_last map]; [constructor|].
  destruct (existsb _ m) eqn:E; auto. cbn. constructor; auto.
  rewrite dedup_keys. intros H. apply existsb_key_In in H. congruence.
Qed.

Definition okvals (m : list (bytes * option json)) : Prop :=
  Forall (fun p => utf8_valid (fst p) = true /\ exists x, snd p = Some x /\ jok x = true) m.

Definition keepf (p : bytes * option json) : bool := negb (match snd p with Some JNull => true | _ => false end).
Definition unopt (p : bytes * option json) : option (bytes * json) := let? x := snd p in Some (fst p, x).
Definition rekey (p : bytes * json) : option bytes * json := (Some (fst p), snd p).

Lemma norm_obj_eq m : norm (JObj m) =
  let? m1 := oseq (map (fun p => match fst p with Some k => Some (k, norm (snd p)) | None => None end) m) in
  let? m2 := oseq (map unopt (filter keepf (dedup_last m1))) in
  Some (JObj (map rekey (sort_keys m2))).
Proof. reflexivity. Qed.

Lemma unopt_all (m : list (bytes * option json)) : okvals m ->
  exists m2, oseq (map unopt m) = Some m2 /\ map fst m2 = map fst m /\
    Forall (fun p => utf8_valid (fst p) = true /\ jok (snd p) = true) m2 /\
    m = map (fun p => (fst p, Some (snd p))) m2.
Proof.
  induction 1 as [|[k o] m [Hk (x & E & Hx)] F (m2 & E2 & K & F2 & M)]; cbn in *.
  - exists []. repeat split; constructor.
  - subst o. exists ((k, x) :: m2). unfold unopt at 1. cbn. rewrite E2. cbn. rewrite K, M.
    rewrite map_map. cbn. repeat split. constructor; auto.
Qed.

Lemma jok_obj_rekey m : Forall (fun p => utf8_valid (fst p) = true /\ jok (snd p) = true) m ->
  jok (JObj (map rekey m)) = true.
Proof.
  intros F. cbn [jok]. apply forallb_forall. intros p Hp. apply in_map_iff in Hp as ([k x] & <- & Hq).
  rewrite Forall_forall in F. specialize (F _ Hq) as [F1 F2]. cbn in *. now rewrite F1, F2.
Qed.

Lemma norm_jok : forall j, jok j = true -> exists n, norm j = Some n /\ jok n = true.
Proof.
  induction j as [| b |z|raw|s|l IH|m IH] using json_ind'; intros H; try discriminate;
    try (eexists; split; [reflexivity|auto]; fail).
  - exists (str (print_Z z)). split; [reflexivity|]. cbn. apply print_Z_utf8.
  - cbn in H. destruct s as [s|]; [|discriminate]. exists (str s). auto.
  - cbn [jok] in H.
    assert (exists l', oseq (map norm l) = Some l' /\ forallb jok l' = true) as (l' & E & Hl).
    { induction IH as [|x l Hx F IHl]; [exists []; auto|].
      cbn in H. apply andb_true_iff in H as [H1 H2]. destruct (Hx H1) as (n & E & Hn).
      destruct (IHl H2) as (l' & E' & Hl). exists (n :: l'). cbn. rewrite E, E'. cbn. rewrite Hn, Hl. auto. }
    exists (JArr l'). cbn [norm]. rewrite E. auto.
  - cbn [jok] in H.
    assert (exists m1, oseq (map (fun p : option bytes * json => match fst p with Some k => Some (k, norm (snd p)) | None => None end) m) = Some m1 /\ okvals m1)
      as (m1 & E & Hm).
    { induction IH as [|[k x] m Hx F IHm]; [exists []; split; [auto|constructor]|].
      cbn [forallb fst snd] in *. apply andb_true_iff in H as [H1 H2]. apply andb_true_iff in H1 as [Hk H1].
      destruct k as [k|]; [|discriminate]. destruct (Hx H1) as (n & En & Hn).
      destruct (IHm H2) as (m1 & E' & Hm). exists ((k, norm x) :: m1). cbn [map fst snd oseq]. rewrite E'.
      split; [reflexivity|]. constructor; [|assumption]. split; [exact Hk|]. exists n. split; auto. }
    rewrite norm_obj_eq, E. cbn [obind].
    assert (Ho : okvals (filter keepf (dedup_last m1))).
    { unfold okvals in *. apply Forall_forall. intros p Hp. apply filter_In in Hp as [Hp _].
      apply dedup_In in Hp. rewrite Forall_forall in Hm. auto. }
    destruct (unopt_all _ Ho) as (m2 & E2 & _ & F2 & _). rewrite E2. cbn [obind].
    eexists. split; [reflexivity|]. apply jok_obj_rekey.
    eapply Permutation_Forall; [apply Permutation_sym, sort_keys_perm|auto].
Qed.

(** canonical bytes are equal exactly when normal forms are *)
Lemma canon_norm a b : jok a = true -> jok b = true -> (canon a = canon b <-> norm a = norm b).
Proof.
  intros Ha Hb. destruct (norm_jok a Ha) as (na & Ea & Oa), (norm_jok b Hb) as (nb & Eb & Ob).
  unfold canon. rewrite Ea, Eb. cbn. split.
  - intros E; inversion E. f_equal. now apply write_inj.
  - intros E; inversion E; auto.
Qed.

Lemma canon_parse a : jok a = true -> exists n, norm a = Some n /\ canon a = Some (write n) /\ parse (write n) = Some n.
Proof.
  intros Ha. destruct (norm_jok a Ha) as (na & Ea & Oa). exists na. unfold canon. rewrite Ea. cbn.
  repeat split; auto. now apply parse_write.
Qed.
