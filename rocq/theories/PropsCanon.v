(** C32: the form of canonical JSON. *)
From Verif Require Import Base Utf8 Hex Json JsonProofs NormProofs SpecJson SpecCanon TypesJson JsonSound PropsCodec.
From Coq Require Import Permutation Sorted ZifyBool ZifyN ZifyNat.
Local Open Scope N_scope.

Lemma lexN_before a : forall b, lexN_leb a b = true -> a <> b -> lex_before a b.
Proof.
  induction a as [|x a IH]; intros [|y b] H N; cbn [lexN_leb] in H; try discriminate; [congruence|constructor|].
  destruct (N.ltb_spec x y); [now constructor|]. destruct (N.ltb_spec y x); [discriminate|].
  assert (x = y) as -> by lia. apply lb_same. apply IH; [exact H|congruence].
Qed.
Definition kle {A} (p q : bytes * A) : Prop := key_leb (fst p) (fst q) = true.
Lemma insert_key_sorted {A} k (v : A) m : StronglySorted kle m -> StronglySorted kle (insert_key k v m).
Proof.
  induction 1 as [|[k' v'] m S IH F]; cbn [insert_key]; [repeat constructor|].
  destruct (key_leb k k') eqn:E.
  - constructor; [now constructor|]. constructor; [exact E|]. eapply Forall_impl; [|exact F]. intros q Q. unfold kle in *. cbn [fst] in *.
    eapply lexN_trans; [exact E|exact Q].
  - constructor; [exact IH|]. apply Forall_forall. intros q I. apply (Permutation_in _ (insert_key_perm k v m)) in I as [<-|I].
    + unfold kle. cbn [fst]. destruct (lexN_total (utf16 k) (utf16 k')) as [X|X]; [unfold key_leb in E; congruence|exact X].
    + rewrite Forall_forall in F. now apply F.
Qed.
Lemma sort_keys_sorted {A} (m : list (bytes * A)) : StronglySorted kle (sort_keys m).
Proof. induction m as [|[k v] m IH]; [constructor|]. now apply insert_key_sorted. Qed.
Lemma sorted_strict {A} (m : list (bytes * A)) : NoDup (map fst m) -> Forall (fun p => utf8_valid (fst p) = true) m -> StronglySorted kle m ->
  StronglySorted (fun p q => lex_before (utf16 (fst p)) (utf16 (fst q))) m.
Proof.
  intros N V S. induction S as [|p m S IH F]; [constructor|]. cbn [map] in N. inversion N as [|? ? N1 N2]; subst. inversion V as [|? ? V1 V2]; subst.
  constructor; [now apply IH|]. rewrite Forall_forall in *. intros q I. apply lexN_before; [now apply F|]. intros E.
  apply utf16_inj in E; [|exact V1|now apply V2]. apply N1. rewrite E. now apply in_map.
Qed.
Lemma oseq_Some_in {A B} (f : A -> option B) l r : oseq (map f l) = Some r -> forall y, In y r -> exists x, In x l /\ f x = Some y.
Proof.
  intros E y I. apply oseq_inv in E. assert (J : In (Some y) (map f l)) by (rewrite E; now apply in_map).
  apply in_map_iff in J as (x & H & J). eauto.
Qed.
Lemma oseq_keys {A B C} (f : A -> option B) (g : A -> C) (h : B -> C) l r : (forall x y, f x = Some y -> g x = h y) ->
  oseq (map f l) = Some r -> map g l = map h r.
Proof.
  intros H. revert r. induction l as [|x l IH]; intros r; cbn [map oseq]; [intros [= <-]; reflexivity|].
  destruct (f x) as [y|] eqn:E; [|discriminate]. destruct (oseq (map f l)) as [ys|]; [|discriminate]. cbn [obind]. intros [= <-].
  cbn [map]. now rewrite (H x y E), (IH ys eq_refl).
Qed.
Lemma nodup_filter_keys {A} (f : bytes * A -> bool) m : NoDup (map fst m) -> NoDup (map fst (filter f m)).
Proof.
  induction m as [|p m IH]; intros N; [constructor|]. cbn [map] in N. inversion N as [|? ? N1 N2]; subst. cbn [filter].
  destruct (f p); [|now apply IH]. cbn [map]. constructor; [|now apply IH].
  intros I. apply N1. apply in_map_iff in I as (q & <- & I). apply filter_In in I as (I & _). now apply in_map.
Qed.
Lemma norm_form : forall a n, jtext a = true -> norm a = Some n -> canonical_form n.
Proof.
  induction a as [| b |z|raw|s|l IH|m IH] using json_ind'; intros n T E.
  - injection E as <-. constructor.
  - injection E as <-. constructor.
  - assert (n = str (print_Z z)) as -> by (cbn [norm] in E; congruence). constructor. apply print_Z_utf8.
  - discriminate.
  - destruct s as [s|]; [|discriminate]. injection E as <-. constructor. exact T.
  - cbn [norm] in E. destruct (oseq (map norm l)) as [l'|] eqn:L; [|discriminate]. cbn [obind] in E. injection E as <-.
    constructor. apply Forall_forall. intros y I. destruct (oseq_Some_in norm l l' L y I) as (x & J & X).
    rewrite Forall_forall in IH. apply (IH x J); [|exact X]. cbn [jtext] in T. rewrite forallb_forall in T. now apply T.
  - rewrite norm_obj_eq in E.
    destruct (oseq (map (fun p => match fst p with Some k => Some (k, norm (snd p)) | None => None end) m)) as [m1|] eqn:E1; [|discriminate].
    cbn [obind] in E. destruct (oseq (map unopt (filter keepf (dedup_last m1)))) as [m2|] eqn:E2; [|discriminate]. cbn [obind] in E. injection E as <-.
    assert (K : Forall (fun p => utf8_valid (fst p) = true /\ snd p <> JNull /\ canonical_form (snd p)) m2).
    { apply Forall_forall. intros [k y] I. destruct (oseq_Some_in _ _ _ E2 _ I) as ([k' o] & J & X).
      unfold unopt in X. cbn [fst snd] in X. destruct o as [y'|]; [|discriminate]. cbn [obind] in X. injection X as <- <-.
      apply filter_In in J as (J & KF). apply dedup_In in J. destruct (oseq_Some_in _ _ _ E1 _ J) as ([o x] & J' & X). cbn [fst snd] in X.
      destruct o as [k''|]; [|discriminate]. injection X as -> X.
      cbn [jtext] in T. rewrite forallb_forall in T. pose proof (T _ J') as TT. cbn [fst snd otext] in TT. apply andb_true_iff in TT as [T1 T2].
      cbn [fst snd]. split; [exact T1|]. split; [unfold keepf in KF; cbn [snd] in KF; intros ->; discriminate|].
      rewrite Forall_forall in IH. exact (IH _ J' _ T2 X). }
    assert (P : Permutation (sort_keys m2) m2) by apply sort_keys_perm.
    change (canonical_form (JObj (map (fun p => (Some (fst p), snd p)) (sort_keys m2)))). constructor.
    + rewrite Forall_forall in *. intros p I. apply K. now apply (Permutation_in _ P).
    + apply sorted_strict; [| |apply sort_keys_sorted].
      * eapply Permutation_NoDup; [apply Permutation_map, Permutation_sym; exact P|].
        assert (KE : map fst (filter keepf (dedup_last m1)) = map fst m2).
        { apply (oseq_keys unopt fst fst); [|exact E2]. intros [k o] [k' y] X. unfold unopt in X. cbn [fst snd] in *. destruct o; [|discriminate]. cbn [obind] in X. congruence. }
        rewrite <- KE. apply nodup_filter_keys, dedup_NoDup.
      * rewrite Forall_forall in *. intros p I. apply K. now apply (Permutation_in _ P).
Qed.
Lemma canonical_written : forall b a t, parse b = Some a -> canon a = Some t -> exists n, t = write n /\ canonical_form n.
Proof.
  intros b a t P C. unfold canon in C. destruct (norm a) as [n|] eqn:N; [|discriminate]. cbn [obind] in C. exists n. split; [congruence|].
  exact (norm_form a n (parse_jtext b a P) N).
Qed.

Lemma before_lexN a b : lex_before a b -> lexN_leb a b = true.
Proof.
  induction 1 as [|x y a b L|x a b _ IH]; cbn [lexN_leb]; [reflexivity| |].
  - destruct (N.ltb_spec x y); [reflexivity|lia].
  - now rewrite N.ltb_irrefl.
Qed.
Lemma before_irrefl a : ~ lex_before a a.
Proof. induction a as [|x a IH]; inversion 1; subst; [lia|contradiction]. Qed.
Lemma sort_sorted {A} (m : list (bytes * A)) : StronglySorted (fun p q => lex_before (utf16 (fst p)) (utf16 (fst q))) m -> sort_keys m = m.
Proof.
  induction 1 as [|[k v] m S IH F]; [reflexivity|]. cbn [sort_keys]. rewrite IH. destruct m as [|[k' v'] m]; [reflexivity|].
  cbn [insert_key]. inversion F as [|? ? X _]; subst. cbn [fst] in X. unfold key_leb. now rewrite (before_lexN _ _ X).
Qed.
Lemma form_norm : forall n, canonical_form n -> norm n = Some n /\ jok n = true.
Proof.
  induction n as [| b |z|raw|s|l IH|m IH] using json_ind'; intros C; inversion C as [|b' E|s' V E|l' F E|m' F S E]; subst.
  - split; reflexivity.
  - split; reflexivity.
  - split; [reflexivity|exact V].
  - assert (K : oseq (map norm l) = Some l /\ forallb jok l = true).
    { clear C. induction l as [|x l IHl]; [split; reflexivity|]. inversion IH; inversion F; subst. destruct IHl as (A & B); [assumption..|].
      destruct (H1 H5) as (N & O). cbn [map oseq forallb]. rewrite N, A, O, B. split; reflexivity. }
    destruct K as (A & B). cbn [norm jok]. rewrite A. split; [reflexivity|exact B].
  - assert (N : NoDup (map fst m')).
    { clear - S. induction S as [|p m S IH F]; [constructor|]. cbn [map]. constructor; [|exact IH]. intros I. apply in_map_iff in I as (q & E & I).
      rewrite Forall_forall in F. specialize (F q I). rewrite E in F. now apply before_irrefl in F. }
    split.
    + rewrite (norm_obj m' m' N); [now rewrite (sort_sorted m' S)|].
      clear - IH F. induction m' as [|[k x] m IHm]; [constructor|]. cbn [map fst snd] in IH. inversion IH as [|? ? X1 X2]; subst. cbn [snd] in X1. inversion F as [|? ? (V & NN & CX) F']; subst. cbn [fst snd] in *.
      constructor; [|now apply IHm]. cbn [fst snd]. split; [reflexivity|]. split; [now apply X1|exact NN].
    + cbn [jok]. apply forallb_forall. intros p I. apply in_map_iff in I as ([k x] & <- & I). cbn [fst snd okey].
      rewrite Forall_forall in F, IH. destruct (F _ I) as (V & _ & CX). cbn [fst snd] in V, CX. rewrite V. cbn [andb].
      apply (IH (Some k, x)); [|exact CX]. apply in_map_iff. exists (k, x). split; [reflexivity|exact I].
Qed.

(** What is written in canonical JSON is, exactly, the compact text of a value
    in canonical form. *)
Theorem c32_canonical_form : forall t,
  (exists b a, parse b = Some a /\ canon a = Some t) <-> (exists n, canonical_form n /\ t = write n).
Proof.
  intros t. split.
  - intros (b & a & P & C). destruct (canonical_written b a t P C) as (n & E & F). eauto.
  - intros (n & F & ->). destruct (form_norm n F) as (N & O). exists (write n), n. split; [now apply parse_write|]. unfold canon. now rewrite N.
Qed.
Print Assumptions c32_canonical_form.

(** A floating point number anywhere (outside of a member that a later one
    replaces) cannot be written. *)
Inductive has_float : json -> Prop :=
| hf_float r : has_float (JFloat r)
| hf_arr l x : In x l -> has_float x -> has_float (JArr l)
| hf_obj m k x : In (k, x) m -> NoDup (map fst m) -> has_float x -> has_float (JObj m).
Theorem c32_floats_are_refused : forall a, has_float a -> canon a = None.
Proof.
  intros a H. assert (E : norm a = None); [|unfold canon; now rewrite E].
  induction H as [r|l x I _ IH|m k x I N _ IH]; [reflexivity| |].
  - cbn [norm]. destruct (oseq (map norm l)) as [l'|] eqn:E; [|reflexivity]. exfalso. apply oseq_inv in E.
    assert (J : In (norm x) (map norm l)) by now apply in_map. rewrite E, IH in J. apply in_map_iff in J as (? & [=] & _).
  - rewrite norm_obj_eq.
    destruct (oseq (map (fun p => match fst p with Some k => Some (k, norm (snd p)) | None => None end) m)) as [m1|] eqn:E1; [|reflexivity].
    cbn [obind]. destruct (oseq (map unopt (filter keepf (dedup_last m1)))) as [m2|] eqn:E2; [|reflexivity]. exfalso.
    assert (KE : map fst m = map (fun p => Some (fst p)) m1).
    { apply (oseq_keys (fun p => match fst p with Some k => Some (k, norm (snd p)) | None => None end) fst (fun p => Some (fst p)) m m1); [|exact E1]. intros [o y] [k' v] X. cbn [fst snd] in *. destruct o; [|discriminate]. congruence. }
    assert (N1 : NoDup (map fst m1)).
    { rewrite KE, <- (map_map fst Some) in N. now apply NoDup_map_inv in N. }
    rewrite (dedup_nodup m1 N1) in E2. apply oseq_inv in E1, E2.
    assert (J : In (match k with Some k => Some (k, norm x) | None => None end) (map (fun p => match fst p with Some k => Some (k, norm (snd p)) | None => None end) m)).
    { apply in_map_iff. exists (k, x). split; [reflexivity|exact I]. }
    rewrite E1, IH in J. apply in_map_iff in J as ([k' o] & J & I1). destruct k as [k|]; [|discriminate]. injection J as -> ->.
    assert (J : In (unopt (k, None)) (map unopt (filter keepf m1))) by (apply in_map, filter_In; split; [exact I1|reflexivity]).
    rewrite E2 in J. apply in_map_iff in J as (? & [=] & _).
Qed.
Print Assumptions c32_floats_are_refused.
Example c32_canonical_form_nontrivial :
  let n := JObj [(Some (bs "a"), str (bs "7")); (Some (bs "b"), JArr [JNull; JObj []])] in
  canonical_form n /\ canon (JObj [(Some (bs "b"), JArr [JNull; JObj []]); (Some (bs "a"), JInt 7)]) = Some (write n)
  /\ has_float (JObj [(Some (bs "b"), JArr [JFloat (bs "1.5")])]).
Proof.
  cbn zeta. split; [|split; [reflexivity|]].
  - apply (cf_obj [(bs "a", str (bs "7")); (bs "b", JArr [JNull; JObj []])]).
    + repeat constructor; try discriminate. exact (cf_obj [] (Forall_nil _) (SSorted_nil _)).
    + repeat constructor.
  - eapply hf_obj; [now left|repeat constructor; intros []|]. eapply hf_arr; [now left|constructor].
Qed.
(** The order is that of UTF-16, not of the bytes: U+FFFD comes after U+1F600. *)
Example c32_utf16_order :
  canon (JObj [(Some [xef; xbf; xbd], JBool true); (Some [xf0; x9f; x98; x80], JBool false)])
  = Some (bs "{""" ++ [xf0; x9f; x98; x80] ++ bs """:false,""" ++ [xef; xbf; xbd] ++ bs """:true}").
Proof. reflexivity. Qed.
