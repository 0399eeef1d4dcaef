(** Canonical JSON decides exactly [jeq]. *)
From Verif Require Import Base Utf8 Hex Json JsonProofs NormProofs SpecJson.
From Coq Require Import Permutation.
Local Open Scope N_scope.

Definition keyed (p : option bytes * json) : option (bytes * option json) :=
  match fst p with Some k => Some (k, norm (snd p)) | None => None end.

Lemma norm_obj_eq' m : norm (JObj m) =
  let? m1 := oseq (map keyed m) in
  let? m2 := oseq (map unopt (filter keepf (dedup_last m1))) in
  Some (JObj (map rekey (sort_keys m2))).
Proof. reflexivity. Qed.

Lemma oseq_app {A} (a b : list (option A)) :
  oseq (a ++ b) = let? x := oseq a in let? y := oseq b in Some (x ++ y).
Proof.
  induction a as [|[x|] a IH]; cbn; [destruct (oseq b); reflexivity| |reflexivity].
  rewrite IH. destruct (oseq a); cbn; [|reflexivity]. destruct (oseq b); reflexivity.
Qed.

Lemma oseq_perm {A} (l l' : list (option A)) : Permutation l l' ->
  match oseq l, oseq l' with Some a, Some b => Permutation a b | None, None => True | _, _ => False end.
Proof.
  induction 1 as [|[x|] l l' P IH|[x|] [y|] l|l l' l'' P1 IH1 P2 IH2]; cbn; auto.
  - destruct (oseq l), (oseq l'); cbn; auto.
  - destruct (oseq l); cbn; auto. apply perm_swap.
  - destruct (oseq l), (oseq l'), (oseq l''); auto; try contradiction. eapply perm_trans; eauto.
Qed.

Lemma keyed_fst (m : list (option bytes * json)) m1 : oseq (map keyed m) = Some m1 -> map fst m = map (fun p => Some (fst p)) m1.
Proof.
  intros H. apply oseq_inv in H. revert m1 H. induction m as [|[k x] m IH]; intros [|[k1 o] m1] H; cbn in *; try discriminate; auto.
  inversion H as [[H1 H2]]. unfold keyed in H1. cbn in H1. destruct k; [|discriminate]. inversion H1; subst. f_equal. now apply IH.
Qed.

Lemma dedup_app_drop {A} (a : list (bytes * A)) k x b : In k (map fst b) ->
  dedup_last (a ++ (k, x) :: b) = dedup_last (a ++ b).
Proof.
  intros H. induction a as [|[k' v] a IH]; cbn [app dedup_last].
  - apply existsb_key_In in H. now rewrite H.
  - rewrite IH. assert (existsb (fun p => bytes_eqb k' (fst p)) (a ++ (k, x) :: b) = existsb (fun p => bytes_eqb k' (fst p)) (a ++ b)) as ->.
    { rewrite !existsb_app. cbn [existsb fst]. destruct (bytes_eqb_spec k' k); [|reflexivity]. subst.
      apply existsb_key_In in H. rewrite H, !orb_true_r. reflexivity. }
    reflexivity.
Qed.

Lemma dedup_app_null (a : list (bytes * option json)) k b : ~ In k (map fst a) ->
  filter keepf (dedup_last (a ++ (k, Some JNull) :: b)) = filter keepf (dedup_last (a ++ b)).
Proof.
  intros H. induction a as [|[k' v] a IH]; cbn [app dedup_last].
  - destruct (existsb _ b); [reflexivity|]. reflexivity.
  - cbn in H. assert (existsb (fun p => bytes_eqb k' (fst p)) (a ++ (k, Some JNull) :: b) = existsb (fun p => bytes_eqb k' (fst p)) (a ++ b)) as ->.
    { rewrite !existsb_app. cbn [existsb fst]. destruct (bytes_eqb_spec k' k); [subst; tauto|]. reflexivity. }
    destruct (existsb _ (a ++ b)); cbn [filter]; [apply IH; tauto|]. rewrite IH by tauto. reflexivity.
Qed.

Lemma filter_perm' {A} (f : A -> bool) l l' : Permutation l l' -> Permutation (filter f l) (filter f l').
Proof.
  induction 1 as [|x l l' P IH|x y l|l l' l'' P1 IH1 P2 IH2]; cbn; auto.
  - destruct (f x); auto.
  - destruct (f x), (f y); auto. apply perm_swap.
  - eapply perm_trans; eauto.
Qed.

Lemma unopt_keys (l : list (bytes * option json)) r : oseq (map unopt l) = Some r -> map fst r = map fst l.
Proof.
  intros H. apply oseq_inv in H. revert r H. induction l as [|[k o] l IH]; intros [|[k1 x] r] H; cbn in *; try discriminate; auto.
  inversion H as [[H1 H2]]. destruct o; cbn in H1; [|discriminate]. inversion H1; subst. f_equal. now apply IH.
Qed.

Lemma NoDup_filter_keys {A} (f : bytes * A -> bool) l : NoDup (map fst l) -> NoDup (map fst (filter f l)).
Proof.
  induction l as [|x l IH]; cbn; intros H; [constructor|]. inversion H; subst. destruct (f x); cbn; auto.
  constructor; auto. intros I. apply in_map_iff in I as (y & E & I). apply filter_In in I as [I _].
  match goal with H : ~ In _ _ |- _ => apply H end. apply in_map_iff. eauto.
Qed.

Lemma jeq_norm a b : jeq a b -> norm a = norm b.
Proof.
  induction 1 as [a|a b H IH|a b c H1 IH1 H2 IH2|z|l1 l2 x y H IH|m1 m2 k x y H IH|m m' P ND F|m1 m2 k H|m1 m2 k x H].
  - reflexivity.
  - now symmetry.
  - congruence.
  - reflexivity.
  - cbn [norm]. rewrite !map_app. cbn [map]. now rewrite IH.
  - rewrite !norm_obj_eq'. rewrite !map_app. cbn [map]. unfold keyed at 2 5. cbn [fst snd]. now rewrite IH.
  - rewrite !norm_obj_eq'.
    pose proof (oseq_perm _ _ (Permutation_map keyed P)) as X.
    destruct (oseq (map keyed m)) as [n1|] eqn:E1, (oseq (map keyed m')) as [n2|] eqn:E2; try contradiction; [|reflexivity].
    cbn [obind]. apply keyed_fst in E1.
    assert (N1 : NoDup (map fst n1)).
    { rewrite E1 in ND. rewrite <- (map_map fst Some) in ND. now apply NoDup_map_inv in ND. }
    assert (U1 : Forall (fun p => utf8_valid (fst p) = true) n1).
    { apply Forall_forall. intros p Hp. rewrite Forall_forall in F.
      assert (I : In (Some (fst p)) (map fst m)) by (rewrite E1; apply in_map_iff; eauto).
      apply in_map_iff in I as (q & Eq & Hq). destruct (F q Hq) as (k & Ek & U). rewrite Eq in Ek. inversion Ek; subst. exact U. }
    assert (N2 : NoDup (map fst n2)) by (eapply Permutation_NoDup; [apply Permutation_map, X|auto]).
    rewrite !dedup_nodup by auto.
    pose proof (filter_perm' keepf _ _ X) as XF.
    pose proof (oseq_perm _ _ (Permutation_map unopt XF)) as Y.
    destruct (oseq (map unopt (filter keepf n1))) as [q1|] eqn:Q1, (oseq (map unopt (filter keepf n2))) as [q2|] eqn:Q2; try contradiction; [|reflexivity].
    cbn [obind]. do 3 f_equal. apply unopt_keys in Q1. apply sort_keys_perm_eq; auto.
    + rewrite Q1. now apply NoDup_filter_keys.
    + apply Forall_forall. intros p Hp.
      assert (I : In (fst p) (map fst (filter keepf n1))) by (rewrite <- Q1; now apply in_map).
      apply in_map_iff in I as (q & Eq & Hq). apply filter_In in Hq as [Hq _]. rewrite Forall_forall in U1.
      rewrite <- Eq. now apply U1.
  - rewrite !norm_obj_eq'. rewrite !map_app. cbn [map]. rewrite !oseq_app.
    destruct (oseq (map keyed m1)) as [n1|] eqn:E1; [|reflexivity]. cbn [obind oseq keyed fst snd norm].
    destruct (oseq (map keyed m2)) as [n2|] eqn:E2; [|reflexivity]. cbn [obind].
    rewrite dedup_app_null; [reflexivity|]. intros I. apply H. apply keyed_fst in E1. rewrite E1.
    rewrite <- (map_map fst Some). now apply in_map.
  - rewrite !norm_obj_eq'. rewrite !map_app. cbn [map]. rewrite !oseq_app.
    destruct (oseq (map keyed m1)) as [n1|] eqn:E1; [|reflexivity]. cbn [obind oseq keyed fst snd].
    destruct (oseq (map keyed m2)) as [n2|] eqn:E2; [|reflexivity]. cbn [obind].
    rewrite dedup_app_drop; [reflexivity|]. apply keyed_fst in E2. rewrite E2 in H.
    rewrite <- (map_map fst Some) in H. apply in_map_iff in H as (k' & Ek & I). now inversion Ek; subst.
Qed.

Lemma jeq_arr_all l l' : Forall2 jeq l l' -> forall pre, jeq (JArr (pre ++ l)) (JArr (pre ++ l')).
Proof.
  induction 1 as [|x y l l' H F IH]; intros pre; [constructor|].
  eapply je_trans; [apply je_arr, H|]. change (x :: l) with ([x] ++ l).
  specialize (IH (pre ++ [y])). rewrite <- !app_assoc in IH. exact IH.
Qed.

Lemma jeq_obj_all m m' : Forall2 (fun p q => fst p = fst q /\ jeq (snd p) (snd q)) m m' ->
  forall pre, jeq (JObj (pre ++ m)) (JObj (pre ++ m')).
Proof.
  induction 1 as [|[k x] [k' y] l l' [E H] F IH]; intros pre; [constructor|]. cbn in E, H. subst.
  eapply je_trans; [apply je_obj, H|].
  specialize (IH (pre ++ [(k', y)])). rewrite <- !app_assoc in IH. exact IH.
Qed.

Lemma map_rekey_keys m : map fst (map rekey m) = map Some (map fst m).
Proof. now rewrite !map_map. Qed.

Lemma jeq_dedup (m : list (bytes * json)) : forall pre, jeq (JObj (pre ++ map rekey m)) (JObj (pre ++ map rekey (dedup_last m))).
Proof.
  induction m as [|[k x] m IH]; intros pre; [constructor|]. cbn [dedup_last].
  destruct (existsb _ m) eqn:E.
  - eapply je_trans; [|apply IH]. apply je_dup. rewrite map_rekey_keys. apply in_map. now apply existsb_key_In.
  - cbn [map]. specialize (IH (pre ++ [rekey (k, x)])). rewrite <- !app_assoc in IH. exact IH.
Qed.

Definition keepj (p : bytes * json) : bool := negb (match snd p with JNull => true | _ => false end).

Lemma jeq_nulls (m : list (bytes * json)) : forall pre : list (bytes * json), NoDup (map fst (pre ++ m)) ->
  jeq (JObj (map rekey (pre ++ m))) (JObj (map rekey (pre ++ filter keepj m))).
Proof.
  induction m as [|[k x] m IH]; intros pre ND; [constructor|]. cbn [filter].
  assert (KX : keepj (k, x) = true \/ x = JNull) by (destruct x; auto). destruct KX as [KX| ->].
  - rewrite KX. specialize (IH (pre ++ [(k, x)])). rewrite <- !app_assoc in IH. now apply IH.
  - cbn [keepj snd negb]. rewrite map_app in ND. cbn in ND. pose proof (NoDup_remove_2 _ _ _ ND) as N2.
    apply NoDup_remove_1 in ND. rewrite <- map_app in ND.
    eapply je_trans; [|apply IH, ND]. rewrite !map_app. cbn [map]. apply je_null.
    rewrite map_rekey_keys. intros I. apply in_map_iff in I as (k' & Ek & I). inversion Ek; subst. apply N2, in_app_iff. auto.
Qed.

Lemma existsb_map_key {A B} (f : A -> B) k (m : list (bytes * A)) :
  existsb (fun p : bytes * B => bytes_eqb k (fst p)) (map (fun p => (fst p, f (snd p))) m) = existsb (fun p => bytes_eqb k (fst p)) m.
Proof. induction m as [|[k' y] m IHm]; cbn; [reflexivity|]. now rewrite IHm. Qed.

Lemma dedup_map {A B} (f : A -> B) (m : list (bytes * A)) :
  dedup_last (map (fun p => (fst p, f (snd p))) m) = map (fun p => (fst p, f (snd p))) (dedup_last m).
Proof.
  induction m as [|[k x] m IH]; cbn [map dedup_last fst snd]; [reflexivity|].
  rewrite existsb_map_key, IH. destruct (existsb _ m); reflexivity.
Qed.

Lemma norm_jeq : forall j n, jok j = true -> norm j = Some n -> jeq j n.
Proof.
  induction j as [|b|z|raw|s|l IH|m IH] using json_ind'; intros n H N; try discriminate.
  - inversion N. constructor.
  - inversion N. constructor.
  - inversion N. apply je_int.
  - destruct s; inversion N. constructor.
  - cbn [norm] in N. destruct (oseq (map norm l)) as [l'|] eqn:E; [|discriminate]. inversion N; subst.
    apply (jeq_arr_all l l') with (pre := []).
    apply oseq_inv in E. cbn [jok] in H. clear N. revert l' E H. induction IH as [|x l Hx F IHl]; intros [|y l'] E H; try discriminate; constructor.
    + cbn in *. apply andb_true_iff in H as [H1 H2]. inversion E. auto.
    + cbn in *. apply andb_true_iff in H as [H1 H2]. inversion E. apply IHl; auto.
  - cbn [jok] in H.
    assert (X : exists mb, m = map (fun p => (Some (fst p), fst (snd p))) mb /\
       Forall (fun p => utf8_valid (fst p) = true /\ norm (fst (snd p)) = Some (snd (snd p)) /\ jeq (fst (snd p)) (snd (snd p))) mb).
    { clear N. induction IH as [|[k x] m Hx F IHm]; [exists []; split; auto|].
      cbn [forallb fst snd] in H. apply andb_true_iff in H as [H1 H2]. apply andb_true_iff in H1 as [Hk H1].
      destruct k as [k|]; [|discriminate]. destruct (norm_jok x H1) as (nx & Nx & _).
      destruct (IHm H2) as (mb & -> & Fb). exists ((k, (x, nx)) :: mb). split; [reflexivity|]. constructor; auto. }
    destruct X as (mb & -> & F). clear IH H.
    set (mn := map (fun p : bytes * (json * json) => (fst p, snd (snd p))) mb).
    assert (E : norm (JObj (map (fun p => (Some (fst p), fst (snd p))) mb)) = Some (JObj (map rekey (sort_keys (filter keepj (dedup_last mn)))))).
    { rewrite norm_obj_eq'. rewrite map_map.
      rewrite (oseq_map_some _ (fun p => (fst p, Some (snd (snd p))))).
      2:{ intros p Hp. rewrite Forall_forall in F. destruct (F p Hp) as (_ & Nx & _). unfold keyed. cbn. now rewrite Nx. }
      cbn [obind].
      replace (map (fun p : bytes * (json * json) => (fst p, Some (snd (snd p)))) mb) with (map (fun p : bytes * json => (fst p, Some (snd p))) mn)
        by (unfold mn; now rewrite map_map).
      rewrite dedup_map.
      assert (FF : forall l : list (bytes * json), filter keepf (map (fun p => (fst p, Some (snd p))) l) = map (fun p => (fst p, Some (snd p))) (filter keepj l)).
      { clear. induction l as [|[k x] l IH]; [reflexivity|]. cbn [map filter]. rewrite IH. unfold keepf at 1, keepj at 1. cbn. destruct x; reflexivity. }
      rewrite FF, map_map. rewrite (oseq_map_some _ (fun p => p)) by (intros [k x] _; reflexivity). cbn [obind]. now rewrite map_id. }
    rewrite E in N. inversion N; subst n.
    eapply je_trans; [|eapply je_trans; [apply (jeq_dedup mn []) | eapply je_trans; [apply (jeq_nulls (dedup_last mn) []), dedup_NoDup|]]].
    + apply (jeq_obj_all _ _) with (pre := []). unfold mn. clear -F. induction F as [|p mb (U & Nx & J) F IH]; cbn; constructor; auto.
    + apply je_perm.
      * apply Permutation_map, Permutation_sym, sort_keys_perm.
      * rewrite map_rekey_keys. apply FinFun.Injective_map_NoDup; [intros a b Eq; now inversion Eq|].
        apply NoDup_filter_keys, dedup_NoDup.
      * apply Forall_forall. intros p Hp. apply in_map_iff in Hp as (q & <- & Hq). cbn [app] in Hq. apply filter_In in Hq as [Hq _].
        apply dedup_In in Hq. unfold mn in Hq. apply in_map_iff in Hq as (r & <- & Hr).
        rewrite Forall_forall in F. destruct (F r Hr) as (U & _). exists (fst r). auto.
Qed.

Lemma canon_iff a b : jok a = true -> jok b = true -> (canon a = canon b <-> jeq a b).
Proof.
  intros Ha Hb. rewrite canon_norm by auto. split; [|apply jeq_norm].
  intros E. destruct (norm_jok a Ha) as (n & Na & _). assert (Nb : norm b = Some n) by congruence.
  eapply je_trans; [apply norm_jeq; eauto|]. apply je_sym, norm_jeq; auto.
Qed.
