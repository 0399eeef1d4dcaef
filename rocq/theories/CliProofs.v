(** Proofs about the CLI parser. *)
From Verif Require Import Base Env EnvProofs CliParser SpecCli.

Lemma starts_with_iff p s : starts_with p s = true <-> exists r, s = p ++ r.
Proof.
  revert s; induction p as [|a p IH]; intros s; cbn.
  - split; [intros _; now exists s|reflexivity].
  - destruct s as [|b s]; [split; [discriminate|intros (r & E); discriminate]|].
    rewrite andb_true_iff, IH. split.
    + intros [E (r & ->)]. destruct (byte_eqb_spec a b) as [->|]; [now exists r|discriminate].
    + intros (r & E). injection E as -> ->. split; [apply byte_eqb_refl|now exists r].
Qed.
Lemma starts_iff s : starts_with INPUT_PREFIX s = true <-> is_option s.
Proof. apply starts_with_iff. Qed.
Lemma starts_false s : starts_with INPUT_PREFIX s = false <-> ~ is_option s.
Proof. rewrite <- starts_iff. destruct (starts_with INPUT_PREFIX s); split; congruence. Qed.
Lemma contains_iff s l : contains s l = true <-> In s l.
Proof. apply memb_In. intros; apply bytes_eqb_eq. Qed.

Lemma bytes_eqb_comm a b : bytes_eqb a b = bytes_eqb b a.
Proof. destruct (bytes_eqb_spec a b), (bytes_eqb_spec b a); congruence. Qed.

(** *** The table *)
Lemma find_app {A} (f : A -> bool) l1 l2 : find f (l1 ++ l2) = match find f l1 with Some x => Some x | None => find f l2 end.
Proof. induction l1 as [|a l IH]; cbn; [reflexivity|]. destruct (f a); [reflexivity|exact IH]. Qed.
Lemma parser_of_snoc ts t : parser_of (ts ++ [t]) = tm_insert t (parser_of ts).
Proof. unfold parser_of. now rewrite fold_left_app. Qed.
Lemma registered_snoc ts t n : registered (ts ++ [t]) n = if bytes_eqb n (t_name t) then Some t else registered ts n.
Proof.
  unfold registered. rewrite rev_app_distr. cbn [rev app find].
  destruct (bytes_eqb_spec (t_name t) n) as [<-|N]; [now rewrite bytes_eqb_refl|].
  destruct (bytes_eqb_spec n (t_name t)); [congruence|reflexivity].
Qed.
Lemma parser_of_get ts n : map_get n (parser_of ts) = registered ts n.
Proof.
  revert n; induction ts as [|t ts IH] using rev_ind; intros n.
  - unfold parser_of, registered, tm_default, tm_insert. cbn [fold_left rev app]. rewrite !map_get_insert. cbn [map_get find t_name token_new].
    rewrite (bytes_eqb_comm VERSION n), (bytes_eqb_comm HELP n). reflexivity.
  - rewrite parser_of_snoc, registered_snoc. unfold tm_insert. now rewrite map_get_insert, IH.
Qed.
Lemma parser_of_sorted ts : sorted_keys (parser_of ts) = true.
Proof.
  induction ts as [|t ts IH] using rev_ind; [reflexivity|]. rewrite parser_of_snoc. unfold tm_insert. now apply map_insert_sorted.
Qed.
Lemma registered_name ts n t : registered ts n = Some t -> t_name t = n.
Proof. intros H. apply find_some in H as [_ H]. now apply bytes_eqb_eq. Qed.
Lemma registered_unset ts n t : Forall unset ts -> registered ts n = Some t -> unset t.
Proof.
  intros F H. apply find_some in H as [I _]. apply in_app_iff in I as [I|[<-|[<-|[]]]]; [|reflexivity..].
  rewrite <- in_rev in I. rewrite Forall_forall in F. auto.
Qed.

(** *** What the table holds after some occurrences *)
Definition stored (t : token) (n : bytes) (occ : list (bytes * option bytes)) : option token_type :=
  if in_dec bytes_dec n (map fst occ) then
    Some (if t_takes_value t then (if t_multiple t then TMultiple (values n occ) else TSingle (last (values n occ) []))
          else TFlag)
  else None.
Definition with_user (u : option token_type) (t : token) : token :=
  {| t_name := t_name t; t_required := t_required t; t_requires := t_requires t; t_forbids := t_forbids t;
     t_takes_value := t_takes_value t; t_default := t_default t; t_user := u; t_multiple := t_multiple t |}.
Definition holds (ts : list token) (m : token_map) (occ : list (bytes * option bytes)) : Prop :=
  sorted_keys m = true /\
  forall n, map_get n m = match registered ts n with Some t => Some (with_user (stored t n occ) t) | None => None end.

Lemma with_user_id t : with_user (t_user t) t = t.
Proof. now destruct t. Qed.
Lemma holds_init ts : Forall unset ts -> holds ts (parser_of ts) [].
Proof.
  intros F. split; [apply parser_of_sorted|]. intros n. rewrite parser_of_get.
  destruct (registered ts n) as [t|] eqn:E; [|reflexivity]. unfold stored. cbn.
  pose proof (registered_unset _ _ _ F E) as U. unfold unset in U. now rewrite <- U, with_user_id.
Qed.
Lemma values_app n a b : values n (a ++ b) = values n a ++ values n b.
Proof. apply flat_map_app. Qed.
Lemma values_other n n' v occ : n <> n' -> values n (occ ++ [(n', v)]) = values n occ.
Proof.
  intros N. rewrite values_app. unfold values at 2. cbn. destruct (bytes_eqb_spec n' n); [congruence|]. now rewrite !app_nil_r.
Qed.
Lemma values_same n v occ : values n (occ ++ [(n, Some v)]) = values n occ ++ [v].
Proof. rewrite values_app. unfold values at 2. cbn. now rewrite bytes_eqb_refl. Qed.
Lemma stored_other t n n' v occ : n <> n' -> stored t n (occ ++ [(n', v)]) = stored t n occ.
Proof.
  intros N. unfold stored. rewrite (values_other _ _ _ _ N), map_app. cbn [map fst].
  destruct (in_dec bytes_dec n (map fst occ)) as [I|I]; destruct (in_dec bytes_dec n (map fst occ ++ [n'])) as [J|J]; try reflexivity; exfalso.
  - apply J, in_app_iff. now left.
  - apply in_app_iff in J as [J|[J|[]]]; [auto|congruence].
Qed.
Lemma holds_step ts m occ n t v u : holds ts m occ -> registered ts n = Some t ->
  stored t n (occ ++ [(n, v)]) = Some u ->
  holds ts (map_insert n (set_user u (with_user (stored t n occ) t)) m) (occ ++ [(n, v)]).
Proof.
  intros [S H] R E. split; [now apply map_insert_sorted|]. intros n'. rewrite map_get_insert.
  destruct (bytes_eqb_spec n' n) as [->|N].
  - rewrite R, E. reflexivity.
  - rewrite H. destruct (registered ts n') as [t'|]; [|reflexivity]. now rewrite (stored_other _ _ _ _ _ N).
Qed.
Lemma stored_value t n v occ : t_takes_value t = true ->
  stored t n (occ ++ [(n, Some v)]) = Some (if t_multiple t then TMultiple (values n occ ++ [v]) else TSingle v).
Proof.
  intros T. unfold stored. rewrite map_app. cbn [map fst].
  destruct (in_dec _ _ _) as [I|I]; [|exfalso; apply I, in_app_iff; right; now left].
  rewrite T, values_same. destruct (t_multiple t); [reflexivity|]. now rewrite last_last.
Qed.
Lemma stored_flag t n occ : t_takes_value t = false -> stored t n (occ ++ [(n, None)]) = Some TFlag.
Proof.
  intros T. unfold stored. rewrite map_app. cbn [map fst].
  destruct (in_dec _ _ _) as [I|I]; [|exfalso; apply I, in_app_iff; right; now left]. now rewrite T.
Qed.
Lemma values_absent n occ : ~ In n (map fst occ) -> values n occ = [].
Proof.
  induction occ as [|[k v] occ IH]; cbn; [reflexivity|]. intros N. destruct (bytes_eqb_spec k n) as [->|]; [tauto|]. cbn. apply IH. tauto.
Qed.
Lemma store_holds t n v occ : t_takes_value t = true ->
  store (with_user (stored t n occ) t) v = Ok (if t_multiple t then TMultiple (values n occ ++ [v]) else TSingle v).
Proof.
  intros T. unfold store. cbn [t_multiple with_user t_user]. destruct (t_multiple t) eqn:M; [|reflexivity].
  unfold stored. destruct (in_dec _ _ _) as [I|I].
  - rewrite T, M. reflexivity.
  - now rewrite (values_absent _ _ I).
Qed.

Definition once (ts : list token) (occ : list (bytes * option bytes)) : Prop :=
  forall n t, registered ts n = Some t -> t_multiple t = false -> count_occ bytes_dec (map fst occ) n <= 1.

Lemma once_prefix ts a b : once ts (a ++ b) -> once ts a.
Proof. intros H n t R M. specialize (H n t R M). rewrite map_app, count_occ_app in H. lia. Qed.
Lemma once_new ts occ n t v : once ts (occ ++ [(n, v)]) -> registered ts n = Some t -> t_multiple t = false -> ~ In n (map fst occ).
Proof.
  intros H R M. specialize (H n t R M). rewrite map_app, count_occ_app in H. cbn [map fst count_occ] in H.
  destruct (bytes_dec n n); [|congruence]. intros I. apply (count_occ_In bytes_dec) in I. lia.
Qed.
Lemma once_add ts occ n t v : once ts occ -> registered ts n = Some t -> (t_multiple t = false -> ~ In n (map fst occ)) -> once ts (occ ++ [(n, v)]).
Proof.
  intros H R M n' t' R' M'. rewrite map_app, count_occ_app. cbn [map fst count_occ].
  destruct (bytes_dec n n') as [->|]; [|specialize (H n' t' R' M'); lia].
  replace t' with t in * by congruence. apply M in M'. apply (count_occ_not_In bytes_dec) in M'. lia.
Qed.
Lemma snoc_app {A} (a b : list A) x : a ++ x :: b = (a ++ [x]) ++ b.
Proof. now rewrite <- app_assoc. Qed.

Lemma check_input_ok ts m occ i : holds ts m occ -> check_input m i = Ok tt <->
  exists n t, i = bs "--" ++ n /\ registered ts n = Some t /\ (t_multiple t = false -> ~ In n (map fst occ)).
Proof.
  intros [S H]. unfold check_input. destruct (starts_with INPUT_PREFIX i) eqn:E; cbn [negb].
  - apply starts_iff in E as (n & ->). change (skipn 2 (bs "--" ++ n)) with n. rewrite H.
    assert (X : forall n', bs "--" ++ n = bs "--" ++ n' -> n = n') by (intros n' Q; now injection Q).
    destruct (registered ts n) as [t|] eqn:R.
    + cbn [t_multiple with_user t_user].
      destruct (t_multiple t) eqn:M; cbn [negb andb].
      { split; [intros _; exists n, t; repeat split; auto; congruence|reflexivity]. }
      unfold stored. destruct (in_dec _ _ _) as [I|I]; cbn [is_some].
      * split; [discriminate|]. intros (n' & t' & Q & R' & A). apply X in Q as <-. exfalso. apply A; [congruence|assumption].
      * split; [intros _; exists n, t; auto|reflexivity].
    + split; [discriminate|]. intros (n' & t' & Q & R' & _). apply X in Q as <-. congruence.
  - split; [discriminate|]. intros (n & t & -> & _). apply starts_false in E. exfalso. apply E. now exists n.
Qed.

Lemma fill_sound ts : forall k inputs m occ m', length inputs <= k -> holds ts m occ -> once ts occ -> fill m inputs = Ok m' ->
  exists occ', reads ts inputs occ' /\ once ts (occ ++ occ') /\ holds ts m' (occ ++ occ').
Proof.
  induction k as [|k IH]; intros inputs m occ m' L H O E.
  - destruct inputs; [|cbn in L; lia]. injection E as <-. exists []. rewrite app_nil_r. repeat split; [constructor|exact O|apply H..].
  - destruct inputs as [|i rest].
    { injection E as <-. exists []. rewrite app_nil_r. repeat split; [constructor|exact O|apply H..]. }
    cbn [fill] in E. destruct (check_input m i) as [[]|] eqn:C; [|discriminate].
    apply (check_input_ok _ _ _ _ H) in C as (n & t & -> & R & F). change (skipn 2 (bs "--" ++ n)) with n in E.
    pose proof H as [S G]. rewrite G, R in E. cbn [t_takes_value with_user t_default] in E.
    destruct (t_takes_value t) eqn:T.
    + assert (DEF : forall d, t_default t = Some d -> (rest = [] \/ exists j r, rest = j :: r /\ is_option j) ->
        match store (with_user (stored t n occ) t) d with
        | Ok u => fill (map_insert n (set_user u (with_user (stored t n occ) t)) m) rest | Err e => Err e end = Ok m' ->
        exists occ', reads ts ((bs "--" ++ n) :: rest) occ' /\ once ts (occ ++ occ') /\ holds ts m' (occ ++ occ')).
      { intros d D N Q. rewrite store_holds in Q by assumption.
        edestruct (IH rest) as (occ' & A1 & A2 & A3); [cbn in L; lia| |eapply once_add with (v := Some d); eassumption|exact Q|].
        { apply holds_step; [assumption..|]. now rewrite stored_value. }
        exists ((n, Some d) :: occ'). rewrite snoc_app. split; [now apply R_default with t|now split]. }
      destruct rest as [|v rest].
      { destruct (t_default t) as [d|] eqn:D; [|discriminate]. apply (DEF d); auto. }
      destruct (starts_with INPUT_PREFIX v) eqn:V; cbn [negb] in E.
      { apply starts_iff in V. destruct (t_default t) as [d|] eqn:D; [|discriminate]. apply (DEF d); auto. right. now exists v, rest. }
      apply starts_false in V. rewrite store_holds in E by assumption.
      edestruct (IH rest) as (occ' & A1 & A2 & A3); [cbn in L; lia| |eapply once_add with (v := Some v); eassumption|exact E|].
      { apply holds_step; [assumption..|]. now rewrite stored_value. }
      exists ((n, Some v) :: occ'). rewrite snoc_app. split; [now apply R_value with t|now split].
    + edestruct (IH rest) as (occ' & A1 & A2 & A3); [cbn in L; lia| |eapply once_add with (v := None); eassumption|exact E|].
      { apply holds_step; [assumption..|]. now rewrite stored_flag. }
      exists ((n, None) :: occ'). rewrite snoc_app. split; [now apply R_flag with t|now split].
Qed.

Lemma fill_complete ts inputs occ' : reads ts inputs occ' -> forall m occ, holds ts m occ -> once ts (occ ++ occ') -> exists m', fill m inputs = Ok m'.
Proof.
  induction 1 as [|n t rest occ' R T _ IH|n t v rest occ' R T V _ IH|n t d rest occ' R T D N _ IH]; intros m occ H O; [now exists m|..];
    rewrite snoc_app in O; pose proof H as [S G];
    (assert (C : check_input m (bs "--" ++ n) = Ok tt)
      by (apply (check_input_ok _ _ _ _ H); exists n, t; repeat split; [assumption|intros M; eapply once_new; [eapply once_prefix, O|eassumption..]]));
    cbn [fill]; rewrite C; change (skipn 2 (bs "--" ++ n)) with n; rewrite G, R; cbn [t_takes_value with_user t_default]; rewrite T.
  - apply (IH _ (occ ++ [(n, None)])); [|assumption]. apply holds_step; [assumption..|]. now rewrite stored_flag.
  - apply starts_false in V. rewrite V. cbn [negb]. rewrite store_holds by assumption.
    apply (IH _ (occ ++ [(n, Some v)])); [|assumption]. apply holds_step; [assumption..|]. now rewrite stored_value.
  - destruct rest as [|i r].
    + rewrite D, store_holds by assumption. apply (IH _ (occ ++ [(n, Some d)])); [|assumption]. apply holds_step; [assumption..|]. now rewrite stored_value.
    + destruct N as [N|(i' & r' & E & N)]; [discriminate|]. injection E as <- <-. apply starts_iff in N. rewrite N. cbn [negb].
      rewrite D, store_holds by assumption. apply (IH _ (occ ++ [(n, Some d)])); [|assumption]. apply holds_step; [assumption..|]. now rewrite stored_value.
Qed.

Lemma reads_functional ts inputs a : reads ts inputs a -> forall b, reads ts inputs b -> a = b.
Proof.
  assert (P : forall n, is_option (bs "--" ++ n)) by (intros n; now exists n).
  induction 1 as [|n t rest occ' R T _ IH|n t v rest occ' R T V _ IH|n t d rest occ' R T D N _ IH]; intros b B.
  - inversion B; reflexivity.
  - inversion B; subst; try congruence. f_equal. now apply IH.
  - inversion B; subst; try congruence.
    + f_equal. now apply IH.
    + exfalso. match goal with Q : _ \/ _ |- _ => destruct Q as [Q|(i & r & Q & W)]; [discriminate|injection Q as <- <-; contradiction] end.
  - inversion B; subst; try congruence.
    + exfalso. destruct N as [Q|(i & r & Q & W)]; [discriminate|injection Q as <- <-; contradiction].
    + replace d0 with d by congruence. f_equal. now apply IH.
Qed.
Lemma reads_given ts inputs occ : reads ts inputs occ -> forall n, In (bs "--" ++ n) inputs <-> given n occ.
Proof.
  unfold given. induction 1 as [|n t rest occ' R T _ IH|n t v rest occ' R T V _ IH|n t d rest occ' R T D N _ IH]; intros k; cbn [map fst In].
  - tauto.
  - rewrite IH. split; (intros [E|E]; [left|now right]); [now injection E|now subst].
  - rewrite IH. split.
    + intros [E|[E|E]]; [left; now injection E| |now right]. exfalso. apply V. rewrite E. now exists k.
    + intros [E|E]; [left; now subst|right; now right].
  - rewrite IH. split; (intros [E|E]; [left|now right]); [now injection E|now subst].
Qed.

Lemma check_forbids_ok name fs inputs : check_forbids name fs inputs = Ok tt <-> forall o, In o fs -> ~ In (bs "--" ++ o) inputs.
Proof.
  induction fs as [|o fs IH]; cbn [check_forbids In]; [split; [intros _ o []|reflexivity]|].
  destruct (contains (dashed o) inputs) eqn:C.
  - apply contains_iff in C. split; [discriminate|]. intros H. exfalso. apply (H o); [now left|assumption].
  - assert (~ In (bs "--" ++ o) inputs) as N by (intros I; apply contains_iff in I; unfold dashed, INPUT_PREFIX in C; congruence).
    rewrite IH. split; [intros H o' [<-|I]; auto|intros H o' I; apply H; now right].
Qed.
Lemma check_token_ok t inputs : check_token t inputs = Ok tt <->
  (t_required t = true -> t_user t <> None) /\
  (t_user t <> None -> (forall o, t_requires t = Some o -> In (bs "--" ++ o) inputs) /\ forall o, In o (t_forbids t) -> ~ In (bs "--" ++ o) inputs).
Proof.
  unfold check_token. destruct (t_user t) as [u|]; cbn [is_some negb].
  - rewrite andb_false_r. destruct (t_requires t) as [o|].
    + destruct (contains (dashed o) inputs) eqn:C; cbn [negb].
      * apply contains_iff in C. rewrite check_forbids_ok. split.
        { intros H. split; [congruence|]. intros _. split; [intros o' Q; injection Q as <-; exact C|exact H]. }
        { intros [_ H]. apply H. congruence. }
      * split; [discriminate|]. intros [_ H]. destruct H as [H _]; [congruence|]. specialize (H o eq_refl). apply contains_iff in H. unfold dashed, INPUT_PREFIX in C. congruence.
    + rewrite check_forbids_ok. split.
      { intros H. split; [congruence|]. intros _. split; [congruence|exact H]. }
      { intros [_ H]. apply H. congruence. }
  - rewrite andb_true_r. destruct (t_required t); split; try congruence.
    + intros [H _]. now specialize (H eq_refl).
    + intros _. split; congruence.
Qed.
Lemma check_constraints_ok m inputs : check_constraints m inputs = Ok tt <-> forall k t, In (k, t) m -> check_token t inputs = Ok tt.
Proof.
  induction m as [|[k t] m IH]; cbn [check_constraints In]; [split; [intros _ k t []|reflexivity]|].
  destruct (check_token t inputs) as [[]|e] eqn:C.
  - rewrite IH. split; [intros H k' t' [E|I]; [now injection E as <- <-|eauto]|intros H k' t' I; eapply H; eauto].
  - split; [discriminate|]. intros H. specialize (H k t (or_introl eq_refl)). congruence.
Qed.
Lemma get_In {V} (m : list (bytes * V)) : sorted_keys m = true -> forall k v, map_get k m = Some v <-> In (k, v) m.
Proof.
  induction m as [|[k' v'] m IH]; intros S k v; cbn [map_get In]; [split; [discriminate|intros []]|].
  apply sorted_cons in S as [L S]. destruct (bytes_eqb_spec k k') as [->|N].
  - split; [intros E; injection E as <-; now left|]. intros [E|I]; [now injection E as <-|].
    exfalso. apply IH in I; [|assumption]. rewrite (all_lt_get _ _ L) in I. discriminate.
  - rewrite (IH S). split; [now right|]. intros [E|I]; [congruence|assumption].
Qed.
Lemma stored_given t n occ : stored t n occ <> None <-> given n occ.
Proof. unfold stored, given. destruct (in_dec _ _ _); split; congruence. Qed.
Lemma constraints_iff ts inputs occ m : reads ts inputs occ -> once ts occ -> holds ts m occ ->
  check_constraints m inputs = Ok tt <-> acceptable ts occ.
Proof.
  intros RD O [S G]. rewrite check_constraints_ok. pose proof (reads_given _ _ _ RD) as RG. split.
  - intros H. assert (K : forall n t, registered ts n = Some t -> check_token (with_user (stored t n occ) t) inputs = Ok tt).
    { intros n t R. apply (H n). apply get_In; [assumption|]. now rewrite G, R. }
    split; [exact O|..].
    + intros n t R Q. apply K, check_token_ok in R as [A _]. apply stored_given with t. now apply A.
    + intros n t o GV R Q. apply K, check_token_ok in R as [_ A]. apply RG. apply A; [now apply stored_given|assumption].
    + intros n t o GV R Q X. apply K, check_token_ok in R as [_ A]. apply RG in X. revert X. apply A; [now apply stored_given|assumption].
  - intros [_ A B C] k t I. apply get_In in I; [|assumption]. rewrite G in I. destruct (registered ts k) as [t0|] eqn:R; [|discriminate].
    injection I as <-. apply check_token_ok. cbn [t_required t_user with_user t_requires t_forbids]. split.
    + intros Q. apply stored_given. exact (A k t0 R Q).
    + intros Q. apply stored_given in Q. split; [intros o E; apply RG; exact (B k t0 o Q R E)|intros o E X; apply RG in X; exact (C k t0 o Q R E X)].
Qed.
