(** Concurrent requests are equivalent to a sequential order. *)
From Verif Require Import Base Types Msg World Attest Services State Wire SpecWire.
Require Import ZifyBool ZifyN ZifyNat.

Lemma NoDup_app {A} (l m : list A) : NoDup l -> NoDup m -> (forall x, In x l -> In x m -> False) -> NoDup (l ++ m).
Proof.
  intros Hl Hm D. induction Hl as [|x l N Hl IH]; [exact Hm|]. cbn. constructor.
  - intros H. apply in_app_or in H as [H|H]; [contradiction|]. apply (D x); [now left|exact H].
  - apply IH. intros y Hy. apply D. now right.
Qed.

Section Conc.
  Context (Y : sys).
  Notation st := (st Y).
  Notation conf := (conf Y).

  Definition committed (t : task Y) : Prop := match t with Handled _ _ _ | Replied _ _ _ => True | _ => False end.
  Definition holds (t : task Y) : Prop := match t with Holding _ _ _ _ _ | Handled _ _ _ => True | _ => False end.
  Definition linv (s0 : st) (c : conf) (log : list (nat * bytes)) : Prop :=
    NoDup (map fst log)
    /\ (forall i b, In (i, b) log -> exists t, nth_error (c_tasks Y c) i = Some t /\ committed t)
    /\ snd (process_all Y (map snd log) s0) = c_state Y c
    /\ (forall i b r, nth_error (c_tasks Y c) i = Some (Replied Y b r) \/ nth_error (c_tasks Y c) i = Some (Handled Y b r) ->
          exists k, nth_error log k = Some (i, b) /\ nth_error (fst (process_all Y (map snd log) s0)) k = Some r)
    /\ (forall i t, nth_error (c_tasks Y c) i = Some t -> holds t -> c_lock Y c = Some i)
    /\ (forall i b m e s, nth_error (c_tasks Y c) i = Some (Holding Y b m e s) -> s = c_state Y c)
    /\ (forall i b m e s, nth_error (c_tasks Y c) i = Some (Holding Y b m e s) -> intake b = inr (m, e))
    /\ (forall i b m e, nth_error (c_tasks Y c) i = Some (Waiting Y b m e) -> intake b = inr (m, e)).

  Lemma set_task_length i t (l : list (task Y)) : (i < length l)%nat -> length (set_task Y i t l) = length l.
  Proof. intros H. unfold set_task. rewrite app_length. cbn [length]. rewrite firstn_length, skipn_length. lia. Qed.
  Lemma nth_set_same i t (l : list (task Y)) : (i < length l)%nat -> nth_error (set_task Y i t l) i = Some t.
  Proof.
    intros H. unfold set_task. rewrite nth_error_app2; rewrite firstn_length; [|lia].
    replace (i - Nat.min i (length l))%nat with 0%nat by lia. reflexivity.
  Qed.
  Lemma nth_set_other i j t (l : list (task Y)) : (i < length l)%nat -> i <> j -> nth_error (set_task Y i t l) j = nth_error l j.
  Proof.
    intros H N. unfold set_task. rewrite <- (firstn_skipn i l) at 3. destruct (Nat.lt_ge_cases j i).
    - rewrite !nth_error_app1 by (rewrite firstn_length; lia). reflexivity.
    - rewrite !nth_error_app2 by (rewrite firstn_length; lia). rewrite firstn_length, Nat.min_l by lia.
      destruct (skipn i l) as [|x r] eqn:E.
      { assert (length (skipn i l) = 0%nat) by now rewrite E. rewrite skipn_length in H1. lia. }
      assert (E' : skipn (S i) l = r).
      { replace (S i) with (1 + i)%nat by lia. clear -E. revert l E. induction i as [|i IH]; intros l E.
        - cbn in E. subst l. reflexivity.
        - destruct l as [|y l]; [rewrite skipn_nil in E; discriminate|]. cbn [skipn] in E. exact (IH l E). }
      rewrite E'. destruct (j - i)%nat as [|k] eqn:Ek; [lia|]. reflexivity.
  Qed.
  Lemma nth_set i j t (l : list (task Y)) : (i < length l)%nat ->
    nth_error (set_task Y i t l) j = if Nat.eqb i j then Some t else nth_error l j.
  Proof. intros H. destruct (Nat.eqb_spec i j) as [<-|N]; [now apply nth_set_same|now apply nth_set_other]. Qed.
  Lemma nth_lt {A} (l : list A) i x : nth_error l i = Some x -> (i < length l)%nat.
  Proof. intros H. apply nth_error_Some. congruence. Qed.

  Lemma process_all_app l x s : process_all Y (l ++ [x]) s =
    (fst (process_all Y l s) ++ [fst (process Y x (snd (process_all Y l s)))], snd (process Y x (snd (process_all Y l s)))).
  Proof.
    revert s. induction l as [|b l IH]; intros s; cbn [process_all app].
    - destruct (process Y x s) as [a s1] eqn:E. cbn [fst snd]. now rewrite E.
    - destruct (process Y b s) as [a s1]. rewrite IH. destruct (process_all Y l s1) as [ps s2]. reflexivity.
  Qed.
  Lemma process_all_length l : forall s, length (fst (process_all Y l s)) = length l.
  Proof.
    induction l as [|b l IH]; intros s; cbn [process_all]; [reflexivity|]. destruct (process Y b s) as [a s1].
    specialize (IH s1). destruct (process_all Y l s1). cbn in *. now rewrite IH.
  Qed.

  Lemma linv_same s0 c c' log i t : linv s0 c log -> (i < length (c_tasks Y c))%nat -> c_tasks Y c' = set_task Y i t (c_tasks Y c) ->
    c_state Y c' = c_state Y c -> c_lock Y c' = c_lock Y c ->
    (forall t0, nth_error (c_tasks Y c) i = Some t0 -> ~ committed t0 /\ ~ holds t0) -> ~ committed t -> ~ holds t ->
    (forall b m e, t = Waiting Y b m e -> intake b = inr (m, e)) -> linv s0 c' log.
  Proof.
    intros (ND & Lg & St & An & Lk & Sn & H1 & H2) Hi Et Es El Old NC NH W. unfold linv. rewrite Et, Es, El.
    repeat split; auto.
    - intros j b Hj. destruct (Lg j b Hj) as (t0 & E & C). exists t0. split; [|exact C]. rewrite nth_set by exact Hi.
      destruct (Nat.eqb_spec i j) as [<-|]; [|exact E]. destruct (Old _ E). tauto.
    - intros j b r H. rewrite !nth_set in H by exact Hi. destruct (Nat.eqb_spec i j) as [<-|]; [|now apply An].
      destruct H as [H|H]; inversion H; subst; cbn in NC; tauto.
    - intros j t0 H Ht. rewrite nth_set in H by exact Hi. destruct (Nat.eqb_spec i j) as [<-|]; [|now apply (Lk j t0)].
      inversion H; subst. tauto.
    - intros j b m e s H. rewrite nth_set in H by exact Hi. destruct (Nat.eqb_spec i j) as [<-|]; [|now apply (Sn j b m e s)].
      inversion H; subst. cbn in NH. tauto.
    - intros j b m e s H. rewrite nth_set in H by exact Hi. destruct (Nat.eqb_spec i j) as [<-|]; [|now apply (H1 j b m e s)].
      inversion H; subst. cbn in NH. tauto.
    - intros j b m e H. rewrite nth_set in H by exact Hi. destruct (Nat.eqb_spec i j) as [<-|]; [|now apply (H2 j b m e)].
      inversion H; subst. now apply W.
  Qed.

  Lemma linv_step s0 c c' log : linv s0 c log -> cstep Y c c' -> exists ext, linv s0 c' (log ++ ext).
  Proof.
    intros LI SS. destruct SS as [c b|c i b r Ti Ad|c i b m e Ti Ad|c i b m e Ti Lf|c i b m e s Ti|c i b r Ti|c i b Ti|c i b m e Ti].
    - exists []. rewrite app_nil_r. destruct LI as (ND & Lg & St & An & Lk & Sn & H1 & H2). unfold linv. cbn [c_tasks c_lock c_state].
      assert (K : forall j t, nth_error (c_tasks Y c ++ [Received Y b]) j = Some t -> nth_error (c_tasks Y c) j = Some t \/ t = Received Y b).
      { intros j t H. destruct (Nat.lt_ge_cases j (length (c_tasks Y c))).
        - rewrite nth_error_app1 in H by assumption. now left.
        - rewrite nth_error_app2 in H by assumption. destruct (j - _)%nat as [|[|]]; cbn in H; try discriminate. right. now inversion H. }
      repeat split; auto.
      + intros j b0 Hj. destruct (Lg j b0 Hj) as (t & E & C). exists t. split; [|exact C]. rewrite nth_error_app1; [exact E|]. now apply nth_lt in E.
      + intros j b0 r [H|H]; (apply K in H as [H|H]; [|discriminate]); apply An; auto.
      + intros j t H Ht. apply K in H as [H| ->]; [now apply (Lk j t)|destruct Ht].
      + intros j b0 m e s H. apply K in H as [H|H]; [now apply (Sn j b0 m e s)|discriminate].
      + intros j b0 m e s H. apply K in H as [H|H]; [now apply (H1 j b0 m e s)|discriminate].
      + intros j b0 m e H. apply K in H as [H|H]; [now apply (H2 j b0 m e)|discriminate].
    - exists [(i, b)]. pose proof (nth_lt _ _ _ Ti) as Hi. destruct LI as (ND & Lg & St & An & Lk & Sn & H1 & H2). unfold linv. cbn [c_tasks c_lock c_state].
      assert (Fresh : forall b0, ~ List.In (i, b0) log).
      { intros b0 H. destruct (Lg i b0 H) as (t & E & C). rewrite Ti in E. inversion E; subst. destruct C. }
      assert (P : process Y b (snd (process_all Y (map snd log) s0)) = (r, c_state Y c)) by (unfold process; rewrite Ad, St; reflexivity).
      rewrite !map_app. cbn [map fst snd]. rewrite process_all_app, P. cbn [fst snd]. repeat split; auto.
      + apply NoDup_app; [exact ND|constructor; [intros []|constructor]|]. intros j Hj [<-|[]]. apply in_map_iff in Hj as ([k b0] & E & Hj). cbn in E; subst k. now apply (Fresh b0).
      + intros j b0 Hj. rewrite nth_set by exact Hi. apply in_app_or in Hj as [Hj|[Hj|[]]].
        * destruct (Nat.eqb_spec i j) as [<-|]; [now apply Fresh in Hj|]. now apply (Lg j b0).
        * inversion Hj; subst. rewrite Nat.eqb_refl. eexists. split; [reflexivity|exact I].
      + intros j b0 r0 H. rewrite !nth_set in H by exact Hi. destruct (Nat.eqb_spec i j) as [<-|].
        * destruct H as [H|H]; inversion H; subst. exists (length log).
          rewrite !nth_error_app2 by (rewrite ?process_all_length, ?map_length; lia). rewrite process_all_length, map_length, Nat.sub_diag. auto.
        * destruct (An j b0 r0 H) as (k & E1 & E2). exists k. pose proof (nth_lt _ _ _ E1). pose proof (nth_lt _ _ _ E2).
          rewrite !nth_error_app1 by lia. auto.
      + intros j t H Ht. rewrite nth_set in H by exact Hi. destruct (Nat.eqb_spec i j) as [<-|]; [|now apply (Lk j t)]. inversion H; subst. destruct Ht.
      + intros j b0 m e s H. rewrite nth_set in H by exact Hi. destruct (Nat.eqb_spec i j) as [<-|]; [discriminate|now apply (Sn j b0 m e s)].
      + intros j b0 m e s H. rewrite nth_set in H by exact Hi. destruct (Nat.eqb_spec i j) as [<-|]; [discriminate|now apply (H1 j b0 m e s)].
      + intros j b0 m e H. rewrite nth_set in H by exact Hi. destruct (Nat.eqb_spec i j) as [<-|]; [discriminate|now apply (H2 j b0 m e)].
    - exists []. rewrite app_nil_r. eapply linv_same; [exact LI|exact (nth_lt _ _ _ Ti)|reflexivity|reflexivity|reflexivity| |cbn; tauto|cbn; tauto|].
      + intros t E. rewrite Ti in E. inversion E; subst. cbn. tauto.
      + intros b0 m0 e0 E. inversion E; subst. exact Ad.
    - exists []. rewrite app_nil_r. pose proof (nth_lt _ _ _ Ti) as Hi. destruct LI as (ND & Lg & St & An & Lk & Sn & H1 & H2). unfold linv. cbn [c_tasks c_lock c_state].
      repeat split; auto.
      + intros j b0 Hj. destruct (Lg j b0 Hj) as (t & E & C). rewrite nth_set by exact Hi.
        destruct (Nat.eqb_spec i j) as [<-|]; [|now exists t]. rewrite Ti in E. inversion E; subst. destruct C.
      + intros j b0 r H. rewrite !nth_set in H by exact Hi. destruct (Nat.eqb_spec i j) as [<-|]; [destruct H; discriminate|now apply An].
      + intros j t H Ht. rewrite nth_set in H by exact Hi. destruct (Nat.eqb_spec i j) as [<-|]; [reflexivity|].
        specialize (Lk j t H Ht). congruence.
      + intros j b0 m0 e0 s H. rewrite nth_set in H by exact Hi. destruct (Nat.eqb_spec i j) as [<-|]; [now inversion H|now apply (Sn j b0 m0 e0 s)].
      + intros j b0 m0 e0 s H. rewrite nth_set in H by exact Hi. destruct (Nat.eqb_spec i j) as [<-|]; [inversion H; subst; now apply (H2 i)|now apply (H1 j b0 m0 e0 s)].
      + intros j b0 m0 e0 H. rewrite nth_set in H by exact Hi. destruct (Nat.eqb_spec i j) as [<-|]; [discriminate|now apply (H2 j b0 m0 e0)].
    - exists [(i, b)]. pose proof (nth_lt _ _ _ Ti) as Hi. destruct LI as (ND & Lg & St & An & Lk & Sn & H1 & H2). unfold linv. cbn [c_tasks c_lock c_state].
      assert (Fresh : forall b0, ~ List.In (i, b0) log).
      { intros b0 H. destruct (Lg i b0 H) as (t & E & C). rewrite Ti in E. inversion E; subst. destruct C. }
      pose proof (Sn _ _ _ _ _ Ti) as Es. subst s. pose proof (H1 _ _ _ _ _ Ti) as Ad.
      assert (P : process Y b (snd (process_all Y (map snd log) s0)) = (answer e (fst (handle Y m (c_state Y c))), snd (handle Y m (c_state Y c)))).
      { unfold process. rewrite Ad, St. destruct (handle Y m (c_state Y c)). reflexivity. }
      assert (Me : c_lock Y c = Some i) by (eapply Lk; [exact Ti|exact Logic.I]).
      rewrite !map_app. cbn [map fst snd]. rewrite process_all_app, P. cbn [fst snd]. repeat split; auto.
      + apply NoDup_app; [exact ND|constructor; [intros []|constructor]|]. intros j Hj [<-|[]]. apply in_map_iff in Hj as ([k b0] & E & Hj). cbn in E; subst k. now apply (Fresh b0).
      + intros j b0 Hj. rewrite nth_set by exact Hi. apply in_app_or in Hj as [Hj|[Hj|[]]].
        * destruct (Nat.eqb_spec i j) as [<-|]; [now apply Fresh in Hj|]. now apply (Lg j b0).
        * inversion Hj; subst. rewrite Nat.eqb_refl. eexists. split; [reflexivity|exact Logic.I].
      + intros j b0 r0 H. rewrite !nth_set in H by exact Hi. destruct (Nat.eqb_spec i j) as [<-|].
        * destruct H as [H|H]; inversion H; subst. exists (length log).
          rewrite !nth_error_app2 by (rewrite ?process_all_length, ?map_length; lia). rewrite process_all_length, map_length, Nat.sub_diag. auto.
        * destruct (An j b0 r0 H) as (k & E1 & E2). exists k. pose proof (nth_lt _ _ _ E1). pose proof (nth_lt _ _ _ E2).
          rewrite !nth_error_app1 by lia. auto.
      + intros j t H Ht. rewrite nth_set in H by exact Hi. destruct (Nat.eqb_spec i j) as [<-|]; [exact Me|now apply (Lk j t)].
      + intros j b0 m0 e0 s H. rewrite nth_set in H by exact Hi. destruct (Nat.eqb_spec i j) as [<-|N]; [discriminate|].
        exfalso. specialize (Lk j _ H Logic.I). congruence.
      + intros j b0 m0 e0 s H. rewrite nth_set in H by exact Hi. destruct (Nat.eqb_spec i j) as [<-|N]; [discriminate|now apply (H1 j b0 m0 e0 s)].
      + intros j b0 m0 e0 H. rewrite nth_set in H by exact Hi. destruct (Nat.eqb_spec i j) as [<-|N]; [discriminate|now apply (H2 j b0 m0 e0)].
    - exists []. rewrite app_nil_r. pose proof (nth_lt _ _ _ Ti) as Hi. destruct LI as (ND & Lg & St & An & Lk & Sn & H1 & H2). unfold linv. cbn [c_tasks c_lock c_state].
      assert (Me : c_lock Y c = Some i) by (eapply Lk; [exact Ti|exact Logic.I]).
      repeat split; auto.
      + intros j b0 Hj. destruct (Lg j b0 Hj) as (t & E & C). rewrite nth_set by exact Hi.
        destruct (Nat.eqb_spec i j) as [<-|]; [eexists; split; [reflexivity|exact Logic.I]|now exists t].
      + intros j b0 r0 H. rewrite !nth_set in H by exact Hi. destruct (Nat.eqb_spec i j) as [<-|]; [|now apply An].
        destruct H as [H|H]; inversion H; subst. apply An. now right.
      + intros j t H Ht. rewrite nth_set in H by exact Hi. destruct (Nat.eqb_spec i j) as [<-|N]; [inversion H; subst; destruct Ht|].
        exfalso. specialize (Lk j _ H Ht). congruence.
      + intros j b0 m0 e0 s H. rewrite nth_set in H by exact Hi. destruct (Nat.eqb_spec i j) as [<-|N]; [discriminate|now apply (Sn j b0 m0 e0 s)].
      + intros j b0 m0 e0 s H. rewrite nth_set in H by exact Hi. destruct (Nat.eqb_spec i j) as [<-|N]; [discriminate|now apply (H1 j b0 m0 e0 s)].
      + intros j b0 m0 e0 H. rewrite nth_set in H by exact Hi. destruct (Nat.eqb_spec i j) as [<-|N]; [discriminate|now apply (H2 j b0 m0 e0)].
    - exists []. rewrite app_nil_r. eapply linv_same; [exact LI|exact (nth_lt _ _ _ Ti)|reflexivity|reflexivity|reflexivity| |cbn; tauto|cbn; tauto|discriminate].
      intros t E. rewrite Ti in E. inversion E; subst. cbn. tauto.
    - exists []. rewrite app_nil_r. eapply linv_same; [exact LI|exact (nth_lt _ _ _ Ti)|reflexivity|reflexivity|reflexivity| |cbn; tauto|cbn; tauto|discriminate].
      intros t E. rewrite Ti in E. inversion E; subst. cbn. tauto.
  Qed.
  Lemma linv_init s0 : linv s0 (Conf Y [] None s0) [].
  Proof.
    unfold linv. cbn. repeat split.
    - constructor.
    - intros ? ? [].
    - intros i b r [H|H]; destruct i; discriminate.
    - intros i t H. destruct i; discriminate.
    - intros i b m e s H. destruct i; discriminate.
    - intros i b m e s H. destruct i; discriminate.
    - intros i b m e H. destruct i; discriminate.
  Qed.
  Lemma linv_steps s0 c c' log : linv s0 c log -> csteps Y c c' -> exists ext, linv s0 c' (log ++ ext).
  Proof.
    intros LI SS. induction SS as [c|a b c S IH T]; [exists []; now rewrite app_nil_r|].
    destruct (IH LI) as (e1 & I1). destruct (linv_step _ _ _ _ I1 T) as (e2 & I2). exists (e1 ++ e2). now rewrite app_assoc.
  Qed.
  Lemma linv_explains s0 c log : linv s0 c log -> explains Y s0 c log.
  Proof.
    intros (ND & Lg & St & An & _). unfold explains. repeat split; auto.
    intros i b H. destruct (Lg i b H) as (t & E & _). exact (nth_lt _ _ _ E).
  Qed.
  (** One holder at a time. *)
  Lemma linv_exclusive s0 c log i j t u : linv s0 c log -> nth_error (c_tasks Y c) i = Some t -> nth_error (c_tasks Y c) j = Some u ->
    holds t -> holds u -> i = j.
  Proof. intros (_ & _ & _ & _ & Lk & _) Ei Ej Ht Hu. pose proof (Lk _ _ Ei Ht). pose proof (Lk _ _ Ej Hu). congruence. Qed.
End Conc.
