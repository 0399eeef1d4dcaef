(** C43: the connection limit.  C53: one answer per request, in order. *)
From Verif Require Import Base Server.

Definition held (a : acceptor) : nat := match a with Holding => 1 | _ => 0 end.
Definition balanced (max : nat) (l : listener) : Prop := l_permits l + held (l_acceptor l) + served l = max.

Lemma served_set i c c' cs : nth_error cs i = Some c ->
  length (filter open (set_nth i c' cs)) + (if open c then 1 else 0) = length (filter open cs) + (if open c' then 1 else 0).
Proof.
  revert i; induction cs as [|x cs IH]; intros [|i] H; try discriminate; cbn [nth_error set_nth filter] in *.
  - injection H as ->. destruct (open c), (open c'); cbn [length]; lia.
  - specialize (IH i H). destruct (open x); cbn [length]; lia.
Qed.
Lemma step_balanced pr max l l' : balanced max l -> lstep pr l l' -> balanced max l'.
Proof.
  unfold balanced, served. intros B S. destruct S; cbn [l_permits l_acceptor l_conns held] in *; try lia.
  - rewrite filter_app, app_length. cbn. lia.
  - pose proof (served_set i c c' cs H) as E. destruct H0; cbn in E; lia.
Qed.
Lemma drop_balanced max l : balanced max l -> balanced max (drop_listener l).
Proof. unfold balanced, served, drop_listener. destruct (l_acceptor l); cbn; lia. Qed.
Lemma new_balanced max : balanced max (listener_new max).
Proof. unfold balanced, served. cbn. lia. Qed.
Lemma lruns_balanced pr max l l' : balanced max l -> lruns pr l l' -> balanced max l'.
Proof. intros B R. induction R; eauto using step_balanced, drop_balanced. Qed.
Lemma sruns_balanced pr max ls : sruns pr max ls -> Forall (balanced max) ls.
Proof.
  induction 1.
  - apply Forall_forall. intros l I. apply repeat_spec in I as ->. apply new_balanced.
  - apply Forall_app in IHsruns as [A B]. inversion B; subst. apply Forall_app. split; [assumption|]. constructor; [eapply step_balanced; eassumption|assumption].
  - apply Forall_app. split; [assumption|]. apply Forall_forall. intros l I. apply repeat_spec in I as ->. apply new_balanced.
  - apply Forall_map. eapply Forall_impl; [|eassumption]. apply drop_balanced.
Qed.

(** At no time does any listener of any server serve more connections than
    its limit. *)
Theorem c43_never_over_the_limit pr max ls l : sruns pr max ls -> In l ls -> served l <= max.
Proof. intros R I. apply sruns_balanced in R. rewrite Forall_forall in R. apply R in I. unfold balanced in I. lia. Qed.
Print Assumptions c43_never_over_the_limit.

(** No permit is ever lost: whenever fewer than the limit are being served
    (and the server has not been dropped), one more connection can be
    accepted, whatever happened before. *)
Theorem c43_freed_permits_reusable pr max ls l :
  sruns pr max ls -> In l ls -> l_acceptor l <> Aborted -> served l < max ->
  exists l', lruns pr l l' /\ served l' = S (served l).
Proof.
  intros R I A S. apply sruns_balanced in R. rewrite Forall_forall in R. apply R in I. unfold balanced in I.
  assert (X : forall n cs, exists l', lruns pr {| l_permits := n; l_acceptor := Holding; l_conns := cs |} l' /\ served l' = Datatypes.S (length (filter open cs))).
  { intros n cs. eexists. split; [eapply LR_step; [apply LR_refl|apply L_accept]|]. unfold served. cbn [l_conns]. rewrite filter_app, app_length. cbn. lia. }
  destruct l as [n a cs]. unfold served in *. cbn [l_permits l_acceptor l_conns] in *. destruct a; cbn [held] in *; [|apply X|congruence].
  destruct n as [|n]; [lia|]. destruct (X n cs) as (l' & R' & E). exists l'. split; [|exact E].
  clear -R'. remember {| l_permits := n; l_acceptor := Holding; l_conns := cs |} as h eqn:H. induction R' as [|h l' l'' _ IH|h l' _ IH]; subst.
  - eapply LR_step; [apply LR_refl|apply L_acquire].
  - eapply LR_step; eauto.
  - apply LR_drop. now apply IH.
Qed.
Print Assumptions c43_freed_permits_reusable.

(** At the limit nothing new is accepted until a connection ends. *)
Theorem c43_full_means_closed pr max ls l l' :
  sruns pr max ls -> In l ls -> served l = max -> lstep pr l l' -> served l' <= max /\ length (l_conns l') = length (l_conns l).
Proof.
  intros R I S T. apply sruns_balanced in R. rewrite Forall_forall in R. apply R in I. pose proof (step_balanced _ _ _ _ I T) as B.
  split; [unfold balanced in B; lia|]. unfold balanced in I. destruct T; cbn [l_permits l_acceptor l_conns held] in *; try lia; try reflexivity.
  clear. revert i; induction cs as [|x cs IH]; intros [|i]; cbn; auto.
Qed.
Print Assumptions c43_full_means_closed.

Lemma lruns_conn pr l n a cs i c c' e : lruns pr l {| l_permits := n; l_acceptor := a; l_conns := cs |} -> nth_error cs i = Some c -> conn_step pr c c' e ->
  lruns pr l {| l_permits := (if e then S n else n); l_acceptor := a; l_conns := set_nth i c' cs |}.
Proof. intros R N C. eapply LR_step; [exact R|eapply L_conn; eassumption]. Qed.
Lemma sruns_conn pr max n a cs i c c' e : sruns pr max [{| l_permits := n; l_acceptor := a; l_conns := cs |}] -> nth_error cs i = Some c -> conn_step pr c c' e ->
  sruns pr max [{| l_permits := (if e then S n else n); l_acceptor := a; l_conns := set_nth i c' cs |}].
Proof. intros R N C. apply (SR_step _ _ [] _ _ [] R). eapply L_conn; eassumption. Qed.

(** Finding: dropping the server stops accepting, but connections already
    accepted go on being served. *)
Theorem c43_refuted_drop_stops_service :
  exists l, lruns (fun p r => r = p) (listener_new 1) (drop_listener l) /\
    exists l', lruns (fun p r => r = p) (drop_listener l) l' /\
      exists c, nth_error (l_conns l') 0 = Some c /\ c_in c = [bs "late"] /\ c_out c = [bs "late"].
Proof.
  exists {| l_permits := 0; l_acceptor := Waiting; l_conns := [fresh] |}. split.
  - apply LR_drop. eapply LR_step; [eapply LR_step; [apply LR_refl|apply L_acquire]|apply (L_accept _ 0 [])].
  - eexists. split.
    + cbn [drop_listener l_permits l_acceptor l_conns].
      set (e := fun p r : bytes => r = p).
      pose proof (lruns_conn e _ 0 Aborted [fresh] 0 _ _ _ (LR_refl e _) eq_refl (CS_recv e [] [] (bs "late"))) as R1. cbn [set_nth app] in R1.
      pose proof (lruns_conn e _ _ _ _ 0 _ _ _ R1 eq_refl (CS_process e _ _ (bs "late") (bs "late") eq_refl)) as R2. cbn [set_nth app] in R2.
      exact (lruns_conn e _ _ _ _ 0 _ _ _ R2 eq_refl (CS_send e _ _ _)).
    + eexists. split; [reflexivity|]. split; reflexivity.
Qed.
Print Assumptions c43_refuted_drop_stops_service.
Theorem c43_drop_stops_accepting pr l l' : lruns pr (drop_listener l) l' -> length (l_conns l') = length (l_conns l) /\ l_acceptor l' = Aborted.
Proof.
  remember (drop_listener l) as d eqn:D. induction 1 as [|d l1 l2 _ IH S|d l1 _ IH]; subst; [auto| |].
  - destruct (IH eq_refl) as [A B]. destruct S; cbn [l_acceptor l_conns] in *; try discriminate. split; [|assumption]. rewrite <- A.
    clear. revert i; induction cs as [|x cs IH]; intros [|i]; cbn; auto.
  - destruct (IH eq_refl) as [A B]. auto.
Qed.
Print Assumptions c43_drop_stops_accepting.

(** *** C53 *)
(** What has been sent on a connection is one answer of the processor per
    request received, in the order of the requests; at most the last request
    is still unanswered (or lost with its connection). *)
Definition answered (pr : bytes -> bytes -> Prop) (c : conn) : Prop :=
  exists asked, Forall2 pr asked (c_out c) /\
    match c_stage c with
    | Receiving => c_in c = asked
    | Processing p => c_in c = asked ++ [p]
    | Replying r => exists p, c_in c = asked ++ [p] /\ pr p r
    | Closed => c_in c = asked \/ exists p, c_in c = asked ++ [p]
    end.
Lemma answered_step pr c c' e : answered pr c -> conn_step pr c c' e -> answered pr c'.
Proof.
  intros (asked & F & S) T. destruct T; cbn [c_in c_out c_stage] in *; unfold answered; cbn [c_in c_out c_stage].
  - exists asked. split; [assumption|]. now subst.
  - exists asked. auto.
  - exists asked. split; [assumption|]. exists p. auto.
  - exists asked. split; [assumption|]. right. now exists p.
  - destruct S as (p & -> & P). exists (asked ++ [p]). split; [|reflexivity]. apply Forall2_app; [assumption|]. constructor; [assumption|constructor].
  - destruct S as (p & -> & P). exists asked. split; [assumption|]. right. now exists p.
Qed.
Lemma Forall_set P i c (l : list conn) : Forall P l -> P c -> Forall P (set_nth i c l).
Proof. intros F H. revert i. induction F as [|x l Hx F IH]; intros [|i]; cbn; constructor; auto. Qed.
Lemma answered_lstep pr l l' : Forall (answered pr) (l_conns l) -> lstep pr l l' -> Forall (answered pr) (l_conns l').
Proof.
  intros F S. destruct S; cbn [l_conns] in *; try assumption.
  - apply Forall_app. split; [assumption|]. constructor; [|constructor]. exists []. split; [constructor|reflexivity].
  - apply Forall_set; [assumption|]. eapply answered_step; [|eassumption]. rewrite Forall_forall in F. eapply F, nth_error_In; eassumption.
Qed.
Theorem c53_one_answer_per_request_in_order pr max ls l c :
  sruns pr max ls -> In l ls -> In c (l_conns l) ->
  exists asked pending, c_in c = asked ++ pending /\ length pending <= 1 /\ Forall2 pr asked (c_out c).
Proof.
  intros R I J.
  assert (G : Forall (fun l => Forall (answered pr) (l_conns l)) ls).
  { clear I J. induction R.
    - apply Forall_forall. intros x X. apply repeat_spec in X as ->. constructor.
    - apply Forall_app in IHR as [A B]. inversion B; subst. apply Forall_app. split; [assumption|]. constructor; [eapply answered_lstep; eassumption|assumption].
    - apply Forall_app. split; [assumption|]. apply Forall_forall. intros x X. apply repeat_spec in X as ->. constructor.
    - apply Forall_map. eapply Forall_impl; [|eassumption]. intros x X. exact X. }
  rewrite Forall_forall in G. apply G in I. rewrite Forall_forall in I. apply I in J as (asked & F & S).
  destruct (c_stage c).
  - exists asked, []. rewrite app_nil_r. auto.
  - exists asked, [req]. auto.
  - destruct S as (p & S & _). exists asked, [p]. auto.
  - destruct S as [S|(p & S)]; [exists asked, []; rewrite app_nil_r; auto|exists asked, [p]; auto].
Qed.
Print Assumptions c53_one_answer_per_request_in_order.

(** *** Non-trivial case: limit 2 reached, one connection ends, a third is
    accepted; the first connection has had a request answered. *)
Example c43_nontrivial : exists l, sruns (fun p r => r = rev p) 2 [l] /\ served l = 2 /\ length (l_conns l) = 3 /\
  l_acceptor l = Waiting /\ exists c, nth_error (l_conns l) 1 = Some c /\ c_in c = [bs "ab"] /\ c_out c = [bs "ba"].
Proof.
  eexists. split.
  - pose proof (SR_init (fun p r : bytes => r = rev p) 2 1) as R. cbn [repeat] in R. unfold listener_new in R.
    pose proof (SR_step _ _ [] _ _ [] R (L_acquire _ 1 [])) as R1.
    pose proof (SR_step _ _ [] _ _ [] R1 (L_accept _ 1 [])) as R2.
    pose proof (SR_step _ _ [] _ _ [] R2 (L_acquire _ 0 _)) as R3.
    pose proof (SR_step _ _ [] _ _ [] R3 (L_accept _ 0 _)) as R4. cbn [app] in R4.
    pose proof (sruns_conn _ _ _ _ _ 0 _ _ _ R4 eq_refl (CS_recv_end _ [] [])) as R5.
    pose proof (SR_step _ _ [] _ _ [] R5 (L_acquire _ 0 _)) as R6.
    pose proof (SR_step _ _ [] _ _ [] R6 (L_accept _ 0 _)) as R7. cbn [app set_nth] in R7.
    pose proof (sruns_conn _ _ _ _ _ 1 _ _ _ R7 eq_refl (CS_recv _ [] [] (bs "ab"))) as R8. cbn [app set_nth] in R8.
    pose proof (sruns_conn _ _ _ _ _ 1 _ _ _ R8 eq_refl (CS_process (fun p r : bytes => r = rev p) _ _ (bs "ab") (bs "ba") eq_refl)) as R9. cbn [app set_nth] in R9.
    pose proof (sruns_conn _ _ _ _ _ 1 _ _ _ R9 eq_refl (CS_send _ _ _ _)) as R10. cbn [app set_nth] in R10.
    exact R10.
  - repeat split. eexists. split; [reflexivity|]. split; reflexivity.
Qed.
