(** C100: which listener a connection to a unix socket path reaches. *)
From Coq Require Import ZifyBool ZifyNat.
From Verif Require Import Base ListenerFiles.
Local Open Scope nat_scope.

(** *** Specification *)
Definition is_held (w : world) (n : nat) (p : path) : Prop := In (n, p) (held w).
(** What happens has nothing to do with a path: no listener is opened there, none
    bound there is dropped, nobody else changes it. *)
Fixpoint elsewhere (p : path) (w : world) (hs : list happening) : Prop :=
  match hs with
  | [] => True
  | h :: r => match h with Listens _ _ q => q <> p | Drops _ n => ~ is_held w n p | Others q _ => q <> p end /\ elsewhere p (happen w h) r
  end.

Lemma set_same f p e : set_file f p e p = e.
Proof. unfold set_file. now rewrite bytes_eqb_refl. Qed.
Lemma set_other f p e q : q <> p -> set_file f p e q = f q.
Proof. intros N. unfold set_file. destruct (bytes_eqb_spec q p); [contradiction|reflexivity]. Qed.
Lemma remove_other a f p q : q <> p -> remove_file a f p q = f q.
Proof. intros N. unfold remove_file. destruct (f p), a; try reflexivity; now apply set_other. Qed.
Lemma remove_not a f p q n : remove_file a f p q = SocketOf n -> f q = SocketOf n.
Proof.
  unfold remove_file. destruct (f p) eqn:E, a; try (intros H; exact H); unfold set_file; destruct (bytes_eqb_spec q p); congruence.
Qed.

(** The files know the listeners: every held one has a number of its own below
    [next], and a socket of a held listener lies where that is bound. *)
Definition consistent (w : world) : Prop :=
  NoDup (map fst (held w)) /\ (forall n p, In (n, p) (held w) -> n < next w)
  /\ (forall n p, files w p = SocketOf n -> n < next w /\ (forall q, In (n, q) (held w) -> q = p)).
Lemma consistent0 f : consistent (world0 f).
Proof. split; [constructor|]. split; [intros n p []|]. intros n p. cbn. destruct (f p); discriminate. Qed.
Lemma find_held l n : NoDup (map fst l) -> forall p, In (n, p) l -> find (fun x : nat * path => Nat.eqb (fst x) n) l = Some (n, p).
Proof.
  induction l as [|[m q] l IH]; intros D p I; [destruct I|]. cbn [map fst] in D. inversion D as [|? ? N D']; subst. cbn [find fst]. destruct (Nat.eqb_spec m n) as [->|M].
  - destruct I as [I|I]; [congruence|]. destruct N. apply in_map_iff. exists (n, p). auto.
  - destruct I as [I|I]; [congruence|]. now apply IH.
Qed.
Lemma find_some_held l n x : find (fun x : nat * path => Nat.eqb (fst x) n) l = Some x -> In (n, snd x) l.
Proof. intros F. apply find_some in F as [I E]. apply Nat.eqb_eq in E. destruct x; cbn in *. now subst. Qed.
Lemma nodup_filter (f : nat * path -> bool) l : NoDup (map fst l) -> NoDup (map fst (filter f l)).
Proof.
  induction l as [|x l IH]; intros D; [constructor|]. cbn [map] in D. inversion D as [|? ? N D']; subst. cbn [filter]. destruct (f x); [|now apply IH].
  cbn [map]. constructor; [|now apply IH]. intros I. apply N. apply in_map_iff in I as (y & <- & I). apply filter_In in I as [I _]. now apply in_map.
Qed.
Lemma happen_consistent w h : consistent w -> consistent (happen w h).
Proof.
  intros (D & L & F). destruct h as [a b p|a n|p e]; cbn [happen].
  - unfold listen. assert (R : forall n q, remove_file a (files w) p q = SocketOf n -> n < next w /\ (forall z, In (n, z) (held w) -> z = q)) by (intros n q H; apply remove_not in H; now apply F).
    destruct (remove_file a (files w) p p), b; cbn [fst]; try (split; [exact D|]; split; [exact L|exact R]).
    split; [|split].
    + cbn [held map fst]. constructor; [|exact D]. intros I. apply in_map_iff in I as ([m q] & M & I). cbn in M. apply L in I. lia.
    + cbn [held next]. intros n q [I|I]; [injection I as <- <-; lia|apply L in I; lia].
    + cbn [held files next]. intros n q H. unfold set_file in H. destruct (bytes_eqb_spec q p) as [Eq|N].
      * rewrite Eq in *. injection H as <-. split; [lia|]. intros z [I|I]; [congruence|apply L in I; lia].
      * apply R in H as [Ln U]. split; [lia|]. intros z [I|I]; [injection I as <- <-; lia|now apply U].
  - unfold drop. destruct (find _ (held w)) as [[m p]|]; [|now split].
    split; [now apply nodup_filter|]. split; cbn [held files next].
    + intros x q I. apply filter_In in I as [I _]. now apply L in I.
    + intros x q H. apply remove_not, F in H as [Lx U]. split; [exact Lx|]. intros z I. apply filter_In in I as [I _]. now apply U.
  - split; [exact D|]. split; [exact L|]. cbn [files held next]. intros n q H. unfold set_file in H. destruct (bytes_eqb_spec q p); [destruct e; discriminate|now apply F].
Qed.
Lemma history_consistent hs w : consistent w -> consistent (history w hs).
Proof. revert w. induction hs as [|h r IH]; intros w C; [exact C|]. apply IH, happen_consistent, C. Qed.
Lemma held_exists w n p : is_held w n p -> existsb (fun x : nat * path => Nat.eqb (fst x) n) (held w) = true.
Proof. intros I. apply existsb_exists. exists (n, p). split; [exact I|apply Nat.eqb_refl]. Qed.

(** A connection is only ever taken by a listener that is still held and was
    bound to the very path connected to. *)
Theorem c100_taken_by_a_listener_of_that_path : forall f hs p n, let w := history (world0 f) hs in
  connect w p = Some n -> is_held w n p.
Proof.
  intros f hs p n w H. assert (C : consistent w) by apply history_consistent, consistent0. destruct C as (D & L & F).
  unfold connect in H. destruct (files w p) as [| | |m] eqn:E; try discriminate. destruct (existsb _ (held w)) eqn:X; [|discriminate]. injection H as ->.
  apply existsb_exists in X as ([m q] & I & M). cbn in M. apply Nat.eqb_eq in M. subst m. apply F in E as [_ U]. rewrite <- (U q I). exact I.
Qed.
Print Assumptions c100_taken_by_a_listener_of_that_path.

(** A dropped listener never takes a connection again, at any path, even if its
    file could not be removed. *)
Definition gone (n : nat) (w : world) : Prop := n < next w /\ forall p, ~ is_held w n p.
Lemma happen_gone n w h : gone n w -> gone n (happen w h).
Proof.
  intros [L N]. destruct h as [a b p|a m|p e]; cbn [happen].
  - unfold listen. destruct (remove_file a (files w) p p), b; cbn [fst]; try (split; assumption).
    split; cbn [next]; [lia|]. unfold is_held. cbn [held]. intros q [I|I]; [injection I as I _; lia|exact (N q I)].
  - unfold drop. destruct (find _ (held w)) as [[m' p]|]; [|split; assumption]. split; [exact L|]. unfold is_held. cbn [held]. intros q I. apply filter_In in I as [I _]. exact (N q I).
  - split; assumption.
Qed.
Theorem c100_a_dropped_listener_is_never_reached : forall f before a n p after q, let w := history (world0 f) before in
  is_held w n p -> connect (history w (Drops a n :: after)) q <> Some n.
Proof.
  intros f before a n p after q w I H. assert (C : consistent w) by apply history_consistent, consistent0. destruct C as (D & L & _).
  assert (G : gone n (happen w (Drops a n))).
  { cbn [happen]. unfold drop. rewrite (find_held _ _ D p I). split; [cbn [next]; exact (L n p I)|]. unfold is_held. cbn [held]. intros z J. apply filter_In in J as [_ J]. cbn [fst] in J. now rewrite Nat.eqb_refl in J. }
  assert (K : forall hs v, gone n v -> gone n (history v hs)) by (induction hs as [|h r IH]; intros v V; [exact V|apply IH, happen_gone, V]).
  change (history w (Drops a n :: after)) with (history (happen w (Drops a n)) after) in H. apply (K after) in G. destruct G as [_ G].
  unfold connect in H. destruct (files _ q) as [| | |m]; try discriminate. destruct (existsb _ _) eqn:X; [|discriminate]. injection H as ->.
  apply existsb_exists in X as ([m z] & J & M). cbn [fst] in M. apply Nat.eqb_eq in M. subst m. exact (G z J).
Qed.
Print Assumptions c100_a_dropped_listener_is_never_reached.

Lemma elsewhere_keeps hs : forall w p n, consistent w -> files w p = SocketOf n -> is_held w n p -> elsewhere p w hs ->
  files (history w hs) p = SocketOf n /\ is_held (history w hs) n p.
Proof.
  induction hs as [|h r IH]; intros w p n C E I W; [now split|]. cbn [elsewhere] in W. destruct W as [W1 W]. change (history w (h :: r)) with (history (happen w h) r).
  apply IH; [now apply happen_consistent| | |exact W]; clear W IH.
  - destruct h as [a b q|a m|q e]; cbn [happen].
    + unfold listen. assert (R : remove_file a (files w) q p = SocketOf n) by (rewrite remove_other by congruence; exact E).
      destruct (remove_file a (files w) q q), b; cbn [fst files]; try exact R. rewrite set_other by congruence. exact R.
    + unfold drop. destruct (find _ (held w)) as [[x q]|] eqn:X; [|exact E]. cbn [files]. apply find_some_held in X. cbn [snd] in X.
      rewrite remove_other; [exact E|]. intros ->. exact (W1 X).
    + cbn [files]. rewrite set_other by congruence. exact E.
  - unfold is_held in *. destruct h as [a b q|a m|q e]; cbn [happen].
    + unfold listen. destruct (remove_file a (files w) q q), b; cbn [fst held]; try exact I. now right.
    + unfold drop. destruct (find _ (held w)) as [[x q]|] eqn:X; [|exact I]. cbn [held]. apply filter_In. split; [exact I|]. cbn [fst].
      destruct (Nat.eqb_spec n m) as [->|]; [exact (False_ind _ (W1 I))|reflexivity].
    + exact I.
Qed.

(** Once opened, a listener takes every connection to its path, whatever else
    happens, as long as it happens elsewhere. *)
Theorem c100_a_new_listener_is_reached : forall f before a b p n after, let w := history (world0 f) before in
  snd (listen a b p w) = Some n -> elsewhere p (fst (listen a b p w)) after ->
  connect (history (fst (listen a b p w)) after) p = Some n.
Proof.
  intros f before a b p n after w H W. assert (C : consistent w) by apply history_consistent, consistent0.
  pose proof (happen_consistent w (Listens a b p) C) as C'. cbn [happen] in C'. 
  assert (E : files (fst (listen a b p w)) p = SocketOf n /\ is_held (fst (listen a b p w)) n p).
  { revert H. unfold listen, is_held. destruct (remove_file a (files w) p p), b; cbn [fst snd files held]; try discriminate.
    intros H. injection H as <-. split; [apply set_same|now left]. }
  destruct E as [E I]. destruct (elsewhere_keeps after _ p n C' E I W) as [E2 I2].
  unfold connect. rewrite E2, (held_exists _ _ _ I2). reflexivity.
Qed.
Print Assumptions c100_a_new_listener_is_reached.

(** Opening fails only if something stays at the path or the system refuses. *)
Theorem c100_opened_exactly_when : forall a b p w, (exists n, snd (listen a b p w) = Some n) <->
  b = true /\ (files w p = Nothing \/ a = true /\ files w p <> Directory).
Proof.
  intros a b p w. unfold listen, remove_file. split.
  - intros (n & H). revert H. destruct (files w p) eqn:E, a, b; rewrite ?E, ?set_same; cbn [snd]; intros H; (discriminate H || (split; [reflexivity|])); (now left) || (right; split; congruence).
  - intros (-> & [E|[-> N]]).
    + rewrite E. rewrite E. eexists. reflexivity.
    + destruct (files w p) eqn:E; rewrite ?E, ?set_same; try contradiction; eexists; reflexivity.
Qed.
Print Assumptions c100_opened_exactly_when.

(** The sockets of a pool: opened one after the other on different paths, each is
    reached at its own. *)
Theorem c100_every_socket_of_a_pool_is_reached : forall f before ps, NoDup ps ->
  let w := history (world0 f) before in (forall p, In p ps -> files w p <> Directory) ->
  forall p, In p ps -> exists n, connect (history w (map (Listens true true) ps)) p = Some n.
Proof.
  intros f before ps D w ND p I. apply in_split in I as (l & r & ->).
  assert (NL : ~ In p l /\ ~ In p r) by (apply NoDup_remove_2 in D; rewrite in_app_iff in D; tauto). destruct NL as [NL NR].
  rewrite map_app. cbn [map]. set (h1 := map (Listens true true) l). unfold history at 1. rewrite fold_left_app. cbn [fold_left]. fold (history w h1).
  assert (K : forall v, files (history v h1) p = files v p).
  { unfold h1. clear -NL. induction l as [|q l IH]; intros v; [reflexivity|]. cbn [map]. change (files (history (happen v (Listens true true q)) (map (Listens true true) l)) p = files v p).
    rewrite IH by (intros X; apply NL; now right). assert (N : p <> q) by (intros ->; apply NL; now left). cbn [happen]. unfold listen.
    destruct (remove_file true (files v) q q); cbn [fst files]; rewrite ?set_other by exact N; now apply remove_other. }
  assert (W : history w h1 = history (world0 f) (before ++ h1)) by (unfold w, history; now rewrite fold_left_app).
  destruct (proj2 (c100_opened_exactly_when true true p (history w h1))) as (n & S).
  { split; [reflexivity|]. right. split; [reflexivity|]. rewrite K. apply ND, in_app_iff. right. now left. }
  exists n. rewrite W in *. cbn [happen].
  apply (c100_a_new_listener_is_reached f (before ++ h1) true true p n (map (Listens true true) r) S).
  generalize (fst (listen true true p (history (world0 f) (before ++ h1)))). clear -NR. induction r as [|q r IH]; intros v; [exact I|].
  cbn [map elsewhere]. split; [intros ->; apply NR; now left|]. apply IH. intros X. apply NR. now right.
Qed.
Print Assumptions c100_every_socket_of_a_pool_is_reached.

Lemma listen_opens p w : files w p <> Directory ->
  listen true true p w = (World (set_file (remove_file true (files w) p) p (SocketOf (next w))) ((next w, p) :: held w) (S (next w)), Some (next w)).
Proof.
  intros N. unfold listen. assert (E : remove_file true (files w) p p = Nothing).
  { unfold remove_file. destruct (files w p) eqn:E; rewrite ?set_same; congruence. }
  rewrite E. reflexivity.
Qed.
(** Refuted: that a listener is reached until it is dropped, though nobody but
    these listeners touches the path. Dropping the first of two on one path takes
    the second's socket file away. *)
Theorem c100_refuted_reached_until_dropped : forall p f, f p = Nothing ->
  let w := history (world0 f) [Listens true true p; Listens true true p; Drops true 0] in
  is_held w 1 p /\ connect w p = None.
Proof.
  intros p f E w. unfold w, history, is_held. cbn [fold_left happen]. rewrite (listen_opens p (world0 f)) by (cbn; rewrite E; discriminate). cbn [fst].
  rewrite listen_opens by (cbn [files]; rewrite set_same; discriminate). cbn [fst files held next world0].
  unfold drop, connect. cbn [files held find fst Nat.eqb filter negb]. split; [now left|].
  unfold remove_file at 1. rewrite set_same. rewrite set_same. reflexivity.
Qed.
Print Assumptions c100_refuted_reached_until_dropped.

(** Refuted: that opening a listener leaves other programs' files alone. *)
Theorem c100_refuted_other_files_are_kept : forall p f, f p = OtherFile ->
  let w := history (world0 f) [Listens true true p; Drops true 0] in connect (history (world0 f) [Listens true true p]) p = Some 0 /\ files w p = Nothing.
Proof.
  intros p f E w. unfold w, history. cbn [fold_left happen]. rewrite (listen_opens p (world0 f)) by (cbn; rewrite E; discriminate). cbn [fst files held next world0].
  unfold drop, connect. cbn [files held find fst Nat.eqb existsb orb]. split; [rewrite set_same; reflexivity|].
  unfold remove_file at 1. rewrite set_same. rewrite set_same. reflexivity.
Qed.
Print Assumptions c100_refuted_other_files_are_kept.

Example c100_nontrivial :
  let w := history (world0 (fun _ => Nothing)) [Listens true true (bs "/a"); Listens true true (bs "/b"); Drops true 0; Others (bs "/c") Directory] in
  connect w (bs "/a") = None /\ connect w (bs "/b") = Some 1 /\ snd (listen true true (bs "/c") w) = None /\ snd (listen true true (bs "/a") w) = Some 2.
Proof. vm_compute. repeat split. Qed.
