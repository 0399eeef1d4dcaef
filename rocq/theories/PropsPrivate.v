(** C87: secrets written to disk cannot be read by the machine's other users. *)
From Verif Require Import Base Posix.
From Coq Require Import ZifyBool ZifyN ZifyNat.
Local Open Scope N_scope.

Section Private.
  Context (member : uid -> gid -> bool) (me : uid) (my_group : gid) (mask : N -> N) (open_dir : bool)
          (path : bytes) (secret : bytes).
  Notation step := (step member me my_group mask open_dir path secret).
  Notation steps := (steps member me my_group mask open_dir path secret).
  Notation alone := (alone member me my_group mask path secret).

  (** *** Specification *)
  (** neither the group nor the rest of the world may read: bits 040 and 04 are off *)
  Definition owner_only (m : N) : Prop := N.testbit m 5 = false /\ N.testbit m 2 = false.
  (** before the call the file is absent, or mine, private, and open nowhere else *)
  Definition nobody_can_read (s : machine) : Prop :=
    match names s path with
    | None => True
    | Some i => exists n, inodes s i = Some n /\ i_owner n = me /\ owner_only (i_mode n) /\
                          forall u, ~ In (u, i) (readers s)
    end.

  (** *** Invariant *)
  Definition guarded (s : machine) (i : nat) : Prop :=
    exists n, inodes s i = Some n /\ i_owner n = me /\ owner_only (i_mode n) /\ forall u, ~ In (u, i) (readers s).
  Definition foreign (s : machine) (i : nat) : Prop :=
    exists n, inodes s i = Some n /\ i_owner n <> me /\ me <> ROOT /\ open_dir = true.
  Record inv (s : machine) : Prop := {
    v_names : forall p i, names s p = Some i -> exists n, inodes s i = Some n;
    v_next : forall i n, inodes s i = Some n -> (i < next s)%nat;
    v_fds : forall u i, In (u, i) (readers s) -> exists n, inodes s i = Some n;
    v_secret : forall i n, inodes s i = Some n -> In Secret (labels (i_data n)) -> guarded s i;
    v_seen : forall u d, In (u, d) (seen s) -> ~ In Secret (labels d);
    v_phase : match ph s with
              | Start => match names s path with None => True | Some i => guarded s i \/ foreign s i end
              | Opened i => guarded s i \/ foreign s i
              | Writing i _ | Done i => guarded s i
              | Failed => True
              end }.

  Lemma bytes_eqb_iff a b : bytes_eqb a b = true <-> a = b.
  Proof. destruct (bytes_eqb_spec a b); split; congruence. Qed.
  Lemma bits_384 : owner_only 384.
  Proof. split; reflexivity. Qed.

  Lemma labels_app a b : labels (a ++ b) = labels a ++ labels b.
  Proof. apply map_app. Qed.
  Lemma labels_public b : ~ In Secret (labels (map (pair Public) b)).
  Proof. unfold labels. rewrite map_map. cbn. intros H. apply in_map_iff in H as (x & E & _). discriminate. Qed.

  Hypothesis umask_only_clears : owner_only (mask 384).

  (** the same inode, changed without touching owner or who may read *)
  Lemma guarded_keep s s' i : (forall n, inodes s i = Some n -> exists n', inodes s' i = Some n' /\ i_owner n' = i_owner n /\ (owner_only (i_mode n) -> i_owner n = me -> owner_only (i_mode n'))) ->
    (forall u, In (u, i) (readers s') -> In (u, i) (readers s)) -> guarded s i -> guarded s' i.
  Proof.
    intros H R (n & A & B & C & D). destruct (H n A) as (n' & A' & B' & C'). exists n'. repeat split; auto; try congruence.
    - apply (C' C B). - apply (C' C B). - intros u X. apply (D u), R, X.
  Qed.
  Lemma foreign_keep s s' i : (forall n, inodes s i = Some n -> exists n', inodes s' i = Some n' /\ i_owner n' = i_owner n) -> foreign s i -> foreign s' i.
  Proof. intros H (n & A & B & C). destruct (H n A) as (n' & A' & B'). exists n'. repeat split; try tauto; congruence. Qed.

  (** replacing inode [i] by one with the same owner *)
  Lemma set_keeps s i n n' q : inodes s i = Some n -> i_owner n' = i_owner n ->
    (i_owner n = me -> owner_only (i_mode n) -> owner_only (i_mode n')) ->
    let s' := set_inode s i n' q in
    (forall j, guarded s j -> guarded s' j) /\ (forall j, foreign s j -> foreign s' j) /\
    (forall j m, inodes s j = Some m -> exists m', inodes s' j = Some m').
  Proof.
    intros E O M s'. assert (K : forall j m, inodes s j = Some m -> exists m', inodes s' j = Some m' /\ i_owner m' = i_owner m /\ (owner_only (i_mode m) -> i_owner m = me -> owner_only (i_mode m'))).
    { intros j m Hj. cbn. destruct (Nat.eqb_spec i j) as [<-|]; [|exists m; auto].
      rewrite E in Hj. injection Hj as <-. exists n'. auto. }
    split; [|split].
    - intros j. apply guarded_keep; [apply K|auto].
    - intros j. apply foreign_keep. intros m Hm. destruct (K j m Hm) as (m' & A & B & _). eauto.
    - intros j m Hm. destruct (K j m Hm) as (m' & A & _). eauto.
  Qed.

  Lemma set_inv s i n n' q : inv s -> inodes s i = Some n -> i_owner n' = i_owner n ->
    (i_owner n = me -> owner_only (i_mode n) -> owner_only (i_mode n')) ->
    (In Secret (labels (i_data n')) -> guarded s i) ->
    (match q with
     | Start => ph s = Start
     | Opened i => guarded s i \/ foreign s i
     | Writing i _ | Done i => guarded (set_inode s i n' q) i
     | Failed => True end) -> (forall j r, q = Writing j r -> j = i) -> (forall j, q = Done j -> guarded s j) ->
    inv (set_inode s i n' q).
  Proof.
    intros V E O M S Q QW QD. destruct (set_keeps s i n n' q E O M) as (G & F & X). destruct V as [V1 V2 V3 V4 V5 V6].
    constructor.
    - intros p j H. destruct (V1 p j H) as [m Hm]. eapply X, Hm.
    - cbn. intros j m. destruct (Nat.eqb_spec i j) as [<-|]; intros H; [eapply V2, E|eapply V2, H].
    - cbn [readers set_inode]. intros u j H. destruct (V3 u j H) as [m Hm]. eapply X, Hm.
    - intros j m H L. apply G. cbn in H. destruct (Nat.eqb_spec i j) as [<-|]; [injection H as <-; auto|eapply V4; eauto].
    - exact V5.
    - cbn [ph set_inode names]. destruct q as [|j|j r|j|].
      + rewrite Q in V6. destruct (names s path); [|exact I]. destruct V6; [left; auto|right; auto].
      + destruct Q; [left; auto|right; auto].
      + rewrite (QW j r eq_refl) in *. exact Q.
      + apply G, QD. reflexivity.
      + exact I.
  Qed.

  Lemma phase_refl s i n n' : inv s -> inodes s i = Some n -> i_owner n' = i_owner n ->
    (i_owner n = me -> owner_only (i_mode n) -> owner_only (i_mode n')) ->
    (In Secret (labels (i_data n')) -> guarded s i) -> inv (set_inode s i n' (ph s)).
  Proof.
    intros V E O M S. destruct (set_keeps s i n n' (ph s) E O M) as (G & F & X). destruct V as [V1 V2 V3 V4 V5 V6].
    constructor.
    - intros p j H. destruct (V1 p j H) as [m Hm]. eapply X, Hm.
    - cbn. intros j m. destruct (Nat.eqb_spec i j) as [<-|]; intros H; [eapply V2, E|eapply V2, H].
    - cbn [readers set_inode]. intros u j H. destruct (V3 u j H) as [m Hm]. eapply X, Hm.
    - intros j m H L. apply G. cbn in H. destruct (Nat.eqb_spec i j) as [<-|]; [injection H as <-; auto|eapply V4; eauto].
    - exact V5.
    - cbn [ph set_inode names]. destruct (ph s); auto.
      + destruct (names s path); [|exact I]. destruct V6; [left; auto|right; auto].
      + destruct V6; [left; auto|right; auto].
  Qed.

  (** a new inode is not anyone's yet *)
  Lemma fresh_inode s : inv s -> inodes s (next s) = None.
  Proof. intros V. destruct (inodes s (next s)) as [n|] eqn:E; [|reflexivity]. apply (v_next s V) in E. lia. Qed.
  Lemma fresh_reader s u : inv s -> ~ In (u, next s) (readers s).
  Proof. intros V H. destruct (v_fds s V u _ H) as [n E]. rewrite (fresh_inode s V) in E. discriminate. Qed.

  Lemma mine_inv s s' : inv s -> mine member me my_group mask path secret s s' -> inv s'.
  Proof.
    intros V M. pose proof V as [V1 V2 V3 V4 V5 V6]. inversion M as [t P Np|t i n P Np In_ Mw|t i n P In_ Ow|t i n a b P In_|t i P|t]; subst.
    - (* create *)
      assert (FI := fresh_inode s V). assert (K : forall j m, inodes s j = Some m -> Nat.eqb (next s) j = false).
      { intros j m H. destruct (Nat.eqb_spec (next s) j) as [<-|]; [congruence|reflexivity]. }
      constructor; cbn.
      + intros p j. destruct (bytes_eqb path p); intros H; [injection H as <-; rewrite Nat.eqb_refl; eauto|].
        destruct (V1 p j H) as [m Hm]. rewrite (K j m Hm). eauto.
      + intros j m. destruct (Nat.eqb_spec (next s) j); intros H; [lia|]. apply V2 in H. lia.
      + intros u j H. destruct (V3 u j H) as [m Hm]. rewrite (K j m Hm). eauto.
      + intros j m. destruct (Nat.eqb_spec (next s) j) as [<-|]; intros H L; [injection H as <-; destruct L|].
        destruct (V4 j m H L) as (k & A & B & C & D). exists k. cbn. rewrite (K j k A). auto.
      + exact V5.
      + left. exists (Inode me my_group (mask 384) []). cbn. rewrite Nat.eqb_refl. repeat split; auto; try apply umask_only_clears.
        intros u H. exact (fresh_reader s u V H).
    - (* truncate *)
      rewrite P, Np in V6. eapply set_inv; eauto; try discriminate.
      intros []. (* no data *)
    - (* chmod *)
      rewrite P in V6. destruct V6 as [G|(m & A & B & C & D)].
      2:{ exfalso. rewrite In_ in A. injection A as <-. destruct Ow as [->|Ow]; auto. }
      eapply set_inv; eauto; try discriminate.
      + intros _ _. exact bits_384.
      + destruct G as (m & A & B & C & D). rewrite In_ in A. injection A as <-.
        exists (with_mode n 384). cbn. rewrite Nat.eqb_refl. repeat split; auto.
      + intros j r H. injection H; auto.
    - (* write *)
      rewrite P in V6. eapply set_inv; eauto; try discriminate.
      + destruct (set_keeps s i n (with_data n (i_data n ++ map (pair Secret) a)) (Writing i b) In_ eq_refl ltac:(auto)) as (G & _). apply G, V6.
      + intros j r H. injection H; auto.
    - rewrite P in V6. constructor; auto.
    - constructor; auto. exact I.
  Qed.

  Lemma theirs_inv u s s' : u <> me -> u <> ROOT -> inv s -> (me <> ROOT \/ open_dir = false) -> theirs member open_dir u s s' -> inv s'.
  Proof.
    intros U1 U2 V HR T. pose proof V as [V1 V2 V3 V4 V5 V6].
    inversion T as [t p i n Np In_ Mr|t p i n Np In_ Mw|t i n R In_|t i n b W In_|t i n W In_|t p g m OD Np|t i n m In_ Ow|t p i n OD Np In_ Ow|t p q i n OD Np In_ Ow Nq]; subst.
    - (* open for reading *)
      assert (NG : ~ guarded s i).
      { intros (m & A & B & [C1 C2] & D). rewrite In_ in A. injection A as <-. unfold may in Mr.
        destruct (N.eqb_spec u ROOT); [congruence|]. destruct (N.eqb_spec u (i_owner n)); [congruence|].
        change (2 + 3) with 5 in Mr. destruct (member u (i_group n)); congruence. }
      assert (G : forall j, guarded s j -> guarded (Machine (names s) (inodes s) (next s) ((u, i) :: readers s) (writers s) (ph s) (seen s)) j).
      { intros j Gj. pose proof Gj as (m & A & B & C & D). exists m. cbn. repeat split; auto; try apply C.
        intros w [H|H]; [injection H as _ <-; auto|eapply D; eauto]. }
      constructor; cbn.
      + exact V1. + exact V2. + intros w j [H|H]; [injection H as _ <-; eauto|eauto].
      + intros j m H L. apply G. eauto.
      + exact V5.
      + destruct (ph s); auto; [destruct (names s path); auto|]; destruct V6; auto.
    - constructor; auto.
    - constructor; auto. cbn. intros w d [H|H]; [injection H as <- <-|eauto].
      intros L. destruct (V4 i n In_ L) as (m & A & B & C & D). exact (D u R).
    - apply (phase_refl s i n); auto.
      cbn. rewrite labels_app. intros L. apply in_app_or in L as [L|L]; [eauto|]. now apply labels_public in L.
    - apply (phase_refl s i n); auto. intros [].
    - (* create *)
      assert (FI := fresh_inode s V). assert (K : forall j m, inodes s j = Some m -> Nat.eqb (next s) j = false).
      { intros j k H. destruct (Nat.eqb_spec (next s) j) as [<-|]; [congruence|reflexivity]. }
      set (s' := Machine _ _ _ _ _ _ _). assert (G : forall j, guarded s j -> guarded s' j).
      { intros j (k & A & B & C & D). exists k. cbn. rewrite (K j k A). repeat split; auto; try apply C.
        intros w [H|H]; [injection H as _ <-; congruence|eapply D; eauto]. }
      assert (F : forall j, foreign s j -> foreign s' j).
      { intros j (k & A & B). exists k. cbn. rewrite (K j k A). auto. }
      constructor; cbn.
      + intros q j. destruct (bytes_eqb p q); intros H; [injection H as <-; rewrite Nat.eqb_refl; eauto|].
        destruct (V1 q j H) as [k Hk]. rewrite (K j k Hk). eauto.
      + intros j k. destruct (Nat.eqb_spec (next s) j); intros H; [lia|]. apply V2 in H. lia.
      + intros w j [H|H]; [injection H as _ <-; rewrite Nat.eqb_refl; eauto|]. destruct (V3 w j H) as [k Hk]. rewrite (K j k Hk). eauto.
      + intros j k. destruct (Nat.eqb_spec (next s) j) as [<-|]; intros H L; [injection H as <-; destruct L|]. apply G. eauto.
      + exact V5.
      + destruct (ph s); auto.
        * destruct (bytes_eqb p path).
          -- right. exists (Inode u g m []). cbn. rewrite Nat.eqb_refl. destruct HR as [HR|HR]; [|rewrite OD in HR; discriminate HR]. repeat split; auto.
          -- destruct (names s path); auto. destruct V6; auto.
        * destruct V6; auto.
    - apply (phase_refl s i n); auto. congruence.
      eauto.
    - (* unlink *)
      constructor; cbn.
      + intros q j. destruct (bytes_eqb p q); [discriminate|apply V1].
      + exact V2. + exact V3. + exact V4. + exact V5.
      + destruct (ph s); auto. destruct (bytes_eqb p path); auto.
    - (* rename *)
      constructor; cbn.
      + intros r j. destruct (bytes_eqb q r); [intros H; injection H as <-; eauto|]. destruct (bytes_eqb p r); [discriminate|apply V1].
      + exact V2. + exact V3. + exact V4. + exact V5.
      + destruct (ph s); auto. destruct (bytes_eqb q path).
        * right. exists n. destruct HR as [HR|HR]; [|rewrite OD in HR; discriminate HR]. repeat split; auto.
        * destruct (bytes_eqb p path); auto.
  Qed.

  Lemma start_inv s : at_start s -> nobody_can_read s -> inv s.
  Proof.
    intros [A1 A2 A3 A4 A5 A6] H. constructor; auto.
    - intros u i X. apply (A6 u i). apply in_or_app. now left.
    - intros i n X L. elim (A2 i n X L).
    - rewrite A3. intros u d [].
    - rewrite A1. unfold nobody_can_read in H. destruct (names s path); auto.
  Qed.

  Lemma steps_inv s s' : (me <> ROOT \/ open_dir = false) -> inv s -> steps s s' -> inv s'.
  Proof.
    intros HR V R. induction R as [|s1 s2 s3 R IH ST]; auto. specialize (IH V).
    inversion ST; subst; [eapply mine_inv; eauto|eapply theirs_inv; eauto].
  Qed.

  Lemma secrets_unreadable s s' u d : (me <> ROOT \/ open_dir = false) -> at_start s -> nobody_can_read s ->
    steps s s' -> In (u, d) (seen s') -> ~ In Secret (labels d).
  Proof. intros HR A H R. apply (v_seen s' (steps_inv s s' HR (start_inv s A H) R)). Qed.

  (** *** Where secret bytes are, from any start *)
  Definition mine_private (s : machine) (i : nat) : Prop := exists n, inodes s i = Some n /\ i_owner n = me /\ i_mode n = 384.
  Record inv2 (s : machine) : Prop := {
    w_next : forall i n, inodes s i = Some n -> (i < next s)%nat;
    w_secret : forall i n, inodes s i = Some n -> In Secret (labels (i_data n)) -> mine_private s i;
    w_phase : match ph s with Writing i _ | Done i => mine_private s i | _ => True end }.

  Lemma set_inv2 s i n n' q : inv2 s -> inodes s i = Some n ->
    (i_owner n = me -> i_mode n = 384 -> i_owner n' = me /\ i_mode n' = 384) ->
    (In Secret (labels (i_data n')) -> mine_private s i) ->
    (match q with Writing j _ | Done j => mine_private s j \/ (j = i /\ i_owner n' = me /\ i_mode n' = 384) | _ => True end) ->
    inv2 (set_inode s i n' q).
  Proof.
    intros [W1 W2 W3] E K S Q.
    assert (G : forall j, mine_private s j -> mine_private (set_inode s i n' q) j).
    { intros j (m & A & B & C). unfold mine_private. cbn. destruct (Nat.eqb_spec i j) as [<-|]; [|now exists m].
      rewrite E in A. injection A as <-. destruct (K B C). now exists n'. }
    assert (Gi : i_owner n' = me /\ i_mode n' = 384 -> mine_private (set_inode s i n' q) i).
    { intros [A B]. exists n'. cbn. rewrite Nat.eqb_refl. auto. }
    constructor.
    - cbn. intros j m. destruct (Nat.eqb_spec i j) as [<-|]; intros H; [eapply W1, E|eapply W1, H].
    - intros j m H L. apply G. cbn in H. destruct (Nat.eqb_spec i j) as [<-|]; [injection H as <-; auto|eauto].
    - cbn [ph set_inode]. destruct q; auto; destruct Q as [Q|[-> Q]]; auto.
  Qed.

  Lemma step_inv2 s s' : me <> ROOT -> inv2 s -> step s s' -> inv2 s'.
  Proof.
    intros NR W ST. pose proof W as [W1 W2 W3].
    assert (NewI : forall s' nm n0 rd wr q sn, s' = Machine nm (fun j => if Nat.eqb (next s) j then Some n0 else inodes s j) (Datatypes.S (next s)) rd wr q sn ->
      i_data n0 = [] -> (q = ph s \/ exists j, q = Opened j) -> inv2 s').
    { intros t nm n0 rd wr q sn -> D Q.
      assert (K : forall j m, inodes s j = Some m -> Nat.eqb (next s) j = false).
      { intros j m H. destruct (Nat.eqb_spec (next s) j) as [<-|]; [apply W1 in H; lia|reflexivity]. }
      assert (G : forall j, mine_private s j -> mine_private (Machine nm (fun j => if Nat.eqb (next s) j then Some n0 else inodes s j) (Datatypes.S (next s)) rd wr q sn) j).
      { intros j (m & A & B). exists m. cbn. rewrite (K j m A). auto. }
      constructor; cbn.
      - intros j m. destruct (Nat.eqb_spec (next s) j); intros H; [lia|]. apply W1 in H. lia.
      - intros j m. destruct (Nat.eqb_spec (next s) j) as [<-|]; intros H L; [injection H as <-; rewrite D in L; destruct L|]. apply G. eauto.
      - destruct Q as [-> |[j ->]]; [destruct (ph s); auto|exact I]. }
    inversion ST as [t t' M|u t t' U1 U2 T]; subst.
    - inversion M as [t P Np|t i n P Np In_ Mw|t i n P In_ Ow|t i n a b P In_|t i P|t]; subst.
      + eapply NewI; [reflexivity|reflexivity|eauto].
      + eapply set_inv2; eauto. intros [].
      + destruct Ow as [|Ow]; [contradiction|].
        eapply set_inv2; eauto.
      + rewrite P in W3. eapply set_inv2; eauto.
      + rewrite P in W3. constructor; [exact W1|exact W2|exact W3].
      + constructor; [exact W1|exact W2|exact I].
    - inversion T as [t p i n Np In_ Mr|t p i n Np In_ Mw|t i n R In_|t i n b W_ In_|t i n W_ In_|t p g m OD Np|t i n m In_ Ow|t p i n OD Np In_ Ow|t p q i n OD Np In_ Ow Nq]; subst;
        try (constructor; [exact W1|exact W2|exact W3]).
      + eapply set_inv2; eauto.
        * cbn. rewrite labels_app. intros L. apply in_app_or in L as [L|L]; [eauto|]. now apply labels_public in L.
        * destruct (ph s); auto.
      + eapply set_inv2; eauto; [intros []|destruct (ph s); auto].
      + eapply NewI; [reflexivity|reflexivity|auto].
      + eapply set_inv2; [exact W|exact In_|intros X; elim U1; exact X|eauto|destruct (ph s); auto].
  Qed.

  (** *** The program alone *)
  Record inv3 (s : machine) : Prop := {
    x_phase : match ph s with
              | Start | Failed => True
              | Opened i => names s path = Some i /\ exists n, inodes s i = Some n /\ i_data n = []
              | Writing i rest => names s path = Some i /\ exists n a, inodes s i = Some n /\ i_mode n = 384 /\ map snd (i_data n) = a /\ secret = a ++ rest
              | Done i => names s path = Some i /\ exists n, inodes s i = Some n /\ i_mode n = 384 /\ map snd (i_data n) = secret
              end }.
  Lemma alone_inv3 s s' : inv3 s -> mine member me my_group mask path secret s s' -> inv3 s'.
  Proof.
    intros [X] M. inversion M as [t P Np|t i n P Np In_ Mw|t i n P In_ Ow|t i n a b P In_|t i P|t]; subst; constructor; cbn [ph set_inode set_phase names inodes]; try rewrite P in X.
    - rewrite bytes_eqb_refl, Nat.eqb_refl. split; [reflexivity|]. eexists. split; reflexivity.
    - rewrite Nat.eqb_refl. split; [exact Np|]. eexists. split; reflexivity.
    - rewrite Nat.eqb_refl. destruct X as (E & m & A & B). split; [exact E|]. rewrite In_ in A. injection A as <-.
      eexists _, []. split; [reflexivity|]. cbn. rewrite B. auto.
    - rewrite Nat.eqb_refl. destruct X as (E & m & c & A & B & C & D). split; [exact E|]. rewrite In_ in A. injection A as <-.
      eexists _, (c ++ a). split; [reflexivity|]. cbn. split; [exact B|]. split.
      + rewrite map_app, C, map_map. cbn. now rewrite map_id.
      + now rewrite D, app_assoc.
    - destruct X as (E & m & c & A & B & C & D). split; [exact E|]. exists m. repeat split; auto. rewrite app_nil_r in D. congruence.
    - exact I.
  Qed.
End Private.

(** *** Theorems *)
(** Whatever other users do, before, between and after the program's system calls,
    and wherever the program fails or is killed: none of them ever reads a byte of
    the secret, if the file did not exist, or was the user's own, private and not
    held open by others; and the user is not root in a directory others may create
    files in. *)
Theorem c87_others_never_read_the_secret : forall member me my_group mask open_dir path secret s s' u d,
  owner_only (mask 384) -> me <> ROOT \/ open_dir = false ->
  at_start s -> nobody_can_read me path s ->
  steps member me my_group mask open_dir path secret s s' ->
  In (u, d) (seen s') -> ~ In Secret (labels d).
Proof. intros. eapply secrets_unreadable; eauto. Qed.
Print Assumptions c87_others_never_read_the_secret.

(** From any start whatever, a user other than root puts secret bytes only into a
    file of the user's own, whose bits are 0600 from before the first of them: a
    file someone else planted at the path is refused. *)
Theorem c87_secret_goes_to_own_private_file : forall member me my_group mask open_dir path secret s s' i n,
  me <> ROOT -> at_start s -> steps member me my_group mask open_dir path secret s s' ->
  inodes s' i = Some n -> In Secret (labels (i_data n)) -> i_owner n = me /\ i_mode n = 384.
Proof.
  intros member me my_group mask open_dir path secret s s' i n NR A R E L.
  assert (W : inv2 me s').
  { clear E L. induction R as [s|s1 s2 s3 R IH ST].
    - destruct A as [A1 A2 A3 A4 A5 A6]. constructor; [exact A5|intros j m H X; elim (A2 j m H X)|rewrite A1; exact I].
    - eapply step_inv2; [exact NR|apply IH, A|exact ST]. }
  destruct (w_secret me s' W i n E L) as (m & X & Y & Z). rewrite E in X. injection X as <-. auto.
Qed.
Print Assumptions c87_secret_goes_to_own_private_file.

(** Undisturbed, success means that the named file holds exactly the secret, 0600. *)
Theorem c87_success_means_written : forall member me my_group mask path secret s s' i,
  at_start s -> alone member me my_group mask path secret s s' -> ph s' = Done i ->
  names s' path = Some i /\ exists n, inodes s' i = Some n /\ i_mode n = 384 /\ map snd (i_data n) = secret.
Proof.
  intros member me my_group mask path secret s s' i A R P.
  assert (X : inv3 path secret s').
  { clear P. induction R as [s|s1 s2 s3 R IH ST].
    - constructor. rewrite (a_phase s A). exact I.
    - eapply alone_inv3; [apply IH, A|exact ST]. }
  destruct X as [X]. rewrite P in X. exact X.
Qed.
Print Assumptions c87_success_means_written.

(** *** The two conditions are needed *)
Definition no_groups (u : uid) (g : gid) : bool := false.
Definition plain_umask (m : N) : N := N.ldiff m 18.       (* 022 *)
Definition ME : uid := 1000.
Definition OTHER : uid := 1001.
Definition key_path : bytes := bs "key".
(** an old file of mine with the usual bits 0644 *)
Definition old_file : machine := Machine (fun q => if bytes_eqb key_path q then Some 0%nat else None)
  (fun j => if Nat.eqb 0 j then Some (Inode ME ME 420 [(Public, "k"%byte)]) else None) 1 [] [] Start [].
Definition empty_dir : machine := Machine (fun _ => None) (fun _ => None) 0 [] [] Start [].

Lemma old_file_start : at_start old_file.
Proof.
  constructor; try reflexivity.
  - intros [|i] n E; [|discriminate E]. cbn in E. injection E as <-. cbn. intros [H|[]]. discriminate H.
  - intros p i E. cbn [names old_file] in E. destruct (bytes_eqb key_path p); [|discriminate E]. injection E as <-. cbn. eauto.
  - intros [|i] n E; [cbn; lia|discriminate E].
  - intros u i [].
Qed.
Lemma empty_dir_start : at_start empty_dir.
Proof. constructor; [reflexivity|intros i n E; discriminate E|reflexivity|intros p i E; discriminate E|intros i n E; discriminate E|intros u i []]. Qed.

(** Over an existing file that others may read, the bits are set only after the file
    is open: someone who opens it in between (or had it open) reads the secret. *)
Theorem c87_refuted_existing_readable_file : ~ (forall member me my_group mask open_dir path secret s s' u d,
  owner_only (mask 384) -> me <> ROOT -> open_dir = false -> at_start s ->
  steps member me my_group mask open_dir path secret s s' ->
  In (u, d) (seen s') -> ~ In Secret (labels d)).
Proof.
  intros H.
  assert (X : exists s', steps no_groups ME ME plain_umask false key_path [x2a] old_file s' /\ In (OTHER, [(Secret, x2a)]) (seen s')).
  { eexists. split.
    - eapply st_step. 1: eapply st_step. 1: eapply st_step. 1: eapply st_step. 1: eapply st_step. 1: apply st_refl.
      + apply s_mine. eapply (m_truncate _ _ _ _ _ _ old_file 0%nat); reflexivity.
      + apply (s_theirs _ _ _ _ _ _ _ OTHER); [intros X; discriminate X|intros X; discriminate X|]. eapply (t_open _ _ _ _ key_path 0%nat); reflexivity.
      + apply s_mine. eapply m_chmod; [reflexivity|reflexivity|right; reflexivity].
      + apply s_mine. eapply (m_write _ _ _ _ _ _ _ 0%nat _ [x2a] []); reflexivity.
      + apply (s_theirs _ _ _ _ _ _ _ OTHER); [intros X; discriminate X|intros X; discriminate X|]. eapply (t_read _ _ _ _ 0%nat); [left; reflexivity|reflexivity].
    - left. reflexivity. }
  destruct X as (s' & R & I).
  apply (H no_groups ME ME plain_umask false key_path [x2a] old_file s' OTHER _ ltac:(split; reflexivity) ltac:(discriminate) eq_refl old_file_start R I).
  left. reflexivity.
Qed.
Print Assumptions c87_refuted_existing_readable_file.

(** Root, in a directory others may create files in, writes the secret into a file
    planted by someone else, who stays its owner and reads it. *)
Theorem c87_refuted_root_in_shared_directory : ~ (forall member me my_group mask open_dir path secret s s' u d,
  owner_only (mask 384) -> at_start s -> nobody_can_read me path s ->
  steps member me my_group mask open_dir path secret s s' ->
  In (u, d) (seen s') -> ~ In Secret (labels d)).
Proof.
  intros H.
  assert (X : exists s', steps no_groups ROOT ROOT plain_umask true key_path [x2a] empty_dir s' /\ In (OTHER, [(Secret, x2a)]) (seen s')).
  { eexists. split.
    - eapply st_step. 1: eapply st_step. 1: eapply st_step. 1: eapply st_step. 1: eapply st_step. 1: apply st_refl.
      + apply (s_theirs _ _ _ _ _ _ _ OTHER); [intros X; discriminate X|intros X; discriminate X|]. apply (t_create _ _ _ empty_dir key_path OTHER 420); reflexivity.
      + apply s_mine. eapply (m_truncate _ _ _ _ _ _ _ 0%nat); reflexivity.
      + apply s_mine. eapply m_chmod; [reflexivity|reflexivity|left; reflexivity].
      + apply s_mine. eapply (m_write _ _ _ _ _ _ _ 0%nat _ [x2a] []); reflexivity.
      + apply (s_theirs _ _ _ _ _ _ _ OTHER); [intros X; discriminate X|intros X; discriminate X|]. eapply (t_read _ _ _ _ 0%nat); [left; reflexivity|reflexivity].
    - left. reflexivity. }
  destruct X as (s' & R & I).
  apply (H no_groups ROOT ROOT plain_umask true key_path [x2a] empty_dir s' OTHER _ ltac:(split; reflexivity) empty_dir_start ltac:(exact Logic.I) R I).
  left. reflexivity.
Qed.
Print Assumptions c87_refuted_root_in_shared_directory.

(** the hypotheses of the positive theorems are met: into an empty shared directory,
    by an ordinary user, with the secret completely written *)
Example c87_nontrivial : at_start empty_dir /\ nobody_can_read ME key_path empty_dir /\
  exists s' i, alone no_groups ME ME plain_umask key_path [x2a; x2b] empty_dir s' /\ ph s' = Done i.
Proof.
  split; [exact empty_dir_start|]. split; [exact I|]. eexists _, _. split.
  - eapply al_step. 1: eapply al_step. 1: eapply al_step. 1: eapply al_step. 1: eapply al_step. 1: apply al_refl.
    + apply m_create; reflexivity.
    + eapply m_chmod; [reflexivity|reflexivity|right; reflexivity].
    + eapply (m_write _ _ _ _ _ _ _ 0%nat _ [x2a] [x2b]); reflexivity.
    + eapply (m_write _ _ _ _ _ _ _ 0%nat _ [x2b] []); reflexivity.
    + apply m_done. reflexivity.
  - reflexivity.
Qed.
