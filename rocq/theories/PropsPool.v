(** C42: the addresses of a stream pool.  C52: application sockets. *)
From Verif Require Import Base Utf8 Json JsonProofs Pool.
Require Import ZifyBool ZifyN ZifyNat.

(** *** Specification *)
(** The text of a numbered socket. *)
Definition numbered (pre : bytes) (k : N) : address := AUnix (pre ++ bs "_" ++ print_N k).
(** [path] ends in an underscore followed by a number below 2^64. *)
Definition ends_numbered (path pre : bytes) (k : N) : Prop :=
  exists digits, path = pre ++ bs "_" ++ digits /\ ~ In "_"%byte digits /\ parse_unsigned USIZE digits = Some k.

(** *** Paths *)
Lemma rsplit_none p : rsplit_underscore p = None <-> ~ In "_"%byte p.
Proof.
  induction p as [|c r IH]; cbn [rsplit_underscore In]; [tauto|].
  destruct (rsplit_underscore r) as [[a b]|] eqn:E.
  - split; [discriminate|]. intros H. exfalso. assert (X : ~ In "_"%byte r) by tauto. apply IH in X. discriminate.
  - destruct (byte_eqb_spec c "_") as [->|N]; split; try discriminate; try tauto.
Qed.
Lemma rsplit_some p a b : rsplit_underscore p = Some (a, b) <-> p = a ++ bs "_" ++ b /\ ~ In "_"%byte b.
Proof.
  revert a b; induction p as [|c r IH]; intros a b; cbn [rsplit_underscore].
  - split; [discriminate|]. intros [E _]. destruct a; discriminate.
  - destruct (rsplit_underscore r) as [[a' b']|] eqn:E.
    + destruct (IH a' b') as [IH1 _]. destruct (IH1 eq_refl) as [-> N]. split.
      * intros Q. injection Q as <- <-. auto.
      * intros [Q M]. destruct a as [|d a].
        { cbn in Q. injection Q as -> Q. exfalso. apply M. rewrite <- Q. apply in_app_iff. right. now left. }
        injection Q as -> Q. assert (X : Some (a', b') = Some (a, b)) by (apply IH; split; [exact Q|exact M]). injection X as -> ->. reflexivity.
    + apply rsplit_none in E. destruct (byte_eqb_spec c "_") as [->|N].
      * split; [intros Q; injection Q as <- <-; auto|]. intros [Q M]. destruct a as [|d a].
        { cbn in Q. injection Q as <-. reflexivity. }
        injection Q as _ Q. exfalso. apply E. rewrite Q. apply in_app_iff. right. now left.
      * split; [discriminate|]. intros [Q M]. destruct a as [|d a]; [cbn in Q; congruence|].
        injection Q as _ Q. exfalso. apply E. rewrite Q. apply in_app_iff. right. now left.
Qed.
Lemma digits_no_underscore k : ~ In "_"%byte (print_N k).
Proof.
  intros I. pose proof (print_N_digits k) as D. rewrite forallb_forall in D. apply D in I. vm_compute in I. discriminate.
Qed.
Lemma rsplit_numbered pre k : rsplit_underscore (pre ++ bs "_" ++ print_N k) = Some (pre, print_N k).
Proof. apply rsplit_some. split; [reflexivity|apply digits_no_underscore]. Qed.

Lemma unix_new_ok p a : unix_addr_new p = Ok a -> a = AUnix p /\ (lenN p < 108)%N.
Proof.
  unfold unix_addr_new. destruct (N.ltb_spec (lenN p) SUN_PATH); cbn [andb]; [|discriminate].
  destruct (negb _); [|discriminate]. intros E. injection E as <-. auto.
Qed.
Lemma next_unix p a : next_address (AUnix p) = Ok a ->
  (exists pre k, ends_numbered p pre k /\ a = numbered pre ((k + 1) mod USIZE)) \/
  ((forall pre k, ~ ends_numbered p pre k) /\ a = numbered p 0).
Proof.
  cbn [next_address]. destruct (unix_path p) as [q|] eqn:U; [|discriminate].
  assert (q = p) as -> by (destruct p; [discriminate|]; now injection U).
  unfold next_usock_path. destruct (negb (utf8_valid p)); [discriminate|].
  destruct (rsplit_underscore p) as [[pre t]|] eqn:R.
  - apply rsplit_some in R as [R N]. destruct (parse_unsigned USIZE t) as [k|] eqn:P; intros E; apply unix_new_ok in E as [-> _].
    + left. exists pre, k. split; [|reflexivity]. exists t. auto.
    + right. split; [|reflexivity]. intros pre' k (t' & Q & M & P').
      assert (X : rsplit_underscore p = Some (pre', t')) by (apply rsplit_some; auto).
      assert (Y : rsplit_underscore p = Some (pre, t)) by (apply rsplit_some; auto). congruence.
  - intros E. apply unix_new_ok in E as [-> _]. right. split; [|reflexivity].
    apply rsplit_none in R. intros pre k (t & -> & _). apply R. apply in_app_iff. right. now left.
Qed.
Lemma ends_numbered_print pre k : (k < USIZE)%N -> ends_numbered (pre ++ bs "_" ++ print_N k) pre k.
Proof. intros H. exists (print_N k). split; [reflexivity|]. split; [apply digits_no_underscore|now apply parse_unsigned_print]. Qed.
Lemma ends_numbered_unique p a k b l : ends_numbered p a k -> ends_numbered p b l -> a = b /\ k = l.
Proof.
  intros (t & E & N & P) (u & F & M & Q).
  assert (X : rsplit_underscore p = Some (a, t)) by (apply rsplit_some; auto).
  assert (Y : rsplit_underscore p = Some (b, u)) by (apply rsplit_some; auto).
  assert (a = b /\ t = u) as [-> ->] by (split; congruence). split; congruence.
Qed.
Lemma next_numbered pre k a : (k < USIZE)%N -> next_address (numbered pre k) = Ok a -> a = numbered pre ((k + 1) mod USIZE).
Proof.
  intros H E. apply next_unix in E as [(pre' & k' & EN & ->)|[N ->]].
  - destruct (ends_numbered_unique _ _ _ _ _ EN (ends_numbered_print pre k H)) as [-> ->]. reflexivity.
  - exfalso. exact (N _ _ (ends_numbered_print pre k H)).
Qed.
Lemma numbered_inj pre a b : numbered pre a = numbered pre b -> a = b.
Proof. intros E. injection E as E. apply app_inv_head in E. injection E as E. now apply print_N_inj. Qed.

(** *** Chains *)
Fixpoint chain (a : address) (n : nat) (l : list address) : Prop :=
  match n with
  | O => l = []
  | S n' => exists r, l = a :: r /\ match n' with O => r = [] | _ => exists b, next_address a = Ok b /\ chain b n' r end
  end.
Lemma gather_chain n : forall a acc l, gather a n acc = Ok l <-> exists r, l = acc ++ r /\ chain a n r.
Proof.
  induction n as [|n IH]; intros a acc l.
  - cbn. split; [intros E; injection E as <-; exists []; now rewrite app_nil_r|intros (r & -> & ->); now rewrite app_nil_r].
  - cbn [gather chain]. destruct n as [|n].
    + split; [intros E; injection E as <-; exists [a]; split; [reflexivity|now exists []]|].
      intros (r & -> & q & -> & ->). reflexivity.
    + destruct (next_address a) as [b|e].
      * rewrite IH. split.
        { intros (r & -> & C). exists (a :: r). rewrite <- app_assoc. split; [reflexivity|]. exists r. split; [reflexivity|]. now exists b. }
        { intros (r & -> & q & -> & b' & E & C). injection E as <-. exists q. rewrite <- app_assoc. auto. }
      * split; [discriminate|]. intros (r & _ & q & _ & b' & E & _). discriminate.
Qed.
Lemma chain_length n : forall a l, chain a n l -> length l = n.
Proof.
  induction n as [|n IH]; intros a l C; [now rewrite C|]. destruct C as (r & -> & C). cbn [length]. f_equal.
  destruct n; [now rewrite C|]. destruct C as (b & _ & C). eauto.
Qed.
Lemma pool_new_iff a n p : pool_new a n = Ok p <-> n <> 0 /\ p_handles p = p_addresses p /\ chain a n (p_addresses p).
Proof.
  unfold pool_new. destruct n as [|n]; [split; [discriminate|tauto]|].
  destruct (gather a (S n) []) as [l|] eqn:E.
  - pose proof E as E'. apply gather_chain in E as (r & -> & C). cbn [app]. split.
    + intros Q. injection Q as <-. cbn. auto.
    + intros (_ & H & C'). assert (G : gather a (S n) [] = Ok (p_addresses p)) by (apply gather_chain; exists (p_addresses p); auto).
      rewrite E' in G. injection G as G. cbn [app] in G. unfold with_addresses. f_equal. destruct p; cbn in *. congruence.
  - split; [discriminate|]. intros (_ & _ & C). assert (G : gather a (S n) [] = Ok (p_addresses p)) by (apply gather_chain; exists (p_addresses p); auto).
    congruence.
Qed.

Lemma chain_numbered pre n : forall k l, (k < USIZE)%N -> chain (numbered pre k) n l ->
  l = map (fun i => numbered pre ((k + N.of_nat i) mod USIZE)) (seq 0 n).
Proof.
  induction n as [|n IH]; intros k l K C; [exact C|]. destruct C as (r & -> & C).
  cbn [seq map]. rewrite N.add_0_r, N.mod_small by assumption. f_equal.
  destruct n as [|n]; [exact C|]. destruct C as (b & E & C). apply next_numbered in E; [|assumption]. subst b.
  apply IH in C; [|apply N.mod_lt; discriminate]. rewrite C. rewrite <- seq_shift, map_map. apply map_ext. intros i. f_equal.
  rewrite N.add_mod_idemp_l by discriminate. f_equal. lia.
Qed.
Lemma chain_vsock c f n : forall p l, (p < U32)%N -> chain (AVsock c p f) n l ->
  l = map (fun i => AVsock c ((p + N.of_nat i) mod U32) f) (seq 0 n).
Proof.
  induction n as [|n IH]; intros k l K C; [exact C|]. destruct C as (r & -> & C).
  cbn [seq map]. rewrite N.add_0_r, N.mod_small by assumption. f_equal.
  destruct n as [|n]; [exact C|]. destruct C as (b & E & C). injection E as <-.
  apply IH in C; [|apply N.mod_lt; discriminate]. rewrite C. rewrite <- seq_shift, map_map. apply map_ext. intros i. f_equal.
  rewrite N.add_mod_idemp_l by discriminate. f_equal. lia.
Qed.

(** *** Theorems *)
(** VSOCK: consecutive ports of one cid. *)
Theorem c42_vsock_sequence cid port flags n :
  (0 < n)%nat -> (port < U32)%N ->
  exists p, pool_new (AVsock cid port flags) n = Ok p /\
    p_addresses p = map (fun i => AVsock cid ((port + N.of_nat i) mod U32) flags) (seq 0 n) /\ p_handles p = p_addresses p.
Proof.
  intros N P.
  assert (X : exists l, chain (AVsock cid port flags) n l).
  { clear N P. revert port. induction n as [|n IH]; intros port; [now exists []|]. destruct (IH ((port + 1) mod U32)%N) as (l & C).
    exists (AVsock cid port flags :: match n with O => [] | _ => l end). cbn. eexists. split; [reflexivity|]. destruct n; [reflexivity|]. eauto. }
  destruct X as (l & C). exists (with_addresses l). split; [|split; [|reflexivity]].
  - apply pool_new_iff. split; [lia|]. auto.
  - cbn. now apply chain_vsock.
Qed.
Print Assumptions c42_vsock_sequence.

(** Unix sockets: after a numbered path come its successors (without leading
    zeros), after any other path [path_0], [path_1], ... *)
Theorem c42_unix_sequence path n p :
  pool_new (AUnix path) n = Ok p ->
  p_handles p = p_addresses p /\
  ((forall pre k, ends_numbered path pre k ->
     p_addresses p = AUnix path :: map (fun i => numbered pre ((k + N.of_nat i) mod USIZE)) (seq 1 (n - 1))) /\
   ((forall pre k, ~ ends_numbered path pre k) ->
     p_addresses p = AUnix path :: map (fun i => numbered path (N.of_nat i mod USIZE)) (seq 0 (n - 1)))).
Proof.
  intros E. apply pool_new_iff in E as (N & H & C). split; [assumption|].
  destruct n as [|n]; [lia|]. destruct C as (r & -> & C). cbn [Nat.sub]. rewrite Nat.sub_0_r.
  destruct n as [|n]; [subst r; split; intros; reflexivity|]. destruct C as (b & E & C).
  apply next_unix in E as [(pre & k & EN & ->)|[NN ->]].
  - split; [|intros X; exfalso; exact (X _ _ EN)]. intros pre' k' EN'. destruct (ends_numbered_unique _ _ _ _ _ EN EN') as [-> ->].
    apply chain_numbered in C; [|apply N.mod_lt; discriminate]. rewrite C. f_equal. rewrite <- seq_shift, map_map. apply map_ext. intros i. f_equal.
    rewrite N.add_mod_idemp_l by discriminate. f_equal. lia.
  - split; [intros pre k EN; exfalso; exact (NN _ _ EN)|]. intros _. apply chain_numbered in C; [|reflexivity]. now rewrite C.
Qed.
Print Assumptions c42_unix_sequence.

Lemma map_NoDup {A B} (f : A -> B) l : (forall x y, In x l -> In y l -> f x = f y -> x = y) -> NoDup l -> NoDup (map f l).
Proof.
  induction l as [|a l IH]; intros I N; [constructor|]. inversion N; subst. cbn. constructor.
  - intros X. apply in_map_iff in X as (b & E & Hb). apply I in E; [|now right|now left]. now subst.
  - apply IH; [|assumption]. intros x y Hx Hy. apply I; now right.
Qed.
Lemma mod_distinct m a i j : (i < j)%N -> (j - i < m)%N -> ((a + i) mod m)%N <> ((a + j) mod m)%N.
Proof.
  intros L B E. pose proof (N.div_mod (a + i) m). pose proof (N.div_mod (a + j) m). rewrite E in H.
  assert (Z : m <> 0%N) by lia. specialize (H Z). specialize (H0 Z).
  set (q := ((a + i) / m)%N) in *. set (q' := ((a + j) / m)%N) in *. set (x := ((a + j) mod m)%N) in *.
  assert (D : (j - i = m * (q' - q))%N) by nia. assert ((q' - q) <> 0 -> m <= m * (q' - q))%N by nia. nia.
Qed.

(** Every pool a caller can ask for (the count is a u8) has exactly that many
    addresses, pairwise distinct. *)
Theorem c42_distinct start n p :
  (n <= 255)%nat -> match start with AVsock _ port _ => (port < U32)%N | AUnix _ => True end ->
  pool_new start n = Ok p ->
  length (p_addresses p) = n /\ NoDup (p_addresses p) /\ hd_error (p_addresses p) = Some start.
Proof.
  intros N W E. pose proof E as E'. apply pool_new_iff in E' as (NZ & _ & C). split; [eapply chain_length; eassumption|].
  assert (HD : hd_error (p_addresses p) = Some start).
  { destruct n; [lia|]. destruct C as (r & -> & _). reflexivity. }
  split; [|assumption].
  destruct start as [path|cid port flags].
  - destruct (c42_unix_sequence _ _ _ E) as (_ & A & B).
    destruct (rsplit_underscore path) as [[pre t]|] eqn:R; [destruct (parse_unsigned USIZE t) as [k|] eqn:P|].
    + apply rsplit_some in R as [R M]. assert (EN : ends_numbered path pre k) by (exists t; auto). rewrite (A _ _ EN).
      assert (K : (k < USIZE)%N).
      { unfold parse_unsigned in P. destruct (match t with [] => t | c :: r => if byte_eqb c "+" then r else t end); [discriminate|].
        destruct (dec_val _); [|discriminate]. destruct (N.ltb_spec n0 USIZE); [|discriminate]. now injection P as <-. }
      assert (D : forall i j, (i < j < 256)%nat -> ((k + N.of_nat i) mod USIZE <> (k + N.of_nat j) mod USIZE)%N).
      { intros i j L. apply mod_distinct; unfold USIZE; lia. }
      constructor.
      * intros I. apply in_map_iff in I as (i & Q & I). apply in_seq in I.
        assert (EN' : ends_numbered path pre ((k + N.of_nat i) mod USIZE)).
        { injection Q as <-. apply ends_numbered_print. apply N.mod_lt. discriminate. }
        destruct (ends_numbered_unique _ _ _ _ _ EN EN') as [_ X]. apply (D 0%nat i); [lia|]. rewrite N.add_0_r, N.mod_small; assumption.
      * apply map_NoDup; [|apply seq_NoDup]. intros i j Hi Hj Q. apply in_seq in Hi, Hj. apply numbered_inj in Q.
        destruct (Nat.lt_trichotomy i j) as [L|[L|L]]; [exfalso; apply (D i j); [lia|assumption]|assumption|exfalso; apply (D j i); [lia|congruence]].
    + apply rsplit_some in R as [R M]. rewrite B.
      2:{ intros pre' k (t' & R' & M' & P'). assert (X : rsplit_underscore path = Some (pre', t')) by (apply rsplit_some; auto).
          assert (Y : rsplit_underscore path = Some (pre, t)) by (apply rsplit_some; auto). congruence. }
      constructor.
      * intros I. apply in_map_iff in I as (i & Q & _). injection Q as Q. apply (f_equal (@length byte)) in Q. rewrite app_length in Q. cbn in Q. lia.
      * apply map_NoDup; [|apply seq_NoDup]. intros i j Hi Hj Q. apply in_seq in Hi, Hj. apply numbered_inj in Q.
        rewrite !N.mod_small in Q by (unfold USIZE; lia). lia.
    + apply rsplit_none in R. rewrite B.
      2:{ intros pre' k (t' & R' & M' & P'). apply R. rewrite R'. apply in_app_iff. right. now left. }
      constructor.
      * intros I. apply in_map_iff in I as (i & Q & _). injection Q as Q. apply (f_equal (@length byte)) in Q. rewrite app_length in Q. cbn in Q. lia.
      * apply map_NoDup; [|apply seq_NoDup]. intros i j Hi Hj Q. apply in_seq in Hi, Hj. apply numbered_inj in Q.
        rewrite !N.mod_small in Q by (unfold USIZE; lia). lia.
  - apply chain_vsock in C; [|assumption]. rewrite C. apply map_NoDup; [|apply seq_NoDup].
    intros i j Hi Hj Q. apply in_seq in Hi, Hj. injection Q as Q.
    assert (D : forall i j, (i < j < 256)%nat -> ((port + N.of_nat i) mod U32 <> (port + N.of_nat j) mod U32)%N).
    { intros a b L. apply mod_distinct; unfold U32; lia. }
    destruct (Nat.lt_trichotomy i j) as [L|[L|L]]; [exfalso; apply (D i j); [lia|assumption]|assumption|exfalso; apply (D j i); [lia|congruence]].
Qed.
Print Assumptions c42_distinct.

(** *** Expansion *)
Lemma chain_app n : forall a l b, chain a (S n) l -> hd_error (rev l) = Some b -> forall m r c, next_address b = Ok c -> chain c (S m) r -> chain a (S n + S m) (l ++ r).
Proof.
  induction n as [|n IH]; intros a l b C HB m r c E D.
  - destruct C as (q & -> & ->). cbn in HB. injection HB as <-. exists r. split; [reflexivity|]. cbn [Nat.add]. now exists c.
  - destruct C as (q & -> & a' & E' & C). exists (q ++ r). split; [reflexivity|]. exists a'. split; [assumption|].
    eapply (IH a' q b C); [|eassumption|assumption]. pose proof (chain_length _ _ _ C) as L. cbn [rev] in HB.
    destruct (rev q) eqn:RQ; [|exact HB]. apply (f_equal (@length address)) in RQ. rewrite rev_length in RQ. cbn in RQ. lia.
Qed.
Lemma expand_loop_spec n : forall a p p' r, expand_loop n a p = (p', r) ->
  exists l, p_addresses p' = p_addresses p ++ l /\ p_handles p' = p_handles p ++ l /\
    (length l <= n)%nat /\ (r = Ok tt -> length l = n) /\
    (l <> [] -> exists b, next_address a = Ok b /\ chain b (length l) l).
Proof.
  induction n as [|n IH]; intros a p p' r E.
  - injection E as <- <-. exists []. rewrite !app_nil_r. split; [reflexivity|]. split; [reflexivity|]. split; [cbn; lia|]. split; [reflexivity|now intros []].
  - cbn [expand_loop] in E. destruct (next_address a) as [b|e] eqn:X.
    + apply IH in E as (l & A & H & L & K & C). cbn [p_addresses p_handles] in *. exists (b :: l).
      rewrite A, H, <- !app_assoc. split; [reflexivity|]. split; [reflexivity|]. split; [cbn; lia|]. split; [intros Q; cbn; now rewrite K|].
      intros _. exists b. split; [reflexivity|]. exists l. split; [reflexivity|]. destruct l as [|c l]; [reflexivity|]. now apply C.
    + injection E as <- <-. exists []. rewrite !app_nil_r. split; [reflexivity|]. split; [reflexivity|]. split; [cbn; lia|]. split; [discriminate|now intros []].
Qed.

(** Expanding keeps every address already there, in place, and adds a stream
    for every address it adds; it reaches the asked size unless it fails, and
    asking again changes nothing. *)
Theorem c42_expand_monotone_idempotent p size p' r :
  p_addresses p <> [] -> expand_to size p = (p', r) ->
  exists added, p_addresses p' = p_addresses p ++ added /\ p_handles p' = p_handles p ++ added /\
    (r = Ok tt -> length (p_addresses p') = Nat.max size (length (p_addresses p)) /\ expand_to size p' = (p', Ok tt)).
Proof.
  intros NE E. unfold expand_to in E. destruct (last_address p) as [a|] eqn:LA.
  2:{ exfalso. unfold last_address in LA. destruct (rev (p_addresses p)) eqn:R; [|discriminate]. apply NE. rewrite <- (rev_involutive (p_addresses p)), R. reflexivity. }
  apply expand_loop_spec in E as (l & A & H & L & K & C). exists l. split; [assumption|]. split; [assumption|]. intros R. specialize (K R).
  assert (LEN : length (p_addresses p') = Nat.max size (length (p_addresses p))) by (rewrite A, app_length; lia).
  split; [assumption|]. unfold expand_to. replace (size - length (p_addresses p')) with 0 by lia. destruct (last_address p'); reflexivity.
Qed.
Print Assumptions c42_expand_monotone_idempotent.

(** A pool expanded to a larger size is the pool that [new] would have made
    with that size. *)
Theorem c42_expand_is_new start n p size p' :
  (0 < n <= size)%nat -> pool_new start n = Ok p -> expand_to size p = (p', Ok tt) -> pool_new start size = Ok p'.
Proof.
  intros [N SZ] E X. apply pool_new_iff in E as (_ & H & C). unfold expand_to in X.
  pose proof (chain_length _ _ _ C) as LN. destruct (last_address p) as [b|] eqn:LA.
  2:{ exfalso. unfold last_address in LA. destruct (rev (p_addresses p)) eqn:R; [|discriminate].
      apply (f_equal (@length address)) in R. rewrite rev_length in R. cbn in R. lia. }
  apply expand_loop_spec in X as (l & A & HH & L & K & D). specialize (K eq_refl).
  apply pool_new_iff. split; [lia|]. split; [congruence|]. rewrite A. destruct l as [|c l].
  - rewrite app_nil_r. cbn in K. replace size with n by lia. assumption.
  - destruct D as (b' & E & D); [discriminate|]. destruct n as [|n]; [lia|]. cbn [length] in D, K.
    replace size with (S n + S (length l)) by lia. eapply chain_app; eassumption.
Qed.
Print Assumptions c42_expand_is_new.

(** *** Listening *)
(** Listening on more sockets adds addresses but no streams: a pool grown
    this way still hands out only its first streams. *)
Lemma listen_loop_handles bind n : forall a p ls p' r, listen_loop bind n a p ls = (p', r) -> p_handles p' = p_handles p.
Proof.
  induction n as [|n IH]; intros a p ls p' r E; cbn [listen_loop] in E; [now injection E as <- _|].
  destruct (next_address a); [|now injection E as <- _]. destruct (bind a0); [|now injection E as <- _]. apply IH in E. exact E.
Qed.
Theorem c42_listen_adds_no_streams bind size p p' r : listen_to bind size p = (p', r) -> p_handles p' = p_handles p.
Proof. unfold listen_to. destruct (last_address p); [apply listen_loop_handles|intros E; now injection E as <- _]. Qed.
Print Assumptions c42_listen_adds_no_streams.

(** After a bind failure the address stays in the pool, so asking again for
    the same size succeeds without listening on it (finding). *)
Theorem c42_refuted_failed_listen_can_be_retried :
  exists bind p p' , listen_to bind 2 p = (p', Err BindFailed) /\
    listen_to (fun _ => true) 2 p' = (p', Ok []).
Proof.
  exists (fun _ => false), (with_addresses [AVsock 3 1 0]), {| p_addresses := [AVsock 3 1 0; AVsock 3 2 0]; p_handles := [AVsock 3 1 0] |}.
  split; reflexivity.
Qed.
Print Assumptions c42_refuted_failed_listen_can_be_retried.

(** *** C52: application sockets *)
(** Different ports give different application sockets, and none of them is
    the socket they were derived from. *)
Theorem c52_app_sockets_distinct a p q x y :
  with_port a p = Some (Ok x) -> with_port a q = Some (Ok y) -> x = y -> p = q.
Proof.
  destruct a as [path|cid port flags]; cbn [with_port].
  - destruct (unix_path path) as [b|]; [|discriminate].
    destruct (negb (utf8_valid (b ++ bs "." ++ print_N p ++ bs ".appsock"))); [discriminate|].
    destruct (negb (utf8_valid (b ++ bs "." ++ print_N q ++ bs ".appsock"))); [intros _; discriminate|].
    destruct (unix_addr_new (b ++ bs "." ++ print_N p ++ bs ".appsock")) as [u|] eqn:U; [|discriminate].
    destruct (unix_addr_new (b ++ bs "." ++ print_N q ++ bs ".appsock")) as [v|] eqn:V; [|intros _; discriminate].
    apply unix_new_ok in U as [-> _], V as [-> _]. intros E F G. injection E as <-. injection F as <-. injection G as G.
    apply app_inv_head in G. apply (app_inv_head (bs ".")) in G. apply app_inv_tail in G. now apply print_N_inj.
  - intros E F G. injection E as <-. injection F as <-. now injection G.
Qed.
Print Assumptions c52_app_sockets_distinct.
Theorem c52_app_socket_is_not_the_base path p x : with_port (AUnix path) p = Some (Ok x) -> x <> AUnix path.
Proof.
  cbn [with_port]. destruct (unix_path path) as [b|] eqn:U; [|discriminate]. assert (b = path) as -> by (destruct path; [discriminate|]; now injection U).
  destruct (negb _); [discriminate|]. destruct (unix_addr_new _) eqn:V; [|discriminate]. apply unix_new_ok in V as [-> _].
  intros E. injection E as <-. intros Q. injection Q as Q. apply (f_equal (@length byte)) in Q. rewrite !app_length in Q. cbn in Q. lia.
Qed.
Print Assumptions c52_app_socket_is_not_the_base.

(** *** Non-trivial cases: the tests of io/pool.rs:371-396, and wrap-around *)
Example c42_nontrivial :
  next_usock_path (bs "basic") = Ok (bs "basic_0") /\ next_usock_path (bs "") = Ok (bs "_0") /\
  next_usock_path (bs "with_underscore_elsewhere") = Ok (bs "with_underscore_elsewhere_0") /\
  next_usock_path (bs "with_underscore_at_end_") = Ok (bs "with_underscore_at_end__0") /\
  next_usock_path (bs "good_num_2") = Ok (bs "good_num_3") /\ next_usock_path (bs "good_num_34") = Ok (bs "good_num_35") /\
  next_usock_path (bs "good_num_999") = Ok (bs "good_num_1000") /\
  (exists p, pool_new (AUnix (bs "/tmp/x_007")) 3 = Ok p /\ p_addresses p = map AUnix [bs "/tmp/x_007"; bs "/tmp/x_8"; bs "/tmp/x_9"]) /\
  (exists p q, pool_new (AUnix (bs "/tmp/x")) 2 = Ok p /\ expand_to 4 p = (q, Ok tt) /\
     p_addresses q = map AUnix [bs "/tmp/x"; bs "/tmp/x_0"; bs "/tmp/x_1"; bs "/tmp/x_2"]) /\
  (exists p, pool_new (AVsock 16 4294967295 1) 2 = Ok p /\ p_addresses p = [AVsock 16 4294967295 1; AVsock 16 0 1]) /\
  pool_new (AUnix (bs "a")) 0 = Err NoAddressesSpecified /\
  with_port (AUnix (bs "/tmp/q.sock")) 3000 = Some (Ok (AUnix (bs "/tmp/q.sock.3000.appsock"))).
Proof.
  do 7 (split; [vm_compute; reflexivity|]).
  split; [eexists; split; [vm_compute; reflexivity|reflexivity]|].
  split; [eexists; eexists; split; [vm_compute; reflexivity|split; [vm_compute; reflexivity|reflexivity]]|].
  split; [eexists; split; [vm_compute; reflexivity|reflexivity]|].
  split; [reflexivity|vm_compute; reflexivity].
Qed.
