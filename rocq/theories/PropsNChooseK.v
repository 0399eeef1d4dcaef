(** C27: the combinations helper. *)
From Verif Require Import Base NChooseK.
From Coq Require Import Sorted FinFun ZifyBool ZifyN ZifyNat.

(** *** Specification *)
(** [idx] names a [k]-element sub-sequence of an input of length [n]. *)
Definition subsequence (n k : nat) (idx : list nat) : Prop :=
  length idx = k /\ StronglySorted lt idx /\ Forall (fun i => i < n) idx.
(** [l] lists the selections of [input] at [all], in order. *)
Definition picks {T} (input : list T) (all : list (list nat)) (l : list (list T)) : Prop :=
  map (map (nth_error input)) all = map (map Some) l.

(** *** Successor in lexicographic order *)
Fixpoint nxt (n : nat) (idx : list nat) : option (list nat) :=
  match idx with
  | [] => None
  | x :: t => match nxt n t with
              | Some t' => Some (x :: t')
              | None => if x + length idx <? n then Some (seq (S x) (length idx)) else None
              end
  end.
Inductive walk (n : nat) : list nat -> list (list nat) -> Prop :=
| W_end idx : nxt n idx = None -> walk n idx [idx]
| W_next idx idx' l : nxt n idx = Some idx' -> walk n idx' l -> walk n idx (idx :: l).

Fixpoint incs (k a n : nat) : list (list nat) :=
  match k with
  | O => [[]]
  | S k' => flat_map (fun x => map (cons x) (incs k' (S x) n)) (seq a (n - k' - a))
  end.
Lemma incs_in k : forall a n l, In l (incs k a n) <-> length l = k /\ StronglySorted lt l /\ Forall (fun i => a <= i < n) l.
Proof.
  induction k as [|k IH]; intros a n l.
  - cbn. split; [intros [<-|[]]; repeat constructor|]. intros (L & _). destruct l; [now left|discriminate].
  - cbn [incs]. rewrite in_flat_map. split.
    + intros (x & Hx & H). apply in_seq in Hx. apply in_map_iff in H as (t & <- & Ht). apply IH in Ht as (L & S' & F).
      split; [cbn; lia|]. split.
      * constructor; [assumption|]. eapply Forall_impl; [|exact F]. cbn. intros; lia.
      * constructor; [lia|]. eapply Forall_impl; [|exact F]. cbn. intros; lia.
    + intros (L & S' & F). destruct l as [|x t]; [discriminate|]. inversion S' as [|? ? St Lt]; subst. inversion F as [|? ? Fx Ft]; subst.
      assert (T : In t (incs k (S x) n)).
      { apply IH. split; [now injection L|]. split; [assumption|]. rewrite Forall_forall in *. intros y Hy. split; [apply Lt in Hy; lia|now apply Ft]. }
      exists x. split; [|now apply in_map]. apply in_seq.
      assert (B : forall t y, StronglySorted lt t -> Forall (fun i => y < i < n) t -> y + length t < n \/ t = []).
      { clear. induction t as [|z t IHt]; intros y S' F; [now right|]. left. inversion S' as [|? ? St Lt]; subst. inversion F as [|? ? Fz Ft]; subst.
        destruct (IHt z St) as [E| ->]; [|cbn; lia|cbn; lia]. rewrite Forall_forall in *. intros i Hi. split; [now apply Lt|now apply Ft]. }
      injection L as L. destruct (B t x St) as [E| ->].
      { rewrite Forall_forall in *. intros y Hy. split; [now apply Lt|now apply Ft]. }
      { lia. } { cbn in L. lia. }
Qed.
Lemma NoDup_flat {A B} (f : A -> list B) l : NoDup l -> (forall x, In x l -> NoDup (f x)) ->
  (forall x y z, In x l -> In y l -> In z (f x) -> In z (f y) -> x = y) -> NoDup (flat_map f l).
Proof.
  induction l as [|a l IH]; intros ND N1 N2; [constructor|]. inversion ND as [|? ? NI ND']; subst. cbn [flat_map].
  assert (G : NoDup (f a)) by (apply N1; now left).
  assert (R : NoDup (flat_map f l)).
  { apply IH; [assumption|intros; apply N1; now right|]. intros x y z Hx Hy. apply N2; now right. }
  assert (D : forall z, In z (f a) -> ~ In z (flat_map f l)).
  { intros z Hz I. apply in_flat_map in I as (b & Hb & Hzb). apply NI. rewrite (N2 a b z); auto; [now left|now right]. }
  revert G D. generalize (f a). clear N1 N2. intros m. induction m as [|z m IHm]; intros G D; [exact R|].
  inversion G; subst. cbn [app]. constructor.
  - rewrite in_app_iff. intros [I|I]; [contradiction|]. apply (D z); [now left|assumption].
  - apply IHm; [assumption|]. intros w Hw. apply D. now right.
Qed.
Lemma incs_nodup k : forall a n, NoDup (incs k a n).
Proof.
  induction k as [|k IH]; intros a n; [repeat constructor; intros []|]. cbn [incs]. apply NoDup_flat.
  - apply seq_NoDup.
  - intros x _. apply Injective_map_NoDup; [intros u v E; congruence|apply IH].
  - intros x y z _ _ Hx Hy. apply in_map_iff in Hx as (u & <- & _). apply in_map_iff in Hy as (v & E & _). congruence.
Qed.

Lemma walk_under n x l t rest : walk n t l ->
  (x + S (length t) <? n = true -> walk n (seq (S x) (S (length t))) rest) ->
  (x + S (length t) <? n = false -> rest = []) ->
  walk n (x :: t) (map (cons x) l ++ rest).
Proof.
  intros W. revert rest. induction W as [t E|t t' l E W IH]; intros rest A B.
  - cbn [map app]. destruct (x + S (length t) <? n) eqn:C.
    + apply (W_next n (x :: t) (seq (S x) (S (length t)))); [|now apply A]. cbn [nxt]. rewrite E. cbn [length]. now rewrite C.
    + rewrite (B eq_refl). apply W_end. cbn [nxt]. rewrite E. cbn [length]. now rewrite C.
  - assert (L : length t' = length t).
    { clear - E. revert t' E. induction t as [|y t IHt]; intros t' E; [discriminate|]. cbn [nxt] in E.
      destruct (nxt n t) as [u|].
      - injection E as <-. cbn. now rewrite (IHt u).
      - destruct (_ <? n); [|discriminate]. injection E as <-. cbn [length]. now rewrite seq_length. }
    cbn [map app]. apply (W_next n (x :: t) (x :: t')); [cbn [nxt]; now rewrite E|].
    apply IH; rewrite L; assumption.
Qed.
Lemma walk_incs k : forall a n, a + k <= n -> walk n (seq a k) (incs k a n).
Proof.
  induction k as [|k IH]; intros a n L; [now apply W_end|]. cbn [incs].
  assert (G : forall m a, a + m + k = n -> 0 < m ->
    walk n (seq a (S k)) (flat_map (fun x => map (cons x) (incs k (S x) n)) (seq a m))).
  { induction m as [|m IHm]; intros b E P; [lia|].
    cbn [seq flat_map]. apply walk_under; rewrite ?seq_length.
    - apply IH. lia.
    - intros C. apply Nat.ltb_lt in C. apply IHm; lia.
    - intros C. apply Nat.ltb_ge in C. assert (m = 0) as -> by lia. reflexivity. }
  apply G; lia.
Qed.

(** The code's step follows [nxt]. *)
Definition bounded (n k : nat) (idx : list nat) : Prop :=
  length idx = k /\ forall j, j < k -> nth j idx 0 <= n - k + j.
Lemma nxt_length n idx idx' : nxt n idx = Some idx' -> length idx' = length idx.
Proof.
  revert idx'. induction idx as [|y t IHt]; intros t' E; [discriminate|]. cbn [nxt] in E.
  destruct (nxt n t) as [u|].
  - injection E as <-. cbn. now rewrite (IHt u).
  - destruct (_ <? n); [|discriminate]. injection E as <-. cbn [length]. now rewrite seq_length.
Qed.
(** Characterisation of [nxt] by the last position below its maximum. *)
Lemma nxt_at n : forall idx i, length idx <= n -> i < length idx ->
  nth i idx 0 < n - length idx + i -> (forall j, i < j < length idx -> nth j idx 0 = n - length idx + j) ->
  nxt n idx = Some (firstn i idx ++ seq (S (nth i idx 0)) (length idx - i)).
Proof.
  induction idx as [|x t IH]; intros i Ln Li Hi Hj; [cbn in Li; lia|]. cbn [length] in *. cbn [nxt]. destruct i as [|i].
  - assert (N : nxt n t = None).
    { clear IH Hi Li. assert (A : forall j, j < length t -> nth j t 0 = n - length t + j).
      { intros j Hj'. specialize (Hj (S j)). cbn [nth] in Hj. rewrite Hj; lia. }
      clear Hj. assert (Ln' : length t <= n) by lia. clear Ln. induction t as [|y t IHt]; [reflexivity|]. cbn [nxt].
      rewrite IHt.
      - pose proof (A 0 ltac:(cbn; lia)) as E. cbn [nth] in E. cbn [length] in *. rewrite (proj2 (Nat.ltb_ge _ _)); [reflexivity|lia].
      - intros j Hj. specialize (A (S j)). cbn [nth length] in *. rewrite A; lia.
      - cbn in Ln'. lia. }
    rewrite N. cbn [length nth] in *. rewrite (proj2 (Nat.ltb_lt _ _)) by lia. rewrite Nat.sub_0_r. reflexivity.
  - rewrite (IH i); [|lia|lia| |].
    + reflexivity.
    + cbn [nth] in Hi. lia.
    + intros j Hj'. specialize (Hj (S j)). cbn [nth] in Hj. rewrite Hj; lia.
Qed.
Lemma nxt_none n : forall idx, length idx <= n -> (forall j, j < length idx -> nth j idx 0 = n - length idx + j) -> nxt n idx = None.
Proof.
  induction idx as [|y t IHt]; intros Ln A; [reflexivity|]. cbn [nxt]. cbn [length] in *. rewrite IHt.
  - pose proof (A 0 ltac:(lia)) as E. cbn [nth] in E. rewrite (proj2 (Nat.ltb_ge _ _)); [reflexivity|lia].
  - lia.
  - intros j Hj. specialize (A (S j)). cbn [nth] in A. rewrite A; lia.
Qed.
Lemma scan_SS n k idx i : scan n k idx (S (S i)) = if Nat.eqb (nth (S i) idx 0) (n - k + S i) then scan n k idx (S i) else S (S i).
Proof. reflexivity. Qed.
Lemma scan_spec n k idx : forall i, 1 <= i <= k -> let r := scan n k idx i in
  1 <= r <= i /\ (forall j, r <= j < i -> nth j idx 0 = n - k + j) /\ (r = 1 \/ nth (r - 1) idx 0 <> n - k + (r - 1)).
Proof.
  induction i as [|i IH]; intros Hi; [lia|]. destruct i as [|i]; [change (scan n k idx 1) with 1|rewrite scan_SS]; cbv zeta.
  - split; [lia|]. split; [intros; lia|now left].
  - destruct (Nat.eqb_spec (nth (S i) idx 0) (n - k + S i)) as [E|N].
    + destruct (IH ltac:(lia)) as (A & B & C). cbv zeta in *. split; [lia|]. split; [|exact C].
      intros j Hj. destruct (Nat.eq_dec j (S i)) as [->|D]; [exact E|apply B; lia].
    + cbv zeta. split; [lia|]. split; [intros; lia|]. right. replace (S (S i) - 1) with (S i) by lia. exact N.
Qed.
Lemma step_spec n k idx : 1 <= k <= n -> bounded n k idx ->
  match nxt n idx with
  | Some idx' => bump k idx (scan n k idx k) = idx'
  | None => n - k < nth 0 (bump k idx (scan n k idx k)) 0
  end.
Proof.
  intros K [L B]. destruct (scan_spec n k idx k ltac:(lia)) as (R & M & D). cbv zeta in *. set (r := scan n k idx k) in *.
  assert (Below : nth (r - 1) idx 0 < n - k + (r - 1) \/ (r = 1 /\ nth 0 idx 0 = n - k)).
  { pose proof (B (r - 1) ltac:(lia)) as B1. destruct D as [D|D]; [|left; lia].
    rewrite D in *. cbn [Nat.sub] in *. destruct (Nat.eq_dec (nth 0 idx 0) (n - k)); [right; auto|left; lia]. }
  destruct Below as [Lt|[R1 E]].
  - rewrite (nxt_at n idx (r - 1)).
    + unfold bump. rewrite L. replace (k - (r - 1)) with (k - r + 1) by lia. reflexivity.
    + lia.
    + lia.
    + rewrite L. exact Lt.
    + rewrite L. intros j Hj. apply M. lia.
  - rewrite nxt_none.
    + rewrite R1. unfold bump. cbn [Nat.sub firstn app]. replace (k - 1 + 1) with (S (k - 1)) by lia. cbn [seq nth]. rewrite E. lia.
    + lia.
    + rewrite L. intros j Hj. destruct j as [|j]; [rewrite E; lia|]. apply M. lia.
Qed.
Lemma nxt_bounded n k idx idx' : 1 <= k <= n -> bounded n k idx -> nxt n idx = Some idx' -> bounded n k idx'.
Proof.
  intros K [L B] E. split; [now rewrite (nxt_length _ _ _ E)|].
  assert (G : forall idx idx' m, length idx <= n -> m = length idx -> (forall j, j < m -> nth j idx 0 <= n - m + j) -> nxt n idx = Some idx' ->
     forall j, j < m -> nth j idx' 0 <= n - m + j).
  { clear. induction idx as [|x t IH]; intros idx' m Ln -> B E; [discriminate|]. cbn [nxt] in E. cbn [length] in *.
    destruct (nxt n t) as [t'|] eqn:Et.
    - injection E as <-. intros [|j] Hj; [exact (B 0 ltac:(lia))|]. cbn [nth].
      pose proof (IH t' (length t) ltac:(lia) eq_refl) as IH'.
      assert (nth j t' 0 <= n - length t + j); [|lia]. apply IH'; [|reflexivity|lia].
      intros i Hi. specialize (B (S i) ltac:(lia)). cbn [nth] in B. lia.
    - destruct (x + S (length t) <? n) eqn:C; [|discriminate]. injection E as <-. apply Nat.ltb_lt in C.
      intros j Hj. change (S x :: seq (S (S x)) (length t)) with (seq (S x) (S (length t))). rewrite seq_nth by lia. lia. }
  intros j Hj. refine (G idx idx' k _ (eq_sym L) B E j Hj). lia.
Qed.
Lemma seq_bounded n k : k <= n -> bounded n k (seq 0 k).
Proof. intros K. split; [apply seq_length|]. intros j Hj. rewrite seq_nth by lia. lia. Qed.
Lemma walk_head n idx l : walk n idx l -> exists r, l = idx :: r.
Proof. destruct 1; eauto. Qed.
Lemma select_some {T} (input : list T) idx : Forall (fun i => i < length input) idx ->
  exists l, select input idx = Some l /\ map (nth_error input) idx = map Some l.
Proof.
  induction 1 as [|i idx Hi _ (l & E & M)]; [exists []; auto|]. cbn [select map]. rewrite E, M.
  destruct (nth_error input i) as [x|] eqn:X; [exists (x :: l); auto|]. apply nth_error_None in X. lia.
Qed.
Lemma loop_walk {T} (input : list T) k : 1 <= k <= length input ->
  forall idx all, walk (length input) idx all -> bounded (length input) k idx ->
  (forall l, In l all -> Forall (fun i => i < length input) l) ->
  exists out, picks input all out /\ forall fuel acc, length all < fuel -> comb_loop fuel input k idx acc = Returns (acc ++ out).
Proof.
  intros K idx all W. induction W as [idx E|idx idx' l E W IH]; intros B In_.
  - destruct (select_some input idx (In_ idx (or_introl eq_refl))) as (c & S' & M).
    exists [c]. split; [unfold picks; cbn; now rewrite M|]. intros fuel acc F.
    destruct fuel as [|[|f]]; [cbn in F; lia|cbn in F; lia|]. cbn [comb_loop].
    pose proof (proj2 B 0 ltac:(lia)) as B0. rewrite Nat.add_0_r in B0. rewrite (proj2 (Nat.leb_le _ _) B0), S'.
    pose proof (step_spec (length input) k idx K B) as St. rewrite E in St.
    rewrite (proj2 (Nat.leb_gt _ _) St). reflexivity.
  - destruct (select_some input idx (In_ idx (or_introl eq_refl))) as (c & S' & M).
    pose proof (step_spec (length input) k idx K B) as St. rewrite E in St.
    destruct (IH (nxt_bounded _ _ _ _ K B E)) as (out & P & R); [intros l' Hl'; apply In_; now right|].
    exists (c :: out). split; [unfold picks in *; cbn [map]; rewrite M, P; reflexivity|].
    intros fuel acc F. destruct fuel as [|f]; [cbn in F; lia|]. cbn [comb_loop].
    pose proof (proj2 B 0 ltac:(lia)) as B0. rewrite Nat.add_0_r in B0. rewrite (proj2 (Nat.leb_le _ _) B0), S', St.
    rewrite R by (cbn in F; lia). rewrite <- app_assoc. reflexivity.
Qed.

(** *** C27.  When the capacity computation does not panic, every [k]-element
    sub-sequence is returned, exactly once, and nothing else; the loop ends. *)
Theorem c27_combinations_unless_panic : forall T (input : list T) k c,
  1 <= k <= length input ->
  expected_combinations_count (length input) k = Some c -> with_capacity c = Some tt ->
  exists all out,
    NoDup all /\ (forall idx, In idx all <-> subsequence (length input) k idx)
    /\ picks input all out
    /\ forall fuel, length all < fuel -> combinations fuel input k = Returns out.
Proof.
  intros T input k c K C W. set (n := length input) in *.
  assert (In_ : forall idx, In idx (incs k 0 n) <-> subsequence n k idx).
  { intros idx. rewrite incs_in. unfold subsequence. split; intros (A & B & D); (split; [assumption|split; [assumption|]]);
    (eapply Forall_impl; [|exact D]); cbn; intros; lia. }
  destruct (loop_walk input k K (seq 0 k) (incs k 0 n)) as (out & P & R).
  - apply walk_incs. fold n. lia.
  - apply seq_bounded. fold n. lia.
  - intros l Hl. apply (proj1 (In_ l)) in Hl. apply Hl.
  - exists (incs k 0 n), out. split; [apply incs_nodup|]. split; [exact In_|]. split; [exact P|].
    intros fuel F. unfold combinations. fold n. rewrite (proj2 (Nat.ltb_ge _ _)), (proj2 (Nat.eqb_neq _ _)) by lia. cbn [orb].
    rewrite C, W. now rewrite R.
Qed.
Print Assumptions c27_combinations_unless_panic.

Theorem c27_degenerate : forall T (input : list T) k fuel, k = 0 \/ length input < k -> combinations fuel input k = Returns [].
Proof.
  intros T input k fuel H. unfold combinations. destruct (Nat.ltb (length input) k || Nat.eqb k 0) eqn:E; [reflexivity|].
  apply orb_false_iff in E as [E1 E2]. apply Nat.ltb_ge in E1. apply Nat.eqb_neq in E2. lia.
Qed.
Print Assumptions c27_degenerate.
(** The full claim, for every input length, is false: 34 of 68 divides by zero. *)
Theorem c27_every_size_refuted : ~ (forall (input : list unit) k, 1 <= k <= length input ->
  exists fuel out, combinations fuel input k = Returns out).
Proof.
  intros H. destruct (H (repeat tt 68) 34) as (fuel & out & E); [rewrite repeat_length; lia|].
  unfold combinations in E. rewrite repeat_length in E. change (68 <? 34) with false in E. cbn [orb Nat.eqb] in E.
  assert (D : expected_combinations_count 68 34 = None) by (vm_compute; reflexivity). rewrite D in E. discriminate.
Qed.
Print Assumptions c27_every_size_refuted.

(** *** Exactly when the helper panics *)
(** The factorial of arithmetic, without wrapping. *)
Fixpoint factorial (n : nat) : N := match n with O => 1 | S m => N.of_nat n * factorial m end%N.
Definition word : N := 18446744073709551616%N.

Lemma wfactorial_mod n : wfactorial n = (factorial n mod word)%N.
Proof.
  induction n as [|n IH]; [reflexivity|]. cbn [wfactorial factorial]. rewrite IH. unfold usize_wrap. fold word.
  rewrite N.mul_mod_idemp_r by discriminate. reflexivity.
Qed.
Lemma denominator n k : usize_wrap (wfactorial k * wfactorial (n - k)) = ((factorial k * factorial (n - k)) mod word)%N.
Proof. rewrite !wfactorial_mod. unfold usize_wrap. fold word. rewrite <- N.mul_mod by discriminate. reflexivity. Qed.
Lemma divide_le m n : m <= n -> (factorial m | factorial n)%N.
Proof.
  induction 1 as [|n L IH]; [apply N.divide_refl|]. cbn [factorial]. now apply N.divide_mul_r.
Qed.
Lemma capacity_ok n k c : k <= n -> expected_combinations_count n k = Some c -> with_capacity c = Some tt.
Proof.
  intros K E. unfold expected_combinations_count in E. cbv zeta in E.
  destruct (N.eqb (usize_wrap (wfactorial k * wfactorial (n - k))) 0) eqn:Z; [discriminate|]. injection E as <-.
  destruct (le_lt_dec 66 n) as [L|L].
  - assert (W : wfactorial n = 0%N).
    { rewrite wfactorial_mod. apply N.mod_divide; [discriminate|]. eapply N.divide_trans; [|exact (divide_le 66 n L)].
      apply N.mod_divide; [discriminate|vm_compute; reflexivity]. }
    rewrite W, N.div_0_l by (apply N.eqb_neq; exact Z). reflexivity.
  - assert (H : forallb (fun n => forallb (fun k => (n <? k) || match with_capacity (wfactorial n / usize_wrap (wfactorial k * wfactorial (n - k)))%N with
       Some _ => true | None => false end) (seq 0 66)) (seq 0 66) = true) by (vm_compute; reflexivity).
    rewrite forallb_forall in H. specialize (H n ltac:(apply in_seq; lia)). rewrite forallb_forall in H.
    specialize (H k ltac:(apply in_seq; lia)). rewrite (proj2 (Nat.ltb_ge _ _)) in H by lia. cbn [orb] in H.
    destruct (with_capacity _) as [[]|]; [reflexivity|discriminate].
Qed.

(** C27 in full: choosing [k] of [n] elements, 1 <= k <= n, either panics, which it
    does exactly if 2^64 divides k! (n-k)!, or returns every [k]-element
    sub-sequence exactly once and nothing else. *)
Theorem c27_combinations_exactly : forall T (input : list T) k, 1 <= k <= length input ->
  let n := length input in
  ((2 ^ 64 | factorial k * factorial (n - k))%N -> forall fuel, combinations fuel input k = Panics)
  /\ (~ (2 ^ 64 | factorial k * factorial (n - k))%N ->
      exists all out, NoDup all /\ (forall idx, In idx all <-> subsequence n k idx) /\ picks input all out
        /\ forall fuel, length all < fuel -> combinations fuel input k = Returns out).
Proof.
  intros T input k K n. change (2 ^ 64)%N with word. split.
  - intros D fuel. unfold combinations. fold n. rewrite (proj2 (Nat.ltb_ge _ _)), (proj2 (Nat.eqb_neq _ _)) by (subst n; lia). cbn [orb].
    unfold expected_combinations_count. cbv zeta. rewrite denominator. apply N.mod_divide in D; [|discriminate]. rewrite D. reflexivity.
  - intros D. assert (E : exists c, expected_combinations_count n k = Some c).
    { unfold expected_combinations_count. cbv zeta. rewrite denominator. destruct (N.eqb_spec ((factorial k * factorial (n - k)) mod word) 0) as [Z|Z]; [|eauto].
      destruct D. apply N.mod_divide; [discriminate|exact Z]. }
    destruct E as (c & E). exact (c27_combinations_unless_panic T input k c K E (capacity_ok n k c (proj2 K) E)).
Qed.
Print Assumptions c27_combinations_exactly.

(** So: never for up to 65 elements, always from 71 on, and in between for some [k]. *)
Theorem c27_when_it_panics : forall n k, k <= n ->
  (n <= 65 -> ~ (2 ^ 64 | factorial k * factorial (n - k))%N)
  /\ (71 <= n -> (2 ^ 64 | factorial k * factorial (n - k))%N)
  /\ (2 ^ 64 | factorial 2 * factorial (66 - 2))%N /\ ~ (2 ^ 64 | factorial 1 * factorial (66 - 1))%N.
Proof.
  intros n k K. change (2 ^ 64)%N with word. split; [|split; [|split]].
  - intros L. assert (H : forallb (fun n => forallb (fun k => (n <? k) || negb (N.eqb ((factorial k * factorial (n - k)) mod word) 0)%N) (seq 0 66)) (seq 0 66) = true) by (vm_compute; reflexivity).
    rewrite forallb_forall in H. specialize (H n ltac:(apply in_seq; lia)). rewrite forallb_forall in H.
    specialize (H k ltac:(apply in_seq; lia)). rewrite (proj2 (Nat.ltb_ge _ _)) in H by lia. cbn [orb] in H.
    intros D. apply N.mod_divide in D; [|discriminate]. rewrite D in H. discriminate.
  - intros L. revert k K. induction L as [|n L IH]; intros k K.
    + assert (H : forallb (fun k => N.eqb ((factorial k * factorial (71 - k)) mod word) 0)%N (seq 0 72) = true) by (vm_compute; reflexivity).
      rewrite forallb_forall in H. specialize (H k ltac:(apply in_seq; lia)). apply N.eqb_eq in H. apply N.mod_divide; [discriminate|exact H].
    + destruct (Nat.eq_dec k (S n)) as [->|N].
      * rewrite Nat.sub_diag. cbn [factorial]. rewrite N.mul_1_r. apply N.divide_mul_r.
        pose proof (IH n ltac:(lia)) as D. rewrite Nat.sub_diag in D. cbn [factorial] in D. now rewrite N.mul_1_r in D.
      * replace (S n - k) with (S (n - k)) by lia. cbn [factorial].
        replace (factorial k * (N.of_nat (S (n - k)) * factorial (n - k)))%N with (N.of_nat (S (n - k)) * (factorial k * factorial (n - k)))%N by lia.
        apply N.divide_mul_r. apply IH. lia.
  - apply N.mod_divide; [discriminate|vm_compute; reflexivity].
  - intros D. apply N.mod_divide in D; [|discriminate]. vm_compute in D. discriminate.
Qed.
Print Assumptions c27_when_it_panics.

(** In particular the intended property holds for every input of up to 65 elements. *)
Theorem c27_up_to_65 : forall T (input : list T) k, 1 <= k <= length input -> length input <= 65 ->
  exists all out, NoDup all /\ (forall idx, In idx all <-> subsequence (length input) k idx) /\ picks input all out
    /\ forall fuel, length all < fuel -> combinations fuel input k = Returns out.
Proof.
  intros T input k K L. destruct (c27_when_it_panics (length input) k (proj2 K)) as (A & _).
  exact (proj2 (c27_combinations_exactly T input k K) (A L)).
Qed.
Print Assumptions c27_up_to_65.

Example c27_nontrivial : combinations 100 [x01; x02; x03; x04] 2 =
  Returns [[x01; x02]; [x01; x03]; [x01; x04]; [x02; x03]; [x02; x04]; [x03; x04]].
Proof. vm_compute. reflexivity. Qed.
