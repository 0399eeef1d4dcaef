(** C25, C26: secret sharing. *)
From Verif Require Import Base Gf256 Shamir ShamirProofs Hex.
Require Import ZifyBool ZifyN ZifyNat.
Local Open Scope N_scope.

(** The random coefficients drawn for a [k]-threshold sharing of [secret]:
    [k - 1] field elements for each byte. *)
Definition drawn_for (secret : bytes) (k : N) (rnd : list bytes) : Prop :=
  length rnd = length secret /\ forall row, In row rnd -> lenN row = k - 1.

Lemma nodupb_spec l : nodupb l = true <-> NoDup l.
Proof.
  induction l as [|x l IH]; cbn; [split; [constructor|reflexivity]|].
  rewrite andb_true_iff, IH, negb_true_iff. split.
  - intros [E H]. constructor; [|exact H]. intros I.
    assert (existsb (byte_eqb x) l = true) by (apply existsb_exists; exists x; split; [exact I|apply byte_eqb_refl]). congruence.
  - intros H. inversion H; subst. split; [|assumption].
    destruct (existsb (byte_eqb x) l) eqn:E; [|reflexivity]. apply existsb_exists in E as (y & I & E).
    destruct (byte_eqb_spec x y); [subst; contradiction|discriminate].
Qed.
Lemma share_length rnd secret x : length rnd = length secret -> length (share_at rnd secret x) = S (length secret).
Proof. intros L. unfold share_at. cbn [length]. rewrite map_length, combine_length. lia. Qed.
Lemma nth_cons_S {A} (a d : A) i l : nth (S i) (a :: l) d = nth i l d.
Proof. reflexivity. Qed.
Lemma share_nth rnd secret x i : length rnd = length secret -> (i < length secret)%nat ->
  nth (S i) (share_at rnd secret x) x00 = peval (nth i secret x00 :: nth i rnd []) x.
Proof.
  intros L B. unfold share_at. rewrite nth_cons_S.
  pose proof (map_nth (fun rb : bytes * byte => peval (snd rb :: fst rb) x) (combine rnd secret) ([], x00) i) as M.
  rewrite combine_nth in M by exact L. cbn [fst snd] in M. refine (eq_trans (nth_indep _ _ _ _) M).
  rewrite map_length, combine_length. lia.
Qed.
Lemma generated rnd secret n k shares : shares_generate rnd secret n k = Some shares ->
  2 <= k /\ k <= n /\ n <= 255 /\ secret <> [] /\
  shares = map (fun i => share_at rnd secret (n2b (N.of_nat i))) (seq 1 (N.to_nat n)).
Proof.
  unfold shares_generate. destruct ((255 <? n) || (n <? k) || (k <? 2) || (lenN secret =? 0)) eqn:E; [discriminate|].
  intros H. injection H as <-. apply orb_false_iff in E as [E E4]. apply orb_false_iff in E as [E E3]. apply orb_false_iff in E as [E1 E2].
  assert (secret <> []) by (intros ->; discriminate). repeat split; try lia. assumption.
Qed.
Lemma in_generated rnd secret n k shares s : shares_generate rnd secret n k = Some shares -> In s shares ->
  exists x, x <> x00 /\ s = share_at rnd secret x.
Proof.
  intros G I. apply generated in G as (K2 & KN & N255 & NE & ->). apply in_map_iff in I as (i & <- & Hi). apply in_seq in Hi.
  exists (n2b (N.of_nat i)). split; [|reflexivity]. intros E. apply (f_equal b2n) in E. rewrite b2n_n2b, N.mod_small in E by lia.
  change (b2n x00) with 0 in E. lia.
Qed.
Lemma map_seq_nth (l : bytes) : map (fun i => nth i l x00) (seq 0 (length l)) = l.
Proof.
  induction l as [|a l IH]; [reflexivity|]. cbn [length seq map nth]. f_equal. rewrite <- seq_shift, map_map. exact IH.
Qed.

(** *** C25: any [k] or more distinct shares, in any order, give back the secret *)
Theorem c25_any_k_shares_reconstruct : forall rnd secret n k shares chosen,
  drawn_for secret k rnd ->
  shares_generate rnd secret n k = Some shares ->
  incl chosen shares -> NoDup chosen -> k <= lenN chosen ->
  shares_reconstruct chosen = Some secret.
Proof.
  intros rnd secret n k shares chosen [Lr Rows] G Inc ND K.
  pose proof (generated _ _ _ _ _ G) as (K2 & KN & N255 & NE & _).
  assert (Ex : forall s, In s chosen -> exists x, x <> x00 /\ s = share_at rnd secret x).
  { intros s Hs. apply (in_generated _ _ _ _ _ _ G). now apply Inc. }
  assert (Self : forall s, In s chosen -> s = share_at rnd secret (share_id s) /\ share_id s <> x00).
  { intros s Hs. apply Ex in Hs as (x & Nx & ->). split; [reflexivity|exact Nx]. }
  assert (NDi : NoDup (map share_id chosen)).
  { clear - ND Self. induction chosen as [|a l IH]; [constructor|]. inversion ND as [|? ? NI ND']; subst. cbn [map]. constructor.
    - intros I. apply in_map_iff in I as (b & E & Hb). apply NI.
      rewrite (proj1 (Self a (or_introl eq_refl))), <- E, <- (proj1 (Self b (or_intror Hb))). exact Hb.
    - apply IH; [assumption|]. intros s Hs. apply Self. now right. }
  rewrite lenN_length in K.
  assert (2 <= length chosen)%nat as L2 by lia.
  destruct chosen as [|s0 [|s1 rest]]; [cbn in L2; lia|cbn in L2; lia|].
  set (all := s0 :: s1 :: rest) in *. unfold shares_reconstruct. fold all.
  assert (Len : forall s, In s all -> length s = S (length secret)).
  { intros s Hs. apply Ex in Hs as (x & _ & ->). now apply share_length. }
  assert (L0 : length s0 = S (length secret)) by (apply Len; now left).
  assert (length secret <> 0)%nat as NZ by (destruct secret; [contradiction|discriminate]).
  assert (C1 : forallb (fun s => (length s =? length s0)%nat) all = true).
  { apply forallb_forall. intros s Hs. apply Nat.eqb_eq. rewrite L0. now apply Len. }
  assert (C2 : (2 <=? length s0)%nat = true) by (apply Nat.leb_le; lia).
  assert (C3 : forallb (fun s => negb (byte_eqb (share_id s) x00)) all = true).
  { apply forallb_forall. intros s Hs. destruct (byte_eqb_spec (share_id s) x00) as [E|]; [|reflexivity].
    now apply (proj2 (Self s Hs)) in E. }
  assert (C4 : nodupb (map share_id all) = true) by now apply nodupb_spec.
  assert (R : (match all with
    | x :: _ :: _ => if forallb (fun s => (length s =? length x)%nat) all && (2 <=? length x)%nat
       && forallb (fun s => negb (byte_eqb (share_id s) x00)) all && nodupb (map share_id all)
      then Some (map (fun i => interpolate (map (fun s => (share_id s, nth i s x00)) all)) (seq 1 (length x - 1))) else None
    | _ => None end) = Some secret); [|exact R].
  unfold all at 1. rewrite C1, C2, C3, C4. cbn [andb]. f_equal. rewrite L0. replace (S (length secret) - 1)%nat with (length secret) by lia.
  rewrite <- seq_shift, map_map. rewrite <- (map_seq_nth secret) at 2. apply map_ext_in. intros i Hi. apply in_seq in Hi.
  rewrite (interpolate_correct (nth i secret x00 :: nth i rnd [])).
  - rewrite peval_cons. change gzero with x00. rewrite gmul_comm, gmul_0_r, gadd_comm. apply gadd_0_l.
  - rewrite map_map. exact NDi.
  - rewrite map_length. assert (In (nth i rnd []) rnd) as Hr by (apply nth_In; lia). apply Rows in Hr. rewrite lenN_length in Hr.
    cbn [length]. lia.
  - intros q Hq. apply in_map_iff in Hq as (s & <- & Hs). cbn [fst snd].
    rewrite (proj1 (Self s Hs)) at 1. apply share_nth; lia.
Qed.
Print Assumptions c25_any_k_shares_reconstruct.

(** Exactly [n] shares, pairwise distinct: every [k]-subset of members holds [k] distinct shares. *)
Theorem c25_shares_distinct : forall rnd secret n k shares,
  shares_generate rnd secret n k = Some shares -> lenN shares = n /\ NoDup shares.
Proof.
  intros rnd secret n k shares G. apply generated in G as (K2 & KN & N255 & NE & ->).
  split; [rewrite lenN_length, map_length, seq_length; lia|].
  apply (NoDup_map_inv (fun s => b2n (share_id s))). rewrite map_map. cbn [share_at share_id hd].
  rewrite (map_ext_in _ N.of_nat).
  - apply FinFun.Injective_map_NoDup; [intros a b; lia|apply seq_NoDup].
  - intros i Hi. apply in_seq in Hi. rewrite b2n_n2b. apply N.mod_small. lia.
Qed.
Print Assumptions c25_shares_distinct.

(** Sharing is refused exactly outside 2 <= k <= n <= 255 or for an empty secret. *)
Theorem c25_generate_refuses : forall rnd secret n k,
  shares_generate rnd secret n k = None <-> ~ (2 <= k /\ k <= n /\ n <= 255 /\ secret <> []).
Proof.
  intros. unfold shares_generate. destruct ((255 <? n) || (n <? k) || (k <? 2) || (lenN secret =? 0)) eqn:E; split; intros H; try discriminate; try reflexivity.
  - intros (A & B & C & D). rewrite lenN_length in E. destruct secret; [contradiction|]. cbn [length] in E. lia.
  - exfalso. apply H. rewrite lenN_length in E. repeat split; try lia. intros ->. cbn in E. lia.
Qed.
Print Assumptions c25_generate_refuses.

(** One share, two equal shares, or shares of different lengths never reconstruct. *)
Theorem c25_reconstruct_refuses : forall shares,
  (length shares < 2)%nat \/ ~ NoDup (map share_id shares) \/ In x00 (map share_id shares)
  \/ (exists s s', In s shares /\ In s' shares /\ length s <> length s') ->
  shares_reconstruct shares = None.
Proof.
  intros shares H. unfold shares_reconstruct. destruct shares as [|s0 [|s1 r]]; [reflexivity..|].
  set (all := s0 :: s1 :: r) in *.
  destruct (_ && _ && _ && _) eqn:E; [|reflexivity]. exfalso.
  apply andb_true_iff in E as [E E4]. apply andb_true_iff in E as [E E3]. apply andb_true_iff in E as [E1 E2].
  destruct H as [H|[H|[H|(s & s' & Hs & Hs' & H)]]].
  - unfold all in H. cbn in H. lia.
  - apply H. now apply nodupb_spec.
  - apply in_map_iff in H as (s & Es & Hs). rewrite forallb_forall in E3. specialize (E3 s Hs). rewrite Es in E3. discriminate.
  - rewrite forallb_forall in E1. pose proof (E1 s Hs) as A. pose proof (E1 s' Hs') as B.
    apply Nat.eqb_eq in A, B. congruence.
Qed.
Print Assumptions c25_reconstruct_refuses.

(** The vectors of shamir.rs:87-136 (2 of 3 sharing of "my cute little secret"). *)
Definition old_share (h : string) : bytes := match decode (bs h) with Ok b => b | _ => [] end.
Definition old1 := old_share "01661fc0cc265daa4e7bde354c281dcc23a80c590249".
Definition old2 := old_share "027bb5fb26d326e0fc421cf604e495e3d3e4bd24ab0e".
Definition old3 := old_share "0370d31b89800f2f9255abb73ca0ed0f8329d20fcc33".
Example c25_vectors : shares_reconstruct [old1; old2] = Some (bs "my cute little secret")
  /\ shares_reconstruct [old2; old3] = Some (bs "my cute little secret")
  /\ shares_reconstruct [old1; old3] = Some (bs "my cute little secret")
  /\ shares_reconstruct [old3; old2; old1] = Some (bs "my cute little secret").
Proof. vm_compute. auto. Qed.
Definition c25_rnd : list bytes := [[x11; x22]; [x33; x44]].
Example c25_nontrivial : exists shares, drawn_for [xab; xcd] 3 c25_rnd /\ shares_generate c25_rnd [xab; xcd] 5 3 = Some shares
  /\ incl [nth 4 shares []; nth 0 shares []; nth 2 shares []] shares
  /\ shares_reconstruct [nth 4 shares []; nth 0 shares []; nth 2 shares []] = Some [xab; xcd]
  /\ shares_reconstruct [nth 4 shares []; nth 0 shares []] <> Some [xab; xcd].
Proof.
  eexists. split; [split; [reflexivity|intros row [<-|[<-|[]]]; reflexivity]|]. split; [vm_compute; reflexivity|].
  split; [intros s [<-|[<-|[<-|[]]]]; cbn; tauto|]. vm_compute. split; [reflexivity|discriminate].
Qed.

(** *** C26: fewer than [k] shares say nothing about the secret.
    For every set of [k - 1] (or fewer, by dropping points) distinct members and
    every candidate secret of the same length, exactly one draw of the random
    coefficients would have produced the very same shares for those members. *)
Theorem c26_fewer_shares_hide : forall rnd secret n k shares candidate (who : list nat),
  drawn_for secret k rnd ->
  shares_generate rnd secret n k = Some shares ->
  length candidate = length secret ->
  NoDup who -> (forall i, In i who -> (i < length shares)%nat) -> lenN who = k - 1 ->
  exists! rnd', drawn_for candidate k rnd' /\
    exists shares', shares_generate rnd' candidate n k = Some shares'
      /\ forall i, In i who -> nth i shares' [] = nth i shares [].
Proof.
  intros rnd secret n k shares candidate who [Lr Rows] G Lc NDw Bw Kw.
  pose proof (generated _ _ _ _ _ G) as (K2 & KN & N255 & NE & Sh).
  pose proof (c25_shares_distinct _ _ _ _ _ G) as [LS _].
  assert (NEc : candidate <> []) by (intros ->; destruct secret; [contradiction|discriminate]).
  assert (G' : forall r, shares_generate r candidate n k = Some (map (fun i => share_at r candidate (n2b (N.of_nat i))) (seq 1 (N.to_nat n)))).
  { intros r. destruct (shares_generate r candidate n k) eqn:E.
    - apply generated in E. f_equal. apply E.
    - exfalso. apply c25_generate_refuses in E. apply E. repeat split; assumption. }
  set (pt := fun i : nat => n2b (N.of_nat (S i))).
  assert (Nth : forall r c i, (i < length shares)%nat ->
    nth i (map (fun i => share_at r c (n2b (N.of_nat i))) (seq 1 (N.to_nat n))) [] = share_at r c (pt i)).
  { intros r c i Hi. rewrite lenN_length in LS.
    pose proof (map_nth (fun i => share_at r c (n2b (N.of_nat i))) (seq 1 (N.to_nat n)) O i) as M.
    rewrite seq_nth in M by lia. cbv beta in M. refine (eq_trans (nth_indep _ _ _ _) M).
    rewrite map_length, seq_length. lia. }
  assert (Ptn : forall i, In i who -> b2n (pt i) = N.of_nat (S i)).
  { intros i Hi. unfold pt. rewrite b2n_n2b. apply N.mod_small. apply Bw in Hi. rewrite lenN_length in LS. lia. }
  (* the points the polynomial of byte j must pass through *)
  set (pts := fun j : nat => (x00, nth j candidate x00) :: map (fun i => (pt i, peval (nth j secret x00 :: nth j rnd []) (pt i))) who).
  assert (NDp : forall j, NoDup (map fst (pts j))).
  { intros j. unfold pts. cbn [map fst]. rewrite map_map. cbn [fst]. constructor.
    - intros I. apply in_map_iff in I as (i & E & Hi). apply Ptn in Hi. rewrite E in Hi. change (b2n x00) with 0 in Hi. lia.
    - apply (NoDup_map_inv b2n). rewrite map_map. rewrite (map_ext_in _ (fun i => N.of_nat (S i))) by (intros i Hi; now apply Ptn).
      apply FinFun.Injective_map_NoDup; [intros a b; lia|assumption]. }
  assert (Lp : forall j, length (pts j) = N.to_nat k).
  { intros j. unfold pts. cbn [length]. rewrite map_length. rewrite lenN_length in Kw. lia. }
  assert (P : forall j, exists! p, length p = length (pts j) /\ forall q, In q (pts j) -> peval p (fst q) = snd q).
  { intros j. apply through_points, NDp. }
  assert (Hd : forall c r x, x = x00 -> peval (c :: r) x = c).
  { intros c r x ->. rewrite peval_cons, gmul_comm. change x00 with gzero. rewrite gmul_0_r, gadd_comm. apply gadd_0_l. }
  (* equality of shares, bytewise *)
  assert (Eqv : forall r', drawn_for candidate k r' ->
    ((forall i, In i who -> share_at r' candidate (pt i) = share_at rnd secret (pt i)) <->
     (forall j, (j < length candidate)%nat -> forall q, In q (pts j) -> peval (nth j candidate x00 :: nth j r' []) (fst q) = snd q))).
  { intros r' [Lr' Rows']. split.
    - intros H j Hj q [<-|Hq]; [now apply Hd|]. apply in_map_iff in Hq as (i & <- & Hi). cbn [fst snd].
      rewrite <- !share_nth by lia. now rewrite (H i Hi).
    - intros H i Hi. apply (nth_ext _ _ x00 x00); [rewrite !share_length by lia; lia|].
      intros m Hm. rewrite share_length in Hm by lia. destruct m as [|j]; [reflexivity|].
      rewrite !share_nth by lia. apply (H j ltac:(lia) (pt i, _)). unfold pts. right.
      apply in_map_iff. exists i. split; [reflexivity|assumption]. }
  (* choose the rows *)
  assert (Ch : exists rows : list bytes, length rows = length candidate /\
    forall j, (j < length candidate)%nat -> lenN (nth j rows []) = k - 1 /\ forall q, In q (pts j) -> peval (nth j candidate x00 :: nth j rows []) (fst q) = snd q).
  { assert (One : forall j, exists row, lenN row = k - 1 /\ forall q, In q (pts j) -> peval (nth j candidate x00 :: row) (fst q) = snd q).
    { intros j. destruct (P j) as (p & [Lpp E] & _). rewrite Lp in Lpp. destruct p as [|c row]; [cbn in Lpp; lia|].
      assert (c = nth j candidate x00) as ->.
      { rewrite <- (Hd c row x00 eq_refl). apply (E (x00, nth j candidate x00)). now left. }
      exists row. split; [rewrite lenN_length; cbn in Lpp; lia|exact E]. }
    clear - One. generalize (length candidate). intros m.
    assert (exists rows : list bytes, length rows = m /\ forall j, (j < m)%nat -> lenN (nth j rows []) = k - 1 /\ forall q, In q (pts j) -> peval (nth j candidate x00 :: nth j rows []) (fst q) = snd q) as (rows & A & B).
    { induction m as [|m (rows & A & B)]; [exists []; split; [reflexivity|lia]|].
      destruct (One m) as (row & R1 & R2). exists (rows ++ [row]). split; [rewrite app_length; cbn; lia|].
      intros j Hj. destruct (Nat.eq_dec j m) as [->|N].
      - rewrite app_nth2, A, Nat.sub_diag by lia. cbn [nth]. auto.
      - rewrite app_nth1 by lia. apply B. lia. }
    exists rows. auto. }
  destruct Ch as (rows & LR & HR).
  assert (DR : drawn_for candidate k rows).
  { split; [exact LR|]. intros row Hr. apply (In_nth _ _ []) in Hr as (j & Hj & <-). apply HR. rewrite <- LR. exact Hj. }
  exists rows. split.
  - split; [exact DR|]. eexists. split; [apply G'|]. intros i Hi. rewrite Sh, !Nth by now apply Bw.
    apply (proj2 (Eqv rows DR)); [|exact Hi]. intros j Hj. now apply HR.
  - intros r' [Dr' (shares' & Gs & Es)]. rewrite G' in Gs. injection Gs as <-.
    assert (S' : forall i, In i who -> share_at r' candidate (pt i) = share_at rnd secret (pt i)).
    { intros i Hi. specialize (Es i Hi). rewrite Sh, !Nth in Es by now apply Bw. exact Es. }
    pose proof (proj1 (Eqv r' Dr') S') as Q. destruct Dr' as [Lr' Rows'].
    apply (nth_ext _ _ [] []); [unfold bytes in *; lia|]. intros j Hj0.
    assert (Hj : (j < length candidate)%nat) by (unfold bytes in *; lia).
    assert (Hj' : (j < length r')%nat) by (unfold bytes in *; lia). destruct (P j) as (p & _ & U).
    assert (U1 : p = nth j candidate x00 :: nth j rows []).
    { apply U. split; [|now apply HR]. rewrite Lp. cbn [length]. pose proof (proj1 (HR j Hj)) as X. rewrite lenN_length in X. unfold bytes in *. lia. }
    assert (U2 : p = nth j candidate x00 :: nth j r' []).
    { apply U. split; [|now apply Q]. rewrite Lp. cbn [length].
      assert (In (nth j r' []) r') as X by (apply nth_In; exact Hj'). apply Rows' in X. rewrite lenN_length in X. unfold bytes in *. lia. }
    pose proof (eq_trans (eq_sym U1) U2) as U3. exact (f_equal (@tl byte) U3).
Qed.
Print Assumptions c26_fewer_shares_hide.

Example c26_nontrivial : exists shares, drawn_for [xab; xcd] 3 c25_rnd
  /\ shares_generate c25_rnd [xab; xcd] 5 3 = Some shares /\ NoDup [4%nat; 1%nat]
  /\ (forall i, In i [4%nat; 1%nat] -> (i < length shares)%nat) /\ lenN [4%nat; 1%nat] = 3 - 1.
Proof.
  eexists. split; [split; [reflexivity|intros row [<-|[<-|[]]]; reflexivity]|]. split; [vm_compute; reflexivity|].
  split; [repeat constructor; cbn; lia|]. split; [intros i [<-|[<-|[]]]; cbn; lia|reflexivity].
Qed.
