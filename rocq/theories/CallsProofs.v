(** Proofs about pooled calls. *)
From Verif Require Import Base Stream Calls SpecCalls.
Require Import ZifyBool ZifyN ZifyNat.
Local Open Scope nat_scope.

(** *** Updates *)
Lemma upd_length {A} i (x : A) l : length (upd i x l) = length l.
Proof. revert i; induction l as [|y l IH]; intros [|i]; cbn; auto. Qed.
Lemma nth_upd {A} i (x : A) l : i < length l -> nth_error (upd i x l) i = Some x.
Proof. revert i; induction l as [|y l IH]; intros [|i] L; cbn in *; [lia|lia|reflexivity|]. apply IH. lia. Qed.
Lemma nth_upd_ne {A} i j (x : A) l : i <> j -> nth_error (upd i x l) j = nth_error l j.
Proof. revert i j; induction l as [|y l IH]; intros [|i] [|j] N; cbn; try reflexivity; try lia. apply IH. lia. Qed.
Lemma nth_lt {A} (l : list A) i x : nth_error l i = Some x -> i < length l.
Proof. intros H. apply nth_error_Some. congruence. Qed.
Lemma nth_upd_inv {A} i j (x y : A) l : nth_error (upd i x l) j = Some y -> (j = i /\ y = x) \/ (j <> i /\ nth_error l j = Some y).
Proof.
  intros H. destruct (Nat.eq_dec i j) as [->|N].
  - left. pose proof (nth_lt _ _ _ H) as L. rewrite upd_length in L. rewrite nth_upd in H by exact L. split; [reflexivity|congruence].
  - right. rewrite nth_upd_ne in H by exact N. auto.
Qed.
Lemma nth_app_inv {A} (l : list A) x i y : nth_error (l ++ [x]) i = Some y -> (i < length l /\ nth_error l i = Some y) \/ (i = length l /\ y = x).
Proof.
  intros H. destruct (Nat.lt_ge_cases i (length l)) as [L|L]; [left; rewrite nth_error_app1 in H by exact L; auto|].
  right. rewrite nth_error_app2 in H by exact L. destruct (i - length l) as [|m] eqn:E; [|destruct m; discriminate]. split; [lia|]. cbn in H. congruence.
Qed.
Lemma nth_app_old {A} (l m : list A) i y : nth_error l i = Some y -> nth_error (l ++ m) i = Some y.
Proof. intros H. rewrite nth_error_app1; [exact H|exact (nth_lt _ _ _ H)]. Qed.
Lemma nth_app_new {A} (l : list A) x : nth_error (l ++ [x]) (length l) = Some x.
Proof. rewrite nth_error_app2, Nat.sub_diag by lia. reflexivity. Qed.

(** *** Frames *)
Definition small (p : bytes) : Prop := (MAX_PAYLOAD_SIZE <? lenN p)%N = false.
Lemma framed_length p : length (framed p) = 8 + length p.
Proof. unfold framed. rewrite app_length, le_enc_length. lia. Qed.
Lemma take_more {A} (l : list A) t n : firstn t l ++ firstn n (skipn t l) = firstn (t + n) l.
Proof.
  revert l; induction t as [|t IH]; intros l; [reflexivity|]. destruct l as [|x l]; [destruct n; reflexivity|].
  cbn [firstn skipn Nat.add app]. f_equal. apply IH.
Qed.
Lemma firstn_stable {A} (l m : list A) n : n <= length l -> firstn n (l ++ m) = firstn n l.
Proof. intros L. rewrite firstn_app. replace (n - length l) with 0 by lia. cbn [firstn]. apply app_nil_r. Qed.

Lemma complete_prefix got p a r : small p -> framed p = got ++ r -> complete got = Some a -> a = p /\ got = framed p.
Proof.
  intros F E C. unfold complete in C. destruct (8 <=? length got) eqn:L; [|discriminate]. cbn [andb] in C.
  assert (D : declared got = lenN p).
  { unfold declared. assert (Fr : firstn 8 got = firstn 8 (framed p)) by (rewrite E, firstn_app; replace (8 - length got) with 0 by lia; cbn [firstn]; now rewrite app_nil_r).
    rewrite Fr. unfold framed. pose proof (le_enc_length 8 (lenN p)) as L8. set (h := le_enc 8 (lenN p)) in *.
    rewrite firstn_stable, firstn_all2 by lia. unfold h.
    apply le_dec_enc. unfold small, MAX_PAYLOAD_SIZE in F. change (pow256 8) with (2 ^ 64)%N. lia. }
  rewrite D in C. rewrite F in C. cbn [negb andb] in C. destruct (length got =? N.to_nat (lenN p) + 8) eqn:G; [|discriminate].
  assert (r = []) as ->.
  { apply (f_equal (@length _)) in E. rewrite framed_length, app_length in E. rewrite lenN_length in G. destruct r; [reflexivity|]. cbn [length] in E. lia. }
  rewrite app_nil_r in E. split; [|now symmetry]. rewrite <- E in C. assert (C' : a = skipn 8 (framed p)) by congruence. rewrite C'. unfold framed.
  pose proof (le_enc_length 8 (lenN p)) as L8. set (h := le_enc 8 (lenN p)) in *. rewrite skipn_app, L8, Nat.sub_diag, (skipn_all2 h) by lia. reflexivity.
Qed.
Lemma complete_nil : complete [] = None. Proof. reflexivity. Qed.
(** *** The invariant *)
Definition served (i : nat) (l : list event) : list (bytes * option bytes) :=
  flat_map (fun e => match e with Serve j q a => if Nat.eqb j i then [(q, a)] else [] | _ => [] end) l.
Lemma served_app i l m : served i (l ++ m) = served i l ++ served i m.
Proof. apply flat_map_app. Qed.
Definition quiet (e : event) : bool := match e with Serve _ _ _ => false | _ => true end.
Lemma served_quiet i l e : quiet e = true -> served i (l ++ [e]) = served i l.
Proof. intros Q. rewrite served_app. destruct e; try discriminate; cbn; apply app_nil_r. Qed.
Lemma served_other i j l q a : j <> i -> served i (l ++ [Serve j q a]) = served i l.
Proof. intros N. rewrite served_app. cbn. rewrite (proj2 (Nat.eqb_neq j i) N). apply app_nil_r. Qed.
Lemma served_same i l q a : served i (l ++ [Serve i q a]) = served i l ++ [(q, a)].
Proof. rewrite served_app. cbn. now rewrite Nat.eqb_refl. Qed.

Definition pre (a b : bytes) : Prop := exists c, b = a ++ c.
Definition fresh_side (q : bytes) (w : wire) : Prop :=
  w_down w = [] /\ match w_task w with
                   | TRecv got => got = firstn (w_taken w) (w_up w)
                   | TProcess p => p = q /\ w_taken w = length (framed q)
                   | TSend _ => False
                   | TClosed => True
                   end.
Definition served_side (q : bytes) (w : wire) (q' : bytes) (oa : option bytes) : Prop :=
  q' = q /\ w_taken w = length (framed q) /\
  match oa with
  | None => w_task w = TClosed /\ w_down w = []
  | Some a => match w_task w with
              | TRecv got => got = [] /\ small a /\ pre (w_down w) (framed a)
              | TProcess _ => False
              | TSend rest => small a /\ w_down w ++ rest = framed a
              | TClosed => w_down w = [] \/ (small a /\ pre (w_down w) (framed a))
              end
  end.
Definition wire_ok (q : bytes) (w : wire) (sv : list (bytes * option bytes)) : Prop :=
  pre (w_up w) (framed q) /\ (w_up w = [] \/ small q) /\ w_taken w <= length (w_up w) /\ w_seen w <= length (w_down w) /\
  match sv with [] => fresh_side q w | [(q', oa)] => served_side q w q' oa | _ => False end.
Definition stage_ok (q : bytes) (w : wire) (c : cstage) : Prop :=
  match c with
  | COpen _ => w_up w = [] /\ w_seen w = 0
  | CSending _ rest => small q /\ w_up w ++ rest = framed q /\ w_seen w = 0
  | CReceiving _ got => small q /\ w_up w = framed q /\ got = firstn (w_seen w) (w_down w)
  | _ => False
  end.

Section Inv.
  Context {S : Type} (proc : bytes -> S -> option bytes -> S -> Prop).
  Record inv (x : cstate S) : Prop := {
    i_inv : forall i q, In (Invoke i q) (hist x) <-> exists c, nth_error (calls x) i = Some (PCall q c);
    i_wire : forall k w, nth_error (wires x) k = Some w -> exists q c, nth_error (calls x) (w_by w) = Some (PCall q c)
      /\ wire_ok q w (served (w_by w) (hist x))
      /\ (c = CEnded \/ exists h, guard_of c = Some h /\ nth_error (slots x) h = Some (Slot true (Some k)));
    i_uniq : forall k k' w w', nth_error (wires x) k = Some w -> nth_error (wires x) k' = Some w' -> w_by w = w_by w' -> k = k';
    i_call : forall i q c h, nth_error (calls x) i = Some (PCall q c) -> guard_of c = Some h ->
      exists inner, nth_error (slots x) h = Some (Slot true inner) /\
        match inner with
        | None => c = COpen h
        | Some k => exists w, nth_error (wires x) k = Some w /\ w_by w = i /\ stage_ok q w c
        end;
    i_served : forall i, served i (hist x) <> [] -> exists k w, nth_error (wires x) k = Some w /\ w_by w = i;
    i_slot : forall h s, nth_error (slots x) h = Some s ->
      s = new_slot \/ (s_held s = true /\ exists i q c, nth_error (calls x) i = Some (PCall q c) /\ guard_of c = Some h);
    i_excl : forall i j qi ci qj cj h, nth_error (calls x) i = Some (PCall qi ci) -> nth_error (calls x) j = Some (PCall qj cj) ->
      guard_of ci = Some h -> guard_of cj = Some h -> i = j
  }.

  Lemma inv_init n s : inv (cinit n s).
  Proof.
    split; cbn.
    - intros i q. split; [tauto|]. intros [c H]. destruct i; discriminate.
    - intros [|k] w H; discriminate.
    - intros [|k] k' w w' H; discriminate.
    - intros [|i] q c h H; discriminate.
    - congruence.
    - intros h s' H. left. apply nth_error_In in H. now apply repeat_spec in H.
    - intros [|i] j qi ci qj cj h H; discriminate.
  Qed.

  (** A step of a server task. *)
  Lemma inv_task cs sl ws s s' hi hi' k w w' :
    inv (CState cs sl ws s hi) -> nth_error ws k = Some w ->
    w_by w' = w_by w -> w_up w' = w_up w -> w_seen w' = w_seen w ->
    (forall n, n <= w_seen w -> n <= length (w_down w) -> firstn n (w_down w') = firstn n (w_down w)) ->
    (hi' = hi \/ exists p a, hi' = hi ++ [Serve (w_by w) p a]) ->
    (forall q, wire_ok q w (served (w_by w) hi) -> wire_ok q w' (served (w_by w) hi')) ->
    inv (CState cs sl (upd k w' ws) s' hi').
  Proof.
    intros I W B U Se D Hi X. pose proof (nth_lt _ _ _ W) as Lk. destruct I as [I1 I2 I3 I4 I5 I6 I7]; cbn [calls slots wires srv hist] in *.
    assert (SV : forall j, j <> w_by w -> served j hi' = served j hi).
    { intros j N. destruct Hi as [->|(p & a & ->)]; [reflexivity|]. apply served_other. congruence. }
    assert (BY : forall k1 w1, nth_error (upd k w' ws) k1 = Some w1 -> exists w0, nth_error ws k1 = Some w0 /\ w_by w1 = w_by w0).
    { intros k1 w1 H. apply nth_upd_inv in H as [[-> ->]|[N H]]; eauto. }
    split; cbn [calls slots wires srv hist].
    - intros i q. rewrite <- I1. destruct Hi as [->|(p & a & ->)]; [reflexivity|]. rewrite in_app_iff. cbn. split; [intros [H|[H|[]]]; [exact H|discriminate]|auto].
    - intros k1 w1 H. apply nth_upd_inv in H as [[-> ->]|[N H]].
      + rewrite B. destruct (I2 _ _ W) as (q & c & C1 & C2 & C3). exists q, c. auto.
      + destruct (I2 _ _ H) as (q & c & C1 & C2 & C3). exists q, c. split; [exact C1|]. split; [|exact C3].
        rewrite SV; [exact C2|]. intros E. apply N. exact (I3 _ _ _ _ H W E).
    - intros k1 k2 w1 w2 H1 H2 E. destruct (BY _ _ H1) as (v1 & V1 & E1). destruct (BY _ _ H2) as (v2 & V2 & E2).
      apply (I3 _ _ _ _ V1 V2). congruence.
    - intros i q c h C G. destruct (I4 _ _ _ _ C G) as (inner & Sl & M). exists inner. split; [exact Sl|].
      destruct inner as [k1|]; [|exact M]. destruct M as (w1 & W1 & B1 & St). destruct (Nat.eq_dec k1 k) as [->|N].
      + exists w'. split; [now apply nth_upd|]. replace w1 with w in * by congruence. split; [congruence|].
        destruct (I2 _ _ W) as (q0 & c0 & _ & OK & _). destruct OK as (_ & _ & _ & LS & _).
        destruct c; cbn in St |- *; rewrite ?U, ?Se; auto. destruct St as (A & A' & ->). split; [exact A|]. split; [exact A'|]. symmetry. apply D; lia.
      + exists w1. rewrite nth_upd_ne by congruence. auto.
    - intros i N. destruct (Nat.eq_dec i (w_by w)) as [->|E].
      + exists k, w'. split; [now apply nth_upd|exact B].
      + rewrite SV in N by exact E. destruct (I5 i N) as (k1 & w1 & W1 & E1). exists k1, w1. rewrite nth_upd_ne; [auto|].
        intros <-. apply E. congruence.
    - exact I6.
    - exact I7.
  Qed.

  (** A step of a call that keeps its stream, and may write to or read from it. *)
  Lemma inv_client cs sl ws s hi i q c c' h k w w' :
    inv (CState cs sl ws s hi) -> nth_error cs i = Some (PCall q c) -> guard_of c = Some h -> guard_of c' = Some h ->
    nth_error sl h = Some (Slot true (Some k)) -> nth_error ws k = Some w -> w_by w' = w_by w ->
    (stage_ok q w c -> wire_ok q w (served (w_by w) hi) -> wire_ok q w' (served (w_by w) hi) /\ stage_ok q w' c') ->
    inv (CState (upd i (PCall q c') cs) sl (upd k w' ws) s hi).
  Proof.
    intros I C G G' Sl W B X. pose proof (nth_lt _ _ _ W) as Lk. pose proof (nth_lt _ _ _ C) as Li.
    destruct I as [I1 I2 I3 I4 I5 I6 I7]; cbn [calls slots wires srv hist] in *.
    assert (Bi : w_by w = i /\ stage_ok q w c).
    { destruct (I4 _ _ _ _ C G) as (inner & S1 & M). rewrite Sl in S1. injection S1 as <-. destruct M as (w1 & W1 & E & St). replace w1 with w in * by congruence. auto. }
    destruct Bi as [Bi St0].
    assert (BY : forall k1 w1, nth_error (upd k w' ws) k1 = Some w1 -> exists w0, nth_error ws k1 = Some w0 /\ w_by w1 = w_by w0).
    { intros k1 w1 H. apply nth_upd_inv in H as [[-> ->]|[N H]]; eauto. }
    assert (CA : forall j qj cj, nth_error (upd i (PCall q c') cs) j = Some (PCall qj cj) ->
      exists cj0, nth_error cs j = Some (PCall qj cj0) /\ guard_of cj = guard_of cj0 /\ (j <> i -> cj = cj0)).
    { intros j qj cj H. apply nth_upd_inv in H as [[-> E]|[N H]]; [injection E as -> ->; exists c; rewrite G, G'; split; [auto|split; [auto|congruence]]|exists cj; auto]. }
    assert (CB : forall j qj cj, nth_error cs j = Some (PCall qj cj) ->
      exists cj', nth_error (upd i (PCall q c') cs) j = Some (PCall qj cj') /\ guard_of cj' = guard_of cj /\ (j <> i -> cj = cj')).
    { intros j qj cj H. destruct (Nat.eq_dec i j) as [->|N]; [|exists cj; rewrite nth_upd_ne by exact N; auto].
      exists c'. rewrite nth_upd by exact Li. replace cj with c in * by congruence. replace qj with q by congruence. split; [auto|]. split; [congruence|congruence]. }
    destruct (I2 _ _ W) as (q0 & c0 & C0 & OK & _). rewrite Bi, C in C0. injection C0 as <- <-. destruct (X St0 OK) as [OK' St'].
    split; cbn [calls slots wires srv hist].
    - intros j qj. rewrite I1. split; intros [cj H]; [destruct (CB _ _ _ H) as (cj' & H' & _)|destruct (CA _ _ _ H) as (cj' & H' & _)]; eauto.
    - intros k1 w1 H. apply nth_upd_inv in H as [[-> ->]|[N H]].
      + rewrite B, Bi. exists q, c'. rewrite nth_upd by exact Li. split; [reflexivity|]. rewrite Bi in OK'. split; [exact OK'|]. right. exists h. auto.
      + destruct (I2 _ _ H) as (q1 & c1 & C1 & C2 & C3). destruct (CB _ _ _ C1) as (c1' & C1' & Gd & Df). exists q1, c1'. split; [exact C1'|]. split; [exact C2|].
        destruct C3 as [->|(h1 & G1 & S1)]; [|right; exists h1; rewrite Gd; auto].
        left. symmetry. apply Df. intros E. rewrite E, C in C1. injection C1 as _ ->. discriminate.
    - intros k1 k2 w1 w2 H1 H2 E. destruct (BY _ _ H1) as (v1 & V1 & E1). destruct (BY _ _ H2) as (v2 & V2 & E2).
      apply (I3 _ _ _ _ V1 V2). congruence.
    - intros j qj cj hj H Gj. destruct (Nat.eq_dec j i) as [->|N].
      + rewrite nth_upd in H by exact Li. injection H as <- <-. assert (hj = h) as -> by congruence. exists (Some k). split; [exact Sl|].
        exists w'. rewrite nth_upd by exact Lk. split; [reflexivity|]. split; [congruence|exact St'].
      + rewrite nth_upd_ne in H by congruence. destruct (I4 _ _ _ _ H Gj) as (inner & S1 & M). exists inner. split; [exact S1|].
        destruct inner as [k1|]; [|exact M]. destruct M as (w1 & W1 & E1 & St1). exists w1. split; [|auto].
        rewrite nth_upd_ne; [exact W1|]. intros <-. apply N. congruence.
    - intros j N. destruct (I5 j N) as (k1 & w1 & W1 & E1). destruct (Nat.eq_dec k k1) as [<-|D].
      + exists k, w'. rewrite nth_upd by exact Lk. split; [reflexivity|congruence].
      + exists k1, w1. rewrite nth_upd_ne by exact D. auto.
    - intros h1 s1 H. destruct (I6 _ _ H) as [->|(He & j & qj & cj & Cj & Gj)]; [auto|]. right. split; [exact He|].
      destruct (CB _ _ _ Cj) as (cj' & Cj' & Gd & _). exists j, qj, cj'. split; [exact Cj'|congruence].
    - intros a b qa ca qb cb h1 Ha Hb Ga Gb. destruct (CA _ _ _ Ha) as (ca0 & Ha0 & Ea & _). destruct (CA _ _ _ Hb) as (cb0 & Hb0 & Eb & _).
      apply (I7 _ _ _ _ _ _ h1 Ha0 Hb0); congruence.
  Qed.

  (** A call ends. *)
  Lemma inv_end cs sl ws s hi i q c e :
    inv (CState cs sl ws s hi) -> nth_error cs i = Some (PCall q c) -> quiet e = true -> (forall j p, e <> Invoke j p) ->
    inv (CState (upd i (PCall q CEnded) cs) (release c sl) ws s (hi ++ [e])).
  Proof.
    intros I C Q NI. pose proof (nth_lt _ _ _ C) as Li. destruct I as [I1 I2 I3 I4 I5 I6 I7]; cbn [calls slots wires srv hist] in *.
    assert (SL : forall h s1, nth_error (release c sl) h = Some s1 -> (guard_of c = Some h /\ s1 = Slot false None) \/ (guard_of c <> Some h /\ nth_error sl h = Some s1)).
    { intros h s1 H. unfold release in H. destruct (guard_of c) as [h0|]; [|right; split; [discriminate|exact H]].
      apply nth_upd_inv in H as [[-> ->]|[N H]]; [auto|right; split; [congruence|exact H]]. }
    assert (SK : forall h, guard_of c <> Some h -> nth_error (release c sl) h = nth_error sl h).
    { intros h N. unfold release, guard_drop. destruct (guard_of c) as [h0|]; [|reflexivity]. apply nth_upd_ne. congruence. }
    assert (OTH : forall j qj cj h, j <> i -> nth_error cs j = Some (PCall qj cj) -> guard_of cj = Some h -> guard_of c <> Some h).
    { intros j qj cj h N H G E. apply N. exact (I7 _ _ _ _ _ _ h H C G E). }
    split; cbn [calls slots wires srv hist].
    - intros j qj. rewrite in_app_iff. cbn. split.
      + intros [H|[H|[]]]; [|exfalso; now apply (NI j qj)]. apply I1 in H as [cj H]. destruct (Nat.eq_dec i j) as [->|N].
        * exists CEnded. rewrite nth_upd by exact Li. congruence.
        * exists cj. now rewrite nth_upd_ne.
      + intros [cj H]. left. apply I1. apply nth_upd_inv in H as [[-> E]|[N H]]; [injection E as -> ->; eauto|eauto].
    - intros k w H. destruct (I2 _ _ H) as (q1 & c1 & C1 & C2 & C3). rewrite served_quiet by exact Q. destruct (Nat.eq_dec i (w_by w)) as [E|N].
      + exists q1, CEnded. rewrite <- E in *. rewrite nth_upd by exact Li. rewrite C in C1. injection C1 as <- <-. auto.
      + exists q1, c1. rewrite nth_upd_ne by exact N. split; [exact C1|]. split; [exact C2|]. destruct C3 as [->|(h & G & Sl)]; [auto|right].
        exists h. split; [exact G|]. rewrite SK; [exact Sl|]. exact (OTH _ _ _ _ (not_eq_sym N) C1 G).
    - exact I3.
    - intros j qj cj h H G. apply nth_upd_inv in H as [[-> E]|[N H]]; [injection E as -> ->; discriminate|].
      destruct (I4 _ _ _ _ H G) as (inner & Sl & M). exists inner. split; [|exact M]. rewrite SK; [exact Sl|]. exact (OTH _ _ _ _ N H G).
    - intros j. rewrite served_quiet by exact Q. apply I5.
    - intros h s1 H. apply SL in H as [[G ->]|[G H]]; [left; reflexivity|]. destruct (I6 _ _ H) as [->|(He & j & qj & cj & Cj & Gj)]; [auto|].
      right. split; [exact He|]. exists j, qj, cj. split; [|exact Gj]. rewrite nth_upd_ne; [exact Cj|]. intros <-. apply G. congruence.
    - intros a b qa ca qb cb h1 Ha Hb Ga Gb.
      apply nth_upd_inv in Ha as [[-> E]|[Na Ha]]; [injection E as -> ->; discriminate|].
      apply nth_upd_inv in Hb as [[-> E]|[Nb Hb]]; [injection E as -> ->; discriminate|].
      exact (I7 _ _ _ _ _ _ h1 Ha Hb Ga Gb).
  Qed.

  Lemma wire_ok_fresh i q : wire_ok q (new_wire i) [].
  Proof. split; [exists (framed q); reflexivity|]. split; [left; reflexivity|]. split; [apply Nat.le_refl|]. split; [apply Nat.le_refl|]. split; reflexivity. Qed.

  Lemma inv_step x y : inv x -> cstep proc x y -> inv y.
  Proof.
    intros I H. destruct H.
    - (* invoke *)
      destruct I as [I1 I2 I3 I4 I5 I6 I7]; cbn [calls slots wires srv hist] in *. split; cbn [calls slots wires srv hist].
      + intros j qj. rewrite in_app_iff. cbn [In]. split.
        * intros [H|[E|[]]]; [apply I1 in H as [c H]; exists c; now apply nth_app_old|]. injection E as <- <-. exists CWaiting. apply nth_app_new.
        * intros [c H]. apply nth_app_inv in H as [[_ H]|[-> E]]; [left; apply I1; eauto|right; left]. now injection E as -> ->.
      + intros k w W. destruct (I2 _ _ W) as (q1 & c1 & C1 & C2 & C3). exists q1, c1. rewrite served_quiet by reflexivity. split; [now apply nth_app_old|auto].
      + exact I3.
      + intros j qj c h C G. apply nth_app_inv in C as [[_ C]|[-> E]]; [exact (I4 _ _ _ _ C G)|]. injection E as -> ->. discriminate.
      + intros j. rewrite served_quiet by reflexivity. apply I5.
      + intros h s1 Sl. destruct (I6 _ _ Sl) as [->|(He & j & qj & cj & Cj & Gj)]; [auto|]. right. split; [exact He|]. exists j, qj, cj. split; [now apply nth_app_old|exact Gj].
      + intros a b qa ca qb cb h1 Ha Hb Ga Gb.
        apply nth_app_inv in Ha as [[_ Ha]|[-> E]]; [|injection E as -> ->; discriminate].
        apply nth_app_inv in Hb as [[_ Hb]|[-> E]]; [|injection E as -> ->; discriminate]. exact (I7 _ _ _ _ _ _ h1 Ha Hb Ga Gb).
    - (* get *)
      pose proof (nth_lt _ _ _ H) as Li. pose proof (nth_lt _ _ _ H0) as Lh.
      destruct I as [I1 I2 I3 I4 I5 I6 I7]; cbn [calls slots wires srv hist] in *.
      assert (inner = None) as ->.
      { destruct (I6 _ _ H0) as [E|[E _]]; [now injection E|discriminate]. }
      assert (NH : forall j qj cj h', nth_error cs j = Some (PCall qj cj) -> guard_of cj = Some h' -> h' <> h).
      { intros j qj cj h' C G ->. destruct (I4 _ _ _ _ C G) as (inner & Sl & _). rewrite H0 in Sl. discriminate. }
      split; cbn [calls slots wires srv hist].
      + intros j qj. rewrite I1. split; intros [c C].
        * destruct (Nat.eq_dec i j) as [<-|N]; [exists (COpen h); rewrite nth_upd by exact Li; congruence|exists c; now rewrite nth_upd_ne].
        * apply nth_upd_inv in C as [[-> E]|[N C]]; [injection E as -> ->; eauto|eauto].
      + intros k w W. destruct (I2 _ _ W) as (q1 & c1 & C1 & C2 & C3). assert (N : i <> w_by w).
        { intros E. rewrite <- E, H in C1. injection C1 as <- <-. destruct C3 as [C3|(h1 & G1 & _)]; discriminate. }
        exists q1, c1. rewrite nth_upd_ne by exact N. split; [exact C1|]. split; [exact C2|]. destruct C3 as [->|(h1 & G1 & S1)]; [auto|right]. exists h1. split; [exact G1|].
        rewrite nth_upd_ne; [exact S1|]. exact (not_eq_sym (NH _ _ _ _ C1 G1)).
      + exact I3.
      + intros j qj c h1 C G. apply nth_upd_inv in C as [[-> E]|[N C]].
        * injection E as -> ->. injection G as <-. exists None. rewrite nth_upd by exact Lh. auto.
        * destruct (I4 _ _ _ _ C G) as (inner & Sl & M). exists inner. split; [|exact M]. rewrite nth_upd_ne; [exact Sl|]. exact (not_eq_sym (NH _ _ _ _ C G)).
      + exact I5.
      + intros h1 s1 Sl. apply nth_upd_inv in Sl as [[-> ->]|[N Sl]].
        * right. split; [reflexivity|]. exists i, q, (COpen h). rewrite nth_upd by exact Li. auto.
        * destruct (I6 _ _ Sl) as [->|(He & j & qj & cj & Cj & Gj)]; [auto|]. right. split; [exact He|]. exists j, qj, cj. split; [|exact Gj].
          rewrite nth_upd_ne; [exact Cj|]. intros <-. rewrite H in Cj. injection Cj as <- <-. discriminate.
      + intros a b qa ca qb cb h1 Ha Hb Ga Gb.
        apply nth_upd_inv in Ha as [[-> Ea]|[Na Ha]]; apply nth_upd_inv in Hb as [[-> Eb]|[Nb Hb]].
        * reflexivity.
        * injection Ea as -> ->. injection Ga as <-. exfalso. exact (NH _ _ _ _ Hb Gb eq_refl).
        * injection Eb as -> ->. injection Gb as <-. exfalso. exact (NH _ _ _ _ Ha Ga eq_refl).
        * exact (I7 _ _ _ _ _ _ h1 Ha Hb Ga Gb).
    - (* connect *)
      pose proof (nth_lt _ _ _ H0) as Lh. destruct I as [I1 I2 I3 I4 I5 I6 I7]; cbn [calls slots wires srv hist] in *.
      assert (NB : forall k w, nth_error ws k = Some w -> w_by w <> i).
      { intros k w W E. destruct (I2 _ _ W) as (q1 & c1 & C1 & _ & C3). rewrite E, H in C1. injection C1 as <- <-.
        destruct C3 as [C3|(h1 & G1 & S1)]; [discriminate|]. injection G1 as <-. rewrite H0 in S1. discriminate. }
      split; cbn [calls slots wires srv hist].
      + exact I1.
      + intros k w W. apply nth_app_inv in W as [[_ W]|[-> ->]].
        * destruct (I2 _ _ W) as (q1 & c1 & C1 & C2 & C3). exists q1, c1. split; [exact C1|]. split; [exact C2|]. destruct C3 as [->|(h1 & G1 & S1)]; [auto|right].
          exists h1. split; [exact G1|]. rewrite nth_upd_ne; [exact S1|]. intros <-. rewrite H0 in S1. discriminate.
        * exists q, (COpen h). split; [exact H|]. split.
          -- cbn [w_by new_wire]. replace (served i hi) with (@nil (bytes * option bytes)); [apply wire_ok_fresh|].
             destruct (served i hi) eqn:E; [reflexivity|]. exfalso. destruct (I5 i) as (k & w & W & B); [congruence|]. exact (NB _ _ W B).
          -- right. exists h. rewrite nth_upd by exact Lh. auto.
      + intros k1 k2 w1 w2 W1 W2 E. apply nth_app_inv in W1 as [[L1 W1]|[-> ->]]; apply nth_app_inv in W2 as [[L2 W2]|[-> ->]].
        * exact (I3 _ _ _ _ W1 W2 E).
        * exfalso. exact (NB _ _ W1 E).
        * exfalso. exact (NB _ _ W2 (eq_sym E)).
        * reflexivity.
      + intros j qj c h1 C G. destruct (Nat.eq_dec h h1) as [<-|N].
        * assert (j = i) as -> by exact (I7 _ _ _ _ _ _ h C H G eq_refl). rewrite H in C. injection C as <- <-.
          exists (Some (length ws)). rewrite nth_upd by exact Lh. split; [reflexivity|]. exists (new_wire i). split; [apply nth_app_new|]. split; [reflexivity|]. split; reflexivity.
        * destruct (I4 _ _ _ _ C G) as (inner & Sl & M). exists inner. rewrite nth_upd_ne by exact N. split; [exact Sl|].
          destruct inner as [k|]; [|exact M]. destruct M as (w & W & M). exists w. split; [now apply nth_app_old|exact M].
      + intros j N. destruct (I5 j N) as (k & w & W & B). exists k, w. split; [now apply nth_app_old|exact B].
      + intros h1 s1 Sl. apply nth_upd_inv in Sl as [[-> ->]|[N Sl]]; [|exact (I6 _ _ Sl)]. right. split; [reflexivity|]. exists i, q, (COpen h). auto.
      + exact I7.
    - (* begin *)
      destruct (i_call _ I _ _ _ h H eq_refl) as (inner & Sl & M). cbn [calls slots wires srv hist] in *. rewrite H0 in Sl. injection Sl as <-. destruct M as (w & W & B & St).
      assert (E : ws = upd k w ws).
      { clear -W. revert k W; induction ws as [|v ws IH]; intros [|k] W; cbn in *; [discriminate|discriminate|congruence|]. f_equal. now apply IH. }
      rewrite E. eapply (inv_client cs sl ws s hi i q (COpen h) _ h k w w); try eassumption; try reflexivity.
      intros [U Z] OK. split; [exact OK|]. split; [exact H1|]. rewrite U. split; [reflexivity|exact Z].
    - (* write *)
      eapply (inv_client cs sl ws s hi i q (CSending h rest) _ h k w); try eassumption; try reflexivity.
      intros (F & U & Z) (P & _ & T & Se & R). cbn [stage_ok w_up w_seen w_taken w_down w_task w_by]. split; [|split; [exact F|]; split; [rewrite <- app_assoc, firstn_skipn; exact U|exact Z]].
      split; [exists (skipn n rest); cbn [w_up]; rewrite <- app_assoc, firstn_skipn; now symmetry|]. split; [right; exact F|]. cbn [w_up w_taken w_seen w_down].
      split; [rewrite app_length; lia|]. split; [exact Se|].
      destruct (served (w_by w) hi) as [|[q' oa] [|? ?]]; [|exact R|exact R]. destruct R as [Dn R]. split; [exact Dn|]. cbn [w_task w_taken w_up] in *.
      destruct (w_task w) as [got|p|r|]; try exact R. rewrite firstn_stable by exact T. exact R.
    - (* sent *)
      destruct (i_call _ I _ _ _ h H eq_refl) as (inner & Sl & M). cbn [calls slots wires srv hist] in *. destruct inner as [k|]; [|discriminate]. destruct M as (w & W & B & St).
      assert (E : ws = upd k w ws).
      { clear -W. revert k W; induction ws as [|v ws IH]; intros [|k] W; cbn in *; [discriminate|discriminate|congruence|]. f_equal. now apply IH. }
      rewrite E. eapply (inv_client cs sl ws s hi i q (CSending h []) _ h k w w); try eassumption; try reflexivity.
      intros (F & U & Z) OK. split; [exact OK|]. rewrite app_nil_r in U. split; [exact F|]. split; [exact U|]. now rewrite Z.
    - (* read *)
      eapply (inv_client cs sl ws s hi i q (CReceiving h got) _ h k w); try eassumption; try reflexivity.
      intros (F & U & Z) (P & D & T & Se & R). cbn [stage_ok w_up w_seen w_taken w_down w_task w_by]. split; [|split; [exact F|]; split; [exact U|]; rewrite Z; apply take_more].
      split; [exact P|]. split; [exact D|]. split; [exact T|]. split; [cbn [w_seen w_down]; lia|]. destruct (served (w_by w) hi) as [|[q' oa] [|? ?]]; exact R.
    - (* return *)
      exact (inv_end cs sl ws s hi i q (CReceiving h got) (Return i a) I H eq_refl ltac:(discriminate)).
    - (* fail *)
      exact (inv_end cs sl ws s hi i q c (Fail i) I H eq_refl ltac:(discriminate)).
    - (* expand *)
      destruct I as [I1 I2 I3 I4 I5 I6 I7]; cbn [calls slots wires srv hist] in *. split; cbn [calls slots wires srv hist]; try assumption.
      + intros k w W. destruct (I2 _ _ W) as (q1 & c1 & C1 & C2 & C3). exists q1, c1. split; [exact C1|]. split; [exact C2|]. destruct C3 as [->|(h1 & G1 & S1)]; [auto|right].
        exists h1. split; [exact G1|now apply nth_app_old].
      + intros j qj c h C G. destruct (I4 _ _ _ _ C G) as (inner & Sl & M). exists inner. split; [now apply nth_app_old|exact M].
      + intros h s1 Sl. destruct (Nat.lt_ge_cases h (length sl)) as [L|L]; [rewrite nth_error_app1 in Sl by exact L; exact (I6 _ _ Sl)|].
        rewrite nth_error_app2 in Sl by exact L. apply nth_error_In, repeat_spec in Sl. auto.
    - (* task reads *)
      eapply (inv_task cs sl ws s s hi hi k w); try eassumption; try reflexivity; [auto|].
      intros q (P & D & T & Se & R). split; [exact P|]. split; [exact D|]. cbn [w_taken w_up w_seen w_down]. split; [lia|]. split; [exact Se|].
      destruct (served (w_by w) hi) as [|[q' oa] [|? ?]]; [| |exact R].
      + destruct R as [Dn R]. split; [exact Dn|]. rewrite H0 in R. cbn [w_task w_taken w_up]. rewrite R. apply take_more.
      + destruct R as (-> & Tk & R). assert (n = 0) as ->.
        { destruct P as (c & P). apply (f_equal (@length _)) in P. rewrite app_length in P. lia. }
        split; [reflexivity|]. cbn [w_taken w_task w_down firstn]. split; [lia|]. rewrite H0 in R. destruct oa as [a|]; [|destruct R; discriminate].
        destruct R as (-> & R). split; [reflexivity|exact R].
    - (* task has a request *)
      eapply (inv_task cs sl ws s s hi hi k w); try eassumption; try reflexivity; [auto|].
      intros q (P & D & T & Se & R). split; [exact P|]. split; [exact D|]. cbn [w_taken w_up w_seen w_down]. split; [exact T|]. split; [exact Se|].
      destruct (served (w_by w) hi) as [|[q' oa] [|? ?]]; [| |exact R].
      + destruct R as [Dn R]. split; [exact Dn|]. rewrite H0 in R. cbn [w_task w_taken]. destruct P as (c & P).
        destruct D as [D|D]; [exfalso; rewrite D, firstn_nil in R; subst got; rewrite complete_nil in H1; discriminate|].
        assert (G : framed q = got ++ skipn (w_taken w) (w_up w) ++ c) by (rewrite R, app_assoc, firstn_skipn; exact P).
        destruct (complete_prefix _ _ _ _ D G H1) as [-> G2]. split; [reflexivity|]. apply (f_equal (@length _)) in G2. rewrite R, firstn_length in G2. lia.
      + destruct R as (-> & Tk & R). rewrite H0 in R. exfalso. destruct oa as [a|]; [|destruct R; discriminate]. destruct R as (-> & _). rewrite complete_nil in H1. discriminate.
    - (* processed *)
      eapply (inv_task cs sl ws s s' hi _ k w); try eassumption; try reflexivity; [right; eauto|].
      intros q (P & D & T & Se & R). rewrite served_same. split; [exact P|]. split; [exact D|]. cbn [w_taken w_up w_seen w_down]. split; [exact T|]. split; [exact Se|].
      destruct (served (w_by w) hi) as [|[q' oa] [|? ?]]; cbn [app].
      + destruct R as [Dn R]. rewrite H0 in R. destruct R as [-> Tk]. split; [reflexivity|]. cbn [w_taken w_task w_down]. split; [exact Tk|].
        destruct ((MAX_PAYLOAD_SIZE <? lenN a)%N) eqn:Sm; [left; exact Dn|]. split; [exact Sm|]. rewrite Dn. reflexivity.
      + destruct R as (_ & _ & R). rewrite H0 in R. destruct oa; [exact R|destruct R; discriminate].
      + exact R.
    - (* died *)
      eapply (inv_task cs sl ws s s' hi _ k w); try eassumption; try reflexivity; [right; eauto|].
      intros q (P & D & T & Se & R). rewrite served_same. split; [exact P|]. split; [exact D|]. cbn [w_taken w_up w_seen w_down]. split; [exact T|]. split; [exact Se|].
      destruct (served (w_by w) hi) as [|[q' oa] [|? ?]]; cbn [app].
      + destruct R as [Dn R]. rewrite H0 in R. destruct R as [-> Tk]. split; [reflexivity|]. cbn [w_taken w_task w_down]. split; [exact Tk|]. split; [reflexivity|exact Dn].
      + destruct R as (_ & _ & R). rewrite H0 in R. destruct oa; [exact R|destruct R; discriminate].
      + exact R.
    - (* task writes *)
      eapply (inv_task cs sl ws s s hi hi k w); try eassumption; try reflexivity; [|auto|].
      { intros m _ L. cbn [w_down]. now apply firstn_stable. }
      intros q (P & D & T & Se & R). split; [exact P|]. split; [exact D|]. cbn [w_taken w_up w_seen w_down]. split; [exact T|]. split; [rewrite app_length; lia|].
      destruct (served (w_by w) hi) as [|[q' oa] [|? ?]]; [|
        |exact R].
      + destruct R as [Dn R]. rewrite H0 in R. destruct R.
      + destruct R as (-> & Tk & R). split; [reflexivity|]. split; [exact Tk|]. rewrite H0 in R. destruct oa as [a|]; [|destruct R; discriminate].
        cbn [w_task w_down]. destruct R as [Sm R]. split; [exact Sm|]. rewrite <- app_assoc, firstn_skipn. exact R.
    - (* task has sent *)
      eapply (inv_task cs sl ws s s hi hi k w); try eassumption; try reflexivity; [auto|].
      intros q (P & D & T & Se & R). split; [exact P|]. split; [exact D|]. cbn [w_taken w_up w_seen w_down]. split; [exact T|]. split; [exact Se|].
      destruct (served (w_by w) hi) as [|[q' oa] [|? ?]]; [| |exact R].
      + destruct R as [Dn R]. rewrite H0 in R. destruct R.
      + destruct R as (-> & Tk & R). split; [reflexivity|]. split; [exact Tk|]. rewrite H0 in R. destruct oa as [a|]; [|destruct R; discriminate].
        cbn [w_task w_down]. destruct R as [Sm R]. split; [reflexivity|]. split; [exact Sm|]. exists []. now symmetry.
    - (* closed *)
      eapply (inv_task cs sl ws s s hi hi k w); try eassumption; try reflexivity; [auto|].
      intros q (P & D & T & Se & R). split; [exact P|]. split; [exact D|]. cbn [w_taken w_up w_seen w_down]. split; [exact T|]. split; [exact Se|].
      destruct (served (w_by w) hi) as [|[q' oa] [|? ?]]; [| |exact R].
      + destruct R as [Dn R]. split; [exact Dn|exact Logic.I].
      + destruct R as (-> & Tk & R). split; [reflexivity|]. split; [exact Tk|]. cbn [w_task w_down]. destruct oa as [a|].
        * destruct (w_task w); [destruct R as (_ & Sm & R); auto|destruct R|destruct R as [Sm R]; right; split; [exact Sm|]; eexists; symmetry; exact R|exact R].
        * split; [reflexivity|]. apply R.
    - (* another client *)
      destruct I as [I1 I2 I3 I4 I5 I6 I7]; cbn [calls slots wires srv hist] in *. split; cbn [calls slots wires srv hist]; try assumption.
      + intros i p. rewrite <- I1, in_app_iff. cbn [In]. split; [intros [E|[E|[]]]; [exact E|discriminate]|auto].
      + intros k w W. destruct (I2 _ _ W) as (q1 & c1 & C1 & C2 & C3). exists q1, c1. rewrite served_quiet by reflexivity. auto.
      + intros i. rewrite served_quiet by reflexivity. apply I5.
  Qed.
  Lemma inv_reach n s0 x : creach proc n s0 x -> inv x.
  Proof. induction 1; [apply inv_init|eapply inv_step; eassumption]. Qed.

  (** *** The history *)
  Record hinv (hi : list event) : Prop := {
    h_serve : forall p i q a, nth_error hi p = Some (Serve i q a) -> exists v, v < p /\ nth_error hi v = Some (Invoke i q);
    h_once : forall p i q a p' q' a', nth_error hi p = Some (Serve i q a) -> nth_error hi p' = Some (Serve i q' a') -> p = p';
    h_return : forall r i a, nth_error hi r = Some (Return i a) -> exists p q, p < r /\ nth_error hi p = Some (Serve i q (Some a));
    h_invoke : forall v i q v' q', nth_error hi v = Some (Invoke i q) -> nth_error hi v' = Some (Invoke i q') -> v = v'
  }.
  Lemma served_In i l q a : In (q, a) (served i l) <-> In (Serve i q a) l.
  Proof.
    unfold served. rewrite in_flat_map. split.
    - intros (e & E & H). destruct e as [j p|j p b|p b|j b|j]; cbn in H; try contradiction. destruct (Nat.eqb_spec j i) as [->|]; [|contradiction].
      destruct H as [H|[]]. injection H as -> ->. exact E.
    - intros H. exists (Serve i q a). split; [exact H|]. rewrite Nat.eqb_refl. left. reflexivity.
  Qed.
  Lemma hinv_app hi e : hinv hi ->
    match e with
    | Invoke i q => forall q', ~ In (Invoke i q') hi
    | Serve i q a => In (Invoke i q) hi /\ served i hi = []
    | Return i a => exists q, In (Serve i q (Some a)) hi
    | _ => True
    end -> hinv (hi ++ [e]).
  Proof.
    intros [H1 H2 H3 H4] X. split.
    - intros p i q a H. apply nth_app_inv in H as [[L H]|[-> <-]].
      + destruct (H1 _ _ _ _ H) as (v & Lv & V). exists v. split; [exact Lv|now apply nth_app_old].
      + destruct X as [X _]. apply In_nth_error in X as [v V]. exists v. split; [exact (nth_lt _ _ _ V)|now apply nth_app_old].
    - intros p i q a p' q' a' H H'. apply nth_app_inv in H as [[L H]|[-> E]]; apply nth_app_inv in H' as [[L' H']|[-> E']].
      + exact (H2 _ _ _ _ _ _ _ H H').
      + exfalso. subst e. destruct X as [_ X]. apply nth_error_In, served_In in H. rewrite X in H. destruct H.
      + exfalso. subst e. destruct X as [_ X]. apply nth_error_In, served_In in H'. rewrite X in H'. destruct H'.
      + reflexivity.
    - intros r i a H. apply nth_app_inv in H as [[L H]|[-> <-]].
      + destruct (H3 _ _ _ H) as (p & q & Lp & P). exists p, q. split; [exact Lp|now apply nth_app_old].
      + destruct X as [q X]. apply In_nth_error in X as [p P]. exists p, q. split; [exact (nth_lt _ _ _ P)|now apply nth_app_old].
    - intros v i q v' q' H H'. apply nth_app_inv in H as [[L H]|[-> E]]; apply nth_app_inv in H' as [[L' H']|[-> E']].
      + exact (H4 _ _ _ _ _ H H').
      + exfalso. subst e. apply nth_error_In in H. exact (X _ H).
      + exfalso. subst e. apply nth_error_In in H'. exact (X _ H').
      + reflexivity.
  Qed.
  Lemma about_to_serve x k w p : inv x -> nth_error (wires x) k = Some w -> w_task w = TProcess p ->
    In (Invoke (w_by w) p) (hist x) /\ served (w_by w) (hist x) = [].
  Proof.
    intros I W T. destruct (i_wire _ I _ _ W) as (q & c & C & OK & _). destruct OK as (_ & _ & _ & _ & R). rewrite (i_inv _ I).
    destruct (served (w_by w) (hist x)) as [|[q' oa] [|? ?]]; [| |destruct R].
    - destruct R as [_ R]. rewrite T in R. destruct R as [-> _]. eauto.
    - destruct R as (_ & _ & R). rewrite T in R. destruct oa; [destruct R|destruct R; discriminate].
  Qed.
  Lemma about_to_return x i q h got a : inv x -> nth_error (calls x) i = Some (PCall q (CReceiving h got)) -> complete got = Some a ->
    In (Serve i q (Some a)) (hist x).
  Proof.
    intros I C Co. destruct (i_call _ I _ _ _ h C eq_refl) as (inner & Sl & M). destruct inner as [k|]; [|discriminate].
    destruct M as (w & W & B & (F & U & G)). destruct (i_wire _ I _ _ W) as (q1 & c1 & C1 & OK & _). rewrite B in *. rewrite C in C1. injection C1 as <- <-.
    destruct OK as (_ & _ & _ & Ls & R). apply served_In.
    assert (NN : w_down w <> []). { intros E. rewrite E, firstn_nil in G. subst got. rewrite complete_nil in Co. discriminate. }
    assert (PR : forall b, small b -> pre (w_down w) (framed b) -> b = a).
    { intros b Sm (c & P). assert (E : framed b = got ++ skipn (w_seen w) (w_down w) ++ c) by (rewrite G, app_assoc, firstn_skipn; exact P).
      destruct (complete_prefix _ _ _ _ Sm E Co) as [E' _]. now symmetry. }
    destruct (served i (hist x)) as [|[q' oa] [|? ?]]; [|
      |destruct R].
    - exfalso. apply NN. apply R.
    - destruct R as (-> & _ & R). left. destruct oa as [b|]; [|exfalso; apply NN; apply R]. f_equal. f_equal. symmetry. symmetry.
      destruct (w_task w); [destruct R as (_ & Sm & R); exact (PR _ Sm R)|destruct R|destruct R as [Sm R]; apply PR; [exact Sm|eexists; symmetry; exact R]|].
      destruct R as [R|[Sm R]]; [contradiction|exact (PR _ Sm R)].
  Qed.
  Lemma hinv_reach n s0 x : creach proc n s0 x -> hinv (hist x).
  Proof.
    intros R. induction R as [|x y R IH H].
    { split; cbn; intros [|p]; discriminate. }
    pose proof (inv_reach _ _ _ R) as I. destruct H; cbn [hist] in *; try exact IH; apply hinv_app; try exact IH; try exact Logic.I.
    - intros q' N. apply (i_inv _ I) in N as [c N]. cbn [calls] in N. apply nth_lt in N. lia.
    - exists q. exact (about_to_return _ _ _ _ _ _ I H H0).
    - exact (about_to_serve _ _ _ _ I H H0).
    - exact (about_to_serve _ _ _ _ I H H0).
  Qed.
  Lemma processed_reach n s0 x : creach proc n s0 x -> processed proc s0 (observed x) (srv x).
  Proof.
    intros R. induction R as [|x y R IH H]; [constructor|]. unfold observed in *.
    destruct H; cbn [hist srv] in *; rewrite ?map_app; cbn [map observe]; try exact IH; try (econstructor; eassumption).
  Qed.
End Inv.
