(** Common vocabulary of the model: bytes, results, little-endian integers.
    Nothing here models a particular function of /repo; it is the shared
    vocabulary used by the files that do. *)
From Coq Require Export List Arith NArith ZArith Lia Bool.
From Coq Require Export Strings.Byte.
From Coq Require Export Strings.String.
Export ListNotations.
Open Scope list_scope.

Notation length := List.length.
Notation concat := List.concat.

Definition bytes := list byte.

(** ASCII literal as bytes. *)
Definition bs (s : string) : bytes := list_byte_of_string s.

(** Rust [Result]. *)
Inductive result (E A : Type) : Type :=
| Ok (a : A)
| Err (e : E).
Arguments Ok {E A} _.
Arguments Err {E A} _.

Definition is_ok {E A} (r : result E A) : bool :=
  match r with Ok _ => true | Err _ => false end.

Definition rbind {E A B} (r : result E A) (f : A -> result E B) : result E B :=
  match r with Ok a => f a | Err e => Err e end.

Definition rmap_err {E E' A} (f : E -> E') (r : result E A) : result E' A :=
  match r with Ok a => Ok a | Err e => Err (f e) end.

Definition obind {A B} (o : option A) (f : A -> option B) : option B :=
  match o with Some a => f a | None => None end.

Notation "'let?' x ':=' a 'in' b" := (obind a (fun x => b))
  (at level 200, x pattern, a at level 100, b at level 200, right associativity).

Definition is_some {A} (o : option A) : bool :=
  match o with Some _ => true | None => false end.

(** ** Byte equality *)
Definition byte_eqb (a b : byte) : bool := Byte.eqb a b.

Lemma byte_eqb_spec a b : reflect (a = b) (byte_eqb a b).
Proof.
  unfold byte_eqb. destruct (Byte.eqb a b) eqn:E; constructor.
  - now apply byte_dec_bl in E.
  - intros ->. rewrite (byte_dec_lb (eq_refl b)) in E. discriminate.
Qed.

Lemma byte_eqb_refl a : byte_eqb a a = true.
Proof. destruct (byte_eqb_spec a a); congruence. Qed.

(** ** List equality from element equality *)
Section ListEqb.
  Context {A : Type} (eqb : A -> A -> bool).
  Fixpoint list_eqb (x y : list A) : bool :=
    match x, y with
    | [], [] => true
    | a :: x', b :: y' => eqb a b && list_eqb x' y'
    | _, _ => false
    end.
  Lemma list_eqb_spec (H : forall a b, reflect (a = b) (eqb a b)) :
    forall x y, reflect (x = y) (list_eqb x y).
  Proof.
    induction x as [|a x IH]; intros [|b y]; cbn; try (constructor; congruence).
    destruct (H a b) as [->|N]; cbn.
    - destruct (IH y) as [->|N]; constructor; congruence.
    - constructor; congruence.
  Qed.
End ListEqb.

Definition bytes_eqb : bytes -> bytes -> bool := list_eqb byte_eqb.

Lemma bytes_eqb_spec x y : reflect (x = y) (bytes_eqb x y).
Proof. apply list_eqb_spec, byte_eqb_spec. Qed.

Lemma bytes_eqb_refl x : bytes_eqb x x = true.
Proof. destruct (bytes_eqb_spec x x); congruence. Qed.

Lemma bytes_eqb_eq x y : bytes_eqb x y = true <-> x = y.
Proof. destruct (bytes_eqb_spec x y); split; congruence. Qed.

Definition bytes_dec (x y : bytes) : {x = y} + {x <> y}.
Proof. destruct (bytes_eqb_spec x y); [left|right]; assumption. Defined.

(** Option equality. *)
Definition option_eqb {A} (eqb : A -> A -> bool) (x y : option A) : bool :=
  match x, y with
  | None, None => true
  | Some a, Some b => eqb a b
  | _, _ => false
  end.

Lemma option_eqb_spec {A} (eqb : A -> A -> bool)
  (H : forall a b, reflect (a = b) (eqb a b)) x y :
  reflect (x = y) (option_eqb eqb x y).
Proof.
  destruct x as [a|], y as [b|]; cbn; try (constructor; congruence).
  destruct (H a b); constructor; congruence.
Qed.

Lemma list_eqb_true {A} (eqb : A -> A -> bool)
  (H : forall a b, eqb a b = true <-> a = b) x y :
  list_eqb eqb x y = true <-> x = y.
Proof.
  revert y; induction x as [|a x IH]; intros [|b y]; cbn; try (split; congruence).
  rewrite andb_true_iff, H, IH. split; [intros [-> ->]; auto | intros E; inversion E; auto].
Qed.

(** ** Membership by boolean equality *)
Definition memb {A} (eqb : A -> A -> bool) (x : A) (l : list A) : bool :=
  existsb (eqb x) l.

Lemma memb_In {A} (eqb : A -> A -> bool) (H : forall a b, eqb a b = true <-> a = b) x l :
  memb eqb x l = true <-> In x l.
Proof.
  unfold memb. rewrite existsb_exists. split.
  - intros (y & Hy & E). apply H in E. now subst.
  - intros Hx. exists x. split; auto. now apply H.
Qed.

(** ** Bytes as numbers *)
Definition b2n (b : byte) : N := Byte.to_N b.
Definition n2b (n : N) : byte :=
  match Byte.of_N (n mod 256) with Some b => b | None => x00 end.

Lemma b2n_lt b : (b2n b < 256)%N.
Proof. unfold b2n. pose proof (Byte.to_N_bounded b). lia. Qed.

Lemma n2b_b2n b : n2b (b2n b) = b.
Proof.
  unfold n2b, b2n. rewrite N.mod_small by (pose proof (Byte.to_N_bounded b); lia).
  now rewrite Byte.of_to_N.
Qed.

Lemma b2n_n2b n : b2n (n2b n) = (n mod 256)%N.
Proof.
  unfold n2b, b2n.
  assert (H : (n mod 256 < 256)%N) by (apply N.mod_lt; lia).
  destruct (Byte.of_N (n mod 256)) as [b|] eqn:E.
  - now apply Byte.to_of_N in E.
  - apply Byte.of_N_None_iff in E. lia.
Qed.

Lemma b2n_inj a b : b2n a = b2n b -> a = b.
Proof. intros H. rewrite <- (n2b_b2n a), <- (n2b_b2n b). now rewrite H. Qed.

(** ** Little-endian fixed-width integers *)
Fixpoint le_enc (k : nat) (x : N) : bytes :=
  match k with
  | O => []
  | S k' => n2b x :: le_enc k' (x / 256)
  end.

Fixpoint le_dec (l : bytes) : N :=
  match l with
  | [] => 0
  | b :: l' => b2n b + 256 * le_dec l'
  end%N.

Definition pow256 (k : nat) : N := (256 ^ N.of_nat k)%N.

Lemma le_enc_length k x : length (le_enc k x) = k.
Proof. revert x; induction k as [|k IH]; intros x; cbn; [reflexivity|now rewrite IH]. Qed.

Lemma pow256_S k : pow256 (S k) = (256 * pow256 k)%N.
Proof. unfold pow256. rewrite Nat2N.inj_succ, N.pow_succ_r'. reflexivity. Qed.

Lemma le_dec_enc k x : (x < pow256 k)%N -> le_dec (le_enc k x) = x.
Proof.
  revert x; induction k as [|k IH]; intros x H.
  - unfold pow256 in H; cbn in *. lia.
  - cbn [le_enc le_dec]. rewrite pow256_S in H.
    rewrite IH by (apply N.div_lt_upper_bound; lia).
    rewrite b2n_n2b. pose proof (N.div_mod x 256). lia.
Qed.

Lemma le_dec_lt l : (le_dec l < pow256 (length l))%N.
Proof.
  induction l as [|b l IH]; cbn [le_dec length].
  - unfold pow256; cbn. lia.
  - rewrite pow256_S. pose proof (b2n_lt b). lia.
Qed.

Lemma le_enc_dec l : le_enc (length l) (le_dec l) = l.
Proof.
  induction l as [|b l IH]; cbn [le_dec le_enc length]; [reflexivity|].
  pose proof (b2n_lt b) as Hb.
  assert (E1 : ((b2n b + 256 * le_dec l) mod 256 = b2n b)%N).
  { rewrite (N.mul_comm 256), N.mod_add by lia. apply N.mod_small; lia. }
  assert (E2 : ((b2n b + 256 * le_dec l) / 256 = le_dec l)%N).
  { rewrite (N.mul_comm 256), N.div_add by lia. rewrite N.div_small by lia. lia. }
  rewrite E2, IH. f_equal. apply b2n_inj. now rewrite b2n_n2b, E1.
Qed.

(** ** Taking a prefix of known length *)
Definition take (k : nat) (l : bytes) : option (bytes * bytes) :=
  if (length l <? k)%nat then None else Some (firstn k l, skipn k l).

Lemma take_app k a r : length a = k -> take k (a ++ r) = Some (a, r).
Proof.
  intros <-. unfold take. rewrite app_length.
  destruct (Nat.ltb_spec (length a + length r) (length a)); [lia|].
  rewrite firstn_app, Nat.sub_diag, firstn_all, skipn_app, Nat.sub_diag, skipn_all. cbn.
  now rewrite app_nil_r.
Qed.

Lemma take_inv k l a r : take k l = Some (a, r) -> l = a ++ r /\ length a = k.
Proof.
  unfold take. destruct (Nat.ltb_spec (length l) k) as [|H]; [discriminate|].
  intros E; inversion E; subst. split; [now rewrite firstn_skipn|].
  rewrite firstn_length. lia.
Qed.

Lemma take_None k l : take k l = None <-> (length l < k)%nat.
Proof.
  unfold take. destruct (Nat.ltb_spec (length l) k); split; intros; try lia; congruence.
Qed.

(** ** Sizes as binary naturals (no unary blow-up in computations) *)
Fixpoint len_acc {A} (l : list A) (acc : N) : N :=
  match l with [] => acc | _ :: l' => len_acc l' (N.succ acc) end.
Definition lenN {A} (l : list A) : N := len_acc l 0.

Lemma len_acc_spec {A} (l : list A) acc : len_acc l acc = (acc + N.of_nat (length l))%N.
Proof. revert acc; induction l as [|a l IH]; intros; cbn; [lia|]. rewrite IH. lia. Qed.

Lemma lenN_length {A} (l : list A) : lenN l = N.of_nat (length l).
Proof. unfold lenN. now rewrite len_acc_spec. Qed.

Lemma lenN_app {A} (a b : list A) : lenN (a ++ b) = (lenN a + lenN b)%N.
Proof. rewrite !lenN_length, app_length. lia. Qed.

(** ** Small list facts *)
Lemma app_inv_length {A} (a b c d : list A) :
  length a = length c -> a ++ b = c ++ d -> a = c /\ b = d.
Proof.
  revert c; induction a as [|x a IH]; intros [|y c]; cbn; intros L E; try discriminate; auto.
  inversion E; subst. destruct (IH c) as [-> ->]; auto.
Qed.

Fixpoint all_prefixes {A} (l : list A) : list (list A) :=
  match l with
  | [] => [[]]
  | x :: l' => [] :: map (cons x) (all_prefixes l')
  end.

Lemma all_prefixes_In {A} (l p : list A) :
  In p (all_prefixes l) <-> exists r, l = p ++ r.
Proof.
  revert p; induction l as [|x l IH]; intros p; cbn.
  - split; [intros [<-|[]]; now exists [] | intros [r E]].
    symmetry in E. apply app_eq_nil in E as [-> _]. now left.
  - rewrite in_map_iff. split.
    + intros [<-|(q & <- & Hq)]; [now exists (x :: l)|].
      apply IH in Hq as [r ->]. now exists r.
    + intros [r E]. destruct p as [|y p]; [now left|]. right.
      inversion E; subst. exists p. split; auto. apply IH. now exists r.
Qed.

(** ** Finite sweeps over all bytes *)
Definition all_bytes : list byte := map (fun k => n2b (N.of_nat k)) (seq 0 256).

Lemma all_bytes_In b : In b all_bytes.
Proof.
  unfold all_bytes. apply in_map_iff. exists (N.to_nat (b2n b)). split.
  - rewrite N2Nat.id. apply n2b_b2n.
  - apply in_seq. pose proof (b2n_lt b). lia.
Qed.

Lemma byte_sweep (P : byte -> bool) : forallb P all_bytes = true -> forall b, P b = true.
Proof. intros H b. rewrite forallb_forall in H. apply H, all_bytes_In. Qed.

Lemma byte_sweep2 (P : byte -> byte -> bool) :
  forallb (fun a => forallb (P a) all_bytes) all_bytes = true -> forall a b, P a b = true.
Proof.
  intros H a b. rewrite forallb_forall in H. specialize (H a (all_bytes_In a)).
  rewrite forallb_forall in H. apply H, all_bytes_In.
Qed.
