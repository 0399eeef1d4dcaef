(** The field with 256 elements used for secret sharing.
    /repo/src/qos_crypto/src/shamir.rs:2,24-27,37-40 uses [vsss_rs::Gf256]; the
    crate (vsss-rs 5.4.0) is not in /repo.  The arithmetic modelled here is the
    AES field (reduction polynomial 0x11b), which the vectors of shamir.rs:87-136
    pin down (checked in PropsShamir.v).  Elements are bytes. *)
From Verif Require Import Base.
Local Open Scope N_scope.

(** Multiplication by x modulo x^8+x^4+x^3+x+1. *)
Definition xt (a : N) : N := N.lxor (N.land (N.double a) 255) (if N.testbit a 7 then 27 else 0).
(** Shift-and-add multiplication. *)
Fixpoint peasant (i : nat) (a b r : N) : N :=
  match i with
  | O => r
  | S i' => peasant i' (xt a) (N.div2 b) (if N.odd b then N.lxor r a else r)
  end.
Definition mulN (a b : N) : N := peasant 8 a b 0.

Definition gzero : byte := x00.
Definition gone : byte := x01.
Definition gadd (a b : byte) : byte := n2b (N.lxor (b2n a) (b2n b)).
Definition gopp (a : byte) : byte := a.
Definition gsub (a b : byte) : byte := gadd a (gopp b).
Definition gmul (a b : byte) : byte := n2b (mulN (b2n a) (b2n b)).
(** Inverse as the 254th power (square and multiply); the inverse of 0 is 0. *)
Definition ginv (a : byte) : byte :=
  let p1 := gmul a a in let p2 := gmul p1 p1 in let p3 := gmul p2 p2 in
  let p4 := gmul p3 p3 in let p5 := gmul p4 p4 in let p6 := gmul p5 p5 in
  let p7 := gmul p6 p6 in
  gmul p1 (gmul p2 (gmul p3 (gmul p4 (gmul p5 (gmul p6 p7))))).

(** ** Linearity *)
Lemma xt_lin a b : xt (N.lxor a b) = N.lxor (xt a) (xt b).
Proof.
  unfold xt.
  assert (D : forall x, N.double x = N.shiftl x 1) by (intros; now rewrite N.shiftl_1_l || (rewrite N.shiftl_mul_pow2, N.double_spec; lia)).
  rewrite !D, N.shiftl_lxor, N.lxor_spec.
  assert (L : forall x y, N.land (N.lxor x y) 255 = N.lxor (N.land x 255) (N.land y 255)).
  { intros. apply N.bits_inj. intros n. rewrite ?N.land_spec, ?N.lxor_spec, ?N.land_spec.
    destruct (N.testbit x n), (N.testbit y n), (N.testbit 255 n); reflexivity. }
  rewrite L. generalize (N.land (N.shiftl a 1) 255) (N.land (N.shiftl b 1) 255). intros u v.
  apply N.bits_inj. intros n. destruct (N.testbit a 7), (N.testbit b 7); cbn [xorb]; rewrite ?N.lxor_spec;
    destruct (N.testbit u n), (N.testbit v n), (N.testbit 27 n), (N.testbit 0 n) eqn:Z; try reflexivity; rewrite N.bits_0 in Z; discriminate.
Qed.

Ltac xor_tac := apply N.bits_inj; intros ?n; rewrite ?N.lxor_spec;
  repeat match goal with |- context [N.testbit ?x ?n] => generalize (N.testbit x n); intro end;
  repeat match goal with b : bool |- _ => destruct b; try reflexivity end.

Lemma peasant_lin_l i : forall a a' b r r', peasant i (N.lxor a a') b (N.lxor r r') = N.lxor (peasant i a b r) (peasant i a' b r').
Proof.
  induction i as [|i IH]; intros; cbn [peasant]; [reflexivity|]. rewrite xt_lin.
  destruct (N.odd b); [|apply IH]. rewrite <- IH. f_equal. xor_tac.
Qed.
Lemma odd_lxor a b : N.odd (N.lxor a b) = xorb (N.odd a) (N.odd b).
Proof. rewrite <- !N.bit0_odd. apply N.lxor_spec. Qed.
Lemma div2_lxor a b : N.div2 (N.lxor a b) = N.lxor (N.div2 a) (N.div2 b).
Proof. rewrite !N.div2_spec. apply N.shiftr_lxor. Qed.
Lemma peasant_lin_r i : forall a b b' r r', peasant i a (N.lxor b b') (N.lxor r r') = N.lxor (peasant i a b r) (peasant i a b' r').
Proof.
  induction i as [|i IH]; intros; cbn [peasant]; [reflexivity|]. rewrite odd_lxor, div2_lxor, <- IH. f_equal.
  destruct (N.odd b), (N.odd b'); cbn [xorb]; xor_tac.
Qed.
Lemma mulN_lin_l a a' b : mulN (N.lxor a a') b = N.lxor (mulN a b) (mulN a' b).
Proof. unfold mulN. rewrite <- peasant_lin_l. reflexivity. Qed.
Lemma mulN_lin_r a b b' : mulN a (N.lxor b b') = N.lxor (mulN a b) (mulN a b').
Proof. unfold mulN. rewrite <- peasant_lin_r. reflexivity. Qed.

Definition linear (f : N -> N) : Prop := forall a b, f (N.lxor a b) = N.lxor (f a) (f b).
Lemma linear_0 f : linear f -> f 0 = 0.
Proof. intros H. specialize (H 0 0). rewrite !N.lxor_nilpotent in H. exact H. Qed.
Definition bitsum (a : N) : N :=
  fold_right (fun i acc => N.lxor (if N.testbit a i then 2 ^ i else 0) acc) 0 [0;1;2;3;4;5;6;7].
Definition basis : list N := [1;2;4;8;16;32;64;128].
Lemma below256 (P : N -> bool) : forallb P (map N.of_nat (seq 0 256)) = true -> forall a, a < 256 -> P a = true.
Proof.
  intros H a L. rewrite forallb_forall in H. apply H. apply in_map_iff. exists (N.to_nat a).
  split; [lia|]. apply in_seq. lia.
Qed.
Lemma bitsum_id a : a < 256 -> bitsum a = a.
Proof. intros L. apply N.eqb_eq. revert a L. apply below256. vm_compute. reflexivity. Qed.
Lemma linear_ext f g : linear f -> linear g -> (forall e, In e basis -> f e = g e) -> forall a, a < 256 -> f a = g a.
Proof.
  intros F G B a L. rewrite <- (bitsum_id a L). unfold bitsum. cbn [fold_right].
  repeat (rewrite F, G; f_equal; [destruct (N.testbit a _); [apply B; cbn; tauto | now rewrite !linear_0]|]).
  now rewrite !linear_0.
Qed.

Lemma lt256 a : a < 256 <-> N.shiftr a 8 = 0.
Proof.
  rewrite N.shiftr_div_pow2. change (2 ^ 8) with 256. rewrite N.div_small_iff by lia. reflexivity.
Qed.
Lemma lxor_lt a b : a < 256 -> b < 256 -> N.lxor a b < 256.
Proof. rewrite !lt256, N.shiftr_lxor. intros -> ->. reflexivity. Qed.
Lemma xt_lt a : xt a < 256.
Proof.
  unfold xt. apply lxor_lt.
  - change 255 with (N.ones 8). rewrite N.land_ones. apply N.mod_lt. discriminate.
  - destruct (N.testbit a 7); reflexivity.
Qed.
Lemma peasant_lt i : forall a b r, a < 256 -> r < 256 -> peasant i a b r < 256.
Proof.
  induction i as [|i IH]; intros a b r La Lr; cbn [peasant]; [exact Lr|].
  apply IH; [apply xt_lt|]. destruct (N.odd b); [now apply lxor_lt|exact Lr].
Qed.
Lemma mulN_lt a b : a < 256 -> mulN a b < 256.
Proof. intros. apply peasant_lt; [assumption|reflexivity]. Qed.

Lemma comm_basis : forallb (fun a => forallb (fun b => mulN a b =? mulN b a) basis) basis = true.
Proof. vm_compute. reflexivity. Qed.
Lemma assoc_basis : forallb (fun a => forallb (fun b => forallb (fun c => mulN (mulN a b) c =? mulN a (mulN b c)) basis) basis) basis = true.
Proof. vm_compute. reflexivity. Qed.
Lemma linear_l b : linear (fun a => mulN a b).
Proof. intros x y. apply mulN_lin_l. Qed.
Lemma linear_r a : linear (mulN a).
Proof. intros x y. apply mulN_lin_r. Qed.
Lemma mulN_comm a b : a < 256 -> b < 256 -> mulN a b = mulN b a.
Proof.
  intros La Lb. revert a La. apply (linear_ext (fun a => mulN a b) (mulN b)); [apply linear_l|apply linear_r|].
  intros e He. revert b Lb. apply (linear_ext (mulN e) (fun b => mulN b e)); [apply linear_r|apply linear_l|].
  intros e' He'. pose proof comm_basis as C. rewrite forallb_forall in C. specialize (C e He).
  rewrite forallb_forall in C. specialize (C e' He'). now apply N.eqb_eq.
Qed.
Lemma mulN_assoc a b c : a < 256 -> b < 256 -> c < 256 -> mulN (mulN a b) c = mulN a (mulN b c).
Proof.
  intros La Lb Lc. revert a La. apply (linear_ext (fun a => mulN (mulN a b) c) (fun a => mulN a (mulN b c))).
  { intros x y. now rewrite !mulN_lin_l. } { apply linear_l. }
  intros e1 H1. revert b Lb. apply (linear_ext (fun b => mulN (mulN e1 b) c) (fun b => mulN e1 (mulN b c))).
  { intros x y. now rewrite mulN_lin_r, mulN_lin_l. } { intros x y. now rewrite mulN_lin_l, mulN_lin_r. }
  intros e2 H2. revert c Lc. apply (linear_ext (mulN (mulN e1 e2)) (fun c => mulN e1 (mulN e2 c))).
  { apply linear_r. } { intros x y. now rewrite !mulN_lin_r. }
  intros e3 H3. pose proof assoc_basis as C. rewrite forallb_forall in C. specialize (C e1 H1).
  rewrite forallb_forall in C. specialize (C e2 H2). rewrite forallb_forall in C. specialize (C e3 H3). now apply N.eqb_eq.
Qed.

(** ** The field laws on bytes *)
Lemma b2n_gadd a b : b2n (gadd a b) = N.lxor (b2n a) (b2n b).
Proof. unfold gadd. rewrite b2n_n2b. apply N.mod_small, lxor_lt; apply b2n_lt. Qed.
Lemma b2n_gmul a b : b2n (gmul a b) = mulN (b2n a) (b2n b).
Proof. unfold gmul. rewrite b2n_n2b. apply N.mod_small, mulN_lt, b2n_lt. Qed.
Ltac to_N := apply b2n_inj; rewrite ?b2n_gadd, ?b2n_gmul, ?b2n_gadd, ?b2n_gmul, ?b2n_gadd.
Lemma gadd_comm a b : gadd a b = gadd b a.
Proof. to_N. apply N.lxor_comm. Qed.
Lemma gadd_assoc a b c : gadd a (gadd b c) = gadd (gadd a b) c.
Proof. to_N. symmetry. apply N.lxor_assoc. Qed.
Lemma gadd_0_l a : gadd gzero a = a.
Proof. to_N. apply N.lxor_0_l. Qed.
Lemma gadd_self a : gadd a a = gzero.
Proof. to_N. apply N.lxor_nilpotent. Qed.
Lemma gmul_comm a b : gmul a b = gmul b a.
Proof. to_N. apply mulN_comm; apply b2n_lt. Qed.
Lemma gmul_assoc a b c : gmul a (gmul b c) = gmul (gmul a b) c.
Proof. to_N. symmetry. apply mulN_assoc; apply b2n_lt. Qed.
Lemma gmul_1_l a : gmul gone a = a.
Proof.
  to_N. apply (linear_ext (mulN (b2n gone)) (fun a => a)); [apply linear_r|intros x y; reflexivity| |apply b2n_lt].
  intros e He. unfold basis in He. cbn in He. repeat (destruct He as [<-|He]; [reflexivity|]); contradiction.
Qed.
Lemma gmul_add_l a b c : gmul (gadd a b) c = gadd (gmul a c) (gmul b c).
Proof. to_N. apply mulN_lin_l. Qed.
Lemma g_ring : ring_theory gzero gone gadd gmul gsub gopp (@eq byte).
Proof.
  constructor; auto using gadd_comm, gadd_assoc, gadd_0_l, gmul_comm, gmul_assoc, gmul_1_l, gmul_add_l.
  all: intros; first [reflexivity | apply gadd_self].
Qed.
Lemma ginv_r a : a <> gzero -> gmul a (ginv a) = gone.
Proof.
  intros H. assert (E : (byte_eqb a gzero || byte_eqb (gmul a (ginv a)) gone) = true).
  { pose proof (below256 (fun n => byte_eqb (n2b n) gzero || byte_eqb (gmul (n2b n) (ginv (n2b n))) gone)) as W.
    specialize (W ltac:(vm_compute; reflexivity) (b2n a) (b2n_lt a)). cbv beta in W. rewrite !n2b_b2n in W. exact W. }
  destruct (byte_eqb_spec a gzero); [contradiction|]. destruct (byte_eqb_spec (gmul a (ginv a)) gone); [assumption|discriminate].
Qed.
Lemma gmul_integral a b : gmul a b = gzero -> a = gzero \/ b = gzero.
Proof.
  intros H. destruct (byte_eqb_spec a gzero) as [->|N]; [now left|right].
  rewrite <- (gmul_1_l b), <- (ginv_r a N), (gmul_comm a), <- gmul_assoc, H, gmul_comm.
  apply b2n_inj. rewrite b2n_gmul. apply (linear_0 (fun x => mulN x (b2n (ginv a)))), linear_l.
Qed.
Lemma gsub_zero a b : gsub a b = gzero <-> a = b.
Proof.
  unfold gsub, gopp. split; [|intros ->; apply gadd_self].
  intros H. rewrite <- (gadd_0_l a), <- (gadd_self b), <- gadd_assoc, (gadd_comm b a), H, gadd_comm. apply gadd_0_l.
Qed.
