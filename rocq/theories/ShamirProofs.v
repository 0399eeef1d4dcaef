(** Polynomials over the field of Gf256.v; interpolation. *)
From Verif Require Import Base Gf256 Shamir.
From Coq Require Import Permutation.
Local Open Scope N_scope.
Add Ring g256 : g_ring.
#[local] Arguments gadd : simpl never.
#[local] Arguments gmul : simpl never.
#[local] Arguments gsub : simpl never.
#[local] Arguments gzero : simpl never.
#[local] Arguments gone : simpl never.

Lemma gmul_0_r a : gmul a gzero = gzero.
Proof. ring. Qed.
Definition zeros (p : list byte) : Prop := Forall (fun c => c = gzero) p.
Lemma zeros_eval p x : zeros p -> peval p x = gzero.
Proof. unfold zeros. induction 1 as [|c p -> H IH]; cbn; [reflexivity|]. fold (peval p x). rewrite IH. ring. Qed.
Lemma peval_cons c p x : peval (c :: p) x = gadd c (gmul x (peval p x)).
Proof. reflexivity. Qed.

(** Quotient by (X - r). *)
Fixpoint quot (r : byte) (p : list byte) : list byte :=
  match p with
  | [] => []
  | c :: p' => match p' with [] => [] | _ :: _ => peval p' r :: quot r p' end
  end.
Lemma quot_cons r c d p : quot r (c :: d :: p) = peval (d :: p) r :: quot r (d :: p).
Proof. reflexivity. Qed.
Lemma quot_length r p : length (quot r p) = pred (length p).
Proof. induction p as [|c [|d p] IH]; [reflexivity..|]. rewrite quot_cons. cbn [length] in *. now rewrite IH. Qed.
Lemma quot_eval r x p : peval p x = gadd (gmul (gsub x r) (peval (quot r p) x)) (peval p r).
Proof.
  induction p as [|c [|d p] IH].
  - cbn. ring.
  - cbn [quot]. rewrite !peval_cons. change (peval [] ?z) with gzero. ring.
  - rewrite quot_cons, (peval_cons c (d :: p) x), IH, !(peval_cons c), (peval_cons (peval (d :: p) r)). ring.
Qed.
Lemma quot_zeros r p : zeros (quot r p) -> peval p r = gzero -> zeros p.
Proof.
  unfold zeros. induction p as [|c [|d p] IH]; intros Q E.
  - constructor.
  - constructor; [|constructor]. rewrite peval_cons in E. change (peval [] r) with gzero in E. rewrite <- E. ring.
  - rewrite quot_cons in Q. pose proof (Forall_inv Q) as Q1. pose proof (Forall_inv_tail Q) as Q2. cbv beta in Q1. specialize (IH Q2 Q1).
    constructor; [|exact IH]. rewrite peval_cons, Q1 in E. rewrite <- E. ring.
Qed.
(** A polynomial with as many distinct roots as coefficients is zero. *)
Lemma roots xs : forall p, NoDup xs -> (length p <= length xs)%nat -> (forall x, In x xs -> peval p x = gzero) -> zeros p.
Proof.
  induction xs as [|r xs IH]; intros p ND L R.
  - destruct p; [constructor|cbn in L; lia].
  - inversion ND as [|? ? NI ND']; subst. apply (quot_zeros r); [|apply R; now left].
    apply IH; [assumption|rewrite quot_length; cbn in L; lia|].
    intros x Hx. pose proof (R x (or_intror Hx)) as E. rewrite (quot_eval r x p), (R r (or_introl eq_refl)) in E.
    replace (gadd (gmul (gsub x r) (peval (quot r p) x)) gzero) with (gmul (gsub x r) (peval (quot r p) x)) in E by ring.
    apply gmul_integral in E as [E|E]; [|exact E].
    apply (proj1 (gsub_zero _ _)) in E. rewrite E in Hx. now apply NI in Hx.
Qed.

(** ** Operations on coefficient lists *)
Fixpoint padd (p q : list byte) : list byte :=
  match p, q with
  | [], _ => q
  | _, [] => p
  | a :: p', b :: q' => gadd a b :: padd p' q'
  end.
Definition pscale (k : byte) (p : list byte) : list byte := map (gmul k) p.
Definition pshift (r : byte) (p : list byte) : list byte := padd (gzero :: p) (pscale r p).
Lemma padd_eval x : forall p q, peval (padd p q) x = gadd (peval p x) (peval q x).
Proof.
  induction p as [|a p IH]; intros [|b q].
  - cbn. ring.
  - change (padd [] (b :: q)) with (b :: q). change (peval [] x) with gzero. ring.
  - change (padd (a :: p) []) with (a :: p). change (peval [] x) with gzero. ring.
  - change (padd (a :: p) (b :: q)) with (gadd a b :: padd p q). rewrite !peval_cons, IH. ring.
Qed.
Lemma padd_length : forall p q, length (padd p q) = Nat.max (length p) (length q).
Proof. induction p as [|a p IH]; intros [|b q]; cbn; auto. Qed.
Lemma pscale_eval k x p : peval (pscale k p) x = gmul k (peval p x).
Proof.
  induction p as [|a p IH]; [cbn; ring|]. unfold pscale in *. cbn [map]. rewrite !peval_cons, IH. ring.
Qed.
Lemma pshift_eval r x p : peval (pshift r p) x = gmul (gsub x r) (peval p x).
Proof.
  unfold pshift. rewrite padd_eval, pscale_eval, peval_cons.
  replace (gsub x r) with (gadd x r) by reflexivity. ring.
Qed.
Lemma pshift_length r p : length (pshift r p) = S (length p).
Proof. unfold pshift. rewrite padd_length. unfold pscale. rewrite map_length. cbn [length]. lia. Qed.
Definition pprod (xs : list byte) : list byte := fold_right pshift [gone] xs.
Lemma pprod_eval x xs : peval (pprod xs) x = gprod (map (fun r => gsub x r) xs).
Proof.
  induction xs as [|r xs IH]; [cbn; ring|]. cbn [pprod fold_right]. fold (pprod xs). rewrite pshift_eval, IH. reflexivity.
Qed.
Lemma pprod_length xs : length (pprod xs) = S (length xs).
Proof. induction xs as [|r xs IH]; [reflexivity|]. cbn [pprod fold_right]. fold (pprod xs). rewrite pshift_length, IH. reflexivity. Qed.
Lemma gprod_zero l : In gzero l -> gprod l = gzero.
Proof. induction l as [|a l IH]; [contradiction|]. intros [->|H]; cbn; [ring|]. fold (gprod l). rewrite IH by exact H. ring. Qed.
Lemma gprod_nonzero l : ~ In gzero l -> gprod l <> gzero.
Proof.
  induction l as [|a l IH]; intros H; [discriminate|]. cbn. fold (gprod l). intros E.
  apply gmul_integral in E as [->|E]; [apply H; now left|]. apply IH in E; [exact E|]. intros I. apply H. now right.
Qed.
Definition psum (l : list (list byte)) : list byte := fold_right padd [] l.
Lemma psum_eval x l : peval (psum l) x = gsum (map (fun p => peval p x) l).
Proof. induction l as [|p l IH]; [reflexivity|]. cbn [psum fold_right map]. fold (psum l). rewrite padd_eval, IH. reflexivity. Qed.
Lemma psum_length n l : (forall p, In p l -> (length p <= n)%nat) -> (length (psum l) <= n)%nat.
Proof.
  induction l as [|p l IH]; intros H; [cbn; lia|]. cbn [psum fold_right]. fold (psum l). rewrite padd_length.
  specialize (IH (fun q Hq => H q (or_intror Hq))). specialize (H p (or_introl eq_refl)). lia.
Qed.

(** ** The interpolating polynomial *)
Definition others (x : byte) (pts : list (byte * byte)) : list (byte * byte) :=
  filter (fun q => negb (byte_eqb (fst q) x)) pts.
Lemma others_in x pts q : In q (others x pts) <-> In q pts /\ fst q <> x.
Proof.
  unfold others. rewrite filter_In. destruct (byte_eqb_spec (fst q) x); cbn; intuition congruence.
Qed.
Definition den (p : byte * byte) (pts : list (byte * byte)) : byte :=
  gprod (map (fun q => gsub (fst p) (fst q)) (others (fst p) pts)).
Lemma den_nonzero p pts : den p pts <> gzero.
Proof.
  apply gprod_nonzero. rewrite in_map_iff. intros (q & E & I). apply others_in in I as [_ N].
  apply (proj1 (gsub_zero _ _)) in E. congruence.
Qed.
Definition coef (pts : list (byte * byte)) (p : byte * byte) : byte := gmul (snd p) (ginv (den p pts)).
Lemma cancel a d : d <> gzero -> gmul (gmul a (ginv d)) d = a.
Proof. intros H. pose proof (ginv_r d H) as I. revert I. generalize (ginv d). intros i I. transitivity (gmul a (gmul d i)); [ring|]. rewrite I. ring. Qed.
Lemma coef_den pts p : gmul (coef pts p) (den p pts) = snd p.
Proof. apply cancel, den_nonzero. Qed.
Definition lag_with (c : byte * byte -> byte) (pts : list (byte * byte)) : list byte :=
  psum (map (fun p => pscale (c p) (pprod (map fst (others (fst p) pts)))) pts).
Lemma lag_with_eval c pts x : peval (lag_with c pts) x =
  gsum (map (fun p => gmul (c p) (gprod (map (fun q => gsub x (fst q)) (others (fst p) pts)))) pts).
Proof.
  unfold lag_with. rewrite psum_eval, map_map. f_equal. apply map_ext. intros p.
  rewrite pscale_eval, pprod_eval, map_map. reflexivity.
Qed.
Definition lag (pts : list (byte * byte)) : list byte := lag_with (coef pts) pts.
Lemma filter_len {A} (f : A -> bool) l : (length (filter f l) <= length l)%nat.
Proof. induction l as [|a l IH]; cbn; [lia|]. destruct (f a); cbn; lia. Qed.
Lemma others_length x pts : In x (map fst pts) -> (length (others x pts) < length pts)%nat.
Proof.
  unfold others. induction pts as [|p pts IH]; [contradiction|]. cbn [map filter].
  destruct (byte_eqb_spec (fst p) x) as [E|N]; cbn [negb length].
  - intros _. pose proof (filter_len (fun q => negb (byte_eqb (fst q) x)) pts). lia.
  - intros [E|H]; [contradiction|]. apply IH in H. lia.
Qed.
Lemma lag_length pts : (length (lag pts) <= length pts)%nat.
Proof.
  apply psum_length. intros p. rewrite in_map_iff. intros (q & <- & I). unfold pscale.
  rewrite map_length, pprod_length, map_length.
  pose proof (others_length (fst q) pts (in_map fst _ _ I)). lia.
Qed.
Lemma gsum_zero {A} (f : A -> byte) l : (forall y, In y l -> f y = gzero) -> gsum (map f l) = gzero.
Proof.
  induction l as [|b l IH]; intros Z; [reflexivity|]. cbn [map gsum fold_right]. fold (gsum (map f l)).
  rewrite (Z b (or_introl eq_refl)), (IH (fun y H => Z y (or_intror H))). ring.
Qed.
Lemma gsum_single {A} (f : A -> byte) l x : NoDup l -> In x l -> (forall y, In y l -> y <> x -> f y = gzero) -> gsum (map f l) = f x.
Proof.
  intros ND I. induction l as [|a l IH]; [contradiction|]. inversion ND as [|? ? NI ND']; subst. intros Z. cbn [map gsum fold_right]. fold (gsum (map f l)).
  destruct I as [E|I].
  - subst. rewrite gsum_zero; [ring|]. intros y Hy. apply Z; [now right|]. intros ->. contradiction.
  - rewrite IH; auto. { rewrite (Z a); [ring|now left|]. intros ->. contradiction. }
    intros y Hy. apply Z. now right.
Qed.
Lemma nodup_fst (pts : list (byte * byte)) : NoDup (map fst pts) -> NoDup pts.
Proof. apply NoDup_map_inv. Qed.
Lemma fst_inj (pts : list (byte * byte)) p q : NoDup (map fst pts) -> In p pts -> In q pts -> fst p = fst q -> p = q.
Proof.
  induction pts as [|a pts IH]; [contradiction|]. cbn [map]. intros ND Hp Hq E. inversion ND as [|? ? NI ND']; subst.
  destruct Hp as [->|Hp], Hq as [->|Hq]; auto.
  - exfalso. apply NI. rewrite E. now apply in_map.
  - exfalso. apply NI. rewrite <- E. now apply in_map.
Qed.
Lemma lag_with_point c pts p : NoDup (map fst pts) -> In p pts ->
  peval (lag_with c pts) (fst p) = gmul (c p) (den p pts).
Proof.
  intros ND I. rewrite lag_with_eval.
  rewrite (gsum_single _ _ p (nodup_fst _ ND) I); [reflexivity|].
  intros q Hq N. rewrite gprod_zero; [apply gmul_0_r|].
  apply in_map_iff. exists p. split; [now apply (proj2 (gsub_zero _ _))|]. apply others_in. split; [exact I|].
  intros E. apply N. symmetry. now apply (fst_inj pts).
Qed.
Lemma lag_eval pts p : NoDup (map fst pts) -> In p pts -> peval (lag pts) (fst p) = snd p.
Proof. intros ND I. unfold lag. rewrite lag_with_point by assumption. apply coef_den. Qed.
Lemma gsub_comm a b : gsub a b = gsub b a.
Proof. unfold gsub, gopp. apply gadd_comm. Qed.
Lemma swap3 a b c : gmul (gmul a b) c = gmul a (gmul c b).
Proof. ring. Qed.
Lemma lag_zero pts : peval (lag pts) gzero = interpolate pts.
Proof.
  unfold lag, interpolate. rewrite lag_with_eval. f_equal. apply map_ext. intros p. cbv zeta.
  change (filter (fun q => negb (byte_eqb (fst q) (fst p))) pts) with (others (fst p) pts).
  rewrite (map_ext (fun r : byte * byte => gsub gzero (fst r)) fst).
  2:{ intros q. unfold gsub, gopp. now rewrite gadd_0_l. }
  rewrite (map_ext (fun q : byte * byte => gsub (fst q) (fst p)) (fun q => gsub (fst p) (fst q))).
  2:{ intros q. apply gsub_comm. }
  unfold coef, den. apply swap3.
Qed.

(** Two polynomials that agree on enough points agree everywhere. *)
Lemma agree p q xs : NoDup xs -> (length p <= length xs)%nat -> (length q <= length xs)%nat ->
  (forall x, In x xs -> peval p x = peval q x) -> zeros (padd p q).
Proof.
  intros ND Lp Lq E. apply (roots xs); [assumption|rewrite padd_length; lia|].
  intros x Hx. rewrite padd_eval, (E x Hx). apply gadd_self.
Qed.
Lemma gadd_zero a b : gadd a b = gzero -> a = b.
Proof. intros H. now apply (proj1 (gsub_zero _ _)). Qed.
Theorem interpolate_correct p pts : NoDup (map fst pts) -> (length p <= length pts)%nat ->
  (forall q, In q pts -> snd q = peval p (fst q)) -> interpolate pts = peval p gzero.
Proof.
  intros ND L E. rewrite <- lag_zero. apply gadd_zero. rewrite <- padd_eval. apply zeros_eval.
  apply (agree _ _ (map fst pts)); [assumption|rewrite map_length; apply lag_length|now rewrite map_length|].
  intros x Hx. apply in_map_iff in Hx as (q & <- & I). rewrite lag_eval by assumption. now apply E.
Qed.
Lemma agree_eq : forall p q, length p = length q -> zeros (padd p q) -> p = q.
Proof.
  induction p as [|a p IH]; intros [|b q] L Z; try discriminate; [reflexivity|].
  change (padd (a :: p) (b :: q)) with (gadd a b :: padd p q) in Z. inversion Z; subst.
  f_equal; [now apply gadd_zero|]. apply IH; [now injection L|assumption].
Qed.
(** Exactly one polynomial of [length pts] coefficients passes through the points. *)
Lemma pad_eval n p x : peval (p ++ repeat gzero n) x = peval p x.
Proof.
  induction p as [|c p IH]; [apply zeros_eval; apply Forall_forall; intros y Hy; now apply repeat_spec in Hy|].
  cbn [app]. rewrite !peval_cons, IH. reflexivity.
Qed.
Theorem through_points pts : NoDup (map fst pts) ->
  exists! p, length p = length pts /\ forall q, In q pts -> peval p (fst q) = snd q.
Proof.
  intros ND. exists (lag pts ++ repeat gzero (length pts - length (lag pts))). split.
  - split.
    + rewrite app_length, repeat_length. pose proof (lag_length pts). lia.
    + intros q Hq. rewrite pad_eval. now apply lag_eval.
  - intros p [L E]. apply agree_eq.
    + rewrite app_length, repeat_length, L. pose proof (lag_length pts). lia.
    + apply (agree _ _ (map fst pts)).
      * assumption.
      * rewrite app_length, repeat_length, map_length. pose proof (lag_length pts). lia.
      * rewrite map_length. lia.
      * intros x Hx. apply in_map_iff in Hx as (q & <- & I). rewrite pad_eval, lag_eval, E by assumption. reflexivity.
Qed.
