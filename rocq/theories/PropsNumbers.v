(** C94: which spellings of a number the JSON readers accept. *)
From Coq Require Import Decimal DecimalN ZifyBool ZifyN ZifyNat.
From Verif Require Import Base Utf8 Hex Json JsonProofs Types TypesJson TypesJsonProofs MsgJson JsonComb CodecExamples SpecLayout LayoutProofs PropsLayout.
Local Open Scope N_scope.

(** *** Specification *)
Definition digit_char (d : N) : byte := n2b (48 + d).
(** The value of decimal digits, most significant first. *)
Definition value_of (ds : list N) : N := fold_left (fun v d => 10 * v + d) ds 0.
(** Decimal digits (any number of leading zeros), with or without a '+'. *)
Definition numeral (s : bytes) (n : N) : Prop :=
  exists ds, ds <> [] /\ Forall (fun d => d < 10) ds /\ n = value_of ds
    /\ (s = map digit_char ds \/ s = "+"%byte :: map digit_char ds).

(** *** Proofs *)
Fixpoint uint_digits (u : uint) : list N :=
  match u with
  | Nil => [] | D0 u => 0 :: uint_digits u | D1 u => 1 :: uint_digits u | D2 u => 2 :: uint_digits u | D3 u => 3 :: uint_digits u
  | D4 u => 4 :: uint_digits u | D5 u => 5 :: uint_digits u | D6 u => 6 :: uint_digits u | D7 u => 7 :: uint_digits u
  | D8 u => 8 :: uint_digits u | D9 u => 9 :: uint_digits u
  end.
Lemma of_uint_acc u : forall a, Npos (Pos.of_uint_acc u a) = fold_left (fun v d => 10 * v + d) (uint_digits u) (Npos a).
Proof. induction u; intros a; cbn [Pos.of_uint_acc uint_digits fold_left]; [reflexivity|rewrite IHu; f_equal; lia..]. Qed.
Lemma of_uint_value u : N.of_uint u = value_of (uint_digits u).
Proof.
  unfold value_of, N.of_uint. induction u; cbn [Pos.of_uint uint_digits fold_left]; [reflexivity|exact IHu|rewrite of_uint_acc; f_equal..].
Qed.
Lemma uint_of_map ds : Forall (fun d => d < 10) ds -> exists u, uint_of_bytes (map digit_char ds) = Some u /\ uint_digits u = ds.
Proof.
  induction 1 as [|d ds L _ (u & E & D)]; [exists Nil; split; reflexivity|]. cbn [map uint_of_bytes]. rewrite E. cbn [obind].
  assert (K : d = 0 \/ d = 1 \/ d = 2 \/ d = 3 \/ d = 4 \/ d = 5 \/ d = 6 \/ d = 7 \/ d = 8 \/ d = 9) by lia.
  repeat destruct K as [-> |K]; try subst d; eexists; (split; [reflexivity|cbn [uint_digits]; now rewrite D]).
Qed.
Lemma uint_of_inv s : forall u, uint_of_bytes s = Some u -> s = map digit_char (uint_digits u) /\ Forall (fun d => d < 10) (uint_digits u).
Proof.
  induction s as [|c s IH]; intros u E; cbn [uint_of_bytes] in E; [injection E as <-; split; [reflexivity|constructor]|].
  destruct (uint_of_bytes s) as [v|]; [|discriminate]. cbn [obind] in E. destruct (IH v eq_refl) as (A & B).
  destruct c; try discriminate; injection E as <-; cbn [uint_digits map]; (split; [rewrite <- A; reflexivity|constructor; [lia|exact B]]).
Qed.
Lemma dec_val_exact s n : dec_val s = Some n <-> exists ds, Forall (fun d => d < 10) ds /\ s = map digit_char ds /\ n = value_of ds.
Proof.
  unfold dec_val. split.
  - destruct (uint_of_bytes s) as [u|] eqn:E; [|discriminate]. cbn [obind]. intros [= <-]. apply uint_of_inv in E as (A & B).
    exists (uint_digits u). split; [exact B|]. split; [exact A|apply of_uint_value].
  - intros (ds & F & -> & ->). destruct (uint_of_map ds F) as (u & -> & <-). cbn [obind]. now rewrite of_uint_value.
Qed.
Lemma digit_not_plus d : d < 10 -> byte_eqb (digit_char d) "+" = false.
Proof.
  intros L. assert (K : d = 0 \/ d = 1 \/ d = 2 \/ d = 3 \/ d = 4 \/ d = 5 \/ d = 6 \/ d = 7 \/ d = 8 \/ d = 9) by lia.
  repeat destruct K as [-> |K]; try subst d; reflexivity.
Qed.
Lemma parse_unsigned_exact limit s n : parse_unsigned limit s = Some n <-> numeral s n /\ n < limit.
Proof.
  assert (D : forall t : bytes, match t with [] => None | _ => match dec_val t with Some n => if n <? limit then Some n else None | None => None end end = Some n
    <-> (exists ds, ds <> [] /\ Forall (fun d => d < 10) ds /\ n = value_of ds /\ t = map digit_char ds) /\ n < limit).
  { intros t. split.
    - destruct t as [|c t]; [discriminate|]. destruct (dec_val (c :: t)) as [v|] eqn:E; [|discriminate]. destruct (N.ltb_spec v limit) as [L|]; [|discriminate].
      intros [= <-]. apply dec_val_exact in E as (ds & F & T & ->). split; [|exact L]. exists ds. split; [|now split]. intros ->. discriminate.
    - intros ((ds & NE & F & -> & ->) & L). assert (E : dec_val (map digit_char ds) = Some (value_of ds)) by (apply dec_val_exact; eauto).
      destruct ds as [|d ds]; [contradiction|]. cbn [map] in *. rewrite E. destruct (N.ltb_spec (value_of (d :: ds)) limit); [reflexivity|lia]. }
  unfold parse_unsigned. destruct s as [|c s].
  { cbn. split; [discriminate|]. intros ((ds & NE & _ & _ & [E|E]) & _); [|discriminate]. destruct ds; [contradiction|discriminate]. }
  cbv zeta. destruct (byte_eqb_spec c "+"%byte) as [-> |NP].
  - rewrite (D s). split.
    + intros ((ds & NE & F & V & ->) & L). split; [|exact L]. exists ds. auto.
    + intros ((ds & NE & F & V & [E|E]) & L); (split; [|exact L]); exists ds.
      * destruct ds as [|d ds]; [contradiction|]. inversion F; subst. cbn [map] in E. injection E as E _. pose proof (digit_not_plus d ltac:(assumption)) as P.
        rewrite <- E in P. discriminate.
      * injection E as ->. auto.
  - rewrite (D (c :: s)). split.
    + intros ((ds & NE & F & V & E) & L). split; [|exact L]. exists ds. auto.
    + intros ((ds & NE & F & V & [E|E]) & L); (split; [|exact L]); exists ds; [auto|]. congruence.
Qed.
Lemma digits_of_print n : exists ds, ds <> [] /\ Forall (fun d => d < 10) ds /\ print_N n = map digit_char ds /\ n = value_of ds.
Proof.
  pose proof (dec_val_print n) as E. apply dec_val_exact in E as (ds & F & P & V). exists ds. split; [|auto]. intros ->.
  destruct (print_N_shape n) as (c & r & X & _). rewrite P in X. discriminate.
Qed.

(** The thresholds, nonces and ports of JSON documents ([limit] is 2^16 or 2^32):
    a number is read from exactly an integer token, or a string of decimal
    digits with or without '+'; never from a fraction, an exponent, a negative
    number, a bool or null, and never cut off at the limit. *)
Theorem c94_numbers_exactly : forall limit d j n,
  jdec (js_uint limit) d j = Some n <->
  n < limit /\ (j = JInt (Z.of_N n) \/ exists s, j = JStr (Some s) /\ numeral s n).
Proof.
  intros limit d j n. cbn [js_uint jdec]. destruct j as [| |z|raw|[s|]|l|m]; try (split; [discriminate|intros (_ & [E|(s & E & _)]); discriminate]).
  - rewrite parse_unsigned_exact. split.
    + intros (H & L). split; [exact L|]. left. f_equal.
      destruct H as (ds & NE & F & V & H). assert (Z : (0 <= z)%Z).
      { destruct z as [|p|p]; [lia|lia|]. exfalso. cbn [print_Z] in H. destruct H as [H|H]; [|discriminate].
        destruct ds as [|d0 ds]; [contradiction|]. inversion F; subst. cbn [map] in H. injection H as H _.
        assert (K : d0 = 0 \/ d0 = 1 \/ d0 = 2 \/ d0 = 3 \/ d0 = 4 \/ d0 = 5 \/ d0 = 6 \/ d0 = 7 \/ d0 = 8 \/ d0 = 9) by lia.
        repeat destruct K as [-> |K]; try subst d0; discriminate H. }
      assert (P : print_Z z = print_N (Z.to_N z)) by (destruct z; [reflexivity|reflexivity|lia]). rewrite P in H.
      assert (E : dec_val (print_N (Z.to_N z)) = Some n).
      { destruct H as [-> |H]; [apply dec_val_exact; eauto|]. exfalso. destruct (digits_of_print (Z.to_N z)) as (ds' & NE' & F' & P' & _).
        rewrite P' in H. destruct ds' as [|d0 ds']; [contradiction|]. inversion F'; subst. cbn [map] in H. injection H as H _.
        pose proof (digit_not_plus d0 ltac:(assumption)) as Q. rewrite H in Q. discriminate. }
      rewrite dec_val_print in E. injection E as <-. lia.
    + intros (L & [E|(s & E & _)]); [|discriminate]. injection E as ->. split; [|exact L].
      assert (P : print_Z (Z.of_N n) = print_N n) by (destruct n; [reflexivity|reflexivity]). rewrite P.
      destruct (digits_of_print n) as (ds & NE & F & E & V). exists ds. auto.
  - rewrite parse_unsigned_exact. split.
    + intros (H & L). split; [exact L|]. right. eauto.
    + intros (L & [E|(s' & E & H)]); [discriminate|]. injection E as ->. auto.
Qed.
Print Assumptions c94_numbers_exactly.

(** So the number is what its digits say, and a document states it in one way
    only up to zeros and the sign. *)
Theorem c94_one_reading : forall s n n', numeral s n -> numeral s n' -> n = n'.
Proof.
  intros s n n' H H'. assert (A : parse_unsigned (n + n' + 1) s = Some n) by (apply parse_unsigned_exact; split; [exact H|lia]).
  assert (B : parse_unsigned (n + n' + 1) s = Some n') by (apply parse_unsigned_exact; split; [exact H'|lia]). congruence.
Qed.
Print Assumptions c94_one_reading.
Example c94_nontrivial :
  jdec js_u32 1 (str (bs "+0042")) = Some 42 /\ jdec js_u32 1 (JInt 42) = Some 42
  /\ jdec js_u32 1 (JInt 4294967296) = None /\ jdec js_u32 1 (JFloat (bs "42.0")) = None /\ jdec js_u32 1 (str (bs " 42")) = None /\ jdec js_u32 1 (str (bs "+")) = None
  /\ jdec js_u32 1 (JInt (-1)) = None.
Proof. vm_compute. repeat split. Qed.
