(** UTF-8 as checked by Rust's [String::from_utf8] / [str::from_utf8]
    (used by borsh [String], serde_json strings and
    /repo/src/qos_hex/src/lib.rs:171-175).  The Rust standard library is not in
    /repo; this is the definition of the Unicode standard it implements:
    shortest form only, no surrogates, at most U+10FFFF. *)
From Verif Require Import Base.
Local Open Scope N_scope.

Definition is_cont (b : byte) : bool := (128 <=? b2n b) && (b2n b <? 192).

(** Unicode scalar value (Rust [char]). *)
Definition is_scalar (c : N) : bool :=
  (c <? 55296) || ((57344 <=? c) && (c <? 1114112)).

Definition utf8_next (l : bytes) : option (N * bytes) :=
  match l with
  | [] => None
  | b0 :: l0 =>
    let n0 := b2n b0 in
    if n0 <? 128 then Some (n0, l0)
    else if n0 <? 192 then None
    else if n0 <? 224 then
      match l0 with
      | b1 :: l1 =>
        let c := (n0 - 192) * 64 + (b2n b1 - 128) in
        if is_cont b1 && (128 <=? c) then Some (c, l1) else None
      | _ => None
      end
    else if n0 <? 240 then
      match l0 with
      | b1 :: b2 :: l2 =>
        let c := (n0 - 224) * 4096 + (b2n b1 - 128) * 64 + (b2n b2 - 128) in
        if is_cont b1 && is_cont b2 && (2048 <=? c) && is_scalar c
        then Some (c, l2) else None
      | _ => None
      end
    else if n0 <? 248 then
      match l0 with
      | b1 :: b2 :: b3 :: l3 =>
        let c := (n0 - 240) * 262144 + (b2n b1 - 128) * 4096
                 + (b2n b2 - 128) * 64 + (b2n b3 - 128) in
        if is_cont b1 && is_cont b2 && is_cont b3 && (65536 <=? c) && is_scalar c
        then Some (c, l3) else None
      | _ => None
      end
    else None
  end.

Definition utf8_char (c : N) : bytes :=
  if c <? 128 then [n2b c]
  else if c <? 2048 then [n2b (192 + c / 64); n2b (128 + c mod 64)]
  else if c <? 65536 then
    [n2b (224 + c / 4096); n2b (128 + (c / 64) mod 64); n2b (128 + c mod 64)]
  else
    [n2b (240 + c / 262144); n2b (128 + (c / 4096) mod 64);
     n2b (128 + (c / 64) mod 64); n2b (128 + c mod 64)].

Fixpoint utf8_dec_fuel (fuel : nat) (l : bytes) : option (list N) :=
  match l with
  | [] => Some []
  | _ =>
    match fuel with
    | O => None
    | S f =>
      match utf8_next l with
      | Some (c, r) =>
        match utf8_dec_fuel f r with
        | Some cs => Some (c :: cs)
        | None => None
        end
      | None => None
      end
    end
  end.

Definition utf8_dec (l : bytes) : option (list N) := utf8_dec_fuel (length l) l.

Definition utf8_enc (cs : list N) : bytes := concat (map utf8_char cs).

Definition utf8_valid (l : bytes) : bool := is_some (utf8_dec l).

Definition scalars (cs : list N) : bool := forallb is_scalar cs.

(** ** Facts *)
Require Import ZifyBool ZifyN.
Ltac Zify.zify_post_hook ::= Z.div_mod_to_equations.

Lemma utf8_next_enc c r : is_scalar c = true -> utf8_next (utf8_char c ++ r) = Some (c, r).
Proof.
  intros Hs. unfold is_scalar in Hs. unfold utf8_char.
  destruct (N.ltb_spec c 128) as [H1|H1].
  { cbn -[b2n n2b N.ltb]. rewrite b2n_n2b, N.mod_small by lia.
    destruct (N.ltb_spec c 128); [reflexivity|lia]. }
  destruct (N.ltb_spec c 2048) as [H2|H2].
  { cbn -[b2n n2b N.ltb N.leb N.mul N.add N.sub]. unfold is_cont. rewrite !b2n_n2b.
    rewrite !(N.mod_small (_ + _)) by lia.
    repeat match goal with |- context [N.ltb ?a ?b] => destruct (N.ltb_spec a b); try lia end.
    repeat match goal with |- context [N.leb ?a ?b] => destruct (N.leb_spec a b); try lia end.
    cbn [andb]. do 2 f_equal. lia. }
  destruct (N.ltb_spec c 65536) as [H3|H3].
  { cbn -[b2n n2b N.ltb N.leb N.mul N.add N.sub is_scalar]. unfold is_cont. rewrite !b2n_n2b.
    rewrite !(N.mod_small (_ + _)) by lia.
    assert (E : (224 + c / 4096 - 224) * 4096 + (128 + (c / 64) mod 64 - 128) * 64 + (128 + c mod 64 - 128) = c) by lia.
    rewrite E. unfold is_scalar. rewrite Hs.
    repeat match goal with |- context [N.ltb ?a ?b] => destruct (N.ltb_spec a b); try lia end.
    all: repeat match goal with |- context [N.leb ?a ?b] => destruct (N.leb_spec a b); try lia end.
    all: reflexivity. }
  cbn -[b2n n2b N.ltb N.leb N.mul N.add N.sub is_scalar]. unfold is_cont. rewrite !b2n_n2b.
  rewrite !(N.mod_small (_ + _)) by lia.
  assert (E : (240 + c / 262144 - 240) * 262144 + (128 + (c / 4096) mod 64 - 128) * 4096
     + (128 + (c / 64) mod 64 - 128) * 64 + (128 + c mod 64 - 128) = c) by lia.
  rewrite E. unfold is_scalar. rewrite Hs.
  repeat match goal with |- context [N.ltb ?a ?b] => destruct (N.ltb_spec a b); try lia end.
  all: repeat match goal with |- context [N.leb ?a ?b] => destruct (N.leb_spec a b); try lia end.
  all: reflexivity.
Qed.

Lemma n2b_eq b n : b2n b = n -> n2b n = b.
Proof. intros <-. apply n2b_b2n. Qed.

Lemma utf8_next_inv l c r :
  utf8_next l = Some (c, r) -> is_scalar c = true /\ l = utf8_char c ++ r.
Proof.
  unfold utf8_next. destruct l as [|b0 l0]; [discriminate|].
  pose proof (b2n_lt b0).
  destruct (N.ltb_spec (b2n b0) 128).
  { intros E; inversion E; subst. split; [unfold is_scalar; lia|].
    unfold utf8_char. destruct (N.ltb_spec (b2n b0) 128); [|lia]. now rewrite n2b_b2n. }
  destruct (N.ltb_spec (b2n b0) 192); [discriminate|].
  destruct (N.ltb_spec (b2n b0) 224).
  { destruct l0 as [|b1 l1]; [discriminate|]. unfold is_cont.
    pose proof (b2n_lt b1).
    destruct (_ && _)%bool eqn:E; [|discriminate]. intros E'; inversion E'; subst; clear E'.
    assert (HS : is_scalar ((b2n b0 - 192) * 64 + (b2n b1 - 128)) = true) by (unfold is_scalar; lia).
    split; [exact HS|].
    set (c := (b2n b0 - 192) * 64 + (b2n b1 - 128)) in *.
    unfold utf8_char. destruct (N.ltb_spec c 128); [lia|]. destruct (N.ltb_spec c 2048); [|lia].
    cbn [app]. repeat f_equal; symmetry; apply n2b_eq; lia. }
  destruct (N.ltb_spec (b2n b0) 240).
  { destruct l0 as [|b1 [|b2 l2]]; try discriminate. unfold is_cont.
    pose proof (b2n_lt b1). pose proof (b2n_lt b2).
    destruct (_ && _)%bool eqn:E; [|discriminate]. intros E'; inversion E'; subst; clear E'.
    apply andb_true_iff in E as [E HS]. split; [exact HS|].
    set (c := (b2n b0 - 224) * 4096 + (b2n b1 - 128) * 64 + (b2n b2 - 128)) in *.
    unfold utf8_char. destruct (N.ltb_spec c 128); [lia|]. destruct (N.ltb_spec c 2048); [lia|].
    destruct (N.ltb_spec c 65536); [|lia].
    cbn [app]. repeat f_equal; symmetry; apply n2b_eq; lia. }
  destruct (N.ltb_spec (b2n b0) 248); [|discriminate].
  destruct l0 as [|b1 [|b2 [|b3 l3]]]; try discriminate. unfold is_cont.
  pose proof (b2n_lt b1). pose proof (b2n_lt b2). pose proof (b2n_lt b3).
  destruct (_ && _)%bool eqn:E; [|discriminate]. intros E'; inversion E'; subst; clear E'.
  apply andb_true_iff in E as [E HS]. split; [exact HS|].
  set (c := (b2n b0 - 240) * 262144 + (b2n b1 - 128) * 4096 + (b2n b2 - 128) * 64 + (b2n b3 - 128)) in *.
  unfold utf8_char. destruct (N.ltb_spec c 128); [lia|]. destruct (N.ltb_spec c 2048); [lia|].
  destruct (N.ltb_spec c 65536); [lia|].
  cbn [app]. repeat f_equal; symmetry; apply n2b_eq; lia.
Qed.

Lemma utf8_char_nonempty c : (1 <= length (utf8_char c))%nat.
Proof. unfold utf8_char. repeat destruct (_ <? _); cbn; lia. Qed.

Lemma utf8_dec_fuel_enc cs : forall fuel,
  scalars cs = true -> (length (utf8_enc cs) <= fuel)%nat ->
  utf8_dec_fuel fuel (utf8_enc cs) = Some cs.
Proof.
  induction cs as [|c cs IH]; intros fuel Hs Hf; [destruct fuel; reflexivity|].
  cbn in Hs. apply andb_true_iff in Hs as [Hc Hs].
  unfold utf8_enc in *; cbn [map] in *; cbn [concat] in *.
  rewrite app_length in Hf. pose proof (utf8_char_nonempty c).
  destruct fuel as [|f]; [lia|].
  destruct (utf8_char c ++ concat (map utf8_char cs)) as [|x xs] eqn:E.
  { apply app_eq_nil in E as [E _]. rewrite E in *. cbn in *; lia. }
  cbn [utf8_dec_fuel]. rewrite <- E, utf8_next_enc by exact Hc.
  rewrite IH; auto. lia.
Qed.

Lemma utf8_dec_enc cs : scalars cs = true -> utf8_dec (utf8_enc cs) = Some cs.
Proof. intros H. apply utf8_dec_fuel_enc; auto. Qed.

Lemma utf8_dec_fuel_inv fuel : forall l cs,
  utf8_dec_fuel fuel l = Some cs -> scalars cs = true /\ l = utf8_enc cs.
Proof.
  induction fuel as [|f IH]; intros [|b l] cs E; cbn [utf8_dec_fuel] in E;
    try discriminate; try (inversion E; subst; split; reflexivity).
  destruct (utf8_next (b :: l)) as [[c r]|] eqn:En; [|discriminate].
  destruct (utf8_dec_fuel f r) as [cs'|] eqn:Er; [|discriminate].
  inversion E; subst. apply utf8_next_inv in En as [Hc ->].
  apply IH in Er as [Hs ->]. split; [cbn; now rewrite Hc|reflexivity].
Qed.

Lemma utf8_dec_inv l cs : utf8_dec l = Some cs -> scalars cs = true /\ l = utf8_enc cs.
Proof. apply utf8_dec_fuel_inv. Qed.

Lemma utf8_valid_iff l : utf8_valid l = true <-> exists cs, scalars cs = true /\ l = utf8_enc cs.
Proof.
  unfold utf8_valid. split.
  - destruct (utf8_dec l) as [cs|] eqn:E; [|discriminate]. intros _. exists cs. now apply utf8_dec_inv.
  - intros (cs & Hs & ->). now rewrite utf8_dec_enc.
Qed.

(** ASCII text is valid UTF-8. *)
Lemma ascii_valid l : forallb (fun b => b2n b <? 128) l = true -> utf8_valid l = true.
Proof.
  intros H. apply utf8_valid_iff. exists (map b2n l). split.
  - unfold scalars. rewrite forallb_forall in *. intros x Hx.
    apply in_map_iff in Hx as (b & <- & Hb). apply H in Hb. unfold is_scalar. lia.
  - induction l as [|b l IH]; [reflexivity|]. cbn [forallb] in H. apply andb_true_iff in H as [Hb H].
    unfold utf8_enc; cbn [map concat]. cbn [map]. unfold utf8_char at 1. rewrite Hb, n2b_b2n. cbn [app].
    f_equal. now apply IH.
Qed.
