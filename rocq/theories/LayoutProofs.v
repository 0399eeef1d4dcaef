(** Every text of a JSON value parses to it (C93). *)
From Verif Require Import Base Utf8 Hex Json JsonProofs SpecLayout.
From Coq Require Import ZifyBool ZifyN ZifyNat.
Local Open Scope N_scope.

Scheme laid_mind := Induction for laid Sort Prop
  with laid_elems_mind := Induction for laid_elems Sort Prop
  with laid_members_mind := Induction for laid_members Sort Prop.
Combined Scheme laid_all from laid_mind, laid_elems_mind, laid_members_mind.

Lemma blank_ws w : blank w -> forallb is_ws w = true.
Proof. induction 1 as [|c w [->|[->|[->| ->]]] _ IH]; [reflexivity|exact IH..]. Qed.
Lemma skip_blank w l : blank w -> skip_ws (w ++ l) = skip_ws l.
Proof.
  intros H. apply blank_ws in H. induction w as [|c w IH]; [reflexivity|].
  cbn [forallb] in H. apply andb_true_iff in H as [A B]. cbn [app skip_ws]. rewrite A. auto.
Qed.
Lemma delim_blank w l : blank w -> delim l -> delim (w ++ l).
Proof. intros [|c w' [->|[->|[->| ->]]] _] D; [exact D|repeat split..]. Qed.

Lemma parse_value_skip f l : parse_value f l = parse_value f (skip_ws l).
Proof.
  destruct f as [|f]; [reflexivity|]. cbn [parse_value].
  replace (skip_ws (skip_ws l)) with (skip_ws l); [reflexivity|].
  induction l as [|c l IH]; [reflexivity|]. cbn [skip_ws]. destruct (is_ws c) eqn:E; [exact IH|]. cbn [skip_ws]. now rewrite E.
Qed.
Lemma parse_value_blank f w l : blank w -> parse_value f (w ++ l) = parse_value f l.
Proof. intros H. rewrite parse_value_skip, skip_blank by exact H. symmetry. apply parse_value_skip. Qed.

Lemma spells_lex s t : spells s t -> exists ts, (forall r, lex_str (t ++ x22 :: r) = Some (ts, r)) /\ assemble ts = Some s.
Proof.
  induction 1 as [|c s t N1 N2 L _ (ts & A & B)|c e s t I _ (ts & A & B)|a b c d n s t X S _ (ts & A & B)
    |a b c d a' b' c' d' hi lo s t X S X' S' _ (ts & A & B)].
  - exists []. split; reflexivity.
  - exists (TB c :: ts). split.
    + intros r. cbn [app lex_str]. destruct (byte_eqb_spec c x22); [contradiction|]. destruct (byte_eqb_spec c x5c); [contradiction|].
      destruct (N.ltb_spec (b2n c) 32); [lia|]. now rewrite A.
    + cbn [assemble]. now rewrite B.
  - exists (TB c :: ts). split.
    + intros r. cbn [In] in I.
      repeat match type of I with _ \/ _ => destruct I as [I|I] end; try contradiction;
        injection I as <- <-; cbn [app lex_str]; 
        change (lex_str (t ++ x22 :: r)) with (lex_str (t ++ x22 :: r));
        rewrite A; reflexivity.
    + cbn [assemble]. now rewrite B.
  - exists (TU n :: ts). split.
    + intros r. cbn [app lex_str]. change (byte_eqb x5c x22) with false. change (byte_eqb x5c x5c) with true.
      change (byte_eqb "u" "u") with true. cbn iota. now rewrite X, A.
    + cbn [assemble]. rewrite B. replace (is_scalar n) with true; [reflexivity|]. symmetry.
      unfold is_scalar. unfold hex4 in X.
      assert (n < 65536).
      { assert (D : forall x v, digit16 x = Some v -> v < 16) by (intros x v; destruct x; cbn; intros [= <-]; lia).
        destruct (digit16 a) as [va|] eqn:Ea; [|discriminate]. destruct (digit16 b) as [vb|] eqn:Eb; [|discriminate].
        destruct (digit16 c) as [vc|] eqn:Ec; [|discriminate]. destruct (digit16 d) as [vd|] eqn:Ed; [|discriminate].
        apply D in Ea, Eb, Ec, Ed. injection X as <-. lia. }
      lia.
  - exists (TU hi :: TU lo :: ts). split.
    + intros r. cbn [app lex_str]. change (byte_eqb x5c x22) with false. change (byte_eqb x5c x5c) with true.
      change (byte_eqb "u" "u") with true. cbn iota. now rewrite X, X', A.
    + cbn [assemble]. replace (is_scalar hi) with false by (symmetry; unfold is_scalar; lia).
      replace (hi <? 56320) with true by lia. replace ((56320 <=? lo) && (lo <? 57344)) with true by lia.
      now rewrite B.
Qed.
Lemma quoted_parse s q : quoted s q -> exists t, q = x22 :: t /\ forall r, parse_string (t ++ r) = Some (Some s, r).
Proof.
  intros (U & t & S & ->). exists (t ++ [x22]). split; [reflexivity|]. intros r.
  destruct (spells_lex s t S) as (ts & A & B). rewrite <- app_assoc. cbn [app].
  unfold parse_string. rewrite A. unfold str_text. now rewrite B, U.
Qed.

Definition PL (j : json) (b : bytes) : Prop := 
  (exists c t, b = c :: t /\ first_ok c) /\
  forall f r, delim r -> (2 * length b <= f)%nat -> parse_value f (b ++ r) = Some (j, r).
Lemma atom_PL j b : jok j = true -> write j = b -> PL j b.
Proof.
  intros O <-. split; [exact (write_head j O)|]. exact (parse_value_write j O).
Qed.
Lemma laid_parse : 
  (forall j b, laid j b -> PL j b) /\
  (forall l b, laid_elems l b -> (exists x l', l = x :: l') /\ (exists w c t, blank w /\ b = w ++ c :: t /\ first_ok c) /\
     forall f r, (2 * length b <= S f)%nat -> parse_elems f (b ++ r) = Some (l, r)) /\
  (forall m b, laid_members m b -> (exists w t, blank w /\ b = w ++ x22 :: t) /\
     forall f r, (2 * length b <= S f)%nat -> parse_members f (b ++ r) = Some (m, r)).
Proof.
  apply laid_all.
  - apply atom_PL; reflexivity.
  - apply atom_PL; reflexivity.
  - apply atom_PL; reflexivity.
  - intros z R. apply atom_PL; [cbn [jok]; lia|reflexivity].
  - intros s q Q. destruct (quoted_parse s q Q) as (t & -> & E). split; [exists x22, t; repeat split; reflexivity|].
    intros f r D L. destruct f as [|f]; [cbn [length] in L; lia|].
    cbn [app parse_value skip_ws]. change (is_ws x22) with false. cbn iota.
    change (byte_eqb x22 "n") with false. change (byte_eqb x22 "t") with false.
    change (byte_eqb x22 "f") with false. change (byte_eqb x22 x22) with true. cbn iota.
    rewrite E. reflexivity.
  - intros w W. split; [do 2 eexists; repeat split; reflexivity|].
    intros f r D L. destruct f as [|f]; [cbn [length] in L; lia|].
    cbn [app parse_value skip_ws]. change (is_ws "[") with false. cbn iota.
    change (byte_eqb "[" "n") with false. change (byte_eqb "[" "t") with false.
    change (byte_eqb "[" "f") with false. change (byte_eqb "[" x22) with false. change (byte_eqb "[" "[") with true. cbn iota.
    rewrite <- app_assoc, skip_blank by exact W. reflexivity.
  - intros l b _ ((x & l' & ->) & (w & c & t & W & -> & F1 & F2 & F3) & P).
    split; [do 2 eexists; repeat split; reflexivity|].
    intros f r D L. destruct f as [|f]; [cbn [length] in L; lia|].
    cbn [app parse_value skip_ws]. change (is_ws "[") with false. cbn iota.
    change (byte_eqb "[" "n") with false. change (byte_eqb "[" "t") with false.
    change (byte_eqb "[" "f") with false. change (byte_eqb "[" x22) with false. change (byte_eqb "[" "[") with true. cbn iota.
    rewrite P by (cbn [length] in L; lia).
    rewrite <- app_assoc, skip_blank by exact W. cbn [app skip_ws]. rewrite F1, F2. reflexivity.
  - intros w W. split; [do 2 eexists; repeat split; reflexivity|].
    intros f r D L. destruct f as [|f]; [cbn [length] in L; lia|].
    cbn [app parse_value skip_ws]. change (is_ws "{") with false. cbn iota.
    change (byte_eqb "{" "n") with false. change (byte_eqb "{" "t") with false.
    change (byte_eqb "{" "f") with false. change (byte_eqb "{" x22) with false. change (byte_eqb "{" "[") with false.
    change (byte_eqb "{" "{") with true. cbn iota.
    rewrite <- app_assoc, skip_blank by exact W. reflexivity.
  - intros m b _ ((w & t & W & ->) & P).
    split; [do 2 eexists; repeat split; reflexivity|].
    intros f r D L. destruct f as [|f]; [cbn [length] in L; lia|].
    cbn [app parse_value skip_ws]. change (is_ws "{") with false. cbn iota.
    change (byte_eqb "{" "n") with false. change (byte_eqb "{" "t") with false.
    change (byte_eqb "{" "f") with false. change (byte_eqb "{" x22) with false. change (byte_eqb "{" "[") with false.
    change (byte_eqb "{" "{") with true. cbn iota.
    rewrite P by (cbn [length] in L; lia).
    rewrite <- app_assoc, skip_blank by exact W. reflexivity.
  - intros x b w1 w2 _ ((c & t & E & F) & P) W1 W2. split; [eauto|]. split.
    { exists w1, c, (t ++ w2 ++ ["]"%byte]). rewrite E. split; [exact W1|]. split; [reflexivity|exact F]. }
    intros f r L. rewrite !app_length in L. cbn [length] in L. destruct f as [|f].
    { rewrite E in L. cbn [length] in L. lia. }
    cbn [parse_elems]. rewrite <- !app_assoc. rewrite parse_value_blank by exact W1.
    rewrite P by (try (apply delim_blank; [exact W2|apply delim_rb]); lia).
    rewrite skip_blank by exact W2. cbn [app skip_ws]. change (is_ws "]") with false. cbn iota. reflexivity.
  - intros x b w1 w2 l t' _ ((c & t & E & F) & P) W1 W2 _ (_ & _ & Q). split; [eauto|]. split.
    { exists w1, c, (t ++ w2 ++ ","%byte :: t'). rewrite E. split; [exact W1|]. split; [reflexivity|exact F]. }
    intros f r L. rewrite !app_length in L. cbn [length] in L. destruct f as [|f].
    { rewrite E in L. cbn [length] in L. lia. }
    cbn [parse_elems]. rewrite <- !app_assoc. rewrite parse_value_blank by exact W1.
    rewrite P by (try (apply delim_blank; [exact W2|apply delim_comma]); lia).
    rewrite skip_blank by exact W2. cbn [app skip_ws]. change (is_ws ",") with false. cbn iota.
    change (byte_eqb "," ",") with true. cbn iota. rewrite Q by (rewrite E in L; cbn [length] in L; lia). reflexivity.
  - intros k q x b w1 w2 w3 w4 K _ ((c & t & E & F) & P) W1 W2 W3 W4. destruct (quoted_parse k q K) as (u & -> & S). split.
    { exists w1. eexists. split; [exact W1|reflexivity]. }
    intros f r L. rewrite !app_length in L. cbn [length] in L. rewrite !app_length in L. cbn [length] in L. destruct f as [|f]; [lia|].
    cbn [parse_members]. rewrite <- ?app_assoc. rewrite skip_blank by exact W1. cbn [app skip_ws]. 
    change (is_ws x22) with false. cbn iota. change (byte_eqb x22 x22) with true. cbn iota.
    rewrite <- ?app_assoc. rewrite S.
    rewrite skip_blank by exact W2. cbn [app skip_ws]. change (is_ws ":") with false. cbn iota.
    change (byte_eqb ":" ":") with true. cbn iota.
    rewrite <- ?app_assoc. rewrite parse_value_blank by exact W3.
    rewrite P by (try (apply delim_blank; [exact W4|apply delim_rc]); lia).
    rewrite skip_blank by exact W4. cbn [app skip_ws]. change (is_ws "}") with false. cbn iota. reflexivity.
  - intros k q x b w1 w2 w3 w4 m t' K _ ((c & t & E & F) & P) W1 W2 W3 W4 _ (_ & Q). destruct (quoted_parse k q K) as (u & -> & S). split.
    { exists w1. eexists. split; [exact W1|reflexivity]. }
    intros f r L. rewrite !app_length in L. cbn [length] in L. rewrite !app_length in L. cbn [length] in L. destruct f as [|f]; [lia|].
    cbn [parse_members]. rewrite <- ?app_assoc. rewrite skip_blank by exact W1. cbn [app skip_ws]. 
    change (is_ws x22) with false. cbn iota. change (byte_eqb x22 x22) with true. cbn iota.
    rewrite <- ?app_assoc. rewrite S.
    rewrite skip_blank by exact W2. cbn [app skip_ws]. change (is_ws ":") with false. cbn iota.
    change (byte_eqb ":" ":") with true. cbn iota.
    rewrite <- ?app_assoc. rewrite parse_value_blank by exact W3.
    rewrite P by (try (apply delim_blank; [exact W4|apply delim_comma]); lia).
    rewrite skip_blank by exact W4. cbn [app skip_ws]. change (is_ws ",") with false. cbn iota. 
    change (byte_eqb "," ",") with true. cbn iota. rewrite Q by lia. reflexivity.
Qed.

Lemma document_parse j b : document j b -> parse b = Some j.
Proof.
  intros (w1 & t & w2 & W1 & W2 & L & ->). destruct laid_parse as (P & _ & _). destruct (P j t L) as (_ & Q).
  unfold parse. rewrite parse_value_blank by exact W1. rewrite Q.
  - rewrite <- (app_nil_r w2). rewrite skip_blank by exact W2. reflexivity.
  - rewrite <- (app_nil_r w2). apply delim_blank; [exact W2|exact I].
  - rewrite !app_length. lia.
Qed.
