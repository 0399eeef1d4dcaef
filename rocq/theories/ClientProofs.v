(** Lemmas about the client model. *)
From Coq Require Import Permutation ZifyBool ZifyN ZifyNat.
From Verif Require Import Base Utf8 Hex HexProofs Borsh Json Types TypesBorsh TypesJson Msg World Attest Services Builder CliParser
  Client SpecApproval SpecClient.
Local Open Scope N_scope.

Lemma obind_some {A B} (o : option A) (f : A -> option B) b :
  obind o f = Some b <-> exists a, o = Some a /\ f a = Some b.
Proof. destruct o as [a|]; cbn; split; [eauto|intros (x & E & H); congruence|discriminate|intros (x & E & _); discriminate]. Qed.
Lemma ok_opt_some {E A} (r : result E A) a : ok_opt r = Some a <-> r = Ok a.
Proof. destruct r; cbn; split; congruence. Qed.
Lemma if_some {A} (b : bool) (o : option A) a : (if b then o else None) = Some a <-> b = true /\ o = Some a.
Proof. destruct b; split; intuition congruence. Qed.
Lemma if_negb_some {A} (b : bool) (o : option A) a : (if negb b then None else o) = Some a <-> b = true /\ o = Some a.
Proof. destruct b; cbn; split; intuition congruence. Qed.
Lemma is_ok_iff {E} (r : result E unit) : is_ok r = true <-> r = Ok tt.
Proof. destruct r as [[]|]; cbn; split; congruence. Qed.

(** ** Lines and answers *)
Lemma byte_eqb_eq a b : byte_eqb a b = true <-> a = b.
Proof. destruct (byte_eqb_spec a b); split; congruence. Qed.

(** Next lines are unique, so it is enough to go one way. *)
Lemma cut_line_next inp : forall l rest, cut_line inp = (l, rest) -> next_line inp l rest.
Proof.
  induction inp as [|x r IH]; intros l rest; cbn [cut_line].
  - intros E. assert (l = [] /\ rest = []) as [-> ->] by (split; congruence). split; [reflexivity|]. right. split; [easy|reflexivity].
  - destruct (byte_eqb_spec x x0a) as [->|N].
    + intros E. assert (l = [x0a] /\ rest = r) as [-> ->] by (split; congruence). split; [reflexivity|]. left. exists []. split; [reflexivity|easy].
    + destruct (cut_line r) as [a b]. intros E'. assert (l = x :: a /\ rest = b) as [-> ->] by (split; congruence).
      destruct (IH a b eq_refl) as [E H]. split; [cbn [app]; congruence|].
      destruct H as [(t & -> & Nt)|[Nl ->]].
      * left. exists (x :: t). split; [reflexivity|]. intros [I|I]; [congruence|now apply Nt].
      * right. split; [|reflexivity]. intros [I|I]; [congruence|now apply Nl].
Qed.
Lemma cut_line_with t r : ~ In x0a t -> cut_line (t ++ x0a :: r) = (t ++ [x0a], r).
Proof.
  induction t as [|y t IH]; intros N; cbn [app cut_line]; [reflexivity|].
  destruct (byte_eqb_spec y x0a) as [->|N']; [exfalso; apply N; now left|]. rewrite IH; [reflexivity|]. intros I. apply N. now right.
Qed.
Lemma cut_line_last t : ~ In x0a t -> cut_line t = (t, []).
Proof.
  induction t as [|y t IH]; intros N; cbn [cut_line]; [reflexivity|].
  destruct (byte_eqb_spec y x0a) as [->|N']; [exfalso; apply N; now left|]. rewrite IH; [reflexivity|]. intros I. apply N. now right.
Qed.
Lemma cut_line_iff inp l rest : cut_line inp = (l, rest) <-> next_line inp l rest.
Proof.
  split; [apply cut_line_next|]. intros [-> [(t & -> & Nt)|[Nl ->]]].
  - rewrite <- app_assoc. cbn [app]. now apply cut_line_with.
  - rewrite app_nil_r. now apply cut_line_last.
Qed.

Lemma drop_white_split cs : exists w, cs = w ++ drop_white cs /\ Forall (fun c => is_white c = true) w
  /\ forall c r, drop_white cs = c :: r -> is_white c = false.
Proof.
  induction cs as [|c cs IH]; cbn [drop_white]; [exists []; split; [reflexivity|split; [constructor|discriminate]]|].
  destruct (is_white c) eqn:E.
  - destruct IH as (w & E1 & F & H). exists (c :: w). split; [cbn [app]; congruence|]. split; [now constructor|exact H].
  - exists []. split; [reflexivity|]. split; [constructor|]. intros c' r E'. assert (c' = c) as -> by congruence. exact E.
Qed.
Lemma trim_split cs : exists b a, cs = b ++ trim cs ++ a /\ Forall (fun c => is_white c = true) b
  /\ Forall (fun c => is_white c = true) a /\ (forall c r, trim cs = c :: r -> is_white c = false)
  /\ (forall c r, trim cs = r ++ [c] -> is_white c = false).
Proof.
  unfold trim. destruct (drop_white_split cs) as (b & E1 & F1 & H1). set (d := drop_white cs) in *.
  destruct (drop_white_split (rev d)) as (a & E2 & F2 & H2). set (e := drop_white (rev d)) in *.
  assert (Ed : d = rev e ++ rev a) by (rewrite <- (rev_involutive d), E2, rev_app_distr; reflexivity).
  exists b, (rev a). split; [rewrite <- Ed; exact E1|]. split; [exact F1|]. split; [now apply Forall_rev|]. split.
  - intros c r E. apply (H1 c (r ++ rev a)). rewrite Ed, E. reflexivity.
  - intros c r E. apply (H2 c (rev r)). rewrite <- (rev_involutive e), E, rev_app_distr. reflexivity.
Qed.
Lemma drop_white_app w cs : Forall (fun c => is_white c = true) w -> drop_white (w ++ cs) = drop_white cs.
Proof. induction 1 as [|c w E _ IH]; cbn [app drop_white]; [reflexivity|]. now rewrite E. Qed.
Lemma drop_white_stop cs : (forall c r, cs = c :: r -> is_white c = false) -> drop_white cs = cs.
Proof. destruct cs as [|c r]; intros H; cbn [drop_white]; [reflexivity|]. now rewrite (H c r eq_refl). Qed.
Lemma trim_unique b cs a : Forall (fun c => is_white c = true) b -> Forall (fun c => is_white c = true) a ->
  (forall c r, cs = c :: r -> is_white c = false) -> (forall c r, cs = r ++ [c] -> is_white c = false) ->
  trim (b ++ cs ++ a) = cs.
Proof.
  intros Fb Fa H1 H2. unfold trim. rewrite drop_white_app by exact Fb.
  destruct cs as [|c cs].
  - cbn [app]. rewrite <- (app_nil_r a), drop_white_app by exact Fa. reflexivity.
  - rewrite (drop_white_stop ((c :: cs) ++ a)); [|intros x r E; cbn [app] in E; injection E as E _; apply (H1 x cs); now rewrite E].
    rewrite rev_app_distr, drop_white_app by now apply Forall_rev.
    rewrite drop_white_stop; [apply rev_involutive|].
    intros x r E. apply (H2 x (rev r)). rewrite <- (rev_involutive (c :: cs)), E. reflexivity.
Qed.
Lemma trim_text_iff l w : trim_text l = Some w <-> says l w.
Proof.
  unfold trim_text. rewrite obind_some. split.
  - intros (cs & D & E). apply utf8_dec_inv in D as [S L]. destruct (trim_split cs) as (b & a & E1 & H).
    exists b, (trim cs), a. assert (w = utf8_enc (trim cs)) as -> by congruence. rewrite <- E1. split; [exact L|]. split; [reflexivity|].
    split; [|exact H]. unfold scalars in S. apply Forall_forall. rewrite forallb_forall in S. exact S.
  - intros (b & cs & a & -> & -> & S & Fb & Fa & H1 & H2). exists (b ++ cs ++ a). split.
    + apply utf8_dec_enc. unfold scalars. apply forallb_forall. rewrite Forall_forall in S. exact S.
    + now rewrite trim_unique.
Qed.

Lemma prompt_iff inp w rest : prompt inp = Some (w, rest) <-> exists l, next_line inp l rest /\ says l w.
Proof.
  unfold prompt. destruct (cut_line inp) as [l0 r0] eqn:E. rewrite obind_some. split.
  - intros (t & T & Et). exists l0. assert (t = w /\ r0 = rest) as [-> ->] by (split; congruence).
    split; [now apply cut_line_iff|now apply trim_text_iff].
  - intros (l & N & S). apply cut_line_iff in N. assert (l0 = l /\ r0 = rest) as [-> ->] by (split; congruence).
    exists w. split; [now apply trim_text_iff|reflexivity].
Qed.

Lemma answers_cons w ws inp rest : answers (w :: ws) inp rest <-> exists mid, prompt inp = Some (w, mid) /\ answers ws mid rest.
Proof.
  split.
  - intros H. inversion H as [|l w' ws' i m r NL SY A]; subst. exists m. split; [|assumption]. apply prompt_iff. eauto.
  - intros (mid & P & A). apply prompt_iff in P as (l & NL & SY). econstructor; eauto.
Qed.
Lemma answers_nil inp rest : answers [] inp rest <-> rest = inp.
Proof. split; [now inversion 1|intros ->; constructor]. Qed.

Lemma memb_bytes w l : memb bytes_eqb w l = true <-> In w l.
Proof. apply memb_In. apply bytes_eqb_eq. Qed.
Lemma memb_bytes_false w l : memb bytes_eqb w l = false <-> ~ In w l.
Proof. rewrite <- memb_bytes. destruct (memb bytes_eqb w l); split; intuition congruence. Qed.

Lemma yes_not_no w : affirmative w -> negative w -> False.
Proof. unfold affirmative, negative. cbn. intros A B. repeat (destruct A as [A|A]; [subst; repeat (destruct B as [B|B]; [discriminate B|]); exact B|]). exact A. Qed.

Lemma loop_true n : forall inp rest, prompt_loop n inp = Some (true, rest) <->
  exists ws w, answers (ws ++ [w]) inp rest /\ (length ws < n)%nat /\ Forall unrecognised ws /\ affirmative w.
Proof.
  induction n as [|n IH]; intros inp rest; cbn [prompt_loop].
  { split; [discriminate|]. intros (ws & w & _ & L & _). lia. }
  split.
  - rewrite obind_some. intros ([a mid] & P & H). destruct (memb bytes_eqb a YES) eqn:Ey.
    + exists [], a. assert (mid = rest) as -> by congruence. split; [|split; [cbn; lia|split; [constructor|now apply memb_bytes]]].
      cbn [app]. apply answers_cons. exists rest. split; [exact P|constructor].
    + destruct (memb bytes_eqb a NO) eqn:En; [discriminate|]. apply IH in H as (ws & w & A & L & F & W).
      exists (a :: ws), w. split; [cbn [app]; apply answers_cons; eauto|]. split; [cbn; lia|]. split; [|exact W].
      constructor; [|exact F]. split; intros X.
      * apply memb_bytes_false in Ey. now apply Ey.
      * apply memb_bytes_false in En. now apply En.
  - intros (ws & w & A & L & F & W). destruct ws as [|a ws]; cbn [app] in A; apply answers_cons in A as (mid & P & A).
    + rewrite P. cbn [obind]. apply answers_nil in A. subst mid. replace (memb bytes_eqb w YES) with true by (symmetry; now apply memb_bytes). reflexivity.
    + rewrite P. cbn [obind]. inversion F as [|a' ws' [Na Nn] F']; subst.
      replace (memb bytes_eqb a YES) with false by (symmetry; now apply memb_bytes_false).
      replace (memb bytes_eqb a NO) with false by (symmetry; now apply memb_bytes_false).
      apply IH. exists ws, w. split; [exact A|]. split; [cbn in L; lia|]. now split.
Qed.
Lemma prompt_yes_iff inp rest : prompt_is_yes inp = Some (true, rest) <-> confirmed inp rest.
Proof.
  unfold prompt_is_yes, confirmed. rewrite loop_true. split; intros (ws & w & A & L & R); exists ws, w; (split; [exact A|split; [lia|exact R]]).
Qed.

Lemma ask_all_true qs : forall inp asked, ask_all qs inp = (asked, true) <-> asked = qs /\ all_confirmed (length qs) inp.
Proof.
  induction qs as [|q qs IH]; intros inp asked; cbn [ask_all length].
  { split; [intros E; split; [congruence|constructor]|intros [-> _]; reflexivity]. }
  split.
  - destruct (prompt_is_yes inp) as [[[] rest]|] eqn:P; try (intros E; discriminate E).
    destruct (ask_all qs rest) as [l ok] eqn:E. intros E'. assert (ok = true /\ asked = q :: l) as [-> ->] by (split; congruence).
    apply IH in E as [-> A]. split; [reflexivity|]. econstructor; [apply prompt_yes_iff; exact P|exact A].
  - intros [-> A]. inversion A as [|n i rest C A']; subst. apply prompt_yes_iff in C. rewrite C.
    assert (E : ask_all qs rest = (qs, true)) by (apply IH; now split). now rewrite E.
Qed.
Lemma ask_all_prefix qs : forall inp, exists more, qs = fst (ask_all qs inp) ++ more.
Proof.
  induction qs as [|q qs IH]; intros inp; cbn [ask_all]; [exists []; reflexivity|].
  destruct (prompt_is_yes inp) as [[[] rest]|]; try (exists qs; reflexivity).
  destruct (IH rest) as [more E]. destruct (ask_all qs rest) as [l ok]. cbn [fst] in *. exists more. cbn [app]. congruence.
Qed.
