(** C81, C82: the program that runs the enclave on the host (EnclaveHost.v). *)
From Verif Require Import Base Utf8 Json Pool EnclaveHost SpecReadable ReadableProofs.
From Coq Require Import ZifyBool ZifyN ZifyNat.
Local Open Scope N_scope.

(** ** Specification of C81 *)
(** [stream] is the lines, each ended by a newline, then [tail]. *)
Definition framed (stream : bytes) (lines : list bytes) (tail : bytes) : Prop :=
  stream = concat (map (fun l => l ++ [x0a]) lines) ++ tail /\ Forall (fun l => ~ In x0a l) lines /\ ~ In x0a tail.
(** The text of a line: its characters, with U+FFFD for what is not UTF-8
    (SpecReadable.v), without the carriage returns at its end. *)
Definition shown (line : bytes) (text : bytes) : Prop :=
  exists n, readable line (text ++ repeat x0d n) /\ (text = [] \/ exists t c, text = t ++ [c] /\ c <> x0d).
Inductive events_of : list bytes -> list bytes -> Prop :=
| Ev_nil : events_of [] []
| Ev_empty l ls es : shown l [] -> events_of ls es -> events_of (l :: ls) es
| Ev_text l t ls es : shown l t -> t <> [] -> events_of ls es -> events_of (l :: ls) (t :: es).

(** ** Proofs *)
Lemma lossy_reads l : readable l (from_utf8_lossy l).
Proof. apply lossy_readable. lia. Qed.
Lemma readable_lossy l t : readable l t -> from_utf8_lossy l = t.
Proof. intros H. exact (readable_fun _ _ (lossy_reads l) _ H). Qed.
Local Lemma byte_eqb_eq a b : byte_eqb a b = true <-> a = b.
Proof. destruct (byte_eqb_spec a b); split; congruence. Qed.
Lemma trim_shown s : exists n, s = trim_cr s ++ repeat x0d n /\ (trim_cr s = [] \/ exists t c, trim_cr s = t ++ [c] /\ c <> x0d).
Proof.
  induction s as [|c r IH]; [exists 0%nat; auto|]. destruct IH as (n & E & H). cbn [trim_cr].
  destruct (trim_cr r) as [|d r'] eqn:T.
  - destruct (byte_eqb c x0d) eqn:B.
    + apply byte_eqb_eq in B. subst c. exists (Datatypes.S n). cbn [app repeat] in *. split; [now rewrite E at 1|auto].
    + exists n. cbn [app] in *. split; [now rewrite E at 1|]. right. exists [], c. split; [reflexivity|]. intros ->. rewrite byte_eqb_refl in B. discriminate.
  - exists n. cbn [app] in *. split; [now rewrite E at 1|]. right. destruct H as [H|(t & c' & H & N)]; [discriminate|]. exists (c :: t), c'. split; [now rewrite H|exact N].
Qed.
Lemma emit_shown l : (emit_line l = [] /\ shown l []) \/ (exists t, emit_line l = [t] /\ shown l t /\ t <> []).
Proof.
  unfold emit_line. destruct (trim_shown (from_utf8_lossy l)) as (n & E & H).
  destruct (trim_cr (from_utf8_lossy l)) as [|c r] eqn:T.
  - left. split; [reflexivity|]. exists n. rewrite <- E. split; [apply lossy_reads|exact H].
  - right. exists (c :: r). split; [reflexivity|]. split; [exists n; rewrite <- E; split; [apply lossy_reads|exact H]|discriminate].
Qed.
Lemma events_emit lines : events_of lines (flat_map emit_line lines).
Proof.
  induction lines as [|l ls IH]; [constructor|]. cbn [flat_map].
  destruct (emit_shown l) as [[-> S]|(t & -> & S & N)]; [now apply Ev_empty|now apply Ev_text].
Qed.
Lemma events_fun lines : forall a b, events_of lines a -> events_of lines b -> a = b.
Proof.
  assert (F : forall l s t, shown l s -> shown l t -> s = t).
  { intros l s t (n & E1 & H1) (m & E2 & H2). apply readable_lossy in E1, E2. rewrite E1 in E2. clear E1 l.
    assert (R : forall n (x : bytes), x ++ repeat x0d (Datatypes.S n) = (x ++ repeat x0d n) ++ [x0d]).
    { intros k x. rewrite <- app_assoc. f_equal. induction k; [reflexivity|]. cbn [repeat app] in *. now rewrite IHk at 1. }
    revert m E2. induction n as [|n IH]; intros [|m] E2.
    - cbn [repeat] in E2. now rewrite !app_nil_r in E2.
    - rewrite R in E2. cbn [repeat] in E2. rewrite app_nil_r in E2. destruct H1 as [->|(s' & c & -> & N)]; [destruct (t ++ repeat x0d m); discriminate|].
      apply app_inj_tail in E2 as [_ E2]. congruence.
    - rewrite R in E2. cbn [repeat] in E2. rewrite app_nil_r in E2. destruct H2 as [->|(s' & c & -> & N)]; [destruct (s ++ repeat x0d n); discriminate|].
      apply app_inj_tail in E2 as [_ E2]. congruence.
    - rewrite !R in E2. apply app_inj_tail in E2 as [E2 _]. now apply (IH m). }
  induction lines as [|l ls IH]; intros a b A B.
  - inversion A; inversion B; auto.
  - inversion A; subst; inversion B; subst.
    + now apply IH.
    + exfalso. match goal with X : ?t <> [] |- _ => apply X end. symmetry. now apply (F l).
    + exfalso. match goal with X : ?t <> [] |- _ => apply X end. now apply (F l).
    + f_equal; [now apply (F l)|now apply IH].
Qed.

Lemma take_line_spec l : match take_line l with
  | Some (a, b) => l = a ++ x0a :: b /\ ~ In x0a a
  | None => ~ In x0a l end.
Proof.
  induction l as [|c r IH]; [intros []|]. cbn [take_line]. destruct (byte_eqb c x0a) eqn:B.
  - apply byte_eqb_eq in B. subst c. split; [reflexivity|intros []].
  - assert (N : c <> x0a) by (intros ->; rewrite byte_eqb_refl in B; discriminate).
    destruct (take_line r) as [[a b]|].
    + destruct IH as [-> H]. split; [reflexivity|]. intros [E|E]; [congruence|contradiction].
    + intros [E|E]; [congruence|contradiction].
Qed.
Lemma emit_lines_spec fuel : forall l, (length l <= fuel)%nat -> exists lines tail, framed l lines tail /\ emit_lines fuel l = (flat_map emit_line lines, tail).
Proof.
  induction fuel as [|fuel IH]; intros l L.
  - destruct l; [|cbn in L; lia]. exists [], []. split; [split; [reflexivity|split; [constructor|intros []]]|reflexivity].
  - cbn [emit_lines]. pose proof (take_line_spec l) as T. destruct (take_line l) as [[a b]|].
    + destruct T as [-> N]. rewrite app_length in L. cbn [length] in L. destruct (IH b ltac:(lia)) as (lines & tail & (E & F & G) & ->).
      exists (a :: lines), tail. split; [|reflexivity]. split; [|split; [now constructor|exact G]]. cbn [map concat]. rewrite <- !app_assoc. cbn [app]. now rewrite E at 1.
    + exists [], l. split; [split; [reflexivity|split; [constructor|exact T]]|reflexivity].
Qed.
Lemma framed_fun s : forall l1 t1 l2 t2, framed s l1 t1 -> framed s l2 t2 -> l1 = l2 /\ t1 = t2.
Proof.
  intros l1. revert s. induction l1 as [|a l1 IH]; intros s t1 l2 t2 (E1 & F1 & G1) (E2 & F2 & G2).
  - destruct l2 as [|b l2].
    + cbn in E1, E2. subst. auto.
    + exfalso. apply G1. cbn [map concat app] in E1, E2. rewrite <- E1, E2. apply in_or_app. left. apply in_or_app. left. apply in_or_app. right. apply in_eq.
  - destruct l2 as [|b l2].
    + exfalso. apply G2. cbn [map concat app] in E1, E2. rewrite <- E2, E1. apply in_or_app. left. apply in_or_app. left. apply in_or_app. right. apply in_eq.
    + inversion F1 as [|? ? Na F1']; inversion F2 as [|? ? Nb F2']; subst. cbn [map concat] in E2. rewrite <- !app_assoc in E2. cbn [app] in E2.
      assert (X : forall (p q r : bytes) (u : bytes), ~ In x0a p -> ~ In x0a q -> p ++ x0a :: r = q ++ x0a :: u -> p = q /\ r = u).
      { clear. induction p as [|x p IH]; intros [|z q] r u P Q E; cbn [app] in E.
        - injection E as ->. auto.
        - injection E as Ez _. exfalso. apply Q. left. congruence.
        - injection E as Ez _. exfalso. apply P. left. congruence.
        - injection E as -> E. destruct (IH q r u) as [-> ->]; auto; intro I; [apply P|apply Q]; now right. }
      apply X in E2 as [-> E2]; auto. destruct (IH _ t1 l2 t2 (conj eq_refl (conj F1' G1)) (conj E2 (conj F2' G2))) as [-> ->]. auto.
Qed.
Lemma framed_total s : exists lines tail, framed s lines tail.
Proof. destruct (emit_lines_spec (length s) s (le_n _)) as (l & t & F & _). eauto. Qed.
Lemma framed_app s l t c l' t' : framed s l t -> framed (t ++ c) l' t' -> framed (s ++ c) (l ++ l') t'.
Proof.
  intros (E & F & G) (E' & F' & G'). split; [|split; [now apply Forall_app|exact G']]. rewrite map_app, concat_app, E, <- app_assoc, E', app_assoc. reflexivity.
Qed.
Lemma writes_spec chunks : forall s lines buffer, framed s lines buffer ->
  exists lines' tail, framed (s ++ concat chunks) (lines ++ lines') tail /\ console_writes buffer chunks = (flat_map emit_line lines', tail).
Proof.
  induction chunks as [|c r IH]; intros s lines buffer F.
  - exists [], buffer. cbn [concat]. rewrite !app_nil_r. auto.
  - cbn [console_writes concat]. unfold console_write.
    destruct (emit_lines_spec (length (buffer ++ c)) (buffer ++ c) (le_n _)) as (l1 & t1 & F1 & ->).
    destruct (IH (s ++ c) (lines ++ l1) t1 (framed_app _ _ _ _ _ _ F F1)) as (l2 & t2 & F2 & ->).
    exists (l1 ++ l2), t2. rewrite app_assoc. split; [now rewrite app_assoc|]. now rewrite flat_map_app.
Qed.

(** However the console's output is cut into chunks, exactly its non-empty
    lines are logged, each once and in order, as soon as they are complete;
    the last, unfinished one when the console ends. *)
Theorem c81_console_lines_are_logged : forall chunks lines tail, framed (concat chunks) lines tail ->
  events_of lines (fst (console_writes [] chunks)) /\ events_of (lines ++ [tail]) (read_logs chunks).
Proof.
  intros chunks lines tail F.
  destruct (writes_spec chunks [] [] []) as (l & t & F' & W); [split; [reflexivity|split; [constructor|intros []]]|]. cbn [app] in F'.
  destruct (framed_fun _ _ _ _ _ F F') as [-> ->]. unfold read_logs. rewrite W. cbn [fst]. split; [apply events_emit|].
  assert (X : flat_map emit_line l ++ console_flush t = flat_map emit_line (l ++ [t])).
  { rewrite flat_map_app. cbn [flat_map]. rewrite app_nil_r. f_equal. destruct t; reflexivity. }
  rewrite X. apply events_emit.
Qed.
Print Assumptions c81_console_lines_are_logged.
(** The cuts do not matter. *)
Theorem c81_chunking_is_invisible : forall a b, concat a = concat b -> read_logs a = read_logs b.
Proof.
  intros a b E. destruct (framed_total (concat a)) as (l & t & F). pose proof (c81_console_lines_are_logged a l t F) as [_ A]. rewrite E in F.
  pose proof (c81_console_lines_are_logged b l t F) as [_ B]. exact (events_fun _ _ _ A B).
Qed.
Print Assumptions c81_chunking_is_invisible.

(** *** What a line shows *)
Lemma next_shorter l c r : utf8_next l = Some (c, r) -> (length r < length l)%nat.
Proof. intros H. apply utf8_next_inv in H as [_ ->]. rewrite app_length. pose proof (utf8_char_nonempty c). lia. Qed.
Lemma bad_pos l : (1 <= bad_len l)%nat.
Proof.
  unfold bad_len. destruct l as [|b0 [|b1 r]]; try lia. destruct (_ && _); [match goal with |- context [if ?x then 2%nat else _] => destruct x end; lia|].
  destruct (_ && _); [|lia]. match goal with |- context [if ?x then match r with _ => _ end else _] => destruct x end; [|lia]. destruct r as [|b2 ?]; [lia|]. destruct (is_cont b2); lia.
Qed.
Lemma lossy_valid_fuel cs : scalars cs = true -> forall fuel, (length (utf8_enc cs) <= fuel)%nat -> lossy_fuel fuel (utf8_enc cs) = utf8_enc cs.
Proof.
  induction cs as [|c cs IH]; intros S fuel L; [destruct fuel; reflexivity|].
  unfold scalars in S. cbn [forallb] in S. apply andb_true_iff in S as [Sc S]. change (utf8_enc (c :: cs)) with (utf8_char c ++ utf8_enc cs) in *.
  pose proof (utf8_char_nonempty c). rewrite app_length in L. destruct fuel as [|fuel]; [lia|].
  cbn [lossy_fuel]. destruct (utf8_char c ++ utf8_enc cs) as [|x l] eqn:E; [apply app_eq_nil in E as [E _]; rewrite E in H; cbn in H; lia|].
  rewrite <- E. rewrite (utf8_next_enc c (utf8_enc cs) Sc). f_equal. apply IH; [exact S|lia].
Qed.
Lemma lossy_is_valid fuel : forall l, exists cs, scalars cs = true /\ lossy_fuel fuel l = utf8_enc cs.
Proof.
  induction fuel as [|fuel IH]; intros l; [exists []; auto|]. cbn [lossy_fuel]. destruct l as [|x l]; [exists []; auto|].
  destruct (utf8_next (x :: l)) as [[c r]|] eqn:N.
  - apply utf8_next_inv in N as [Sc _]. destruct (IH r) as (cs & S & ->). exists (c :: cs). split; [unfold scalars; cbn [forallb]; now rewrite Sc|reflexivity].
  - destruct (IH (skipn (bad_len (x :: l)) (x :: l))) as (cs & S & ->). exists (65533 :: cs). split; [exact S|reflexivity].
Qed.
(** A line that is UTF-8 is shown as it is but for carriage returns at its end. *)
Theorem c81_text_is_verbatim : forall t, utf8_valid t = true -> (t = [] \/ exists s c, t = s ++ [c] /\ c <> x0d) ->
  forall n, shown (t ++ repeat x0d n) t /\ forall t', shown (t ++ repeat x0d n) t' -> t' = t.
Proof.
  intros t V H n. assert (S : shown (t ++ repeat x0d n) t).
  { exists n. split; [|exact H]. enough (L : from_utf8_lossy (t ++ repeat x0d n) = t ++ repeat x0d n) by (rewrite <- L at 2; apply lossy_reads).
    apply utf8_valid_iff in V as (cs & S & ->).
    assert (E : utf8_enc cs ++ repeat x0d n = utf8_enc (cs ++ repeat 13 n)).
    { unfold utf8_enc. rewrite map_app, concat_app. f_equal. induction n; [reflexivity|]. cbn [repeat map concat]. rewrite <- IHn. reflexivity. }
    rewrite E. apply lossy_valid_fuel; [|reflexivity]. unfold scalars. rewrite forallb_app. change (forallb is_scalar cs) with (scalars cs). rewrite S. clear; induction n; [reflexivity|exact IHn]. }
  split; [exact S|]. intros t' S'. destruct (list_eq_dec Byte.byte_eq_dec t []) as [Z|Z], (list_eq_dec Byte.byte_eq_dec t' []) as [Z'|Z']; subst; auto.
  - pose proof (events_fun [[] ++ repeat x0d n] [] [t'] (Ev_empty _ _ _ S Ev_nil) (Ev_text _ _ _ _ S' Z' Ev_nil)) as X. discriminate.
  - pose proof (events_fun [t ++ repeat x0d n] [t] [] (Ev_text _ _ _ _ S Z Ev_nil) (Ev_empty _ _ _ S' Ev_nil)) as X. discriminate.
  - pose proof (events_fun [t ++ repeat x0d n] [t] [t'] (Ev_text _ _ _ _ S Z Ev_nil) (Ev_text _ _ _ _ S' Z' Ev_nil)) as X. congruence.
Qed.
Print Assumptions c81_text_is_verbatim.

Lemma next_prefix l c r : utf8_next l = Some (c, r) -> l = utf8_char c ++ r.
Proof. intros H. now apply utf8_next_inv in H. Qed.
Lemma lossy_in fuel : forall l, In x0a (lossy_fuel fuel l) -> In x0a l.
Proof.
  induction fuel as [|fuel IH]; intros l; [intros []|]. cbn [lossy_fuel]. destruct l as [|x l]; [intros []|].
  destruct (utf8_next (x :: l)) as [[c r]|] eqn:N.
  - apply next_prefix in N. rewrite N. intros I. apply in_app_or in I as [I|I]; apply in_or_app; [now left|right; now apply IH].
  - intros I. apply in_app_or in I as [I|I]; [exfalso; cbn in I; destruct I as [I|[I|[I|[]]]]; discriminate|].
    apply IH in I. rewrite <- (firstn_skipn (bad_len (x :: l)) (x :: l)). apply in_or_app. now right.
Qed.
Lemma strip_cr x : forall cs, scalars cs = true -> x ++ [x0d] = utf8_enc cs -> exists cs', scalars cs' = true /\ x = utf8_enc cs'.
Proof.
  intros cs S E. destruct (exists_last (l := cs)) as (cs' & c & ->).
  { intros ->. destruct x; discriminate. }
  exists cs'. unfold scalars in S. rewrite forallb_app in S. apply andb_true_iff in S as [S Sc]. split; [exact S|].
  unfold utf8_enc in *. rewrite map_app, concat_app in E. cbn [map concat] in E. rewrite app_nil_r in E.
  assert (B : forall n, b2n (n2b (128 + n mod 64)) = 128 + n mod 64) by (intros n; rewrite b2n_n2b; pose proof (N.mod_lt n 64); apply N.mod_small; lia).
  assert (L : forall a b, x ++ [x0d] = a ++ [b] -> b2n b = 13 /\ x = a).
  { intros a b H. apply app_inj_tail in H as [H1 <-]. auto. }
  unfold utf8_char in E. destruct (c <? 128) eqn:C1.
  - apply L in E as [_ E]. exact E.
  - exfalso. destruct (c <? 2048); [|destruct (c <? 65536)]; repeat match type of E with _ = ?a ++ ?x :: ?y :: ?l => change (a ++ x :: y :: l) with (a ++ ([x] ++ (y :: l))) in E; rewrite app_assoc in E end;
      apply L in E as [E _]; rewrite B in E; lia.
Qed.
Lemma strip_crs n : forall x cs, scalars cs = true -> x ++ repeat x0d n = utf8_enc cs -> exists cs', scalars cs' = true /\ x = utf8_enc cs'.
Proof.
  induction n as [|n IH]; intros x cs S E; [rewrite app_nil_r in E; eauto|].
  cbn [repeat] in E. change (x0d :: repeat x0d n) with ([x0d] ++ repeat x0d n) in E. rewrite app_assoc in E.
  destruct (IH _ _ S E) as (cs1 & S1 & E1). exact (strip_cr x cs1 S1 E1).
Qed.
(** Every event is text: UTF-8, on one line, not empty. *)
Theorem c81_events_are_text : forall chunks e, In e (read_logs chunks) -> e <> [] /\ ~ In x0a e /\ utf8_valid e = true.
Proof.
  intros chunks e I. destruct (framed_total (concat chunks)) as (lines & tail & F).
  pose proof (c81_console_lines_are_logged chunks lines tail F) as [_ Ev].
  assert (NL : Forall (fun l => ~ In x0a l) (lines ++ [tail])) by (apply Forall_app; split; [apply F|constructor; [apply F|constructor]]).
  revert I NL Ev. generalize (read_logs chunks), (lines ++ [tail]). intros es ls I NL Ev. induction Ev as [|l ls es S Ev IH|l t ls es S N Ev IH].
  - destruct I.
  - inversion NL; auto.
  - inversion NL as [|? ? Nl NL']; subst. destruct I as [->|I]; [|auto]. destruct S as (n & E & _). apply readable_lossy in E.
    split; [exact N|]. split.
    + intros In0. apply Nl. apply (lossy_in (length l)). fold (from_utf8_lossy l). rewrite E. apply in_or_app. now left.
    + destruct (lossy_is_valid (length l) l) as (cs & Sc & E2). fold (from_utf8_lossy l) in E2. rewrite E in E2. apply utf8_valid_iff. exact (strip_crs _ _ _ Sc E2).
Qed.
Print Assumptions c81_events_are_text.
(** How output that is not UTF-8 is shown. *)
Theorem c81_replacements : forall l t, from_utf8_lossy l = t <-> readable l t.
Proof. intros l t. split; [intros <-; apply lossy_reads|apply readable_lossy]. Qed.
Print Assumptions c81_replacements.
Example c81_nontrivial : framed (bs "first" ++ [x0a] ++ bs "sec" ++ [xff] ++ bs "ond" ++ [x0d; x0a; x0a] ++ bs "thi") [bs "first"; bs "sec" ++ [xff] ++ bs "ond" ++ [x0d]; []] (bs "thi") /\
  read_logs [bs "fir"; bs "st" ++ [x0a] ++ bs "sec" ++ [xff]; bs "ond" ++ [x0d]; [x0a; x0a] ++ bs "thi"] = [bs "first"; bs "sec" ++ [xef; xbf; xbd] ++ bs "ond"; bs "thi"] /\
  from_utf8_lossy [x41; xe2; x82; x41; xf0; x90; x80] = [x41] ++ REPLACEMENT ++ [x41] ++ REPLACEMENT /\
  from_utf8_lossy [xed; xa0; x80] = REPLACEMENT ++ REPLACEMENT ++ REPLACEMENT /\ utf8_valid (bs "first") = true.
Proof.
  split; [|split; [vm_compute; reflexivity|split; [vm_compute; reflexivity|split; vm_compute; reflexivity]]].
  split; [vm_compute; reflexivity|]. assert (D : forall l, existsb (byte_eqb x0a) l = false -> ~ In x0a l).
  { intros l H I. assert (X : existsb (byte_eqb x0a) l = true) by (apply existsb_exists; exists x0a; split; [exact I|reflexivity]). congruence. }
  split; [constructor; [|constructor; [|constructor; [|constructor]]]|]; apply D; vm_compute; reflexivity.
Qed.

(** ** C82 *)
(** The setting of a variable: its value if it has one (unset and non-unicode
    count as none), else the default. *)
Definition setting (v : option bytes) (default text : bytes) : Prop := v = Some text \/ v = None /\ text = default.
(** [a] is what the environment asks for. *)
Definition asked (e : host_env) (a : run_args) : Prop :=
  setting (v_eif e) (bs "/aws-x86_64.eif") (r_eif a) /\ setting (v_name e) (bs "nitro") (r_name a) /\
  (exists t, setting (v_cid e) (bs "16") t /\ parse_unsigned 4294967296 t = Some (r_cid a)) /\
  (exists t, setting (v_mem e) (bs "1024") t /\ parse_unsigned 18446744073709551616 t = Some (r_mem a)) /\
  (exists t, setting (v_cpu e) (bs "2") t /\ parse_unsigned 4294967296 t = Some (r_cpu a)) /\
  setting (v_debug e) (bs "false") (if r_debug a then bs "true" else bs "false") /\
  setting (v_logs e) (bs "false") (if r_console a then bs "true" else bs "false").
Lemma or_setting v d : setting v d (or v d).
Proof. destruct v; [left|right]; auto. Qed.
Lemma setting_or v d t : setting v d t -> or v d = t.
Proof. intros [->|[-> ->]]; reflexivity. Qed.
Lemma parse_bool_iff s b : parse_bool s = Some b <-> s = if b then bs "true" else bs "false".
Proof.
  unfold parse_bool. destruct (bytes_eqb_spec s (bs "true")) as [->|N].
  - split; [intros H; injection H as <-; reflexivity|]. destruct b; [reflexivity|discriminate].
  - destruct (bytes_eqb_spec s (bs "false")) as [->|N']; [split; [intros H; injection H as <-; reflexivity|destruct b; [discriminate|reflexivity]]|].
    split; [discriminate|]. destruct b; intros ->; congruence.
Qed.
Lemma launch_iff e a : launch_args e = Some a <-> asked e a.
Proof.
  unfold launch_args, asked. split.
  - intros H. destruct (parse_unsigned U32 (or (v_cid e) (bs "16"))) as [cid|] eqn:E1; [|discriminate].
    destruct (parse_unsigned U64_LIMIT (or (v_mem e) (bs "1024"))) as [mem|] eqn:E2; [|discriminate].
    destruct (parse_bool (or (v_debug e) (bs "false"))) as [dbg|] eqn:E3; [|discriminate].
    destruct (parse_bool (or (v_logs e) (bs "false"))) as [logs|] eqn:E4; [|discriminate].
    destruct (parse_unsigned U32 (or (v_cpu e) (bs "2"))) as [cpu|] eqn:E5; [|discriminate].
    cbn [obind] in H. injection H as <-. cbn [r_eif r_name r_cid r_mem r_cpu r_debug r_console].
    apply parse_bool_iff in E3, E4. rewrite <- E3, <- E4. 
    split; [apply or_setting|]. split; [apply or_setting|]. split; [eexists; split; [apply or_setting|exact E1]|].
    split; [eexists; split; [apply or_setting|exact E2]|]. split; [eexists; split; [apply or_setting|exact E5]|]. split; apply or_setting.
  - intros (A & B & (t1 & C1 & C2) & (t2 & D1 & D2) & (t3 & F1 & F2) & G & H).
    apply setting_or in A, B, C1, D1, F1, G, H. rewrite A, B, C1, D1, F1, G, H. unfold U32, U64_LIMIT. rewrite C2, D2, F2.
    rewrite !(proj2 (parse_bool_iff _ _) eq_refl). destruct a; reflexivity.
Qed.

(** An enclave is started at most once, with exactly what the environment asks
    for; if a value cannot be read nothing is started and the program fails.
    In particular debug mode (whose attestation means nothing) is on only if
    DEBUG is the word "true". *)
Theorem c82_launches_as_told : forall e n,
  let (evs, fin) := host_main e n in
  (evs = [] \/ exists a rest, evs = Started a :: rest /\ asked e a /\ (forall b, ~ In (Started b) rest) /\
     (forall p, In (Attached p) rest -> v_logs e = Some (bs "true")) /\ (r_debug a = true <-> v_debug e = Some (bs "true"))) /\
  ((forall a, ~ asked e a) -> evs = [] /\ fin = Failed) /\
  (fin = Succeeded -> n_signal n = true /\ exists a, In (Started a) evs) /\
  (fin = Failed -> ~ In Serving evs).
Proof.
  intros e n. unfold host_main. destruct (launch_args e) as [a|] eqn:L.
  2:{ split; [now left|]. split; [auto|]. split; [discriminate|]. intros _ []. }
  apply launch_iff in L.
  assert (DB : r_debug a = true <-> v_debug e = Some (bs "true")).
  { destruct L as (_ & _ & _ & _ & _ & [D|[D D']] & _); destruct (r_debug a); rewrite D; split; try discriminate; auto. }
  assert (LG : r_console a = true -> v_logs e = Some (bs "true")).
  { intros R. destruct L as (_ & _ & _ & _ & _ & _ & D). rewrite R in D. destruct D as [D|[_ D]]; [exact D|discriminate]. }
  assert (NO : (forall b, ~ asked e b) -> False) by (intros H; exact (H a L)).
  destruct (n_dir n && n_logger n && n_spawn n && n_send n).
  2:{ split; [now left|]. split; [intros H; destruct (NO H)|]. split; [discriminate|]. intros _ []. }
  destruct (n_starts n); cbn [andb].
  2:{ split; [now left|]. split; [intros H; destruct (NO H)|]. split; [discriminate|]. intros _ []. }
  assert (ONE : forall rest, (forall b, ~ In (Started b) rest) -> (forall p, In (Attached p) rest -> r_console a = true) ->
    [Started a] ++ rest = [] \/ exists a0 r, [Started a] ++ rest = Started a0 :: r /\ asked e a0 /\ (forall b, ~ In (Started b) r) /\
     (forall p, In (Attached p) r -> v_logs e = Some (bs "true")) /\ (r_debug a0 = true <-> v_debug e = Some (bs "true"))).
  { intros rest R1 R2. right. exists a, rest. split; [reflexivity|]. split; [exact L|]. split; [exact R1|]. split; [intros p I; apply LG; exact (R2 p I)|exact DB]. }
  destruct (n_reply n).
  2:{ split; [apply (ONE []); [intros b []|intros p []]|]. split; [intros H; destruct (NO H)|]. split; [discriminate|]. intros _ [H|[]]; discriminate. }
  destruct (negb (r_console a) || n_console n).
  2:{ split; [apply (ONE []); [intros b []|intros p []]|]. split; [intros H; destruct (NO H)|]. split; [discriminate|]. intros _ [H|[]]; discriminate. }
  destruct (n_id n).
  2:{ split; [|split; [intros H; destruct (NO H)|split; [discriminate|]]].
      - destruct (r_console a) eqn:C; [apply ONE; [intros b [H|[]]; discriminate|auto]|apply (ONE []); [intros b []|intros p []]].
      - intros _. destruct (r_console a); intros H; cbn in H; intuition discriminate. }
  destruct (n_signal n).
  - split; [|split; [intros H; destruct (NO H)|split; [intros _; split; [reflexivity|exists a; now left]|discriminate]]].
    destruct (r_console a) eqn:C, (n_connect n); apply ONE; intros ? H; cbn in H; intuition discriminate.
  - split; [|split; [intros H; destruct (NO H)|split; [discriminate|discriminate]]].
    destruct (r_console a) eqn:C; apply ONE; intros ? H; cbn in H; intuition discriminate.
Qed.
Print Assumptions c82_launches_as_told.
(** When all of nitro-cli's calls work, the enclave asked for is started and
    served until a signal arrives, then terminated. *)
Theorem c82_starts_when_it_can : forall e a n, asked e a ->
  n_dir n = true -> n_logger n = true -> n_spawn n = true -> n_send n = true -> n_starts n = true -> n_reply n = true -> n_console n = true -> n_id n = true ->
  exists mid, fst (host_main e n) = [Started a] ++ mid ++ [Serving] ++ (if n_signal n && n_connect n then [Terminated] else []) /\ ~ In Terminated mid /\
    snd (host_main e n) = (if n_signal n then Succeeded else StillRunning) /\
    (mid = if r_console a then [Attached ((r_cid a + 10000) mod 4294967296)] else []).
Proof.
  intros e a n A H1 H2 H3 H4 H5 H6 H7 H8. apply launch_iff in A. unfold host_main. rewrite A, H1, H2, H3, H4, H5, H6, H7, H8. cbn [andb].
  exists (if r_console a then [Attached ((r_cid a + 10000) mod 4294967296)] else []).
  rewrite orb_true_r. destruct (n_signal n); cbn [andb fst snd].
  - split; [reflexivity|]. split; [destruct (r_console a); [intros [H|[]]; discriminate|intros []]|]. split; reflexivity.
  - rewrite app_nil_r. split; [reflexivity|]. split; [destruct (r_console a); [intros [H|[]]; discriminate|intros []]|]. split; reflexivity.
Qed.
Print Assumptions c82_starts_when_it_can.
(** The health service answers 200 exactly if the first enclave nitro-cli
    describes is in the state RUNNING; the others never matter. *)
Theorem c82_health_is_the_first_enclaves : forall st,
  (health_response st = bs "HTTP/1.1 200 OK" ++ [x0d; x0a; x0d; x0a] <-> exists rest, st = Some (bs "RUNNING" :: rest)) /\
  (health_response st = bs "HTTP/1.1 200 OK" ++ [x0d; x0a; x0d; x0a] \/ health_response st = bs "HTTP/1.1 503 Service Unavailable" ++ [x0d; x0a; x0d; x0a]).
Proof.
  intros st. unfold health_response, healthy. destruct st as [[|s rest]|].
  - split; [|now right]. split; [discriminate|]. intros (r & H). discriminate.
  - destruct (bytes_eqb_spec s (bs "RUNNING")) as [->|N].
    + split; [|now left]. split; [eauto|reflexivity].
    + split; [|now right]. split; [discriminate|]. intros (r & H). injection H as -> _. contradiction.
  - split; [|now right]. split; [discriminate|]. intros (r & H). discriminate.
Qed.
Print Assumptions c82_health_is_the_first_enclaves.
(** "If the program fails, no enclave is left running" is false: a lost reply,
    an unreachable console or an unknown name leave the enclave running; and a
    clean exit may leave it running too. *)
Theorem c82_refuted_exit_leaves_no_enclave : forall e a, asked e a ->
  (exists n, host_main e n = ([Started a], Failed)) /\ (exists n, snd (host_main e n) = Succeeded /\ In (Started a) (fst (host_main e n)) /\ ~ In Terminated (fst (host_main e n))).
Proof.
  intros e a A. apply launch_iff in A. split.
  - exists (Nitro true true true true true false true true true true). unfold host_main. rewrite A. reflexivity.
  - exists (Nitro true true true true true true true true true false). unfold host_main. rewrite A.
    cbn [n_dir n_logger n_spawn n_send n_starts n_reply n_console n_id n_signal n_connect andb]. rewrite orb_true_r.
    split; [reflexivity|]. split; [now left|]. destruct (r_console a); cbn; intuition discriminate.
Qed.
Print Assumptions c82_refuted_exit_leaves_no_enclave.
Example c82_nontrivial :
  let e := HostEnv None (Some (bs "+17")) None None (Some (bs "true")) (Some (bs "true")) None in
  asked e (RunArgs (bs "/aws-x86_64.eif") 17 1024 2 true true (bs "nitro")) /\
  host_main e (Nitro true true true true true true true true true true) =
    ([Started (RunArgs (bs "/aws-x86_64.eif") 17 1024 2 true true (bs "nitro")); Attached 10017; Serving; Terminated], Succeeded) /\
  (forall a, ~ asked (HostEnv None None None None (Some (bs "TRUE")) None None) a).
Proof.
  split; [apply launch_iff; vm_compute; reflexivity|]. split; [vm_compute; reflexivity|].
  intros a H. apply launch_iff in H. vm_compute in H. discriminate.
Qed.
