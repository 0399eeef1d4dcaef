(** C98: the egress program is launched at both ends as the manifest and the host
    bridge say, again and again, and when it gives its place to a new one. *)
From Coq Require Import ZifyBool ZifyN ZifyNat.
From Verif Require Import Base Json JsonProofs Pool CliParser SpecCli CliProofs PropsCli DaemonCli EgressRun.
Local Open Scope N_scope.

(** *** Specification *)
(** The process is over. *)
Definition over (abort : bool) (ms : list moment) : Prop := cp_main (copy_run abort ms) = Gone.
(** The main thread looked at the directions after one of them had failed. *)
Definition seen (ms : list moment) : Prop := exists d l r, ms = l ++ Looks :: r /\ In (Fails d) l.

(** *** The command lines *)
Lemma words_plain w v l : forallb (fun b => negb (is_space b)) v = true -> words_from w (v ++ l) = words_from (w ++ v) l.
Proof.
  revert w. induction v as [|b v IH]; intros w H; [now rewrite app_nil_r|]. cbn [forallb] in H. apply andb_true_iff in H as [Hb H]. apply negb_true_iff in Hb.
  cbn [app words_from]. rewrite Hb, (IH _ H). now rewrite <- app_assoc.
Qed.
Lemma words_one v l : v <> [] -> forallb (fun b => negb (is_space b)) v = true -> split_whitespace (v ++ x20 :: l) = v :: split_whitespace l.
Proof. intros N H. unfold split_whitespace. rewrite (words_plain [] v _ H). cbn [app words_from]. change (is_space x20) with true. cbv iota. destruct v; [contradiction|reflexivity]. Qed.
Lemma words_last v : v <> [] -> forallb (fun b => negb (is_space b)) v = true -> split_whitespace v = [v].
Proof. intros N H. unfold split_whitespace. rewrite <- (app_nil_r v) at 1. rewrite (words_plain [] v _ H). cbn [app words_from]. destruct v; [contradiction|reflexivity]. Qed.
Lemma digits_plain l : forallb is_digit l = true -> forallb (fun b => negb (is_space b)) l = true.
Proof. rewrite !forallb_forall. intros H b I. specialize (H b I). revert H. destruct b; vm_compute; congruence. Qed.
Lemma print_nonempty n : print_N n <> [].
Proof. destruct (print_N_shape n) as (c & r & -> & _). discriminate. Qed.
Lemma enclave_words cid : split_whitespace (enclave_line cid) = [bs "--cid"; print_N cid; bs "--vsock-to-host"; bs "false"].
Proof.
  unfold enclave_line. change (bs "--cid " ++ print_N cid ++ bs " --vsock-to-host false") with (bs "--cid" ++ x20 :: (print_N cid ++ x20 :: bs "--vsock-to-host false")).
  rewrite words_one by (vm_compute; congruence). rewrite words_one by (first [apply print_nonempty|apply digits_plain, print_N_digits]). reflexivity.
Qed.
Lemma host_words cid f : split_whitespace (host_line cid f) = [bs "--egress-host"; bs "--cid"; print_N cid; bs "--vsock-to-host"; if f =? 1 then bs "true" else bs "false"].
Proof.
  unfold host_line. destruct (f =? 1).
  1: transitivity (split_whitespace (bs "--egress-host" ++ x20 :: (bs "--cid" ++ x20 :: (print_N cid ++ x20 :: (bs "--vsock-to-host" ++ x20 :: bs "true"))))); [reflexivity|].
  2: transitivity (split_whitespace (bs "--egress-host" ++ x20 :: (bs "--cid" ++ x20 :: (print_N cid ++ x20 :: (bs "--vsock-to-host" ++ x20 :: bs "false"))))); [reflexivity|].
  all: rewrite (words_one (bs "--egress-host")) by (vm_compute; congruence); rewrite (words_one (bs "--cid")) by (vm_compute; congruence).
  all: rewrite (words_one (print_N cid)) by (first [apply print_nonempty|apply digits_plain, print_N_digits]).
  all: rewrite (words_one (bs "--vsock-to-host")) by (vm_compute; congruence); reflexivity.
Qed.
Lemma launches path line ends : run_looping path line ends = repeat (launch path line) (S (length ends)).
Proof. induction ends as [|e r IH]; [reflexivity|]. cbn [run_looping length repeat]. now rewrite IH. Qed.

Lemma is_digit_cases c : is_digit c = true -> In c [x30; x31; x32; x33; x34; x35; x36; x37; x38; x39].
Proof. destruct c; vm_compute; intros H; (discriminate H || tauto). Qed.
Definition parse (args : list bytes) := tm_parse (parser_of bridge_tokens) args.
Lemma enclave_parses v : v < 2 ^ 32 -> forall name, starts_with (bs "--") name = false ->
  egress_execute (name :: [bs "--cid"; print_N v; bs "--vsock-to-host"; bs "false"]) = Starts (EgressConfig false v 1000 0).
Proof.
  intros L name N. unfold egress_execute, execute. rewrite c44_options_drop_the_binary_name by (apply starts_false; exact N).
  pose proof (parse_unsigned_print (2 ^ 32) v L) as P. destruct (print_N_shape v) as (c & r & E & _ & D). rewrite E in *. clear E.
  change (parse_unsigned Pool.U32 (c :: r) = Some v) in P.
  apply is_digit_cases in D. repeat (destruct D as [<-|D]; [|]); try contradiction.
  all: match goal with |- context [tm_parse ?p ?a] => let x := eval vm_compute in (tm_parse p a) in replace (tm_parse p a) with x by (vm_compute; reflexivity) end.
  all: unfold egress_conf, to_host_flag; match goal with |- context [get_single ?m (bs "cid")] => match type of P with parse_unsigned _ ?w = _ => replace (get_single m (bs "cid")) with (Some w) by (vm_compute; reflexivity) end end.
  all: cbn [obind]; rewrite P; vm_compute; reflexivity.
Qed.
Lemma host_parses v f : v < 2 ^ 32 -> forall name, starts_with (bs "--") name = false ->
  egress_execute (name :: [bs "--egress-host"; bs "--cid"; print_N v; bs "--vsock-to-host"; if f =? 1 then bs "true" else bs "false"]) = Starts (EgressConfig true v 1000 (if f =? 1 then 1 else 0)).
Proof.
  intros L name N. unfold egress_execute, execute. rewrite c44_options_drop_the_binary_name by (apply starts_false; exact N).
  pose proof (parse_unsigned_print (2 ^ 32) v L) as P. destruct (print_N_shape v) as (c & r & E & _ & D). rewrite E in *. clear E.
  change (parse_unsigned Pool.U32 (c :: r) = Some v) in P. destruct (f =? 1).
  all: apply is_digit_cases in D; repeat (destruct D as [<-|D]; [|]); try contradiction.
  all: match goal with |- context [tm_parse ?p ?a] => let x := eval vm_compute in (tm_parse p a) in replace (tm_parse p a) with x by (vm_compute; reflexivity) end.
  all: unfold egress_conf, to_host_flag; match goal with |- context [get_single ?m (bs "cid")] => match type of P with parse_unsigned _ ?w = _ => replace (get_single m (bs "cid")) with (Some w) by (vm_compute; reflexivity) end end.
  all: cbn [obind]; rewrite P; vm_compute; reflexivity.
Qed.

(** However often the program has ended or could not be started, the enclave has
    launched it once more, always as the inner end of the egress of its own
    address, on port 1000, without the flag to the host. *)
Theorem c98_enclave_launches : forall cid ends, cid < 2 ^ 32 ->
  length (run_looping enclave_program (enclave_line cid) ends) = S (length ends)
  /\ forall l, In l (run_looping enclave_program (enclave_line cid) ends) ->
       fst l = bs "/egress" /\ egress_execute (argv l) = Starts (EgressConfig false cid 1000 0).
Proof.
  intros cid ends L. rewrite launches, repeat_length. split; [reflexivity|]. intros l I. apply repeat_spec in I as ->.
  split; [reflexivity|]. unfold argv, launch. cbn [fst snd]. rewrite enclave_words. apply enclave_parses; [exact L|reflexivity].
Qed.
Print Assumptions c98_enclave_launches.

(** The host bridge: the program asked for, as the outer end, at the address of
    the enclave and with the flag of the socket to it. *)
Theorem c98_host_launches : forall custom cid flags ends, cid < 2 ^ 32 -> (forall p, custom = Some p -> starts_with (bs "--") p = false) ->
  length (run_looping (host_program custom) (host_line cid flags) ends) = S (length ends)
  /\ forall l, In l (run_looping (host_program custom) (host_line cid flags) ends) ->
       fst l = match custom with Some p => p | None => bs "/qos_egress" end
       /\ egress_execute (argv l) = Starts (EgressConfig true cid 1000 (if flags =? 1 then 1 else 0)).
Proof.
  intros custom cid flags ends L C. rewrite launches, repeat_length. split; [reflexivity|]. intros l I. apply repeat_spec in I as ->.
  split; [reflexivity|]. unfold argv, launch. cbn [fst snd]. rewrite host_words. apply host_parses; [exact L|]. destruct custom as [p|]; [apply C; reflexivity|reflexivity].
Qed.
Print Assumptions c98_host_launches.

(** *** Giving way *)
Lemma run_snoc a ms m : copy_run a (ms ++ [m]) = copy_step a (copy_run a ms) m.
Proof. unfold copy_run. now rewrite fold_left_app. Qed.
Lemma in_snoc {A} (x : A) l y : In x (l ++ [y]) <-> In x l \/ x = y.
Proof. rewrite in_app_iff. cbn. intuition congruence. Qed.
Lemma seen_snoc ms m : seen (ms ++ [m]) <-> seen ms \/ (m = Looks /\ exists d, In (Fails d) ms).
Proof.
  split.
  - intros (d & l & r & E & I). destruct (@exists_last _ (Looks :: r)) as (r' & z & Z); [discriminate|]. rewrite Z, app_assoc in E. apply app_inj_tail in E as [E ->].
    destruct r' as [|k r'].
    + right. rewrite app_nil_r in E. subst. cbn in Z. injection Z as <- _. split; [reflexivity|]. now exists d.
    + left. cbn in Z. injection Z as <- _. exists d, l, r'. split; [exact E|exact I].
  - intros [(d & l & r & -> & I)|(-> & d & I)].
    + exists d, l, (r ++ [m]). split; [now rewrite <- app_assoc|exact I].
    + exists d, ms, []. split; [reflexivity|exact I].
Qed.
Lemma seen_some ms : seen ms -> exists d, In (Fails d) ms.
Proof. intros (d & l & r & -> & I). exists d. apply in_app_iff. now left. Qed.

Lemma abort_inv ms : match cp_main (copy_run true ms) with
  | Gone => exists d, In (Fails d) ms
  | Looking => copy_run true ms = Copying true true Looking /\ ~ exists d, In (Fails d) ms
  | Panicking => False
  end.
Proof.
  induction ms as [|m ms IH] using rev_ind; [cbn; split; [reflexivity|intros (d & [])]|]. rewrite run_snoc.
  destruct (cp_main (copy_run true ms)) eqn:M.
  - destruct IH as [E N]. rewrite E. destruct m as [[]|]; cbn.
    + exists RawToVsock. apply in_snoc. now right.
    + exists VsockToRaw. apply in_snoc. now right.
    + split; [reflexivity|]. intros (d & I). apply in_snoc in I as [I|I]; [apply N; now exists d|discriminate].
  - contradiction.
  - unfold copy_step. rewrite M. rewrite M. destruct IH as (d & I). exists d. apply in_snoc. now left.
Qed.
(** In the enclave's image the program is gone with the first direction that
    fails, and only then: the next launch follows at once. *)
Theorem c98_enclave_gives_way : forall ms, over true ms <-> exists d, In (Fails d) ms.
Proof.
  intros ms. unfold over. pose proof (abort_inv ms) as A. destruct (cp_main (copy_run true ms)).
  - destruct A as [_ N]. split; [discriminate|contradiction].
  - contradiction.
  - split; intros; [exact A|reflexivity].
Qed.
Print Assumptions c98_enclave_gives_way.

Definition both (ms : list moment) : Prop := In (Fails RawToVsock) ms /\ In (Fails VsockToRaw) ms.
Ltac fin := rewrite ?in_snoc, ?seen_snoc; intuition congruence.
Lemma unwind_inv ms : let c := copy_run false ms in
  match cp_main c with
  | Gone => both ms /\ seen ms
  | Looking => ~ seen ms /\ (cp_raw c = false <-> In (Fails RawToVsock) ms) /\ (cp_vsock c = false <-> In (Fails VsockToRaw) ms)
  | Panicking => seen ms /\ ~ both ms /\ (cp_raw c = false <-> In (Fails RawToVsock) ms) /\ (cp_vsock c = false <-> In (Fails VsockToRaw) ms)
  end.
Proof.
  cbv zeta. induction ms as [|m ms IH] using rev_ind.
  { cbn. split; [|split; split; (discriminate || contradiction)]. intros S. apply seen_some in S as (d & []). }
  rewrite run_snoc. destruct (copy_run false ms) as [r v mn]. unfold both in *.
  cbn [cp_main cp_raw cp_vsock] in IH. destruct mn.
  - destruct IH as (S & R & V). destruct m as [[]|]; cbn [copy_step cp_main cp_raw cp_vsock].
    + destruct r; cbn [cp_main leave cp_raw cp_vsock]; fin.
    + destruct v; cbn [cp_main leave cp_raw cp_vsock]; fin.
    + destruct r, v; cbn [andb orb leave cp_main cp_raw cp_vsock].
      * split; [rewrite seen_snoc; intros [X|(_ & [] & X)]|]; fin.
      * assert (X : exists d, In (Fails d) ms) by (exists VsockToRaw; now apply V). fin.
      * assert (X : exists d, In (Fails d) ms) by (exists RawToVsock; now apply R). fin.
      * assert (X : exists d, In (Fails d) ms) by (exists RawToVsock; now apply R). fin.
  - destruct IH as (S & B & R & V). destruct m as [[]|]; cbn [copy_step cp_main cp_raw cp_vsock].
    + destruct r, v; cbn [cp_main leave cp_raw cp_vsock orb]; fin.
    + destruct r, v; cbn [cp_main leave cp_raw cp_vsock orb]; fin.
    + cbn [cp_main cp_raw cp_vsock]. fin.
  - cbn [copy_step cp_main]. fin.
Qed.
(** The host's program is built without that profile: it is gone only when both
    directions have failed, and has looked after the first of them. *)
Theorem c98_host_gives_way : forall ms, over false ms <-> In (Fails RawToVsock) ms /\ In (Fails VsockToRaw) ms /\ seen ms.
Proof.
  intros ms. unfold over. pose proof (unwind_inv ms) as A. cbv zeta in A. unfold both in A.
  destruct (copy_run false ms) as [r v mn]. cbn [cp_main cp_raw cp_vsock] in *. destruct mn; (split; [try discriminate; tauto|tauto]).
Qed.
Print Assumptions c98_host_gives_way.

(** Refuted: that the host's end is launched again when a direction has failed,
    as the enclave's is. Whatever direction it is, and however long the program
    looks on, it stays while the other direction does not fail. *)
Theorem c98_refuted_host_starts_again_when_a_direction_fails : forall d n,
  over true (Fails d :: repeat Looks n) /\ ~ over false (Fails d :: repeat Looks n).
Proof.
  intros d n. split; [apply c98_enclave_gives_way; exists d; now left|]. intros O. apply c98_host_gives_way in O as (A & B & _).
  assert (X : forall x, In (Fails x) (Fails d :: repeat Looks n) -> x = d) by (intros x [I|I]; [congruence|apply repeat_spec in I; discriminate]).
  apply X in A, B. congruence.
Qed.
Print Assumptions c98_refuted_host_starts_again_when_a_direction_fails.

Example c98_nontrivial :
  map argv (run_looping enclave_program (enclave_line 16) [true; false]) = repeat [bs "/egress"; bs "--cid"; bs "16"; bs "--vsock-to-host"; bs "false"] 3
  /\ egress_execute (argv (launch (host_program None) (host_line 4294967295 1))) = Starts (EgressConfig true 4294967295 1000 1)
  /\ over true [Looks; Fails VsockToRaw] /\ ~ over false [Looks; Fails VsockToRaw; Looks; Looks] /\ over false [Looks; Fails VsockToRaw; Looks; Fails RawToVsock]
  /\ ~ over true [Looks; Looks].
Proof. repeat split; try (vm_compute; reflexivity); vm_compute; congruence. Qed.
