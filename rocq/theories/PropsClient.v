(** C56 (the operator's consent) and C62 (key sets read from a directory). *)
From Coq Require Import Permutation Sorting.Sorted ZifyBool ZifyN ZifyNat.
From Verif Require Import Base Utf8 Hex Types TypesBorsh TypesJson Msg World Attest Services Builder SpecApproval
  Client SpecClient ClientProofs ClientSets ClientFiles CodecExamples Toy.
Local Open Scope N_scope.

(** ** C56 *)
(** One question: "yes" exactly when one of the five accepted words, between white space, is the operator's first,
    second or third answer and nothing recognised came before it. *)
Theorem c56_one_question : forall inp rest, prompt_is_yes inp = Some (true, rest) <-> confirmed inp rest.
Proof. exact prompt_yes_iff. Qed.
Print Assumptions c56_one_question.

(** A list of questions: the operator consents exactly when every one is confirmed, in order; and then all were put. *)
Theorem c56_all_questions : forall qs inp,
  (snd (ask_all qs inp) = true <-> all_confirmed (length qs) inp)
  /\ (snd (ask_all qs inp) = true -> fst (ask_all qs inp) = qs).
Proof.
  intros qs inp. destruct (ask_all qs inp) as [asked ok] eqn:E. cbn [fst snd]. split.
  - split.
    + intros ->. apply ask_all_true in E as [_ H]. exact H.
    + intros H. pose proof (proj2 (ask_all_true qs inp qs) (conj eq_refl H)) as E'. congruence.
  - intros ->. apply ask_all_true in E as [H _]. exact H.
Qed.
Print Assumptions c56_all_questions.

Lemma ask_all_earlier qs : forall inp n, length (fst (ask_all qs inp)) = S n -> all_confirmed n inp.
Proof.
  induction qs as [|q qs IH]; intros inp n; cbn [ask_all]; [discriminate|].
  destruct (prompt_is_yes inp) as [[[] rest]|] eqn:P.
  - destruct n; [constructor|]. specialize (IH rest n). destruct (ask_all qs rest) as [l ok]. cbn [fst] in *. cbn [length]. intros L.
    apply (AC_more n inp rest); [now apply prompt_yes_iff|]. apply IH. lia.
  - cbn [fst length]. intros L. assert (n = 0%nat) as -> by lia. constructor.
  - cbn [fst length]. intros L. assert (n = 0%nat) as -> by lia. constructor.
Qed.
(** The questions put are the first ones of the list, and a question is put only after the ones before it are confirmed. *)
Theorem c56_order : forall qs inp,
  (exists more, qs = fst (ask_all qs inp) ++ more)
  /\ forall n, length (fst (ask_all qs inp)) = S n -> all_confirmed n inp.
Proof. intros qs inp. split; [apply ask_all_prefix|apply ask_all_earlier]. Qed.
Print Assumptions c56_order.

Lemma next_line_len inp l rest : next_line inp l rest -> length inp = (length l + length rest)%nat.
Proof. intros [-> _]. apply app_length. Qed.
Lemma says_nonempty l w : says l w -> affirmative w -> (1 <= length l)%nat.
Proof.
  intros S A. destruct l as [|x l]; [|cbn; lia]. exfalso. apply trim_text_iff in S.
  assert (w = []) as -> by (cbv in S; congruence). cbv in A. intuition discriminate.
Qed.
Lemma confirmed_shorter inp rest : confirmed inp rest -> (length rest < length inp)%nat.
Proof.
  intros (ws & w & A & _ & _ & Y). revert inp A. induction ws as [|v ws IH]; intros inp A; cbn [app] in A.
  - inversion A as [|l w' ws' i m r NL SY A']; subst. inversion A'; subst. apply next_line_len in NL. apply says_nonempty in SY; [|exact Y]. lia.
  - inversion A as [|l w' ws' i m r NL SY A']; subst. apply IH in A'. apply next_line_len in NL. lia.
Qed.
(** Consent to [n] questions needs at least [n] bytes of input: an end of input, or answers that run out, never consent. *)
Theorem c56_silence : forall n inp, all_confirmed n inp -> (n <= length inp)%nat.
Proof. induction 1 as [|n inp rest C A IH]; [lia|]. apply confirmed_shorter in C. lia. Qed.
Print Assumptions c56_silence.
Lemma no_and_yes ws : forall inp w rest us u mid, answers (ws ++ [w]) inp rest -> Forall unrecognised ws -> negative w ->
  answers (us ++ [u]) inp mid -> Forall unrecognised us -> affirmative u -> False.
Proof.
  induction ws as [|v ws IH]; intros inp w rest us u mid A F N B Fu Yu; cbn [app] in A; apply answers_cons in A as (m1 & P1 & A);
    destruct us as [|x us]; cbn [app] in B; apply answers_cons in B as (m2 & P2 & B).
  - assert (u = w) as -> by congruence. exact (yes_not_no w Yu N).
  - assert (x = w) as -> by congruence. inversion Fu as [|? ? [_ X] _]; subst. exact (X N).
  - assert (u = v) as -> by congruence. inversion F as [|? ? [X _] _]; subst. exact (X Yu).
  - assert (m2 = m1) as -> by congruence. inversion F; subst. inversion Fu; subst. eapply (IH m1 w rest us u mid); eassumption.
Qed.
(** A "no" that comes before any "yes" refuses. *)
Theorem c56_no : forall inp w ws rest, answers (ws ++ [w]) inp rest -> Forall unrecognised ws -> negative w ->
  forall q qs, ask_all (q :: qs) inp = ([q], false).
Proof.
  intros inp w ws rest A F N q qs. cbn [ask_all]. destruct (prompt_is_yes inp) as [[[] mid]|] eqn:P; [|reflexivity|reflexivity].
  apply prompt_yes_iff in P as (us & u & B & _ & Fu & Yu). exfalso. exact (no_and_yes ws inp w rest us u mid A F N B Fu Yu).
Qed.
Print Assumptions c56_no.

Local Notation nl := (bs "
").
(** The second question needs three attempts, with white space and a Windows line ending; and one run that is refused. *)
Definition consent : bytes := bs "yes" ++ nl ++ bs "maybe" ++ nl ++ nl ++ bs " Y " ++ [x0d] ++ nl ++ bs "n" ++ nl.
Example c56_nontrivial :
  all_confirmed 2 consent
  /\ ask_all [QName (bs "a"); QNonce 3; QDebug true; QDebug false] consent = ([QName (bs "a"); QNonce 3; QDebug true], false)
  /\ snd (ask_all [QName (bs "a")] []) = false
  /\ prompt_is_yes (bs "a" ++ nl ++ bs "b" ++ nl ++ bs "c" ++ nl ++ bs "y" ++ nl) = Some (false, bs "y" ++ nl).
Proof.
  split; [|split; [vm_compute; reflexivity|split; vm_compute; reflexivity]].
  apply (c56_all_questions [QName []; QName []]). vm_compute. reflexivity.
Qed.

(** ** C62 *)
(** Reading a key set succeeds exactly when the directory holds one, with that set. *)
Theorem c62_manifest_or_share_set : forall Y d s, get_set Y d = Some s <-> directory_set Y d (threshold s) (members s).
Proof. intros Y. exact (@get_set_iff Y). Qed.
Print Assumptions c62_manifest_or_share_set.
Theorem c62_genesis_set : forall Y d s, get_genesis_set Y d = Some s <-> directory_set Y d (gs_threshold s) (gs_members s).
Proof. intros Y. exact (@get_genesis_iff Y). Qed.
Print Assumptions c62_genesis_set.
Theorem c62_patch_set : forall Y d s, get_patch_set Y d = Some s <-> directory_patch_set Y d s.
Proof. intros Y. exact (@get_patch_iff Y). Qed.
Print Assumptions c62_patch_set.
(** The order in which the operating system lists the directory does not matter. *)
Theorem c62_any_order : forall Y d d', Permutation d d' ->
  get_set Y d = get_set Y d' /\ get_genesis_set Y d = get_genesis_set Y d' /\ get_patch_set Y d = get_patch_set Y d'.
Proof. intros Y d d' P. split; [now apply get_set_perm|split; [now apply get_genesis_perm|now apply get_patch_perm]]. Qed.
Print Assumptions c62_any_order.
(** A directory denotes at most one set. *)
Theorem c62_unique : forall Y d t t' ks ks', directory_set Y d t ks -> directory_set Y d t' ks' -> t = t' /\ ks = ks'.
Proof.
  intros Y d t t' ks ks' A B. apply (proj2 (@get_set_iff Y d (MemberSet t ks))) in A. apply (proj2 (@get_set_iff Y d (MemberSet t' ks'))) in B.
  assert (E : Some (MemberSet t ks) = Some (MemberSet t' ks')) by congruence. split; congruence.
Qed.
Print Assumptions c62_unique.

Definition pub_file (alias : string) (seed : bytes) : bytes * option bytes := (bs alias ++ bs ".pub", Some (encode (pub_of seed) ++ nl)).
Definition mset_dir : list (bytes * option bytes) :=
  [pub_file "carol.old" seed_b; (bs "README", None); pub_file "._dave" []; (bs "quorum_threshold", Some (bs " 2 " ++ nl ++ bs "junk"));
   pub_file "alice" seed_a; pub_file "bob" seed_c].
Example c62_nontrivial :
  get_set (toy calm 0) mset_dir =
    Some (MemberSet 2 [alice; QuorumMember (bs "bob") (pub_of seed_c); QuorumMember (bs "carol") (pub_of seed_b)])
  /\ get_patch_set (toy calm 0) mset_dir = Some (PatchSet 2 [pub_of seed_a; pub_of seed_b; pub_of seed_c])
  /\ get_set (toy calm 0) ((bs "quorum_threshold.x", None) :: mset_dir) = get_set (toy calm 0) mset_dir
  /\ get_set (toy calm 0) ((bs "x.pub", Some (bs "00")) :: mset_dir) = None.
Proof. split; [vm_compute; reflexivity|split; [vm_compute; reflexivity|split; vm_compute; reflexivity]]. Qed.
