(** C68: packets through the egress bridge. *)
From Verif Require Import Base Stream Egress.
Require Import ZifyBool ZifyN ZifyNat.
Local Open Scope N_scope.

(** *** Specification *)
(** The 16-bit big-endian word at offset [i]. *)
Definition word (i : nat) (p : bytes) : N := 256 * b2n (nth i p x00) + b2n (nth (S i) p x00).
(** An IP packet that the buffer can hold: the length its header declares is its length. *)
Definition ip_packet (p : bytes) : Prop :=
  lenN p <= 32000 /\
  let version := b2n (hd x00 p) / 16 in
  let header := 4 * (b2n (hd x00 p) mod 16) in
  (version = 4 /\ 20 <= header <= lenN p /\ word 2 p = lenN p) \/
  (version = 6 /\ 40 <= lenN p /\ word 4 p + 40 = lenN p).
Definition is_prefix (a b : bytes) : Prop := exists c, b = a ++ c.
Definition is_suffix (a b : bytes) : Prop := exists c, b = c ++ a.
(** A device that takes what it is given (writing a packet to a tun interface). *)
Definition takes_all (w : nat -> wres) : Prop := forall i, exists n, w i = Accept n /\ 32000 <= n.
Definition progresses (w : nat -> wres) : Prop := forall i, exists n, w i = Accept n /\ 0 < n.
Definition no_read_errors (r : nat -> rres) : Prop := forall i, r i <> RFail.
(** One write of the whole packet. *)
Definition whole (p : bytes) : call := (p, lenN p).

(** *** Frames *)
Lemma be16_word i p : be16 i p = word i p.
Proof.
  unfold be16, word, byte_at. rewrite (N.mul_comm 256).
  assert (A : forall k, match nth_error p k with Some x => b2n x | None => 0 end = b2n (nth k p x00)).
  { intros k. destruct (nth_error p k) eqn:E; [now rewrite (nth_error_nth p k x00 E)|]. apply nth_error_None in E. now rewrite nth_overflow. }
  now rewrite !A.
Qed.
Lemma word_app i p q : (S i < length p)%nat -> word i (p ++ q) = word i p.
Proof. intros L. unfold word. rewrite !app_nth1 by lia. reflexivity. Qed.
Lemma packet_nonempty p : ip_packet p -> (20 <= length p)%nat.
Proof. intros [_ [(_ & H & _)|(_ & H & _)]]; rewrite lenN_length in H; lia. Qed.
Lemma ip_size_of p q r : ip_packet p -> p = q ++ r -> ip_size q = None \/ ip_size q = Some (lenN p).
Proof.
  intros [LP W] E. destruct q as [|b0 q]; [now left|]. cbn [ip_size]. assert (H0 : hd x00 p = b0) by (rewrite E; reflexivity). rewrite H0 in W. clear H0.
  destruct (b2n b0 / 16 =? 4) eqn:V4.
  - destruct ((lenN (b0 :: q) <? 20) || (b2n b0 mod 16 <? 5) || (lenN (b0 :: q) <? 4 * (b2n b0 mod 16))) eqn:C; [now left|]. right.
    destruct W as [(_ & _ & W)|(W & _)]; [|lia]. rewrite be16_word, <- W, E. f_equal. symmetry. apply word_app. rewrite lenN_length in C. cbn [length] in *. lia.
  - destruct (b2n b0 / 16 =? 6) eqn:V6; [|now left]. destruct (lenN (b0 :: q) <? 40) eqn:C; [now left|]. right.
    destruct W as [(W & _)|(_ & L & W)]; [lia|]. rewrite be16_word.
    assert (W4 : word 4 p = word 4 (b0 :: q)) by (rewrite E; apply word_app; rewrite lenN_length in C; cbn [length] in *; lia).
    rewrite <- W4, W. f_equal. apply N.mod_small. lia.
Qed.
Lemma ip_size_whole p rest : ip_packet p -> ip_size (p ++ rest) = Some (lenN p).
Proof.
  intros P. pose proof (packet_nonempty p P) as L20. destruct P as (B & W). destruct p as [|b0 p]; [cbn in L20; lia|]. cbn [app ip_size hd] in *.
  change (b0 :: p ++ rest) with ((b0 :: p) ++ rest). rewrite !lenN_length in *. rewrite app_length.
  destruct W as [(V & H & W)|(V & H & W)]; rewrite V.
  - replace (4 =? 4) with true by reflexivity.
    destruct (_ || _ || _) eqn:C; [lia|]. rewrite be16_word, word_app by lia. now rewrite W.
  - replace (6 =? 4) with false by reflexivity. replace (6 =? 6) with true by reflexivity.
    destruct (_ <? 40) eqn:C; [lia|]. rewrite be16_word, word_app by lia. rewrite W. now rewrite N.mod_small by lia.
Qed.
Lemma next_whole p rest : ip_packet p -> next_frame (p ++ rest) = Some (length p).
Proof.
  intros P. unfold next_frame. rewrite (ip_size_whole p rest P). rewrite !lenN_length, app_length.
  destruct (_ <? _) eqn:C; [lia|]. now rewrite Nat2N.id.
Qed.
Lemma next_partial p q r : ip_packet p -> p = q ++ r -> r <> [] -> next_frame q = None.
Proof.
  intros P E R. unfold next_frame. destruct (ip_size_of p q r P E) as [-> | ->]; [reflexivity|].
  rewrite E, !lenN_length, app_length. destruct r; [congruence|]. cbn [length]. destruct (_ <? _) eqn:C; [reflexivity|lia].
Qed.

(** *** Writes *)
Definition complete (w : nat -> wres) (tr : list call) (qs : list bytes) : Prop :=
  on_wire tr = concat qs /\ Forall (fun c => exists p, In p qs /\ is_suffix (fst c) p) tr /\ (takes_all w -> tr = map whole qs).
Definition delivered (w : nat -> wres) (tr : list call) (ps : list bytes) : Prop :=
  is_prefix (on_wire tr) (concat ps) /\ Forall (fun c => exists p, In p ps /\ is_suffix (fst c) p) tr /\
  (takes_all w -> exists k, tr = map whole (firstn k ps)).
Lemma complete_delivered w tr qs ps : complete w tr qs -> delivered w tr (qs ++ ps).
Proof.
  intros (A & B & C). split; [|split].
  - exists (concat ps). now rewrite concat_app, A.
  - eapply Forall_impl; [|exact B]. intros c (p & I & H). exists p. split; [apply in_or_app; now left|exact H].
  - intros T. exists (length qs). rewrite firstn_app, Nat.sub_diag, firstn_all. cbn [firstn]. rewrite app_nil_r. exact (C T).
Qed.
Lemma on_wire_app a b : on_wire (a ++ b) = on_wire a ++ on_wire b.
Proof. unfold on_wire. now rewrite map_app, concat_app. Qed.
Lemma delivered_app w a b qs ps : complete w a qs -> delivered w b ps -> delivered w (a ++ b) (qs ++ ps).
Proof.
  intros (A & B & C) ((c & A') & B' & C'). split; [|split].
  - exists c. rewrite on_wire_app, concat_app, A, A', app_assoc. reflexivity.
  - apply Forall_app. split; (eapply Forall_impl; [|eassumption]); intros x (p & I & H); exists p; (split; [apply in_or_app; auto|exact H]).
  - intros T. destruct (C' T) as (k & ->). exists (length qs + k)%nat. rewrite (C T), firstn_app, (firstn_all2 qs) by lia.
    replace (length qs + k - length qs)%nat with k by lia. now rewrite map_app.
Qed.
Lemma complete_app w a b qs ps : complete w a qs -> complete w b ps -> complete w (a ++ b) (qs ++ ps).
Proof.
  intros (A & B & C) (A' & B' & C'). split; [|split].
  - now rewrite on_wire_app, concat_app, A, A'.
  - apply Forall_app. split; (eapply Forall_impl; [|eassumption]); intros x (p & I & H); exists p; (split; [apply in_or_app; auto|exact H]).
  - intros T. now rewrite (C T), (C' T), map_app.
Qed.
Lemma delivered_nil w ps : delivered w [] ps.
Proof. split; [exists (concat ps); reflexivity|split; [constructor|]]. intros _. exists 0%nat. reflexivity. Qed.

Lemma write_loop_spec fuel w : forall i buf r j tr, write_loop fuel w i buf = (r, j, tr) ->
  (exists c, buf = on_wire tr ++ c) /\ Forall (fun c => is_suffix (fst c) buf) tr /\ (r = Finished (Ok tt) -> on_wire tr = buf).
Proof.
  induction fuel as [|f IH]; intros i buf r j tr E; cbn [write_loop] in E.
  { injection E as <- <- <-. split; [exists buf; reflexivity|split; [constructor|discriminate]]. }
  destruct buf as [|b buf]; [injection E as <- <- <-; split; [exists []; reflexivity|split; [constructor|reflexivity]]|].
  set (x := b :: buf) in *. destruct (w i) as [n|].
  2:{ injection E as <- <- <-. split; [exists x; reflexivity|split; [|discriminate]]. constructor; [exists []; reflexivity|constructor]. }
  destruct (write_loop f w (S i) (skipn (N.to_nat (accept n x)) x)) as [[r' j'] tr'] eqn:E'. injection E as <- <- <-.
  destruct (IH _ _ _ _ _ E') as ((c & A) & B & C). split; [|split].
  - exists c. unfold on_wire. cbn [map concat]. unfold call_accepted at 1. cbn [fst snd].
    rewrite <- app_assoc. change (concat (map call_accepted tr')) with (on_wire tr'). rewrite <- A. now rewrite firstn_skipn.
  - constructor; [exists []; reflexivity|]. eapply Forall_impl; [|exact B]. intros y (d & D). exists (firstn (N.to_nat (accept n x)) x ++ d).
    rewrite <- app_assoc, <- D. now rewrite firstn_skipn.
  - intros R. unfold on_wire. cbn [map concat]. change (concat (map call_accepted tr')) with (on_wire tr'). rewrite (C R).
    unfold call_accepted. cbn [fst snd]. apply firstn_skipn.
Qed.
Lemma write_loop_takes fuel w i buf : takes_all w -> (0 < length buf <= N.to_nat 32000)%nat ->
  exists j r tr, write_loop fuel w i buf = (r, j, tr) /\ (tr = [] \/ tr = [whole buf]) /\ (r = Finished (Ok tt) -> tr = [whole buf]).
Proof.
  intros T L. destruct fuel as [|f]; cbn [write_loop]; [do 3 eexists; split; [reflexivity|]; split; [now left|discriminate]|].
  destruct buf as [|b buf]; [cbn in L; lia|]. set (x := b :: buf) in *. destruct (T i) as (n & -> & N).
  assert (A : accept n x = lenN x) by (unfold accept; rewrite lenN_length; lia). rewrite A.
  assert (K : skipn (N.to_nat (lenN x)) x = []) by (rewrite lenN_length, Nat2N.id; apply skipn_all). rewrite K.
  destruct f as [|f]; cbn [write_loop]; do 3 eexists; (split; [reflexivity|]); split; auto; discriminate.
Qed.
Lemma write_loop_progress fuel w : progresses w -> forall i buf, (length buf < fuel)%nat -> exists j tr, write_loop fuel w i buf = (Finished (Ok tt), j, tr).
Proof.
  intros P. induction fuel as [|f IH]; intros i buf L; [lia|]. cbn [write_loop]. destruct buf as [|b buf]; [eauto|].
  set (x := b :: buf) in *. destruct (P i) as (n & -> & N).
  destruct (IH (S i) (skipn (N.to_nat (accept n x)) x)) as (j & tr & ->); [|eauto].
  rewrite skipn_length. unfold accept. rewrite lenN_length. subst x. cbn [length] in *. lia.
Qed.

(** *** Frames out of the buffer *)
Definition partial_head (tail : bytes) (ps : list bytes) : Prop :=
  match ps with [] => tail = [] | p :: _ => exists r, r <> [] /\ p = tail ++ r end.
Lemma app_cases (a b c d : bytes) : a ++ b = c ++ d -> (length c <= length a)%nat -> exists x, a = c ++ x /\ d = x ++ b.
Proof.
  intros E L. exists (skipn (length c) a). assert (F : firstn (length c) a = c).
  { pose proof (f_equal (firstn (length c)) E) as G. rewrite !firstn_app, Nat.sub_diag, firstn_all in G. cbn [firstn] in G. rewrite app_nil_r in G.
    replace (length c - length a)%nat with 0%nat in G by lia. cbn [firstn] in G. now rewrite app_nil_r in G. }
  assert (A : a = c ++ skipn (length c) a) by (rewrite <- F at 1; symmetry; apply firstn_skipn).
  split; [exact A|]. rewrite A in E. rewrite <- app_assoc in E. apply app_inv_head in E. now symmetry.
Qed.
(** The buffer starts at a packet boundary: either it holds the first packet, or a proper part of it. *)
Lemma boundary buf more ps : buf ++ more = concat ps -> Forall ip_packet ps ->
  (partial_head buf ps /\ next_frame buf = None) \/
  (exists p ps' rest, ps = p :: ps' /\ buf = p ++ rest /\ rest ++ more = concat ps' /\ next_frame buf = Some (length p)).
Proof.
  intros E F. destruct ps as [|p ps]; cbn [concat] in E.
  - apply app_eq_nil in E. destruct E as [-> ->]. left. split; reflexivity.
  - destruct (le_lt_dec (length p) (length buf)) as [L|L].
    + right. destruct (app_cases _ _ _ _ E L) as (x & -> & D). exists p, ps, x. split; [reflexivity|split; [reflexivity|split; [now symmetry|]]].
      apply next_whole. now inversion F.
    + left. destruct (app_cases _ _ _ _ (eq_sym E) ltac:(lia)) as (x & -> & D).
      assert (X : x <> []) by (intros ->; rewrite app_nil_r in L; lia). split; [exists x; auto|].
      exact (next_partial (buf ++ x) buf x (Forall_inv F) eq_refl X).
Qed.
Lemma one_packet w F i p j r tr : ip_packet p -> write_loop F w i p = (r, j, tr) ->
  delivered w tr [p] /\ (r = Finished (Ok tt) -> complete w tr [p]).
Proof.
  intros P E. destruct (write_loop_spec _ _ _ _ _ _ _ E) as (A & B & C). pose proof (packet_nonempty p P) as L.
  assert (Z : Forall (fun c => exists q, In q [p] /\ is_suffix (fst c) q) tr).
  { eapply Forall_impl; [|exact B]. intros c S. exists p. split; [now left|exact S]. }
  assert (TA : takes_all w -> (tr = [] \/ tr = [whole p]) /\ (r = Finished (Ok tt) -> tr = [whole p])).
  { intros T. destruct (write_loop_takes F w i p T) as (j' & r' & tr' & E' & H); [destruct P as (P & _); rewrite lenN_length in P; lia|].
    rewrite E in E'. injection E' as <- <- <-. exact H. }
  split; [split; [|split]|].
  - destruct A as (c & A). exists c. cbn [concat]. now rewrite app_nil_r.
  - exact Z.
  - intros T. destruct (TA T) as ([-> | ->] & _); [exists 0%nat|exists 1%nat]; reflexivity.
  - intros R. split; [cbn [concat]; rewrite app_nil_r; exact (C R)|split; [exact Z|]]. intros T. destruct (TA T) as (_ & H). exact (H R).
Qed.

Lemma drain_spec F w fuel : forall i p ps rest more r j tr,
  Forall ip_packet (p :: ps) -> rest ++ more = concat ps -> drain F fuel w i (length p) (p ++ rest) = (r, j, tr) ->
  delivered w tr (p :: ps) /\
  (forall tail, r = Finished (Ok tail) -> exists qs ps', p :: ps = qs ++ ps' /\ complete w tr qs /\ tail ++ more = concat ps' /\ partial_head tail ps').
Proof.
  induction fuel as [|f IH]; intros i p ps rest more r j tr FA E D; cbn [drain] in D.
  { injection D as <- <- <-. split; [apply delivered_nil|discriminate]. }
  rewrite firstn_app, Nat.sub_diag, firstn_all in D. cbn [firstn] in D. rewrite app_nil_r in D.
  destruct (write_loop F w i p) as [[r1 j1] tr1] eqn:E1.
  destruct (one_packet _ _ _ _ _ _ _ (Forall_inv FA) E1) as (D1 & C1).
  assert (D1' : delivered w tr1 (p :: ps)).
  { destruct D1 as ((c & A) & B & C). split; [|split].
    - exists (c ++ concat ps). cbn [concat] in A |- *. rewrite app_nil_r in A. rewrite A at 1. now rewrite <- app_assoc.
    - eapply Forall_impl; [|exact B]. intros x (q & [<-|[]] & S). exists p. split; [now left|exact S].
    - intros T. destruct (C T) as (k & K). destruct k; [exists 0%nat; exact K|exists 1%nat]. cbn [firstn] in K |- *. now rewrite firstn_nil in K. }
  destruct r1 as [[[]|e]|]; [|injection D as <- <- <-; split; [exact D1'|discriminate]..].
  rewrite skipn_app, Nat.sub_diag, skipn_all in D. cbn [skipn app] in D.
  destruct (boundary rest more ps E (Forall_inv_tail FA)) as [(PH & NF)|(p2 & ps2 & rest2 & -> & -> & E2 & NF)]; rewrite NF in D.
  - injection D as <- <- <-. split; [exact D1'|]. intros tail T. injection T as <-. exists [p], ps.
    split; [reflexivity|split; [apply C1; reflexivity|split; [exact E|exact PH]]].
  - destruct (drain F f w j1 (length p2) (p2 ++ rest2)) as [[r2 j2] tr2] eqn:E3. injection D as <- <- <-.
    destruct (IH _ _ _ _ _ _ _ _ (Forall_inv_tail FA) E2 E3) as (D2 & T2).
    change (p :: p2 :: ps2) with ([p] ++ p2 :: ps2). split; [apply delivered_app; [apply C1; reflexivity|exact D2]|].
    intros tail T. destruct (T2 tail T) as (qs & ps' & Eq & Cq & Tl & PH). exists (p :: qs), ps'.
    split; [exact (f_equal (cons p) Eq)|split; [|split; assumption]].
    change (p :: qs) with ([p] ++ qs). apply complete_app; [apply C1; reflexivity|exact Cq].
Qed.
Lemma drain_progress F w fuel : progresses w -> (N.to_nat 32000 < F)%nat -> forall i p ps rest more,
  Forall ip_packet (p :: ps) -> rest ++ more = concat ps -> (length (p ++ rest) < fuel)%nat ->
  exists tail j tr, drain F fuel w i (length p) (p ++ rest) = (Finished (Ok tail), j, tr).
Proof.
  intros PW HF. induction fuel as [|f IH]; intros i p ps rest more FA E L; [lia|]. cbn [drain].
  rewrite firstn_app, Nat.sub_diag, firstn_all. cbn [firstn]. rewrite app_nil_r.
  pose proof (Forall_inv FA) as P. pose proof (packet_nonempty p P) as L20. destruct P as (P & _). rewrite lenN_length in P.
  destruct (write_loop_progress F w PW i p ltac:(lia)) as (j1 & tr1 & ->).
  rewrite skipn_app, Nat.sub_diag, skipn_all. cbn [skipn app].
  destruct (boundary rest more ps E (Forall_inv_tail FA)) as [(PH & NF)|(p2 & ps2 & rest2 & -> & -> & E2 & NF)]; rewrite NF; [eauto|].
  destruct (IH j1 p2 ps2 rest2 more (Forall_inv_tail FA) E2) as (tail & j & tr & ->); [|eauto].
  rewrite (app_length p) in L. lia.
Qed.

(** *** The whole loop *)
Lemma tail_room tail ps : Forall ip_packet ps -> partial_head tail ps -> (length tail < BUF)%nat.
Proof.
  intros F PH. unfold BUF. destruct ps as [|p ps]; cbn [partial_head] in PH; [subst; cbn [length]; lia|].
  destruct PH as (r & R & ->). destruct (Forall_inv F) as (L & _). rewrite lenN_length, app_length in L. destruct r; [congruence|]. cbn [length] in L. lia.
Qed.
Lemma read_split x k stream got rest : read_once x k stream = Some (got, rest) -> (0 < k)%nat ->
  stream = got ++ rest /\ (got = [] -> stream = []) /\ (length got <= k)%nat.
Proof.
  unfold read_once. intros E K. destruct x as [n|]; [|discriminate].
  remember (Nat.max 1 (Nat.min (N.to_nat n) (Nat.min k (length stream)))) as m eqn:Em. assert (M : (1 <= m)%nat) by (rewrite Em; apply Nat.le_max_l).
  assert (M2 : (m <= k)%nat) by lia. clear Em.
  injection E as <- <-. split; [now rewrite firstn_skipn|]. split; [|rewrite firstn_length; lia].
  intros H. destruct stream; [reflexivity|]. apply (f_equal (@length byte)) in H. rewrite firstn_length in H. cbn [length] in H. lia.
Qed.
Lemma pipe_spec F r w fuel : forall i j tail stream more ps o tr,
  Forall ip_packet ps -> tail ++ stream ++ more = concat ps -> partial_head tail ps ->
  pipe_frames F fuel r i w j tail stream = (o, tr) -> delivered w tr ps.
Proof.
  induction fuel as [|f IH]; intros i j tail stream more ps o tr FA E PH P; cbn [pipe_frames] in P.
  { injection P as <- <-. apply delivered_nil. }
  pose proof (tail_room tail ps FA PH) as Room. destruct (Nat.eqb_spec (BUF - length tail) 0) as [H0|_]; [lia|].
  destruct (read_once (r i) (BUF - length tail) stream) as [[got rest]|] eqn:Rd; [|injection P as <- <-; apply delivered_nil].
  destruct (read_split _ _ _ _ _ Rd ltac:(lia)) as (-> & _). destruct got as [|g got]; [injection P as <- <-; apply delivered_nil|].
  set (x := g :: got) in *. rewrite <- (app_assoc x), (app_assoc tail) in E.
  destruct (boundary _ _ _ E FA) as [(PH' & NF)|(p & ps' & buf & -> & EB & E2 & NF)]; rewrite NF in P.
  - eapply IH; eauto.
  - rewrite EB in P. destruct (drain F F w j (length p) (p ++ buf)) as [[d j'] tr1] eqn:D.
    destruct (drain_spec _ _ _ _ _ _ _ _ _ _ _ FA E2 D) as (D1 & D2).
    destruct d as [[tail'|e]|]; [|injection P as <- <-; exact D1..].
    destruct (pipe_frames F f r (S i) w j' tail' rest) as [o2 tr2] eqn:P2. injection P as <- <-.
    destruct (D2 _ eq_refl) as (qs & ps2 & Eq & C & Tl & PH2). pose proof (eq_ind _ (Forall ip_packet) FA _ Eq) as FA2. apply Forall_app in FA2. destruct FA2 as (_ & FA2).
    refine (eq_ind_r (fun l => delivered w (tr1 ++ tr2) l) _ Eq). apply delivered_app; [exact C|]. eapply IH; eauto.
Qed.
Lemma pipe_completes F r w : progresses w -> no_read_errors r -> (N.to_nat 32000 < F)%nat -> forall fuel i j tail stream more ps,
  Forall ip_packet ps -> tail ++ stream ++ more = concat ps -> partial_head tail ps -> (length stream < fuel)%nat ->
  exists tr qs ps' last, pipe_frames F fuel r i w j tail stream = (Finished Panicked, tr) /\ ps = qs ++ ps' /\ complete w tr qs /\
    last ++ more = concat ps' /\ partial_head last ps'.
Proof.
  intros PW NR HF. induction fuel as [|f IH]; intros i j tail stream more ps FA E PH L; [lia|]. cbn [pipe_frames].
  pose proof (tail_room tail ps FA PH) as Room. destruct (Nat.eqb_spec (BUF - length tail) 0) as [H0|_]; [lia|].
  destruct (read_once (r i) (BUF - length tail) stream) as [[got rest]|] eqn:Rd.
  2:{ exfalso. apply (NR i). unfold read_once in Rd. destruct (r i); [discriminate|reflexivity]. }
  destruct (read_split _ _ _ _ _ Rd ltac:(lia)) as (Es & NE & Lg). destruct got as [|g got].
  { specialize (NE eq_refl). rewrite NE in E. cbn [app] in E.
    exists [], [], ps, tail. split; [reflexivity|]. split; [reflexivity|]. split; [|split; assumption].
    split; [reflexivity|split; [constructor|reflexivity]]. }
  subst stream. set (x := g :: got) in *. rewrite <- (app_assoc x), (app_assoc tail) in E.
  assert (L' : (length rest < f)%nat) by (rewrite app_length in L; subst x; cbn [length] in L; lia).
  assert (LB : (length (tail ++ x) <= BUF)%nat).
  { rewrite app_length. lia. }
  destruct (boundary _ _ _ E FA) as [(PH' & NF)|(p & ps' & buf & -> & EB & E2 & NF)]; rewrite NF.
  - destruct (IH (S i) j _ _ _ _ FA E PH' L') as (tr & qs & ps' & last & R & H). exists tr, qs, ps', last. split; [exact R|exact H].
  - rewrite EB in *. destruct (drain_progress F w F PW HF j p ps' buf (rest ++ more) FA E2) as (tail' & j' & tr1 & D); [unfold BUF in LB; lia|].
    rewrite D. destruct (drain_spec _ _ _ _ _ _ _ _ _ _ _ FA E2 D) as (_ & D2).
    destruct (D2 _ eq_refl) as (qs & ps2 & Eq & C & Tl & PH2). pose proof (eq_ind _ (Forall ip_packet) FA _ Eq) as FA2. apply Forall_app in FA2. destruct FA2 as (_ & FA2).
    destruct (IH (S i) j' _ _ _ _ FA2 Tl PH2 L') as (tr2 & qs2 & ps3 & last & R & E3 & C3 & T3 & PH3). rewrite R.
    exists (tr1 ++ tr2), (qs ++ qs2), ps3, last. split; [reflexivity|]. split; [exact (eq_trans Eq (eq_trans (f_equal (app qs) E3) (app_assoc qs qs2 ps3)))|].
    split; [apply complete_app; assumption|split; assumption].
Qed.

(** *** The other direction *)
Lemma pipe_all_spec F w : forall reads i o tr, pipe_all F w i reads = (o, tr) -> is_prefix (on_wire tr) (concat reads).
Proof.
  induction reads as [|p reads IH]; intros i o tr E; cbn [pipe_all] in E; [injection E as <- <-; exists []; reflexivity|].
  destruct p as [|b p]; [injection E as <- <-; eexists; reflexivity|]. set (x := b :: p) in *.
  destruct (write_loop F w i x) as [[r j] t1] eqn:W. destruct (write_loop_spec _ _ _ _ _ _ _ W) as ((c & A) & _ & C).
  assert (D : is_prefix (on_wire t1) (concat (x :: reads))) by (exists (c ++ concat reads); cbn [concat]; rewrite A at 1; now rewrite <- app_assoc).
  destruct r as [[[]|e]|]; [|injection E as <- <-; exact D..].
  destruct (pipe_all F w j reads) as [o2 t2] eqn:P. injection E as <- <-. destruct (IH _ _ _ P) as (d & H).
  exists d. cbn [concat]. rewrite on_wire_app, (C eq_refl), H. apply app_assoc.
Qed.
Lemma pipe_all_completes F w : progresses w -> forall reads i, Forall (fun p => p <> [] /\ (length p < F)%nat) reads ->
  exists tr, pipe_all F w i reads = (Finished Panicked, tr) /\ on_wire tr = concat reads.
Proof.
  intros PW. induction reads as [|p reads IH]; intros i FA; cbn [pipe_all]; [eauto|]. destruct (Forall_inv FA) as (NE & L).
  destruct p as [|b p]; [congruence|]. set (x := b :: p) in *.
  destruct (write_loop_progress F w PW i x L) as (j & t1 & W). rewrite W. destruct (write_loop_spec _ _ _ _ _ _ _ W) as (_ & _ & C).
  destruct (IH j (Forall_inv_tail FA)) as (t2 & -> & H). eexists. split; [reflexivity|]. cbn [concat]. now rewrite on_wire_app, (C eq_refl), H.
Qed.

(** *** C68 *)
Lemma head_ok ps : Forall ip_packet ps -> partial_head [] ps.
Proof. intros F. destruct ps as [|p ps]; [reflexivity|]. exists p. split; [|reflexivity]. pose proof (packet_nonempty p (Forall_inv F)). destruct p; [cbn in *; lia|discriminate]. Qed.
Lemma takes_progresses w : takes_all w -> progresses w.
Proof. intros T i. destruct (T i) as (n & E & L). exists n. split; [exact E|lia]. Qed.

(** The packets [ps] read from the tun interface of one end reach the
    tun interface of the other end whole, one per write, in order, none invented,
    altered, merged or repeated: whatever the partial writes and reads of the
    socket in between, wherever it stops. *)
Theorem c68_packets_are_delivered_whole : forall ps F1 w1 i1 F2 fuel r i2 w2 j2,
  Forall ip_packet ps -> takes_all w2 ->
  let socket := on_wire (snd (pipe_all F1 w1 i1 ps)) in
  exists k, snd (pipe_frames F2 fuel r i2 w2 j2 [] socket) = map whole (firstn k ps).
Proof.
  intros ps F1 w1 i1 F2 fuel r i2 w2 j2 FA T socket. unfold socket. destruct (pipe_all F1 w1 i1 ps) as [o1 t1] eqn:P1. cbn [snd].
  destruct (pipe_all_spec _ _ _ _ _ _ P1) as (more & E). destruct (pipe_frames F2 fuel r i2 w2 j2 [] (on_wire t1)) as [o tr] eqn:P2. cbn [snd].
  destruct (pipe_spec F2 r w2 fuel i2 j2 [] (on_wire t1) more ps o tr FA (eq_sym E) (head_ok ps FA) P2) as (_ & _ & H). exact (H T).
Qed.
Print Assumptions c68_packets_are_delivered_whole.

(** Without errors nothing is lost: the loops stop only when the source is
    closed, and every packet has then been delivered. *)
Theorem c68_every_packet_is_delivered : forall ps F1 w1 i1 F2 fuel r i2 w2 j2,
  Forall ip_packet ps -> takes_all w2 -> progresses w1 -> no_read_errors r ->
  (N.to_nat 32000 < F1)%nat -> (N.to_nat 32000 < F2)%nat -> (length (concat ps) < fuel)%nat ->
  exists t1, pipe_all F1 w1 i1 ps = (Finished Panicked, t1) /\
    pipe_frames F2 fuel r i2 w2 j2 [] (on_wire t1) = (Finished Panicked, map whole ps).
Proof.
  intros ps F1 w1 i1 F2 fuel r i2 w2 j2 FA T P1 NR H1 H2 HL.
  destruct (pipe_all_completes F1 w1 P1 ps i1) as (t1 & E1 & W).
  { eapply Forall_impl; [|exact FA]. intros p P. pose proof (packet_nonempty p P). destruct P as (P & _). rewrite lenN_length in P. split; [destruct p; [cbn in *; lia|discriminate]|lia]. }
  exists t1. split; [exact E1|]. rewrite W.
  destruct (pipe_completes F2 r w2 (takes_progresses _ T) NR H2 fuel i2 j2 [] (concat ps) [] ps FA ltac:(now rewrite app_nil_r) (head_ok ps FA) HL)
    as (tr & qs & ps' & last & E & Eq & (_ & _ & C) & Tl & PH).
  rewrite E. rewrite app_nil_r in Tl. destruct ps' as [|p ps'].
  - rewrite app_nil_r in Eq. rewrite Eq, (C T). reflexivity.
  - exfalso. destruct PH as (x & X & ->). cbn [concat] in Tl. apply (f_equal (@length byte)) in Tl. rewrite !app_length in Tl. destruct x; [congruence|]. cbn [length] in Tl. lia.
Qed.
Print Assumptions c68_every_packet_is_delivered.

(** A peer that stops in the middle of a packet: exactly the complete packets have been delivered. *)
Theorem c68_a_cut_packet_is_not_delivered : forall ps p q x F fuel r i w j,
  Forall ip_packet ps -> ip_packet p -> p = q ++ x -> x <> [] -> takes_all w -> no_read_errors r ->
  (N.to_nat 32000 < F)%nat -> (length (concat ps ++ q) < fuel)%nat ->
  pipe_frames F fuel r i w j [] (concat ps ++ q) = (Finished Panicked, map whole ps).
Proof.
  intros ps p q x F fuel r i w j FA P Ep X T NR HF HL.
  assert (FA2 : Forall ip_packet (ps ++ [p])) by (apply Forall_app; split; [exact FA|constructor; [exact P|constructor]]).
  destruct (pipe_completes F r w (takes_progresses _ T) NR HF fuel i j [] (concat ps ++ q) x (ps ++ [p]) FA2) as (tr & qs & ps' & last & E & Eq & (_ & _ & C) & Tl & PH);
    [rewrite concat_app; cbn [concat]; now rewrite app_nil_r, Ep, <- app_assoc|now apply head_ok|exact HL|].
  rewrite E. destruct (exists_last (l := ps')) as (ps1 & p1 & ->).
  { intros ->. cbn [concat] in Tl. apply app_eq_nil in Tl. tauto. }
  rewrite app_assoc in Eq. apply app_inj_tail in Eq. destruct Eq as (-> & <-).
  destruct ps1 as [|p0 ps1]; [rewrite app_nil_r, (C T); reflexivity|]. exfalso.
  destruct PH as (y & Y & ->). rewrite concat_app in Tl. cbn [concat app] in Tl. rewrite app_nil_r, Ep in Tl.
  apply (f_equal (@length byte)) in Tl. rewrite !app_length in Tl. destruct y; [congruence|]. cbn [length] in Tl. lia.
Qed.
Print Assumptions c68_a_cut_packet_is_not_delivered.

(** Even when the interface takes parts of packets or fails, no write mixes two packets. *)
Theorem c68_no_write_crosses_a_packet : forall ps more stream F fuel r i w j,
  Forall ip_packet ps -> stream ++ more = concat ps ->
  let tr := snd (pipe_frames F fuel r i w j [] stream) in
  is_prefix (on_wire tr) (concat ps) /\ (forall c, In c tr -> exists p, In p ps /\ is_suffix (fst c) p).
Proof.
  intros ps more stream F fuel r i w j FA E tr. unfold tr. destruct (pipe_frames F fuel r i w j [] stream) as [o t] eqn:P. cbn [snd].
  destruct (pipe_spec F r w fuel i j [] stream more ps o t FA E (head_ok ps FA) P) as (A & B & _). split; [exact A|].
  rewrite Forall_forall in B. exact B.
Qed.
Print Assumptions c68_no_write_crosses_a_packet.

(** REFUTED: that a malformed header is skipped or ends the bridge.  Once the socket delivers a header
    [h] that declares length 0, the bridge spins: it never writes again,
    never reads again, and never returns, whatever follows. *)
Definition declares_nothing (h : bytes) : Prop := h <> [] /\ (length h <= 40)%nat /\
  (forall rest, ip_size (h ++ rest) = Some 0) /\ (forall q x, h = q ++ x -> x <> [] -> ip_size q = None).
Lemma spins F fuel r w : no_read_errors r -> forall i j tail stream h rest, declares_nothing h ->
  tail ++ stream = h ++ rest -> (length tail < length h)%nat -> pipe_frames F fuel r i w j tail stream = (Running, []).
Proof.
  intros NR. induction fuel as [|f IH]; intros i j tail stream h rest D E L; [reflexivity|]. cbn [pipe_frames].
  assert (Room : (length tail < BUF)%nat) by (destruct D as (_ & D & _); unfold BUF; lia).
  destruct (Nat.eqb_spec (BUF - length tail) 0) as [H0|_]; [lia|].
  destruct (read_once (r i) (BUF - length tail) stream) as [[got st]|] eqn:Rd.
  2:{ exfalso. apply (NR i). unfold read_once in Rd. destruct (r i); [discriminate|reflexivity]. }
  destruct (read_split _ _ _ _ _ Rd ltac:(lia)) as (-> & NE & _). destruct got as [|g got].
  { exfalso. specialize (NE eq_refl). cbn [app] in *. subst st. rewrite app_nil_r in E. rewrite E, app_length in L. lia. }
  set (x := g :: got) in *. rewrite app_assoc in E. destruct (le_lt_dec (length h) (length (tail ++ x))) as [LL|LL].
  - destruct (app_cases _ _ _ _ E LL) as (y & Ey & _). rewrite Ey. assert (NF : next_frame (h ++ y) = Some 0%nat).
    { unfold next_frame. destruct D as (_ & _ & -> & _). destruct (_ <? 0) eqn:C; [lia|reflexivity]. }
    rewrite NF. assert (Dr : forall g k, exists k', drain F g w k 0 (h ++ y) = (Running, k', [])).
    { induction g0 as [|g' IHg]; intros k; cbn [drain]; [eauto|]. cbn [firstn]. destruct F as [|F']; cbn [write_loop]; [eauto|].
      cbn [skipn]. rewrite NF. destruct (IHg k) as (k' & ->). eauto. }
    destruct (Dr F j) as (k' & ->). reflexivity.
  - assert (NF : next_frame (tail ++ x) = None).
    { destruct (app_cases _ _ _ _ (eq_sym E) ltac:(lia)) as (y & Ey & _). unfold next_frame. destruct D as (_ & _ & _ & D).
      rewrite (D (tail ++ x) y Ey); [reflexivity|]. intros ->. rewrite app_nil_r in Ey. rewrite Ey in LL. lia. }
    rewrite NF. eapply IH; eauto.
Qed.
(** An IPv4 header with total length 0. *)
Definition zero_v4 : bytes := x45 :: repeat x00 19.
(** An IPv6 header with payload length 65496: plus 40, computed in 16 bits. *)
Definition wrap_v6 : bytes := x60 :: x00 :: x00 :: x00 :: xff :: xd8 :: repeat x00 34.
Lemma prefix_firstn (h q x : bytes) : h = q ++ x -> x <> [] -> exists n, (n < length h)%nat /\ q = firstn n h.
Proof.
  intros -> X. exists (length q). split; [rewrite app_length; destruct x; [congruence|cbn [length]; lia]|].
  rewrite firstn_app, Nat.sub_diag, firstn_all. cbn [firstn]. now rewrite app_nil_r.
Qed.
Lemma nothing_by (h : bytes) : h <> [] -> (length h <= 40)%nat -> (forall rest, ip_size (h ++ rest) = Some 0) ->
  forallb (fun n => match ip_size (firstn n h) with None => true | Some _ => false end) (seq 0 (length h)) = true -> declares_nothing h.
Proof.
  intros A B C D. split; [exact A|split; [exact B|split; [exact C|]]]. intros q x E X. destruct (prefix_firstn h q x E X) as (n & L & ->).
  rewrite forallb_forall in D. specialize (D n). rewrite in_seq in D. specialize (D ltac:(lia)). destruct (ip_size (firstn n h)); [discriminate|reflexivity].
Qed.
Lemma zero_v4_nothing : declares_nothing zero_v4.
Proof.
  apply nothing_by; [discriminate|cbn; lia| |vm_compute; reflexivity]. intros rest. unfold zero_v4. cbn [repeat app ip_size].
  change (b2n x45 / 16) with 4. change (b2n x45 mod 16) with 5. replace (4 =? 4) with true by reflexivity.
  destruct (_ || _ || _) eqn:C; [rewrite lenN_length in C; cbn [length] in C; lia|reflexivity].
Qed.
Lemma wrap_v6_nothing : declares_nothing wrap_v6.
Proof.
  apply nothing_by; [discriminate|cbn; lia| |vm_compute; reflexivity]. intros rest. unfold wrap_v6. cbn [repeat app ip_size].
  change (b2n x60 / 16) with 6. replace (6 =? 4) with false by reflexivity. replace (6 =? 6) with true by reflexivity.
  destruct (_ <? 40) eqn:C; [rewrite lenN_length in C; cbn [length] in C; lia|reflexivity].
Qed.
Theorem c68_malformed_header_is_survived_refuted : forall h, h = zero_v4 \/ h = wrap_v6 -> forall rest F fuel r i w j,
  no_read_errors r -> pipe_frames F fuel r i w j [] (h ++ rest) = (Running, []).
Proof.
  intros h H rest F fuel r i w j NR. assert (D : declares_nothing h) by (destruct H as [-> | ->]; [apply zero_v4_nothing|apply wrap_v6_nothing]).
  eapply spins; [exact NR|exact D|reflexivity|]. destruct D as (NE & _). destruct h; [congruence|cbn [length]; lia].
Qed.
Print Assumptions c68_malformed_header_is_survived_refuted.

(** Two packets, one of each version, over a socket that takes 3 bytes a time and returns 7. *)
Definition v4_packet : bytes := [x45; x00; x00; x16] ++ repeat x01 18.
Definition v6_packet : bytes := [x60; x00; x00; x00; x00; x03] ++ repeat x02 37.
Example c68_nontrivial :
  Forall ip_packet [v4_packet; v6_packet] /\ takes_all (fun _ => Accept 40000) /\ progresses (fun _ => Accept 3) /\ no_read_errors (fun _ => Give 7) /\
  pipe_frames 100 100 (fun _ => Give 7) 0 (fun _ => Accept 40000) 0 [] (on_wire (snd (pipe_all 100 (fun _ => Accept 3) 0 [v4_packet; v6_packet]))) =
    (Finished Panicked, [(v4_packet, 22); (v6_packet, 43)]) /\
  snd (pipe_frames 100 5 (fun _ => Give 7) 0 (fun _ => Accept 40000) 0 [] (on_wire (snd (pipe_all 100 (fun _ => Accept 3) 0 [v4_packet; v6_packet])))) = [(v4_packet, 22)].
Proof.
  split; [|split; [|split; [|split; [|split]]]].
  - constructor; [|constructor; [|constructor]]; (split; [vm_compute; discriminate|]); cbv zeta; [left|right]; (split; [reflexivity|split; [|reflexivity]]).
    + split; vm_compute; discriminate.
    + vm_compute; discriminate.
  - intros i. exists 40000. split; [reflexivity|lia].
  - intros i. exists 3. split; [reflexivity|lia].
  - discriminate.
  - vm_compute. reflexivity.
  - vm_compute. reflexivity.
Qed.
