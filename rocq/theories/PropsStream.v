(** C34, C35: framing. *)
From Verif Require Import Base Stream.
Require Import ZifyBool ZifyN ZifyNat.
Local Open Scope N_scope.

(** *** Specification *)
(** The frame of a payload: its length in eight little-endian bytes, then the payload. *)
Definition frame (p : bytes) : bytes := le_enc 8 (lenN p) ++ p.
Definition fits (p : bytes) : Prop := lenN p <= 134217728.
Definition no_read_error (r : nat -> rres) : Prop := forall i, r i <> RFail.
Definition prefix (a b : bytes) : Prop := exists c, b = a ++ c.

Lemma accept_le n o : (N.to_nat (accept n o) <= length o)%nat.
Proof. unfold accept. rewrite lenN_length. lia. Qed.
Lemma on_wire_cons c tr : on_wire (c :: tr) = call_accepted c ++ on_wire tr.
Proof. reflexivity. Qed.
Lemma on_wire_app a b : on_wire (a ++ b) = on_wire a ++ on_wire b.
Proof. unfold on_wire. now rewrite map_app, concat_app. Qed.

Lemma write_all_spec w : forall fuel i buf, (length buf <= fuel)%nat ->
  let '(r, j, tr) := write_all fuel w i buf in
  prefix (on_wire tr) buf /\ (r = Ok tt -> on_wire tr = buf) /\ Forall (fun c => (length (fst c) <= length buf)%nat) tr.
Proof.
  induction fuel as [|f IH]; intros i buf L.
  - destruct buf; [|cbn in L; lia]. cbn. split; [now exists []|]. split; [auto|constructor].
  - cbn [write_all]. destruct buf as [|b buf]; [cbn; split; [now exists []|]; split; [auto|constructor]|].
    set (B := b :: buf) in *. destruct (w i) as [n|].
    2:{ split; [exists B; reflexivity|]. split; [discriminate|]. constructor; [cbn [fst]; lia|constructor]. }
    pose proof (accept_le n B) as La. destruct (N.eqb_spec (accept n B) 0) as [E|E].
    + split; [exists B; reflexivity|]. split; [discriminate|]. constructor; [cbn [fst]; lia|constructor].
    + specialize (IH (S i) (skipn (N.to_nat (accept n B)) B)). rewrite skipn_length in IH.
      destruct (write_all f w (S i) (skipn (N.to_nat (accept n B)) B)) as [[r j] tr].
      destruct (IH ltac:(lia)) as ((c & P) & D & F). rewrite on_wire_cons. unfold call_accepted. cbn [fst snd].
      split; [|split].
      * exists c. rewrite <- app_assoc, <- P. symmetry. apply firstn_skipn.
      * intros R. rewrite (D R). apply firstn_skipn.
      * constructor; [apply Nat.le_refl|]. eapply Forall_impl; [|exact F]. intros a Ha. cbn beta in Ha. lia.
Qed.
Lemma skip_chunk n (a : nat) (buf : bytes) : (a <= length (firstn n buf))%nat ->
  firstn a (firstn n buf) ++ skipn a buf = buf.
Proof. intros L. rewrite firstn_length in L. rewrite firstn_firstn, Nat.min_l by lia. apply firstn_skipn. Qed.
Lemma send_loop_spec w : forall fuel i buf,
  let '(r, tr) := send_loop fuel w i buf in
  prefix (on_wire tr) buf /\ (r = Finished (Ok tt) -> on_wire tr = buf) /\ Forall (fun c => lenN (fst c) <= 31234) tr.
Proof.
  induction fuel as [|f IH]; intros i buf; cbn [send_loop].
  - split; [exists buf; reflexivity|]. split; [discriminate|constructor].
  - destruct buf as [|b buf]; [split; [now exists []|]; split; [auto|constructor]|].
    set (B := b :: buf) in *. set (o := firstn (N.to_nat MAX_WRITE_SIZE) B).
    assert (Lo : lenN o <= 31234).
    { rewrite lenN_length. unfold o. rewrite firstn_length. unfold MAX_WRITE_SIZE. lia. }
    destruct (w i) as [n|].
    2:{ split; [exists B; reflexivity|]. split; [discriminate|]. constructor; [exact Lo|constructor]. }
    pose proof (accept_le n o) as La. specialize (IH (S i) (skipn (N.to_nat (accept n o)) B)).
    destruct (send_loop f w (S i) (skipn (N.to_nat (accept n o)) B)) as [r tr].
    destruct IH as ((c & P) & D & F). rewrite on_wire_cons. unfold call_accepted. cbn [fst snd].
    split; [|split; [|constructor; assumption]].
    + exists c. rewrite <- app_assoc, <- P. symmetry. now apply skip_chunk.
    + intros R. rewrite (D R). now apply skip_chunk.
Qed.

(** *** C34: sending *)
Theorem c34_send_writes_the_frame : forall fuel w p,
  let (r, tr) := send fuel w p in
  (r = Finished (Ok tt) -> fits p /\ on_wire tr = frame p)
  /\ (fits p -> prefix (on_wire tr) (frame p))
  /\ (~ fits p -> r = Finished (Err (OversizedPayload (lenN p))) /\ on_wire tr = [])
  /\ Forall (fun c => lenN (fst c) < 32768) tr.
Proof.
  intros fuel w p. unfold send, fits, MAX_PAYLOAD_SIZE. destruct (128 * (1024 * 1024) <? lenN p) eqn:O.
  - split; [discriminate|]. split; [lia|]. split; [auto|constructor].
  - pose proof (write_all_spec w 8 0 (le_enc 8 (lenN p))) as W. rewrite le_enc_length in W.
    destruct (write_all 8 w 0 (le_enc 8 (lenN p))) as [[r i] tr]. destruct (W ltac:(lia)) as ((c & P) & D & F).
    assert (F' : Forall (fun c => lenN (fst c) < 32768) tr).
    { eapply Forall_impl; [|exact F]. cbn. intros a. rewrite lenN_length. lia. }
    destruct r as [[]|e].
    + pose proof (send_loop_spec w fuel i p) as S'. destruct (send_loop fuel w i p) as [r' tr'].
      destruct S' as ((c' & P') & D' & G). rewrite on_wire_app, (D eq_refl). unfold frame.
      split; [intros R; split; [lia|]; now rewrite (D' R)|]. split; [intros _; exists c'; rewrite <- app_assoc; now rewrite <- P'|].
      split; [lia|]. apply Forall_app. split; [exact F'|]. eapply Forall_impl; [|exact G]. cbn. intros; lia.
    + split; [discriminate|]. split; [|split; [lia|exact F']]. intros _. exists (c ++ p). unfold frame. rewrite P, <- app_assoc. reflexivity.
Qed.
Print Assumptions c34_send_writes_the_frame.

(** Whatever split the kernel chooses, as long as every write accepts something, send completes. *)
Definition makes_progress (w : nat -> wres) : Prop := forall i, exists n, w i = Accept n /\ 0 < n.
Lemma write_all_ok w (G : makes_progress w) : forall fuel i buf, (length buf <= fuel)%nat ->
  fst (fst (write_all fuel w i buf)) = Ok tt.
Proof.
  induction fuel as [|f IH]; intros i buf L; [reflexivity|]. cbn [write_all]. destruct buf as [|b buf]; [reflexivity|].
  set (B := b :: buf) in *. destruct (G i) as (n & -> & Hn).
  assert (0 < accept n B). { unfold accept. rewrite lenN_length. unfold B. cbn [length]. lia. }
  rewrite (proj2 (N.eqb_neq _ _)) by lia. specialize (IH (S i) (skipn (N.to_nat (accept n B)) B)). rewrite skipn_length in IH.
  destruct (write_all f w (S i) _) as [[r j] tr]. cbn [fst] in *. apply IH. assert (1 <= length B)%nat by (unfold B; cbn [length]; lia). lia.
Qed.
Lemma send_loop_ok w (G : makes_progress w) : forall fuel i buf, (length buf < fuel)%nat ->
  fst (send_loop fuel w i buf) = Finished (Ok tt).
Proof.
  induction fuel as [|f IH]; intros i buf L; [lia|]. cbn [send_loop]. destruct buf as [|b buf]; [reflexivity|].
  set (B := b :: buf) in *. destruct (G i) as (n & -> & Hn). set (o := firstn (N.to_nat MAX_WRITE_SIZE) B).
  assert (0 < accept n o).
  { unfold accept. rewrite lenN_length. unfold o. rewrite firstn_length. unfold MAX_WRITE_SIZE, B. cbn [length]. lia. }
  specialize (IH (S i) (skipn (N.to_nat (accept n o)) B)). rewrite skipn_length in IH.
  destruct (send_loop f w (S i) _) as [r tr]. cbn [fst] in *. apply IH. assert (1 <= length B)%nat by (unfold B; cbn [length]; lia). lia.
Qed.
Theorem c34_send_completes : forall w p fuel, makes_progress w -> fits p -> (length p < fuel)%nat ->
  exists tr, send fuel w p = (Finished (Ok tt), tr) /\ on_wire tr = frame p.
Proof.
  intros w p fuel G F L. pose proof (c34_send_writes_the_frame fuel w p) as S'. destruct (send fuel w p) as [r tr] eqn:E.
  assert (r = Finished (Ok tt)) as ->.
  { unfold send, fits, MAX_PAYLOAD_SIZE in *. rewrite (proj2 (N.ltb_ge _ _)) in E by lia.
    pose proof (write_all_ok w G 8 0 (le_enc 8 (lenN p))) as W. rewrite le_enc_length in W. specialize (W ltac:(lia)).
    destruct (write_all 8 w 0 _) as [[r1 i] tr1]. cbn in W. subst.
    pose proof (send_loop_ok w G fuel i p L) as S2. destruct (send_loop fuel w i p) as [r2 tr2]. cbn in S2. congruence. }
  exists tr. split; [reflexivity|]. now apply S'.
Qed.
Print Assumptions c34_send_completes.

(** *** C34: receiving *)
Lemma skipn_plus {A} (x y : nat) (l : list A) : skipn x (skipn y l) = skipn (y + x) l.
Proof. revert l. induction y as [|y IH]; intros l; [reflexivity|]. destruct l; [now rewrite !skipn_nil|]. cbn. apply IH. Qed.
Lemma read_exact_ok r (G : no_read_error r) : forall fuel k i stream, (k <= fuel)%nat -> (k <= length stream)%nat ->
  exists j, read_exact k fuel r i stream = (Ok (firstn k stream), j, skipn k stream).
Proof.
  induction fuel as [|f IH]; intros k i stream Lf Ls.
  - assert (k = O) as -> by lia. exists i. reflexivity.
  - destruct k as [|k]; [exists i; reflexivity|]. cbn [read_exact]. unfold read_once. specialize (G i).
    destruct (r i) as [n|]; [|congruence].
    set (m := Nat.max 1 _). assert (1 <= m <= S k)%nat by (unfold m, bytes in *; lia). assert (m <= length stream)%nat by (unfold m, bytes in *; lia).
    assert (Lm : length (firstn m stream) = m) by (rewrite firstn_length; lia).
    destruct (firstn m stream) as [|g got] eqn:E; [cbn [length] in Lm; lia|].
    rewrite Lm. destruct (IH (S k - m)%nat (S i) (skipn m stream)) as (j & R); [lia|rewrite skipn_length; lia|].
    rewrite R. exists j. f_equal; [f_equal; f_equal|].
    + rewrite <- E. rewrite <- (firstn_skipn m (firstn (S k) stream)) at 1. rewrite firstn_firstn, Nat.min_l by lia. f_equal.
      rewrite skipn_firstn_comm. reflexivity.
    + rewrite skipn_plus. f_equal. lia.
Qed.
Lemma read_exact_eof r (G : no_read_error r) : forall fuel k i stream, (k <= fuel)%nat -> (length stream < k)%nat ->
  exists j rest, read_exact k fuel r i stream = (Err RecvConnectionClosed, j, rest).
Proof.
  induction fuel as [|f IH]; intros k i stream Lf Ls; [lia|].
  destruct k as [|k]; [lia|]. cbn [read_exact]. unfold read_once. pose proof (G i) as Gi.
  destruct (r i) as [n|]; [|congruence]. set (m := Nat.max 1 _).
  destruct (firstn m stream) as [|g got] eqn:E; [eauto|].
  assert (Lm : (1 <= m <= S k)%nat) by (unfold m, bytes in *; lia).
  assert (Ls' : (length (g :: got) <= length stream)%nat) by (rewrite <- E, firstn_length; lia).
  assert (Lg : length (g :: got) = Nat.min m (length stream)) by (rewrite <- E; apply firstn_length).
  destruct (IH (S k - length (g :: got))%nat (S i) (skipn m stream)) as (j & rest & R); [cbn [length]; lia|rewrite skipn_length; lia|].
  rewrite R. eauto.
Qed.
Lemma frame_header p rest : fits p -> firstn 8 (frame p ++ rest) = le_enc 8 (lenN p) /\ skipn 8 (frame p ++ rest) = p ++ rest
  /\ le_dec (le_enc 8 (lenN p)) = lenN p.
Proof.
  intros F. unfold frame. rewrite <- app_assoc.
  rewrite firstn_app, skipn_app, le_enc_length, firstn_all2, skipn_all2 by (rewrite le_enc_length; lia).
  cbn [Nat.sub firstn skipn app]. rewrite app_nil_r. split; [reflexivity|]. split; [reflexivity|].
  apply le_dec_enc. unfold fits in F. assert (pow256 8 = 18446744073709551616) as -> by reflexivity. lia.
Qed.
(** One frame: received exactly, nothing of what follows is consumed. *)
Theorem c34_recv_returns_the_payload : forall r i p rest, no_read_error r -> fits p ->
  exists j, recv r i (frame p ++ rest) = (Ok p, j, rest).
Proof.
  intros r i p rest G F. destruct (frame_header p rest F) as (A & B & C). unfold recv.
  destruct (read_exact_ok r G 8 8 i (frame p ++ rest)) as (j & R); [lia|unfold frame; rewrite !app_length, le_enc_length; lia|].
  rewrite R, A, B, C. unfold MAX_PAYLOAD_SIZE, fits in *. rewrite (proj2 (N.ltb_ge _ _)) by lia.
  destruct (read_exact_ok r G (N.to_nat (lenN p)) (N.to_nat (lenN p)) j (p ++ rest)) as (j' & R'); [lia|rewrite app_length, lenN_length; lia|].
  exists j'. rewrite R', lenN_length, Nat2N.id, firstn_app, skipn_app, Nat.sub_diag, firstn_all, skipn_all. cbn. now rewrite app_nil_r.
Qed.
Print Assumptions c34_recv_returns_the_payload.
(** Back to back frames, sent with any splits, are received in order with any splits. *)
Theorem c34_frames_in_order : forall (ps : list bytes) (ws : list (nat -> wres)) r i, no_read_error r ->
  Forall fits ps -> length ws = length ps -> Forall makes_progress ws ->
  let wire := concat (map (fun wp => on_wire (snd (send (S (length (snd wp))) (fst wp) (snd wp)))) (combine ws ps)) in
  recv_all (S (length ps)) r i wire = (ps, RecvConnectionClosed).
Proof.
  induction ps as [|p ps IH]; intros ws r i G F L W; cbn zeta.
  - destruct ws; [|discriminate]. cbn. unfold recv.
    destruct (read_exact_eof r G 8 8 i []) as (j & rest & R); [lia|cbn; lia|]. rewrite R. reflexivity.
  - destruct ws as [|w ws]; [discriminate|]. inversion F as [|? ? Fp Fs]; subst. inversion W as [|? ? Wp Ws]; subst.
    cbn [combine map concat fst snd].
    destruct (c34_send_completes w p (S (length p)) Wp Fp ltac:(lia)) as (tr & -> & E). cbn [snd]. rewrite E.
    cbn [length recv_all].
    destruct (c34_recv_returns_the_payload r i p (concat (map (fun wp => on_wire (snd (send (S (length (snd wp))) (fst wp) (snd wp)))) (combine ws ps))) G Fp) as (j & R).
    rewrite R. cbn [length] in L. injection L as L. pose proof (IH ws r j G Fs L Ws) as I. cbn zeta in I. cbn [recv_all] in I. rewrite I. reflexivity.
Qed.
Print Assumptions c34_frames_in_order.
(** A frame cut anywhere is an error, never a shorter message. *)
Theorem c34_truncated_is_an_error : forall r i p cut, no_read_error r -> fits p ->
  (cut < length (frame p))%nat -> exists j rest, recv r i (firstn cut (frame p)) = (Err RecvConnectionClosed, j, rest).
Proof.
  intros r i p cut G F L. unfold recv. set (s := firstn cut (frame p)).
  assert (Ls : length s = cut) by (unfold s; rewrite firstn_length; lia).
  destruct (Nat.lt_ge_cases cut 8) as [C|C].
  - destruct (read_exact_eof r G 8 8 i s) as (j & rest & R); [lia|lia|]. rewrite R. eauto.
  - destruct (read_exact_ok r G 8 8 i s) as (j & R); [lia|lia|]. rewrite R.
    destruct (frame_header p [] F) as (A & B & D). rewrite app_nil_r in A, B.
    assert (firstn 8 s = le_enc 8 (lenN p)) as ->. { unfold s. rewrite firstn_firstn, Nat.min_l by lia. exact A. }
    rewrite D. unfold MAX_PAYLOAD_SIZE, fits in *. rewrite (proj2 (N.ltb_ge _ _)) by lia.
    apply read_exact_eof; [exact G|lia|]. rewrite skipn_length, Ls. unfold frame in L. rewrite app_length, le_enc_length in L. rewrite lenN_length. lia.
Qed.
Print Assumptions c34_truncated_is_an_error.
(** A header announcing more than 128 MiB is refused before the payload is read. *)
Theorem c34_oversized_header_refused : forall r i n rest, no_read_error r -> 134217728 < n < 2 ^ 64 ->
  exists j, recv r i (le_enc 8 n ++ rest) = (Err (OversizedPayload n), j, rest).
Proof.
  intros r i n rest G B. unfold recv.
  destruct (read_exact_ok r G 8 8 i (le_enc 8 n ++ rest)) as (j & R); [lia|rewrite app_length, le_enc_length; lia|]. rewrite R.
  rewrite firstn_app, skipn_app, le_enc_length, firstn_all2, skipn_all2 by (rewrite le_enc_length; lia).
  cbn [Nat.sub firstn skipn app]. rewrite app_nil_r, le_dec_enc by (change (pow256 8) with (2 ^ 64); lia).
  unfold MAX_PAYLOAD_SIZE. rewrite (proj2 (N.ltb_lt _ _)) by lia. eauto.
Qed.
Print Assumptions c34_oversized_header_refused.
(** Whatever the stream and the read splits, a received message is the announced number of bytes from it. *)
Lemma read_exact_sound r : forall fuel k i stream b j rest, (k <= fuel)%nat ->
  read_exact k fuel r i stream = (Ok b, j, rest) -> length b = k /\ stream = b ++ rest.
Proof.
  induction fuel as [|f IH]; intros k i stream b j rest L H.
  - assert (k = O) as -> by lia. cbn in H. inversion H; subst. auto.
  - destruct k as [|k]; [cbn in H; inversion H; subst; auto|]. cbn [read_exact] in H.
    unfold read_once in H. destruct (r i) as [n|]; [|discriminate]. set (m := Nat.max 1 _) in H.
    destruct (firstn m stream) as [|g got] eqn:E; [discriminate|].
    assert (Lg : length (g :: got) = Nat.min m (length stream)) by (rewrite <- E; apply firstn_length).
    destruct (read_exact (S k - length (g :: got)) f r (S i) (skipn m stream)) as [[[more|e] j'] rest'] eqn:R; [|discriminate].
    apply IH in R as [R1 R2]; [|cbn [length] in *; lia]. inversion H; subst. split.
    + rewrite app_comm_cons, app_length, R1. lia.
    + rewrite app_comm_cons, <- app_assoc, <- R2, <- E. symmetry. apply firstn_skipn.
Qed.
Theorem c34_recv_sound : forall r i stream p j rest,
  recv r i stream = (Ok p, j, rest) -> fits p /\ stream = frame p ++ rest.
Proof.
  intros r i stream p j rest H. unfold recv in H.
  destruct (read_exact 8 8 r i stream) as [[[h|e] j1] rest1] eqn:R; [|discriminate].
  apply read_exact_sound in R as [Lh ->]; [|lia]. unfold MAX_PAYLOAD_SIZE in H.
  destruct (128 * (1024 * 1024) <? le_dec h) eqn:O; [discriminate|].
  apply read_exact_sound in H as [Lp ->]; [|lia].
  assert (E : lenN p = le_dec h) by (rewrite lenN_length; lia). split; [unfold fits; lia|].
  unfold frame. rewrite E, <- app_assoc. f_equal. symmetry. rewrite <- Lh. apply le_enc_dec.
Qed.
Print Assumptions c34_recv_sound.

Definition halves : nat -> wres := fun i => Accept (1 + N.of_nat i).
Example c34_nontrivial : makes_progress halves /\ fits (bs "hello") /\ no_read_error (fun i => Give (N.of_nat i))
  /\ recv (fun i => Give (N.of_nat i)) 0 (on_wire (snd (send 9 halves (bs "hello"))) ++ bs "x") = (Ok (bs "hello"), 6%nat, bs "x").
Proof.
  split; [intros i; exists (1 + N.of_nat i); split; [reflexivity|lia]|]. split; [unfold fits; vm_compute; discriminate|].
  split; [intros i; discriminate|]. vm_compute. reflexivity.
Qed.

(** *** C35: termination of send.  The intended statement "send finishes for
    every kernel behaviour" is false: a socket whose writes accept 0 bytes after
    the header keeps the loop running for ever. *)
Definition stalls : nat -> wres := fun i => match i with O => Accept 8 | _ => Accept 0 end.
Theorem c35_send_terminates_refuted :
  ~ (forall w p, exists fuel, fst (send fuel w p) <> Running).
Proof.
  intros H. destruct (H stalls [x00]) as (fuel & E). apply E. unfold send.
  change (MAX_PAYLOAD_SIZE <? lenN [x00]) with false.
  assert (W : write_all 8 stalls 0 (le_enc 8 (lenN [x00])) = (Ok tt, 1%nat, [(le_enc 8 1, 8)])) by (vm_compute; reflexivity).
  rewrite W. assert (S' : forall f i, (0 < i)%nat -> fst (send_loop f stalls i [x00]) = Running).
  { induction f as [|f IH]; intros i Hi; [reflexivity|]. cbn [send_loop]. destruct i as [|i]; [lia|]. cbn [stalls].
    unfold accept. rewrite N.min_0_l. cbn [N.to_nat skipn]. specialize (IH (S (S i)) ltac:(lia)).
    destruct (send_loop f stalls (S (S i)) [x00]) as [r tr]. exact IH. }
  specialize (S' fuel 1%nat ltac:(lia)). destruct (send_loop fuel stalls 1 [x00]) as [r tr]. exact S'.
Qed.
Print Assumptions c35_send_terminates_refuted.
(** What holds: it finishes if every write either fails or accepts something. *)
Theorem c35_send_terminates_if_progress : forall w p, (forall i, w i = WFail \/ exists n, w i = Accept n /\ 0 < n) ->
  fst (send (S (length p)) w p) <> Running.
Proof.
  intros w p G. unfold send. destruct (MAX_PAYLOAD_SIZE <? lenN p); [discriminate|].
  destruct (write_all 8 w 0 (le_enc 8 (lenN p))) as [[[[]|e] i] tr]; [|discriminate].
  assert (S' : forall fuel i buf, (length buf < fuel)%nat -> fst (send_loop fuel w i buf) <> Running).
  { induction fuel as [|f IH]; intros k buf L; [lia|]. cbn [send_loop]. destruct buf as [|b buf]; [discriminate|].
    set (B := b :: buf) in *. destruct (G k) as [->|(n & -> & Hn)]; [discriminate|]. set (o := firstn (N.to_nat MAX_WRITE_SIZE) B).
    assert (0 < accept n o).
    { unfold accept. rewrite lenN_length. unfold o. rewrite firstn_length. unfold MAX_WRITE_SIZE, B. cbn [length]. lia. }
    specialize (IH (S k) (skipn (N.to_nat (accept n o)) B)). rewrite skipn_length in IH.
    destruct (send_loop f w (S k) _) as [r tr']. cbn [fst] in *. apply IH. assert (1 <= length B)%nat by (unfold B; cbn [length]; lia). lia. }
  specialize (S' (S (length p)) i p ltac:(lia)). destruct (send_loop (S (length p)) w i p). exact S'.
Qed.
Print Assumptions c35_send_terminates_if_progress.
(** More precisely, an endless run of writes that accept nothing is the only way
    not to finish: it finishes if writes that fail or accept something keep
    coming, however rarely. *)
Theorem c35_send_terminates_unless_stalled : forall w p, (forall n, exists i, (n <= i)%nat /\ w i <> Accept 0) ->
  exists fuel, fst (send fuel w p) <> Running.
Proof.
  intros w p G. unfold send. destruct (MAX_PAYLOAD_SIZE <? lenN p); [exists O; discriminate|].
  destruct (write_all 8 w 0 (le_enc 8 (lenN p))) as [[[[]|e] i] tr]; [|exists O; discriminate].
  assert (S' : forall len i buf, (length buf <= len)%nat -> exists fuel, fst (send_loop fuel w i buf) <> Running).
  { induction len as [|len IH]; intros k buf L.
    { destruct buf; [|cbn [length] in L; lia]. exists 1%nat. discriminate. }
    destruct buf as [|b buf]; [exists 1%nat; discriminate|]. set (B := b :: buf) in *.
    destruct (G k) as (j & Lj & Hj). remember (j - k)%nat as d eqn:Ed. revert k Lj Ed. induction d as [|d IHd]; intros k Lj Ed.
    - assert (k = j) as -> by lia. destruct (w j) as [n|] eqn:Wj.
      2:{ exists 1%nat. cbn [send_loop]. unfold B. rewrite Wj. discriminate. }
      set (o := firstn (N.to_nat MAX_WRITE_SIZE) B).
      assert (A : 0 < accept n o).
      { assert (n <> 0) by congruence. unfold accept. rewrite lenN_length. unfold o. rewrite firstn_length. unfold MAX_WRITE_SIZE, B. cbn [length]. lia. }
      destruct (IH (S j) (skipn (N.to_nat (accept n o)) B)) as (fuel & F).
      { rewrite skipn_length. lia. }
      exists (S fuel). cbn [send_loop]. unfold B at 1. rewrite Wj. fold o. destruct (send_loop fuel w (S j) _) as [r tr']. exact F.
    - destruct (IHd (S k) ltac:(lia) ltac:(lia)) as (fuel & F). destruct (w k) as [n|] eqn:Wk.
      2:{ exists 1%nat. cbn [send_loop]. unfold B. rewrite Wk. discriminate. }
      set (o := firstn (N.to_nat MAX_WRITE_SIZE) B).
      destruct (N.eq_dec (accept n o) 0) as [A|A].
      + exists (S fuel). cbn [send_loop]. unfold B at 1. rewrite Wk. fold o. rewrite A. cbn [N.to_nat skipn]. destruct (send_loop fuel w (S k) B) as [r tr']. exact F.
      + destruct (IH (S k) (skipn (N.to_nat (accept n o)) B)) as (fuel' & F').
        { rewrite skipn_length. lia. }
        exists (S fuel'). cbn [send_loop]. unfold B at 1. rewrite Wk. fold o. destruct (send_loop fuel' w (S k) _) as [r tr']. exact F'. }
  destruct (S' (length p) i p (Nat.le_refl _)) as (fuel & F). exists fuel. destruct (send_loop fuel w i p). exact F.
Qed.
Print Assumptions c35_send_terminates_unless_stalled.

(** Conversely, such a run is fatal: if at some point ([early] rounds of the loop)
    the sending is still going on, part of the frame is still to come, and every
    later write accepts nothing, then it never ends. *)
Lemma write_all_calls w : forall fuel i buf r j tr, write_all fuel w i buf = (r, j, tr) -> j = (i + length tr)%nat.
Proof.
  induction fuel as [|f IH]; intros i buf r j tr H; cbn [write_all] in H; [injection H as _ <- <-; cbn [length]; lia|].
  destruct buf as [|b buf]; [injection H as _ <- <-; cbn [length]; lia|]. destruct (w i); [|injection H as _ <- <-; cbn [length]; lia].
  cbv zeta in H. destruct (accept n (b :: buf) =? 0); [injection H as _ <- <-; cbn [length]; lia|].
  destruct (write_all f w (S i) _) as [[r' j'] tr'] eqn:E. injection H as _ <- <-. apply IH in E. cbn [length]. lia.
Qed.
Lemma loop_stalled w : forall early i buf, fst (send_loop early w i buf) = Running ->
  (length (on_wire (snd (send_loop early w i buf))) < length buf)%nat ->
  (forall j, (i + length (snd (send_loop early w i buf)) <= j)%nat -> w j = Accept 0) ->
  forall fuel, fst (send_loop fuel w i buf) = Running.
Proof.
  induction early as [|e IH]; intros i buf R L Z fuel.
  - cbn [send_loop snd length] in L, Z. clear R. revert i Z. induction fuel as [|f IHf]; intros i Z; [reflexivity|]. cbn [send_loop].
    destruct buf as [|b buf]; [cbn [length] in L; lia|]. rewrite (Z i) by lia. unfold accept. rewrite N.min_0_l. cbn [N.to_nat skipn].
    specialize (IHf (S i) ltac:(intros j Hj; apply Z; lia)). destruct (send_loop f w (S i) (b :: buf)) as [r tr]. exact IHf.
  - cbn [send_loop] in R, L, Z. destruct fuel as [|f]; [reflexivity|]. cbn [send_loop]. destruct buf as [|b buf]; [discriminate R|].
    set (B := b :: buf) in *. destruct (w i) as [n|]; [|discriminate R]. cbv zeta in R, L, Z |- *.
    set (o := firstn (N.to_nat MAX_WRITE_SIZE) B) in *. set (k := N.to_nat (accept n o)) in *.
    specialize (IH (S i) (skipn k B)). destruct (send_loop e w (S i) (skipn k B)) as [r tr] eqn:E. cbn [fst snd] in *.
    rewrite on_wire_cons, app_length in L. unfold call_accepted in L. cbn [fst snd] in L. fold k in L. rewrite firstn_length in L.
    pose proof (accept_le n o) as A. fold k in A.
    assert (IH' := IH R). rewrite skipn_length in IH'.
    specialize (IH' ltac:(lia) ltac:(intros j Hj; apply Z; cbn [length]; lia) f).
    destruct (send_loop f w (S i) (skipn k B)) as [r' tr']. exact IH'.
Qed.
Theorem c35_stalled_never_ends : forall w p early, fst (send early w p) = Running ->
  let calls := snd (send early w p) in
  (length (on_wire calls) < 8 + length p)%nat -> (forall j, (length calls <= j)%nat -> w j = Accept 0) ->
  forall fuel, fst (send fuel w p) = Running.
Proof.
  intros w p early R calls L Z fuel. subst calls. unfold send in *. destruct (MAX_PAYLOAD_SIZE <? lenN p); [discriminate R|].
  assert (H8 : length (le_enc 8 (lenN p)) = 8%nat) by apply le_enc_length.
  destruct (write_all 8 w 0 (le_enc 8 (lenN p))) as [[[[]|e] i] tr] eqn:W; [|discriminate R].
  pose proof (write_all_calls _ _ _ _ _ _ _ W) as C. cbn [Nat.add] in C.
  pose proof (write_all_spec w 8 0%nat (le_enc 8 (lenN p)) ltac:(lia)) as SP. rewrite W in SP.
  pose proof (loop_stalled w early i p) as LS. destruct (send_loop early w i p) as [r tr'] eqn:E. cbn [fst snd] in *.
  assert (HH : length (on_wire tr) = 8%nat) by (destruct SP as (_ & SP2 & _); rewrite (SP2 eq_refl); exact H8).
  rewrite on_wire_app, app_length, HH in L. rewrite app_length in Z.
  specialize (LS R ltac:(lia) ltac:(intros j Hj; apply Z; lia) fuel). destruct (send_loop fuel w i p). exact LS.
Qed.
Print Assumptions c35_stalled_never_ends.
(** A kernel that takes the header and two bytes of five, then nothing. *)
Example c35_stalled_nontrivial : let w := fun i => match i with O => Accept 8 | S O => Accept 2 | _ => Accept 0 end in
  let p := [x01; x02; x03; x04; x05] in
  fst (send 1 w p) = Running /\ length (on_wire (snd (send 1 w p))) = 10%nat /\ length (snd (send 1 w p)) = 2%nat
  /\ (forall j, (2 <= j)%nat -> w j = Accept 0).
Proof. split; [vm_compute; reflexivity|]. split; [vm_compute; reflexivity|]. split; [vm_compute; reflexivity|]. intros [|[|j]] H; [lia|lia|reflexivity]. Qed.
