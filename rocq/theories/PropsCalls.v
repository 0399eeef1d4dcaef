(** C66, C67: calls through the pool. *)
From Verif Require Import Base Stream Calls SpecCalls CallsProofs.
Require Import ZifyBool ZifyN ZifyNat.
Local Open Scope nat_scope.

(** C66.  Whatever is cut off when, and whoever else talks to the server: what
    a call returns is the server's answer to that call's own request, given
    while the call ran; the server processes each call's request at most
    once, never before the call, and nothing else; and what it processed is
    one sequence of steps of the server. *)
Theorem c66_answers_are_to_the_callers_own_request : forall (S : Type) (proc : bytes -> S -> option bytes -> S -> Prop) n s0 x,
  creach proc n s0 x ->
  (exists owner, correlated (observed x) owner) /\ processed proc s0 (observed x) (srv x).
Proof.
  intros S proc n s0 x R. split; [|exact (processed_reach proc _ _ _ R)].
  destruct (hinv_reach proc _ _ _ R) as [H1 H2 H3 H4].
  exists (fun p => match nth_error (hist x) p with Some (Serve i _ _) => i | _ => 0 end).
  assert (U : forall p e, at_ (observed x) p e <-> exists f, nth_error (hist x) p = Some f /\ observe f = e).
  { intros p e. unfold at_, observed. rewrite nth_error_map. destruct (nth_error (hist x) p) as [f|]; cbn.
    - split; [intros E; exists f; split; [reflexivity|congruence]|intros (g & E & <-); congruence].
    - split; [discriminate|intros (g & E & _); discriminate]. }
  assert (US : forall p q a, at_ (observed x) p (OServe q a) -> exists i, nth_error (hist x) p = Some (Serve i q a)).
  { intros p q a H. apply U in H as (f & F & E). destruct f; try discriminate. injection E as -> ->. eauto. }
  assert (UI : forall v i q, at_ (observed x) v (OInvoke i q) <-> nth_error (hist x) v = Some (Invoke i q)).
  { intros v i q. rewrite U. split; [intros (f & F & E); destruct f; try discriminate; injection E as -> ->; exact F|intros H; eexists; split; [exact H|reflexivity]]. }
  split.
  - intros p q a H. apply US in H as [i H]. rewrite H. destruct (H1 _ _ _ _ H) as (v & L & V). exists v. split; [exact L|now apply UI].
  - intros p q a p' q' a' H H' E. apply US in H as [i H]. apply US in H' as [i' H']. rewrite H, H' in E. subst i'. exact (H2 _ _ _ _ _ _ _ H H').
  - intros r i a H. apply U in H as (f & F & E). destruct f; try discriminate. injection E as -> ->. destruct (H3 _ _ _ F) as (p & q & L & P).
    exists p, q. split; [exact L|]. rewrite P. split; [|reflexivity]. apply U. eexists. split; [exact P|reflexivity].
  - intros v i q v' q' H H'. apply UI in H, H'. exact (H4 _ _ _ _ _ H H').
Qed.
Print Assumptions c66_answers_are_to_the_callers_own_request.

(** The reader on either side takes exactly one message off the stream: while a
    message and whatever follows it arrive in any pieces, it never asks for a
    byte beyond the message, asks for more exactly until it has the whole
    message, and then delivers that message. *)
Theorem c66_reads_exactly_one_message : forall p rest got more, (lenN p <= 134217728)%N ->
  got ++ more = (le_enc 8 (lenN p) ++ p) ++ rest -> length got <= 8 + length p ->
  length got + need got <= 8 + length p
  /\ (need got = 0 <-> got = le_enc 8 (lenN p) ++ p)
  /\ (forall a, complete got = Some a <-> got = le_enc 8 (lenN p) ++ p /\ a = p).
Proof.
  intros p rest got more SM E L. change (le_enc 8 (lenN p) ++ p) with (framed p) in *.
  assert (FL : length (framed p) = 8 + length p) by apply framed_length.
  assert (PRE : framed p = got ++ skipn (length got) (framed p)).
  { assert (G : firstn (length got) (got ++ more) = firstn (length got) (framed p ++ rest)) by now rewrite E.
    rewrite firstn_app, firstn_all, Nat.sub_diag in G. cbn [firstn] in G. rewrite app_nil_r in G.
    rewrite firstn_app in G. replace (length got - length (framed p)) with 0 in G by lia. cbn [firstn] in G. rewrite app_nil_r in G.
    rewrite G at 1. symmetry. apply firstn_skipn. }
  assert (SP : small p) by (unfold small, MAX_PAYLOAD_SIZE in *; lia).
  assert (EQ : length got = 8 + length p -> got = framed p).
  { intros X. rewrite PRE. rewrite skipn_all2 by lia. now rewrite app_nil_r. }
  assert (D : 8 <= length got -> declared got = lenN p).
  { intros G8. unfold declared. assert (Fr : firstn 8 got = firstn 8 (framed p)) by (rewrite PRE, firstn_app; replace (8 - length got) with 0 by lia; cbn [firstn]; now rewrite app_nil_r).
    rewrite Fr. unfold framed. pose proof (le_enc_length 8 (lenN p)) as L8. set (h := le_enc 8 (lenN p)) in *.
    rewrite firstn_app, L8, firstn_all2 by lia. cbn [Nat.sub firstn]. rewrite app_nil_r. subst h. apply le_dec_enc. change (pow256 8) with 18446744073709551616%N. lia. }
  assert (GF : got = framed p -> length got = 8 + length p) by (intros ->; exact FL).
  assert (LN : lenN p = N.of_nat (length p)) by apply lenN_length.
  assert (CP : forall a, complete got = Some a <-> got = framed p /\ a = p).
  { intros a. split.
    - intros C. destruct (complete_prefix got p a _ SP PRE C) as [-> G]. split; [exact G|reflexivity].
    - intros [G ->]. unfold complete. specialize (GF G). rewrite D by lia. rewrite SP.
      replace (8 <=? length got) with true by lia. replace (length got =? N.to_nat (lenN p) + 8) with true by lia. cbn [andb negb].
      f_equal. rewrite G. unfold framed. set (h := le_enc 8 (lenN p)). pose proof (le_enc_length 8 (lenN p)) as L8. change (le_enc 8 (lenN p)) with h in L8. rewrite skipn_app, L8, skipn_all2 by lia. reflexivity. }
  split; [|split; [|exact CP]].
  - unfold need. destruct (Nat.ltb_spec (length got) 8); [lia|]. rewrite D by lia. rewrite SP. lia.
  - unfold need. split.
    + destruct (Nat.ltb_spec (length got) 8); [lia|]. rewrite D by lia. rewrite SP. intros X. apply EQ. lia.
    + intros G. specialize (GF G). replace (length got <? 8) with false by lia. rewrite D by lia. rewrite SP. lia.
Qed.
Print Assumptions c66_reads_exactly_one_message.

(** Hence calls are linearizable: one that returned before another started was
    served before it. *)
Theorem c66_served_in_real_time_order : forall (S : Type) (proc : bytes -> S -> option bytes -> S -> Prop) n s0 x,
  creach proc n s0 x -> exists owner, correlated (observed x) owner /\
  forall i a r j q v, at_ (observed x) r (OReturn i a) -> at_ (observed x) v (OInvoke j q) -> r < v ->
  exists p qi, p < r /\ at_ (observed x) p (OServe qi (Some a)) /\ owner p = i /\
    forall p' q' a', at_ (observed x) p' (OServe q' a') -> owner p' = j -> p < p'.
Proof.
  intros S proc n s0 x R. destruct (c66_answers_are_to_the_callers_own_request S proc n s0 x R) as [[owner C] _]. exists owner. split; [exact C|].
  intros i a r j q v HR HI L. destruct (returned_own_answer _ _ C _ _ _ HR) as (p & qi & Lp & P & O). exists p, qi. split; [exact Lp|]. split; [exact P|]. split; [exact O|].
  intros p' q' a' P' O'. destruct (processed_was_asked _ _ C _ _ _ P') as (v' & Lv & V'). rewrite O' in V'. rewrite (invoked_once _ _ C _ _ _ _ _ V' HI) in Lv. lia.
Qed.
Print Assumptions c66_served_in_real_time_order.

(** C67.  Each stream serves one call at a time, and every stream a call has
    left, however it ended, is disconnected and free for the next. *)
Theorem c67_streams_are_exclusive_and_never_leak : forall (S : Type) (proc : bytes -> S -> option bytes -> S -> Prop) n s0 x,
  creach proc n s0 x ->
  (forall i j ci cj h, nth_error (calls x) i = Some ci -> nth_error (calls x) j = Some cj -> holds ci h -> holds cj h -> i = j) /\
  (forall h s, nth_error (slots x) h = Some s ->
     (exists i c, nth_error (calls x) i = Some c /\ holds c h /\ s_held s = true) \/
     (s_held s = false /\ is_connected s = false)) /\
  n <= length (slots x).
Proof.
  intros S proc n s0 x R. pose proof (inv_reach proc _ _ _ R) as I. split; [|split].
  - intros i j [qi ci] [qj cj] h Hi Hj Gi Gj. exact (i_excl _ I _ _ _ _ _ _ h Hi Hj Gi Gj).
  - intros h s Sl. destruct (i_slot _ I _ _ Sl) as [->|(He & i & q & c & C & G)]; [right; split; reflexivity|]. left. exists i, (PCall q c). auto.
  - induction R as [|x y R IH H]; [cbn; rewrite repeat_length; lia|]. specialize (IH (inv_reach proc _ _ _ R)).
    destruct H; cbn [slots] in *; unfold release, guard_drop; rewrite ?upd_length, ?app_length; try exact IH; try lia.
    destruct (guard_of c); rewrite ?upd_length; exact IH.
Qed.
Print Assumptions c67_streams_are_exclusive_and_never_leak.

(** So as soon as fewer calls are under way than there are streams, the pool is
    not busy and a waiting call can take a stream. *)
Theorem c67_a_waiting_call_gets_a_stream : forall (S : Type) (proc : bytes -> S -> option bytes -> S -> Prop) n s0 x,
  creach proc n s0 x ->
  length (filter (fun c => is_some (guard_of (p_stage c))) (calls x)) < length (slots x) ->
  busy x = false /\
  forall i q, nth_error (calls x) i = Some (PCall q CWaiting) ->
  exists h y, cstep proc x y /\ nth_error (calls y) i = Some (PCall q (COpen h)) /\
    forall j, j <> i -> nth_error (calls y) j = nth_error (calls x) j.
Proof.
  intros S proc n s0 x R L. pose proof (inv_reach proc _ _ _ R) as I.
  assert (F : exists h, nth_error (slots x) h = Some new_slot).
  { destruct (existsb (fun s => negb (s_held s)) (slots x)) eqn:E.
    - apply existsb_exists in E as (s & M & E). apply In_nth_error in M as [h M]. exists h.
      destruct (i_slot _ I _ _ M) as [->|[He _]]; [exact M|rewrite He in E; discriminate].
    - exfalso. (* every stream is held: streams inject into calls under way *)
      assert (A : forall h, h < length (slots x) -> exists i q c, nth_error (calls x) i = Some (PCall q c) /\ guard_of c = Some h).
      { intros h Lh. destruct (nth_error (slots x) h) as [s|] eqn:Sl; [|apply nth_error_None in Sl; lia].
        destruct (i_slot _ I _ _ Sl) as [->|(_ & i & q & c & C)]; [|eauto]. exfalso.
        assert (T : existsb (fun s => negb (s_held s)) (slots x) = true) by (apply existsb_exists; exists new_slot; split; [eapply nth_error_In; exact Sl|reflexivity]). congruence. }
      set (under := filter (fun c => is_some (guard_of (p_stage c))) (calls x)) in *.
      assert (B : incl (seq 0 (length (slots x))) (flat_map (fun c => match guard_of (p_stage c) with Some h => [h] | None => [] end) under)).
      { intros h Hh. apply in_seq in Hh. destruct (A h ltac:(lia)) as (i & q & c & C & G). apply in_flat_map. exists (PCall q c). split.
        - unfold under. apply filter_In. split; [eapply nth_error_In; exact C|]. cbn [p_stage]. now rewrite G.
        - cbn [p_stage]. rewrite G. left. reflexivity. }
      apply NoDup_incl_length in B; [|apply seq_NoDup]. rewrite seq_length in B.
      assert (D : forall l, length (flat_map (fun c => match guard_of (p_stage c) with Some h => [h] | None => [] end) l) <= length l).
      { induction l as [|c l IH]; [cbn; lia|]. cbn [flat_map length]. rewrite app_length. destruct (guard_of (p_stage c)); cbn; lia. }
      specialize (D under). lia. }
  destruct F as [h F]. split.
  - unfold busy. destruct (forallb s_held (slots x)) eqn:E; [|reflexivity]. rewrite forallb_forall in E. specialize (E _ (nth_error_In _ _ F)). discriminate.
  - intros i q C. destruct x as [cs sl ws s hi]. cbn [calls slots] in *. exists h. eexists. split; [eapply K_get; eassumption|]. cbn [calls].
    split; [apply nth_upd; exact (nth_lt _ _ _ C)|]. intros j N. apply nth_upd_ne. congruence.
Qed.
Print Assumptions c67_a_waiting_call_gets_a_stream.

(** Left undisturbed, a call that is waiting while fewer calls than streams are
    under way is served and gets the server's answer; the run shown consists of
    steps of this call and of its connection only, serves nothing else, and
    leaves every other call where it was. *)
Inductive run {S : Type} (proc : bytes -> S -> option bytes -> S -> Prop) : cstate S -> cstate S -> Prop :=
| Run_here x : run proc x x
| Run_step x y z : cstep proc x y -> run proc y z -> run proc x z.
Lemma upd_upd {A} i (a b : A) l : upd i a (upd i b l) = upd i a l.
Proof. revert i; induction l as [|c l IH]; intros [|i]; cbn [upd]; try reflexivity. now rewrite IH. Qed.
Lemma upd_last {A} (l : list A) a b : upd (length l) a (l ++ [b]) = l ++ [a].
Proof. induction l as [|c l IH]; [reflexivity|]. cbn [length app upd]. now rewrite IH. Qed.
Lemma run_undisturbed {S : Type} (proc : bytes -> S -> option bytes -> S -> Prop) cs sl ws s hi i q h a s' :
  nth_error cs i = Some (PCall q CWaiting) -> nth_error sl h = Some new_slot -> small q -> small a -> proc q s (Some a) s' ->
  exists y, run proc (CState cs sl ws s hi) y /\ hist y = hi ++ [Serve i q (Some a); Return i a] /\ srv y = s' /\ calls y = upd i (PCall q CEnded) cs.
Proof.
  intros C H Q A P. pose proof (nth_lt _ _ _ C) as LC. pose proof (nth_lt _ _ _ H) as LH.
  set (k := length ws). pose (mk := fun c w s hi => CState (S := S) (upd i (PCall q c) cs) (upd h (Slot true (Some k)) sl) (ws ++ [w]) s hi).
  assert (NC : forall c w s hi, nth_error (calls (mk c w s hi)) i = Some (PCall q c)) by (intros; cbn; now apply nth_upd).
  assert (NS : forall c w s hi, nth_error (slots (mk c w s hi)) h = Some (Slot true (Some k))) by (intros; cbn; now apply nth_upd).
  assert (NW : forall c w s hi, nth_error (wires (mk c w s hi)) k = Some w) by (intros; cbn; apply nth_app_new).
  assert (MC : forall c0 w s hi c, upd i (PCall q c) (calls (mk c0 w s hi)) = calls (mk c w s hi)) by (intros; cbn; apply upd_upd).
  assert (MW : forall c0 w0 s hi w, upd k w (wires (mk c0 w0 s hi)) = ws ++ [w]) by (intros; cbn; apply upd_last).
  assert (S1 : cstep proc (CState cs sl ws s hi) (CState (upd i (PCall q (COpen h)) cs) (upd h (Slot true None) sl) ws s hi)) by (eapply K_get; eassumption).
  assert (S2 : cstep proc (CState (upd i (PCall q (COpen h)) cs) (upd h (Slot true None) sl) ws s hi) (mk (COpen h) (new_wire i) s hi)).
  { pose proof (K_connect proc (upd i (PCall q (COpen h)) cs) (upd h (Slot true None) sl) ws s hi i q h (nth_upd _ _ _ LC) (nth_upd _ _ _ LH)) as X. rewrite upd_upd in X. exact X. }
  assert (S3 : cstep proc (mk (COpen h) (new_wire i) s hi) (mk (CSending h (framed q)) (new_wire i) s hi)).
  { pose proof (K_begin proc _ _ (ws ++ [new_wire i]) s hi i q h k (NC (COpen h) (new_wire i) s hi) (NS (COpen h) (new_wire i) s hi) Q) as X. rewrite MC in X. exact X. }
  assert (S4 : cstep proc (mk (CSending h (framed q)) (new_wire i) s hi) (mk (CSending h []) (Wire i (framed q) 0 [] 0 (TRecv [])) s hi)).
  { pose proof (K_write proc _ _ _ s hi i q h (framed q) k (new_wire i) (length (framed q)) (NC _ (new_wire i) s hi) (NS (CSending h (framed q)) (new_wire i) s hi) (NW (CSending h (framed q)) (new_wire i) s hi)) as X.
    rewrite MC, MW, skipn_all, firstn_all in X. exact X. }
  assert (S5 : cstep proc (mk (CSending h []) (Wire i (framed q) 0 [] 0 (TRecv [])) s hi) (mk (CReceiving h []) (Wire i (framed q) 0 [] 0 (TRecv [])) s hi)).
  { pose proof (K_sent proc _ (upd h (Slot true (Some k)) sl) (ws ++ [Wire i (framed q) 0 [] 0 (TRecv [])]) s hi i q h (NC _ (Wire i (framed q) 0 [] 0 (TRecv [])) s hi)) as X. rewrite MC in X. exact X. }
  (* reading a whole message, from the parts of [need] *)
  assert (RD : forall p, small p -> 8 <= need [] /\ length p <= need (firstn 8 (framed p)) /\ 8 + length p <= length (framed p)
     /\ firstn 8 (framed p) ++ firstn (length p) (skipn 8 (framed p)) = framed p /\ complete (framed p) = Some p).
  { intros p SP. assert (BP : (lenN p <= 134217728)%N) by (unfold small, MAX_PAYLOAD_SIZE in SP; lia).
    assert (FL : length (framed p) = 8 + length p) by apply framed_length.
    assert (NE : length p <= need (firstn 8 (framed p))).
    { destruct (c66_reads_exactly_one_message p [] (firstn 8 (framed p)) (skipn 8 (framed p)) BP) as (N1 & N2 & _).
      - rewrite firstn_skipn, app_nil_r. reflexivity.
      - rewrite firstn_length. lia.
      - unfold need in *. rewrite firstn_length in *. replace (Nat.min 8 (length (framed p)) <? 8) with false in * by lia.
        destruct (MAX_PAYLOAD_SIZE <? declared (firstn 8 (framed p)))%N.
        + destruct N2 as [N2 _]. specialize (N2 eq_refl). apply (f_equal (@length _)) in N2. rewrite firstn_length in N2. change (le_enc 8 (lenN p) ++ p) with (framed p) in N2. lia.
        + destruct (Nat.le_gt_cases (length p) (N.to_nat (declared (firstn 8 (framed p))) + 8 - Nat.min 8 (length (framed p)))) as [|G]; [assumption|exfalso].
          assert (DD : declared (firstn 8 (framed p)) = lenN p); [|rewrite DD, lenN_length in G; lia].
          unfold declared. rewrite firstn_firstn. cbn [Nat.min]. unfold framed. pose proof (le_enc_length 8 (lenN p)) as L8. set (hh := le_enc 8 (lenN p)) in *.
          rewrite firstn_stable, firstn_all2 by lia. unfold hh. apply le_dec_enc. change (pow256 8) with 18446744073709551616%N. lia. }
    split; [cbn; lia|]. split; [exact NE|]. split; [lia|]. split; [rewrite take_more, firstn_all2 by lia; reflexivity|].
    destruct (c66_reads_exactly_one_message p [] (framed p) [] BP) as (_ & _ & N3); [reflexivity|lia|]. now apply N3. }
  destruct (RD q Q) as (R1 & R2 & R3 & R4 & R5). destruct (RD a A) as (A1 & A2 & A3 & A4 & A5). clear RD.
  assert (S6 : cstep proc (mk (CReceiving h []) (Wire i (framed q) 0 [] 0 (TRecv [])) s hi) (mk (CReceiving h []) (Wire i (framed q) 8 [] 0 (TRecv (firstn 8 (framed q)))) s hi)).
  { pose proof (T_read proc (upd i (PCall q (CReceiving h [])) cs) (upd h (Slot true (Some k)) sl) _ s hi k _ [] 8 (NW (CReceiving h []) (Wire i (framed q) 0 [] 0 (TRecv [])) s hi) eq_refl R1) as X. cbn [w_up w_taken] in X.
    specialize (X ltac:(lia)). rewrite MW in X. exact X. }
  assert (S7 : cstep proc (mk (CReceiving h []) (Wire i (framed q) 8 [] 0 (TRecv (firstn 8 (framed q)))) s hi) (mk (CReceiving h []) (Wire i (framed q) (8 + length q) [] 0 (TRecv (framed q))) s hi)).
  { pose proof (T_read proc (upd i (PCall q (CReceiving h [])) cs) (upd h (Slot true (Some k)) sl) _ s hi k _ (firstn 8 (framed q)) (length q) (NW (CReceiving h []) (Wire i (framed q) 8 [] 0 (TRecv (firstn 8 (framed q)))) s hi) eq_refl R2) as X.
    cbn [w_up w_taken] in X. specialize (X ltac:(lia)). rewrite MW in X. cbn [w_by w_up w_taken w_down w_seen] in X. rewrite R4 in X. exact X. }
  set (w7 := Wire i (framed q) (8 + length q) [] 0 (TRecv (framed q))) in *.
  assert (S8 : cstep proc (mk (CReceiving h []) w7 s hi) (mk (CReceiving h []) (Wire i (framed q) (8 + length q) [] 0 (TProcess q)) s hi)).
  { pose proof (T_request proc (upd i (PCall q (CReceiving h [])) cs) (upd h (Slot true (Some k)) sl) _ s hi k w7 (framed q) q (NW (CReceiving h []) w7 s hi) eq_refl R5) as X. rewrite MW in X. exact X. }
  set (w8 := Wire i (framed q) (8 + length q) [] 0 (TProcess q)) in *.
  set (hi9 := hi ++ [Serve i q (Some a)]).
  assert (S9 : cstep proc (mk (CReceiving h []) w8 s hi) (mk (CReceiving h []) (Wire i (framed q) (8 + length q) [] 0 (TSend (framed a))) s' hi9)).
  { pose proof (T_process proc (upd i (PCall q (CReceiving h [])) cs) (upd h (Slot true (Some k)) sl) _ s hi k w8 q a s' (NW (CReceiving h []) w8 s hi) eq_refl P) as X. rewrite MW in X. rewrite A in X. exact X. }
  set (w9 := Wire i (framed q) (8 + length q) [] 0 (TSend (framed a))) in *.
  assert (S10 : cstep proc (mk (CReceiving h []) w9 s' hi9) (mk (CReceiving h []) (Wire i (framed q) (8 + length q) (framed a) 0 (TSend [])) s' hi9)).
  { pose proof (T_write proc (upd i (PCall q (CReceiving h [])) cs) (upd h (Slot true (Some k)) sl) _ s' hi9 k w9 (framed a) (length (framed a)) (NW (CReceiving h []) w9 s' hi9) eq_refl) as X. rewrite MW, skipn_all, firstn_all in X. exact X. }
  assert (S11 : cstep proc (mk (CReceiving h []) (Wire i (framed q) (8 + length q) (framed a) 0 (TSend [])) s' hi9) (mk (CReceiving h (firstn 8 (framed a))) (Wire i (framed q) (8 + length q) (framed a) 8 (TSend [])) s' hi9)).
  { pose proof (K_read proc _ _ _ s' hi9 i q h [] k (Wire i (framed q) (8 + length q) (framed a) 0 (TSend [])) 8 (NC _ (Wire i (framed q) (8 + length q) (framed a) 0 (TSend [])) s' hi9) (NS (CReceiving h []) (Wire i (framed q) (8 + length q) (framed a) 0 (TSend [])) s' hi9) (NW (CReceiving h []) _ s' hi9) A1) as X.
    cbn [w_down w_seen] in X. specialize (X ltac:(lia)). rewrite MC, MW in X. exact X. }
  assert (S12 : cstep proc (mk (CReceiving h (firstn 8 (framed a))) (Wire i (framed q) (8 + length q) (framed a) 8 (TSend [])) s' hi9) (mk (CReceiving h (framed a)) (Wire i (framed q) (8 + length q) (framed a) (8 + length a) (TSend [])) s' hi9)).
  { pose proof (K_read proc _ _ _ s' hi9 i q h (firstn 8 (framed a)) k (Wire i (framed q) (8 + length q) (framed a) 8 (TSend [])) (length a) (NC _ (Wire i (framed q) (8 + length q) (framed a) 8 (TSend [])) s' hi9) (NS (CReceiving h (firstn 8 (framed a))) (Wire i (framed q) (8 + length q) (framed a) 8 (TSend [])) s' hi9) (NW (CReceiving h (firstn 8 (framed a))) _ s' hi9) A2) as X.
    cbn [w_down w_seen] in X. specialize (X ltac:(lia)). rewrite MC, MW in X. cbn [w_by w_up w_taken w_down w_seen w_task] in X. rewrite A4 in X. exact X. }
  set (w12 := Wire i (framed q) (8 + length q) (framed a) (8 + length a) (TSend [])) in *.
  pose proof (K_return proc _ (upd h (Slot true (Some k)) sl) (ws ++ [w12]) s' hi9 i q h (framed a) a (NC _ w12 s' hi9) A5) as S13. rewrite MC in S13.
  eexists. split; [refine (Run_step _ _ _ _ S1 (Run_step _ _ _ _ S2 (Run_step _ _ _ _ S3 (Run_step _ _ _ _ S4 (Run_step _ _ _ _ S5 (Run_step _ _ _ _ S6 (Run_step _ _ _ _ S7 (Run_step _ _ _ _ S8 (Run_step _ _ _ _ S9 (Run_step _ _ _ _ S10 (Run_step _ _ _ _ S11 (Run_step _ _ _ _ S12 (Run_step _ _ _ _ S13 (Run_here _ _)))))))))))))) |].
  cbn [hist srv calls]. split; [unfold hi9; now rewrite <- app_assoc|]. split; reflexivity.
Qed.
Theorem c67_an_undisturbed_call_is_answered : forall (S : Type) (proc : bytes -> S -> option bytes -> S -> Prop) n s0 x i q a s',
  creach proc n s0 x ->
  length (filter (fun c => is_some (guard_of (p_stage c))) (calls x)) < length (slots x) ->
  nth_error (calls x) i = Some (PCall q CWaiting) -> (lenN q <= 134217728)%N -> (lenN a <= 134217728)%N -> proc q (srv x) (Some a) s' ->
  exists y, run proc x y /\ observed y = observed x ++ [OServe q (Some a); OReturn i a] /\ srv y = s'
    /\ forall j, j <> i -> nth_error (calls y) j = nth_error (calls x) j.
Proof.
  intros S proc n s0 x i q a s' R L C Q A P.
  assert (F : exists h, nth_error (slots x) h = Some new_slot).
  { destruct (c67_a_waiting_call_gets_a_stream S proc n s0 x R L) as [B _]. unfold busy in B. pose proof (inv_reach proc _ _ _ R) as I.
    assert (E : existsb (fun s => negb (s_held s)) (slots x) = true).
    { destruct (existsb (fun s => negb (s_held s)) (slots x)) eqn:E; [reflexivity|]. exfalso. enough (forallb s_held (slots x) = true) by congruence. apply forallb_forall. intros s M. destruct (s_held s) eqn:Hs; [reflexivity|].
      exfalso. assert (X : existsb (fun s => negb (s_held s)) (slots x) = true) by (apply existsb_exists; exists s; split; [exact M|now rewrite Hs]). congruence. }
    apply existsb_exists in E as (s & M & E). apply In_nth_error in M as [h M]. exists h. destruct (i_slot _ I _ _ M) as [->|[He _]]; [exact M|rewrite He in E; discriminate]. }
  destruct F as [h F]. destruct x as [cs sl ws s hi]. cbn [calls slots srv] in *.
  destruct (run_undisturbed proc cs sl ws s hi i q h a s' C F) as (y & Y1 & Y2 & Y3 & Y4); [unfold small, MAX_PAYLOAD_SIZE; lia|unfold small, MAX_PAYLOAD_SIZE; lia|exact P|].
  exists y. split; [exact Y1|]. split; [unfold observed; rewrite Y2, map_app; reflexivity|]. split; [exact Y3|]. intros j N. rewrite Y4. apply nth_upd_ne. congruence.
Qed.
Print Assumptions c67_an_undisturbed_call_is_answered.

(** Non-vacuity, and a fact callers must know: one stream, an echoing server.
    Call 0 is written and times out unserved; call 1 is served and returns its
    own answer; only then the server processes call 0's request, whose caller
    has long been told that it failed. *)
Definition echo (q : bytes) (s : list bytes) (a : option bytes) (s' : list bytes) : Prop := a = Some q /\ s' = s ++ [q].
Definition q0 : bytes := bs "zero".
Definition q1 : bytes := bs "one".
Ltac prem := first [reflexivity | discriminate | cbn; lia | split; reflexivity].
Ltac go R t :=
  let R' := fresh "R" in
  eassert (R' : creach echo 1 [] _) by (refine (CR_step _ _ _ _ _ R _); t);
  clear R; rename R' into R; vm_compute in R.
Theorem c66_refuted_a_failed_call_has_no_later_effect : exists x, creach echo 1 [] x /\
  observed x = [OInvoke 0 q0; OFail 0; OInvoke 1 q1; OServe q1 (Some q1); OReturn 1 q1; OServe q0 (Some q0)] /\ srv x = [q1; q0].
Proof.
  eexists. split; [|split].
  - pose proof (CR_init echo 1 []) as R. unfold cinit in R. cbn [repeat] in R.
    go R ltac:(eapply (K_invoke _ _ _ _ _ _ q0); prem).
    go R ltac:(eapply (K_get _ _ _ _ _ _ 0 q0 0 None); prem).
    go R ltac:(eapply (K_connect _ _ _ _ _ _ 0 q0 0); prem).
    go R ltac:(eapply (K_begin _ _ _ _ _ _ 0 q0 0 0); prem).
    go R ltac:(eapply (K_write _ _ _ _ _ _ 0 q0 0 _ 0 _ 12); prem).
    go R ltac:(eapply (K_fail _ _ _ _ _ _ 0 q0 _); prem).
    go R ltac:(eapply (K_invoke _ _ _ _ _ _ q1); prem).
    go R ltac:(eapply (K_get _ _ _ _ _ _ 1 q1 0 None); prem).
    go R ltac:(eapply (K_connect _ _ _ _ _ _ 1 q1 0); prem).
    go R ltac:(eapply (K_begin _ _ _ _ _ _ 1 q1 0 1); prem).
    go R ltac:(eapply (K_write _ _ _ _ _ _ 1 q1 0 _ 1 _ 11); prem).
    go R ltac:(eapply (K_sent _ _ _ _ _ _ 1 q1 0); prem).
    go R ltac:(eapply (T_read _ _ _ _ _ _ 1 _ _ 8); prem).
    go R ltac:(eapply (T_read _ _ _ _ _ _ 1 _ _ 3); prem).
    go R ltac:(eapply (T_request _ _ _ _ _ _ 1 _ _ q1); prem).
    go R ltac:(eapply (T_process _ _ _ _ _ _ 1 _ q1 q1 _); prem).
    go R ltac:(eapply (T_write _ _ _ _ _ _ 1 _ _ 11); prem).
    go R ltac:(eapply (K_read _ _ _ _ _ _ 1 q1 0 _ 1 _ 8); prem).
    go R ltac:(eapply (K_read _ _ _ _ _ _ 1 q1 0 _ 1 _ 3); prem).
    go R ltac:(eapply (K_return _ _ _ _ _ _ 1 q1 0 _ q1); prem).
    go R ltac:(eapply (T_read _ _ _ _ _ _ 0 _ _ 8); prem).
    go R ltac:(eapply (T_read _ _ _ _ _ _ 0 _ _ 4); prem).
    go R ltac:(eapply (T_request _ _ _ _ _ _ 0 _ _ q0); prem).
    go R ltac:(eapply (T_process _ _ _ _ _ _ 0 _ q0 q0 _); prem).
    exact R.
  - reflexivity.
  - reflexivity.
Qed.
Print Assumptions c66_refuted_a_failed_call_has_no_later_effect.

(** Two calls share one stream: the second waits while the pool is busy, and
    gets the stream, disconnected, once the first is abandoned. *)
Example c67_nontrivial :
  (exists x, creach echo 1 [] x /\ busy x = true /\ slots x = [Slot true (Some 0)]
     /\ nth_error (calls x) 1 = Some (PCall q1 CWaiting)) /\
  (exists x, creach echo 1 [] x /\ busy x = false /\ slots x = [Slot false None]
     /\ nth_error (calls x) 1 = Some (PCall q1 CWaiting)).
Proof.
  split; eexists; (split; [|split; [|split]]); cycle 1; cycle -1.
  { pose proof (CR_init echo 1 []) as R. unfold cinit in R. cbn [repeat] in R.
    go R ltac:(eapply (K_invoke _ _ _ _ _ _ q0); prem). go R ltac:(eapply (K_get _ _ _ _ _ _ 0 q0 0 None); prem).
    go R ltac:(eapply (K_connect _ _ _ _ _ _ 0 q0 0); prem). go R ltac:(eapply (K_invoke _ _ _ _ _ _ q1); prem). exact R. }
  1-3: reflexivity.
  { pose proof (CR_init echo 1 []) as R. unfold cinit in R. cbn [repeat] in R.
    go R ltac:(eapply (K_invoke _ _ _ _ _ _ q0); prem). go R ltac:(eapply (K_get _ _ _ _ _ _ 0 q0 0 None); prem).
    go R ltac:(eapply (K_connect _ _ _ _ _ _ 0 q0 0); prem). go R ltac:(eapply (K_invoke _ _ _ _ _ _ q1); prem).
    go R ltac:(eapply (K_fail _ _ _ _ _ _ 0 q0); prem). exact R. }
  1-3: reflexivity.
Qed.
