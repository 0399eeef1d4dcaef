(** C63: a command acts at most once on the enclave, and reports what the
    enclave answered to it. *)
From Coq Require Import ZifyBool ZifyN ZifyNat.
From Verif Require Import Base Utf8 Hex Borsh BorshProofs Json Types TypesBorsh TypesJson JsonComb Msg MsgBorsh MsgJson World Attest Services State
  Wire SpecWire WireProofs PropsWire NetProofs Client Toy ToyRuns ClientNet SpecClientNet.
Local Open Scope N_scope.

Lemma to_wire_json m b : to_wire m EJson = Ok b -> jwf js_msg m = true /\ from_wire b = Ok (m, EJson).
Proof.
  intros H. assert (W : jwf js_msg m = true).
  { destruct (jwf js_msg m) eqn:E; [reflexivity|]. unfold to_wire in H. rewrite E in H. destruct m; discriminate. }
  split; [exact W|]. destruct (json_wire_rt m W) as (b' & T & D). congruence.
Qed.
Lemma json_error_inv e b : json_error e = Some b -> from_wire b = Ok (ProtocolErrorResponse e, EJson).
Proof. unfold json_error. destruct (to_wire (ProtocolErrorResponse e) EJson) as [x|] eqn:T; [|discriminate]. intros H. inversion H; subst. now apply to_wire_json. Qed.

Lemma fits_stream b : fits b <-> (STREAM_MAX <? lenN b) = false.
Proof. rewrite fits_max. unfold STREAM_MAX, MAX_ENCODED_MSG_LEN. lia. Qed.
Lemma take_small b : fits b -> take_size b = b.
Proof. intros F. apply fits_max in F. unfold take_size, MAX_SIZE, MAX_ENCODED_MSG_LEN in *. now replace (lenN b <=? 4294967295) with true by lia. Qed.
Lemma sent_app l l' : sent_by_me (l ++ l') = sent_by_me l ++ sent_by_me l'.
Proof. unfold sent_by_me. now rewrite filter_app, map_app. Qed.

Section Net.
  Context (Y : sys).
  Notation net := (net Y).
  Definition after (log : list (who * bytes)) (s : st Y) : st Y := snd (process_all Y (map snd log) s).
  (** [n'] is [n] after the enclave processed [log]. *)
  Definition moved (n n' : net) (log : list (who * bytes)) : Prop := n_log n' = n_log n ++ log /\ after log (n_st n) = n_st n'.
  Lemma after_app l l' s : after (l ++ l') s = after l' (after l s).
  Proof.
    unfold after. revert s. induction l as [|[w b] l IH]; intros s; [reflexivity|]. cbn [app map snd process_all].
    destruct (process Y b s) as [a s1]. specialize (IH s1). destruct (process_all Y (map snd (l ++ l')) s1), (process_all Y (map snd l) s1). exact IH.
  Qed.
  Lemma moved_refl n : moved n n [].
  Proof. split; [now rewrite app_nil_r|reflexivity]. Qed.
  Lemma moved_trans n1 n2 n3 l l' : moved n1 n2 l -> moved n2 n3 l' -> moved n1 n3 (l ++ l').
  Proof. intros [A B] [C D]. split; [now rewrite C, A, app_assoc|]. now rewrite after_app, B. Qed.
  Lemma deliver_moved w b n : moved n (snd (deliver Y w b n)) [(w, b)].
  Proof.
    unfold deliver, moved, after. cbn [map snd process_all]. destruct (process Y b (n_st n)) as [a s']. split; reflexivity.
  Qed.
  Lemma deliver_fst w b n : fst (deliver Y w b n) = fst (process Y b (n_st n)).
  Proof. unfold deliver. now destruct (process Y b (n_st n)). Qed.
  Lemma others_moved l : forall n, moved n (others Y l n) (map (fun b => (Other, b)) l) /\ n_script (others Y l n) = n_script n.
  Proof.
    induction l as [|b l IH]; intros n; [split; [apply moved_refl|reflexivity]|]. cbn [others map].
    destruct (IH (snd (deliver Y Other b n))) as [A B]. split.
    - exact (moved_trans n _ _ [(Other, b)] _ (deliver_moved Other b n) A).
    - rewrite B. unfold deliver. now destruct (process Y b (n_st n)).
  Qed.
  Lemma sent_others l : sent_by_me (map (fun b => (Other, b)) l) = [].
  Proof. induction l; auto. Qed.

  (** What one exchange does. *)
  Lemma exchange_inv b n a n' : exchange Y b n = (a, n') ->
    exists ls, sent_by_me ls = [] /\
     ((moved n n' ls /\ forall body, a <> Some (200, body))
      \/ (fits b /\ moved n n' (ls ++ [(Me, b)]) /\
          (forall body, a = Some (200, body) -> fits body /\ fst (process Y b (after ls (n_st n))) = Some body)))
     /\ (forall code body, a = Some (code, body) -> code = 200 \/ 400 <= code).
  Proof.
    unfold exchange. destruct (next_fate Y n) as [f n1] eqn:NF. intros X.
    assert (N1 : exists ls, sent_by_me ls = [] /\ moved n n1 ls).
    { unfold next_fate in NF. destruct (n_script n) as [|[l f'] r] eqn:S; inversion NF; subst.
      - exists []. split; [reflexivity|apply moved_refl].
      - exists (map (fun b => (Other, b)) l). split; [apply sent_others|]. destruct (others_moved l (Net (n_st n) (n_log n) r)) as [A _]. exact A. }
    destruct N1 as (ls & SL & M1). exists ls. split; [exact SL|]. revert X.
    assert (HE : forall e c body, host_error e c = Some (200, body) -> c = 200).
    { intros e c body. unfold host_error. destruct (json_error e); [|discriminate]. now intros [= <- _]. }
    assert (HC : forall e c code body, host_error e c = Some (code, body) -> code = c).
    { intros e c code body. unfold host_error. destruct (json_error e); [|discriminate]. now intros [= <- _]. }
    destruct (HOST_MAX_MSG_LEN <? lenN b) eqn:HM.
    { intros [= <- <-]. split; [left; split; [exact M1|]; intros body E; apply HE in E; discriminate|]. intros c body E. apply HC in E. lia. }
    destruct (STREAM_MAX <? lenN b) eqn:SM.
    { intros [= <- <-]. split; [left; split; [exact M1|]; intros body E; apply HE in E; discriminate|]. intros c body E. apply HC in E. lia. }
    apply fits_stream in SM. pose proof (moved_trans _ _ _ _ _ M1 (deliver_moved Me b n1)) as M2. destruct M1 as [_ AF].
    destruct f.
    - intros [= <- <-]. split; [left; split; [split; [|exact AF]|discriminate]|discriminate].
      unfold next_fate in NF. destruct (n_script n) as [|[l f'] r] eqn:S; inversion NF; subst; [destruct M2 as [M2 _]|destruct M2 as [M2 _]];
        unfold deliver in M2; destruct (process Y b _); cbn [snd n_log] in M2; rewrite app_assoc in M2; apply app_inj_tail in M2 as [M2 _]; exact M2.
    - intros [= <- <-]. split; [|discriminate]. right. split; [exact SM|]. split; [exact M2|discriminate].
    - pose proof (deliver_fst Me b n1) as DF. destruct (deliver Y Me b n1) as [x n2]. cbn [fst snd] in *. rewrite AF.
      destruct x as [x|].
      + destruct (STREAM_MAX <? lenN x) eqn:SX.
        * intros [= <- <-]. split; [right; split; [exact SM|]; split; [exact M2|]; intros body E; apply HE in E; discriminate|]. intros c body E. apply HC in E. lia.
        * apply fits_stream in SX. intros [= <- <-]. split; [right; split; [exact SM|]; split; [exact M2|]; intros body [= <-]; now split|].
          intros c body [= <- <-]. now left.
      + intros [= <- <-]. split; [right; split; [exact SM|]; split; [exact M2|]; intros body E; apply HE in E; discriminate|]. intros c body E. apply HC in E. lia.
  Qed.

  (** The answer to a request the enclave acts on. *)
  Definition answers (m r : msg) (s : st Y) : Prop := r = fst (handle Y m s) \/ r = ProtocolErrorResponse InvalidMsg.

  Definition unambiguous (r : msg) : Prop :=
    forall e, last_envelope r = Some e -> forall v0 v1,
     ~ (from_slice c_envelope (enc c_versioned_envelope e) = Some v1 /\ from_slice c_envelope_v0 (enc c_versioned_envelope e) = Some v0).

  (** One post: nothing of mine reached the enclave, or exactly one byte string did. *)
  Lemma post_wire_inv m e n r n' : post_wire Y m e n = (r, n') ->
    exists ls, sent_by_me ls = [] /\
     ((moved n n' ls /\ (forall x, r <> Ok x))
      \/ exists b, to_wire m e = Ok b /\ fits b /\ moved n n' (ls ++ [(Me, b)]) /\
         (forall x, r = Ok x -> exists body e', fits body /\ fst (process Y b (after ls (n_st n))) = Some body /\ from_wire body = Ok (x, e'))).
  Proof.
    unfold post_wire. destruct (to_wire m e) as [b|x] eqn:T.
    2:{ intros [= <- <-]. exists []. split; [reflexivity|]. left. split; [apply moved_refl|discriminate]. }
    destruct (exchange Y b n) as [a n1] eqn:X. intros [= <- <-].
    destruct (exchange_inv b n a n1 X) as (ls & SL & [[M N]|(F & M & N)] & C); exists ls; (split; [exact SL|]).
    - left. split; [exact M|]. intros x. destruct a as [[code body]|]; [|discriminate]. destruct (400 <=? code) eqn:Q; [discriminate|].
      exfalso. destruct (C _ _ eq_refl) as [->|]; [|lia]. now apply (N body).
    - right. exists b. split; [reflexivity|]. split; [exact F|]. split; [exact M|]. intros x. destruct a as [[code body]|]; [|discriminate].
      destruct (400 <=? code) eqn:Q; [discriminate|]. destruct (C _ _ eq_refl) as [->|]; [|lia]. destruct (N body eq_refl) as [FB PB].
      rewrite (take_small body FB). destruct (from_wire body) as [[y e']|] eqn:D; [|discriminate]. intros [= <-]. eauto.
  Qed.

  Lemma process_acts b m e s : fits b -> from_wire b = Ok (m, e) -> fst (process Y b s) = answer e (fst (handle Y m s)).
  Proof. intros F D. unfold process. rewrite (intake_fits b F), D. now destruct (handle Y m s). Qed.
  Lemma process_refuses b x s : fits b -> from_wire b = Err x -> fst (process Y b s) = json_error x.
  Proof. intros F D. unfold process. now rewrite (intake_fits b F), D. Qed.
  Lemma answer_json r body x e' : answer EJson r = Some body -> from_wire body = Ok (x, e') -> x = r \/ x = ProtocolErrorResponse InvalidMsg.
  Proof.
    unfold answer. destruct (to_wire r EJson) as [a|] eqn:T.
    - intros [= <-] D. apply to_wire_json in T as [_ T]. left. congruence.
    - intros J D. apply json_error_inv in J. right. congruence.
  Qed.
  Lemma answer_borsh r body x e' : fits body -> envelope_inside r = false -> last_envelope r = None ->
    answer EBorsh r = Some body -> from_wire body = Ok (x, e') -> x = r \/ x = ProtocolErrorResponse InvalidMsg.
  Proof.
    intros F I L. unfold answer. destruct (to_wire r EBorsh) as [a|] eqn:T.
    - intros [= <-] D. left. rewrite (c37_other_borsh_messages_round_trip r a T F I) in D; [congruence|]. rewrite L. discriminate.
    - intros J D. apply json_error_inv in J. right. congruence.
  Qed.

  (** The only answers to a boot request. *)
  Lemma boot_shape e p s :
    (exists a, fst (handle Y (BootStandardJsonEnvelopeRequest e p) s) = BootStandardResponse a)
    \/ exists x, fst (handle Y (BootStandardJsonEnvelopeRequest e p) s) = ProtocolErrorResponse x.
  Proof.
    unfold handle. destruct (st_phase s); cbn [routes try_routes try_msg r_handler h_status h_version h_manifest_envelope h_live_attestation_doc h_boot_genesis
      h_boot_standard h_provision h_export_key h_inject_key fst]; try (right; eexists; reflexivity).
    unfold try_msg. cbn [r_handler h_status h_version h_manifest_envelope h_boot_genesis h_boot_standard r_ok r_err].
    unfold State.answer. destruct (boot_standard Y e p s) as [[a|x] s1].
    - destruct (transition Y WaitingForQuorumShards s1) as [[]  s2]; cbn [fst]; eauto.
    - destruct (transition Y UnrecoverableError s1) as [[]  s2]; cbn [fst]; eauto.
  Qed.

  (** From [n] to [n'] I sent at most one byte string that the enclave acts on,
      and it says [m]. *)
  Definition acts_once (m : msg) (n n' : net) (log : list (who * bytes)) : Prop :=
    moved n n' log /\ at_most_one_executed (sent_by_me log) /\ forall b m', In b (sent_by_me log) -> executes b m' -> m' = m.
  (** [x] is the enclave's answer to [m] at its place in [log]. *)
  Definition answered_in (m x : msg) (n : net) (log : list (who * bytes)) : Prop :=
    exists pre b post, log = pre ++ (Me, b) :: post /\ executes b m /\ x = fst (handle Y m (after pre (n_st n))).

  Lemma once_nil : at_most_one_executed [].
  Proof. intros l1 b l2 b' l3 H. destruct l1; discriminate. Qed.
  Lemma once_one b : at_most_one_executed [b].
  Proof. intros l1 x l2 b' l3 H. apply (f_equal (@length bytes)) in H. rewrite !app_length in H. cbn in H. rewrite app_length in H. cbn in H. lia. Qed.
  Lemma refused_not b x m : from_wire b = Err x -> ~ executes b m.
  Proof. intros E (_ & e & D). congruence. Qed.

  Lemma once_without l : (forall b m, In b l -> ~ executes b m) -> forall l', at_most_one_executed l' -> at_most_one_executed (l ++ l').
  Proof.
    induction l as [|a l IH]; intros N l' H; [exact H|]. intros l1 b l2 b' l3 E m m' Eb Eb'. destruct l1 as [|c l1]; cbn in E; inversion E; subst.
    - exact (N b m (or_introl eq_refl) Eb).
    - refine (IH _ l' H l1 b l2 b' l3 H2 m m' Eb Eb'). intros x y Hx. apply N. now right.
  Qed.
  Lemma once_then l l' : at_most_one_executed l -> (forall b m, In b l' -> ~ executes b m) -> at_most_one_executed (l ++ l').
  Proof.
    intros H N l1 b l2 b' l3 E m m' Eb Eb'.
    assert (IB : In b (l ++ l')) by (rewrite E; apply in_or_app; right; now left).
    (* b' is in l, since it executes; so the whole prefix is *)
    assert (L : exists k, l = l1 ++ b :: l2 ++ b' :: k).
    { clear - E N Eb'. revert l E. assert (G : forall (p : list bytes) l, l ++ l' = p ++ b' :: l3 -> exists k, l = p ++ b' :: k).
      { induction p as [|c p IH]; intros l E.
        - destruct l as [|a l]; cbn in E.
          + exfalso. eapply (N b'); [rewrite E; now left|exact Eb'].
          + inversion E; subst. exists l. reflexivity.
        - destruct l as [|a l]; cbn in E.
          + exfalso. eapply (N b'); [rewrite E; right; apply in_or_app; right; now left|exact Eb'].
          + inversion E; subst. destruct (IH l H1) as (k & ->). exists k. reflexivity. }
      intros l E. replace (l1 ++ b :: l2 ++ b' :: l3) with ((l1 ++ b :: l2) ++ b' :: l3) in E by (rewrite <- app_assoc; reflexivity).
      destruct (G _ l E) as (k & ->). exists k. rewrite <- app_assoc. reflexivity. }
    destruct L as (k & ->). exact (H l1 b l2 b' k eq_refl m m' Eb Eb').
  Qed.
  Lemma sent_one ls b : sent_by_me ls = [] -> sent_by_me (ls ++ [(Me, b)]) = [b].
  Proof. intros H. now rewrite sent_app, H. Qed.

  Lemma json_once m n r n' : post_json Y m n = (r, n') -> exists log, acts_once m n n' log
    /\ (forall x, r = Ok x -> x = ProtocolErrorResponse InvalidMsg \/ answered_in m x n log).
  Proof.
    intros P. destruct (post_wire_inv m EJson n r n' P) as (ls & SL & [[M N]|(b & T & F & M & N)]).
    - exists ls. split; [|intros x E; now destruct (N x)]. split; [exact M|]. rewrite SL. split; [apply once_nil|intros ? ? []].
    - apply to_wire_json in T as [_ D]. exists (ls ++ [(Me, b)]). split.
      + split; [exact M|]. rewrite (sent_one _ _ SL). split; [apply once_one|]. intros b' m' [<-|[]] (_ & e & D'). congruence.
      + intros x E. destruct (N x E) as (body & e' & FB & PB & DB). rewrite (process_acts b m EJson _ F D) in PB.
        destruct (answer_json _ _ _ _ PB DB) as [->| ->]; [right|now left]. exists ls, b, []. split; [reflexivity|]. split; [split; eauto|reflexivity].
  Qed.
  Lemma post_is_json m n : post Y m n = post_json Y m n.
  Proof.
    unfold post. destruct (post_json Y m n) as [r n'] eqn:P. destruct r as [x|]; [|reflexivity]. destruct x; try reflexivity. destruct e; try reflexivity.
    exfalso. destruct (json_once m n _ n' P) as (log & _ & A). destruct (A _ eq_refl) as [H|(pre & b & post & _ & _ & H)]; [discriminate|].
    symmetry in H. exact (handle_never Y _ _ H).
  Qed.

  (** A Borsh request that carries a manifest envelope is refused. *)
  Lemma borsh_refused m n r n' : envelope_inside m = true -> post_wire Y m EBorsh n = (r, n') ->
    exists log, moved n n' log /\ (forall b m', In b (sent_by_me log) -> ~ executes b m')
      /\ (forall x, r = Ok x -> x = ProtocolErrorResponse ProtocolMsgDeserialization).
  Proof.
    intros I P. assert (K : (exists e p, m = BootStandardRequest e p) \/ (exists e p, m = BootKeyForwardRequest e p) \/ (exists e d, m = ExportKeyRequest e d)).
    { destruct m; try discriminate; eauto 6. }
    destruct (post_wire_inv m EBorsh n r n' P) as (ls & SL & [[M N]|(b & T & F & M & N)]).
    - exists ls. split; [exact M|]. rewrite SL. split; [intros ? ? []|]. intros x E. now destruct (N x).
    - pose proof (c37_refuted_what_is_written_is_refused m b T F K) as R. exists (ls ++ [(Me, b)]). split; [exact M|]. rewrite (sent_one _ _ SL). split.
      + intros b' m' [<-|[]]. exact (refused_not _ _ m' R).
      + intros x E. destruct (N x E) as (body & e' & FB & PB & DB). rewrite (process_refuses b _ _ F R) in PB.
        apply json_error_inv in PB. congruence.
  Qed.

  Lemma answered_after m x n1 n2 l l' : moved n1 n2 l -> answered_in m x n2 l' -> answered_in m x n1 (l ++ l').
  Proof.
    intros [_ A] (pre & b & post & -> & E & X). exists (l ++ pre), b, post. split; [now rewrite <- app_assoc|]. split; [exact E|].
    now rewrite after_app, A.
  Qed.
  Lemma answered_before m x n l l' : answered_in m x n l -> answered_in m x n (l ++ l').
  Proof. intros (pre & b & post & -> & E & X). exists pre, b, (post ++ l'). split; [now rewrite <- app_assoc|]. auto. Qed.
  Lemma once_after m n1 n2 n3 l l' : moved n1 n2 l -> (forall b m', In b (sent_by_me l) -> ~ executes b m') ->
    acts_once m n2 n3 l' -> acts_once m n1 n3 (l ++ l').
  Proof.
    intros M N (M' & O & A). split; [exact (moved_trans _ _ _ _ _ M M')|]. rewrite sent_app. split; [now apply once_without|].
    intros b m' I E. apply in_app_or in I as [I|I]; [now destruct (N b m' I)|eauto].
  Qed.
  Lemma once_before m n1 n2 n3 l l' : acts_once m n1 n2 l -> moved n2 n3 l' -> (forall b m', In b (sent_by_me l') -> ~ executes b m') ->
    acts_once m n1 n3 (l ++ l').
  Proof.
    intros (M & O & A) M' N. split; [exact (moved_trans _ _ _ _ _ M M')|]. rewrite sent_app. split; [now apply once_then|].
    intros b m' I E. apply in_app_or in I as [I|I]; [eauto|now destruct (N b m' I)].
  Qed.

  Lemma fallback_once {A} m e (parse : msg -> option A) n r n' : envelope_inside m = true ->
    (forall x, parse (ProtocolErrorResponse x) = None) ->
    post_fallback Y m (envelope_encodings e) parse [] n = (r, n') ->
    exists log, acts_once m n n' log /\ (forall a, r = Ok a -> exists x, parse x = Some a /\ answered_in m x n log).
  Proof.
    intros I PN. assert (J : forall errs n r n', post_fallback Y m [EJson] parse errs n = (r, n') ->
      exists log, acts_once m n n' log /\ (forall a, r = Ok a -> exists x, parse x = Some a /\ answered_in m x n log)).
    { clear r n n'. intros errs n r n'. cbn [post_fallback]. destruct (post_wire Y m EJson n) as [[x|y] n1] eqn:P.
      - destruct (json_once m n _ n1 P) as (log & O & AN). destruct (parse x) as [a|] eqn:PA; intros [= <- <-]; exists log; (split; [exact O|]).
        + intros a' [= <-]. exists x. split; [exact PA|]. destruct (AN x eq_refl) as [->|H]; [now rewrite PN in PA|exact H].
        + discriminate.
      - intros [= <- <-]. destruct (json_once m n _ n1 P) as (log & O & AN). exists log. split; [exact O|discriminate]. }
    assert (B : post_fallback Y m [EBorsh; EJson] parse [] n = (r, n') ->
      exists log, acts_once m n n' log /\ (forall a, r = Ok a -> exists x, parse x = Some a /\ answered_in m x n log)).
    { change (post_fallback Y m [EBorsh; EJson] parse [] n) with
        (match post_wire Y m EBorsh n with
         | (Ok a, n') => match parse a with Some x => (Ok x, n') | None => post_fallback Y m [EJson] parse ([] ++ [Unexpected a]) n' end
         | (Err x, n') => post_fallback Y m [EJson] parse ([] ++ [x]) n' end).
      destruct (post_wire Y m EBorsh n) as [x n1] eqn:P. destruct (borsh_refused m n x n1 I P) as (l & M & N & X).
      assert (G : forall errs, post_fallback Y m [EJson] parse errs n1 = (r, n') ->
        exists log, acts_once m n n' log /\ (forall a, r = Ok a -> exists x, parse x = Some a /\ answered_in m x n log)).
      { intros errs H. destruct (J errs n1 r n' H) as (l' & O & AN). exists (l ++ l'). split; [exact (once_after _ _ _ _ _ _ M N O)|].
        intros a E. destruct (AN a E) as (y & PY & AY). exists y. split; [exact PY|]. exact (answered_after _ _ _ _ _ _ M AY). }
      destruct x as [x|x]; [|apply G]. rewrite (X x eq_refl), PN. apply G. }
    destruct e; cbn [envelope_encodings]; [exact (J [] n r n')|exact B|exact B].
  Qed.

  Lemma boot_once e p n r n' : boot_doc Y e p n = (r, n') ->
    exists log, acts_once (BootStandardJsonEnvelopeRequest e p) n n' log
      /\ (forall d, r = Ok d -> answered_in (BootStandardJsonEnvelopeRequest e p) (BootStandardResponse (RAttestation d)) n log)
      /\ (forall x, r = Err (Unexpected x) -> x = ProtocolErrorResponse ProtocolMsgDeserialization).
  Proof.
    unfold boot_doc. set (m := BootStandardJsonEnvelopeRequest e p). destruct (post_borsh Y m n) as [a n1] eqn:P.
    assert (F1 : exists log, acts_once m n n1 log /\
      (forall d, a = Ok (BootStandardResponse (RAttestation d)) -> answered_in m (BootStandardResponse (RAttestation d)) n log)).
    { destruct (post_wire_inv m EBorsh n a n1 P) as (ls & SL & [[M N]|(b & T & F & M & N)]).
      - exists ls. split; [|intros d E; now destruct (N (BootStandardResponse (RAttestation d)))].
        split; [exact M|]. rewrite SL. split; [apply once_nil|intros ? ? []].
      - assert (D : from_wire b = Ok (m, EBorsh)) by (apply c37_other_borsh_messages_round_trip; [exact T|exact F|reflexivity|discriminate]).
        exists (ls ++ [(Me, b)]). split.
        + split; [exact M|]. rewrite (sent_one _ _ SL). split; [apply once_one|]. intros b' m' [<-|[]] (_ & e' & D'). congruence.
        + intros d E. destruct (N _ E) as (body & e' & FB & PB & DB). rewrite (process_acts b m EBorsh _ F D) in PB.
          assert (SH : envelope_inside (fst (handle Y m (after ls (n_st n)))) = false /\ last_envelope (fst (handle Y m (after ls (n_st n)))) = None).
          { destruct (boot_shape e p (after ls (n_st n))) as [(q & Q)|(q & Q)]; fold m in Q; rewrite Q; split; reflexivity. }
          destruct (answer_borsh _ _ _ _ FB (proj1 SH) (proj2 SH) PB DB) as [H|H]; [|discriminate].
          exists ls, b, []. split; [reflexivity|]. split; [split; eauto|exact H]. }
    destruct F1 as (l & O & AN).
    assert (G : (match post_borsh Y (BootStandardRequest e p) n1 with
      | (Ok (BootStandardResponse (RAttestation d)), n2) => (Ok d, n2)
      | (Ok r, n2) => (Err (Unexpected r), n2)
      | (Err x, n2) => (Err x, n2) end) = (r, n') ->
      exists log, acts_once m n n' log /\ (forall d, r = Ok d -> answered_in m (BootStandardResponse (RAttestation d)) n log)
        /\ (forall x, r = Err (Unexpected x) -> x = ProtocolErrorResponse ProtocolMsgDeserialization)).
    { destruct (post_borsh Y (BootStandardRequest e p) n1) as [c n2] eqn:P2.
      destruct (borsh_refused (BootStandardRequest e p) n1 c n2 eq_refl P2) as (l' & M & N & X). intros H.
      assert (HH : n' = n2 /\ (forall d, r <> Ok d) /\ (forall x, r = Err (Unexpected x) -> x = ProtocolErrorResponse ProtocolMsgDeserialization)).
      { destruct c as [c|c].
        - rewrite (X c eq_refl) in H. inversion H; subst. split; [reflexivity|]. split; [discriminate|]. now intros x [= <-].
        - inversion H; subst. split; [reflexivity|]. split; [discriminate|]. intros x [= ->].
          exfalso. clear - P2. unfold post_borsh, post_wire in P2. destruct (to_wire _ _) as [b|]; [|discriminate]. destruct (exchange Y b n1) as [[[code body]|] n3]; [|discriminate].
          destruct (400 <=? code); [discriminate|]. destruct (from_wire (take_size body)) as [[? ?]|]; discriminate. }
      destruct HH as (-> & NO & UX). exists (l ++ l'). split; [exact (once_before _ _ _ _ _ _ O M N)|]. split; [intros d E; now destruct (NO d)|exact UX]. }
    destruct a as [x|]; [|exact G]. destruct x; try exact G. destruct nsm; try exact G. intros [= <- <-].
    exists l. split; [exact O|]. split; [|discriminate]. intros d [= <-]. now apply AN.
  Qed.
End Net.

(** ** C63 *)
(** Whatever the network does and whoever else talks to the enclave: of all a
    command sends, the enclave acts on at most one byte string, and that is the
    request the operator asked for.  If the command succeeds, the enclave did
    act on it, and what the command leaves behind is what the enclave answered. *)
Theorem c63_commands_act_at_most_once : forall Y c n o n', run Y c n = (o, n') ->
  exists log,
    n_log n' = n_log n ++ log /\ snd (process_all Y (map snd log) (n_st n)) = n_st n'
    /\ at_most_one_executed (sent_by_me log)
    /\ (forall b m, In b (sent_by_me log) -> executes b m -> requested Y c m)
    /\ (forall files, o = Some files ->
        exists pre b post m, log = pre ++ (Me, b) :: post /\ executes b m /\ requested Y c m
          /\ good_answer Y c m (fst (handle Y m (snd (process_all Y (map snd pre) (n_st n))))) files).
Proof.
  intros Y c n o n' R.
  assert (Z : (None, n) = (o, n') -> exists log,
    n_log n' = n_log n ++ log /\ snd (process_all Y (map snd log) (n_st n)) = n_st n'
    /\ at_most_one_executed (sent_by_me log)
    /\ (forall b m, In b (sent_by_me log) -> executes b m -> requested Y c m)
    /\ (forall files, o = Some files ->
        exists pre b post m, log = pre ++ (Me, b) :: post /\ executes b m /\ requested Y c m
          /\ good_answer Y c m (fst (handle Y m (snd (process_all Y (map snd pre) (n_st n))))) files)).
  { intros Q. assert (o = None /\ n' = n) as [-> ->] by (inversion Q; auto). exists []. split; [now rewrite app_nil_r|]. split; [reflexivity|]. split; [apply once_nil|]. split; [intros ? ? []|discriminate]. }
  assert (G : forall m log, requested Y c m -> acts_once Y m n n' log ->
    (forall files, o = Some files -> exists x, answered_in Y m x n log /\ good_answer Y c m x files) ->
    exists log,
    n_log n' = n_log n ++ log /\ snd (process_all Y (map snd log) (n_st n)) = n_st n'
    /\ at_most_one_executed (sent_by_me log)
    /\ (forall b m, In b (sent_by_me log) -> executes b m -> requested Y c m)
    /\ (forall files, o = Some files ->
        exists pre b post m, log = pre ++ (Me, b) :: post /\ executes b m /\ requested Y c m
          /\ good_answer Y c m (fst (handle Y m (snd (process_all Y (map snd pre) (n_st n))))) files)).
  { intros m log Q ((ML & MA) & O & A) S. exists log. split; [exact ML|]. split; [exact MA|]. split; [exact O|]. split.
    - intros b m' I E. now rewrite (A b m' I E).
    - intros files E. destruct (S files E) as (x & (pre & b & post & -> & EX & ->) & GA). exists pre, b, post, m. auto. }
  assert (P : forall m r n1, requested Y c m -> post Y m n = (r, n1) -> n1 = n' ->
    (forall files, o = Some files -> exists x, r = Ok x /\ (forall e, x <> ProtocolErrorResponse e) /\ good_answer Y c m x files) ->
    exists log,
    n_log n' = n_log n ++ log /\ snd (process_all Y (map snd log) (n_st n)) = n_st n'
    /\ at_most_one_executed (sent_by_me log)
    /\ (forall b m, In b (sent_by_me log) -> executes b m -> requested Y c m)
    /\ (forall files, o = Some files ->
        exists pre b post m, log = pre ++ (Me, b) :: post /\ executes b m /\ requested Y c m
          /\ good_answer Y c m (fst (handle Y m (snd (process_all Y (map snd pre) (n_st n))))) files)).
  { intros m r n1 Q PO -> S. rewrite post_is_json in PO. destruct (json_once Y m n r n' PO) as (log & O & A). apply (G m log Q O).
    intros files E. destruct (S files E) as (x & -> & NE & GA). exists x. split; [|exact GA]. destruct (A x eq_refl) as [->|H]; [now destruct (NE InvalidMsg)|exact H]. }
  destruct c as [set dr pcrs pcr3 skip now|pivot envelope pcr3 skip now|envelope pivot|envelope doc|key|share approval| | |]; cbn [run] in R.
  - destruct (genesis_request Y set dr) as [m|] eqn:GR; [|exact (Z R)].
    destruct m; try exact (Z R). rename set0 into gs.
    destruct (post_json Y (BootGenesisRequest gs dr_key) n) as [r n1] eqn:PJ. inversion R; subst; clear R.
    destruct (json_once Y _ n r n' PJ) as (log & O & A). apply (G (BootGenesisRequest gs dr_key) log); [exact GR|exact O|].
    intros files E. destruct r as [x|]; [|discriminate]. cbn [ok_opt obind] in E.
    destruct (genesis_accept Y gs dr_key x pcrs pcr3 skip now) as [[o d]|] eqn:GA; [|discriminate]. inversion E; subst. exists x.
    destruct x; try discriminate. destruct nsm; try discriminate.
    assert (o = out /\ d = document) as [-> ->].
    { clear - GA. unfold genesis_accept in GA. destruct (negb _); [discriminate|]. destruct (ok_opt (public_from_bytes Y (go_quorum_key out))); [|discriminate]. cbn [obind] in GA.
      destruct (extract_attestation_doc Y document skip now); [|discriminate]. cbn [obind] in GA. destruct (extract_qos_pcrs pcrs) as [[[p0 p1] p2]|]; [|discriminate]. cbn [obind] in GA.
      destruct (negb _); [discriminate|]. destruct (negb _); [discriminate|]. destruct skip; [inversion GA; auto|].
      destruct (extract_pcr3 Y pcr3); [|discriminate]. cbn [obind] in GA. destruct (Base.is_ok _); [|discriminate]. inversion GA; auto. }
    split; [|exists gs, dr_key, out, document; auto]. destruct (A _ eq_refl) as [H|H]; [discriminate|exact H].
  - destruct pivot as [p|]; [|exact (Z R)]. destruct (read_manifest_envelope_compat envelope) as [e|] eqn:RE; [|exact (Z R)].
    destruct (boot_doc Y e p n) as [r n1] eqn:BD. inversion R; subst; clear R. destruct (boot_once Y e p n r n' BD) as (log & O & A & _).
    apply (G (BootStandardJsonEnvelopeRequest e p) log); [exists p, e; auto|exact O|]. intros files E. destruct r as [d|]; [|discriminate]. cbn [ok_opt obind] in E.
    destruct (boot_accept Y e pcr3 skip now d) as [[]|] eqn:BA; [|discriminate]. inversion E; subst. exists (BootStandardResponse (RAttestation d)).
    split; [now apply A|]. exists e, p, d. auto.
  - destruct pivot as [p|]; [|exact (Z R)]. destruct (read_manifest_envelope_compat envelope) as [e|] eqn:RE; [|exact (Z R)].
    destruct (post_fallback Y (BootKeyForwardRequest e p) (envelope_encodings e) forward_doc [] n) as [r n1] eqn:PF. inversion R; subst; clear R.
    destruct (fallback_once Y (BootKeyForwardRequest e p) e forward_doc n r n' eq_refl (fun _ => eq_refl) PF) as (log & O & A).
    apply (G (BootKeyForwardRequest e p) log); [exists p, e; auto|exact O|]. intros files E. destruct r as [d|]; [|discriminate]. inversion E; subst.
    destruct (A d eq_refl) as (x & PX & AX). exists x. split; [exact AX|]. destruct x; try discriminate. destruct nsm; try discriminate. inversion PX; subst. exists d. auto.
  - destruct (read_manifest_envelope_compat envelope) as [e|] eqn:RE; [|exact (Z R)]. destruct doc as [d|]; [|exact (Z R)].
    destruct (post_fallback Y (ExportKeyRequest e d) (envelope_encodings e) exported [] n) as [r n1] eqn:PF. inversion R; subst; clear R.
    destruct (fallback_once Y (ExportKeyRequest e d) e exported n r n' eq_refl (fun _ => eq_refl) PF) as (log & O & A).
    apply (G (ExportKeyRequest e d) log); [exists d, e; auto|exact O|]. intros files E. destruct r as [[k g]|]; [|discriminate]. inversion E; subst.
    destruct (A _ eq_refl) as (x & PX & AX). exists x. split; [exact AX|]. destruct x; try discriminate. inversion PX; subst. exists k, g. auto.
  - destruct key as [b|]; [|exact (Z R)]. cbn [obind] in R. destruct (json_from_slice js_encrypted_key b) as [[k g]|] eqn:J; [|exact (Z R)].
    destruct (post Y (InjectKeyRequest k g) n) as [r n1] eqn:PO. apply (P (InjectKeyRequest k g) r n1); [exists b, k, g; auto|exact PO| |].
    + destruct r as [x|]; [destruct x|]; injection R; auto.
    + intros files ->. destruct r as [x|]; [destruct x|]; inversion R; subst. exists InjectKeyResponse. split; [reflexivity|]. split; [discriminate|]. split; reflexivity.
  - destruct (share_request share approval) as [m|] eqn:SR; [|exact (Z R)].
    destruct (post Y m n) as [r n1] eqn:PO. apply (P m r n1); [exact SR|exact PO| |].
    + destruct r as [x|]; [destruct x|]; injection R; auto.
    + intros files ->. destruct r as [x|]; [destruct x|]; inversion R; subst. eexists. split; [reflexivity|]. split; [discriminate|]. exists reconstructed. split; reflexivity.
  - destruct (post Y LiveAttestationDocRequest n) as [r n1] eqn:PO. apply (P LiveAttestationDocRequest r n1); [reflexivity|exact PO| |].
    + destruct r as [x|]; [destruct x; try (injection R; auto); destruct nsm, env; injection R; auto|injection R; auto].
    + intros files ->. destruct r as [x|]; [destruct x; try discriminate; destruct nsm, env; try discriminate|discriminate]. inversion R; subst.
      eexists. split; [reflexivity|]. split; [discriminate|]. exists document, v. split; reflexivity.
  - destruct (post Y StatusRequest n) as [r n1] eqn:PO. apply (P StatusRequest r n1); [reflexivity|exact PO| |].
    + destruct r as [x|]; [destruct x|]; injection R; auto.
    + intros files ->. destruct r as [x|]; [destruct x|]; inversion R; subst. eexists. split; [reflexivity|]. split; [discriminate|]. exists p. split; reflexivity.
  - destruct (post Y VersionRequest n) as [r n1] eqn:PO. apply (P VersionRequest r n1); [reflexivity|exact PO| |].
    + destruct r as [x|]; [destruct x|]; injection R; auto.
    + intros files ->. destruct r as [x|]; [destruct x|]; inversion R; subst. eexists. split; [reflexivity|]. split; [discriminate|]. exists version, commit. split; reflexivity.
Qed.
Print Assumptions c63_commands_act_at_most_once.

Section Undisturbed.
  Context (Y : sys).
  Lemma through m e n rest b a r e' : n_script n = ([], Through) :: rest -> to_wire m e = Ok b -> fits b ->
    fst (process Y b (n_st n)) = Some a -> fits a -> from_wire a = Ok (r, e') ->
    exists n1, post_wire Y m e n = (Ok r, n1) /\ n_st n1 = snd (process Y b (n_st n)) /\ n_script n1 = rest.
  Proof.
    intros S T F P FA D. unfold post_wire. rewrite T. unfold exchange, next_fate. rewrite S. cbn [others].
    assert (HM : (HOST_MAX_MSG_LEN <? lenN b) = false) by (apply fits_max in F; unfold HOST_MAX_MSG_LEN, MAX_ENCODED_MSG_LEN in *; lia).
    rewrite HM, (proj1 (fits_stream b) F). unfold deliver. cbn [n_st n_log n_script]. destruct (process Y b (n_st n)) as [x s'] eqn:E. cbn [fst snd] in *. subst x.
    rewrite (proj1 (fits_stream a) FA). change (400 <=? 200) with false. cbn iota. rewrite (take_small a FA), D. eexists. split; [reflexivity|]. split; reflexivity.
  Qed.
  Lemma json_error_fits : exists a, json_error ProtocolMsgDeserialization = Some a /\ fits a.
  Proof.
    assert (K : match json_error ProtocolMsgDeserialization with Some a => lenN a <=? MAX_ENCODED_MSG_LEN | None => false end = true) by (vm_compute; reflexivity).
    destruct (json_error ProtocolMsgDeserialization) as [a|]; [|discriminate]. exists a. split; [reflexivity|]. apply fits_max. now apply N.leb_le.
  Qed.
  Lemma borsh_try m n : undisturbed Y n -> envelope_inside m = true ->
    exists r n1, post_wire Y m EBorsh n = (r, n1) /\ n_st n1 = n_st n /\ (exists rest, n_script n1 = ([], Through) :: rest)
      /\ (forall x, r = Ok x -> x = ProtocolErrorResponse ProtocolMsgDeserialization).
  Proof.
    intros (rest & S) I. assert (K : (exists e p, m = BootStandardRequest e p) \/ (exists e p, m = BootKeyForwardRequest e p) \/ (exists e d, m = ExportKeyRequest e d)).
    { destruct m; try discriminate; eauto 6. }
    destruct (to_wire m EBorsh) as [b|x] eqn:T.
    2:{ unfold post_wire. rewrite T. eexists _, n. split; [reflexivity|]. split; [reflexivity|]. split; [eexists; first [reflexivity|exact S]|discriminate]. }
    destruct (STREAM_MAX <? lenN b) eqn:SM.
    - unfold post_wire. rewrite T. unfold exchange, next_fate. rewrite S. cbn [others].
      assert (HE : forall e c, 400 <= c -> exists r, match host_error e c with None => Err NoAnswer | Some (code, body) =>
         if 400 <=? code then Err (Status code) else match from_wire (take_size body) with Ok (r, _) => Ok r | Err x => Err (Undecodable x) end end = Err r).
      { intros e c H. unfold host_error. destruct (json_error e); [|eauto]. replace (400 <=? c) with true by lia. eauto. }
      destruct (HOST_MAX_MSG_LEN <? lenN b).
      + destruct (HE OversizeMsg 400 (N.le_refl _)) as (r & ->). eexists _, _. split; [reflexivity|]. split; [reflexivity|]. split; [eexists; first [reflexivity|exact S]|discriminate].
      + rewrite SM. destruct (HE EnclaveClient 500 ltac:(lia)) as (r & ->). eexists _, _. split; [reflexivity|]. split; [reflexivity|]. split; [eexists; first [reflexivity|exact S]|discriminate].
    - apply fits_stream in SM. pose proof (c37_refuted_what_is_written_is_refused m b T SM K) as R. destruct json_error_fits as (a & JE & FA).
      assert (PR : process Y b (n_st n) = (Some a, n_st n)) by (unfold process; now rewrite (intake_fits b SM), R, JE).
      destruct (through m EBorsh n _ b a (ProtocolErrorResponse ProtocolMsgDeserialization) EJson S T SM) as (n1 & P1 & S1 & C1).
      + now rewrite PR.
      + exact FA.
      + now apply json_error_inv.
      + rewrite PR in S1. exists (Ok (ProtocolErrorResponse ProtocolMsgDeserialization)), n1. split; [exact P1|]. split; [exact S1|]. split; [eexists; exact C1|]. now intros x [= <-].
  Qed.
End Undisturbed.

(** If nothing is lost and nobody else interferes, a command whose request and
    answer fit succeeds as soon as the enclave's answer is the one asked for. *)
Theorem c63_undisturbed_commands_succeed : forall Y c n m b a files,
  undisturbed Y n -> requested Y c m -> to_wire m (carrier c) = Ok b -> fits b ->
  to_wire (fst (handle Y m (n_st n))) (carrier c) = Ok a -> fits a ->
  good_answer Y c m (fst (handle Y m (n_st n))) files ->
  fst (run Y c n) = Some files /\ n_st (snd (run Y c n)) = snd (handle Y m (n_st n)).
Proof.
  intros Y c n m b a files U Q T F TA FA G.
  assert (J : forall n0 rest, n_script n0 = ([], Through) :: rest -> n_st n0 = n_st n -> carrier c = EJson ->
    exists n1, post_json Y m n0 = (Ok (fst (handle Y m (n_st n))), n1) /\ n_st n1 = snd (handle Y m (n_st n))).
  { intros n0 rest S E C. rewrite C in *. destruct (to_wire_json _ _ T) as [_ D]. destruct (to_wire_json _ _ TA) as [_ DA].
    assert (P : process Y b (n_st n0) = (Some a, snd (handle Y m (n_st n)))).
    { unfold process. rewrite (intake_fits b F), D, E. destruct (handle Y m (n_st n)) as [r s']. cbn [fst snd] in *. unfold answer. now rewrite TA. }
    destruct (through Y m EJson n0 rest b a _ _ S T F ltac:(now rewrite P) FA DA) as (n1 & P1 & S1 & _).
    exists n1. split; [exact P1|]. now rewrite S1, P. }
  destruct U as (rest & S). assert (U : undisturbed Y n) by (exists rest; exact S).
  assert (P : carrier c = EJson -> exists n1, post Y m n = (Ok (fst (handle Y m (n_st n))), n1) /\ n_st n1 = snd (handle Y m (n_st n))).
  { intros C. rewrite post_is_json. exact (J n _ S eq_refl C). }
  assert (B : carrier c = EJson -> envelope_inside m = true -> forall A (parse : msg -> option A) e x, parse (fst (handle Y m (n_st n))) = Some x ->
    (forall y, parse (ProtocolErrorResponse y) = None) ->
    exists n1, post_fallback Y m (envelope_encodings e) parse [] n = (Ok x, n1) /\ n_st n1 = snd (handle Y m (n_st n))).
  { intros C I A parse e x PX PN.
    assert (K : forall errs n0 rest, n_script n0 = ([], Through) :: rest -> n_st n0 = n_st n ->
      exists n1, post_fallback Y m [EJson] parse errs n0 = (Ok x, n1) /\ n_st n1 = snd (handle Y m (n_st n))).
    { intros errs n0 rest0 S0 E0. destruct (J n0 rest0 S0 E0 C) as (n1 & P1 & S1). unfold post_json in P1. cbn [post_fallback]. rewrite P1, PX. eauto. }
    assert (K2 : exists n1, post_fallback Y m [EBorsh; EJson] parse [] n = (Ok x, n1) /\ n_st n1 = snd (handle Y m (n_st n))).
    { destruct (borsh_try Y m n U I) as (r & n1 & P1 & S1 & (rest1 & C1) & X).
      change (post_fallback Y m [EBorsh; EJson] parse [] n) with
        (match post_wire Y m EBorsh n with
         | (Ok a, n') => match parse a with Some x => (Ok x, n') | None => post_fallback Y m [EJson] parse ([] ++ [Unexpected a]) n' end
         | (Err x, n') => post_fallback Y m [EJson] parse ([] ++ [x]) n' end). rewrite P1. destruct r as [y|y].
      - rewrite (X y eq_refl), PN. exact (K _ n1 rest1 C1 S1).
      - exact (K _ n1 rest1 C1 S1). }
    destruct e; cbn [envelope_encodings]; [exact (K [] n _ S eq_refl)|exact K2|exact K2]. }
  destruct c as [set dr pcrs pcr3 skip now|pivot envelope pcr3 skip now|envelope pivot|envelope doc|key|share approval| | |]; cbn [requested good_answer run carrier] in *.
  - destruct G as (gs & dk & o & d & -> & R & GA & ->). rewrite Q. destruct (J n _ S eq_refl eq_refl) as (n1 & P1 & S1). rewrite P1, R in *. cbn [ok_opt obind]. rewrite GA. cbn [obind fst snd]. auto.
  - destruct Q as (p & e & -> & RE & ->). destruct G as (e' & p' & d & Eq & R & BA & ->). inversion Eq; subst e' p'; clear Eq. rewrite RE.
    set (m := BootStandardJsonEnvelopeRequest e p) in *.
    assert (D : from_wire b = Ok (m, EBorsh)) by (apply c37_other_borsh_messages_round_trip; [exact T|exact F|reflexivity|discriminate]).
    assert (DA : from_wire a = Ok (fst (handle Y m (n_st n)), EBorsh)).
    { apply c37_other_borsh_messages_round_trip; [exact TA|exact FA|rewrite R; reflexivity|rewrite R; discriminate]. }
    assert (PR : process Y b (n_st n) = (Some a, snd (handle Y m (n_st n)))).
    { unfold process. rewrite (intake_fits b F), D. destruct (handle Y m (n_st n)) as [r s']. cbn [fst snd] in *. unfold answer. now rewrite TA. }
    destruct (through Y m EBorsh n _ b a _ _ S T F ltac:(now rewrite PR) FA DA) as (n1 & P1 & S1 & _).
    unfold boot_doc, post_borsh. fold m. rewrite P1, R. cbn [ok_opt obind]. rewrite BA. cbn [obind fst snd]. split; [reflexivity|]. now rewrite S1, PR.
  - destruct Q as (p & e & -> & RE & ->). destruct G as (d & R & ->). rewrite RE.
    destruct (B eq_refl eq_refl _ forward_doc e d ltac:(now rewrite R) (fun _ => eq_refl)) as (n1 & P1 & S1). rewrite P1. cbn [ok_opt obind fst snd]. auto.
  - destruct Q as (d & e & -> & RE & ->). destruct G as (k & g & R & ->). rewrite RE.
    destruct (B eq_refl eq_refl _ exported e (k, g) ltac:(now rewrite R) (fun _ => eq_refl)) as (n1 & P1 & S1). rewrite P1. cbn [ok_opt obind fst snd]. auto.
  - destruct Q as (bb & k & g & -> & JK & ->). destruct G as (R & ->). cbn [obind]. rewrite JK. destruct (P eq_refl) as (n1 & P1 & S1). rewrite P1, R. auto.
  - destruct G as (x & R & ->). rewrite Q. destruct (P eq_refl) as (n1 & P1 & S1). rewrite P1, R. auto.
  - subst m. destruct G as (d & e & R & ->). destruct (P eq_refl) as (n1 & P1 & S1). rewrite P1, R. auto.
  - subst m. destruct G as (p & R & ->). destruct (P eq_refl) as (n1 & P1 & S1). rewrite P1, R. auto.
  - subst m. destruct G as (v & g & R & ->). destruct (P eq_refl) as (n1 & P1 & S1). rewrite P1, R. auto.
Qed.
Print Assumptions c63_undisturbed_commands_succeed.

(** Finding: the boot command never shows the enclave's reason for refusing.
    Its second attempt, in the legacy encoding, can never be read by this
    enclave, and it is the second attempt's failure that is reported. *)
Theorem c63_refuted_boot_reports_the_enclaves_refusal : forall Y e p n x n',
  boot_doc Y e p n = (Err (Unexpected x), n') -> x = ProtocolErrorResponse ProtocolMsgDeserialization.
Proof. intros Y e p n x n' H. destruct (boot_once Y e p n _ n' H) as (log & _ & _ & U). exact (U x eq_refl). Qed.
Print Assumptions c63_refuted_boot_reports_the_enclaves_refusal.


(** Non-vacuity: commands against the toy enclave, with its files as the
    operator keeps them. *)
Definition env_file (e : versioned_envelope) : file := envelope_to_storage_vec e.
Definition calm_net : list (list bytes * fate) := [([], Through); ([], Through)].
Definition cut_net : list (list bytes * fate) := [([], Cut); ([], Through)].
Definition boot_cmd : command := BootStandard (Some pivot) (env_file te) None true 0.
Definition boot_fwd_cmd : command := BootKeyForward (env_file te2) (Some pivot).
Definition export_cmd : command := ExportKey (env_file te2) (Some fwd_doc).
Definition seen (r : option (list bytes) * net (toy calm 0)) : bool * (phase * nat) :=
  (is_some (fst r), (st_phase (n_st (snd r)), length (sent_by_me (n_log (snd r))))).
(** A boot that goes through; one whose answer is lost (the enclave acted, once,
    and the command reports failure); the same again (refused, and reported as
    a failure); forwarding, export and status. *)
Example c63_nontrivial :
  seen (run (toy calm 0) boot_cmd (Net (start calm 0) [] calm_net)) = (true, (WaitingForQuorumShards, 1%nat))
  /\ seen (run (toy calm 0) boot_cmd (Net (start calm 0) [] cut_net)) = (false, (WaitingForQuorumShards, 1%nat))
  /\ seen (run (toy calm 0) boot_cmd (Net s_booted [] calm_net)) = (false, (WaitingForQuorumShards, 1%nat))
  /\ seen (run (toy calm 0) boot_fwd_cmd (Net start2 [] calm_net)) = (true, (WaitingForForwardedKey, 1%nat))
  /\ fst (run (toy calm 0) export_cmd (Net s_done [] calm_net)) = Some [write (jser js_encrypted_key ToyRuns.exported)]
  /\ fst (run (toy calm 0) EnclaveStatus (Net s_booted [] calm_net)) = Some [write (jser js_phase WaitingForQuorumShards)].
Proof. split; [|split; [|split; [|split; [|split]]]]; vm_compute; reflexivity. Qed.
