(** One request: which service runs, and how the phase moves. *)
From Verif Require Import Base Types TypesJson Msg World Run FsProofs Attest Services ServiceProofs BootProofs State SpecProtocol.
Local Open Scope N_scope.
Local Open Scope m_scope.

Section HP.
  Context {Y : sys}.
  Local Notation st := (st Y).

  Lemma q_ok_of {A} (m : M Y A) : quietly m -> quietly (ok_of Y m).
  Proof.
    intros H s r s' E. unfold ok_of in E. destruct (m s) as [[a|e] s1] eqn:Em; inversion E; subst; eapply H; eauto.
  Qed.
  Lemma q_manifest : quietly (get_manifest_envelope Y).
  Proof. apply si_quietly, si_get_manifest. Qed.
  Lemma q_live : quietly (live_attestation_doc Y).
  Proof.
    unfold live_attestation_doc. apply q_bind; [apply si_quietly, si_get_eph|]. intros [? ?].
    apply q_bind; [apply q_manifest|]. intros e. apply q_post.
  Qed.
  Lemma q_export e d : quietly (export_key Y e d).
  Proof.
    unfold export_key.
    repeat first [ apply q_manifest | apply si_quietly, si_get_quorum
                 | progress intros | apply q_ret | apply q_err | apply q_lift | apply q_time | apply q_rand
                 | apply q_bind
                 | match goal with |- quietly (match ?x with _ => _ end) => destruct x end ].
  Qed.
  Lemma q_generate : quietly (pair_generate Y).
  Proof. apply si_quietly, si_generate. Qed.
  Lemma q_encrypt_shares l : quietly (encrypt_shares Y l).
  Proof.
    induction l as [|[sh m] l IH]; cbn [encrypt_shares]; [apply q_ret|].
    repeat first [ apply IH | progress intros | apply q_ret | apply q_lift | apply q_rand | apply q_bind ].
  Qed.
  Lemma q_catch {A} (m : M Y A) : quietly m -> quietly (catch Y m).
  Proof. intros H s r s' E. unfold catch in E. destruct (m s) as [x s1] eqn:Em. inversion E; subst. eapply H; eauto. Qed.
  Lemma q_genesis set dr : quietly (boot_genesis Y set dr).
  Proof.
    unfold boot_genesis.
    repeat first [ apply q_generate | apply q_catch, q_encrypt_shares
                 | progress intros | apply q_ret | apply q_err | apply q_lift | apply q_nsm | apply q_rand
                 | apply q_bind
                 | match goal with |- quietly (match ?x with _ => _ end) => destruct x end ].
  Qed.

  (** *** Unserved requests *)
  Lemma handle_unserved r (s : st) : served (st_phase s) r = false ->
    handle Y r s = (ProtocolErrorResponse (NoMatchingRoute (st_phase s)), s).
  Proof.
    unfold handle. destruct s as [p sh pd f n rc ic tr]; cbn [st_phase].
    destruct p, r; cbn; intros H; try discriminate H; reflexivity.
  Qed.

  (** *** Read-only requests: the answer of the service, no phase change *)
  Lemma transition_same (s : st) p : st_phase s = p -> transition Y p s = (Ok tt, s).
  Proof. intros <-. unfold transition. now rewrite (proj2 (phase_eqb_eq _ _) eq_refl). Qed.

  Definition as_msg {A} (f : A -> msg) (r : result perr A) : msg :=
    match r with Ok a => f a | Err e => ProtocolErrorResponse e end.

  Lemma handle_status (s : st) : handle Y StatusRequest s = (StatusResponse (st_phase s), s).
  Proof. destruct s as [p sh pd f n rc ic tr]; destruct p; reflexivity. Qed.
  Lemma handle_version (s : st) : handle Y VersionRequest s = (VersionResponse (s_version Y) (s_commit Y), s).
  Proof. destruct s as [p sh pd f n rc ic tr]; destruct p; reflexivity. Qed.

  Lemma try_read h p r (s : st) a s' : st_phase s = p -> h r s = (Some a, s') -> quiet s s' ->
    (forall b, a = Ok (ProvisionResponse b) -> False) ->
    try_msg Y (Route h p p) r s = (Some a, s').
  Proof.
    intros P H Q N. unfold try_msg. cbn [r_handler r_ok r_err]. rewrite H.
    assert (P' : st_phase s' = p) by (rewrite (fx_phase _ _ _ Q); exact P).
    destruct a as [m|e].
    - destruct m; try (rewrite transition_same by exact P'; reflexivity).
      exfalso. eapply N; eauto.
    - rewrite transition_same by exact P'. reflexivity.
  Qed.

  Lemma try_skip h o e r (s : st) : h r s = (None, s) -> try_msg Y (Route h o e) r s = (None, s).
  Proof. intros H. unfold try_msg. cbn [r_handler]. now rewrite H. Qed.

  Lemma answer_inv {A} (f : A -> msg) (m : M Y A) (s : st) :
    answer Y f m s = (Some (match fst (m s) with Ok a => Ok (f a) | Err e => Err (ProtocolErrorResponse e) end), snd (m s)).
  Proof. unfold answer. destruct (m s) as [[a|e] s1]; reflexivity. Qed.

  (** The common shape: routes before the matching one answer [None]. *)
  Lemma handle_read {A} (f : A -> msg) (m : M Y A) (h : handler Y) r pre post (s : st) :
    routes Y (st_phase s) = pre ++ Route h (st_phase s) (st_phase s) :: post ->
    (forall rt, In rt pre -> r_handler Y rt r s = (None, s)) ->
    h r s = answer Y f m s -> quietly m -> (forall a b, f a <> ProvisionResponse b) ->
    handle Y r s = (as_msg f (fst (m s)), snd (m s)).
  Proof.
    intros HR Hpre Hh Hq Hf. unfold handle. rewrite HR. clear HR.
    induction pre as [|[h0 o0 e0] pre IH]; cbn [app try_routes].
    - rewrite answer_inv in Hh.
      assert (T := try_read h (st_phase s) r s _ _ eq_refl Hh).
      destruct (m s) as [x s1] eqn:Em. cbn [fst snd] in *.
      rewrite T; [destruct x; reflexivity|eapply Hq; eauto|].
      intros b Hb. destruct x; [|discriminate Hb]. inversion Hb. eapply Hf; eauto.
    - rewrite try_skip by (apply (Hpre (Route h0 o0 e0)); now left).
      apply IH. intros rt Hrt. apply Hpre. now right.
  Qed.

  Lemma handle_manifest (s : st) : st_phase s <> GenesisBooted ->
    handle Y ManifestEnvelopeRequest s
    = (as_msg ManifestEnvelopeResponse (fst (ok_of Y (get_manifest_envelope Y) s)), snd (ok_of Y (get_manifest_envelope Y) s)).
  Proof.
    intros N. destruct (st_phase s) eqn:P; try congruence;
    [ eapply (handle_read _ _ _ _ [_; _])
    | eapply (handle_read _ _ _ _ [_; _])
    | eapply (handle_read _ _ _ _ [_; _; _])
    | eapply (handle_read _ _ _ _ [_; _; _])
    | eapply (handle_read _ _ _ _ [_; _; _]) ];
    try (rewrite P; reflexivity); try reflexivity; try discriminate; try (apply q_ok_of, q_manifest);
    cbn; intros rt Hrt; intuition (subst; reflexivity).
  Qed.

  Lemma handle_live (s : st) : st_phase s <> GenesisBooted -> st_phase s <> WaitingForBootInstruction ->
    let m := (do n <- live_attestation_doc Y; do e <- ok_of Y (get_manifest_envelope Y); ret (n, e)) in
    handle Y LiveAttestationDocRequest s
    = (as_msg (fun p => LiveAttestationDocResponse (fst p) (snd p)) (fst (m s)), snd (m s)).
  Proof.
    intros N N' m. destruct (st_phase s) eqn:P; try congruence;
    [ eapply (handle_read _ _ _ _ [_; _; _])
    | eapply (handle_read _ _ _ _ [_; _])
    | eapply (handle_read _ _ _ _ [_; _])
    | eapply (handle_read _ _ _ _ [_; _]) ];
    try (rewrite P; reflexivity); try reflexivity; try discriminate;
    try (apply q_bind; [apply q_live|intros ?; apply q_bind; [apply q_ok_of, q_manifest|intros ?; apply q_ret]]);
    cbn; intros rt Hrt; intuition (subst; reflexivity).
  Qed.

  Lemma handle_export e d (s : st) : st_phase s = QuorumKeyProvisioned ->
    handle Y (ExportKeyRequest e d) s
    = (as_msg (fun p => ExportKeyResponse (fst p) (snd p)) (fst (export_key Y e d s)), snd (export_key Y e d s)).
  Proof.
    intros P. eapply (handle_read _ _ _ _ [_; _; _; _]).
    - rewrite P. reflexivity.
    - cbn. intros rt Hrt; intuition (subst; reflexivity).
    - reflexivity.
    - apply q_export.
    - discriminate.
  Qed.

  (** *** Requests that move the phase *)
  Lemma handle_boot r e pv (s : st) : st_phase s = WaitingForBootInstruction -> boot_of r = Some (e, pv) ->
    handle Y r s = match put_manifest_and_pivot Y e pv s with
                   | (Ok n, s1) => (boot_answer r n, set_phase (boot_target r) s1)
                   | (Err x, s1) => (ProtocolErrorResponse x, set_phase UnrecoverableError s1)
                   end.
  Proof.
    intros P B. unfold handle. rewrite P.
    destruct r; try discriminate B; injection B as -> ->; cbn -[put_manifest_and_pivot];
      unfold try_msg; cbn -[put_manifest_and_pivot]; unfold answer, boot_standard, boot_key_forward;
      destruct (put_manifest_and_pivot Y e pv s) as [[n|x] s1] eqn:E;
      apply boot_spec in E as (P1 & _); rewrite P in P1;
      unfold transition; rewrite P1; reflexivity.
  Qed.

  Lemma handle_genesis set dr (s : st) : st_phase s = WaitingForBootInstruction ->
    handle Y (BootGenesisRequest set dr) s
    = match boot_genesis Y set dr s with
      | (Ok p, s1) => (BootGenesisResponse (snd p) (fst p), set_phase GenesisBooted s1)
      | (Err x, s1) => (ProtocolErrorResponse x, set_phase UnrecoverableError s1)
      end.
  Proof.
    intros P. unfold handle. rewrite P. cbn -[boot_genesis].
    unfold try_msg; cbn -[boot_genesis]; unfold answer.
    destruct (boot_genesis Y set dr s) as [[n|x] s1] eqn:E;
      apply q_genesis in E; pose proof (fx_phase _ _ _ E) as P1; rewrite P in P1;
      unfold transition; rewrite P1; reflexivity.
  Qed.

  Lemma handle_provision sh a (s : st) : st_phase s = WaitingForQuorumShards ->
    handle Y (ProvisionRequest sh a) s
    = match provision Y sh a s with
      | (Ok true, s1) => (ProvisionResponse true, set_phase QuorumKeyProvisioned s1)
      | (Ok false, s1) => (ProvisionResponse false, s1)
      | (Err x, s1) => (ProtocolErrorResponse x, set_phase UnrecoverableError s1)
      end.
  Proof.
    intros P. unfold handle. rewrite P. cbn -[provision].
    unfold try_msg; cbn -[provision]; unfold answer.
    destruct (provision Y sh a s) as [[[]|x] s1] eqn:E; try reflexivity;
      apply provision_spec in E as (P1 & _); rewrite P in P1;
      unfold transition; rewrite P1; reflexivity.
  Qed.

  Lemma handle_inject c g (s : st) : st_phase s = WaitingForForwardedKey ->
    handle Y (InjectKeyRequest c g) s
    = match inject_key Y c g s with
      | (Ok _, s1) => (InjectKeyResponse, set_phase QuorumKeyProvisioned s1)
      | (Err x, s1) => (ProtocolErrorResponse x, set_phase UnrecoverableError s1)
      end.
  Proof.
    intros P. unfold handle. rewrite P. cbn -[inject_key].
    unfold try_msg; cbn -[inject_key]; unfold answer.
    destruct (inject_key Y c g s) as [[[]|x] s1] eqn:E;
      apply inject_spec in E as (P1 & _); rewrite P in P1;
      unfold transition; rewrite P1; reflexivity.
  Qed.

  (** Everything a single request can be. *)
  Lemma handle_cases r (s : st) :
    (served (st_phase s) r = false /\ handle Y r s = (ProtocolErrorResponse (NoMatchingRoute (st_phase s)), s))
    \/ (read_only r = true /\ served (st_phase s) r = true /\ quiet s (snd (handle Y r s)))
    \/ (exists set dr, r = BootGenesisRequest set dr /\ st_phase s = WaitingForBootInstruction)
    \/ (exists e pv, boot_of r = Some (e, pv) /\ st_phase s = WaitingForBootInstruction)
    \/ (exists sh a, r = ProvisionRequest sh a /\ st_phase s = WaitingForQuorumShards)
    \/ (exists c g, r = InjectKeyRequest c g /\ st_phase s = WaitingForForwardedKey).
  Proof.
    destruct (served (st_phase s) r) eqn:V; [|left; split; [reflexivity|now apply handle_unserved]].
    right. destruct r; try discriminate V.
    - left. rewrite handle_status. split; [reflexivity|]. split; [reflexivity|apply quiet_refl].
    - right; right; left. apply phase_eqb_eq in V. cbn [boot_of]. eauto 6.
    - right; left. apply phase_eqb_eq in V. eauto.
    - right; right; right; left. apply phase_eqb_eq in V. eauto.
    - left. split; [reflexivity|]. split; [reflexivity|].
      rewrite handle_live.
      + cbn [snd]. match goal with |- quiet s (snd (?m s)) => assert (Q : quietly m) end.
        { apply q_bind; [apply q_live|intros ?; apply q_bind; [apply q_ok_of, q_manifest|intros ?; apply q_ret]]. }
        eapply Q. apply surjective_pairing.
      + intros P; rewrite P in V; discriminate V.
      + intros P; rewrite P in V; discriminate V.
    - right; right; left. apply phase_eqb_eq in V. cbn [boot_of]. eauto 6.
    - left. split; [reflexivity|]. split; [reflexivity|]. apply phase_eqb_eq in V.
      rewrite handle_export by exact V. cbn [snd]. eapply q_export. apply surjective_pairing.
    - right; right; right; right. apply phase_eqb_eq in V. eauto.
    - left. split; [reflexivity|]. split; [reflexivity|].
      rewrite handle_manifest by (intros P; rewrite P in V; discriminate V).
      cbn [snd]. eapply q_ok_of; [apply q_manifest|]. apply surjective_pairing.
    - left. rewrite handle_version. split; [reflexivity|]. split; [reflexivity|apply quiet_refl].
    - right; right; left. apply phase_eqb_eq in V. cbn [boot_of]. eauto 6.
  Qed.
End HP.
