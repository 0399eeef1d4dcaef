(** C92: which approval comes with a share. *)
From Coq Require Import ZifyBool ZifyN ZifyNat.
From Verif Require Import Base Utf8 Hex HexProofs Borsh BorshProofs Json JsonProofs NormProofs Types TypesBorsh Env EnvProofs TypesJson TypesJsonProofs TypesJsonLaws StorageProofs CodecExamples
  Msg World Run FsProofs Attest Services ServiceProofs BootProofs State SpecProtocol HandleProofs Reach Invariant ProtocolProofs SpecApproval ApprovalProofs EffectProofs CalmProofs SpecHistory HistoryProofs PropsLive Toy ToyRuns PropsHistory PropsBind.
Local Open Scope N_scope.
Local Open Scope m_scope.
(** An approval that provisioning accepts: a share-set member signed the manifest's hash. *)
Definition share_approval (Y : sys) (m : versioned_manifest) (a : approval) : Prop :=
  In (ap_member a) (members (vm_share_set m)) /\ signed Y (manifest_hash Y m) a /\ jwf js_approval a = true.
(** The same request, up to the approval that comes with a share. *)
Definition exchanged (Y : sys) (m : versioned_manifest) (r r' : msg) : Prop :=
  (exists sh a a', r = ProvisionRequest sh a /\ r' = ProvisionRequest sh a' /\ share_approval Y m a /\ share_approval Y m a')
  \/ (r = r' /\ (r = StatusRequest \/ r = VersionRequest)).

Section Exchange.
  Context {Y : sys}.
  Local Notation st := (st Y).
  Local Notation M := (M Y).
  Definition side (p : path) : Prop := ~ manifest_path p.
  Lemma alike_same_upd e p v (s t : st) : alike s t -> alike (eff_fs e (upd (st_fs s) p v) s) (eff_fs e (upd (st_fs t) p v) t).
  Proof.
    intros []. constructor; cbn [eff_fs st_phase st_shares st_pending st_nsm st_rngc st_ioc st_fs]; auto; [now apply upd_there|].
    intros q N. unfold upd. destruct (path_eqb p q); [reflexivity|auto].
  Qed.
  Lemma steps_same p m d : forall k i (s t : st), alike s t -> alike (write_steps Y p m d k i s) (write_steps Y p m d k i t).
  Proof. induction k as [|k IH]; intros i s t L; cbn [write_steps]; [|apply IH]; apply alike_same_upd, L. Qed.
  Lemma together_read p (s t : st) : side p -> alike s t -> together (op_read Y p s) (op_read Y p t).
  Proof.
    intros P L. unfold op_read. cbv zeta. rewrite (al_ioc _ _ L), (al_fs _ _ L p P). pose proof (alike_tick _ _ L).
    destruct (s_io Y (st_ioc t)); split; auto.
  Qed.
  Lemma together_write_same p b (s t : st) : side p -> alike s t -> together (op_write Y p b s) (op_write Y p b t).
  Proof.
    intros P L. unfold op_write. cbv zeta. rewrite (al_ioc _ _ L). unfold file_mode. rewrite (al_fs _ _ L p P). pose proof (alike_tick _ _ L) as L1.
    destruct (s_io Y (st_ioc t)); (split; [reflexivity|]); cbn [snd]; [|exact L1|]; now apply steps_same.
  Qed.
  Lemma together_chmod_same p m (s t : st) : side p -> alike s t -> together (op_chmod Y p m s) (op_chmod Y p m t).
  Proof.
    intros P L. unfold op_chmod. cbv zeta. rewrite (al_ioc _ _ L), (al_fs _ _ L p P). pose proof (alike_tick _ _ L) as L1.
    destruct (s_io Y (st_ioc t)), (st_fs t p) as [[c x]|]; (split; [reflexivity|]); cbn [snd]; try exact L1.
    exact (alike_same_upd _ p _ _ _ L1).
  Qed.
  Lemma together_remove_same p (s t : st) : side p -> alike s t -> together (op_remove Y p s) (op_remove Y p t).
  Proof.
    intros P L. unfold op_remove. cbv zeta. rewrite (al_ioc _ _ L), (al_fs _ _ L p P). pose proof (alike_tick _ _ L) as L1.
    destruct (s_io Y (st_ioc t)), (st_fs t p) as [[c x]|]; (split; [reflexivity|]); cbn [snd]; try exact L1.
    exact (alike_same_upd _ p _ _ _ L1).
  Qed.
  Lemma together_rename_same p q (s t : st) : side p -> alike s t -> together (op_rename Y p q s) (op_rename Y p q t).
  Proof.
    intros P L. unfold op_rename. cbv zeta. rewrite (al_ioc _ _ L), (al_fs _ _ L p P). pose proof (alike_tick _ _ L) as L1.
    destruct (s_io Y (st_ioc t)), (st_fs t p) as [[c x]|]; (split; [reflexivity|]); cbn [snd]; try exact L1.
    destruct L. constructor; cbn [eff_fs tick_io st_phase st_shares st_pending st_nsm st_rngc st_ioc st_fs]; auto.
    - apply upd_there; [reflexivity|]. now apply upd_there.
    - intros r N. unfold upd. destruct (path_eqb p r), (path_eqb q r); auto.
  Qed.
  Lemma side_main f : f <> Manif -> side (Main f). Proof. intros N [E|E]; [now injection E as E|discriminate E]. Qed.
  Lemma side_tmp f : f <> Manif -> side (Tmp f). Proof. intros N [E|E]; [discriminate E|now injection E as E]. Qed.
  Lemma together_put_same f b x (s t : st) : f <> Manif -> alike s t -> together (write_as_read_only Y f b x s) (write_as_read_only Y f b x t).
  Proof.
    intros P L. unfold write_as_read_only.
    apply together_bind; [now apply together_exists|]. intros ex s1 t1 L1.
    apply together_bind; [now apply together_guard|]. intros _ s2 t2 L2.
    apply together_bind; [apply together_write_same; [now apply side_tmp|exact L2]|]. intros w s3 t3 L3.
    apply together_bind; [now apply together_guard|]. intros _ s4 t4 L4.
    apply together_bind; [apply together_rename_same; [now apply side_tmp|exact L4]|]. intros r s5 t5 L5.
    apply together_bind; [now apply together_guard|]. intros _ s6 t6 L6.
    apply together_bind; [apply together_chmod_same; [now apply side_main|exact L6]|]. intros c s7 t7 L7. now apply together_guard.
  Qed.
  Lemma together_ret {A} (a : A) (s t : st) : alike s t -> together (ret a s) (ret a t).
  Proof. intros L. split; [reflexivity|exact L]. Qed.
  Lemma together_err {A} e (s t : st) : alike s t -> @together Y A (err e s) (err e t).
  Proof. intros L. split; [reflexivity|exact L]. Qed.
  Lemma together_lift {A} (x : result perr A) (s t : st) : alike s t -> together (lift x s) (lift x t).
  Proof. intros L. split; [reflexivity|exact L]. Qed.
  Lemma together_rotate k (s t : st) : alike s t -> together (rotate_ephemeral_key Y k s) (rotate_ephemeral_key Y k t).
  Proof.
    intros L. unfold rotate_ephemeral_key.
    apply together_bind; [now apply together_exists|]. intros ex s1 t1 L1.
    apply together_bind; [now apply together_guard|]. intros _ s2 t2 L2.
    apply together_bind; [apply together_remove_same; [now apply side_main|exact L2]|]. intros r s3 t3 L3.
    apply together_bind; [now apply together_guard|]. intros _ s4 t4 L4. now apply together_put_same.
  Qed.
  Lemma together_eph (s t : st) : alike s t -> together (get_ephemeral_key Y s) (get_ephemeral_key Y t).
  Proof.
    intros L. unfold get_ephemeral_key. apply together_bind; [|intros r s1 t1 L1; now apply together_lift].
    unfold pair_from_hex_file. apply together_bind; [apply together_read; [now apply side_main|exact L]|]. intros c s1 t1 L1. now apply together_ret.
  Qed.
  Lemma alike_set_shares l (s t : st) : alike s t -> alike (set_shares l s) (set_shares l t).
  Proof. intros []. constructor; cbn; auto. Qed.
  Lemma alike_set_pending l (s t : st) : alike s t -> alike (set_pending l s) (set_pending l t).
  Proof. intros []. constructor; cbn; auto. Qed.
  Lemma alike_set_phase l (s t : st) : alike s t -> alike (set_phase l s) (set_phase l t).
  Proof. intros []. constructor; cbn; auto. Qed.
  Lemma together_take (s t : st) : alike s t -> together (take_pending Y s) (take_pending Y t).
  Proof.
    intros L. unfold take_pending. rewrite (al_pending _ _ L). destruct (st_pending t); split; try reflexivity; [|exact L].
    apply alike_set_pending, L.
  Qed.
  Lemma together_add sh (s t : st) : alike s t -> together (add_share Y sh s) (add_share Y sh t).
  Proof.
    intros L. destruct sh; [now apply together_err|]. split; [reflexivity|]. cbn [add_share modify snd]. rewrite (al_shares _ _ L).
    now apply alike_set_shares.
  Qed.
  Lemma together_build (s t : st) : alike s t -> together (build_secret Y s) (build_secret Y t).
  Proof.
    intros L. unfold build_secret. apply together_bind; [unfold gets; split; [cbn [fst]; now rewrite (al_shares _ _ L)|exact L]|].
    intros l s1 t1 L1. destruct (s_combine Y l) as [[|b x]|]; [now apply together_err|now apply together_ret|now apply together_err].
  Qed.

  (** Both read an envelope of one manifest. *)
  Lemma read_manifest e (s : st) : stored (st_fs s) e ->
    get_manifest_envelope Y s = (match s_io Y (st_ioc s) with NoFault => Ok e | _ => Err FailedToGetManifestEnvelope end, tick_io s).
  Proof.
    intros (c & C & E). unfold get_manifest_envelope, bind, op_read. cbv zeta. destruct (s_io Y (st_ioc s)); [|reflexivity..].
    change (option_map fst (st_fs s (Main Manif))) with (content (st_fs s) Manif). now rewrite C, E.
  Qed.
  Lemma together_get e e' (s t : st) : alike s t -> stored (st_fs s) e -> stored (st_fs t) e' -> forall (B : Type) (f f' : versioned_envelope -> M B),
    (forall s1 t1, alike s1 t1 -> st_fs s1 = st_fs s -> st_fs t1 = st_fs t -> together (f e s1) (f' e' t1)) ->
    together (bind (get_manifest_envelope Y) f s) (bind (get_manifest_envelope Y) f' t).
  Proof.
    intros L S S' B f f' H. unfold bind. rewrite (read_manifest e s S), (read_manifest e' t S'), (al_ioc _ _ L). pose proof (alike_tick _ _ L) as L1.
    destruct (s_io Y (st_ioc t)); [apply H; [exact L1|reflexivity|reflexivity]|split; [reflexivity|exact L1]..].
  Qed.
  Lemma together_mutate a a' e e' (s t : st) : alike s t -> stored (st_fs s) e -> stored (st_fs t) e' -> wf_envelope e = true -> wf_envelope e' = true ->
    jwf js_approval a = true -> jwf js_approval a' = true ->
    together (mutate_manifest_envelope Y (push_share_approval a) s) (mutate_manifest_envelope Y (push_share_approval a') t).
  Proof.
    intros L S S' W W' J J'. unfold mutate_manifest_envelope.
    apply (together_get e e' s t L S S'). intros s0 t0 L1 _ _.
    apply together_bind; [apply together_chmod; [now left|exact L1]|]. intros c s1 t1 L2.
    apply together_bind; [now apply together_guard|]. intros _ s2 t2 L3.
    destruct (envelope_storage _ (push_wf a e W J)) as (b & -> & _), (envelope_storage _ (push_wf a' e' W' J')) as (b' & -> & _).
    apply together_bind; [apply together_write; [now left|exact L3]|]. intros w s3 t3 L4.
    apply together_bind; [now apply together_guard|]. intros _ s4 t4 L5.
    apply together_bind; [apply together_chmod; [now left|exact L5]|]. intros c' s5 t5 L6. now apply together_guard.
  Qed.
  Lemma together_provision sh a a' e e' (s t : st) : alike s t -> stored (st_fs s) e -> stored (st_fs t) e' -> wf_envelope e = true -> wf_envelope e' = true ->
    env_manifest e = env_manifest e' -> share_approval Y (env_manifest e) a -> share_approval Y (env_manifest e) a' ->
    together (provision Y sh a s) (provision Y sh a' t).
  Proof.
    intros L S S' W W' EM (A1 & A2 & J) (B1 & B2 & J').
    unfold provision. apply (together_get e e' s t L S S'). intros s1 t1 L1 F1 F2. cbv zeta. rewrite <- EM.
    apply approval_signed in A2, B2. rewrite A2, B2. apply memb_member in A1, B1. rewrite A1, B1.
    assert (SK : forall (B : Type) (x y : M B) (s0 t0 : st), together (x s0) (y t0) ->
      together ((lift (Ok tt) ;; guard true NotShareSetMember ;; x) s0) ((lift (Ok tt) ;; guard true NotShareSetMember ;; y) t0)) by (intros B x y s0 t0 H; exact H).
    apply SK. apply together_bind.
    { apply (together_mutate a a' e e'); auto; [now rewrite F1|now rewrite F2]. }
    intros _ s2 t2 L2. apply together_bind; [now apply together_eph|]. intros [eph ek] s3 t3 L3.
    apply together_bind; [now apply together_lift|]. intros x s4 t4 L4.
    apply together_bind; [now apply together_add|]. intros _ s5 t5 L5.
    apply together_bind. { unfold gets. split; [cbn [fst]; now rewrite (al_shares _ _ L5)|exact L5]. }
    intros n s6 t6 L6. destruct (n <? threshold (vm_share_set (env_manifest e))); [now apply together_ret|].
    apply together_bind; [now apply together_build|]. intros seed s7 t7 L7.
    apply together_bind. { split; [reflexivity|]. cbn [modify snd]. now apply alike_set_shares. }
    intros _ s8 t8 L8. apply together_bind; [now apply together_guard|]. intros _ s9 t9 L9.
    apply together_bind; [now apply together_lift|]. intros k sa ta La.
    apply together_bind; [now apply together_guard|]. intros _ sb tb Lb.
    apply together_bind; [now apply together_take|]. intros live sc tc Lc.
    apply together_bind; [now apply together_rotate|]. intros _ sd td Ld.
    apply together_bind; [now apply together_put_same|]. intros _ se te Le. now apply together_ret.
  Qed.

  (** One request *)
  Lemma exchange_step (OK : sys_ok Y) e e' r r' (s t : st) : reach Y s -> reach Y t -> alike s t ->
    (st_phase s = UnrecoverableError \/ stored (st_fs s) e /\ stored (st_fs t) e' /\ env_manifest e = env_manifest e') ->
    exchanged Y (env_manifest e) r r' ->
    fst (handle Y r s) = fst (handle Y r' t) /\ alike (snd (handle Y r s)) (snd (handle Y r' t)).
  Proof.
    intros R R' L ST [(sh & a & a' & -> & -> & A & A')|[<- [->| ->]]].
    - destruct (phase_eqb (st_phase s) WaitingForQuorumShards) eqn:P.
      + apply phase_eqb_eq in P. destruct ST as [Q|(S & S' & EM)]; [congruence|]. pose proof P as P'. rewrite (al_phase _ _ L) in P'.
        pose proof (stored_wf OK s e R P S) as W. pose proof (stored_wf OK t e' R' P' S') as W'.
        rewrite (handle_provision sh a s P), (handle_provision sh a' t P').
        destruct (together_provision sh a a' e e' s t L S S' W W' EM A A') as [F L1].
        destruct (provision Y sh a s) as [[[]|x] s1], (provision Y sh a' t) as [[[]|x'] t1]; cbn [fst snd] in *; try discriminate F;
          (split; [congruence|]); first [exact L1|now apply alike_set_phase].
      + unfold handle. rewrite <- (al_phase _ _ L). destruct (st_phase s); try discriminate P; (split; [|exact L]); cbn; rewrite (al_phase _ _ L); reflexivity.
    - rewrite !handle_status, (al_phase _ _ L). split; [reflexivity|exact L].
    - rewrite !handle_version. split; [reflexivity|exact L].
  Qed.
  Lemma exchanged_wf m r r' : exchanged Y m r r' -> wf_req r = true /\ wf_req r' = true.
  Proof. intros [(sh & a & a' & -> & -> & (_ & _ & A) & (_ & _ & A'))|[<- [->| ->]]]; auto. Qed.
  Lemma exchange_run (OK : sys_ok Y) m rs rs' : Forall2 (exchanged Y m) rs rs' -> forall (s t : st) e e', reach Y s -> reach Y t -> alike s t ->
    env_manifest e = m -> env_manifest e' = m ->
    (st_phase s = UnrecoverableError \/ stored (st_fs s) e /\ stored (st_fs t) e') ->
    fst (serve Y rs s) = fst (serve Y rs' t) /\ alike (snd (serve Y rs s)) (snd (serve Y rs' t)).
  Proof.
    induction 1 as [|r r' rs rs' X _ IH]; intros s t e e' R R' L E E' ST; [split; [reflexivity|exact L]|].
    destruct (exchanged_wf _ _ _ X) as [W W'].
    assert (ST2 : st_phase s = UnrecoverableError \/ stored (st_fs s) e /\ stored (st_fs t) e' /\ env_manifest e = env_manifest e') by (destruct ST as [?|[? ?]]; [left; assumption|right; repeat split; [assumption|assumption|congruence]]).
    rewrite <- E in X. destruct (exchange_step OK e e' r r' s t R R' L ST2 X) as [F L1].
    rewrite !serve_cons. cbn [fst snd]. rewrite F.
    assert (R1 : reach Y (snd (handle Y r s))) by now apply R_step.
    assert (R1' : reach Y (snd (handle Y r' t))) by now apply R_step.
    assert (N : exists e1 e1', env_manifest e1 = m /\ env_manifest e1' = m
      /\ (st_phase (snd (handle Y r s)) = UnrecoverableError \/ stored (st_fs (snd (handle Y r s))) e1 /\ stored (st_fs (snd (handle Y r' t))) e1')).
    { destruct ST as [Q|[S S']].
      - exists e, e'. split; [exact E|]. split; [exact E'|]. left. destruct X as [(sh & a & a' & -> & -> & _)|[<- [->| ->]]]; [unfold handle; rewrite Q; cbn; exact Q|rewrite handle_status; exact Q|rewrite handle_version; exact Q].
      - pose proof (manifest_serve OK [r] s e R ltac:(constructor; [exact W|constructor]) S) as H1. pose proof (manifest_serve OK [r'] t e' R' ltac:(constructor; [exact W'|constructor]) S') as H2.
        cbv zeta in H1, H2. rewrite serve_cons in H1, H2. cbn [serve snd] in H1, H2.
        destruct H1 as [(e1 & S1 & (X1 & _))|[Q _]]; [|exists e, e'; split; [exact E|split; [exact E'|left; exact Q]]].
        destruct H2 as [(e2 & S2 & (X2 & _))|[Q _]]; [|exists e, e'; split; [exact E|split; [exact E'|left; rewrite (al_phase _ _ L1); exact Q]]].
        exists e1, e2. split; [congruence|]. split; [congruence|]. right. auto. }
    destruct N as (e1 & e1' & E1 & E1' & N). destruct (IH _ _ e1 e1' R1 R1' L1 E1 E1' N) as [G L2]. split; [now rewrite G|exact L2].
  Qed.
End Exchange.

(** ** C92.  Which approval comes with a share makes no difference: two histories
    that post the same shares with any acceptable approvals get the same answers
    and end in the same phase with the same keys, whatever faults occur. *)
Theorem c92_the_approval_makes_no_difference : forall Y, sys_ok Y -> forall s e rs rs',
  reach Y s -> stored (st_fs s) e -> Forall2 (exchanged Y (env_manifest e)) rs rs' ->
  fst (serve Y rs s) = fst (serve Y rs' s)
  /\ st_phase (snd (serve Y rs s)) = st_phase (snd (serve Y rs' s))
  /\ content (st_fs (snd (serve Y rs s))) Quorum = content (st_fs (snd (serve Y rs' s))) Quorum
  /\ content (st_fs (snd (serve Y rs s))) Eph = content (st_fs (snd (serve Y rs' s))) Eph.
Proof.
  intros Y OK s e rs rs' R S X.
  destruct (exchange_run OK _ rs rs' X s s e e R R (alike_refl s) eq_refl eq_refl (or_intror (conj S S))) as [F L].
  split; [exact F|]. split; [apply (al_phase _ _ L)|]. unfold content.
  rewrite (al_fs _ _ L (Main Quorum)), (al_fs _ _ L (Main Eph)); [auto|now apply side_main|now apply side_main].
Qed.
Print Assumptions c92_the_approval_makes_no_difference.

(** A manifest approval in the stored envelope, by somebody who is also in the
    share set, is such an approval: it can be sent again with every share, and
    nothing more is asked of any share-set member than the share itself. *)
Theorem c92_refuted_a_share_approval_is_given_for_the_share : forall Y, sys_ok Y -> forall s e a0 l,
  reach Y s -> st_phase s = WaitingForQuorumShards -> stored (st_fs s) e ->
  In a0 (env_manifest_approvals e) -> In (ap_member a0) (members (vm_share_set (env_manifest e))) ->
  Forall (fun p => share_approval Y (env_manifest e) (snd p)) l ->
  let given := map (fun p => ProvisionRequest (fst p) (snd p)) l in
  let replayed := map (fun p => ProvisionRequest (fst p) a0) l in
  fst (serve Y given s) = fst (serve Y replayed s)
  /\ content (st_fs (snd (serve Y given s))) Quorum = content (st_fs (snd (serve Y replayed s))) Quorum.
Proof.
  intros Y OK s e a0 l R P S I IM F given replayed.
  assert (A0 : share_approval Y (env_manifest e) a0).
  { pose proof (i_phase _ (reach_inv OK s R)) as Ph. unfold phase_inv in Ph. rewrite P in Ph. destruct Ph as [(e1 & b & mm & pv & sd & sk & lv & lk & M1 & M2 & W1 & C1 & _) _].
    assert (e1 = e) as ->.
    { apply (stored_inj (st_fs s)); [|exact S]. exists b. split; [now apply content_some with (m := mm)|]. destruct (envelope_storage e1 W1) as (b' & X1 & X2). congruence. }
    destruct (check_sound Y e C1) as (_ & A & _). destruct (A a0 I) as [_ G]. split; [exact IM|]. split; [exact G|].
    assert (J : forallb (jwf js_approval) (env_manifest_approvals e) = true).
    { destruct e as [x|x|x]; cbn [wf_envelope env_manifest_approvals js_envelope_v2 js_envelope js_envelope_v0 jwf] in *;
        apply andb_true_iff in W1 as [W1 _]; apply andb_true_iff in W1 as [_ W1]; exact W1. }
    exact (proj1 (forallb_forall _ _) J a0 I). }
  assert (X : Forall2 (exchanged Y (env_manifest e)) given replayed).
  { unfold given, replayed. induction F as [|[sh a] l A F IH]; [constructor|]. constructor; [|exact IH]. left. exists sh, a, a0. auto. }
  destruct (c92_the_approval_makes_no_difference Y OK s e given replayed R S X) as (A & _ & B & _). auto.
Qed.
Print Assumptions c92_refuted_a_share_approval_is_given_for_the_share.

(** Non-vacuity: alice's approval of the manifest, taken from the envelope, comes with both shares. *)
Example c92_nontrivial : reach T s_booted /\ st_phase s_booted = WaitingForQuorumShards /\ stored (st_fs s_booted) te
  /\ In (approve seed_a alice tm) (env_manifest_approvals te) /\ In alice (members (vm_share_set (env_manifest te)))
  /\ share_approval T (env_manifest te) (approve seed_a alice tm) /\ share_approval T (env_manifest te) (approve seed_b bob tm)
  /\ fst (serve T [prov1 0; prov2 0] s_booted) = fst (serve T [ProvisionRequest (share1 0) (approve seed_a alice tm); ProvisionRequest (share2 0) (approve seed_a alice tm)] s_booted)
  /\ content (st_fs (snd (serve T [ProvisionRequest (share1 0) (approve seed_a alice tm); ProvisionRequest (share2 0) (approve seed_a alice tm)] s_booted))) Quorum = Some (encode seed_q).
Proof.
  split; [exact booted_reach|]. split; [vm_compute; reflexivity|]. split; [exact booted_stored|]. split; [right; left; reflexivity|]. split; [left; reflexivity|].
  split. { split; [left; reflexivity|]. split; [apply approval_signed; vm_compute; reflexivity|vm_compute; reflexivity]. }
  split. { split; [right; left; reflexivity|]. split; [apply approval_signed; vm_compute; reflexivity|vm_compute; reflexivity]. }
  split; vm_compute; reflexivity.
Qed.
