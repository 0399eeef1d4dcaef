(** Boot, provision and inject: complete case analysis of one service call. *)
From Coq Require Import ZifyBool ZifyN ZifyNat.
From Verif Require Import Base Utf8 Hex HexProofs Types TypesJson Msg World Run FsProofs Attest Services ServiceProofs.
Local Open Scope N_scope.
Local Open Scope m_scope.

Section BP.
  Context {Y : sys}.
  Local Notation st := (st Y).
  Local Notation entry := (entry Y).

  (** A snapshot while a boot publishes its three files over [f0]. *)
  Definition bC (e : versioned_envelope) (pv setup : bytes) (f0 : fsys) (x : entry) : Prop :=
    let f := en_fs x in
    others [Main Eph; Tmp Eph; Main Pivot; Main Manif; Tmp Manif] f0 f
    /\ (f (Main Eph) = f0 (Main Eph) \/ (f0 (Main Eph) = None /\ exists m, f (Main Eph) = Some (encode setup, m)))
    /\ (f (Main Pivot) = f0 (Main Pivot) \/ (f0 (Main Pivot) = None /\ f (Main Eph) = Some (encode setup, 292)
                                               /\ exists i m, f (Main Pivot) = Some (firstn i pv, m)))
    /\ (f (Main Manif) = f0 (Main Manif) \/ (f0 (Main Manif) = None /\ f (Main Eph) = Some (encode setup, 292)
          /\ f (Main Pivot) = Some (pv, 73) /\ f0 (Main Pivot) = None
          /\ exists b m, envelope_to_storage_vec e = Some b /\ f (Main Manif) = Some (b, m)))
    /\ (f0 (Main Eph) <> None -> f = f0).

  Lemma quiet_bC e pv setup s s' : quiet s s' -> fx (bC e pv setup (st_fs s)) s s'.
  Proof.
    apply fx_weaken. intros x Hx. unfold bC. rewrite Hx.
    repeat match goal with |- _ /\ _ => split end; auto. apply others_refl.
  Qed.

  Lemma q_post pub mh : quietly (post_boot_attestation Y pub mh).
  Proof. apply q_nsm. Qed.

  Definition files_published (e : versioned_envelope) (pv setup : bytes) (f0 f : fsys) : Prop :=
    f0 (Main Eph) = None /\ f0 (Main Pivot) = None /\ f0 (Main Manif) = None
    /\ f (Main Eph) = Some (encode setup, 292) /\ f (Main Pivot) = Some (pv, 73)
    /\ (exists b, envelope_to_storage_vec e = Some b /\ f (Main Manif) = Some (b, 292))
    /\ f (Main Quorum) = f0 (Main Quorum).

  Lemma publish_spec e pv setup pub mh (s : st) r s' :
    (put_ephemeral_key Y setup ;; put_pivot Y pv ;; put_manifest_envelope Y e ;; post_boot_attestation Y pub mh) s = (r, s') ->
    fx (bC e pv setup (st_fs s)) s s'
    /\ (forall a, r = Ok a -> files_published e pv setup (st_fs s) (st_fs s')).
  Proof.
    intros H. mstep H; apply war_spec in E; destruct (st_fs s (Main Eph)) as [v|] eqn:F0.
    { destruct E; discriminate. }
    2:{ destruct E as [E ->]. subst r. split; [apply fx_refl|discriminate]. }
    2:{ destruct E as (A & _ & _ & _). subst r. split; [|discriminate]. eapply fx_weaken; [|exact A].
        intros x (_ & V2 & V3). unfold bC. repeat match goal with |- _ /\ _ => split end.
        - eapply others_weaken; [|exact V2]. intros q [<-|[<-|[]]]; cbn; auto.
        - destruct V3 as [V3|V3]; [left; congruence|right; auto].
        - left. apply V2. intros [Q|[Q|[]]]; discriminate Q.
        - left. apply V2. intros [Q|[Q|[]]]; discriminate Q.
        - congruence. }
    destruct E as (A & B & C & _).
    destruct a. specialize (B eq_refl).
    assert (A' : fx (bC e pv setup (st_fs s)) s s0).
    { eapply fx_weaken; [|exact A]. intros x (_ & V2 & V3). unfold bC.
      repeat match goal with |- _ /\ _ => split end.
      - eapply others_weaken; [|exact V2]. intros q [<-|[<-|[]]]; cbn; auto.
      - destruct V3 as [V3|V3]; [left; congruence|right; auto].
      - left. apply V2. intros [Q|[Q|[]]]; discriminate Q.
      - left. apply V2. intros [Q|[Q|[]]]; discriminate Q.
      - congruence. }
    assert (P0 : st_fs s0 (Main Pivot) = st_fs s (Main Pivot)) by (apply C; intros [Q|[Q|[]]]; discriminate Q).
    assert (M0 : st_fs s0 (Main Manif) = st_fs s (Main Manif)) by (apply C; intros [Q|[Q|[]]]; discriminate Q).
    (* the pivot *)
    mstep H; apply put_pivot_spec in E; destruct (st_fs s0 (Main Pivot)) as [v|] eqn:F1.
    { destruct E; discriminate. }
    2:{ destruct E as [E ->]. subst r. split; [exact A'|discriminate]. }
    2:{ destruct E as (D & _ & _). subst r. split; [|discriminate]. eapply fx_trans; [exact A'|].
        eapply fx_weaken; [|exact D].
        intros x (_ & V2 & i & m & V3). unfold bC. repeat match goal with |- _ /\ _ => split end.
        - eapply others_trans; [eapply others_weaken; [|exact C]|eapply others_weaken; [|exact V2]];
            intros q Hq; cbn in *; intuition.
        - right. split; auto. exists 292. rewrite V2; [exact B|]. intros [Q|[]]; discriminate Q.
        - right. split; [congruence|]. split; [|eauto]. rewrite V2; [exact B|]. intros [Q|[]]; discriminate Q.
        - left. rewrite V2; [exact M0|]. intros [Q|[]]; discriminate Q.
        - congruence. }
    destruct a. destruct E as (D & D1 & D2). specialize (D1 eq_refl).
    assert (D' : fx (bC e pv setup (st_fs s)) s s1).
    { eapply fx_trans; [exact A'|]. eapply fx_weaken; [|exact D].
      intros x (_ & V2 & i & m & V3). unfold bC. repeat match goal with |- _ /\ _ => split end.
        - eapply others_trans; [eapply others_weaken; [|exact C]|eapply others_weaken; [|exact V2]];
            intros q Hq; cbn in *; intuition.
        - right. split; auto. exists 292. rewrite V2; [exact B|]. intros [Q|[]]; discriminate Q.
        - right. split; [congruence|]. split; [|eauto]. rewrite V2; [exact B|]. intros [Q|[]]; discriminate Q.
        - left. rewrite V2; [exact M0|]. intros [Q|[]]; discriminate Q.
        - congruence. }
    assert (E1 : st_fs s1 (Main Eph) = Some (encode setup, 292)).
    { rewrite D2; [exact B|]. intros [Q|[]]; discriminate Q. }
    assert (M1 : st_fs s1 (Main Manif) = st_fs s (Main Manif)).
    { rewrite D2; [exact M0|]. intros [Q|[]]; discriminate Q. }
    (* the manifest *)
    assert (G : forall r2 s2, put_manifest_envelope Y e s1 = (r2, s2) ->
       fx (bC e pv setup (st_fs s)) s1 s2 /\ (r2 = Ok tt -> files_published e pv setup (st_fs s) (st_fs s2))).
    { intros r2 s2 Em. unfold put_manifest_envelope in Em.
      destruct (envelope_to_storage_vec e) as [b|] eqn:Sb.
      2:{ apply err_inv in Em as [-> ->]. split; [apply fx_refl|discriminate]. }
      apply war_spec in Em. destruct (st_fs s1 (Main Manif)) as [v|] eqn:F2.
      { destruct Em as [-> ->]. split; [apply fx_refl|discriminate]. }
      destruct Em as (X1 & X2 & X3 & _). split.
      - eapply fx_weaken; [|exact X1].
        intros x (_ & V2 & V3). unfold bC.
        assert (Ve : en_fs x (Main Eph) = Some (encode setup, 292)).
        { rewrite V2; [exact E1|]. intros [Q|[Q|[]]]; discriminate Q. }
        assert (Vp : en_fs x (Main Pivot) = Some (pv, 73)).
        { rewrite V2; [exact D1|]. intros [Q|[Q|[]]]; discriminate Q. }
        repeat match goal with |- _ /\ _ => split end.
        + eapply others_trans; [eapply others_weaken; [|exact C]|
            eapply others_trans; [eapply others_weaken; [|exact D2]|eapply others_weaken; [|exact V2]]];
            intros q Hq; cbn in *; intuition.
        + right. eauto.
        + right. split; [congruence|]. split; [exact Ve|]. exists (length pv), 73. now rewrite firstn_all.
        + destruct V3 as [V3|(m & V3)]; [left; congruence|]. right.
          repeat match goal with |- _ /\ _ => split end; eauto; congruence.
        + congruence.
      - intros Er. specialize (X2 Er). unfold files_published. repeat match goal with |- _ /\ _ => split end; eauto; try congruence.
        + rewrite X3; [exact E1|]. intros [Q|[Q|[]]]; discriminate Q.
        + rewrite X3; [exact D1|]. intros [Q|[Q|[]]]; discriminate Q.
        + rewrite X3, D2, C; auto; intros Q; cbn in Q; intuition discriminate. }
    mstep H; destruct (G _ _ E) as [G1 G2].
    - destruct a. specialize (G2 eq_refl). apply q_post in H.
      assert (Fe : st_fs s' = st_fs s2) by now apply quiet_fs.
      split; [|intros _ _; now rewrite Fe].
      eapply fx_trans; [exact D'|]. eapply fx_trans; [exact G1|].
      eapply fx_weaken; [|exact H]. intros x Hx. unfold bC. rewrite Hx.
      destruct G2 as (X1 & X2 & X3 & X4 & X5 & (b & X6 & X7) & X8).
      repeat match goal with |- _ /\ _ => split end.
      + apply (gx_fs (fun g => others [Main Eph; Tmp Eph; Main Pivot; Main Manif; Tmp Manif] (st_fs s) g) _ _ _ (fx_gx _ _ _ G1)).
        * apply (gx_fs (fun g => others [Main Eph; Tmp Eph; Main Pivot; Main Manif; Tmp Manif] (st_fs s) g) _ _ _ (fx_gx _ _ _ D')).
          -- apply others_refl.
          -- intros y (Z & _); exact Z.
        * intros y (Z & _); exact Z.
      + right. eauto.
      + right. split; [auto|]. split; [exact X4|]. exists (length pv), 73. now rewrite firstn_all.
      + right. repeat match goal with |- _ /\ _ => split end; eauto.
      + congruence.
    - subst r. split; [|discriminate]. eapply fx_trans; [exact D'|exact G1].
  Qed.

  (** One boot call, all outcomes. *)
  Lemma boot_spec e pv (s : st) r s' : put_manifest_and_pivot Y e pv s = (r, s') ->
    st_phase s' = st_phase s /\ st_shares s' = st_shares s /\
    ((exists new, grows s s' new) /\ (exists x, r = Err x)
     \/ exists setup setup_k live live_k s1 new,
        check_approvals Y e = Ok tt /\ env_share_approvals e = []
        /\ s_sha256 Y pv = vm_pivot_hash (env_manifest e)
        /\ s_pair Y setup = Some setup_k /\ s_pair Y live = Some live_k
        /\ setup = s_rng Y (st_rngc s) /\ live = s_rng Y (S (st_rngc s))
        /\ grows s s1 new
        /\ bank_locked new (manifest_hash Y (env_manifest e)) (public_to_bytes setup_k) (public_to_bytes live_k)
        /\ st_pending s' = Some live
        /\ gx (bC e pv setup (st_fs s)) s1 s'
        /\ (forall a, r = Ok a -> files_published e pv setup (st_fs s) (st_fs s'))).
  Proof.
    intros H. unfold put_manifest_and_pivot in H.
    mstep H; apply lift_inv in E as [E0 ->].
    2:{ subst r. split; [auto|]. split; [auto|]. left. split; [exists []; apply grows_silent, silent_refl|eauto]. }
    destruct a.
    mstep H; apply guard_inv in E as [-> [[G1 Ea]|[G1 Ea]]]; try discriminate Ea.
    2:{ subst r. split; [auto|]. split; [auto|]. left. split; [exists []; apply grows_silent, silent_refl|eauto]. }
    clear Ea a.
    mstep H; apply guard_inv in E as [-> [[G2 Ea]|[G2 Ea]]]; try discriminate Ea.
    2:{ subst r. split; [auto|]. split; [auto|]. left. split; [exists []; apply grows_silent, silent_refl|eauto]. }
    clear Ea a.
    assert (K : forall s1 new, grows s s1 new -> st_phase s1 = st_phase s /\ st_shares s1 = st_shares s).
    { intros s1 new (_ & _ & _ & X & X' & _). auto. }
    mstep H.
    2:{ apply si_generate, grows_silent in E. destruct (K _ _ E). subst r. split; [auto|]. split; [auto|]. left. eauto. }
    destruct a as [setup setup_k]. apply generate_ok in E as (S1 & P1 & R1 & C1). cbn [fst snd] in *.
    mstep H.
    2:{ apply si_generate in E. pose proof (grows_silent _ _ (silent_trans _ _ _ S1 E)) as G.
        destruct (K _ _ G). subst r. split; [auto|]. split; [auto|]. left. eauto. }
    destruct a as [live live_k]. apply generate_ok in E as (S2 & P2 & R2 & C2). cbn [fst snd] in *.
    pose proof (grows_silent _ _ (silent_trans _ _ _ S1 S2)) as GS.
    mstep H.
    2:{ apply g_lock in E as [n E]. pose proof (grows_trans _ _ _ _ _ GS E) as G. destruct (K _ _ G).
        subst r. split; [auto|]. split; [auto|]. left. eauto. }
    destruct a. apply lock_ok in E as (new & G & B).
    pose proof (grows_trans _ _ _ _ _ GS G) as G'. rewrite app_nil_r in G'. clear GS G.
    mstep H; apply modify_inv in E as [Ea ->]; [|discriminate Ea]. clear Ea a.
    apply publish_spec in H as [F Hf].
    destruct (K _ _ G') as [K1 K2].
    assert (Fs : st_fs (set_pending (Some live) s2) = st_fs s) by (cbn; apply G').
    rewrite Fs in F, Hf.
    split; [rewrite (fx_phase _ _ _ F); exact K1|].
    split; [rewrite (fx_shares _ _ _ F); exact K2|].
    right. exists setup, setup_k, live, live_k, s2, new.
    repeat match goal with |- _ /\ _ => split end; auto.
    - destruct (env_share_approvals e); [reflexivity|discriminate G1].
    - now apply bytes_eqb_eq in G2.
    - rewrite R2, C1. reflexivity.
    - exact (fx_pending _ _ _ F).
    - exact (fx_gx _ _ _ F).
  Qed.

  (** The final step shared by provision and inject: before and after the key file becomes visible. *)
  Definition iC0 (live : bytes) (f0 : fsys) (x : entry) : Prop :=
    let f := en_fs x in
    others [Main Eph; Tmp Eph; Tmp Quorum] f0 f
    /\ (f (Main Eph) = f0 (Main Eph) \/ f (Main Eph) = None \/ exists m, f (Main Eph) = Some (encode live, m)).
  Definition iC1 (live seed : bytes) (f0 : fsys) (x : entry) : Prop :=
    let f := en_fs x in
    others [Main Eph; Tmp Eph; Main Quorum; Tmp Quorum] f0 f
    /\ f0 (Main Quorum) = None /\ (exists m, f (Main Quorum) = Some (encode seed, m))
    /\ f (Main Eph) = Some (encode live, 292).

  Definition install (seed : bytes) : M Y unit :=
    do live <- take_pending Y; rotate_ephemeral_key Y live ;; put_quorum_key Y seed.

  Lemma install_spec seed (s : st) r s' : install seed s = (r, s') ->
    st_phase s' = st_phase s /\ st_shares s' = st_shares s /\
    match st_pending s with
    | None => s' = s /\ r = Err MissingLiveEphemeralKey
    | Some live =>
      st_pending s' = None
      /\ (exists s1, gx (iC0 live (st_fs s)) s s1 /\ gx (iC1 live seed (st_fs s)) s1 s')
      /\ (r = Ok tt -> st_fs s (Main Quorum) = None
                       /\ st_fs s' (Main Quorum) = Some (encode seed, 292)
                       /\ st_fs s' (Main Eph) = Some (encode live, 292)
                       /\ others [Main Eph; Tmp Eph; Main Quorum; Tmp Quorum] (st_fs s) (st_fs s'))
    end.
  Proof.
    intros H. unfold install, take_pending in H. unfold bind at 1 in H.
    destruct (st_pending s) as [live|] eqn:P.
    2:{ inversion H; subst. auto. }
    set (s0 := set_pending None s) in *.
    mstep H; apply rotate_spec in E as (A & B & C); change (st_fs s0) with (st_fs s) in *.
    2:{ subst r. split; [apply (fx_phase _ _ _ A)|]. split; [apply (fx_shares _ _ _ A)|].
        split; [apply (fx_pending _ _ _ A)|]. split; [|discriminate].
        exists s'. split; [|apply gx_refl].
        apply fx_gx in A. eapply gx_weaken; [|exact A]. intros x (_ & V2 & V3). split; [|tauto].
        eapply others_weaken; [|exact V2]. intros q [<-|[<-|[]]]; cbn; auto. }
    destruct a. specialize (B eq_refl).
    assert (A' : gx (iC0 live (st_fs s)) s s1).
    { eapply gx_weaken; [|exact (fx_gx _ _ _ A)]. intros x (_ & V2 & V3). split; [|tauto].
      eapply others_weaken; [|exact V2]. intros q [<-|[<-|[]]]; cbn; auto. }
    assert (Q1 : st_fs s1 (Main Quorum) = st_fs s (Main Quorum)) by (apply C; intros [Q|[Q|[]]]; discriminate Q).
    pose proof H as Hs. apply war_spec in H. apply war_split in Hs.
    destruct (st_fs s1 (Main Quorum)) as [v|] eqn:F1.
    { destruct H as [-> ->]. split; [apply (fx_phase _ _ _ A)|]. split; [apply (fx_shares _ _ _ A)|].
      split; [apply (fx_pending _ _ _ A)|]. split; [|discriminate]. exists s1. split; [exact A'|apply gx_refl]. }
    destruct H as (D & D1 & D2 & _). destruct Hs as (_ & s2 & W1 & W2).
    split; [rewrite (fx_phase _ _ _ D); apply (fx_phase _ _ _ A)|].
    split; [rewrite (fx_shares _ _ _ D); apply (fx_shares _ _ _ A)|].
    split; [rewrite (fx_pending _ _ _ D); apply (fx_pending _ _ _ A)|].
    split.
    - exists s2. split.
      + eapply gx_trans; [exact A'|]. eapply gx_weaken; [|exact (fx_gx _ _ _ W1)].
        intros x (_ & V2 & V3). split.
        * intros q Hq. destruct (path_eqb_spec q (Main Quorum)) as [->|N]; [congruence|].
          rewrite V2, C; auto; cbn in *; intuition.
        * right; right. exists 292. rewrite V2; [exact B|]. intros [Q|[Q|[]]]; discriminate Q.
      + eapply gx_weaken; [|exact (fx_gx _ _ _ W2)].
        intros x (_ & V2 & V3). split; [|split; [congruence|split; [auto|]]].
        * eapply others_trans; [eapply others_weaken; [|exact C]|eapply others_weaken; [|exact V2]];
            intros q [<-|[<-|[]]]; cbn; auto.
        * rewrite V2; [exact B|]. intros [Q|[Q|[]]]; discriminate Q.
    - intros Hr. specialize (D1 Hr). split; [auto|]. split; [auto|]. split.
      + rewrite D2; [exact B|]. intros [Q|[Q|[]]]; discriminate Q.
      + eapply others_trans; [eapply others_weaken; [|exact C]|eapply others_weaken; [|exact D2]];
          intros q [<-|[<-|[]]]; cbn; auto.
  Qed.

  (** One accepted share: facts about the request and the recorded approval. *)
  Definition share_ok (sh : bytes) (a : approval) (f : fsys) (e : versioned_envelope) (plain : bytes) : Prop :=
    (exists c m, f (Main Manif) = Some (c, m) /\ envelope_try_from_slice_compat c = Some e)
    /\ approval_verify Y a (manifest_hash Y (env_manifest e)) = Ok tt
    /\ In (ap_member a) (members (vm_share_set (env_manifest e)))
    /\ (exists c m eph k, f (Main Eph) = Some (c, m) /\ seed_of_hex c = Some eph /\ s_pair Y eph = Some k
          /\ s_decrypt Y eph sh = Ok plain)
    /\ plain <> [].

  (** Snapshots while the manifest file is rewritten with the approval appended. *)
  Definition vC (a : approval) (f0 : fsys) (x : entry) : Prop :=
    others [Main Manif] f0 (en_fs x) /\
    match f0 (Main Manif) with
    | Some (c, _) => exists m, en_fs x (Main Manif) = Some (c, m)
        \/ exists e b i, envelope_try_from_slice_compat c = Some e
                        /\ envelope_to_storage_vec (push_share_approval a e) = Some b
                        /\ en_fs x (Main Manif) = Some (firstn i b, m)
    | None => en_fs x (Main Manif) = None
    end.

  Lemma provision_spec sh a (s : st) r s' : provision Y sh a s = (r, s') ->
    st_phase s' = st_phase s /\
    ((* refused or failed before the final step *)
     ((exists x, r = Err x) /\ gx (vC a (st_fs s)) s s')
     \/ exists e plain b,
        share_ok sh a (st_fs s) e plain
        /\ envelope_to_storage_vec (push_share_approval a e) = Some b
        /\ (((* accepted, more shares needed *)
             r = Ok false /\ lenN (st_shares s) + 1 < threshold (vm_share_set (env_manifest e))
             /\ gx (vC a (st_fs s)) s s' /\ st_fs s' (Main Manif) = Some (b, 292)
             /\ others [Main Manif] (st_fs s) (st_fs s')
             /\ st_shares s' = st_shares s ++ [plain] /\ st_pending s' = st_pending s)
            \/ (* final step *)
            exists seed k s1,
              threshold (vm_share_set (env_manifest e)) <= lenN (st_shares s) + 1
              /\ s_combine Y (st_shares s ++ [plain]) = Some seed /\ length seed = 32%nat
              /\ s_pair Y seed = Some k /\ public_to_bytes k = ns_quorum_key (vm_namespace (env_manifest e))
              /\ gx (vC a (st_fs s)) s s1 /\ st_fs s1 (Main Manif) = Some (b, 292)
              /\ others [Main Manif] (st_fs s) (st_fs s1)
              /\ st_shares s1 = [] /\ st_pending s1 = st_pending s
              /\ exists r1, install seed s1 = (r1, s')
                   /\ ((r1 = Ok tt /\ r = Ok true) \/ exists x, r1 = Err x /\ r = Err x))).
  Proof.
    intros H. unfold provision in H.
    assert (SQ : forall t, silent s t -> st_phase t = st_phase s /\ gx (vC a (st_fs s)) s t).
    { intros t Ht. split; [apply (fx_phase _ _ _ Ht)|]. apply fx_gx, silent_fx, Ht. }
    mstep H.
    2:{ apply si_get_manifest in E. subst r. destruct (SQ _ E). split; [auto|]. left. eauto. }
    pose proof (get_manifest_ok _ _ _ E) as (c & m & F0 & D0). apply si_get_manifest in E as S0. clear E.
    rename a0 into e. set (mf := env_manifest e) in *.
    mstep H; apply lift_inv in E as [E ->].
    2:{ subst r. destruct (SQ _ S0). split; [auto|]. left. eauto. }
    destruct a0. rename E into V1. symmetry in V1.
    mstep H; apply guard_inv in E as [-> [[V2 Ea]|[V2 Ea]]]; try discriminate Ea.
    2:{ subst r. destruct (SQ _ S0). split; [auto|]. left. eauto. }
    clear Ea a0. apply (memb_In member_eqb member_eqb_eq) in V2.
    (* rewriting the manifest *)
    assert (Fs0 : st_fs s0 = st_fs s) by now apply silent_fs.
    assert (MS : forall r1 t, mutate_manifest_envelope Y (push_share_approval a) s0 = (r1, t) ->
              fx (vC a (st_fs s)) s t /\
              (r1 = Ok tt -> exists b, envelope_to_storage_vec (push_share_approval a e) = Some b /\
                 st_fs t (Main Manif) = Some (b, 292) /\ others [Main Manif] (st_fs s) (st_fs t))).
    { intros r1 t Hm. apply mutate_spec in Hm as [[N Q]|(c1 & m1 & e1 & X1 & X2 & X3)].
      - split; [|congruence]. apply silent_fx. eapply silent_trans; eauto.
      - rewrite Fs0 in *. rewrite F0 in X1. inversion X1; subst c1 m1; clear X1.
        rewrite D0 in X2. inversion X2; subst e1; clear X2.
        destruct (envelope_to_storage_vec (push_share_approval a e)) as [b|] eqn:Sb.
        + destruct X3 as [X3 X4].
          assert (Y1 : fx (vC a (st_fs s)) s t).
          { eapply fx_trans; [apply silent_fx, S0|]. eapply fx_weaken; [|exact X3].
            intros x (_ & Z2 & mm & Z3). split; [exact Z2|]. rewrite F0. exists mm.
            destruct Z3 as [Z3|(i & Z3)]; [now left|]. right. exists e, b, i. auto. }
          split; [exact Y1|]. intros Hr. exists b. split; [reflexivity|]. split; [auto|].
          apply (gx_fs (fun g => others [Main Manif] (st_fs s) g) _ _ _ (fx_gx _ _ _ Y1)).
          * apply others_refl.
          * intros x (Z & _); exact Z.
        + destruct X3 as [X3 X4]. split; [|congruence].
          eapply fx_trans; [apply silent_fx, S0|]. eapply fx_weaken; [|exact X4].
          intros x (Z2 & mm & Z3). split; [exact Z2|]. rewrite F0. exists mm. now left. }
    mstep H; destruct (MS _ _ E) as [W Wok]; clear E.
    2:{ subst r. split; [apply (fx_phase _ _ _ W)|]. left. split; [eauto|apply fx_gx, W]. }
    destruct a0. destruct (Wok eq_refl) as (b & Sb & Fb & Ob). clear Wok MS.
    assert (SW : forall t, silent s1 t -> st_phase t = st_phase s /\ gx (vC a (st_fs s)) s t).
    { intros t Ht. split; [rewrite (fx_phase _ _ _ Ht); apply (fx_phase _ _ _ W)|].
      eapply gx_trans; [apply fx_gx, W|]. apply fx_gx, silent_fx, Ht. }
    (* decrypting the share *)
    mstep H.
    2:{ apply si_get_eph in E. subst r. destruct (SW _ E). split; [auto|]. left. eauto. }
    destruct a0 as [eph ek]. pose proof (get_eph_ok _ _ _ _ E) as (ce & me & Fe & De & Pe).
    apply si_get_eph in E as S2. clear E.
    rewrite Ob in Fe by (intros [Q|[]]; discriminate Q).
    mstep H; apply lift_inv in E as [E ->].
    2:{ subst r. destruct (SW _ S2). split; [auto|]. left. eauto. }
    rename a0 into plain.
    assert (Dp : s_decrypt Y eph sh = Ok plain) by (destruct (s_decrypt Y eph sh); cbn in E; congruence).
    clear E.
    mstep H; unfold add_share in E.
    2:{ destruct plain; [|apply modify_inv in E as [Ex _]; discriminate Ex].
        apply err_inv in E as [Ex ->]. subst r. destruct (SW _ S2). split; [auto|]. left. eauto. }
    destruct plain as [|p0 pr] eqn:Ep; [discriminate E|]. rewrite <- Ep in *.
    assert (Np : plain <> []) by (subst; discriminate). clear Ep p0 pr.
    apply modify_inv in E as [_ ->].
    set (t1 := set_shares (st_shares s2 ++ [plain]) s2) in *.
    assert (Sh1 : st_shares t1 = st_shares s ++ [plain]).
    { cbn. rewrite (fx_shares _ _ _ S2), (fx_shares _ _ _ W). reflexivity. }
    assert (Ph1 : st_phase t1 = st_phase s).
    { cbn. rewrite (fx_phase _ _ _ S2). apply (fx_phase _ _ _ W). }
    assert (Pe1 : st_pending t1 = st_pending s).
    { cbn. rewrite (fx_pending _ _ _ S2). apply (fx_pending _ _ _ W). }
    assert (Fs1 : st_fs t1 = st_fs s1) by (cbn; now apply silent_fs).
    assert (G1 : gx (vC a (st_fs s)) s t1) by exact (proj2 (SW _ S2)).
    clear a0. mstep H; apply gets_inv in E as [Ea ->]; [|discriminate Ea]. assert (a0 = lenN (st_shares t1)) as -> by congruence. clear Ea.
    rewrite Sh1, lenN_app in H. change (lenN [plain]) with 1 in H.
    assert (SO : share_ok sh a (st_fs s) e plain).
    { unfold share_ok. repeat match goal with |- _ /\ _ => split end; eauto 10. }
    destruct (lenN (st_shares s) + 1 <? threshold (vm_share_set mf)) eqn:Th.
    { apply ret_inv in H as [-> ->]. split; [auto|]. right. exists e, plain, b. split; [exact SO|].
      split; [auto|]. left. split; [reflexivity|]. split; [unfold mf in Th; lia|].
      repeat match goal with |- _ /\ _ => split end; auto; now rewrite Fs1. }
    (* the final step *)
    assert (BS : silently (build_secret Y)).
    { unfold build_secret. silent_tac. }
    mstep H.
    2:{ apply BS in E. subst r. split; [rewrite (fx_phase _ _ _ E); exact Ph1|]. left. split; [eauto|].
        eapply gx_trans; [exact G1|]. apply fx_gx, silent_fx, E. }
    rename a0 into seed.
    assert (CB : s_combine Y (st_shares s ++ [plain]) = Some seed).
    { unfold build_secret in E. apply bind_ok in E as (l & tt1 & E1 & E).
      apply gets_inv in E1 as [E1 ->]. assert (l = st_shares t1) as -> by congruence. rewrite Sh1 in E.
      destruct (s_combine Y (st_shares s ++ [plain])) as [[|x0 xr]|]; try discriminate E.
      apply ret_inv in E as [E _]. inversion E; reflexivity. }
    apply BS in E as S3. clear E BS.
    mstep H; apply modify_inv in E as [Ea ->]; [|discriminate Ea]. clear Ea a0.
    set (t2 := set_shares [] s3) in *.
    assert (Ph2 : st_phase t2 = st_phase s) by (cbn; rewrite (fx_phase _ _ _ S3); exact Ph1).
    assert (Pe2 : st_pending t2 = st_pending s) by (cbn; rewrite (fx_pending _ _ _ S3); exact Pe1).
    assert (Fs2 : st_fs t2 = st_fs s1) by (cbn; rewrite (silent_fs _ _ S3); exact Fs1).
    assert (G2 : gx (vC a (st_fs s)) s t2).
    { eapply gx_trans; [exact G1|]. exact (fx_gx _ _ _ (silent_fx _ _ _ S3)). }
    mstep H; apply guard_inv in E as [-> [[L Ea]|[L Ea]]]; try discriminate Ea.
    2:{ subst r. split; [exact Ph2|]. left. split; [eauto|exact G2]. }
    clear Ea a0.
    mstep H; apply lift_inv in E as [E ->].
    2:{ subst r. split; [exact Ph2|]. left. split; [eauto|exact G2]. }
    rename a0 into k.
    assert (Pk : s_pair Y seed = Some k).
    { unfold from_master_seed in E. destruct (s_pair Y seed); cbn in E; congruence. }
    clear E.
    mstep H; apply guard_inv in E as [-> [[Q Ea]|[Q Ea]]]; try discriminate Ea.
    2:{ subst r. split; [exact Ph2|]. left. split; [eauto|exact G2]. }
    clear Ea a0. apply bytes_eqb_eq in Q.
    assert (HI : exists r1, install seed t2 = (r1, s') /\
                 ((r1 = Ok tt /\ r = Ok true) \/ exists x, r1 = Err x /\ r = Err x)).
    { unfold install. mstep H.
      - mstep H.
        + mstep H.
          * match goal with z : unit |- _ => destruct z end; match goal with z : unit |- _ => destruct z end. apply ret_inv in H as [-> ->]. exists (Ok tt). split; [|auto].
            unfold bind. rewrite E, E0. exact E1.
          * subst r. exists (Err e0). split; [|eauto]. unfold bind. rewrite E, E0. exact E1.
        + subst r. exists (Err e0). split; [|eauto]. unfold bind. rewrite E, E0. reflexivity.
      - subst r. exists (Err e0). split; [|eauto]. unfold bind. rewrite E. reflexivity. }
    destruct HI as (r1 & HI & Hr).
    split; [rewrite (proj1 (install_spec _ _ _ _ HI)); exact Ph2|].
    right. exists e, plain, b. split; [exact SO|]. split; [auto|]. right.
    exists seed, k, t2. repeat match goal with |- _ /\ _ => split end; auto; try (now rewrite Fs2).
    - unfold mf in Th. clear - Th. lia.
    - rewrite lenN_length in L. clear - L. lia.
    - exists r1. auto.
  Qed.

  Lemma public_bytes_inv b k : public_from_bytes Y b = Ok k ->
    public_to_bytes k = b /\ length b = 130%nat /\ s_point_ok Y (fst k) = true /\ s_point_ok Y (snd k) = true.
  Proof.
    unfold public_from_bytes, public_to_bytes. rewrite lenN_length.
    destruct (130 <? N.of_nat (length b)) eqn:L1; [discriminate|].
    destruct (N.of_nat (length b) <? 130) eqn:L2; [discriminate|].
    destruct (s_point_ok Y (firstn 65 b)) eqn:P1; [|discriminate].
    destruct (s_point_ok Y (skipn 65 b)) eqn:P2; [|discriminate].
    intros H. assert (k = (firstn 65 b, skipn 65 b)) as -> by congruence. clear H. cbn [fst snd]. split; [apply firstn_skipn|].
    split; [clear - L1 L2; lia|auto].
  Qed.

  Lemma inject_spec c g (s : st) r s' : inject_key Y c g s = (r, s') ->
    st_phase s' = st_phase s /\
    ((exists x, r = Err x) /\ silent s s'
     \/ exists e q eph ke seed s1,
        (exists c0 m, st_fs s (Main Manif) = Some (c0, m) /\ envelope_try_from_slice_compat c0 = Some e)
        /\ public_from_bytes Y (ns_quorum_key (vm_namespace (env_manifest e))) = Ok q
        /\ s_verify Y (snd q) c g = true
        /\ (exists c0 m, st_fs s (Main Eph) = Some (c0, m) /\ seed_of_hex c0 = Some eph) /\ s_pair Y eph = Some ke
        /\ s_decrypt Y eph c = Ok seed /\ length seed = 32%nat /\ s_pair Y seed = Some q
        /\ silent s s1 /\ install seed s1 = (r, s')).
  Proof.
    intros H. unfold inject_key in H.
    assert (SQ : forall t, silent s t -> st_phase t = st_phase s) by (intros t Ht; apply (fx_phase _ _ _ Ht)).
    mstep H.
    2:{ apply si_get_manifest in E. subst r. split; [auto|]. left; eauto. }
    pose proof (get_manifest_ok _ _ _ E) as (c0 & m & F0 & D0). apply si_get_manifest in E as S0. clear E.
    rename a into e.
    mstep H; apply lift_inv in E as [E ->].
    2:{ subst r. split; [auto|]. left; eauto. }
    rename a into q.
    assert (Q : public_from_bytes Y (ns_quorum_key (vm_namespace (env_manifest e))) = Ok q)
      by (destruct (public_from_bytes Y (ns_quorum_key (vm_namespace (env_manifest e)))); cbn in E; congruence).
    clear E.
    mstep H; apply guard_inv in E as [-> [[V Ea]|[V Ea]]]; try discriminate Ea.
    2:{ subst r. split; [auto|]. left; eauto. }
    clear Ea a.
    mstep H.
    2:{ apply si_get_eph in E. pose proof (silent_trans _ _ _ S0 E). subst r. split; [auto|]. left; eauto. }
    destruct a as [eph ke]. pose proof (get_eph_ok _ _ _ _ E) as (ce & me & Fe & De & Pe).
    apply si_get_eph in E. pose proof (silent_trans _ _ _ S0 E) as S1. rewrite (silent_fs _ _ S0) in Fe. clear E S0.
    mstep H; apply lift_inv in E as [E ->].
    2:{ subst r. split; [auto|]. left; eauto. }
    rename a into seed.
    assert (Dk : s_decrypt Y eph c = Ok seed) by (destruct (s_decrypt Y eph c); cbn in E; congruence).
    clear E.
    mstep H; apply guard_inv in E as [-> [[L Ea]|[L Ea]]]; try discriminate Ea.
    2:{ subst r. split; [auto|]. left; eauto. }
    clear Ea a.
    mstep H; apply lift_inv in E as [E ->].
    2:{ subst r. split; [auto|]. left; eauto. }
    rename a into k.
    assert (Pk : s_pair Y seed = Some k).
    { unfold from_master_seed in E. destruct (s_pair Y seed); cbn in E; congruence. }
    clear E.
    mstep H; apply guard_inv in E as [-> [[G Ea]|[G Ea]]]; try discriminate Ea.
    2:{ subst r. split; [auto|]. left; eauto. }
    clear Ea a.
    assert (k = q) as ->.
    { unfold pub_eqb in G. apply andb_true_iff in G as [G1 G2]. apply bytes_eqb_eq in G1, G2.
      destruct k, q; cbn in *; congruence. }
    match type of H with _ ?t = _ => rename t into s2 end || idtac.
    pose proof (install_spec seed _ _ _ H) as I.
    split; [rewrite (proj1 I); auto|]. right.
    exists e, q, eph, ke, seed. eexists.
    repeat match goal with |- _ /\ _ => split end; eauto.
    rewrite lenN_length in L. clear - L. lia.
  Qed.
End BP.
