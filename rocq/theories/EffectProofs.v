(** What one request may do to each file, from any state at all. *)
From Coq Require Import ZifyBool ZifyN ZifyNat.
From Verif Require Import Base Utf8 Hex HexProofs Types Json TypesJson StorageProofs Msg World Run FsProofs Attest Services
  ServiceProofs BootProofs State SpecProtocol HandleProofs Reach Invariant ProtocolProofs.
Local Open Scope N_scope.

Ltac notin := let X := fresh in intros X; cbn in X; intuition discriminate.

Section EP.
  Context {Y : sys}.
  Local Notation st := (st Y).
  Local Notation entry := (entry Y).


  Definition may (r : msg) (p : phase) (f0 f : fsys) : Prop :=
    (f (Main Pivot) = f0 (Main Pivot)
     \/ f0 (Main Pivot) = None /\ exists e pv i m, boot_of r = Some (e, pv) /\ f (Main Pivot) = Some (firstn i pv, m))
    /\ (f (Main Quorum) = f0 (Main Quorum) \/ f0 (Main Quorum) = None /\ key_request p r)
    /\ (content f Manif = content f0 Manif
        \/ content f0 Manif = None /\ (exists e pv b, boot_of r = Some (e, pv) /\ envelope_to_storage_vec e = Some b /\ content f Manif = Some b)
        \/ exists sh a e b i, r = ProvisionRequest sh a /\ p = WaitingForQuorumShards /\ stored f0 e
             /\ envelope_to_storage_vec (push_share_approval a e) = Some b /\ content f Manif = Some (firstn i b)).

  Lemma may_refl r p f : may r p f f.
  Proof. unfold may. auto. Qed.

  Lemma gx_may r p (s s' : st) : gx (fun x => may r p (st_fs s) (en_fs x)) s s' -> may r p (st_fs s) (st_fs s').
  Proof. intros G. apply (gx_fs (fun f => may r p (st_fs s) f) _ _ _ G); [apply may_refl|auto]. Qed.

  Lemma handle_may r (s : st) : gx (fun x => may r (st_phase s) (st_fs s) (en_fs x)) s (snd (handle Y r s)).
  Proof.
    destruct (handle_cases r s) as [[_ H]|[(_ & _ & Q)|[(set & dr & -> & P)|[(e & pv & B & P)|[(sh & a & -> & P)|(c & g & -> & P)]]]]].
    - rewrite H. apply gx_refl.
    - eapply gx_weaken; [|exact (fx_gx _ _ _ Q)]. intros x ->. apply may_refl.
    - rewrite (handle_genesis set dr s P). destruct (boot_genesis Y set dr s) as [r1 s1] eqn:E.
      apply q_genesis in E.
      assert (G : gx (fun x => may (BootGenesisRequest set dr) (st_phase s) (st_fs s) (en_fs x)) s s1).
      { eapply gx_weaken; [|exact (fx_gx _ _ _ E)]. intros x ->. apply may_refl. }
      destruct r1; exact G.
    - rewrite (handle_boot r e pv s P B). destruct (put_manifest_and_pivot Y e pv s) as [r1 s1] eqn:E.
      assert (G : gx (fun x => may r (st_phase s) (st_fs s) (en_fs x)) s s1).
      { apply boot_spec in E as (_ & _ & [[[new G] _]|X]).
        - eapply gx_weaken; [|exact (fx_gx _ _ _ (grows_quiet _ _ _ G))]. intros x ->. apply may_refl.
        - destruct X as (setup & sk & live & lk & s2 & new & A1 & A2 & A3 & A4 & A5 & A6 & A7 & G & Bk & Pd & Gb & Hf).
          eapply gx_trans.
          + eapply gx_weaken; [|exact (fx_gx _ _ _ (grows_quiet _ _ _ G))]. intros x ->. apply may_refl.
          + eapply gx_weaken; [|exact Gb]. intros x (V1 & V2 & V3 & V4 & V5). unfold may. split; [|split].
            * destruct V3 as [V3|(N0 & _ & i & m & V3)]; [now left|]. right. split; [exact N0|]. exists e, pv, i, m. auto.
            * left. apply V1. notin.
            * destruct V4 as [V4|(N0 & _ & _ & _ & b & m & Sb & V4)]; [left; now apply content_eq|].
              right. left. split; [unfold content; now rewrite N0|]. exists e, pv, b.
              repeat split; auto. now apply content_some with (m := m). }
      destruct r1; exact G.
    - rewrite (handle_provision sh a s P). destruct (provision Y sh a s) as [r1 s1] eqn:E.
      assert (VM : forall f, others [Main Manif] (st_fs s) f ->
                  match st_fs s (Main Manif) with
                  | Some (c, _) => exists m, f (Main Manif) = Some (c, m)
                      \/ exists e b i, envelope_try_from_slice_compat c = Some e
                         /\ envelope_to_storage_vec (push_share_approval a e) = Some b
                         /\ f (Main Manif) = Some (firstn i b, m)
                  | None => f (Main Manif) = None
                  end -> may (ProvisionRequest sh a) (st_phase s) (st_fs s) f).
      { intros f O V. unfold may. split; [left; apply O; notin|]. split; [left; apply O; notin|].
        destruct (st_fs s (Main Manif)) as [[c m0]|] eqn:F0.
        - destruct V as [m [V|(e & b & i & D & Sb & V)]].
          + left. unfold content. rewrite V, F0. reflexivity.
          + right. right. exists sh, a, e, b, i. repeat split; auto.
            * exists c. split; [now apply content_some with (m := m0)|exact D].
            * now apply content_some with (m := m).
        - left. apply content_eq. congruence. }
      assert (VC : forall t, gx (vC a (st_fs s)) s t -> gx (fun x => may (ProvisionRequest sh a) (st_phase s) (st_fs s) (en_fs x)) s t).
      { intros t. apply gx_weaken. intros x (V1 & V2). now apply VM. }
      assert (G : gx (fun x => may (ProvisionRequest sh a) (st_phase s) (st_fs s) (en_fs x)) s s1).
      { apply provision_spec in E as (_ & [([x Hx] & G)|X]); [auto|].
        destruct X as (e & plain & b & SO & Sb & [X|X]).
        - destruct X as (-> & _ & G & _). auto.
        - destruct X as (seed & k & s2 & _ & _ & Ls & Ps & Pq & G & Fm & O & _ & Pd & r2 & HI & Hr).
          eapply gx_trans; [apply VC, G|].
          assert (M0 : exists c m, st_fs s (Main Manif) = Some (c, m) /\ envelope_try_from_slice_compat c = Some e)
            by (destruct SO as (SO & _); exact SO).
          destruct M0 as (c & m & M0 & D0).
          apply install_spec in HI as (_ & _ & HI). destruct (st_pending s2) as [live|].
          2:{ destruct HI as [-> _]. apply gx_refl. }
          destruct HI as (_ & (s3 & I0 & I1) & _).
          assert (MM : forall f, f (Main Manif) = Some (b, 292) -> f (Main Pivot) = st_fs s (Main Pivot) ->
                    (f (Main Quorum) = st_fs s (Main Quorum) \/ st_fs s (Main Quorum) = None) ->
                    may (ProvisionRequest sh a) (st_phase s) (st_fs s) f).
          { intros f F1 F2 F3. unfold may. split; [left; exact F2|]. split.
            - destruct F3 as [F3|F3]; [now left|]. right. split; [exact F3|]. left. eauto.
            - right. right. exists sh, a, e, b, (length b). repeat split; auto.
              + exists c. split; [now apply content_some with (m := m)|exact D0].
              + rewrite firstn_all. now apply content_some with (m := 292). }
          eapply gx_trans.
          + eapply gx_weaken; [|exact I0]. intros x (V1 & _). apply MM.
            * rewrite V1 by notin. exact Fm.
            * rewrite V1 by notin. apply O. notin.
            * left. rewrite V1 by notin. apply O. notin.
          + eapply gx_weaken; [|exact I1]. intros x (V1 & Q0 & _). apply MM.
            * rewrite V1 by notin. exact Fm.
            * rewrite V1 by notin. apply O. notin.
            * right. rewrite <- Q0. symmetry. apply O. notin. }
      destruct r1 as [[]|]; exact G.
    - rewrite (handle_inject c g s P). destruct (inject_key Y c g s) as [r1 s1] eqn:E.
      assert (G : gx (fun x => may (InjectKeyRequest c g) (st_phase s) (st_fs s) (en_fs x)) s s1).
      { apply inject_spec in E as (_ & [(_ & Sl)|X]).
        - eapply gx_weaken; [|exact (fx_gx _ _ _ (silent_quiet _ _ Sl))]. intros x ->. apply may_refl.
        - destruct X as (e & q & eph & ke & seed & s2 & _ & _ & _ & _ & _ & _ & _ & _ & Sl & HI).
          eapply gx_trans.
          + eapply gx_weaken; [|exact (fx_gx _ _ _ (silent_quiet _ _ Sl))]. intros x ->. apply may_refl.
          + apply install_spec in HI as (_ & _ & HI). destruct (st_pending s2) as [live|].
            2:{ destruct HI as [-> _]. apply gx_refl. }
            destruct HI as (_ & (s3 & I0 & I1) & _). rewrite (silent_fs _ _ Sl) in *.
            eapply gx_trans.
            * eapply gx_weaken; [|exact I0]. intros x (V1 & _). unfold may. split; [left; apply V1; notin|].
              split; [left; apply V1; notin|]. left. apply content_eq, V1. notin.
            * eapply gx_weaken; [|exact I1]. intros x (V1 & Q0 & _). unfold may. split; [left; apply V1; notin|].
              split; [right; split; [exact Q0|]; right; eauto|]. left. apply content_eq, V1. notin. }
      destruct r1; exact G.
  Qed.

  (** *** C05 *)
  Lemma quorum_only r (s : st) new x : st_trace (snd (handle Y r s)) = new ++ st_trace s -> In x new ->
    content (en_fs x) Quorum <> content (st_fs s) Quorum -> key_request (st_phase s) r /\ content (st_fs s) Quorum = None.
  Proof.
    intros T I N. destruct (handle_may r s) as (new' & T' & F & _).
    assert (new' = new) as -> by (rewrite T' in T; now apply app_inv_tail in T).
    rewrite Forall_forall in F. destruct (F x I) as (_ & [H|(H0 & H1)] & _).
    - exfalso. apply N. now apply content_eq.
    - split; [exact H1|]. unfold content. now rewrite H0.
  Qed.

  (** *** C06: the pivot *)
  Definition grew (s s' : st) (P : fsys -> Prop) : Prop :=
    exists new, st_trace s' = new ++ st_trace s /\ Forall (fun x => P (en_fs x)) new /\ P (st_fs s').
  Lemma serve_grew (P : fsys -> Prop) : (forall r s, P (st_fs s) -> gx (fun x => P (en_fs x)) s (snd (handle Y r s))) ->
    forall rs s, P (st_fs s) -> grew s (snd (serve Y rs s)) P.
  Proof.
    intros H rs. induction rs as [|r rs IH]; intros s Hs.
    - exists []. repeat split; auto.
    - rewrite serve_cons. cbn [snd]. pose proof (H r s Hs) as G.
      assert (Hs' : P (st_fs (snd (handle Y r s)))) by (apply (gx_fs P _ _ _ G); auto).
      destruct (IH _ Hs') as (n2 & T2 & F2 & E2). destruct G as (n1 & T1 & F1 & E1).
      exists (n2 ++ n1). rewrite T2, T1, app_assoc. repeat split; auto. apply Forall_app. auto.
  Qed.
  Lemma pivot_kept pv rs (s : st) : content (st_fs s) Pivot = Some pv ->
    grew s (snd (serve Y rs s)) (fun f => content f Pivot = Some pv).
  Proof.
    apply (serve_grew (fun f => content f Pivot = Some pv)). intros r t Ht. eapply gx_weaken; [|apply (handle_may r t)].
    intros x ([V|(V & _)] & _).
    - rewrite <- Ht. now apply content_eq.
    - unfold content in Ht. rewrite V in Ht. discriminate Ht.
  Qed.
  Lemma quorum_kept c rs (s : st) : content (st_fs s) Quorum = Some c ->
    grew s (snd (serve Y rs s)) (fun f => content f Quorum = Some c).
  Proof.
    apply (serve_grew (fun f => content f Quorum = Some c)). intros r t Ht. eapply gx_weaken; [|apply (handle_may r t)].
    intros x (_ & [V|(V & _)] & _).
    - rewrite <- Ht. now apply content_eq.
    - unfold content in Ht. rewrite V in Ht. discriminate Ht.
  Qed.

  (** *** C13: nothing happens in the error phase *)
  Lemma dead_handle r (s : st) : st_phase s = UnrecoverableError -> quiet s (snd (handle Y r s)).
  Proof.
    intros D. destruct (handle_cases r s) as [[_ H]|[(_ & _ & Q)|[(set & dr & -> & P)|[(e & pv & B & P)|[(sh & a & -> & P)|(c & g & -> & P)]]]]];
      try congruence. rewrite H. apply quiet_refl.
  Qed.
  Lemma dead_serve rs : forall s : st, st_phase s = UnrecoverableError ->
    st_phase (snd (serve Y rs s)) = UnrecoverableError /\ grew s (snd (serve Y rs s)) (fun f => f = st_fs s).
  Proof.
    induction rs as [|r rs IH]; intros s D.
    - split; [exact D|]. exists []. repeat split; auto.
    - rewrite serve_cons. cbn [snd]. pose proof (dead_handle r s D) as Q.
      destruct (IH (snd (handle Y r s))) as [P2 (n2 & T2 & F2 & E2)]; [now rewrite (fx_phase _ _ _ Q)|].
      split; [exact P2|]. destruct (fx_gx _ _ _ Q) as (n1 & T1 & F1 & _).
      exists (n2 ++ n1). rewrite T2, T1, app_assoc. split; [reflexivity|]. split.
      + apply Forall_app. split; [|exact F1]. eapply Forall_impl; [|exact F2]. cbn. intros x ->. now apply quiet_fs.
      + rewrite E2. now apply quiet_fs.
  Qed.
  Lemma handle_error_fatal r (s : st) x s' : handle Y r s = (ProtocolErrorResponse x, s') ->
    served (st_phase s) r = true -> read_only r = false -> st_phase s' = UnrecoverableError.
  Proof.
    intros H V R.
    destruct (handle_cases r s) as [[W _]|[(W & _)|[(set & dr & -> & P)|[(e & pv & B & P)|[(sh & a & -> & P)|(c & g & -> & P)]]]]];
      try congruence.
    - rewrite (handle_genesis set dr s P) in H. destruct (boot_genesis Y set dr s) as [[p|y] s1]; inversion H; subst; reflexivity.
    - rewrite (handle_boot r e pv s P B) in H. destruct (put_manifest_and_pivot Y e pv s) as [[p|y] s1]; inversion H; subst; [|reflexivity].
      destruct r; try discriminate B; discriminate.
    - rewrite (handle_provision sh a s P) in H. destruct (provision Y sh a s) as [[[]|y] s1]; inversion H; subst; reflexivity.
    - rewrite (handle_inject c g s P) in H. destruct (inject_key Y c g s) as [[[]|y] s1]; inversion H; subst; reflexivity.
  Qed.
End EP.
