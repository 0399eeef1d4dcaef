(** Lemmas about whole histories, used by the theorems of the Props files. *)
From Coq Require Import ZifyBool ZifyN ZifyNat Permutation.
From Verif Require Import Base Utf8 Hex HexProofs Types Json TypesJson StorageProofs Msg World Run FsProofs Attest Services
  ServiceProofs BootProofs State SpecProtocol HandleProofs Reach Invariant ProtocolProofs EffectProofs CalmProofs
  SpecApproval ApprovalProofs SpecAttest AttestProofs SpecHistory.
Local Open Scope N_scope.

Section HP.
  Context {Y : sys}.
  Local Notation st := (st Y).
  Local Notation entry := (entry Y).

  Lemma bank_text tr mh a b : bank_locked (Y := Y) tr mh a b <-> bank_committed Y tr mh a b.
  Proof.
    unfold bank_locked, bank_committed, said, reported. now rewrite !commitment_value_text.
  Qed.
  Lemma pair_seed seed k : length seed = 32%nat -> s_pair Y seed = Some k -> seed_for Y seed (public_to_bytes k).
  Proof. intros L P. split; [exact L|]. destruct k as [e g]. exists e, g. split; [exact P|reflexivity]. Qed.

  Lemma approval_signed a mh : approval_verify Y a mh = Ok tt <-> signed Y mh a.
  Proof.
    unfold approval_verify, signed. destruct (public_from_bytes Y (m_pub_key (ap_member a))) as [[e g]|x] eqn:K.
    - apply public_keys in K. destruct (s_verify Y g mh (ap_signature a)) eqn:V.
      + split; [intros _; eauto|reflexivity].
      + split; [discriminate|]. intros (e' & g' & K' & V').
        apply public_keys in K, K'. assert (g = g') as <- by congruence. congruence.
    - split; [discriminate|]. intros (e' & g' & K' & V'). apply public_keys in K'. congruence.
  Qed.

  Lemma moment_snap (OK : sys_ok Y) s tr f : reach Y s -> moment Y s tr f -> snap tr f.
  Proof.
    intros R M. pose proof (reach_inv OK s R) as I. destruct M as [|newer x older T].
    - apply (i_now _ I).
    - apply (i_past _ I _ _ _ T).
  Qed.

  Lemma reach_serve rs : forall s, reach Y s -> Forall (fun r => wf_req r = true) rs -> reach Y (snd (serve Y rs s)).
  Proof.
    induction rs as [|r rs IH]; intros s R W; [exact R|]. inversion W; subst. rewrite serve_cons. cbn [snd].
    apply IH; [|assumption]. now apply R_step.
  Qed.

  (** The current files are those of the newest trace entry. *)
  Lemma reach_head s : reach Y s -> match st_trace s with [] => True | x :: _ => st_fs s = en_fs x end.
  Proof.
    induction 1 as [|s r _ IH _|]; cbn; auto.
    destruct (handle_may r s) as (new & T & _ & E). rewrite T, E. destruct new as [|x new]; cbn; auto.
  Qed.

  Lemma reach_empty s : reach Y s -> st_trace s = [] -> forall p, st_fs s (Main p) = None.
  Proof.
    induction 1 as [f n rc ic H|s r _ IH _|]; cbn; auto.
    - destruct (handle_may r s) as (new & T & _ & E). rewrite T, E. intros X.
      apply app_eq_nil in X as [-> X]. cbn. now apply IH.
    - discriminate.
  Qed.

  (** *** Later moments after the key is visible see the same files *)
  Lemma later_frozen (OK : sys_ok Y) s tr1 f1 tr2 f2 new : reach Y s -> moment Y s tr1 f1 -> moment Y s tr2 f2 ->
    tr2 = new ++ tr1 -> f1 (Main Quorum) <> None -> forall p, content f2 p = content f1 p.
  Proof.
    intros R M1 M2 E Q. pose proof (reach_inv OK s R) as I. destruct M1 as [|n1 x1 o1 T1].
    - destruct M2 as [|n2 x2 o2 T2]; [reflexivity|].
      pose proof (reach_head s R) as Hd. rewrite T2 in E, Hd.
      destruct n2 as [|y n2]; cbn in *; [now rewrite Hd|].
      exfalso. apply (f_equal (@length _)) in E. cbn [length] in E. rewrite !app_length in E. cbn [length] in E. rewrite app_length in E. cbn [length] in E. clear -E. lia.
    - destruct M2 as [|n2 x2 o2 T2].
      + apply (i_frozen_now _ I _ _ _ T1), Q.
      + destruct new as [|y new]; cbn in E.
        * inversion E; subst. reflexivity.
        * inversion E; subst. apply (i_frozen _ I n2 y new x1 o1); [|exact Q]. exact T2.
  Qed.

  Lemma serve_grows rs : forall s, exists new, st_trace (snd (serve Y rs s)) = new ++ st_trace s.
  Proof.
    induction rs as [|r rs IH]; intros s; [exists []; reflexivity|]. rewrite serve_cons. cbn [snd].
    destruct (IH (snd (handle Y r s))) as [n2 ->]. destruct (handle_may r s) as (n1 & -> & _).
    exists (n2 ++ n1). now rewrite app_assoc.
  Qed.
  Lemma serve_frozen (OK : sys_ok Y) rs s : reach Y s -> Forall (fun r => wf_req r = true) rs -> st_fs s (Main Quorum) <> None ->
    forall p, content (st_fs (snd (serve Y rs s))) p = content (st_fs s) p.
  Proof.
    intros R W Q p. destruct (serve_grows rs s) as [new T].
    pose proof (reach_head s R) as Hd. destruct (st_trace s) as [|x older] eqn:E.
    { exfalso. apply Q. now apply reach_empty. }
    eapply (later_frozen OK _ (x :: older) (st_fs s) _ _ new (reach_serve rs s R W)); [|constructor|exact T|exact Q].
    rewrite Hd. econstructor. exact T.
  Qed.

  (** *** C05: success answers *)
  Lemma success_installed r (s : st) a s' : handle Y r s = (a, s') -> (a = ProvisionResponse true \/ a = InjectKeyResponse) ->
    key_request (st_phase s) r /\ st_phase s' = QuorumKeyProvisioned
    /\ exists seed, content (st_fs s') Quorum = Some (encode seed) /\ length seed = 32%nat.
  Proof.
    intros H A. destruct (handle_cases r s) as [[W H1]|[(W & V & Q)|[(set & dr & -> & P)|[(e & pv & B & P)|[(sh & ap & -> & P)|(c & g & -> & P)]]]]].
    - rewrite H1 in H. inversion H; subst. destruct A; discriminate.
    - exfalso. assert (N : forall B (f : B -> msg) (m : M Y B), (forall b, f b <> ProvisionResponse true /\ f b <> InjectKeyResponse) ->
        handle Y r s = (as_msg f (fst (m s)), snd (m s)) -> False).
      { intros B f m Hf E. rewrite E in H. destruct (m s) as [[b|x] s1]; cbn in H; inversion H; subst.
        - destruct (Hf b) as [F1 F2]. destruct A; auto.
        - destruct A; discriminate. }
      destruct r; try discriminate W; cbn [served] in V.
      + rewrite handle_status in H. inversion H; subst. destruct A; discriminate.
      + eapply N; [|apply handle_live]; [intros b; split; discriminate| |];
          intros E; rewrite E in V; discriminate V.
      + eapply N; [|apply handle_export]; [intros b; split; discriminate|].
        destruct (st_phase s); cbn in V; congruence.
      + eapply N; [|apply handle_manifest]; [intros b; split; discriminate|].
        intros E; rewrite E in V; discriminate V.
      + rewrite handle_version in H. inversion H; subst. destruct A; discriminate.
    - rewrite (handle_genesis set dr s P) in H. destruct (boot_genesis Y set dr s) as [[p|y] s1]; inversion H; subst; destruct A; discriminate.
    - rewrite (handle_boot r e pv s P B) in H. destruct (put_manifest_and_pivot Y e pv s) as [[p|y] s1]; inversion H; subst.
      + destruct r; try discriminate B; destruct A; discriminate.
      + destruct A; discriminate.
    - rewrite (handle_provision sh ap s P) in H. destruct (provision Y sh ap s) as [[[]|y] s1] eqn:E; inversion H; subst.
      + split; [left; eauto|]. split; [reflexivity|].
        apply provision_spec in E as (_ & [[[x Hx] _]|X]); [discriminate Hx|].
        destruct X as (e & plain & b & _ & _ & [[Hx _]|X]); [discriminate Hx|].
        destruct X as (seed & k & s2 & _ & _ & L & _ & _ & _ & _ & _ & _ & _ & r1 & HI & [[-> _]|(x & _ & Hx)]); [|discriminate Hx].
        apply install_spec in HI as (_ & _ & HI). destruct (st_pending s2); [|destruct HI; discriminate].
        destruct HI as (_ & _ & HI). destruct (HI eq_refl) as (_ & F & _).
        exists seed. split; [|exact L]. now apply content_some with (m := 292).
      + destruct A; discriminate.
      + destruct A; discriminate.
    - rewrite (handle_inject c g s P) in H. destruct (inject_key Y c g s) as [[[]|y] s1] eqn:E; inversion H; subst.
      + split; [right; eauto|]. split; [reflexivity|].
        apply inject_spec in E as (_ & [[[x Hx] _]|X]); [discriminate Hx|].
        destruct X as (e & q & eph & ke & seed & s2 & _ & _ & _ & _ & _ & _ & L & _ & _ & HI).
        apply install_spec in HI as (_ & _ & HI). destruct (st_pending s2); [|destruct HI; discriminate].
        destruct HI as (_ & _ & HI). destruct (HI eq_refl) as (_ & F & _).
        exists seed. split; [|exact L]. now apply content_some with (m := 292).
      + destruct A; discriminate.
  Qed.
  (** *** C06: the manifest *)
  Lemma extends_refl e : extends e e.
  Proof. repeat split; auto. exists []. now rewrite app_nil_r. Qed.
  Lemma extends_trans a b c : extends a b -> extends b c -> extends a c.
  Proof.
    intros (A1 & A2 & l1 & A3) (B1 & B2 & l2 & B3). split; [congruence|]. split; [congruence|].
    exists (l1 ++ l2). rewrite B3, A3. now rewrite app_assoc.
  Qed.
  Lemma extends_push a e : extends e (push_share_approval a e).
  Proof.
    split; [apply push_manifest|]. split; [apply push_manifest_approvals|]. exists [a]. apply push_share_approvals.
  Qed.
  Lemma stored_content f g e : content f Manif = content g Manif -> stored g e -> stored f e.
  Proof. intros E (c & C & D). exists c. now rewrite E. Qed.

  Lemma stored_wf (OK : sys_ok Y) (s : st) e : reach Y s -> st_phase s = WaitingForQuorumShards -> stored (st_fs s) e -> wf_envelope e = true.
  Proof.
    intros R P St. pose proof (i_phase _ (reach_inv OK s R)) as Ph. unfold phase_inv in Ph. rewrite P in Ph.
    destruct Ph as [W _]. destruct (waiting_stored _ W) as (e' & S' & W' & _). now rewrite (stored_inj _ _ _ St S').
  Qed.
  Lemma stored_push f a e b m : wf_envelope e = true -> jwf js_approval a = true ->
    envelope_to_storage_vec (push_share_approval a e) = Some b -> f (Main Manif) = Some (b, m) -> stored f (push_share_approval a e).
  Proof.
    intros W Wa Sb F. destruct (envelope_storage _ (push_wf a e W Wa)) as (b' & X1 & X2).
    assert (b' = b) as -> by congruence. exists b. split; [now apply content_some with (m := m)|exact X2].
  Qed.

  Lemma manifest_step (OK : sys_ok Y) r (s : st) e : reach Y s -> wf_req r = true -> stored (st_fs s) e ->
    let s' := snd (handle Y r s) in
    (exists e', stored (st_fs s') e' /\ extends e e')
    \/ (st_phase s' = UnrecoverableError /\ (no_faults Y -> exists e', stored (st_fs s') e' /\ extends e e')).
  Proof.
    intros R W St s'. subst s'.
    destruct (handle_cases r s) as [[_ H1]|[(_ & V & Q)|[(set & dr & -> & P)|[(e1 & pv & B & P)|[(sh & a & -> & P)|(c & g & -> & P)]]]]].
    - left. exists e. rewrite H1. split; [exact St|apply extends_refl].
    - left. exists e. rewrite (quiet_fs _ _ Q). split; [exact St|apply extends_refl].
    - left. exists e. split; [|apply extends_refl]. eapply stored_content; [|exact St].
      destruct (gx_may _ _ _ _ (handle_may (BootGenesisRequest set dr) s)) as (_ & _ & [M|[(_ & (e1 & pv & b & X & _))|(sh & a & e1 & b & i & X & _)]]);
        [exact M|discriminate X|discriminate X].
    - left. exists e. split; [|apply extends_refl]. eapply stored_content; [|exact St].
      destruct (gx_may _ _ _ _ (handle_may r s)) as (_ & _ & [M|[(N & _)|(sh & a & e2 & b & i & X & _)]]);
        [exact M| |subst; discriminate B].
      destruct St as (c & C & _). congruence.
    - rewrite (handle_provision sh a s P). pose proof (stored_wf OK s e R P St) as We.
      destruct (provision Y sh a s) as [r1 s1] eqn:E. pose proof E as E0.
      apply provision_spec in E as (_ & [[[x ->] _]|X]).
      { cbn [snd st_phase st_fs set_phase].
        right. split; [reflexivity|]. intros NF.
        destruct (calm_provision_manifest NF sh a s e _ _ St We W E0) as [M|(b & Sb & M)].
        - exists e. split; [|apply extends_refl]. eapply stored_content; [exact M|exact St].
        - exists (push_share_approval a e). split; [|apply extends_push].
            destruct (envelope_storage _ (push_wf a e We W)) as (b' & X1 & X2).
            assert (b' = b) as -> by congruence. exists b. split; [exact M|exact X2].
      }
      destruct X as (e' & plain & b & SO & Sb & X). pose proof (share_ok_stored _ _ _ _ _ SO) as St'.
      assert (e' = e) as -> by (eapply stored_inj; eauto).
      assert (G : forall f m, f (Main Manif) = Some (b, m) -> stored f (push_share_approval a e)).
      { intros f m F. eapply stored_push; eauto. }
      left. exists (push_share_approval a e). split; [|apply extends_push].
      destruct X as [(-> & _ & _ & F & _)|(seed & k & s2 & _ & _ & _ & _ & _ & _ & F & _ & _ & _ & r1' & HI & Hr)].
      + eapply G; exact F.
      + assert (St1 : stored (st_fs s1) (push_share_approval a e)).
        { apply install_spec in HI as (_ & _ & HI). destruct (st_pending s2) as [live|].
          2:{ destruct HI as [-> _]. eapply G; exact F. }
          destruct HI as (_ & (s3 & I0 & I1) & _).
          assert (F3 : st_fs s3 (Main Manif) = Some (b, 292)).
          { apply (gx_fs (fun f => f (Main Manif) = Some (b, 292)) _ _ _ I0); [exact F|]. intros x (O & _). rewrite O by notin. exact F. }
          eapply G. apply (gx_fs (fun f => f (Main Manif) = Some (b, 292)) _ _ _ I1); [exact F3|]. intros x (O & _). rewrite O by notin. exact F. }
        destruct r1 as [[]|]; exact St1.
    - left. exists e. split; [|apply extends_refl]. eapply stored_content; [|exact St].
      destruct (gx_may _ _ _ _ (handle_may (InjectKeyRequest c g) s)) as (_ & _ & [M|[(_ & (e1 & pv & b & X & _))|(sh & a & e1 & b & i & X & _)]]);
        [exact M|discriminate X|discriminate X].
  Qed.
  Lemma manifest_serve (OK : sys_ok Y) rs : forall (s : st) e, reach Y s -> Forall (fun r => wf_req r = true) rs -> stored (st_fs s) e ->
    let s' := snd (serve Y rs s) in
    (exists e', stored (st_fs s') e' /\ extends e e')
    \/ (st_phase s' = UnrecoverableError /\ (no_faults Y -> exists e', stored (st_fs s') e' /\ extends e e')).
  Proof.
    cbv zeta. induction rs as [|r rs IH]; intros s e R W St.
    - left. exists e. split; [exact St|apply extends_refl].
    - inversion W; subst. rewrite serve_cons. cbn [snd].
      assert (R1 : reach Y (snd (handle Y r s))) by (now apply R_step).
      destruct (manifest_step OK r s e R H1 St) as [(e1 & S1 & X1)|(D & N)].
      + destruct (IH _ e1 R1 H2 S1) as [(e2 & S2 & X2)|(D & N)].
        * left. exists e2. split; [exact S2|eapply extends_trans; eauto].
        * right. split; [exact D|]. intros NF. destruct (N NF) as (e2 & S2 & X2).
          exists e2. split; [exact S2|eapply extends_trans; eauto].
      + right. destruct (dead_serve rs _ D) as [D' (new & _ & _ & F)]. split; [exact D'|].
        intros NF. rewrite F. exact (N NF).
  Qed.

  (** *** C07 and C14: boot *)
  Lemma boot_accepted r e pv (s : st) a s' : boot_of r = Some (e, pv) -> handle Y r s = (a, s') -> is_error a = false ->
    st_phase s = WaitingForBootInstruction /\ st_phase s' = boot_target r /\ st_shares s' = st_shares s
    /\ check_approvals Y e = Ok tt /\ env_share_approvals e = [] /\ s_sha256 Y pv = vm_pivot_hash (env_manifest e)
    /\ exists setup live n, files_published e pv setup (st_fs s) (st_fs s') /\ st_pending s' = Some live
        /\ s_pair Y setup <> None /\ setup = s_rng Y (st_rngc s) /\ live = s_rng Y (S (st_rngc s)) /\ a = boot_answer r n.
  Proof.
    intros B H N.
    destruct (handle_cases r s) as [[_ H1]|[(W & V & Q)|[(set & dr & -> & P)|[(e1 & pv1 & B1 & P)|[(sh & ap & -> & P)|(c & g & -> & P)]]]]];
      try discriminate B.
    - rewrite H1 in H. inversion H; subst. discriminate N.
    - destruct r; discriminate.
    - rewrite B in B1. inversion B1; subst e1 pv1. rewrite (handle_boot r e pv s P B) in H.
      destruct (put_manifest_and_pivot Y e pv s) as [[n|x] s1] eqn:E; inversion H; subst; [|discriminate N].
      apply boot_spec in E as (_ & Sh & [[_ [x Hx]]|X]); [discriminate Hx|].
      destruct X as (setup & sk & live & lk & s2 & new & A1 & A2 & A3 & A4 & A5 & A6 & A7 & G & Bk & Pd & Gb & Hf).
      split; [exact P|]. split; [reflexivity|]. split; [exact Sh|]. split; [exact A1|]. split; [exact A2|]. split; [exact A3|].
      exists setup, live, n. split; [exact (Hf _ eq_refl)|]. split; [exact Pd|]. split; [congruence|]. auto.
  Qed.

  Lemma boot_locked_first r e pv (s : st) new n2 x n1 : boot_of r = Some (e, pv) ->
    st_trace (snd (handle Y r s)) = new ++ st_trace s -> new = n2 ++ x :: n1 ->
    (exists p, en_fs x p <> st_fs s p) ->
    exists setup live sk lk,
      s_pair Y setup = Some sk /\ s_pair Y live = Some lk
      /\ bank_locked n1 (manifest_hash Y (env_manifest e)) (public_to_bytes sk) (public_to_bytes lk)
      /\ (en_fs x (Main Eph) = st_fs s (Main Eph) \/ content (en_fs x) Eph = Some (encode setup))
      /\ st_pending (snd (handle Y r s)) = Some live
      /\ setup = s_rng Y (st_rngc s) /\ live = s_rng Y (S (st_rngc s)).
  Proof.
    intros B T -> D.
    assert (Nq : forall s', quiet s s' -> st_trace s' = (n2 ++ x :: n1) ++ st_trace s -> False).
    { intros s' Q T'. destruct (fx_new _ _ _ Q) as (m & Tm & F & _). rewrite Tm in T'. apply app_inv_tail in T'. subst m.
      rewrite Forall_forall in F. destruct D as [p Dp]. apply Dp. rewrite (F x); [reflexivity|]. apply in_or_app. right. now left. }
    destruct (handle_cases r s) as [[_ H1]|[(W & V & Q)|[(set & dr & -> & P)|[(e1 & pv1 & B1 & P)|[(sh & ap & -> & P)|(c & g & -> & P)]]]]];
      try discriminate B.
    - exfalso. rewrite H1 in T. apply (Nq s); [apply quiet_refl|exact T].
    - exfalso. apply (Nq _ Q T).
    - rewrite B in B1. inversion B1; subst e1 pv1. rewrite (handle_boot r e pv s P B) in T |- *.
      destruct (put_manifest_and_pivot Y e pv s) as [o s1] eqn:E.
      apply boot_spec in E as (_ & Sh & [[[new G] _]|X]).
      { exfalso. apply (Nq s1); [eapply grows_quiet; eauto|]. destruct o; exact T. }
      destruct X as (setup & sk & live & lk & s2 & new & A1 & A2 & A3 & A4 & A5 & A6 & A7 & G & Bk & Pd & Gb & Hf).
      exists setup, live, sk, lk. split; [exact A4|]. split; [exact A5|].
      assert (T1 : st_trace s1 = (n2 ++ x :: n1) ++ st_trace s) by (destruct o; exact T).
      destruct Gb as (more & Tm & F & _). destruct G as (T2 & F2 & _).
      rewrite Tm, T2 in T1. rewrite app_assoc in T1. apply app_inv_tail in T1.
      apply app_cons_split in T1 as [(mid & -> & ->)|(mid & -> & ->)].
      + split; [apply bank_locked_app; auto|]. split; [|split; [destruct o; exact Pd|auto]].
        rewrite Forall_forall in F. destruct (F x) as (_ & [H|(_ & m & H)] & _); [apply in_or_app; right; now left|now left|].
        right. now apply content_some with (m := m).
      + exfalso. rewrite Forall_forall in F2. destruct D as [p Dp]. apply Dp.
        destruct (F2 x) as [-> _]; [apply in_or_app; right; now left|reflexivity].
  Qed.
End HP.
