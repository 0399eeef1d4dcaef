(** The provisioning and key-forwarding phases, request by request. *)
From Coq Require Import ZifyBool ZifyN ZifyNat Permutation.
From Verif Require Import Base Utf8 Hex HexProofs Types Json TypesJson StorageProofs Msg World Run FsProofs Attest Services
  ServiceProofs BootProofs State SpecProtocol HandleProofs Reach Invariant ProtocolProofs EffectProofs CalmProofs
  SpecApproval ApprovalProofs SpecAttest AttestProofs SpecHistory HistoryProofs.
Local Open Scope N_scope.

Section PP.
  Context {Y : sys} (OK : sys_ok Y).
  Local Notation forwarded := (forwarded Y).
  Local Notation st := (st Y).

  Lemma install_live seed (s : st) live r s' : install seed s = (r, s') -> st_pending s = Some live -> st_fs s (Main Quorum) = None ->
    st_fs s' (Main Quorum) = None
    \/ content (st_fs s') Quorum = Some (encode seed) /\ content (st_fs s') Eph = Some (encode live).
  Proof.
    intros H P Q. apply install_spec in H as (_ & _ & H). rewrite P in H. destruct H as (_ & (s1 & I0 & I1) & _).
    assert (Q1 : st_fs s1 (Main Quorum) = None).
    { apply (gx_fs (fun f => f (Main Quorum) = None) _ _ _ I0); [exact Q|]. intros x (O & _). rewrite O by notin. exact Q. }
    apply (gx_fs (fun f => f (Main Quorum) = None \/ content f Quorum = Some (encode seed) /\ content f Eph = Some (encode live)) _ _ _ I1).
    - now left.
    - intros x (_ & _ & (m & Hm) & He). right. split; eapply content_some; eauto.
  Qed.

  (** A state in which shares are being collected. *)
  Record collecting (e : versioned_envelope) (setup live : bytes) (n : N) (s : st) : Prop := Coll {
    co_reach : reach Y s;
    co_phase : st_phase s = WaitingForQuorumShards;
    co_env : exists e', stored (st_fs s) e' /\ extends e e';
    co_shares : lenN (st_shares s) = n;
    co_eph : content (st_fs s) Eph = Some (encode setup);
    co_len : length setup = 32%nat;
    co_live : st_pending s = Some live;
    co_none : st_fs s (Main Quorum) = None
  }.

  Lemma collecting_quiet e setup live n (s s' : st) : reach Y s' -> quiet s s' -> collecting e setup live n s -> collecting e setup live n s'.
  Proof.
    intros R Q []. constructor; auto; rewrite ?(quiet_fs _ _ Q), ?(fx_phase _ _ _ Q), ?(fx_shares _ _ _ Q), ?(fx_pending _ _ _ Q); auto.
  Qed.

  Lemma collecting_step e setup live n r (s : st) : wf_req r = true -> collecting e setup live n s ->
    let a := fst (handle Y r s) in let s' := snd (handle Y r s) in
    (is_provision r = false /\ collecting e setup live n s')
    \/ (is_provision r = true /\ a = ProvisionResponse false /\ collecting e setup live (n + 1) s' /\ acceptable Y e setup r)
    \/ (st_phase s' = UnrecoverableError /\ st_fs s' (Main Quorum) = None)
    \/ (is_provision r = true /\ acceptable Y e setup r /\ threshold (vm_share_set (env_manifest e)) <= n + 1
        /\ content (st_fs s') Quorum <> None /\ content (st_fs s') Eph = Some (encode live)
        /\ st_phase s' = (match a with ProvisionResponse true => QuorumKeyProvisioned | _ => UnrecoverableError end)).
  Proof.
    intros Wr C a s'. subst a s'. pose proof C as [R P (e' & St & Ex) Sh Ep Ls Lv Qn].
    assert (R' : reach Y (snd (handle Y r s))) by (now apply R_step).
    destruct (handle_cases r s) as [[V H1]|[(W & V & Q)|[(set & dr & -> & P')|[(e1 & pv & B & P')|[(sh & ap & -> & _)|(c & g & -> & P')]]]]];
      try congruence.
    - left. split; [destruct r; try reflexivity; rewrite P in V; discriminate V|]. rewrite H1. exact C.
    - left. split; [destruct r; try reflexivity; discriminate W|]. eapply collecting_quiet; eauto.
    - right. pose proof (stored_wf OK s e' R P St) as We.
      assert (Acc : forall plain, share_ok (Y := Y) sh ap (st_fs s) e' plain -> acceptable Y e setup (ProvisionRequest sh ap)).
      { intros plain SO sh' a' E. inversion E; subst sh' a'. destruct SO as (_ & V1 & V2 & (c & m & eph & k & F & D & _ & Dc) & Np).
        destruct Ex as (X1 & _). rewrite X1 in *. split; [exact V2|]. split; [now apply approval_signed|].
        exists plain. split; [|exact Np].
        assert (c = encode setup) as -> by (unfold content in Ep; rewrite F in Ep; cbn in Ep; congruence).
        rewrite (seed_of_hex_encode setup Ls) in D. inversion D; subst. exact Dc. }
      rewrite (handle_provision sh ap s P) in *. destruct (provision Y sh ap s) as [r1 s1] eqn:E. pose proof E as E0.
      apply provision_spec in E as (Ph & [[[x ->] G]|X]).
      { right. left. cbn [snd st_phase st_fs set_phase]. split; [reflexivity|].
        apply (gx_fs (fun f => f (Main Quorum) = None) _ _ _ G); [exact Qn|]. intros y (O & _). rewrite O by notin. exact Qn. }
      destruct X as (e2 & plain & b & SO & Sb & X).
      assert (e2 = e') as -> by (eapply stored_inj; [eapply share_ok_stored; eauto|exact St]).
      destruct X as [(-> & Lt & G & F & O & Sh' & Pd)|X].
      + left. split; [reflexivity|]. split; [reflexivity|]. split; [|eauto].
        cbn [snd] in *. constructor; auto.
        * congruence.
        * exists (push_share_approval ap e'). split; [eapply stored_push; eauto|]. eapply extends_trans; [exact Ex|apply extends_push].
        * rewrite Sh'. rewrite lenN_length, app_length. cbn. rewrite lenN_length in Sh. clear -Sh. lia.
        * unfold content. rewrite O by notin. exact Ep.
        * congruence.
        * rewrite O by notin. exact Qn.
      + destruct X as (seed & k & s2 & Th & _ & _ & _ & _ & G & F & O & _ & Pd & r2 & HI & Hr).
        destruct Ex as (X1 & _). rewrite X1 in Th. rewrite Sh in Th.
        assert (Q2 : st_fs s2 (Main Quorum) = None) by (rewrite O by notin; exact Qn).
        destruct (install_live seed s2 live r2 s1 HI) as [Qs|[Qs Es]]; [congruence|exact Q2| |].
        * right. left. destruct Hr as [[-> ->]|(x & -> & ->)]; [|split; [reflexivity|exact Qs]].
          exfalso. apply install_spec in HI as (_ & _ & HI). destruct (st_pending s2); [|destruct HI; discriminate].
          destruct HI as (_ & _ & HI). destruct (HI eq_refl) as (_ & F' & _). congruence.
        * right. right. split; [reflexivity|]. split; [eauto|]. split; [exact Th|].
          destruct Hr as [[-> ->]|(x & -> & ->)]; cbn [fst snd st_fs st_phase set_phase]; (split; [congruence|]); split; auto.
  Qed.

  Lemma quorum_gone rs (s : st) : st_phase s = UnrecoverableError -> st_fs s (Main Quorum) = None ->
    content (st_fs (snd (serve Y rs s))) Quorum = None.
  Proof.
    intros D Q. destruct (dead_serve rs s D) as [_ (new & _ & _ & E)]. rewrite E. unfold content. now rewrite Q.
  Qed.

  Lemma provision_history e setup live rs : forall n (s : st), Forall (fun r => wf_req r = true) rs -> collecting e setup live n s ->
    content (st_fs (snd (serve Y rs s))) Quorum <> None ->
    exists pre r post, rs = pre ++ r :: post /\ is_provision r = true
      /\ Forall (acceptable Y e setup) (pre ++ [r])
      /\ (forall i q, nth_error pre i = Some q -> is_provision q = true ->
            nth_error (fst (serve Y rs s)) i = Some (ProvisionResponse false))
      /\ collecting e setup live (n + provisions pre) (snd (serve Y pre s))
      /\ threshold (vm_share_set (env_manifest e)) <= n + provisions pre + 1
      /\ content (st_fs (snd (serve Y rs s))) Eph = Some (encode live).
  Proof.
    induction rs as [|r rs IH]; intros n s W C Q.
    - exfalso. apply Q. unfold content. cbn. now rewrite (co_none _ _ _ _ _ C).
    - inversion W; subst. rewrite serve_cons in Q |- *. cbn [fst snd] in *.
      destruct (collecting_step e setup live n r s H1 C) as [[Np C']|[(Yp & A & C' & Ac)|[[D Qn]|(Yp & Ac & Th & Qp & Ep & Ph)]]].
      + destruct (IH n _ H2 C' Q) as (pre & r' & post & -> & E2 & E3 & E4 & E5 & E6 & E7).
        exists (r :: pre), r', post. split; [reflexivity|]. split; [exact E2|]. split.
        { cbn. constructor; [|exact E3]. intros sh a ->. discriminate Np. }
        split.
        { intros [|i] q; cbn; [intros X; inversion X; subst; congruence|apply E4]. }
        unfold provisions in *. cbn [filter]. rewrite Np. rewrite serve_cons. cbn [snd]. auto.
      + destruct (IH _ _ H2 C' Q) as (pre & r' & post & -> & E2 & E3 & E4 & E5 & E6 & E7).
        exists (r :: pre), r', post. split; [reflexivity|]. split; [exact E2|]. split; [cbn; constructor; auto|].
        split.
        { intros [|i] q; cbn; [intros X _; now rewrite A|apply E4]. }
        unfold provisions in *. cbn [filter]. rewrite Yp. cbn [length]. rewrite serve_cons. cbn [snd].
        rewrite Nat2N.inj_succ, <- N.add_1_l, N.add_assoc. auto.
      + exfalso. apply Q. now apply quorum_gone.
      + exists [], r, rs. split; [reflexivity|]. split; [exact Yp|]. split; [constructor; [exact Ac|constructor]|].
        split; [intros [|]; discriminate|].
        unfold provisions. cbn [filter length serve snd]. rewrite N.add_0_r.
        split; [exact C|]. split; [exact Th|].
        assert (R' : reach Y (snd (handle Y r s))) by (apply R_step; [apply (co_reach _ _ _ _ _ C)|exact H1]).
        rewrite <- Ep.
        apply serve_frozen; auto. intros X. apply Qp. unfold content. now rewrite X.
  Qed.
  (** *** Waiting for a forwarded key *)
  Record expecting (e : versioned_envelope) (setup live : bytes) (s : st) : Prop := Expect {
    ex_reach : reach Y s;
    ex_phase : st_phase s = WaitingForForwardedKey;
    ex_env : stored (st_fs s) e;
    ex_eph : content (st_fs s) Eph = Some (encode setup);
    ex_len : length setup = 32%nat;
    ex_live : st_pending s = Some live;
    ex_none : st_fs s (Main Quorum) = None
  }.

  Lemma inject_facts c g (s : st) e setup live r s' : expecting e setup live s -> inject_key Y c g s = (r, s') ->
    st_fs s' (Main Quorum) = None /\ (exists x, r = Err x)
    \/ exists seed, forwarded e setup (InjectKeyRequest c g) /\ s_decrypt Y setup c = Ok seed
        /\ content (st_fs s') Quorum = Some (encode seed) /\ content (st_fs s') Eph = Some (encode live).
  Proof.
    intros [R P St Ep Ls Lv Qn] E. apply inject_spec in E as (_ & [[Hx Sl]|X]).
    - left. rewrite (silent_fs _ _ Sl). auto.
    - destruct X as (e' & q & eph & ke & seed & s1 & (c0 & m & F & D) & Q & V & (c1 & m1 & F1 & D1) & _ & Dc & L & Pr & Sl & HI).
      assert (e' = e) as ->.
      { apply (stored_inj (st_fs s)); [|exact St]. exists c0. split; [now apply content_some with (m := m)|exact D]. }
      assert (c1 = encode setup) as -> by (unfold content in Ep; rewrite F1 in Ep; cbn in Ep; congruence).
      rewrite (seed_of_hex_encode setup Ls) in D1. inversion D1; subst eph.
      destruct (public_bytes_inv _ _ Q) as (Qb & _). destruct q as [ek sk]. unfold public_to_bytes in Qb. cbn [fst snd] in *.
      destruct (install_live seed s1 live r s' HI) as [Qs|[Qs Es]].
      + rewrite (fx_pending _ _ _ Sl). exact Lv.
      + rewrite (silent_fs _ _ Sl). exact Qn.
      + left. split; [exact Qs|]. destruct r as [[]|x]; [|eauto]. exfalso.
        apply install_spec in HI as (_ & _ & HI). destruct (st_pending s1); [|destruct HI; discriminate].
        destruct HI as (_ & _ & HI). destruct (HI eq_refl) as (_ & F' & _). congruence.
      + right. exists seed. split; [|auto]. exists c, g, seed, ek, sk. auto 10.
  Qed.

  Lemma expecting_step e setup live r (s : st) : wf_req r = true -> expecting e setup live s ->
    let a := fst (handle Y r s) in let s' := snd (handle Y r s) in
    expecting e setup live s'
    \/ (st_phase s' = UnrecoverableError /\ st_fs s' (Main Quorum) = None)
    \/ (forwarded e setup r /\ content (st_fs s') Quorum <> None /\ content (st_fs s') Eph = Some (encode live)).
  Proof.
    intros Wr C a s'. subst a s'. pose proof C as [R P St Ep Ls Lv Qn].
    assert (R' : reach Y (snd (handle Y r s))) by (now apply R_step).
    destruct (handle_cases r s) as [[V H1]|[(W & V & Q)|[(set & dr & -> & P')|[(e1 & pv & B & P')|[(sh & ap & -> & P')|(c & g & -> & _)]]]]];
      try congruence.
    - left. rewrite H1. exact C.
    - left. constructor; auto; rewrite ?(quiet_fs _ _ Q), ?(fx_phase _ _ _ Q), ?(fx_shares _ _ _ Q), ?(fx_pending _ _ _ Q); auto.
    - right. rewrite (handle_inject c g s P). destruct (inject_key Y c g s) as [r1 s1] eqn:E.
      destruct (inject_facts c g s e setup live r1 s1 C E) as [[Qs (x & ->)]|(seed & Fw & _ & Qs & Es)].
      + left. split; [reflexivity|exact Qs].
      + right. split; [exact Fw|]. destruct r1 as [[]|]; cbn; (split; [unfold content in *; cbn; congruence|exact Es]).
  Qed.

  Lemma forward_history e setup live rs : forall (s : st), Forall (fun r => wf_req r = true) rs -> expecting e setup live s ->
    content (st_fs (snd (serve Y rs s))) Quorum <> None ->
    (exists r, In r rs /\ forwarded e setup r) /\ content (st_fs (snd (serve Y rs s))) Eph = Some (encode live).
  Proof.
    induction rs as [|r rs IH]; intros s W C Q.
    - exfalso. apply Q. unfold content. cbn. now rewrite (ex_none _ _ _ _ C).
    - inversion W; subst. rewrite serve_cons in Q |- *. cbn [fst snd] in *.
      destruct (expecting_step e setup live r s H1 C) as [C'|[[D Qn]|(Fw & Qp & Ep)]].
      + destruct (IH _ H2 C' Q) as ((r' & I & F) & E). split; [exists r'; split; [now right|exact F]|exact E].
      + exfalso. apply Q. now apply quorum_gone.
      + split; [exists r; split; [now left|exact Fw]|]. rewrite <- Ep.
        apply serve_frozen; auto.
        * apply R_step; [apply (ex_reach _ _ _ _ C)|exact H1].
        * intros X. apply Qp. unfold content. now rewrite X.
  Qed.

  (** *** From an accepted boot to the waiting state *)
  Lemma boot_begins r e pv (s : st) a s' : reach Y s -> wf_req r = true -> boot_of r = Some (e, pv) -> handle Y r s = (a, s') -> is_error a = false ->
    exists setup live, content (st_fs s') Eph = Some (encode setup) /\ st_pending s' = Some live
      /\ (boot_target r = WaitingForQuorumShards -> collecting e setup live 0 s')
      /\ (boot_target r = WaitingForForwardedKey -> expecting e setup live s').
  Proof.
    intros R Wr B H N. pose proof (boot_accepted r e pv s a s' B H N) as (P & P' & Sh & A1 & A2 & A3 & setup & live & n & Hf & Pd & Ps & Rs & Rl & _).
    assert (R' : reach Y s') by (replace s' with (snd (handle Y r s)) by (now rewrite H); now apply R_step).
    destruct Hf as (F1 & F2 & F3 & F4 & F5 & (b & F6 & F7) & F8).
    assert (We : wf_envelope e = true) by (destruct r; try discriminate B; inversion B; subst; exact Wr).
    destruct (envelope_storage e We) as (b' & X1 & X2). assert (b' = b) as -> by congruence.
    assert (St : stored (st_fs s') e) by (exists b; split; [now apply content_some with (m := 292)|exact X2]).
    assert (Ls : length setup = 32%nat) by (subst setup; apply (ok_rng _ OK)).
    assert (Qn : st_fs s' (Main Quorum) = None).
    { destruct (st_fs s (Main Quorum)) as [v|] eqn:Q0; [|congruence]. exfalso.
      destruct (i_now _ (reach_inv OK s R) (fst v)) as (sd & k & e0 & p0 & lv & lk & sp & _ & _ & _ & (c0 & C0 & _) & _).
      - unfold content. now rewrite Q0.
      - unfold content in C0. rewrite F3 in C0. discriminate C0. }
    assert (Ep : content (st_fs s') Eph = Some (encode setup)) by (now apply content_some with (m := 292)).
    exists setup, live. split; [exact Ep|]. split; [exact Pd|].
    pose proof (i_phase _ (reach_inv OK s R)) as Ph. unfold phase_inv in Ph. rewrite P in Ph.
    split; intros T.
    - constructor; auto; try congruence. exists e. split; [exact St|apply extends_refl].
      rewrite Sh. destruct Ph as [-> _]. reflexivity.
    - constructor; auto; congruence.
  Qed.

  Lemma expecting_reach (s : st) : reach Y s -> st_phase s = WaitingForForwardedKey ->
    exists e setup live, expecting e setup live s /\ seed_for Y setup (match s_pair Y setup with Some k => public_to_bytes k | None => [] end).
  Proof.
    intros R P. pose proof (i_phase _ (reach_inv OK s R)) as Ph. unfold phase_inv in Ph. rewrite P in Ph.
    destruct Ph as ((e & b & mm & pv & setup & sk & live & lk & M1 & M2 & M3 & M4 & M5 & M6 & M7 & M8 & M9 & M10 & M11 & M12 & _) & _).
    exists e, setup, live. destruct (envelope_storage e M3) as (b' & X1 & X2).
    split; [|rewrite M10; now apply pair_seed]. constructor; auto.
    - exists b. split; [now apply content_some with (m := mm)|]. congruence.
    - now apply content_some with (m := 292).
  Qed.
End PP.
