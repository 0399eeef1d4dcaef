(** C54: an honest provisioning completes. *)
From Coq Require Import ZifyBool ZifyN ZifyNat.
From Verif Require Import Base Utf8 Hex HexProofs Types Json TypesJson StorageProofs Msg World Run FsProofs Attest Services
  ServiceProofs BootProofs State SpecProtocol HandleProofs Reach Invariant ProtocolProofs EffectProofs CalmProofs
  SpecApproval ApprovalProofs SpecAttest AttestProofs SpecHistory HistoryProofs ProvisionProofs SpecExport ExportProofs
  Shamir ShamirProofs PropsShamir SpecGenesis PropsGenesis CodecExamples Toy ToyRuns.
Local Open Scope N_scope.
Local Open Scope m_scope.

(** A provision request made honestly for [share]: the share encrypted to the
    enclave's published key, with a share-set member's signature of the manifest. *)
Definition honest_share (Y : sys) (m : versioned_manifest) (ek : bytes) (share : bytes) (r : msg) : Prop :=
  exists c a rnd, r = ProvisionRequest c a /\ s_encrypt Y ek rnd share = Ok c
    /\ In (ap_member a) (members (vm_share_set m)) /\ signed Y (manifest_hash Y m) a.

Section Live.
  Context {Y : sys} (OK : sys_ok Y) (NF : no_faults Y) (CR : crypto_ok Y).
  Local Notation st := (st Y).

  Lemma memb_member x l : In x l -> memb member_eqb x l = true.
  Proof.
    intros I. unfold memb. apply existsb_exists. exists x. split; [exact I|]. unfold member_eqb. now rewrite !bytes_eqb_refl.
  Qed.

  (** A share that is accepted is added, or triggers the reconstruction. *)
  Lemma provision_forward e setup k c a share live (s : st) :
    stored (st_fs s) e -> wf_envelope e = true -> jwf js_approval a = true ->
    signed Y (manifest_hash Y (env_manifest e)) a -> In (ap_member a) (members (vm_share_set (env_manifest e))) ->
    content (st_fs s) Eph = Some (encode setup) -> length setup = 32%nat -> s_pair Y setup = Some k ->
    s_decrypt Y setup c = Ok share -> share <> [] -> st_pending s = Some live -> st_fs s (Main Quorum) = None ->
    (lenN (st_shares s) + 1 < threshold (vm_share_set (env_manifest e)) -> fst (provision Y c a s) = Ok false) /\
    (threshold (vm_share_set (env_manifest e)) <= lenN (st_shares s) + 1 ->
     forall seed, s_combine Y (st_shares s ++ [share]) = Some seed -> seed_for Y seed (ns_quorum_key (vm_namespace (env_manifest e))) ->
       fst (provision Y c a s) = Ok true).
  Proof.
    intros St We Wa Sg Mem Ep Ls Pk Dc Ne Pd Qn.
    destruct (envelope_storage _ (push_wf a e We Wa)) as (b & Sb & _).
    assert (St' : stored (st_fs (tick_io s)) e) by exact St.
    destruct (calm_mutate NF (push_share_approval a) e b (tick_io s) St' Sb) as [s1 Hm].
    pose proof (kp_mutate (Main Eph) _ ltac:(discriminate) _ _ _ Hm) as Ke. pose proof (kp_mutate (Main Quorum) _ ltac:(discriminate) _ _ _ Hm) as Kq.
    assert (Ms : st_shares s1 = st_shares s /\ st_pending s1 = st_pending s).
    { pose proof Hm as Hm2. apply mutate_spec in Hm2 as [[N _]|(c' & m' & e' & _ & _ & X3)]; [congruence|].
      destruct (envelope_to_storage_vec (push_share_approval a e')); destruct X3 as [X3 X4].
      - split; [apply (fx_shares _ _ _ X3)|apply (fx_pending _ _ _ X3)].
      - split; [apply (fx_shares _ _ _ X4)|apply (fx_pending _ _ _ X4)]. }
    destruct Ms as [Ms Mp].
    assert (Ep1 : content (st_fs s1) Eph = Some (encode setup)) by (unfold content; rewrite Ke; exact Ep).
    assert (Ln : lenN (st_shares s1 ++ [share]) = lenN (st_shares s) + 1) by (rewrite Ms, !lenN_length, app_length; cbn [length]; lia).
    split; unfold provision; rewrite (bind_eq _ _ _ _ _ (calm_manifest NF e s St)); cbv zeta;
      unfold bind at 1; unfold lift at 1; rewrite (proj2 (approval_signed a _) Sg);
      rewrite (memb_member _ _ Mem); rewrite bind_guard; rewrite (bind_eq _ _ _ _ _ Hm);
      rewrite (bind_eq _ _ _ _ _ (calm_eph NF s1 setup k Ep1 Ls Pk));
      unfold bind at 1; unfold lift at 1; rewrite Dc; cbn [rmap_err];
      unfold add_share; (destruct share as [|x share]; [congruence|]);
      unfold bind at 1; unfold modify at 1; rewrite bind_gets; cbn [st_shares set_shares tick_io]; rewrite Ln.
    - intros Lt. apply N.ltb_lt in Lt. rewrite Lt. reflexivity.
    - intros Ge seed Cb (Lseed & ek & sk & Psd & Eq). replace (lenN (st_shares s) + 1 <? threshold (vm_share_set (env_manifest e))) with false by (symmetry; apply N.ltb_ge; exact Ge).
      unfold build_secret. unfold bind at 1 2. unfold gets at 1. cbn [st_shares set_shares tick_io]. rewrite Ms, Cb.
      destruct seed as [|y seed]; [discriminate Lseed|]. unfold ret at 1. unfold bind at 1, modify at 1.
      assert (Lg : lenN (y :: seed) =? 32 = true) by (rewrite lenN_length, Lseed; reflexivity). rewrite Lg, bind_guard.
      unfold bind at 1, lift at 1, from_master_seed. rewrite Psd. cbn [rmap_err].
      replace (bytes_eqb (public_to_bytes (ek, sk)) (ns_quorum_key (vm_namespace (env_manifest e)))) with true
        by (symmetry; rewrite Eq; apply bytes_eqb_refl). rewrite bind_guard.
      match goal with |- fst (_ ?t) = _ => set (s2 := t) end.
      assert (P2 : st_pending s2 = Some live) by (subst s2; cbn [st_pending set_shares tick_io]; congruence).
      assert (E2 : st_fs s2 (Main Eph) <> None).
      { subst s2. cbn [st_fs set_shares tick_io]. intros X. unfold content in Ep1. rewrite X in Ep1. discriminate. }
      assert (Q2 : st_fs s2 (Main Quorum) = None) by (change (st_fs s1 (Main Quorum) = None); rewrite Kq; exact Qn).
      destruct (calm_install NF (y :: seed) live s2 P2 E2 Q2) as [s3 HI]. unfold install in HI.
      apply bind_ok in HI as (lv & s4 & H1 & HI). rewrite (bind_eq _ _ _ _ _ H1).
      apply bind_ok in HI as ([] & s5 & H2 & HI). rewrite (bind_eq _ _ _ _ _ H2).
      rewrite (bind_eq _ _ _ _ _ HI). reflexivity.
  Qed.

  (** The state after boot with the shares received so far. *)
  Definition holding (e : versioned_envelope) (setup live : bytes) (l : list bytes) (s : st) : Prop :=
    collecting e setup live (lenN l) s /\ st_shares s = l.

  Lemma live_step e setup live k l r share (s : st) : holding e setup live l s -> wf_req r = true ->
    s_pair Y setup = Some k -> honest_share Y (env_manifest e) (fst k) share r -> share <> [] ->
    (lenN l + 1 < threshold (vm_share_set (env_manifest e)) ->
       fst (handle Y r s) = ProvisionResponse false /\ holding e setup live (l ++ [share]) (snd (handle Y r s))) /\
    (threshold (vm_share_set (env_manifest e)) <= lenN l + 1 ->
     forall seed, s_combine Y (l ++ [share]) = Some seed -> seed_for Y seed (ns_quorum_key (vm_namespace (env_manifest e))) ->
       fst (handle Y r s) = ProvisionResponse true /\ st_phase (snd (handle Y r s)) = QuorumKeyProvisioned
       /\ content (st_fs (snd (handle Y r s))) Quorum = Some (encode seed)).
  Proof.
    intros [C Sh] Wr Pk (c & a & rnd & -> & En & Mem & Sg) Ne. destruct k as [ek sk]. cbn [fst] in En.
    pose proof (cr_decrypt Y CR _ _ _ _ _ _ Pk En) as Dc.
    pose proof C as [R P (e' & St & Ex) Len Ep Ls Lv Qn]. pose proof (stored_wf OK s e' R P St) as We.
    destruct Ex as (Em & Ea & El). assert (Wa : jwf js_approval a = true) by exact Wr.
    destruct (provision_forward e' setup (ek, sk) c a share live s St We Wa) as [F1 F2]; try (rewrite Em); try assumption.
    rewrite Em in F1, F2. rewrite Sh in F1, F2.
    assert (R' : reach Y (snd (handle Y (ProvisionRequest c a) s))) by (now apply R_step).
    rewrite (handle_provision c a s P) in *. destruct (provision Y c a s) as [r1 s1] eqn:E. cbn [fst] in F1, F2.
    split.
    - intros Lt. specialize (F1 Lt). subst r1. cbn [fst snd]. split; [reflexivity|].
      apply provision_spec in E as (Ph & [[[x X] _]|(e2 & plain & b & SO & Sb & X)]); [discriminate X|].
      assert (e2 = e') as -> by (eapply stored_inj; [eapply share_ok_stored; eauto|exact St]).
      destruct X as [(_ & _ & G & F & O & Sh' & Pd)|(seed & kk & s2 & _ & _ & _ & _ & _ & _ & _ & _ & _ & _ & r2 & _ & [[_ X]|(x & _ & X)])]; [|discriminate X|discriminate X].
      assert (plain = share) as ->.
      { destruct SO as (_ & _ & _ & (c0 & m0 & eph & k0 & F0 & D0 & _ & Dc0) & _).
        assert (c0 = encode setup) as -> by (unfold content in Ep; rewrite F0 in Ep; cbn in Ep; congruence).
        rewrite (seed_of_hex_encode setup Ls) in D0. congruence. }
      split; [|rewrite Sh', Sh; reflexivity]. constructor; auto.
      + congruence.
      + exists (push_share_approval a e'). split; [eapply stored_push; eauto|].
        eapply extends_trans; [split; [exact Em|split; [exact Ea|exact El]]|apply extends_push].
      + rewrite Sh', Sh. reflexivity.
      + unfold content. rewrite O by notin. exact Ep.
      + congruence.
      + rewrite O by notin. exact Qn.
    - intros Ge seed Cb SF. specialize (F2 Ge seed Cb SF). subst r1. cbn [fst snd]. split; [reflexivity|]. split; [reflexivity|].
      apply provision_spec in E as (Ph & [[[x X] _]|(e2 & plain & b & SO & Sb & X)]); [discriminate X|].
      destruct X as [(X & _)|(seed' & kk & s2 & _ & Cb' & Lsd & _ & _ & G & _ & O & _ & Pd & r2 & HI & HR)]; [discriminate X|].
      assert (plain = share) as ->.
      { destruct SO as (_ & _ & _ & (c0 & m0 & eph & k0 & F0 & D0 & _ & Dc0) & _).
        assert (c0 = encode setup) as -> by (unfold content in Ep; rewrite F0 in Ep; cbn in Ep; congruence).
        rewrite (seed_of_hex_encode setup Ls) in D0. congruence. }
      rewrite Sh in Cb'. assert (seed' = seed) as -> by congruence.
      cbn [st_fs set_phase]. destruct HR as [[-> _]|(x & -> & X)]; [|discriminate X].
      assert (Q2 : st_fs s2 (Main Quorum) = None) by (rewrite O by notin; exact Qn).
      assert (Pd2 : st_pending s2 = Some live) by congruence.
      apply install_spec in HI as (_ & _ & HI). rewrite Pd2 in HI. destruct HI as (_ & _ & HI). destruct (HI eq_refl) as (_ & F' & _).
      unfold content. rewrite F'. reflexivity.
  Qed.

  Lemma other_step e setup live l r (s : st) : holding e setup live l s -> wf_req r = true -> is_provision r = false ->
    holding e setup live l (snd (handle Y r s)).
  Proof.
    intros [C Sh] Wr Np. pose proof C as [R P _ _ _ _ _ _].
    destruct (collecting_step OK e setup live (lenN l) r s Wr C) as [[_ C']|[(Yp & _)|[[D _]|(Yp & _)]]]; try congruence.
    - split; [exact C'|].
      destruct (handle_cases r s) as [[V H1]|[(W & V & Q)|[(set & dr & -> & P')|[(e1 & pv & B & P')|[(sh & ap & -> & _)|(c & g & -> & P')]]]]]; try congruence.
      + rewrite H1. exact Sh.
      + rewrite (fx_shares _ _ _ Q). exact Sh.
      + discriminate Np.
    - destruct (handle_cases r s) as [[V H1]|[(W & V & Q)|[(set & dr & -> & P')|[(e1 & pv & B & P')|[(sh & ap & -> & _)|(c & g & -> & P')]]]]]; try congruence.
      + rewrite H1 in D. cbn [snd] in D. congruence.
      + rewrite (fx_phase _ _ _ Q) in D. congruence.
      + discriminate Np.
  Qed.

  (** Once provisioned, whatever comes leaves the phase and the key. *)
  Lemma done_serve seed rs : forall s : st, st_phase s = QuorumKeyProvisioned -> content (st_fs s) Quorum = Some (encode seed) ->
    st_phase (snd (serve Y rs s)) = QuorumKeyProvisioned /\ content (st_fs (snd (serve Y rs s))) Quorum = Some (encode seed).
  Proof.
    induction rs as [|r rs IH]; intros s P Q; [auto|]. rewrite serve_cons. cbn [snd].
    destruct (handle_cases r s) as [[V H1]|[(W & V & Qt)|[(set & dr & -> & P')|[(e1 & pv & B & P')|[(sh & ap & -> & P')|(c & g & -> & P')]]]]]; try congruence.
    - rewrite H1. cbn [snd]. now apply IH.
    - apply IH; [rewrite (fx_phase _ _ _ Qt); exact P|rewrite (quiet_fs _ _ Qt); exact Q].
  Qed.

  Lemma live_serve e setup live k seed rs : s_pair Y setup = Some k -> seed_for Y seed (ns_quorum_key (vm_namespace (env_manifest e))) ->
    forall l todo (s : st), holding e setup live l s -> Forall (fun r => wf_req r = true) rs ->
    Forall2 (honest_share Y (env_manifest e) (fst k)) todo (filter is_provision rs) -> Forall (fun sh => sh <> []) todo ->
    todo <> [] -> lenN (l ++ todo) = N.max 1 (threshold (vm_share_set (env_manifest e))) ->
    s_combine Y (l ++ todo) = Some seed ->
    st_phase (snd (serve Y rs s)) = QuorumKeyProvisioned /\ content (st_fs (snd (serve Y rs s))) Quorum = Some (encode seed)
    /\ map snd (filter (fun p => is_provision (fst p)) (combine rs (fst (serve Y rs s))))
       = repeat (ProvisionResponse false) (length todo - 1) ++ [ProvisionResponse true].
  Proof.
    intros Pk SF. induction rs as [|r rs IH]; intros l todo s H W F NE NT LN CB.
    - cbn [filter] in F. inversion F; subst. congruence.
    - inversion W as [|? ? W1 W2]; subst. rewrite serve_cons. cbn [fst snd combine filter]. cbn [filter] in F. destruct (is_provision r) eqn:Ip.
      + inversion F as [|share r' todo' rs' HS F']; subst. inversion NE as [|? ? NE1 NE2]; subst.
        destruct (live_step e setup live k l r share s H W1 Pk HS NE1) as [S1 S2].
        assert (A : l ++ share :: todo' = (l ++ [share]) ++ todo') by (now rewrite <- app_assoc). rewrite A in LN, CB.
        destruct todo' as [|t2 todo'].
        * rewrite app_nil_r in LN, CB.
          assert (Ge : threshold (vm_share_set (env_manifest e)) <= lenN l + 1).
          { rewrite lenN_length, app_length in LN. cbn [length] in LN. rewrite lenN_length. lia. }
          destruct (S2 Ge seed CB SF) as (A1 & A2 & A3). destruct (done_serve seed rs _ A2 A3) as [B1 B2].
          split; [exact B1|]. split; [exact B2|]. cbn [map snd fst length Nat.sub repeat app]. rewrite A1. f_equal.
          inversion F'. clear - H0. revert H0. generalize (fst (serve Y rs (snd (handle Y r s)))). induction rs as [|x rs IH]; intros an H0; [reflexivity|].
          cbn [filter] in H0. destruct (is_provision x) eqn:X; [discriminate|]. destruct an as [|y an]; [reflexivity|].
          cbn [combine filter fst]. rewrite X. now apply IH.
        * assert (Lt : lenN l + 1 < threshold (vm_share_set (env_manifest e))).
          { rewrite lenN_length, !app_length in LN. cbn [length] in LN. rewrite lenN_length. lia. }
          destruct (S1 Lt) as [A1 A2].
          destruct (IH (l ++ [share]) (t2 :: todo') _ A2 W2 F') as (B1 & B2 & B3); [exact NE2|discriminate|exact LN|exact CB|].
          split; [exact B1|]. split; [exact B2|]. cbn [map snd]. rewrite A1, B3. cbn [length Nat.sub]. rewrite Nat.sub_0_r. reflexivity.
      + pose proof (other_step e setup live l r s H W1 Ip) as H'. exact (IH l todo _ H' W2 F NE NT LN CB).
  Qed.
End Live.

(** ** C54.  In a world without file-system faults, after an accepted standard
    boot of a manifest whose quorum key was shared with the share set's
    threshold, let [threshold] honest share holders post their (distinct)
    shares, in any order, mixed with any other requests: every post but the last
    is answered "not yet", the last one "provisioned", and the enclave ends up
    provisioned with exactly the shared key. *)
Theorem c54_honest_provisioning_completes : forall Y, sys_ok Y -> no_faults Y -> crypto_ok Y -> sharing_ok Y ->
  forall s r e pv a s', reach Y s -> wf_req r = true -> boot_of r = Some (e, pv) -> boot_target r = WaitingForQuorumShards ->
  handle Y r s = (a, s') -> is_error a = false ->
  exists setup, content (st_fs s') Eph = Some (encode setup) /\
  forall ek sk coeffs seed n shares chosen rs,
    s_pair Y setup = Some (ek, sk) ->
    let t := threshold (vm_share_set (env_manifest e)) in
    drawn_for seed t coeffs -> shares_generate coeffs seed n t = Some shares ->
    seed_for Y seed (ns_quorum_key (vm_namespace (env_manifest e))) ->
    incl chosen shares -> NoDup chosen -> lenN chosen = t ->
    Forall (fun q => wf_req q = true) rs ->
    Forall2 (honest_share Y (env_manifest e) ek) chosen (filter is_provision rs) ->
    st_phase (snd (serve Y rs s')) = QuorumKeyProvisioned
    /\ content (st_fs (snd (serve Y rs s'))) Quorum = Some (encode seed)
    /\ map snd (filter (fun p => is_provision (fst p)) (combine rs (fst (serve Y rs s'))))
       = repeat (ProvisionResponse false) (N.to_nat t - 1) ++ [ProvisionResponse true].
Proof.
  intros Y OK NF CR SH s r e pv a s' R Wr B T H N.
  destruct (boot_begins OK r e pv s a s' R Wr B H N) as (setup & live & Ep & Pd & C & _). specialize (C T).
  exists setup. split; [exact Ep|]. intros ek sk coeffs seed n shares chosen rs Pk t D G SF Inc ND K W F.
  pose proof (generated _ _ _ _ _ G) as (K2 & _).
  assert (H0 : holding e setup live [] s').
  { split; [exact C|]. pose proof (co_shares _ _ _ _ _ C) as L. destruct (st_shares s'); [reflexivity|]. rewrite lenN_length in L. cbn [length] in L. lia. }
  assert (NE : Forall (fun sh : bytes => sh <> []) chosen).
  { apply Forall_forall. intros x I. apply Inc in I. apply (in_generated _ _ _ _ _ _ G) in I as (y & _ & ->). discriminate. }
  replace (N.to_nat t - 1)%nat with (length chosen - 1)%nat by (rewrite lenN_length in K; lia).
  apply (live_serve OK NF CR e setup live (ek, sk) seed rs Pk SF [] chosen s' H0 W F NE).
  - intros ->. cbn in K. lia.
  - cbn [app]. fold t. lia.
  - cbn [app]. rewrite (sh_combine Y SH). apply (c25_any_k_shares_reconstruct coeffs seed n t shares chosen D G Inc ND). lia.
Qed.
Print Assumptions c54_honest_provisioning_completes.

(** A 2-of-3 sharing of the manifest's quorum key; the third and the first
    holders post, with a status request in between and one after. *)
Definition l_coeffs : list bytes := map (fun i => [n2b (N.of_nat i)]) (seq 60 32).
Definition l_shares : list bytes := map (fun i => share_at l_coeffs seed_q (n2b (N.of_nat i))) (seq 1 3).
Definition l_s0 : st TS := fresh TS no_files toy_nsm0 0 0 [].
Definition l_prov (share seed : bytes) (who : quorum_member) : msg := ProvisionRequest (setup_seed 0 ++ share) (approve seed who tm).
Definition l_chosen : list bytes := [nth 2 l_shares []; nth 0 l_shares []].
Definition l_rs : list msg := [l_prov (nth 2 l_shares []) seed_b bob; StatusRequest; l_prov (nth 0 l_shares []) seed_a alice; StatusRequest].
Example c54_nontrivial : sys_ok TS /\ no_faults TS /\ crypto_ok TS /\ sharing_ok TS /\ reach TS l_s0 /\ wf_req boot_std = true /\
  is_error (fst (handle TS boot_std l_s0)) = false /\ boot_target boot_std = WaitingForQuorumShards /\
  content (st_fs (snd (handle TS boot_std l_s0))) Eph = Some (encode (setup_seed 0)) /\
  exists ek sk, s_pair TS (setup_seed 0) = Some (ek, sk) /\ drawn_for seed_q 2 l_coeffs /\ shares_generate l_coeffs seed_q 3 2 = Some l_shares /\
  seed_for TS seed_q (ns_quorum_key (vm_namespace (VM2 tm))) /\ incl l_chosen l_shares /\ NoDup l_chosen /\
  Forall (fun q => wf_req q = true) l_rs /\ Forall2 (honest_share TS (VM2 tm) ek) l_chosen (filter is_provision l_rs) /\
  lenN l_chosen = threshold (vm_share_set (VM2 tm)).
Proof.
  split; [apply shamir_ok, toy_ok|]. split; [intros n; reflexivity|]. split; [apply shamir_crypto, toy_crypto|]. split; [apply shamir_sharing|].
  split; [apply R_init; intros; reflexivity|]. split; [vm_compute; reflexivity|]. split; [vm_compute; reflexivity|]. split; [reflexivity|].
  split; [vm_compute; reflexivity|]. eexists; eexists. split; [vm_compute; reflexivity|].
  split; [split; [reflexivity|]; apply Forall_forall; unfold l_coeffs; apply Forall_map, Forall_forall; reflexivity|].
  split; [reflexivity|]. split; [split; [reflexivity|]; eexists; eexists; split; [vm_compute; reflexivity|reflexivity]|].
  split; [intros x [<-|[<-|[]]]; cbn; tauto|].
  split; [constructor; [intros [X|[]]; vm_compute in X; discriminate X|constructor; [intros []|constructor]]|].
  split; [apply Forall_forall, forallb_forall; vm_compute; reflexivity|].
  split; [|reflexivity].
  assert (HS : forall share seed who, In who (members sset) -> signed TS (manifest_hash TS (VM2 tm)) (approve seed who tm) ->
    honest_share TS (VM2 tm) (x04 :: setup_seed 0 ++ repeat x00 32) share (l_prov share seed who)).
  { intros share seed who I S. exists (setup_seed 0 ++ share), (approve seed who tm), []. split; [reflexivity|]. split; [|split; [exact I|exact S]].
    change (toy_encrypt (x04 :: setup_seed 0 ++ repeat x00 32) [] share = Ok (setup_seed 0 ++ share)).
    unfold toy_encrypt. rewrite seed_in_ok by reflexivity. reflexivity. }
  constructor; [|constructor; [|constructor]]; apply HS; try (cbn; tauto); apply approval_signed; vm_compute; reflexivity.
Qed.

(** ** C54, the limit: a share set whose threshold is below two can never
    provision the enclave, whatever is sent: a single share does not reconstruct
    ([vsss] wants two) and the failed attempt is final. *)
Theorem c54_threshold_below_two_never_provisions : forall Y, sys_ok Y -> sharing_ok Y ->
  forall s r e pv a s', reach Y s -> wf_req r = true -> boot_of r = Some (e, pv) -> boot_target r = WaitingForQuorumShards ->
  handle Y r s = (a, s') -> is_error a = false -> threshold (vm_share_set (env_manifest e)) < 2 ->
  forall rs, Forall (fun q => wf_req q = true) rs ->
    st_fs (snd (serve Y rs s')) (Main Quorum) = None
    /\ st_phase (snd (serve Y rs s')) = (if existsb is_provision rs then UnrecoverableError else WaitingForQuorumShards).
Proof.
  intros Y OK SH s r e pv a s' R Wr B T H N Th rs.
  destruct (boot_begins OK r e pv s a s' R Wr B H N) as (setup & live & Ep & Pd & C & _). specialize (C T).
  assert (H0 : holding e setup live [] s').
  { split; [exact C|]. pose proof (co_shares _ _ _ _ _ C) as L. destruct (st_shares s'); [reflexivity|]. rewrite lenN_length in L. cbn [length] in L. lia. }
  clear R Wr B T H N Ep Pd C. revert H0. generalize s'. clear s' s r a.
  assert (Dead : forall rs (s : st Y), st_phase s = UnrecoverableError -> st_fs s (Main Quorum) = None ->
    st_phase (snd (serve Y rs s)) = UnrecoverableError /\ st_fs (snd (serve Y rs s)) (Main Quorum) = None).
  { clear. induction rs as [|r rs IH]; intros s P Q; [auto|].
    rewrite serve_cons. cbn [snd]. apply IH;
      (destruct (handle_cases r s) as [[V H1]|[(Wt & V & Qt)|[(set & dr & -> & P')|[(e1 & pv & B & P')|[(sh & ap & -> & P')|(c & g & -> & P')]]]]];
       [rewrite H1; assumption|rewrite ?(fx_phase _ _ _ Qt), ?(quiet_fs _ _ Qt); assumption|congruence|congruence|congruence|congruence]). }
  induction rs as [|r rs IH]; intros s H0 W.
  - destruct H0 as [C _]. cbn. split; [apply (co_none _ _ _ _ _ C)|apply (co_phase _ _ _ _ _ C)].
  - inversion W as [|? ? W1 W2]; subst. rewrite serve_cons. cbn [snd existsb]. destruct (is_provision r) eqn:Ip; cbn [orb].
    + destruct H0 as [C Sh]. apply and_comm. apply Dead; destruct r; try discriminate Ip;
        rewrite (handle_provision _ _ s (co_phase _ _ _ _ _ C));
        match goal with |- context [provision Y ?x ?y s] => destruct (provision Y x y s) as [r1 s1] eqn:E end;
        apply provision_spec in E as (Ph & [[[z ->] G]|(e2 & plain & b & SO & Sb & X)]); try reflexivity.
      all: try (destruct X as [(_ & Lt & _)|(seed & kk & s2 & _ & Cb & _)];
        [rewrite Sh in Lt; destruct C as [R P (e' & St & (Em & _)) Len Ep Ls Lv Qn];
         assert (e2 = e') as -> by (eapply stored_inj; [eapply share_ok_stored; eauto|exact St]);
         rewrite Em in Lt; cbn in Lt; lia
        |rewrite Sh, (sh_combine Y SH) in Cb; discriminate Cb]).
      cbn [snd st_fs set_phase]. pose proof (co_none _ _ _ _ _ C) as Qn.
      apply (gx_fs (fun f => f (Main Quorum) = None) _ _ _ G); [exact Qn|]. intros y (O & _). rewrite O by notin. exact Qn.
    + apply IH; [|exact W2]. now apply other_step.
Qed.
Print Assumptions c54_threshold_below_two_never_provisions.
