(** C64: an approved manifest boots. *)
From Coq Require Import ZifyBool ZifyN ZifyNat.
From Verif Require Import Base Utf8 Hex HexProofs Borsh Types TypesBorsh Json TypesJson StorageProofs Msg World Run FsProofs Attest Services
  ServiceProofs BootProofs State SpecProtocol HandleProofs Reach Invariant ProtocolProofs EffectProofs CalmProofs SpecAttest AttestProofs
  SpecExport ExportProofs CodecExamples Toy ToyRuns.
Local Open Scope N_scope.
Local Open Scope m_scope.

(** *** Specification: a security module that works. *)
Record device (Y : sys) : Type := Device {
  dv_max : N; dv_pcr : s_nsm Y -> N -> bytes; dv_locked : s_nsm Y -> N -> bool;
  dv_good : s_nsm Y -> Prop; (* the states such a device can be in *)
  dv_valid : N -> Prop (* when its certificates are valid *) }.
Arguments dv_max {Y}. Arguments dv_pcr {Y}. Arguments dv_locked {Y}. Arguments dv_good {Y}. Arguments dv_valid {Y}.
Definition unchanged {Y} (D : device Y) (n n' : s_nsm Y) : Prop := forall i, dv_pcr D n' i = dv_pcr D n i /\ dv_locked D n' i = dv_locked D n i.
(** The document is genuine while the certificates are valid. *)
Definition authentic {Y} (D : device Y) (cose : bytes) (d : att_doc) : Prop :=
  s_doc Y cose = Some d /\ doc_syntax 32 d /\ s_cose_sig_ok Y (ad_certificate d) cose = true
  /\ forall now, dv_valid D now -> s_chain_ok Y (tl (ad_cabundle d)) (s_root Y) (ad_certificate d) now = true.
Record working {Y} (D : device Y) : Prop := Working {
  wk_max : 32 <= dv_max D;
  wk_describe : forall n, dv_good D n -> exists a b c m locked n', s_nsm_step Y n DescribeNSM = (RDescribeNSM a b c m (dv_max D) locked SHA384, n')
    /\ dv_good D n' /\ unchanged D n n' /\ forall i, i < dv_max D -> (In i locked <-> dv_locked D n i = true);
  wk_pcr : forall n i, dv_good D n -> i < dv_max D -> exists n', s_nsm_step Y n (DescribePCR i) = (RDescribePCR (dv_locked D n i) (dv_pcr D n i), n') /\ dv_good D n' /\ unchanged D n n';
  wk_extend : forall n i x, dv_good D n -> i = 16 \/ i = 17 -> dv_locked D n i = false ->
    exists n', s_nsm_step Y n (ExtendPCR i x) = (RExtendPCR (s_sha384 Y (dv_pcr D n i ++ x)), n')
      /\ dv_good D n' /\ dv_pcr D n' i = s_sha384 Y (dv_pcr D n i ++ x) /\ (forall j, j <> i -> dv_pcr D n' j = dv_pcr D n j) /\ forall j, dv_locked D n' j = dv_locked D n j;
  wk_lock : forall n, dv_good D n -> exists n', s_nsm_step Y n (LockPCRs (dv_max D)) = (RLockPCRs, n')
    /\ dv_good D n' /\ (forall i, dv_pcr D n' i = dv_pcr D n i) /\ forall i, i < dv_max D -> dv_locked D n' i = true;
  wk_attest : forall n u k, dv_good D n -> length u = 32%nat -> (forall k', k = Some k' -> length k' = 130%nat) ->
    exists cose d n', s_nsm_step Y n (Attestation (Some u) None k) = (RAttestation cose, n') /\ unchanged D n n'
      /\ authentic D cose d /\ ad_user_data d = Some u /\ ad_nonce d = None /\ ad_public_key d = k
      /\ forall i, i < 32 -> pcr_is d i (dv_pcr D n i) }.
(** Nothing has been committed to it yet. *)
Definition blank {Y} (D : device Y) (n : s_nsm Y) : Prop :=
  dv_good D n /\ forall i, i = 16 \/ i = 17 -> dv_pcr D n i = repeat x00 48 /\ dv_locked D n i = false.

Section Boot.
  Context {Y : sys} (OK : sys_ok Y) (NF : no_faults Y) (D : device Y) (WK : working D).
  Local Notation st := (st Y).
  Local Notation stays := (fun s s' : st => dv_good D (st_nsm s') /\ st_fs s' = st_fs s /\ st_phase s' = st_phase s).

  Lemma op_nsm_eq q (s : st) a n : s_nsm_step Y (st_nsm s) q = (a, n) -> op_nsm Y q s = (Ok a, eff_nsm (EvNsm q a) n s).
  Proof. intros H. unfold op_nsm. rewrite H. reflexivity. Qed.

  Lemma describe_works (s : st) : dv_good D (st_nsm s) -> exists locked s', describe_nsm Y s = (Ok (dv_max D, locked, SHA384), s')
    /\ stays s s' /\ unchanged D (st_nsm s) (st_nsm s') /\ forall i, i < dv_max D -> (In i locked <-> dv_locked D (st_nsm s) i = true).
  Proof.
    intros Gd. destruct (wk_describe D WK (st_nsm s) Gd) as (a & b & c & m & locked & n' & E & G' & U & L).
    exists locked, (eff_nsm (EvNsm DescribeNSM (RDescribeNSM a b c m (dv_max D) locked SHA384)) n' s).
    unfold describe_nsm. rewrite (bind_eq _ _ _ _ _ (op_nsm_eq _ _ _ _ E)). split; [reflexivity|]. split; [split; [exact G'|split; reflexivity]|]. split; [exact U|exact L].
  Qed.
  Lemma describe_pcr_works i (s : st) : dv_good D (st_nsm s) -> i < dv_max D -> exists s', describe_pcr Y i s = (Ok (dv_locked D (st_nsm s) i, dv_pcr D (st_nsm s) i), s')
    /\ stays s s' /\ unchanged D (st_nsm s) (st_nsm s').
  Proof.
    intros Gd Hi. destruct (wk_pcr D WK (st_nsm s) i Gd Hi) as (n' & E & G' & U).
    eexists. unfold describe_pcr. rewrite (bind_eq _ _ _ _ _ (op_nsm_eq _ _ _ _ E)). split; [reflexivity|]. split; [split; [exact G'|split; reflexivity]|exact U].
  Qed.
  Lemma memb_N i l : memb N.eqb i l = true <-> In i l.
  Proof. unfold memb. rewrite existsb_exists. split; [intros (y & I & E); apply N.eqb_eq in E; now subst|intros I; exists i; split; [exact I|apply N.eqb_refl]]. Qed.

  Lemma extend_works k locked mh eph (s : st) : dv_good D (st_nsm s) -> dv_locked D (st_nsm s) (pcr_index k) = false -> dv_pcr D (st_nsm s) (pcr_index k) = repeat x00 48 ->
    (In (pcr_index k) locked -> False) ->
    exists s', extend_commitment Y k (dv_max D) locked mh eph s = (Ok (committed_value Y k mh eph), s')
      /\ stays s s' /\ dv_pcr D (st_nsm s') (pcr_index k) = committed_value Y k mh eph
      /\ (forall j, j <> pcr_index k -> dv_pcr D (st_nsm s') j = dv_pcr D (st_nsm s) j) /\ forall j, dv_locked D (st_nsm s') j = dv_locked D (st_nsm s) j.
  Proof.
    intros Gd Lk Z NI. pose proof (wk_max D WK) as Mx. assert (Hk : pcr_index k = 16 \/ pcr_index k = 17) by (destruct k; cbn; auto).
    assert (Hi : pcr_index k < dv_max D) by lia. unfold extend_commitment. cbv zeta.
    replace (dv_max D <=? pcr_index k) with false by (symmetry; apply N.leb_gt; exact Hi). cbn [negb]. rewrite bind_guard.
    replace (memb N.eqb (pcr_index k) locked) with false by (symmetry; apply Bool.not_true_is_false; intros X; apply memb_N in X; auto). cbn [negb]. rewrite bind_guard.
    destruct (describe_pcr_works (pcr_index k) s Gd Hi) as (s1 & E & (G1 & F1 & P1) & U). rewrite (bind_eq _ _ _ _ _ E). rewrite Lk, Z. cbn [negb]. rewrite bind_guard.
    replace (bytes_eqb (repeat x00 48) INITIAL_PCR) with true by (symmetry; apply bytes_eqb_refl). rewrite bind_guard.
    unfold pcr_extend_sha384. rewrite lenN_length, repeat_length. change (N.of_nat 48 =? 48) with true. cbv iota. unfold lift at 1. unfold bind at 1. cbn [rmap_err].
    destruct (U (pcr_index k)) as [U1 U2]. rewrite <- U2 in Lk.
    destruct (wk_extend D WK (st_nsm s1) (pcr_index k) (manifest_pcr_commitment Y k mh eph) G1 Hk Lk) as (n' & X & G2 & V & O & L).
    rewrite U1, Z in X, V. rewrite (bind_eq _ _ _ _ _ (op_nsm_eq _ _ _ _ X)).
    assert (CV : s_sha384 Y (repeat x00 48 ++ manifest_pcr_commitment Y k mh eph) = committed_value Y k mh eph).
    { unfold committed_value, manifest_pcr_commitment. now rewrite preimage_text. }
    rewrite CV in *. rewrite bytes_eqb_refl, bind_guard. eexists. split; [reflexivity|]. split; [split; [exact G2|split; [exact F1|exact P1]]|]. split; [exact V|].
    split; [intros j Hj; cbn [eff_nsm st_nsm]; rewrite (O j Hj); apply U|intros j; cbn [eff_nsm st_nsm]; rewrite (L j); apply U].
  Qed.

  Lemma verify_works k v (s : st) : dv_good D (st_nsm s) -> dv_locked D (st_nsm s) (pcr_index k) = true -> dv_pcr D (st_nsm s) (pcr_index k) = v ->
    exists s', verify_locked Y k v s = (Ok tt, s') /\ stays s s' /\ unchanged D (st_nsm s) (st_nsm s').
  Proof.
    intros Gd Lk V. pose proof (wk_max D WK) as Mx. assert (Hi : pcr_index k < dv_max D) by (destruct k; cbn; lia).
    destruct (describe_pcr_works (pcr_index k) s Gd Hi) as (s1 & E & S & U). exists s1. unfold verify_locked. rewrite (bind_eq _ _ _ _ _ E), Lk, V, bind_guard, bytes_eqb_refl.
    split; [reflexivity|]. split; [exact S|exact U].
  Qed.

  Lemma lock_works mh setup_pub live_pub (s : st) : blank D (st_nsm s) ->
    exists s', lock_manifest_commitment_pcr_bank Y mh setup_pub live_pub s = (Ok tt, s')
      /\ stays s s' /\ dv_pcr D (st_nsm s') 16 = committed_value Y Setup mh setup_pub /\ dv_pcr D (st_nsm s') 17 = committed_value Y Live mh live_pub
      /\ (forall i, i <> 16 -> i <> 17 -> dv_pcr D (st_nsm s') i = dv_pcr D (st_nsm s) i).
  Proof.
    intros [Gd B]. pose proof (wk_max D WK) as Mx. unfold lock_manifest_commitment_pcr_bank.
    destruct (describe_works s Gd) as (locked & s1 & E1 & (G1 & F1 & P1) & U1 & L1). rewrite (bind_eq _ _ _ _ _ E1). cbn [digest_eqb]. rewrite bind_guard.
    replace (dv_max D <? ATTESTABLE_PCR_COUNT) with false by (symmetry; apply N.ltb_ge; exact Mx). cbn [negb]. rewrite bind_guard.
    destruct (B 16 (or_introl eq_refl)) as [Z16 K16]. destruct (B 17 (or_intror eq_refl)) as [Z17 K17].
    destruct (extend_works Setup locked mh setup_pub s1) as (s2 & E2 & (G2 & F2 & P2) & V2 & O2 & L2).
    { exact G1. }
    { cbn [pcr_index]. rewrite (proj2 (U1 16)). exact K16. }
    { cbn [pcr_index]. rewrite (proj1 (U1 16)). exact Z16. }
    { cbn [pcr_index]. intros I. apply L1 in I; [congruence|lia]. }
    rewrite (bind_eq _ _ _ _ _ E2).
    destruct (extend_works Live locked mh live_pub s2) as (s3 & E3 & (G3 & F3 & P3) & V3 & O3 & L3).
    { exact G2. }
    { cbn [pcr_index]. rewrite L2, (proj2 (U1 17)). exact K17. }
    { cbn [pcr_index]. rewrite O2 by discriminate. rewrite (proj1 (U1 17)). exact Z17. }
    { cbn [pcr_index]. intros I. apply L1 in I; [congruence|lia]. }
    rewrite (bind_eq _ _ _ _ _ E3).
    destruct (wk_lock D WK (st_nsm s3) G3) as (n4 & E4 & G4 & V4 & L4). rewrite (bind_eq _ _ _ _ _ (op_nsm_eq _ _ _ _ E4)).
    set (s4 := eff_nsm _ n4 s3). unfold bind at 1. unfold ret at 1.
    destruct (describe_works s4 G4) as (locked' & s5 & E5 & (G5 & F5 & P5) & U5 & L5). rewrite (bind_eq _ _ _ _ _ E5). rewrite N.eqb_refl, bind_guard.
    replace (all_locked (dv_max D) locked') with true.
    2:{ symmetry. unfold all_locked. apply forallb_forall. intros i I. apply in_map_iff in I as (j & <- & I). apply in_seq in I. apply memb_N.
        apply L5; [lia|]. apply L4. lia. }
    rewrite bind_guard.
    assert (A16 : dv_pcr D (st_nsm s5) 16 = committed_value Y Setup mh setup_pub).
    { rewrite (proj1 (U5 16)). cbn [s4 eff_nsm st_nsm]. rewrite V4. cbn [pcr_index] in *. rewrite O3 by discriminate. exact V2. }
    assert (A17 : dv_pcr D (st_nsm s5) 17 = committed_value Y Live mh live_pub).
    { rewrite (proj1 (U5 17)). cbn [s4 eff_nsm st_nsm]. rewrite V4. exact V3. }
    destruct (verify_works Setup (committed_value Y Setup mh setup_pub) s5) as (s6 & E6 & (G6 & F6 & P6) & U6).
    { exact G5. }
    { cbn [pcr_index]. rewrite (proj2 (U5 16)). apply L4. lia. }
    { exact A16. }
    rewrite (bind_eq _ _ _ _ _ E6).
    destruct (verify_works Live (committed_value Y Live mh live_pub) s6) as (s7 & E7 & (G7 & F7 & P7) & U7).
    { exact G6. }
    { cbn [pcr_index]. rewrite (proj2 (U6 17)), (proj2 (U5 17)). apply L4. lia. }
    { cbn [pcr_index]. rewrite (proj1 (U6 17)). exact A17. }
    exists s7. split; [exact E7|]. split; [split; [exact G7|split; [rewrite F7, F6, F5; cbn [s4 eff_nsm st_fs]; congruence|rewrite P7, P6, P5; cbn [s4 eff_nsm st_phase]; congruence]]|].
    split; [rewrite (proj1 (U7 16)), (proj1 (U6 16)); exact A16|]. split; [rewrite (proj1 (U7 17)), (proj1 (U6 17)); exact A17|].
    intros i H16 H17. rewrite (proj1 (U7 i)), (proj1 (U6 i)), (proj1 (U5 i)). cbn [s4 eff_nsm st_nsm]. rewrite V4, (O3 i H17), (O2 i H16). apply U1.
  Qed.

  Definition kn {A} (m : M Y A) : Prop := forall s r s', m s = (r, s') -> st_nsm s' = st_nsm s.
  Lemma kn_bind {A B} (m : M Y A) (f : A -> M Y B) : kn m -> (forall a, kn (f a)) -> kn (bind m f).
  Proof. intros Hm Hf s r s' H. apply bind_inv in H as [(a & s1 & H1 & H2)|(e & H1 & _)]; [rewrite (Hf _ _ _ _ H2)|]; eauto. Qed.
  Lemma kn_guard b e : kn (guard (Y:=Y) b e). Proof. intros s r s' H. apply guard_inv in H as [-> _]. reflexivity. Qed.
  Lemma kn_exists p : kn (op_exists Y p). Proof. intros s r s' H. apply gets_inv in H as [_ ->]. reflexivity. Qed.
  Lemma write_steps_nsm p m d k : forall i (s : st), st_nsm (write_steps Y p m d k i s) = st_nsm s.
  Proof. induction k as [|k IH]; intros i s; cbn [write_steps]; [reflexivity|]. rewrite IH. reflexivity. Qed.
  Lemma kn_write p d : kn (op_write Y p d).
  Proof. intros s r s' H. unfold op_write in H. cbv zeta in H. destruct (s_io Y (st_ioc s)); inversion H; subst; try rewrite write_steps_nsm; reflexivity. Qed.
  Lemma kn_rename a b : kn (op_rename Y a b).
  Proof. intros s r s' H. unfold op_rename in H. cbv zeta in H. destruct (s_io Y (st_ioc s)), (st_fs s a); inversion H; subst; reflexivity. Qed.
  Lemma kn_chmod p m : kn (op_chmod Y p m).
  Proof. intros s r s' H. unfold op_chmod in H. cbv zeta in H. destruct (s_io Y (st_ioc s)), (st_fs s p) as [[? ?]|]; inversion H; subst; reflexivity. Qed.
  Ltac knt := repeat first [ apply kn_bind; [|intros ?] | apply kn_guard | apply kn_exists | apply kn_write | apply kn_rename | apply kn_chmod ].
  Lemma kn_war f b e : kn (write_as_read_only Y f b e). Proof. unfold write_as_read_only. knt. Qed.
  Lemma kn_pivot pv : kn (put_pivot Y pv). Proof. unfold put_pivot. knt. Qed.

  Lemma calm_pivot pv (s : st) : st_fs s (Main Pivot) = None -> exists s', put_pivot Y pv s = (Ok tt, s').
  Proof.
    intros F0. unfold put_pivot, op_exists. rewrite bind_gets, F0. cbn [is_some negb]. rewrite bind_guard.
    destruct (calm_write NF (Main Pivot) pv s) as [s1 W]. rewrite (bind_eq _ _ _ _ _ W), bind_guard. destruct (write_full _ _ _ _ W) as [m Fm].
    destruct (calm_chmod NF (Main Pivot) 73 s1) as [s2 C]; [congruence|]. rewrite (bind_eq _ _ _ _ _ C). eexists; reflexivity.
  Qed.
  Lemma generate_works (GEN : forall n, s_pair Y (s_rng Y n) <> None) (s : st) : exists ek sk,
    s_pair Y (s_rng Y (st_rngc s)) = Some (ek, sk) /\ pair_generate Y s = (Ok (s_rng Y (st_rngc s), (ek, sk)), tick_rng s).
  Proof.
    destruct (s_pair Y (s_rng Y (st_rngc s))) as [[ek sk]|] eqn:E; [|destruct (GEN _ E)]. exists ek, sk. split; [reflexivity|].
    unfold pair_generate, op_rand, bind, lift, from_master_seed, rmap_err, ret. rewrite E. reflexivity.
  Qed.

  Lemma boot_works (GEN : forall n, s_pair Y (s_rng Y n) <> None) e pv (s : st) : wf_envelope e = true ->
    st_fs s (Main Eph) = None -> st_fs s (Main Pivot) = None -> st_fs s (Main Manif) = None -> blank D (st_nsm s) ->
    check_approvals Y e = Ok tt -> env_share_approvals e = [] -> s_sha256 Y pv = vm_pivot_hash (env_manifest e) ->
    exists cose d s' setup ek sk, put_manifest_and_pivot Y e pv s = (Ok (RAttestation cose), s')
      /\ authentic D cose d /\ s_pair Y setup = Some (ek, sk) /\ ad_public_key d = Some (ek ++ sk)
      /\ content (st_fs s') Eph = Some (encode setup)
      /\ doc_matches d (manifest_hash Y (env_manifest e)) (dv_pcr D (st_nsm s) 0) (dv_pcr D (st_nsm s) 1) (dv_pcr D (st_nsm s) 2) (dv_pcr D (st_nsm s) 3)
      /\ doc_commits Y Setup d (manifest_hash Y (env_manifest e)).
  Proof.
    intros We F1 F2 F3 B CA SA PH. unfold put_manifest_and_pivot. rewrite CA. unfold lift at 1. unfold bind at 1.
    rewrite SA. rewrite bind_guard. cbv zeta. rewrite PH, bytes_eqb_refl, bind_guard.
    destruct (generate_works GEN s) as (ek & sk & P1 & G1). rewrite (bind_eq _ _ _ _ _ G1).
    destruct (generate_works GEN (tick_rng s)) as (lek & lsk & P2 & G2). rewrite (bind_eq _ _ _ _ _ G2).
    set (mh := manifest_hash Y (env_manifest e)).
    destruct (lock_works mh (public_to_bytes (ek, sk)) (public_to_bytes (lek, lsk)) (tick_rng (tick_rng s))) as (s1 & E1 & (Gd1 & Fs1 & _) & V16 & V17 & VO); [exact B|].
    rewrite (bind_eq _ _ _ _ _ E1). unfold bind at 1. unfold modify at 1. set (s2 := set_pending _ s1).
    assert (N2 : st_nsm s2 = st_nsm s1) by reflexivity. assert (X2 : st_fs s2 = st_fs s) by exact Fs1. clearbody s2.
    destruct (calm_war NF Eph (encode (s_rng Y (st_rngc s))) FailedToPutEphemeralKey s2) as [s3 E3]; [now rewrite X2|].
    unfold put_ephemeral_key. rewrite (bind_eq _ _ _ _ _ E3). pose proof (kn_war _ _ _ _ _ _ E3) as N3.
    pose proof (war_spec _ _ _ _ _ _ E3) as W3. rewrite X2, F1 in W3. destruct W3 as (_ & W3 & O3 & _). specialize (W3 eq_refl).
    destruct (calm_pivot pv s3) as [s4 E4]; [rewrite O3 by notin; exact F2|]. rewrite (bind_eq _ _ _ _ _ E4). pose proof (kn_pivot _ _ _ _ E4) as N4.
    pose proof (put_pivot_spec _ _ _ _ E4) as W4. rewrite (O3 (Main Pivot)) in W4 by notin. rewrite F2 in W4. destruct W4 as (_ & _ & O4).
    destruct (envelope_storage e We) as (b & Sb & _). unfold put_manifest_envelope. rewrite Sb.
    destruct (calm_war NF Manif b FailedToPutManifestEnvelope s4) as [s5 E5]; [rewrite O4 by notin; rewrite O3 by notin; exact F3|].
    rewrite (bind_eq _ _ _ _ _ E5). pose proof (kn_war _ _ _ _ _ _ E5) as N5.
    pose proof (war_spec _ _ _ _ _ _ E5) as W5. rewrite (O4 (Main Manif)) in W5 by notin. rewrite (O3 (Main Manif)) in W5 by notin. rewrite F3 in W5. destruct W5 as (_ & _ & O5 & _).
    assert (N : st_nsm s5 = st_nsm s1) by congruence.
    destruct (ok_pair Y OK _ _ _ P1) as (L1 & L2 & _ & _).
    destruct (wk_attest D WK (st_nsm s5) mh (Some (public_to_bytes (ek, sk)))) as (cose & d & n' & E6 & _ & AU & UD & NO & PK & RG).
    { now rewrite N. }
    { unfold mh, manifest_hash. apply (ok_sha256 Y OK). }
    { intros k' Ek. assert (k' = public_to_bytes (ek, sk)) as -> by congruence. unfold public_to_bytes. cbn [fst snd]. rewrite app_length, L1, L2. reflexivity. }
    exists cose, d. eexists. exists (s_rng Y (st_rngc s)), ek, sk. split; [exact (op_nsm_eq _ _ _ _ E6)|]. split; [exact AU|]. split; [exact P1|]. split; [exact PK|].
    cbn [eff_nsm st_fs]. split.
    { unfold content. rewrite O5 by notin. rewrite O4 by notin. rewrite W3. reflexivity. }
    assert (RG' : forall i, i < 32 -> pcr_is d i (dv_pcr D (st_nsm s1) i)) by (intros i Hi; rewrite <- N; now apply RG).
    split.
    - split; [exact UD|]. split; [exact NO|].
      assert (R : forall i, i < 4 -> pcr_is d i (dv_pcr D (st_nsm s) i)).
      { intros i Hi. change (st_nsm s) with (st_nsm (tick_rng (tick_rng s))). rewrite <- VO by lia. apply RG'. lia. }
      split; [apply R; lia|]. split; [apply R; lia|]. split; apply R; lia.
    - split; [intros i Hi; eexists; apply RG', Hi|]. exists (ek ++ sk). split; [exact PK|]. change (ek ++ sk) with (public_to_bytes (ek, sk)).
      rewrite <- V16. apply RG'. lia.
  Qed.
End Boot.

(** ** C64.  An approved manifest boots.  When no file call fails and the security
    module works and has nothing committed, a process that has not booted accepts
    every approved envelope with the pivot binary it names; the answer carries an
    authentic document about this manifest, the device's measurements and the
    ephemeral key now on disk, with the commitment register set. *)
Theorem c64_approved_boot_succeeds : forall Y (D : device Y), sys_ok Y -> no_faults Y -> working D -> (forall n, s_pair Y (s_rng Y n) <> None) ->
  forall s r e pv, boot_of r = Some (e, pv) -> wf_envelope e = true ->
  st_phase s = WaitingForBootInstruction ->
  st_fs s (Main Eph) = None -> st_fs s (Main Pivot) = None -> st_fs s (Main Manif) = None -> blank D (st_nsm s) ->
  check_approvals Y e = Ok tt -> env_share_approvals e = [] -> s_sha256 Y pv = vm_pivot_hash (env_manifest e) ->
  let mh := manifest_hash Y (env_manifest e) in
  exists cose d s' setup ek sk, handle Y r s = (boot_answer r (RAttestation cose), s') /\ st_phase s' = boot_target r
    /\ authentic D cose d /\ doc_matches d mh (dv_pcr D (st_nsm s) 0) (dv_pcr D (st_nsm s) 1) (dv_pcr D (st_nsm s) 2) (dv_pcr D (st_nsm s) 3)
    /\ doc_commits Y Setup d mh
    /\ ad_public_key d = Some (ek ++ sk) /\ s_pair Y setup = Some (ek, sk) /\ content (st_fs s') Eph = Some (encode setup).
Proof.
  intros Y D OK NF WK GEN s r e pv B We Ph F1 F2 F3 BL CA SA PH mh.
  destruct (boot_works OK NF D WK GEN e pv s We F1 F2 F3 BL CA SA PH) as (cose & d & s1 & setup & ek & sk & E & AU & P & PK & C & M & K).
  exists cose, d, (set_phase (boot_target r) s1), setup, ek, sk. rewrite (handle_boot r e pv s Ph B), E.
  split; [reflexivity|]. split; [reflexivity|]. split; [exact AU|]. split; [exact M|]. split; [exact K|]. split; [exact PK|]. split; [exact P|exact C].
Qed.
Print Assumptions c64_approved_boot_succeeds.

(** The toy device works. *)
Definition toy_device io salt : device (toy io salt) :=
  Device (toy io salt) 32 toy_pcr (fun n _ => tn_locked n) (fun n => length (tn_16 n) = 48%nat /\ length (tn_17 n) = 48%nat) (fun _ => True).
Lemma toy_doc_of u k p q : length u = 32%nat -> length k = 130%nat -> length p = 48%nat -> length q = 48%nat ->
  toy_doc (u ++ k ++ p ++ q) = Some (toy_att u (Some k) p q).
Proof.
  intros Lu Lk Lp Lq. unfold toy_doc. rewrite !app_length, Lu, Lk, Lp, Lq. change (Nat.eqb (32 + (130 + (48 + 48))) 258) with true. cbv iota.
  assert (A : forall (x y : bytes) n, length x = n -> firstn n (x ++ y) = x) by (intros x y n <-; rewrite firstn_app, Nat.sub_diag, firstn_all; cbn; apply app_nil_r).
  assert (B : forall (x y : bytes) n m, length x = n -> skipn (n + m) (x ++ y) = skipn m y).
  { intros x y n m <-. rewrite skipn_app, skipn_all2 by lia. cbn [app]. f_equal. lia. }
  f_equal. f_equal.
  - now apply A.
  - f_equal. change 32%nat with (32 + 0)%nat. rewrite (B u _ 32%nat 0%nat Lu). cbn [skipn]. now apply A.
  - change 162%nat with (32 + (130 + 0))%nat. rewrite (B u _ 32%nat _ Lu), (B k _ 130%nat _ Lk). cbn [skipn]. now apply A.
  - change 210%nat with (32 + (130 + (48 + 0)))%nat. rewrite (B u _ 32%nat _ Lu), (B k _ 130%nat _ Lk), (B p _ 48%nat _ Lp). reflexivity.
Qed.
Lemma toy_doc_keyless u p q : length u = 32%nat -> length p = 48%nat -> length q = 48%nat ->
  toy_doc (u ++ [] ++ p ++ q) = Some (toy_att u None p q).
Proof.
  intros Lu Lp Lq. cbn [app]. unfold toy_doc. rewrite !app_length, Lu, Lp, Lq. change (Nat.eqb (32 + (48 + 48)) 258) with false. change (Nat.eqb (32 + (48 + 48)) 128) with true. cbv iota.
  assert (A : forall (x y : bytes) n, length x = n -> firstn n (x ++ y) = x) by (intros x y n <-; rewrite firstn_app, Nat.sub_diag, firstn_all; cbn; apply app_nil_r).
  assert (B : forall (x y : bytes) n m, length x = n -> skipn (n + m) (x ++ y) = skipn m y).
  { intros x y n m <-. rewrite skipn_app, skipn_all2 by lia. cbn [app]. f_equal. lia. }
  f_equal. f_equal.
  - now apply A.
  - change 32%nat with (32 + 0)%nat. rewrite (B u _ 32%nat 0%nat Lu). cbn [skipn]. now apply A.
  - change 80%nat with (32 + (48 + 0))%nat. rewrite (B u _ 32%nat _ Lu), (B p _ 48%nat _ Lp). reflexivity.
Qed.
Lemma toy_pcr_index n i : i < 32 -> alookup i (map (fun j => (j, toy_pcr n j)) toy_indices) = Some (toy_pcr n i).
Proof.
  intros Hi. assert (I : In i toy_indices) by (apply in_map_iff; exists (N.to_nat i); split; [lia|apply in_seq; lia]).
  revert I. generalize toy_indices as l. induction l as [|j l IH]; intros []; cbn [map alookup]; [subst; now rewrite N.eqb_refl|].
  destruct (N.eqb_spec i j) as [->|]; [reflexivity|auto].
Qed.
Lemma toy_pcr_len n i : length (tn_16 n) = 48%nat -> length (tn_17 n) = 48%nat -> length (toy_pcr n i) = 48%nat.
Proof.
  intros L1 L2. unfold toy_pcr. repeat match goal with |- context [if ?b then _ else _] => destruct b end; try assumption; reflexivity.
Qed.
Lemma toy_works io salt : working (toy_device io salt).
Proof.
  constructor; cbn [toy_device dv_max dv_pcr dv_locked dv_good].
  - lia.
  - intros n G. do 5 eexists. exists n. split; [reflexivity|]. split; [exact G|]. split; [intros i; split; reflexivity|].
    intros i Hi. destruct (tn_locked n); [|split; [intros []|discriminate]]. split; [reflexivity|]. intros _. apply in_map_iff. exists (N.to_nat i). split; [lia|apply in_seq; lia].
  - intros n i G Hi. exists n. split; [reflexivity|]. split; [exact G|]. intros j. split; reflexivity.
  - intros n i x G Hi L. exists (snd (toy_step n (ExtendPCR i x))). split; [reflexivity|]. cbn [toy_step snd s_sha384 toy].
    destruct G as [G1 G2]. pose proof (toy_hash_length 48 (toy_pcr n i ++ x)) as LH.
    destruct Hi as [->| ->]; cbn [N.eqb Pos.eqb tn_16 tn_17]; (split; [split; assumption|]); (split; [reflexivity|]); (split; [|reflexivity]);
      intros j Hj; unfold toy_pcr; cbn [tn_16 tn_17].
    + apply N.eqb_neq in Hj. now rewrite Hj.
    + apply N.eqb_neq in Hj. now rewrite Hj.
  - intros n G. eexists. split; [reflexivity|]. split; [exact G|]. split; reflexivity.
  - intros n u k [G1 G2] Lu Lk. exists (u ++ match k with Some k => k | None => [] end ++ tn_16 n ++ tn_17 n), (toy_att u k (tn_16 n) (tn_17 n)), n.
    split; [reflexivity|]. split; [intros i; split; reflexivity|]. split.
    + split; [destruct k; [apply toy_doc_of; auto|now apply toy_doc_keyless]|]. split; [|split; [reflexivity|reflexivity]].
      unfold doc_syntax, toy_att. cbn [ad_module_id ad_digest ad_timestamp ad_pcrs ad_cabundle ad_public_key ad_user_data ad_nonce].
      split; [discriminate|]. split; [reflexivity|]. split; [discriminate|]. split; [rewrite map_length; cbn; lia|].
      split.
      { intros i v I. apply in_map_iff in I as (j & E & I). assert (j = i /\ v = toy_pcr (ToyNsm (tn_16 n) (tn_17 n) true 0) j) as [-> ->] by (split; congruence).
        apply in_map_iff in I as (m & <- & I). apply in_seq in I. split; [lia|]. right. left. now apply toy_pcr_len. }
      split; [discriminate|]. split; [intros c [<-|[]]; cbn; lia|]. split; [intros k' E; rewrite (Lk k' E); lia|].
      split; [intros u' E; assert (u' = u) as -> by congruence; lia|discriminate].
    + split; [reflexivity|]. split; [reflexivity|]. split; [reflexivity|]. intros i Hi. unfold pcr_is, toy_att. cbn [ad_pcrs].
      rewrite toy_pcr_index by exact Hi. f_equal.
Qed.
(** A concrete boot; the document commits to the manifest. *)
Example c64_nontrivial : sys_ok T /\ no_faults T /\ working (toy_device calm 0) /\ (forall n, s_pair T (s_rng T n) <> None)
  /\ boot_of boot_std = Some (te, pivot) /\ wf_envelope te = true /\ st_phase (start calm 0) = WaitingForBootInstruction
  /\ (forall f, st_fs (start calm 0) (Main f) = None) /\ blank (toy_device calm 0) (st_nsm (start calm 0))
  /\ check_approvals T te = Ok tt /\ env_share_approvals te = [] /\ s_sha256 T pivot = vm_pivot_hash (env_manifest te).
Proof.
  split; [apply T_ok|]. split; [apply T_calm|]. split; [apply toy_works|].
  split. { intros n H. pose proof (ok_rng T T_ok n) as L. change (s_pair T) with toy_pair in H. unfold toy_pair in H. rewrite L in H. discriminate. }
  split; [reflexivity|]. split; [vm_compute; reflexivity|]. split; [reflexivity|]. split; [reflexivity|].
  split. { split; [split; reflexivity|]. intros i [->| ->]; split; reflexivity. }
  split; [vm_compute; reflexivity|]. split; reflexivity.
Qed.
