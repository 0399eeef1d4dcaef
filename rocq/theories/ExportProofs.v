(** Key export and injection. *)
From Coq Require Import ZifyBool ZifyN ZifyNat Permutation.
From Verif Require Import Base Utf8 Hex HexProofs Types Json TypesJson StorageProofs Msg World Run FsProofs Attest Services
  ServiceProofs BootProofs State SpecProtocol HandleProofs Reach Invariant ProtocolProofs EffectProofs CalmProofs
  SpecApproval ApprovalProofs SpecAttest AttestProofs SpecHistory HistoryProofs ProvisionProofs SpecExport.
Local Open Scope N_scope.

(** *** sorting *)
Lemma insert_perm m l : Permutation (insert_member m l) (m :: l).
Proof.
  induction l as [|x l IH]; cbn; [constructor; constructor|]. destruct (member_leb m x); [reflexivity|].
  rewrite IH. constructor.
Qed.
Lemma sort_perm l : Permutation (sort_members l) l.
Proof. induction l as [|x l IH]; cbn; [constructor|]. rewrite insert_perm. now constructor. Qed.

Lemma bytes_cmp_eq a : forall b, bytes_cmp a b = Eq -> a = b.
Proof.
  induction a as [|x a IH]; intros [|y b]; cbn; intros H; try discriminate; auto.
  destruct (b2n x ?= b2n y) eqn:E; try discriminate. apply N.compare_eq in E. apply b2n_inj in E. subst. now rewrite (IH b H).
Qed.
Lemma bytes_cmp_anti a : forall b, bytes_cmp b a = CompOpp (bytes_cmp a b).
Proof.
  induction a as [|x a IH]; intros [|y b]; cbn; auto. rewrite (N.compare_antisym (b2n x) (b2n y)).
  destruct (b2n x ?= b2n y); cbn; auto.
Qed.
Lemma bytes_cmp_trans a : forall b c, bytes_cmp a b <> Gt -> bytes_cmp b c <> Gt -> bytes_cmp a c <> Gt
  /\ (bytes_cmp a c = Eq -> bytes_cmp a b = Eq /\ bytes_cmp b c = Eq).
Proof.
  induction a as [|x a IH]; intros [|y b] [|z c]; cbn; intros H1 H2;
    try (split; [discriminate|intros; auto; try discriminate]); try congruence.
  destruct (b2n x ?= b2n y) eqn:E1; try congruence.
  - apply N.compare_eq in E1. rewrite E1. destruct (b2n y ?= b2n z) eqn:E2; try (split; congruence).
    apply IH; auto.
  - destruct (b2n y ?= b2n z) eqn:E2; try congruence.
    + apply N.compare_eq in E2. rewrite <- E2, E1. split; congruence.
    + rewrite N.compare_lt_iff in E1, E2. assert (E3 : (b2n x ?= b2n z) = Lt) by (rewrite N.compare_lt_iff; lia).
      rewrite E3. split; congruence.
Qed.
Lemma leb_total a b : member_leb a b = true \/ member_leb b a = true.
Proof.
  unfold member_leb. rewrite (bytes_cmp_anti (m_alias a) (m_alias b)), (bytes_cmp_anti (m_pub_key a) (m_pub_key b)).
  destruct (bytes_cmp (m_alias a) (m_alias b)), (bytes_cmp (m_pub_key a) (m_pub_key b)); cbn; auto.
Qed.
Lemma leb_anti a b : member_leb a b = true -> member_leb b a = true -> a = b.
Proof.
  unfold member_leb. rewrite (bytes_cmp_anti (m_alias a) (m_alias b)), (bytes_cmp_anti (m_pub_key a) (m_pub_key b)).
  destruct (bytes_cmp (m_alias a) (m_alias b)) eqn:E1, (bytes_cmp (m_pub_key a) (m_pub_key b)) eqn:E2; cbn; intros; try discriminate.
  apply bytes_cmp_eq in E1, E2. destruct a, b; cbn in *; congruence.
Qed.
Lemma leb_trans a b c : member_leb a b = true -> member_leb b c = true -> member_leb a c = true.
Proof.
  unfold member_leb. intros H1 H2.
  pose proof (bytes_cmp_trans (m_alias a) (m_alias b) (m_alias c)) as T1.
  pose proof (bytes_cmp_trans (m_pub_key a) (m_pub_key b) (m_pub_key c)) as T2.
  destruct (bytes_cmp (m_alias a) (m_alias b)); try discriminate;
  destruct (bytes_cmp (m_alias b) (m_alias c)); try discriminate;
  destruct T1 as [T1 T1']; try congruence;
  destruct (bytes_cmp (m_alias a) (m_alias c)); try congruence;
  try (destruct T1' as [? ?]; [reflexivity|]; discriminate).
  destruct (bytes_cmp (m_pub_key a) (m_pub_key b)); try discriminate;
  destruct (bytes_cmp (m_pub_key b) (m_pub_key c)); try discriminate;
  destruct T2 as [T2 _]; try congruence; destruct (bytes_cmp (m_pub_key a) (m_pub_key c)); congruence.
Qed.

Inductive sorted : list quorum_member -> Prop :=
| So_nil : sorted []
| So_cons m l : (forall x, In x l -> member_leb m x = true) -> sorted l -> sorted (m :: l).
Lemma insert_sorted m l : sorted l -> sorted (insert_member m l).
Proof.
  induction 1 as [|x l H S IH]; cbn; [constructor; [intros ? []|constructor]|].
  destruct (member_leb m x) eqn:E.
  - constructor; [|now constructor]. intros y [<-|Hy]; [exact E|]. eapply leb_trans; [exact E|auto].
  - constructor; [|exact IH]. intros y Hy. apply (Permutation_in _ (insert_perm m l)) in Hy as [<-|Hy]; [|auto].
    destruct (leb_total m x); congruence.
Qed.
Lemma sort_sorted l : sorted (sort_members l).
Proof. induction l; cbn; [constructor|now apply insert_sorted]. Qed.
Lemma sorted_unique l1 : forall l2, sorted l1 -> sorted l2 -> Permutation l1 l2 -> l1 = l2.
Proof.
  induction l1 as [|a l1 IH]; intros l2 S1 S2 P.
  - apply Permutation_nil in P. now subst.
  - destruct l2 as [|b l2]; [apply Permutation_sym, Permutation_nil in P; discriminate|].
    inversion S1; inversion S2; subst.
    assert (a = b) as <-.
    { assert (Ia : In a (b :: l2)) by (eapply Permutation_in; [exact P|now left]).
      assert (Ib : In b (a :: l1)) by (eapply Permutation_in; [apply Permutation_sym; exact P|now left]).
      destruct Ia as [|Ia]; [auto|]. destruct Ib as [|Ib]; [auto|]. apply leb_anti; auto. }
    f_equal. apply IH; auto. eapply Permutation_cons_inv; exact P.
Qed.
Lemma sort_eq_perm l1 l2 : sort_members l1 = sort_members l2 <-> Permutation l1 l2.
Proof.
  split.
  - intros E. rewrite <- (sort_perm l1), <- (sort_perm l2). now rewrite E.
  - intros P. apply sorted_unique; try apply sort_sorted. now rewrite !sort_perm.
Qed.

Lemma list_eqb_members l1 : forall l2, list_eqb member_eqb l1 l2 = true <-> l1 = l2.
Proof.
  induction l1 as [|a l1 IH]; intros [|b l2]; cbn; split; try congruence; auto.
  - intros H. apply andb_true_iff in H as [H1 H2]. apply member_eqb_eq in H1. apply IH in H2. congruence.
  - intros H. inversion H; subst. apply andb_true_iff. split; [now apply member_eqb_eq|now apply IH].
Qed.

Section EX.
  Context {Y : sys}.
  Local Notation st := (st Y).

  Lemma validate_iff new old d : validate_manifest Y new old d = Ok tt <->
    check_approvals Y new = Ok tt /\ env_share_approvals new = []
    /\ (let om := env_manifest old in let nm := env_manifest new in
        ns_quorum_key (vm_namespace nm) = ns_quorum_key (vm_namespace om)
        /\ ns_name (vm_namespace nm) = ns_name (vm_namespace om)
        /\ threshold (vm_manifest_set nm) = threshold (vm_manifest_set om)
        /\ Permutation (members (vm_manifest_set nm)) (members (vm_manifest_set om))
        /\ ns_nonce (vm_namespace om) <= ns_nonce (vm_namespace nm)
        /\ (ns_nonce (vm_namespace om) = ns_nonce (vm_namespace nm) -> manifest_hash Y nm = manifest_hash Y om)
        /\ pcr3 (vm_enclave nm) = pcr3 (vm_enclave om)
        /\ doc_matches d (manifest_hash Y nm) (pcr0 (vm_enclave nm)) (pcr1 (vm_enclave nm)) (pcr2 (vm_enclave nm)) (pcr3 (vm_enclave nm))
        /\ doc_commits Y Setup d (manifest_hash Y nm)).
  Proof.
    unfold validate_manifest. cbv zeta. rewrite rbind_ok.
    set (om := env_manifest old). set (nm := env_manifest new).
    destruct (env_share_approvals new) as [|? ?]; [|split; [intros [_ X]; discriminate X|intros (_ & X & _); discriminate X]].
    destruct (bytes_eqb (ns_quorum_key (vm_namespace om)) (ns_quorum_key (vm_namespace nm))) eqn:Eq; cbn [negb].
    2:{ split; [intros [_ X]; discriminate X|]. intros (_ & _ & X & _). rewrite X, bytes_eqb_refl in Eq. discriminate Eq. }
    apply bytes_eqb_eq in Eq.
    cbn [threshold members].
    destruct (threshold (vm_manifest_set om) =? threshold (vm_manifest_set nm)) eqn:Et; cbn [negb orb].
    2:{ split; [intros [_ X]; discriminate X|]. intros (_ & _ & _ & _ & X & _). clear -Et X. lia. }
    destruct (list_eqb member_eqb (sort_members (members (vm_manifest_set om))) (sort_members (members (vm_manifest_set nm)))) eqn:El; cbn [negb].
    2:{ split; [intros [_ X]; discriminate X|]. intros (_ & _ & _ & _ & _ & X & _). exfalso.
        apply Permutation_sym, sort_eq_perm in X. apply list_eqb_members in X. congruence. }
    apply list_eqb_members, sort_eq_perm in El.
    destruct (bytes_eqb (ns_name (vm_namespace om)) (ns_name (vm_namespace nm))) eqn:En; cbn [negb].
    2:{ split; [intros [_ X]; discriminate X|]. intros (_ & _ & _ & X & _). rewrite X, bytes_eqb_refl in En. discriminate En. }
    apply bytes_eqb_eq in En.
    destruct (ns_nonce (vm_namespace nm) <? ns_nonce (vm_namespace om)) eqn:Ec.
    { split; [intros [_ X]; discriminate X|]. intros (_ & _ & _ & _ & _ & _ & X & _). clear -Ec X. lia. }
    destruct ((ns_nonce (vm_namespace om) =? ns_nonce (vm_namespace nm)) && negb (bytes_eqb (manifest_hash Y om) (manifest_hash Y nm))) eqn:Eh.
    { split; [intros [_ X]; discriminate X|]. intros (_ & _ & _ & _ & _ & _ & _ & X & _). exfalso.
      apply andb_true_iff in Eh as [E1 E2]. apply N.eqb_eq in E1. rewrite (X E1), bytes_eqb_refl in E2. discriminate E2. }
    assert (Hh : ns_nonce (vm_namespace om) = ns_nonce (vm_namespace nm) -> manifest_hash Y nm = manifest_hash Y om).
    { intros E. apply andb_false_iff in Eh as [E1|E2]; [apply N.eqb_neq in E1; congruence|].
      apply negb_false_iff, bytes_eqb_eq in E2. congruence. }
    rewrite rbind_ok.
    assert (MA : forall r : result attest_error unit, rmap_err attest_perr r = Ok tt <-> r = Ok tt).
    { intros [[]|x]; cbn; split; congruence. }
    rewrite MA, against_manifest_iff.
    destruct (bytes_eqb (pcr3 (vm_enclave om)) (pcr3 (vm_enclave nm))) eqn:E3; cbn [negb].
    2:{ split; [intros (_ & _ & X); discriminate X|]. intros (_ & _ & X). exfalso.
        destruct X as (_ & _ & _ & _ & _ & _ & X & _). rewrite X, bytes_eqb_refl in E3. discriminate E3. }
    apply bytes_eqb_eq in E3.
    split.
    - intros (A & (B & C) & _). split; [exact A|]. split; [reflexivity|].
      split; [congruence|]. split; [congruence|]. split; [clear -Et; lia|]. split; [now apply Permutation_sym|].
      split; [clear -Ec; lia|]. split; [exact Hh|]. split; [congruence|]. split; assumption.
    - intros (A & _ & (_ & _ & _ & _ & _ & _ & _ & B & C)). auto.
  Qed.

  Lemma validate_sound new old d : validate_manifest Y new old d = Ok tt -> may_receive Y old new d.
  Proof.
    intros H. apply validate_iff in H as (A & B & C). split; [now apply check_sound|]. split; [exact B|exact C].
  Qed.
  Lemma validate_complete new old d :
    (forall m1 m2, In m1 (members (vm_manifest_set (env_manifest new))) -> In m2 (members (vm_manifest_set (env_manifest new))) ->
                   member_hash Y m1 = member_hash Y m2 -> m1 = m2) ->
    may_receive Y old new d -> validate_manifest Y new old d = Ok tt.
  Proof.
    intros NC (A & B & C). apply validate_iff. split; [now apply check_complete|]. split; [exact B|exact C].
  Qed.

  Lemma public_parts pk k : public_from_bytes Y pk = Ok k ->
    pk = fst k ++ snd k /\ length (fst k) = 65%nat /\ length (snd k) = 65%nat /\ s_point_ok Y (fst k) = true /\ s_point_ok Y (snd k) = true.
  Proof.
    destruct k as [e g]. intros H. pose proof (public_keys Y (QuorumMember [] pk) e g) as [F _]. exact (F H).
  Qed.
  Lemma public_parse e g : length e = 65%nat -> length g = 65%nat -> s_point_ok Y e = true -> s_point_ok Y g = true ->
    public_from_bytes Y (e ++ g) = Ok (e, g).
  Proof.
    intros. pose proof (public_keys Y (QuorumMember [] (e ++ g)) e g) as [_ F]. apply F. repeat split; auto.
  Qed.

  (** Everything an export that answers a ciphertext has checked. *)
  Lemma export_facts new cose (s : st) c g s' : handle Y (ExportKeyRequest new cose) s = (ExportKeyResponse c g, s') ->
    st_phase s = QuorumKeyProvisioned /\
    exists ms d old ek sk seed t rnd,
      fst (s_nsm_time Y (st_nsm s)) = Some ms
      /\ doc_authentic Y cose (ms / 1000) d
      /\ stored (st_fs s) old /\ may_receive Y old new d
      /\ ad_public_key d = Some (ek ++ sk) /\ length ek = 65%nat /\ length sk = 65%nat /\ s_point_ok Y ek = true /\ s_point_ok Y sk = true
      /\ content (st_fs s) Quorum = Some t /\ seed_of_hex t = Some seed /\ s_pair Y seed <> None
      /\ s_encrypt Y ek rnd seed = Ok c /\ g = s_sign Y seed c.
  Proof.
    intros H. assert (P : st_phase s = QuorumKeyProvisioned).
    { destruct (served (st_phase s) (ExportKeyRequest new cose)) eqn:V.
      - cbn in V. now apply phase_eqb_eq.
      - rewrite (handle_unserved _ s V) in H. discriminate H. }
    split; [exact P|]. rewrite (handle_export new cose s P) in H.
    destruct (export_key Y new cose s) as [[[c0 g0]|x] s1] eqn:E; cbn in H; inversion H; subst c0 g0; subst. clear H.
    unfold export_key in E.
    mstep E. 2:{ discriminate E. }
    unfold op_time in E0. destruct (s_nsm_time Y (st_nsm s)) as [o nn] eqn:Et. injection E0 as <- <-.
    mstep E. 2:{ discriminate E. }
    destruct o as [ms|]; [|discriminate E0]. apply ret_inv in E0 as [E0 ->]. injection E0 as ->.
    mstep E. 2:{ discriminate E. }
    apply lift_inv in E0 as [E0 ->]. rename a into d.
    destruct (attestation_doc_from_der Y cose (s_root Y) (ms / 1000)) as [d'|] eqn:Ed; cbn in E0; inversion E0; subst d'; clear E0.
    apply from_der_iff in Ed.
    mstep E. 2:{ discriminate E. }
    rename a into old. pose proof (get_manifest_ok _ _ _ E0) as (c1 & m1 & F1 & D1). pose proof (si_get_manifest _ _ _ E0) as S0. clear E0.
    cbn [st_fs eff_nsm] in F1.
    mstep E. 2:{ discriminate E. }
    apply lift_inv in E0 as [E0 ->]. destruct a. symmetry in E0. apply validate_sound in E0.
    mstep E. 2:{ discriminate E. }
    destruct (ad_public_key d) as [pk|] eqn:Epk; [|discriminate E1]. apply ret_inv in E1 as [E1 ->]. injection E1 as ->.
    mstep E. 2:{ discriminate E. }
    apply lift_inv in E1 as [E1 ->].
    destruct (public_from_bytes Y pk) as [k|] eqn:Ek; cbn in E1; inversion E1; subst a; clear E1. destruct k as [ek sk].
    apply public_parts in Ek as (Ek & L1 & L2 & P1 & P2). cbn [fst snd] in *.
    mstep E. 2:{ discriminate E. }
    destruct a as [seed kk]. rename E1 into Eq.
    unfold get_quorum_key in Eq. mstep Eq. 2:{ discriminate Eq. }
    unfold pair_from_hex_file in E1. mstep E1. 2:{ discriminate E1. }
    apply ret_inv in E1 as [E1 ->]. inversion E1; subst a; clear E1. apply lift_inv in Eq as [Eq ->].
    unfold op_read in E2. destruct (s_io Y (st_ioc s0)); inversion E2; subst; try discriminate Eq; clear E2.
    rewrite (silent_fs _ _ S0) in Eq. cbn [st_fs eff_nsm] in Eq.
    destruct (st_fs s (Main Quorum)) as [[t mt]|] eqn:Fq; cbn in Eq; [|discriminate Eq].
    destruct (seed_of_hex t) as [sd|] eqn:Es; cbn in Eq; [|discriminate Eq].
    unfold from_master_seed in Eq. destruct (s_pair Y sd) as [kk'|] eqn:Ep; cbn in Eq; [|discriminate Eq]. inversion Eq; subst sd kk'.
    mstep E. 2:{ discriminate E. }
    unfold op_rand in E1. inversion E1; subst a; clear E1.
    mstep E. 2:{ discriminate E. }
    apply lift_inv in E1 as [E1 ->]. destruct (s_encrypt Y ek _ seed) as [cc|] eqn:Ec; cbn in E1; inversion E1; subst a; clear E1.
    apply ret_inv in E as [E ->]. inversion E; subst.
    exists ms, d, old, ek, sk, seed, t, (s_rng Y (st_rngc (tick_io s0))).
    split; [reflexivity|]. split; [exact Ed|]. split.
    { exists c1. split; [now apply content_some with (m := m1)|exact D1]. }
    split; [exact E0|]. split; [rewrite Epk; f_equal; try exact Ek|]. do 4 (split; [assumption|]).
    split; [now apply content_some with (m := mt)|]. split; [exact Es|]. split; [congruence|]. split; [exact Ec|reflexivity].
  Qed.

  (** The reachable case: the exported secret is the one in the key file. *)
  Lemma reach_quorum (OK : sys_ok Y) (s : st) t seed : reach Y s -> content (st_fs s) Quorum = Some t -> seed_of_hex t = Some seed ->
    t = encode seed /\ length seed = 32%nat.
  Proof.
    intros R C S. destruct (i_now _ (reach_inv OK s R) t C) as (sd & k & _ & _ & _ & _ & _ & -> & L & _).
    rewrite (seed_of_hex_encode sd L) in S. inversion S; subst. auto.
  Qed.

  (** Injection succeeds when everything is right and no file call fails. *)
  Lemma inject_works (NF : no_faults Y) c g (s : st) e setup ke seed ek sk live :
    st_phase s = WaitingForForwardedKey -> stored (st_fs s) e ->
    ns_quorum_key (vm_namespace (env_manifest e)) = ek ++ sk ->
    length ek = 65%nat -> length sk = 65%nat -> s_point_ok Y ek = true -> s_point_ok Y sk = true ->
    s_verify Y sk c g = true -> content (st_fs s) Eph = Some (encode setup) -> length setup = 32%nat -> s_pair Y setup = Some ke ->
    s_decrypt Y setup c = Ok seed -> length seed = 32%nat -> s_pair Y seed = Some (ek, sk) ->
    st_pending s = Some live -> st_fs s (Main Quorum) = None ->
    exists s', handle Y (InjectKeyRequest c g) s = (InjectKeyResponse, s') /\ st_phase s' = QuorumKeyProvisioned
      /\ content (st_fs s') Quorum = Some (encode seed) /\ content (st_fs s') Eph = Some (encode live).
  Proof.
    intros P St Qk L1 L2 P1 P2 V Ep Ls Pe Dc Lq Pq Lv Qn.
    assert (H : exists s', inject_key Y c g s = (Ok tt, s') /\ content (st_fs s') Quorum = Some (encode seed) /\ content (st_fs s') Eph = Some (encode live)).
    { unfold inject_key.
      rewrite (bind_eq _ _ _ _ _ (calm_manifest NF e s St)). cbv zeta. rewrite Qk.
      rewrite (public_parse ek sk L1 L2 P1 P2). unfold lift at 1. unfold bind at 1. cbn [rmap_err snd fst].
      rewrite V. unfold guard at 1. unfold bind at 1. unfold ret at 1.
      rewrite (bind_eq _ _ _ _ _ (calm_eph NF (tick_io s) setup ke Ep Ls Pe)).
      rewrite Dc. unfold lift at 1. unfold bind at 1. cbn [rmap_err].
      replace (lenN seed =? 32) with true by (rewrite lenN_length, Lq; reflexivity).
      unfold guard at 1. unfold bind at 1. unfold ret at 1.
      unfold from_master_seed. rewrite Pq. unfold lift at 1. unfold bind at 1. cbn [rmap_err].
      replace (pub_eqb (ek, sk) (ek, sk)) with true by (unfold pub_eqb; cbn; now rewrite !bytes_eqb_refl).
      unfold guard at 1. unfold bind at 1. unfold ret at 1.
      set (s2 := tick_io (tick_io s)). change (exists s', install seed s2 = (Ok tt, s') /\ content (st_fs s') Quorum = Some (encode seed) /\ content (st_fs s') Eph = Some (encode live)).
      destruct (calm_install NF seed live s2) as [s' H].
      - exact Lv.
      - unfold content in Ep. cbn. intros X. rewrite X in Ep. discriminate Ep.
      - exact Qn.
      - exists s'. split; [exact H|]. apply install_spec in H as (_ & _ & H). change (st_pending s2) with (st_pending s) in H. rewrite Lv in H.
        destruct H as (_ & _ & H). destruct (H eq_refl) as (_ & F1 & F2 & _).
        split; [now apply content_some with (m := 292)|now apply content_some with (m := 292)]. }
    destruct H as (s' & H & C1 & C2). exists (set_phase QuorumKeyProvisioned s'). rewrite (handle_inject c g s P), H. auto.
  Qed.
End EX.
