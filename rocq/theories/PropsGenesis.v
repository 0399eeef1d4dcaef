(** C40: the genesis ceremony. *)
From Coq Require Import ZifyBool ZifyN ZifyNat.
From Verif Require Import Base Hex HexProofs Types TypesJson Borsh Msg World Attest Services State SpecProtocol Reach SpecApproval SpecAttest SpecHistory
  Run HandleProofs ApprovalProofs ProtocolProofs SpecExport ExportProofs CodecExamples Toy ToyRuns Shamir ShamirProofs PropsShamir SpecGenesis.
Local Open Scope N_scope.
Local Open Scope m_scope.

Section Genesis.
  Context {Y : sys}.
  Local Notation st := (st Y).

  Lemma has_keys_of m e g : public_from_bytes Y (m_pub_key m) = Ok (e, g) -> has_keys Y m e g.
  Proof. apply public_keys. Qed.

  Lemma rand_inv (s : st) r s' : op_rand Y s = (Ok r, s') -> r = s_rng Y (st_rngc s) /\ s' = tick_rng s.
  Proof. unfold op_rand. intros H. inversion H. auto. Qed.
  Lemma lift_map {A} (x : result p256_error A) (f : p256_error -> perr) (s : st) a s' :
    lift (rmap_err f x) s = (Ok a, s') -> x = Ok a /\ s' = s.
  Proof. intros H. apply lift_inv in H as [E ->]. destruct x; cbn in E; split; congruence. Qed.

  Lemma encrypt_shares_ok l : forall (s : st) outs s', encrypt_shares Y l s = (Ok outs, s') ->
    length outs = length l /\ st_trace s' = st_trace s /\ st_fs s' = st_fs s /\ st_nsm s' = st_nsm s /\
    forall i sh m, nth_error l i = Some (sh, m) -> exists o, nth_error outs i = Some o /\ output_for Y m sh o.
  Proof.
    induction l as [|[sh m] l IH]; intros s outs s' H; cbn [encrypt_shares] in H.
    - apply ret_inv in H as [E ->]. assert (outs = []) as -> by congruence. cbn [length]. repeat (split; [reflexivity|]). intros [|i]; discriminate.
    - apply bind_ok in H as ([e g] & s1 & H1 & H). apply lift_map in H1 as [K ->].
      apply bind_ok in H as (rnd & s2 & H2 & H). apply rand_inv in H2 as [_ ->].
      apply bind_ok in H as (c & s3 & H3 & H). apply lift_map in H3 as [C ->]. cbn [fst] in C.
      apply bind_ok in H as (rest & s4 & H4 & H). apply ret_inv in H as [E ->]. injection E as ->.
      apply IH in H4 as (L & T & F & NS & O). cbn [length]. split; [now rewrite L|]. split; [exact T|]. split; [exact F|]. split; [exact NS|].
      intros [|i] sh' m' Hn; [|exact (O i sh' m' Hn)]. injection Hn as -> ->.
      eexists. split; [reflexivity|]. split; [reflexivity|]. split; [reflexivity|]. exists e, g, rnd. split; [now apply has_keys_of|exact C].
  Qed.

  Lemma nth_error_combine {A B} (a : list A) (b : list B) : forall i x y, nth_error a i = Some x -> nth_error b i = Some y ->
    nth_error (combine a b) i = Some (x, y).
  Proof. revert b. induction a as [|u a IH]; intros [|v b] [|i] x y; cbn; try discriminate; [congruence|apply IH]. Qed.

  (** What a successful genesis did. *)
  Lemma genesis_facts set dr (s : st) out nsm s' : sharing_ok Y -> boot_genesis Y set dr s = (Ok (out, nsm), s') ->
    proper_members Y (gs_members set) /\
    (exists coeffs, faithful Y set dr (s_rng Y (st_rngc s)) coeffs out) /\
    st_fs s' = st_fs s /\
    exists n, s_nsm_step Y (st_nsm s) (Attestation (Some (s_sha256 Y (enc c_genesis_output out))) None None) = (nsm, n) /\
      st_trace s' = Entry (EvNsm (Attestation (Some (s_sha256 Y (enc c_genesis_output out))) None None) nsm) (st_fs s) n :: st_trace s.
  Proof.
    intros SH H. unfold boot_genesis in H.
    apply bind_ok in H as ([] & s1 & H1 & H). apply lift_inv in H1 as [U ->]. symmetry in U. apply proper_iff in U.
    apply bind_ok in H as ([seed [ek sk]] & s2 & H2 & H).
    assert (P : seed = s_rng Y (st_rngc s) /\ s_pair Y seed = Some (ek, sk) /\ s2 = tick_rng s).
    { unfold pair_generate in H2. apply bind_ok in H2 as (sd & s2' & E2 & H2). apply rand_inv in E2 as [-> ->].
      apply bind_ok in H2 as (k & s3 & E3 & H2). apply lift_map in E3 as [E3 ->]. apply ret_inv in H2 as [E ->].
      unfold from_master_seed in E3. destruct (s_pair Y (s_rng Y (st_rngc s))) as [k'|] eqn:SP; [|discriminate].
      assert (k = (ek, sk)) as -> by congruence. assert (seed = s_rng Y (st_rngc s)) as -> by congruence.
      split; [reflexivity|]. split; [congruence|reflexivity]. }
    destruct P as (-> & SP & ->). set (seed := s_rng Y (st_rngc s)) in *.
    apply bind_ok in H as (rnd & s3 & H3 & H). apply rand_inv in H3 as [_ ->].
    apply bind_ok in H as (shares & s4 & H4 & H).
    destruct (sh_split Y SH rnd seed (lenN (gs_members set)) (gs_threshold set)) as (coeffs & D & SPL).
    rewrite SPL in H4. destruct (shares_generate _ _ _ _) as [l|] eqn:G; [|discriminate H4].
    apply ret_inv in H4 as [E ->]. assert (shares = l) as -> by congruence. clear E.
    apply bind_ok in H as (outs & s5 & H5 & H). unfold catch in H5.
    destruct (encrypt_shares Y (combine l (gs_members set)) (tick_rng (tick_rng s))) as [ro s5'] eqn:EN.
    assert (outs = ro /\ s5' = s5) as [-> ->] by (split; congruence). clear H5.
    apply bind_ok in H as (wrapped & s6 & H6 & H). apply bind_ok in H as (outs & s7 & H7 & H). apply lift_inv in H7 as [<- ->].
    apply encrypt_shares_ok in EN as (L & T & F & NS & O).
    apply bind_ok in H as (rnd2 & s8 & H8 & H). apply rand_inv in H8 as [_ ->].
    apply bind_ok in H as (tc & s9 & H9 & H). apply lift_map in H9 as [TC ->]. cbn [fst] in TC.
    cbv zeta in H. apply bind_ok in H as (a & s10 & H10 & H). apply ret_inv in H as [E ->].
    assert (Q : out = GenesisOutput set dr (public_to_bytes (ek, sk)) outs [] wrapped (s_sha512 Y (encode seed)) tc
                        (s_sign Y seed QOS_TEST_MESSAGE) QOS_TEST_MESSAGE /\ nsm = a) by (split; congruence).
    destruct Q as [Q ->]. clear E.
    assert (W : st_trace s6 = st_trace s5 /\ st_fs s6 = st_fs s5 /\ st_nsm s6 = st_nsm s5 /\
      match dr, wrapped with
       | None, None => True
       | Some k, Some c => exists e g rnd, has_keys Y (QuorumMember [] k) e g /\ s_encrypt Y e rnd seed = Ok c
       | _, _ => False end).
    { destruct dr as [dk|].
      - apply bind_ok in H6 as ([e g] & t1 & E1 & H6). apply lift_map in E1 as [K ->].
        apply bind_ok in H6 as (r1 & t2 & E2 & H6). apply rand_inv in E2 as [_ ->].
        apply bind_ok in H6 as (c & t3 & E3 & H6). apply lift_map in E3 as [C ->]. cbn [fst] in C.
        apply ret_inv in H6 as [E ->]. assert (wrapped = Some c) as -> by congruence.
        repeat (split; [reflexivity|]). exists e, g, r1. split; [|exact C]. now apply has_keys_of.
      - apply ret_inv in H6 as [E ->]. assert (wrapped = None) as -> by congruence. auto. }
    destruct W as (WT & WF & WN & W).
    unfold op_nsm in H10. cbn [tick_rng st_nsm st_fs st_trace] in H10. rewrite WN, NS in H10. cbn [tick_rng st_nsm] in H10.
    rewrite <- Q in H10.
    destruct (s_nsm_step Y (st_nsm s) (Attestation (Some (s_sha256 Y (enc c_genesis_output out))) None None)) as [a' n'] eqn:ST.
    assert (a' = a /\ s10 = eff_nsm (EvNsm (Attestation (Some (s_sha256 Y (enc c_genesis_output out))) None None) a) n' (tick_rng s6)) as [-> ->]
      by (split; congruence). clear H10.
    split; [exact U|]. split; [|split].
    - exists coeffs. rewrite Q. unfold faithful. cbn [go_set go_dr_key go_quorum_key go_test_message go_test_ciphertext go_test_signature go_quorum_key_hash go_member_outputs go_dr_key_wrapped].
      split; [reflexivity|]. split; [reflexivity|]. split; [exists ek, sk, rnd2; auto|]. split; [reflexivity|]. split; [reflexivity|]. split; [reflexivity|].
      split; [|exact W]. exists l. split; [exact D|]. split; [exact G|].
      pose proof (c25_shares_distinct _ _ _ _ _ G) as [LL _]. rewrite !lenN_length in LL.
      split; [rewrite L, combine_length; lia|]. intros i m Hm.
      assert (Hi : (i < length l)%nat). { assert (nth_error (gs_members set) i <> None) as X by congruence. apply nth_error_Some in X. lia. }
      destruct (nth_error l i) as [sh|] eqn:Es; [|apply nth_error_None in Es; lia].
      destruct (O i sh m (nth_error_combine _ _ _ _ _ Es Hm)) as (o & Eo & OF). exists o, sh. auto.
    - cbn [eff_nsm st_fs tick_rng]. now rewrite WF, F.
    - exists n'. split; [reflexivity|]. cbn [eff_nsm st_trace st_fs tick_rng]. rewrite WT, T, WF, F. reflexivity.
  Qed.
End Genesis.

(** ** C40.  A genesis response is given only to a process that has not booted;
    it reports a sharing, among the requested members in order, of one key drawn
    at that moment; the request is echoed; the attestation is over the hash of
    the whole output; no file is touched. *)
Theorem c40_genesis_output_faithful : forall Y, sharing_ok Y -> forall set dr s nsm out s',
  handle Y (BootGenesisRequest set dr) s = (BootGenesisResponse nsm out, s') ->
  st_phase s = WaitingForBootInstruction /\ st_phase s' = GenesisBooted /\
  proper_members Y (gs_members set) /\
  (exists coeffs, faithful Y set dr (s_rng Y (st_rngc s)) coeffs out) /\
  st_fs s' = st_fs s /\
  exists n, s_nsm_step Y (st_nsm s) (Attestation (Some (s_sha256 Y (enc c_genesis_output out))) None None) = (nsm, n) /\
    st_trace s' = Entry (EvNsm (Attestation (Some (s_sha256 Y (enc c_genesis_output out))) None None) nsm) (st_fs s) n :: st_trace s.
Proof.
  intros Y SH set dr s nsm out s' H.
  assert (P : st_phase s = WaitingForBootInstruction).
  { destruct (served (st_phase s) (BootGenesisRequest set dr)) eqn:V.
    - destruct (st_phase s); cbn in V; congruence.
    - rewrite (handle_unserved _ _ V) in H. discriminate H. }
  rewrite (handle_genesis set dr s P) in H.
  destruct (boot_genesis Y set dr s) as [[[o r]|x] s1] eqn:E; [|discriminate]. cbn [fst snd] in H.
  assert (o = out /\ r = nsm /\ s' = set_phase GenesisBooted s1) as (-> & -> & ->) by (split; [|split]; congruence).
  apply (genesis_facts set dr s out nsm s1 SH) in E as (A & B & C & n & N & D).
  split; [exact P|]. split; [reflexivity|]. split; [exact A|]. split; [exact B|]. split; [exact C|]. exists n. split; [exact N|exact D].
Qed.
Print Assumptions c40_genesis_output_faithful.

(** Any threshold of distinct members can, with their own keys, open their
    outputs (the share hashes match) and recombine the quorum key, whose public
    key is the reported one; the holder of the disaster-recovery key can too;
    the recovered key opens the test message, whose signature verifies. *)
Theorem c40_threshold_of_members_recover_the_key : forall Y, sys_ok Y -> crypto_ok Y -> sharing_ok Y -> forall set dr s nsm out s',
  handle Y (BootGenesisRequest set dr) s = (BootGenesisResponse nsm out, s') ->
  exists seed, seed_for Y seed (go_quorum_key out) /\
    (forall (who : list nat) (own : nat -> bytes), NoDup who -> gs_threshold set <= lenN who ->
       (forall i, In i who -> exists m, nth_error (gs_members set) i = Some m /\ seed_for Y (own i) (m_pub_key m)) ->
       exists shares,
         Forall2 (fun i share => exists o, nth_error (go_member_outputs out) i = Some o
                    /\ s_decrypt Y (own i) (gm_share o) = Ok share /\ gm_share_hash o = s_sha512 Y share) who shares
         /\ s_combine Y shares = Some seed) /\
    (forall own k, dr = Some k -> seed_for Y own k -> exists c, go_dr_key_wrapped out = Some c /\ s_decrypt Y own c = Ok seed) /\
    s_decrypt Y seed (go_test_ciphertext out) = Ok (go_test_message out) /\
    exists ek sk, go_quorum_key out = ek ++ sk /\ length ek = 65%nat /\ s_verify Y sk (go_test_message out) (go_test_signature out) = true.
Proof.
  intros Y OK CR SH set dr s nsm out s' H.
  apply (c40_genesis_output_faithful Y SH) in H as (_ & _ & PM & (coeffs & F) & _).
  destruct F as (F1 & F2 & (ek & sk & rnd & SP & QK & TC) & SG & TM & _ & (shares & D & G & LO & EACH) & DR).
  set (seed := s_rng Y (st_rngc s)) in *. exists seed.
  destruct (ok_pair Y OK _ _ _ SP) as (Le & Ls & _ & _).
  assert (KEY : forall m own e g, seed_for Y own (m_pub_key m) -> has_keys Y m e g -> s_pair Y own = Some (e, g)).
  { intros m own e g (_ & e' & g' & P & E) (E' & L1 & L2 & _). destruct (ok_pair Y OK _ _ _ P) as (L3 & L4 & _).
    rewrite E in E'. assert (e' = e /\ g' = g) as [-> ->]; [|exact P].
    apply (app_eq_app) in E'. destruct E' as (l & [[-> ->]|[-> ->]]);
    rewrite !app_length in *; assert (length l = 0%nat) by lia; destruct l; try discriminate; rewrite ?app_nil_r; auto. }
  split; [split; [apply (ok_rng Y OK)|exists ek, sk; auto]|]. split; [|split; [|split]].
  - intros who own ND K OWN.
    assert (X : exists l, Forall2 (fun i share => nth_error shares i = Some share /\ exists o, nth_error (go_member_outputs out) i = Some o
                    /\ s_decrypt Y (own i) (gm_share o) = Ok share /\ gm_share_hash o = s_sha512 Y share) who l).
    { clear ND K. induction who as [|i who IH]; [exists []; constructor|].
      destruct IH as (l & IH); [intros j Hj; apply OWN; now right|].
      destruct (OWN i (or_introl eq_refl)) as (m & Hm & SF). destruct (EACH i m Hm) as (o & share & Ho & Hs & OM & OH & e & g & r & HK & EN).
      exists (share :: l). constructor; [|exact IH]. split; [exact Hs|]. exists o. split; [exact Ho|]. split; [|exact OH].
      exact (cr_decrypt Y CR _ _ _ _ _ _ (KEY m _ _ _ SF HK) EN). }
    destruct X as (l & X). exists l. split.
    + clear - X. induction X; constructor; [tauto|assumption].
    + rewrite (sh_combine Y SH). pose proof (c25_shares_distinct _ _ _ _ _ G) as [_ NDs].
      apply (c25_any_k_shares_reconstruct coeffs seed (lenN (gs_members set)) (gs_threshold set) shares l D G).
      * intros x Hx. clear - X Hx. induction X as [|i y who l (A & _) X IH]; [destruct Hx|].
        destruct Hx as [->|Hx]; [eapply nth_error_In; exact A|auto].
      * clear - X ND NDs. induction X as [|i y who l (A & _) X IH]; [constructor|]. inversion ND as [|? ? NI ND']; subst.
        constructor; [|auto]. intros Hy. apply NI. clear - X NDs A Hy.
        induction X as [|j z who l (B & _) X IH]; [destruct Hy|]. destruct Hy as [->|Hy]; [left|right; auto].
        apply (NoDup_nth_error shares); [exact NDs| |congruence]. apply nth_error_Some. congruence.
      * replace (lenN l) with (lenN who); [exact K|]. rewrite !lenN_length. f_equal. clear - X. induction X; cbn; congruence.
  - intros own k -> SF. destruct (go_dr_key_wrapped out) as [c|]; [|destruct DR]. exists c. split; [reflexivity|].
    destruct DR as (e & g & r & HK & EN). exact (cr_decrypt Y CR _ _ _ _ _ _ (KEY (QuorumMember [] k) _ _ _ SF HK) EN).
  - exact (cr_decrypt Y CR _ _ _ _ _ _ SP TC).
  - exists ek, sk. split; [exact QK|]. split; [exact Le|]. rewrite SG. exact (cr_verify Y CR _ _ _ _ SP).
Qed.
Print Assumptions c40_threshold_of_members_recover_the_key.

(** Fewer members learn nothing: for any [threshold - 1] members and any other
    possible seed, exactly one draw of the coefficients gives these members the
    very shares they received. *)
Theorem c40_fewer_members_learn_nothing : forall Y, sharing_ok Y -> forall set dr s nsm out s',
  handle Y (BootGenesisRequest set dr) s = (BootGenesisResponse nsm out, s') ->
  exists seed coeffs shares, faithful Y set dr seed coeffs out
    /\ shares_generate coeffs seed (lenN (gs_members set)) (gs_threshold set) = Some shares
    /\ forall other (who : list nat), length other = length seed -> NoDup who ->
         (forall i, In i who -> (i < length (gs_members set))%nat) -> lenN who = gs_threshold set - 1 ->
         exists! coeffs', drawn_for other (gs_threshold set) coeffs' /\
           exists shares', shares_generate coeffs' other (lenN (gs_members set)) (gs_threshold set) = Some shares'
             /\ forall i, In i who -> nth i shares' [] = nth i shares [].
Proof.
  intros Y SH set dr s nsm out s' H.
  apply (c40_genesis_output_faithful Y SH) in H as (_ & _ & PM & (coeffs & F) & _).
  pose proof F as (_ & _ & _ & _ & _ & _ & (shares & D & G & LO & EACH) & _).
  exists (s_rng Y (st_rngc s)), coeffs, shares. split; [exact F|]. split; [exact G|]. intros other who L ND B K.
  apply (c26_fewer_shares_hide coeffs (s_rng Y (st_rngc s)) _ _ shares other who D G L ND); [|exact K].
  pose proof (c25_shares_distinct _ _ _ _ _ G) as [LS _]. rewrite !lenN_length in LS. intros i Hi. apply B in Hi. lia.
Qed.
Print Assumptions c40_fewer_members_learn_nothing.

(** Key generation and encryption to valid points never fail. *)
Definition primitives_total (Y : sys) : Prop :=
  (forall n, s_pair Y (s_rng Y n) <> None) /\ (forall e rnd m, s_point_ok Y e = true -> exists c, s_encrypt Y e rnd m = Ok c).

Lemma encrypt_shares_total {Y} (TOT : primitives_total Y) l : forall s : st Y,
  (forall sh m, In (sh, m) l -> exists e g, has_keys Y m e g) -> exists outs s', encrypt_shares Y l s = (Ok outs, s').
Proof.
  induction l as [|[sh m] l IH]; intros s K; [eexists; eexists; reflexivity|].
  cbn [encrypt_shares]. destruct (K sh m (or_introl eq_refl)) as (e & g & HK).
  pose proof HK as (_ & _ & _ & PE & _). apply public_keys in HK. unfold bind at 1. unfold lift at 1. rewrite HK. cbn [rmap_err].
  unfold bind at 1, op_rand. cbv iota beta. unfold bind at 1, lift at 1. cbn [fst].
  destruct (proj2 TOT e (s_rng Y (st_rngc s)) sh PE) as (c & EC). rewrite EC. cbn [rmap_err]. unfold bind at 1.
  destruct (IH (tick_rng s)) as (outs & s' & E); [intros a b I; apply (K a b); now right|]. rewrite E. eexists; eexists; reflexivity.
Qed.

(** Genesis is served exactly for a proper member set, a threshold between 2 and
    the number of members (at most 255), and a well-formed disaster-recovery key. *)
Theorem c40_genesis_served_iff : forall Y, sys_ok Y -> sharing_ok Y -> primitives_total Y -> forall set dr s,
  (exists nsm out s', handle Y (BootGenesisRequest set dr) s = (BootGenesisResponse nsm out, s')) <->
  st_phase s = WaitingForBootInstruction /\ proper_members Y (gs_members set)
  /\ 2 <= gs_threshold set /\ gs_threshold set <= lenN (gs_members set) /\ lenN (gs_members set) <= 255
  /\ (forall k, dr = Some k -> exists e g, has_keys Y (QuorumMember [] k) e g).
Proof.
  intros Y OK SH TOT set dr s. split.
  - intros (nsm & out & s' & H). apply (c40_genesis_output_faithful Y SH) in H as (P & _ & PM & (coeffs & F) & _).
    destruct F as (_ & _ & _ & _ & _ & _ & (shares & _ & G & _ & _) & DR). apply generated in G as (A & B & C & _).
    split; [exact P|]. split; [exact PM|]. split; [exact A|]. split; [exact B|]. split; [exact C|].
    intros k ->. destruct (go_dr_key_wrapped out) as [c|]; [|destruct DR]. destruct DR as (e & g & r & HK & _). eauto.
  - intros (P & PM & A & B & C & DR). rewrite (handle_genesis set dr s P).
    assert (X : exists o r s1, boot_genesis Y set dr s = (Ok (o, r), s1)).
    { unfold boot_genesis. unfold bind at 1, lift at 1. rewrite (proj2 (proper_iff _ _) PM).
      unfold bind at 1, pair_generate. unfold bind at 1, op_rand at 1. unfold bind at 1, lift at 1, from_master_seed.
      destruct (s_pair Y (s_rng Y (st_rngc s))) as [[ek sk]|] eqn:SP; [|now destruct (proj1 TOT (st_rngc s))].
      cbn [rmap_err]. unfold ret at 1. unfold bind at 1, op_rand at 1.
      destruct (sh_split Y SH (s_rng Y (st_rngc (tick_rng s))) (s_rng Y (st_rngc s)) (lenN (gs_members set)) (gs_threshold set)) as (coeffs & D & SPL).
      unfold bind at 1. rewrite SPL. destruct (shares_generate coeffs _ _ _) as [l|] eqn:G.
      2:{ apply c25_generate_refuses in G. destruct G. split; [exact A|]. split; [exact B|]. split; [exact C|].
          pose proof (ok_rng Y OK (st_rngc s)) as Lr. intros E. rewrite E in Lr. discriminate. }
      unfold ret at 1. unfold bind at 1, catch.
      destruct (encrypt_shares_total TOT (combine l (gs_members set)) (tick_rng (tick_rng s))) as (outs & s5 & EN).
      { intros sh m I. apply in_combine_r in I. apply In_nth_error in I as (i & Hi). destruct PM as (_ & encs & signs & _ & _ & K & _).
        destruct (K i m Hi) as (e & g & _ & _ & HK). eauto. }
      rewrite EN.
      assert (W : exists w s6, (match dr with
                  | None => ret None
                  | Some dk =>
                    do p <- lift (rmap_err InvalidP256DRKey (public_from_bytes Y dk));
                    do rnd <- op_rand Y;
                    do c <- lift (rmap_err P256Error (s_encrypt Y (fst p) rnd (s_rng Y (st_rngc s))));
                    ret (Some c)
                  end) s5 = (Ok w, s6)).
      { destruct dr as [dk|]; [|eexists; eexists; reflexivity]. destruct (DR dk eq_refl) as (e & g & HK).
        pose proof HK as (_ & _ & _ & PE & _). apply public_keys in HK. cbn [m_pub_key] in HK.
        unfold bind at 1, lift at 1. rewrite HK. cbn [rmap_err]. unfold bind at 1, op_rand. unfold bind at 1, lift at 1. cbn [fst].
        destruct (proj2 TOT e (s_rng Y (st_rngc s5)) (s_rng Y (st_rngc s)) PE) as (c & EC). rewrite EC. eexists; eexists; reflexivity. }
      destruct W as (w & s6 & W). unfold bind at 1. rewrite W. unfold bind at 1, lift at 1. unfold bind at 1, op_rand at 1. unfold bind at 1, lift at 1.
      destruct (proj2 TOT ek (s_rng Y (st_rngc s6)) QOS_TEST_MESSAGE) as (tc & EC); [exact (proj1 (proj2 (proj2 (ok_pair Y OK _ _ _ SP))))|].
      cbn [fst]. rewrite EC. cbn [rmap_err]. cbv zeta. unfold bind at 1, op_nsm.
      match goal with |- context [s_nsm_step Y ?a ?b] => destruct (s_nsm_step Y a b) as [an n'] end.
      unfold ret. eexists; eexists; eexists; reflexivity. }
    destruct X as (o & r & s1 & E). rewrite E. cbn [fst snd]. eexists; eexists; eexists; reflexivity.
Qed.
Print Assumptions c40_genesis_served_iff.

(** Non-trivial case: the toy system with Shamir's sharing; 2 of 3 members and a DR key. *)
Definition with_shamir (Y : sys) : sys := {|
  s_nsm := s_nsm Y; s_nsm_step := s_nsm_step Y; s_nsm_time := s_nsm_time Y; s_root := s_root Y;
  s_sha256 := s_sha256 Y; s_sha384 := s_sha384 Y; s_sha512 := s_sha512 Y;
  s_point_ok := s_point_ok Y; s_pair := s_pair Y; s_sign := s_sign Y; s_verify := s_verify Y;
  s_encrypt := s_encrypt Y; s_decrypt := s_decrypt Y;
  s_combine := shares_reconstruct;
  s_split := fun rnd secret n k => shares_generate (map (fun b => repeat b (N.to_nat (k - 1))) (firstn (length secret) (rnd ++ repeat x07 (length secret)))) secret n k;
  s_doc := s_doc Y; s_chain_ok := s_chain_ok Y; s_cose_sig_ok := s_cose_sig_ok Y; s_rng := s_rng Y; s_io := s_io Y;
  s_version := s_version Y; s_commit := s_commit Y |}.
Lemma shamir_sharing Y : sharing_ok (with_shamir Y).
Proof.
  constructor; [|reflexivity]. intros rnd secret n k.
  exists (map (fun b => repeat b (N.to_nat (k - 1))) (firstn (length secret) (rnd ++ repeat x07 (length secret)))).
  split; [|reflexivity]. split.
  - rewrite map_length, firstn_length, app_length, repeat_length. lia.
  - intros row I. apply in_map_iff in I as (b & <- & _). rewrite lenN_length, repeat_length. lia.
Qed.
Lemma shamir_ok Y : sys_ok Y -> sys_ok (with_shamir Y).
Proof. intros []. constructor; assumption. Qed.
Lemma shamir_crypto Y : crypto_ok Y -> crypto_ok (with_shamir Y).
Proof. intros []. constructor; assumption. Qed.
Definition TS : sys := with_shamir T.
Definition gset : genesis_set := GenesisSet [alice; bob; carol] 2.
Definition gs0 : st TS := fresh TS (fun _ => None) toy_nsm0 0 0 [].
Example c40_nontrivial : sys_ok TS /\ crypto_ok TS /\ sharing_ok TS /\ primitives_total TS /\
  (exists nsm out s', handle TS (BootGenesisRequest gset (Some (pub_of seed_q))) gs0 = (BootGenesisResponse nsm out, s')
     /\ length (go_member_outputs out) = 3%nat) /\
  (forall i, In i [2%nat; 0%nat] -> exists m, nth_error (gs_members gset) i = Some m /\ seed_for TS (nth i [seed_a; seed_b; seed_c] []) (m_pub_key m)).
Proof.
  assert (OK : sys_ok TS) by (apply shamir_ok, toy_ok). assert (SH : sharing_ok TS) by apply shamir_sharing.
  assert (TOT : primitives_total TS).
  { split; [|intros; eexists; reflexivity]. intros n H. pose proof (ok_rng TS OK n) as L.
    change (s_pair TS) with toy_pair in H. unfold toy_pair in H. rewrite L in H. discriminate. }
  split; [exact OK|]. split; [apply shamir_crypto, toy_crypto|]. split; [exact SH|]. split; [exact TOT|]. split.
  - assert (X : exists nsm out s', handle TS (BootGenesisRequest gset (Some (pub_of seed_q))) gs0 = (BootGenesisResponse nsm out, s')).
    { apply (c40_genesis_served_iff TS OK SH TOT). split; [reflexivity|]. split; [apply proper_iff; vm_compute; reflexivity|].
      split; [cbn; lia|]. split; [cbn; lia|]. split; [cbn; lia|].
      intros k E. injection E as <-. exists (firstn 65 (pub_of seed_q)), (skipn 65 (pub_of seed_q)). apply public_keys. vm_compute. reflexivity. }
    destruct X as (nsm & out & s' & H). exists nsm, out, s'. split; [exact H|].
    apply (c40_genesis_output_faithful TS SH) in H as (_ & _ & _ & (c & F) & _).
    destruct F as (_ & _ & _ & _ & _ & _ & (shares & _ & _ & L & _) & _). exact L.
  - intros i [<-|[<-|[]]]; eexists; (split; [reflexivity|]); (split; [reflexivity|]); eexists; eexists; (split; [vm_compute; reflexivity|vm_compute; reflexivity]).
Qed.
