(** C19-C21: moving the quorum key between enclaves. *)
From Coq Require Import ZifyBool ZifyN ZifyNat.
From Verif Require Import Base Hex HexProofs Types TypesJson Msg World Attest Services State SpecProtocol Reach SpecApproval SpecAttest SpecHistory
  Run HandleProofs ProtocolProofs HistoryProofs BootProofs Invariant EffectProofs CalmProofs ProvisionProofs SpecExport ExportProofs CodecExamples Toy ToyRuns.
Local Open Scope N_scope.

(** ** C19 *)
Theorem c19_export_conditions : forall Y, sys_ok Y -> forall new cose s c g s', reach Y s ->
  handle Y (ExportKeyRequest new cose) s = (ExportKeyResponse c g, s') ->
  st_phase s = QuorumKeyProvisioned
  /\ exists ms d old ek sk seed rnd,
      fst (s_nsm_time Y (st_nsm s)) = Some ms
      /\ doc_authentic Y cose (ms / 1000) d
      /\ stored (st_fs s) old /\ may_receive Y old new d
      /\ ad_public_key d = Some (ek ++ sk) /\ length ek = 65%nat /\ length sk = 65%nat
      /\ content (st_fs s) Quorum = Some (encode seed)
      /\ seed_for Y seed (ns_quorum_key (vm_namespace (env_manifest old)))
      /\ s_encrypt Y ek rnd seed = Ok c /\ g = s_sign Y seed c.
Proof.
  intros Y OK new cose s c g s' R H.
  destruct (export_facts new cose s c g s' H) as (P & ms & d & old & ek & sk & seed & t & rnd & A).
  decompose [and] A. clear A. split; [exact P|]. exists ms, d, old, ek, sk, seed, rnd.
  destruct (reach_quorum OK s t seed R) as [-> L]; [assumption|assumption|].
  match goal with X : content (st_fs s) Quorum = _ |- _ => rename X into C end.
  destruct (moment_snap OK s _ _ R (Mo_now Y s) _ C) as (seed' & k & e & pv & live & lk & sp & Z). decompose [and] Z. clear Z.
  assert (E : seed' = seed) by (apply encode_inj; congruence). subst seed'.
  assert (E : e = old).
  { match goal with X : stored _ e, Y : stored _ old |- _ => destruct X as (b1 & X1 & X2), Y as (b2 & Y1 & Y2) end. congruence. }
  subst e. repeat (split; [assumption|]). split; [|split; assumption].
  destruct k as [a b]. split; [assumption|]. exists a, b. auto.
Qed.
Print Assumptions c19_export_conditions.

Example c19_nontrivial : reach T s_done /\ exists c g, fst (handle T export2 s_done) = ExportKeyResponse c g /\ c <> [] /\ g <> [].
Proof.
  split; [exact done_reach|].
  assert (E : fst (handle T export2 s_done) = ExportKeyResponse (fst exported) (snd exported)) by (vm_compute; reflexivity).
  exists (fst exported), (snd exported). split; [exact E|]. split; vm_compute; discriminate.
Qed.

(** ** C21 *)
(** In every history, an inject request is answered with success only if the
    ciphertext is signed by the stored manifest's quorum key and decrypts, under
    the published ephemeral (setup) key, to the seed of exactly that key; and
    that seed is what gets installed. *)
Theorem c21_inject_accepts_only_the_key : forall Y, sys_ok Y -> forall s c g s', reach Y s ->
  handle Y (InjectKeyRequest c g) s = (InjectKeyResponse, s') ->
  exists e setup seed ek sk,
    stored (st_fs s) e /\ content (st_fs s) Eph = Some (encode setup)
    /\ ns_quorum_key (vm_namespace (env_manifest e)) = ek ++ sk
    /\ s_verify Y sk c g = true /\ s_decrypt Y setup c = Ok seed
    /\ length seed = 32%nat /\ s_pair Y seed = Some (ek, sk)
    /\ content (st_fs s') Quorum = Some (encode seed).
Proof.
  intros Y OK s c g s' R H.
  assert (P : st_phase s = WaitingForForwardedKey).
  { destruct (served (st_phase s) (InjectKeyRequest c g)) eqn:V.
    - destruct (st_phase s); cbn in V; congruence.
    - rewrite (handle_unserved _ _ V) in H. discriminate H. }
  destruct (expecting_reach OK s R P) as (e & setup & live & X & _).
  rewrite (handle_inject c g s P) in H. destruct (inject_key Y c g s) as [[[]|x] s1] eqn:E; [|discriminate H].
  destruct (inject_facts c g s e setup live _ s1 X E) as [(_ & x & Hx)|(seed & Fw & D & Q & _)]; [discriminate Hx|].
  destruct Fw as (c1 & g1 & seed1 & ek & sk & I & K & V & D1 & L & Pr). injection I as <- <-.
  assert (seed1 = seed) as -> by congruence.
  exists e, setup, seed, ek, sk. split; [apply (ex_env _ _ _ _ X)|]. split; [apply (ex_eph _ _ _ _ X)|].
  repeat (split; [assumption|]). injection H as <-. exact Q.
Qed.
Print Assumptions c21_inject_accepts_only_the_key.

Example c21_nontrivial : reach T s_fwd /\ fst (handle T inject2 s_fwd) = InjectKeyResponse.
Proof. split; [exact fwd_reach|]. apply export_works. Qed.

(** ** C20 *)
(** [s1] exports, [s2] is booted for key forwarding; the document presented to
    [s1] carries the public key of the ephemeral key published by [s2], and the
    two manifests name the same quorum key. *)
Theorem c20_forwarding_round_trip : forall Y, sys_ok Y -> crypto_ok Y -> no_faults Y ->
  forall s1 s2 new cose c g s1' d e1 e2 setup setup_pub,
  reach Y s1 -> reach Y s2 -> st_phase s2 = WaitingForForwardedKey ->
  handle Y (ExportKeyRequest new cose) s1 = (ExportKeyResponse c g, s1') ->
  s_doc Y cose = Some d -> ad_public_key d = Some setup_pub ->
  content (st_fs s2) Eph = Some (encode setup) -> seed_for Y setup setup_pub ->
  stored (st_fs s1) e1 -> stored (st_fs s2) e2 ->
  ns_quorum_key (vm_namespace (env_manifest e2)) = ns_quorum_key (vm_namespace (env_manifest e1)) ->
  exists s2', handle Y (InjectKeyRequest c g) s2 = (InjectKeyResponse, s2')
    /\ st_phase s1' = QuorumKeyProvisioned /\ st_phase s2' = QuorumKeyProvisioned
    /\ content (st_fs s2') Quorum = content (st_fs s1') Quorum /\ content (st_fs s1') Quorum <> None.
Proof.
  intros Y OK CR NF s1 s2 new cose c g s1' d e1 e2 setup setup_pub R1 R2 P2 H Hd Hp Ep Sf S1 S2 K.
  destruct (c19_export_conditions Y OK new cose s1 c g s1' R1 H)
    as (P1 & ms & d' & old & ek & sk & seed & rnd & _ & (Dc & _) & So & _ & Pk & Le & Ls & Cq & Sq & En & ->).
  assert (d' = d) as -> by congruence.
  assert (old = e1) as -> by (apply (stored_inj (st_fs s1)); assumption).
  destruct Sf as (Lset & a & b & Pset & ->). destruct Sq as (Lseed & qe & qs & Pseed & Kq).
  destruct (ok_pair _ OK _ _ _ Pset) as (La & Lb & _). destruct (ok_pair _ OK _ _ _ Pseed) as (Lqe & Lqs & Oe & Os).
  assert (Eab : ek ++ sk = a ++ b) by congruence.
  assert (ek = a) as ->.
  { apply (f_equal (firstn 65)) in Eab. rewrite !firstn_app, Le, La, Nat.sub_diag, !firstn_O, !app_nil_r in Eab.
    rewrite !firstn_all2 in Eab by lia. exact Eab. }
  destruct (expecting_reach OK s2 R2 P2) as (e & st0 & live & X & _).
  assert (e = e2) as -> by (apply (stored_inj (st_fs s2)); [apply (ex_env _ _ _ _ X)|assumption]).
  destruct (inject_works NF c (s_sign Y seed c) s2 e2 setup (a, b) seed qe qs live) as (s2' & I1 & I2 & I3 & I4); auto.
  - congruence.
  - exact (cr_verify _ CR seed qe qs c Pseed).
  - exact (cr_decrypt _ CR setup a b rnd seed c Pset En).
  - apply (ex_live _ _ _ _ X).
  - apply (ex_none _ _ _ _ X).
  - exists s2'. split; [exact I1|].
    assert (Q : quiet s1 s1') by (replace s1' with (snd (handle Y (ExportKeyRequest new cose) s1)) by (now rewrite H); now apply read_only_quiet).
    split; [rewrite (fx_phase _ _ _ Q); exact P1|]. split; [exact I2|]. rewrite (quiet_fs _ _ Q), I3, Cq. split; [reflexivity|discriminate].
Qed.
Print Assumptions c20_forwarding_round_trip.

Example c20_nontrivial : sys_ok T /\ crypto_ok T /\ no_faults T /\ reach T s_done /\ reach T s_fwd
  /\ st_phase s_fwd = WaitingForForwardedKey
  /\ fst (handle T export2 s_done) = ExportKeyResponse (fst exported) (snd exported)
  /\ option_map ad_public_key (s_doc T fwd_doc) = Some (Some (pub_of (toy_hash 32 (le_enc 8 100))))
  /\ content (st_fs s_fwd) Eph = Some (encode (toy_hash 32 (le_enc 8 100)))
  /\ content (st_fs (snd (handle T inject2 s_fwd))) Quorum = Some (encode seed_q).
Proof.
  split; [exact T_ok|]. split; [apply toy_crypto|]. split; [exact T_calm|]. split; [exact done_reach|]. split; [exact fwd_reach|].
  vm_compute. repeat split; reflexivity.
Qed.
