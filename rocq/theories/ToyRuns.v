(** Concrete runs of the toy system: non-vacuity witnesses and counterexamples. *)
From Verif Require Import Base Hex Types TypesJson Json Msg World Attest Services State SpecProtocol Reach CodecExamples
  Run HandleProofs ProtocolProofs HistoryProofs CalmProofs SpecExport SpecHistory Toy.
Local Open Scope N_scope.

Notation T := (toy calm 0).
Lemma T_ok : sys_ok T. Proof. apply toy_ok. Qed.
Lemma T_calm : no_faults T. Proof. intros n. reflexivity. Qed.
Lemma start_reach io salt : reach (toy io salt) (start io salt).
Proof. apply R_init. intros s. reflexivity. Qed.

Definition wf_all (rs : list msg) : bool := forallb wf_req rs.
Lemma wf_all_Forall rs : wf_all rs = true -> Forall (fun r => wf_req r = true) rs.
Proof. intros H. apply Forall_forall. now apply forallb_forall. Qed.
Lemma run_reach io rs : wf_all rs = true -> reach (toy io 0) (snd (serve (toy io 0) rs (start io 0))).
Proof. intros H. apply reach_serve; [apply start_reach|now apply wf_all_Forall]. Qed.

Definition s_booted := snd (serve T [boot_std] (start calm 0)).
Definition s_waiting := snd (serve T [boot_std; prov1 0] (start calm 0)).
Definition s_done := snd (serve T [boot_std; prov1 0; prov2 0] (start calm 0)).

Lemma wf_std : wf_all [boot_std; prov1 0; prov2 0] = true. Proof. vm_compute. reflexivity. Qed.
Lemma booted_reach : reach T s_booted. Proof. apply run_reach. vm_compute. reflexivity. Qed.
Lemma waiting_reach : reach T s_waiting. Proof. apply run_reach. vm_compute. reflexivity. Qed.
Lemma done_reach : reach T s_done. Proof. apply run_reach. vm_compute. reflexivity. Qed.

(** A second enclave of the same kind, with other randomness, booted for key forwarding. *)
Definition tm2 : manifest_v2 := toy_manifest 8 Never.
Definition te2 : versioned_envelope := toy_env tm2.
Definition boot_fwd2 := BootKeyForwardRequest te2 pivot.
Definition start2 : st T := fresh T no_files toy_nsm0 100 0 [].
Definition s_fwd := snd (handle T boot_fwd2 start2).
Definition doc_in (m : msg) : bytes := match m with BootKeyForwardResponse (RAttestation d) => d | _ => [] end.
Definition sealed_in (m : msg) : bytes * bytes := match m with ExportKeyResponse c g => (c, g) | _ => ([], []) end.
Definition fwd_doc : bytes := doc_in (fst (handle T boot_fwd2 start2)).
Lemma fwd_reach : reach T s_fwd.
Proof. apply R_step; [apply R_init; intros; reflexivity|]. vm_compute. reflexivity. Qed.
Definition export2 := ExportKeyRequest te2 fwd_doc.
Definition exported : bytes * bytes := sealed_in (fst (handle T export2 s_done)).
Definition inject2 := InjectKeyRequest (fst exported) (snd exported).

Definition phases {Y} (s : st Y) : phase * (bool * bool) * (nat * option bytes) :=
  (st_phase s, (is_some (st_fs s (Main Quorum)), is_some (st_fs s (Main Eph))), (length (st_shares s), st_pending s)).
Example booted_looks : phases s_booted = (WaitingForQuorumShards, (false, true), (0%nat, Some (live_seed 0))).
Proof. vm_compute. reflexivity. Qed.
Example waiting_looks : phases s_waiting = (WaitingForQuorumShards, (false, true), (1%nat, Some (live_seed 0))).
Proof. vm_compute. reflexivity. Qed.
Example done_looks : phases s_done = (QuorumKeyProvisioned, (true, true), (0%nat, None))
  /\ content (st_fs s_done) Quorum = Some (encode seed_q) /\ content (st_fs s_done) Eph = Some (encode (live_seed 0)).
Proof. vm_compute. auto. Qed.
Example fwd_looks : phases s_fwd = (WaitingForForwardedKey, (false, true), (0%nat, Some (toy_hash 32 (le_enc 8 101)))).
Proof. vm_compute. reflexivity. Qed.
Example export_works : fst exported <> [] /\ fst (handle T inject2 s_fwd) = InjectKeyResponse
  /\ content (st_fs (snd (handle T inject2 s_fwd))) Quorum = Some (encode seed_q).
Proof. vm_compute. repeat split; discriminate. Qed.

(** The toy primitives satisfy the laws assumed of the real ones. *)
Lemma seed_in_ok b c seed : length seed = 32%nat -> seed_in (b :: seed ++ c) = seed.
Proof.
  intros L. unfold seed_in. cbn [tl]. rewrite firstn_app, L, Nat.sub_diag, firstn_O, app_nil_r.
  apply firstn_all2. now rewrite L.
Qed.
Lemma toy_pair_inv seed ek sk : toy_pair seed = Some (ek, sk) ->
  length seed = 32%nat /\ ek = x04 :: seed ++ repeat x00 32 /\ sk = x04 :: seed ++ repeat x01 32.
Proof.
  unfold toy_pair. destruct (Nat.eqb (length seed) 32) eqn:L; [|discriminate].
  apply Nat.eqb_eq in L. intros H. repeat split; congruence.
Qed.
Lemma toy_crypto io salt : crypto_ok (toy io salt).
Proof.
  constructor; cbn [toy s_pair s_encrypt s_decrypt s_verify s_sign]; intros seed ek sk.
  - intros rnd m c H E. apply toy_pair_inv in H as (L & -> & ->).
    unfold toy_encrypt in E. rewrite seed_in_ok in E by exact L.
    assert (c = seed ++ m) as -> by congruence. unfold toy_decrypt.
    assert (S' : firstn 32 (seed ++ m) = seed).
    { rewrite firstn_app, L, Nat.sub_diag, firstn_O, app_nil_r. apply firstn_all2. now rewrite L. }
    rewrite S', bytes_eqb_refl. f_equal. rewrite skipn_app, L, Nat.sub_diag, skipn_O, skipn_all2 by (now rewrite L). reflexivity.
  - intros m H. apply toy_pair_inv in H as (L & -> & ->).
    unfold toy_verify. rewrite seed_in_ok by exact L. apply bytes_eqb_refl.
Qed.

Lemma stored_by f e : option_map envelope_try_from_slice_compat (content f Manif) = Some (Some e) -> stored f e.
Proof. unfold stored. destruct (content f Manif) as [c|]; [|discriminate]. intros H. exists c. split; [reflexivity|]. cbn in H. congruence. Qed.
Lemma booted_stored : stored (st_fs s_booted) te.
Proof. apply stored_by. vm_compute. reflexivity. Qed.
(** The stored envelope after both shares. *)
Definition te_done : versioned_envelope := push_share_approval (approve seed_b bob tm) (push_share_approval (approve seed_a alice tm) te).
