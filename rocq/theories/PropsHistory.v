(** C04-C07 and C11-C16: what holds in every history of an enclave.
    [reach] is every state of every history (requests, I/O faults, crashes and
    restarts); [moment] is every file-system state that ever existed in it. *)
From Verif Require Import Base Hex Types TypesJson StorageProofs Msg World Attest Services State SpecProtocol Reach Run FsProofs HandleProofs
  ProtocolProofs ServiceProofs EffectProofs BootProofs Invariant SpecApproval ApprovalProofs SpecAttest SpecHistory HistoryProofs LaterProofs CalmProofs ProvisionProofs
  CodecExamples Toy ToyRuns.
Local Open Scope N_scope.

(** ** C04 *)
Theorem c04_installed_key_is_the_manifests : forall Y, sys_ok Y -> forall s tr f c,
  reach Y s -> moment Y s tr f -> content f Quorum = Some c ->
  exists seed e, c = encode seed /\ stored f e /\ seed_for Y seed (ns_quorum_key (vm_namespace (env_manifest e))).
Proof.
  intros Y OK s tr f c R M C.
  destruct (moment_snap OK s tr f R M c C) as (seed & k & e & pv & live & lk & sp & H). decompose [and] H.
  exists seed, e. repeat split; auto. destruct k as [ek sk]. exists ek, sk. auto.
Qed.
Print Assumptions c04_installed_key_is_the_manifests.

Example c04_nontrivial : reach T s_done /\ moment T s_done (st_trace s_done) (st_fs s_done)
  /\ content (st_fs s_done) Quorum = Some (encode seed_q).
Proof. split; [exact done_reach|]. split; [constructor|]. apply done_looks. Qed.

(** ** C05 *)
(** No request other than a provision or inject in its own phase ever changes
    the key file, at any intermediate step; and it changes only from absent. *)
Theorem c05_only_by_provision_or_inject : forall Y r (s : st Y) new x,
  st_trace (snd (handle Y r s)) = new ++ st_trace s -> In x new ->
  content (en_fs x) Quorum <> content (st_fs s) Quorum ->
  key_request (st_phase s) r /\ content (st_fs s) Quorum = None.
Proof. intros Y. exact quorum_only. Qed.
Print Assumptions c05_only_by_provision_or_inject.

(** Once there, it stays the same through every later request and restart, at every step. *)
Theorem c05_never_changes : forall Y c (s t : st Y), content (st_fs s) Quorum = Some c -> later Y s t ->
  content (st_fs t) Quorum = Some c
  /\ exists new, st_trace t = new ++ st_trace s /\ forall x, In x new -> content (en_fs x) Quorum = Some c.
Proof.
  intros Y c s t C L. destruct (later_quorum c s t C L) as (new & T & F & E). split; [exact E|].
  exists new. split; [exact T|]. now apply Forall_forall.
Qed.
Print Assumptions c05_never_changes.

(** From the moment a key is visible no boot file changes any more. *)
Theorem c05_all_files_frozen : forall Y, sys_ok Y -> forall s tr1 f1 tr2 f2 new,
  reach Y s -> moment Y s tr1 f1 -> moment Y s tr2 f2 -> tr2 = new ++ tr1 ->
  content f1 Quorum <> None -> forall p, content f2 p = content f1 p.
Proof.
  intros Y OK s tr1 f1 tr2 f2 new R M1 M2 T N. apply (later_frozen OK s tr1 f1 tr2 f2 new R M1 M2 T).
  unfold content in N. destruct (f1 (Main Quorum)); [discriminate|]. now contradict N.
Qed.
Print Assumptions c05_all_files_frozen.

Theorem c05_success_means_installed : forall Y, sys_ok Y -> forall r s a s', reach Y s -> wf_req r = true -> handle Y r s = (a, s') ->
  a = ProvisionResponse true \/ a = InjectKeyResponse ->
  st_phase s' = QuorumKeyProvisioned
  /\ exists seed e, content (st_fs s') Quorum = Some (encode seed) /\ stored (st_fs s') e
       /\ seed_for Y seed (ns_quorum_key (vm_namespace (env_manifest e))).
Proof.
  intros Y OK r s a s' R W H A. destruct (success_installed r s a s' H A) as (_ & P & seed & C & L).
  split; [exact P|]. assert (R' : reach Y s') by (replace s' with (snd (handle Y r s)) by (now rewrite H); now apply R_step).
  destruct (c04_installed_key_is_the_manifests Y OK s' _ _ _ R' (Mo_now Y s') C) as (seed' & e & E & S & F).
  exists seed', e. split; [now rewrite C, E|auto].
Qed.
Print Assumptions c05_success_means_installed.

Example c05_nontrivial : reach T s_waiting /\ fst (handle T (prov2 0) s_waiting) = ProvisionResponse true
  /\ content (st_fs s_waiting) Quorum = None /\ content (st_fs (snd (handle T (prov2 0) s_waiting))) Quorum = Some (encode seed_q).
Proof. split; [exact waiting_reach|]. vm_compute. auto. Qed.

(** ** C06 *)
Theorem c06_pivot_write_once : forall Y pv (s t : st Y), content (st_fs s) Pivot = Some pv -> later Y s t ->
  content (st_fs t) Pivot = Some pv
  /\ exists new, st_trace t = new ++ st_trace s /\ forall x, In x new -> content (en_fs x) Pivot = Some pv.
Proof.
  intros Y c s t C L. destruct (later_pivot c s t C L) as (new & T & F & E). split; [exact E|].
  exists new. split; [exact T|]. now apply Forall_forall.
Qed.
Print Assumptions c06_pivot_write_once.

(** The manifest envelope only grows by share approvals; only an I/O fault in
    the middle of recording one can spoil the file, and then the enclave is dead. *)
Theorem c06_manifest_only_grows : forall Y, sys_ok Y -> forall rs s e,
  reach Y s -> Forall (fun r => wf_req r = true) rs -> stored (st_fs s) e ->
  let s' := snd (serve Y rs s) in
  (exists e', stored (st_fs s') e' /\ extends e e')
  \/ st_phase s' = UnrecoverableError /\ (no_faults Y -> exists e', stored (st_fs s') e' /\ extends e e').
Proof. intros Y OK. exact (manifest_serve OK). Qed.
Print Assumptions c06_manifest_only_grows.

Theorem c06_manifest_only_grows_without_faults : forall Y, sys_ok Y -> no_faults Y -> forall rs s e,
  reach Y s -> Forall (fun r => wf_req r = true) rs -> stored (st_fs s) e ->
  exists e', stored (st_fs (snd (serve Y rs s))) e' /\ extends e e'.
Proof.
  intros Y OK NF rs s e R W S. destruct (manifest_serve OK rs s e R W S) as [H|[_ H]]; auto.
Qed.
Print Assumptions c06_manifest_only_grows_without_faults.

Example c06_nontrivial : reach T s_booted /\ content (st_fs s_booted) Pivot = Some pivot /\ stored (st_fs s_booted) te
  /\ content (st_fs (snd (serve T [prov1 0; prov2 0] s_booted))) Manif <> content (st_fs s_booted) Manif.
Proof.
  split; [exact booted_reach|]. split; [vm_compute; reflexivity|]. split; [exact booted_stored|].
  vm_compute. discriminate.
Qed.

(** ** C07 *)
Theorem c07_accepted_boot : forall Y r e pv s a s', reach Y s -> wf_req r = true ->
  boot_of r = Some (e, pv) -> handle Y r s = (a, s') -> is_error a = false ->
  approved Y (vm_manifest_set (env_manifest e)) (manifest_hash Y (env_manifest e)) (env_manifest_approvals e)
  /\ env_share_approvals e = []
  /\ s_sha256 Y pv = vm_pivot_hash (env_manifest e)
  /\ stored (st_fs s') e /\ content (st_fs s') Pivot = Some pv
  /\ st_phase s = WaitingForBootInstruction /\ st_phase s' = boot_target r
  /\ (content (st_fs s) Eph = None /\ content (st_fs s) Pivot = None /\ content (st_fs s) Manif = None).
Proof.
  intros Y r e pv s a s' R W B H N.
  destruct (boot_accepted r e pv s a s' B H N) as (P & P' & _ & C & E & Hs & setup & live & n & F & _).
  destruct F as (F1 & F2 & F3 & F4 & F5 & (b & F6 & F7) & F8).
  assert (We : wf_envelope e = true) by (destruct r; try discriminate B; cbn in B; inversion B; subst; exact W).
  split; [now apply check_sound|]. split; [exact E|]. split; [exact Hs|].
  split.
  { exists b. split; [now apply content_some with (m := 292)|]. destruct (envelope_storage e We) as (b' & X1 & X2). congruence. }
  split; [now apply content_some with (m := 73)|]. split; [exact P|]. split; [exact P'|].
  unfold content. now rewrite F1, F2, F3.
Qed.
Print Assumptions c07_accepted_boot.

Example c07_nontrivial : reach T (start calm 0) /\ wf_req boot_std = true /\ boot_of boot_std = Some (te, pivot)
  /\ is_error (fst (handle T boot_std (start calm 0))) = false.
Proof. split; [apply start_reach|]. vm_compute. auto. Qed.

(** ** C11 *)
(** After an accepted standard boot, a key is there only after at least
    [threshold] (and at least one) provision requests, all of them acceptable,
    each earlier one answered reconstructed:false in an unchanged phase. *)
Theorem c11_threshold_of_accepted_shares : forall Y, sys_ok Y -> forall b e pv s a s1 rs,
  reach Y s -> wf_req b = true -> Forall (fun r => wf_req r = true) rs ->
  boot_of b = Some (e, pv) -> boot_target b = WaitingForQuorumShards ->
  handle Y b s = (a, s1) -> is_error a = false ->
  content (st_fs (snd (serve Y rs s1))) Quorum <> None ->
  exists setup pre last post,
    content (st_fs s1) Eph = Some (encode setup)
    /\ rs = pre ++ last :: post /\ is_provision last = true
    /\ (forall r, In r (pre ++ [last]) -> acceptable Y e setup r)
    /\ (forall i q, nth_error pre i = Some q -> is_provision q = true ->
          nth_error (fst (serve Y rs s1)) i = Some (ProvisionResponse false)
          /\ st_phase (snd (serve Y (firstn (S i) pre) s1)) = WaitingForQuorumShards)
    /\ threshold (vm_share_set (env_manifest e)) <= provisions (pre ++ [last]).
Proof.
  intros Y OK b e pv s a s1 rs R W Ws B Bt H N Q.
  destruct (boot_begins OK b e pv s a s1 R W B H N) as (setup & live & E & P & C & _).
  destruct (provision_history OK e setup live rs 0 s1 Ws (C Bt) Q) as (pre & r & post & -> & Pr & F & A & Col & Th & _).
  exists setup, pre, r, post. split; [exact E|]. split; [reflexivity|]. split; [exact Pr|].
  split; [now apply Forall_forall|]. split.
  - intros i q Hq Hp. split; [now apply (A i q)|].
    apply (still_waiting (firstn (S i) pre) (skipn (S i) pre) s1); [apply (co_phase _ _ _ _ _ (C Bt))|].
    rewrite firstn_skipn. apply (co_phase _ _ _ _ _ Col).
  - unfold provisions in *. rewrite filter_app, app_length. cbn [filter]. rewrite Pr. cbn [length]. lia.
Qed.
Print Assumptions c11_threshold_of_accepted_shares.

(** At every moment a key exists, the stored manifest records why: share-set
    approvals are all valid signatures by share-set members, and there are at
    least [threshold] of them, or none (the key was forwarded). *)
Theorem c11_recorded_share_approvals : forall Y, sys_ok Y -> forall s tr f,
  reach Y s -> moment Y s tr f -> content f Quorum <> None ->
  exists e, stored f e
    /\ (forall a, In a (env_share_approvals e) ->
          In (ap_member a) (members (vm_share_set (env_manifest e))) /\ signed Y (manifest_hash Y (env_manifest e)) a)
    /\ (env_share_approvals e = [] \/ threshold (vm_share_set (env_manifest e)) <= N.of_nat (length (env_share_approvals e))).
Proof.
  intros Y OK s tr f R M N. destruct (content f Quorum) as [c|] eqn:C; [|congruence].
  destruct (moment_snap OK s tr f R M c C) as (seed & k & e & pv & live & lk & sp & H). decompose [and] H.
  exists e. split; [assumption|]. split.
  2:{ match goal with X : enough_shares e |- _ => unfold enough_shares in X; rewrite lenN_length in X; exact X end. }
  match goal with X : share_approvals_ok e |- _ => unfold share_approvals_ok in X; rewrite Forall_forall in X; rename X into SA end.
  intros a I. destruct (SA a I) as [A B]. split; [exact A|]. now apply approval_signed.
Qed.
Print Assumptions c11_recorded_share_approvals.

Example c11_nontrivial : let s1 := snd (handle T boot_std (start calm 0)) in
  is_error (fst (handle T boot_std (start calm 0))) = false
  /\ content (st_fs (snd (serve T [StatusRequest; prov1 0; StatusRequest; prov2 0; VersionRequest] s1))) Quorum <> None
  /\ threshold (vm_share_set (env_manifest te)) = 2.
Proof. split; [vm_compute; reflexivity|]. split; [vm_compute; discriminate|reflexivity]. Qed.

(** ** C12: refuted *)
(** "K shares from K distinct members" fails: one member approves twice and the key is provisioned. *)
Definition one_member : list msg := [boot_std; prov1 0; prov2a 0].
Theorem c12_distinct_members_refuted :
  ~ (forall Y, sys_ok Y -> forall s e, reach Y s -> content (st_fs s) Quorum <> None -> stored (st_fs s) e ->
       env_share_approvals e <> [] ->
       exists l, incl l (env_share_approvals e) /\ NoDup (map ap_member l)
         /\ threshold (vm_share_set (env_manifest e)) <= N.of_nat (length l)).
Proof.
  intros H.
  set (s := snd (serve T one_member (start calm 0))).
  set (e2 := push_share_approval (approve seed_a alice tm) (push_share_approval (approve seed_a alice tm) te)).
  assert (R : reach T s) by (apply run_reach; vm_compute; reflexivity).
  assert (S : stored (st_fs s) e2) by (apply stored_by; vm_compute; reflexivity).
  destruct (H T T_ok s e2 R) as (l & I & D & Th); [vm_compute; discriminate|exact S|discriminate|].
  change (threshold (vm_share_set (env_manifest e2))) with 2 in Th.
  destruct l as [|a [|b l]]; cbn [length] in Th; try lia.
  assert (A : forall x, In x (a :: b :: l) -> ap_member x = alice).
  { intros x Hx. apply I in Hx. cbn in Hx. destruct Hx as [<-|[<-|[]]]; reflexivity. }
  cbn [map] in D. rewrite (A a), (A b) in D by (cbn; auto). inversion D as [|? ? X _]. apply X. now left.
Qed.
Print Assumptions c12_distinct_members_refuted.

(** What does hold: every counted approval is by a share-set member (c11), and
    the reconstructed secret is the manifest's key (c04). *)

(** ** C13 *)
Theorem c13_failure_is_fatal : forall Y r s x s' rs,
  handle Y r s = (ProtocolErrorResponse x, s') -> served (st_phase s) r = true -> read_only r = false ->
  let t := snd (serve Y rs s') in
  st_phase s' = UnrecoverableError /\ st_phase t = UnrecoverableError /\ st_fs t = st_fs s'
  /\ exists new, st_trace t = new ++ st_trace s' /\ forall y, In y new -> en_fs y = st_fs s'.
Proof.
  intros Y r s x s' rs H V W t. pose proof (handle_error_fatal r s x s' H V W) as D.
  destruct (dead_serve rs s' D) as (P & new & T & F & E). fold t in P, T, E. split; [exact D|]. split; [exact P|]. split; [exact E|].
  exists new. split; [exact T|]. now apply Forall_forall.
Qed.
Print Assumptions c13_failure_is_fatal.

(** Without I/O faults the failing request itself does not touch the key file. *)
Theorem c13_failure_leaves_no_key : forall Y, no_faults Y -> forall r s x s',
  handle Y r s = (ProtocolErrorResponse x, s') -> content (st_fs s') Quorum = content (st_fs s) Quorum.
Proof. intros Y NF r s x s' H. unfold content. now rewrite (error_keyless NF r s x s' H). Qed.
Print Assumptions c13_failure_leaves_no_key.

(** A restarted process cannot boot over any file left behind. *)
Theorem c13_no_second_boot : forall Y r e pv s, reach Y s -> wf_req r = true -> boot_of r = Some (e, pv) ->
  (content (st_fs s) Eph <> None \/ content (st_fs s) Pivot <> None \/ content (st_fs s) Manif <> None) ->
  is_error (fst (handle Y r s)) = true.
Proof.
  intros Y r e pv s R W B C. destruct (handle Y r s) as [a s'] eqn:H. cbn [fst].
  destruct (is_error a) eqn:N; [reflexivity|exfalso].
  destruct (c07_accepted_boot Y r e pv s a s' R W B H N) as (_ & _ & _ & _ & _ & _ & _ & F1 & F2 & F3).
  destruct C as [C|[C|C]]; now apply C.
Qed.
Print Assumptions c13_no_second_boot.

Example c13_nontrivial : no_faults T /\ served (st_phase s_waiting) (prov1 1) = true
  /\ fst (handle T (prov1 1) s_waiting) = ProtocolErrorResponse DecryptionFailed.
Proof. split; [exact T_calm|]. vm_compute. auto. Qed.

(** The stronger reading ("an error means no key was installed") fails under an
    I/O fault: permission change after the rename fails, the request answers
    with an error, the enclave is dead, but the key file is there (and the
    reaper will start the pivot). *)
Definition late_chmod (n : nat) : nat -> fault := fun k => if Nat.eqb k n then FailNow else NoFault.
Definition late_io := late_chmod 26. (* the last file-system call of the run [s_done] *)
Theorem c13_error_means_no_key_refuted :
  ~ (forall Y, sys_ok Y -> forall r s x s', reach Y s -> wf_req r = true -> st_phase s = WaitingForQuorumShards ->
       handle Y r s = (ProtocolErrorResponse x, s') -> content (st_fs s') Quorum = None).
Proof.
  intros H.
  set (Z := toy late_io 0). set (s := snd (serve Z [boot_std; prov1 0] (start late_io 0))).
  assert (R : reach Z s) by (apply run_reach; vm_compute; reflexivity).
  assert (E : fst (handle Z (prov2 0) s) = ProtocolErrorResponse FailedToPutQuorumKey) by (vm_compute; reflexivity).
  assert (K : content (st_fs (snd (handle Z (prov2 0) s))) Quorum = None).
  { apply (H Z (toy_ok _ _) (prov2 0) s FailedToPutQuorumKey); [exact R|vm_compute; reflexivity|vm_compute; reflexivity|].
    rewrite <- E. apply surjective_pairing. }
  revert K. vm_compute. discriminate.
Qed.
Print Assumptions c13_error_means_no_key_refuted.

(** The exact extent of that exception: a failed request leaves a key behind
    only if the very last thing it did was to publish the key, and the very last
    file-system call it made (the change of the key file's mode) failed. *)
Section KeyDespiteError.
  Context {Y : sys}.
  Local Notation st := (st Y).
  Definition published_last (s' : st) : Prop := exists n tr, st_trace s' = Entry (EvRename (Tmp Quorum) (Main Quorum)) (st_fs s') n :: tr.
  Definition last_call_failed (s' : st) : Prop := exists k, st_ioc s' = Datatypes.S k /\ s_io Y k <> NoFault.

  Lemma war_err_key buf e (s : st) x s' : write_as_read_only Y Quorum buf e s = (Err x, s') ->
    st_fs s' (Main Quorum) = st_fs s (Main Quorum) \/ (x = e /\ published_last s' /\ last_call_failed s').
  Proof.
    intros H. unfold write_as_read_only, op_exists in H. rewrite bind_gets in H.
    destruct (st_fs s (Main Quorum)) as [v|] eqn:F0.
    { left. cbn [is_some negb guard] in H. unfold bind at 1, err in H. inversion H; subst. exact F0. }
    cbn [is_some negb] in H. rewrite bind_guard in H.
    apply bind_inv in H as [(w & s1 & E & H)|(y & E & _)]; pose proof E as E'; apply op_write_spec in E' as (W & b & Eb & _); [|discriminate Eb]. clear E.
    assert (F1 : st_fs s1 (Main Quorum) = None).
    { apply (gx_fs (fun f => f (Main Quorum) = None) _ _ _ (fx_gx _ _ _ W)); [exact F0|]. intros y (_ & O & _). rewrite O; [exact F0|]. intros [X|[]]; discriminate X. }
    destruct w; [|left; unfold bind at 1, guard, err in H; inversion H; subst; exact F1]. rewrite bind_guard in H.
    apply bind_inv in H as [(r & s2 & E & H)|(y & E & _)]; apply op_rename_spec in E as [[Er Es]|(v & Er & _ & Es)]; try discriminate Er.
    { assert (r = false) as -> by congruence. left. unfold bind at 1, guard, err in H. inversion H; subst. exact F1. }
    assert (r = true) as -> by congruence. rewrite bind_guard in H.
    assert (F2 : st_fs s2 (Main Quorum) = Some v) by (rewrite Es; cbn [st_fs eff_fs]; rewrite upd_other by discriminate; apply upd_same).
    unfold bind at 1, op_chmod in H. rewrite F2 in H. destruct v as [c m].
    right. assert (K : x = e /\ s' = tick_io s2 /\ s_io Y (st_ioc s2) <> NoFault).
    { destruct (s_io Y (st_ioc s2)); unfold guard, ret, err in H; inversion H; subst; (split; [reflexivity|split; [reflexivity|discriminate]]). }
    destruct K as (-> & -> & K). split; [reflexivity|]. split; [rewrite Es; eexists; eexists; reflexivity|]. exists (st_ioc s2). split; [reflexivity|exact K].
  Qed.

  Definition err_cut {A} (m : M Y A) : Prop := forall s x s', m s = (Err x, s') ->
    st_fs s' (Main Quorum) = st_fs s (Main Quorum) \/ (x = FailedToPutQuorumKey /\ published_last s' /\ last_call_failed s').
  Lemma ec_bind {A B} (m : M Y A) (f : A -> M Y B) : keeps (Main Quorum) m -> (forall a, err_cut (f a)) -> err_cut (bind m f).
  Proof.
    intros H K s r s' E. unfold bind in E. destruct (m s) as [[a|e] s1] eqn:Em.
    - destruct (K _ _ _ _ E) as [C|C]; [left; rewrite C; eapply H; eauto|right; exact C].
    - inversion E; subst. left. eapply H; eauto.
  Qed.
  Ltac keep_tac :=
    repeat first [ match goal with |- forall _, _ => intro end | match goal with |- keeps _ (bind _ _) => apply kp_bind end | apply kp_take
                 | apply kp_quiet, si_quietly, si_get_manifest | apply kp_quiet, si_quietly, si_get_eph
                 | apply kp_quiet, q_lift | apply kp_quiet, q_guard | apply kp_quiet, q_ret | apply kp_quiet, q_err
                 | apply kp_quiet, q_gets
                 | apply kp_war; discriminate | apply kp_rotate; discriminate | apply kp_mutate; discriminate
                 | apply kp_modify; reflexivity
                 | match goal with |- keeps _ (match ?x with _ => _ end) => destruct x end
                 | match goal with |- keeps _ (let x := _ in _) => cbv zeta end ].
  Lemma ec_provision sh a : err_cut (provision Y sh a).
  Proof.
    unfold provision, add_share, build_secret, put_quorum_key.
    apply ec_bind; [keep_tac|intros e]. apply ec_bind; [keep_tac|intros _]. apply ec_bind; [keep_tac|intros _].
    apply ec_bind; [keep_tac|intros _]. apply ec_bind; [keep_tac|intros [eph k]]. apply ec_bind; [keep_tac|intros p].
    apply ec_bind; [keep_tac|intros _]. apply ec_bind; [keep_tac|intros n].
    destruct (n <? _); [intros s x s' H; discriminate H|].
    apply ec_bind; [keep_tac|intros seed]. apply ec_bind; [keep_tac|intros _]. apply ec_bind; [keep_tac|intros _].
    apply ec_bind; [keep_tac|intros kk]. apply ec_bind; [keep_tac|intros _]. apply ec_bind; [keep_tac|intros live].
    apply ec_bind; [keep_tac|intros _]. intros s x s' H. unfold bind in H. destruct (write_as_read_only Y Quorum (encode seed) FailedToPutQuorumKey s) as [[u|y] s1] eqn:E; [discriminate H|].
    inversion H; subst. eapply war_err_key; eauto.
  Qed.
  Lemma ec_inject c g : err_cut (inject_key Y c g).
  Proof.
    unfold inject_key, put_quorum_key.
    apply ec_bind; [keep_tac|intros e]. cbv zeta. apply ec_bind; [keep_tac|intros q]. apply ec_bind; [keep_tac|intros _].
    apply ec_bind; [keep_tac|intros [eph k]]. apply ec_bind; [keep_tac|intros seed]. apply ec_bind; [keep_tac|intros _].
    apply ec_bind; [keep_tac|intros kk]. apply ec_bind; [keep_tac|intros _]. apply ec_bind; [keep_tac|intros live].
    apply ec_bind; [keep_tac|intros _]. intros s x s' H. eapply war_err_key; eauto.
  Qed.
End KeyDespiteError.

Theorem c13_key_despite_error_exactly : forall Y r s x s', handle Y r s = (ProtocolErrorResponse x, s') ->
  content (st_fs s') Quorum = content (st_fs s) Quorum
  \/ (x = FailedToPutQuorumKey /\ published_last s' /\ last_call_failed s').
Proof.
  intros Y r s x s' H. unfold content.
  destruct (handle_cases r s) as [[W H1]|[(W & _ & Q)|[(set & dr & -> & P)|[(e & pv & B & P)|[(sh & a & -> & P)|(c & g & -> & P)]]]]].
  - left. rewrite H1 in H. inversion H; subst. reflexivity.
  - left. rewrite H in Q. cbn in Q. now rewrite (quiet_fs _ _ Q).
  - left. pose proof (handle_may (BootGenesisRequest set dr) s) as G. rewrite H in G. apply gx_may in G.
    destruct G as (_ & [G|(_ & [(?&?&X&_)|(?&?&X&_)])] & _); [f_equal; exact G|discriminate X|discriminate X].
  - left. pose proof (handle_may r s) as G. rewrite H in G. apply gx_may in G.
    destruct G as (_ & [G|(_ & [(?&?&X&_)|(?&?&X&_)])] & _); [f_equal; exact G|subst; discriminate B|subst; discriminate B].
  - rewrite (handle_provision sh a s P) in H. destruct (provision Y sh a s) as [[[]|y] s1] eqn:E; inversion H; subst.
    destruct (ec_provision _ _ _ _ _ E) as [K|K]; [left; f_equal; exact K|right; exact K].
  - rewrite (handle_inject c g s P) in H. destruct (inject_key Y c g s) as [[[]|y] s1] eqn:E; inversion H; subst.
    destruct (ec_inject _ _ _ _ _ E) as [K|K]; [left; f_equal; exact K|right; exact K].
Qed.
Print Assumptions c13_key_despite_error_exactly.

(** ** C14 *)
(** Whenever a boot request has changed any file (boot files and temporaries
    alike), at that instant the device had already, in this very request,
    reported every register locked, with PCR16 and PCR17 committing to the setup
    key and the live key for this manifest's hash.  The setup key is the
    ephemeral key being written, the live key the one kept pending. *)
Theorem c14_locked_before_any_file : forall Y, sys_ok Y -> forall r e pv (s : st Y) after x before,
  boot_of r = Some (e, pv) ->
  st_trace (snd (handle Y r s)) = after ++ x :: before ++ st_trace s ->
  (exists p, en_fs x p <> st_fs s p) ->
  exists setup live setup_pub live_pub,
    seed_for Y setup setup_pub /\ seed_for Y live live_pub
    /\ bank_committed Y before (manifest_hash Y (env_manifest e)) setup_pub live_pub
    /\ (en_fs x (Main Eph) = st_fs s (Main Eph) \/ content (en_fs x) Eph = Some (encode setup))
    /\ st_pending (snd (handle Y r s)) = Some live.
Proof.
  intros Y OK r e pv s after x before B Tr D.
  destruct (boot_locked_first r e pv s (after ++ x :: before) after x before B) as (setup & live & sk & lk & A1 & A2 & A3 & A4 & A5 & A6 & A7);
    [now rewrite <- app_assoc|reflexivity|exact D|].
  exists setup, live, (public_to_bytes sk), (public_to_bytes lk).
  split; [apply pair_seed; [rewrite A6; apply OK|exact A1]|]. split; [apply pair_seed; [rewrite A7; apply OK|exact A2]|].
  split; [exact (proj1 (bank_text _ _ _ _) A3)|]. auto.
Qed.
Print Assumptions c14_locked_before_any_file.

Example c14_nontrivial : exists after x before,
  st_trace (snd (handle T boot_std (start calm 0))) = after ++ x :: before ++ st_trace (start calm 0)
  /\ content (en_fs x) Eph = Some (encode (setup_seed 0)) /\ content (st_fs (start calm 0)) Eph = None.
Proof.
  assert (H : existsb (fun x => match content (en_fs x) Eph with Some c => bytes_eqb c (encode (setup_seed 0)) | None => false end)
    (st_trace (snd (handle T boot_std (start calm 0)))) = true) by (vm_compute; reflexivity).
  apply existsb_exists in H as (x & I & C). apply in_split in I as (l1 & l2 & E). exists l1, x, l2.
  assert (Z : l2 ++ st_trace (start calm 0) = l2) by (exact (app_nil_r l2)). rewrite Z.
  split; [exact E|]. split; [|reflexivity].
  destruct (content (en_fs x) Eph) as [c|]; [|discriminate C]. apply bytes_eqb_eq in C. now subst.
Qed.

(** ** C15 *)
(** At every moment a key is visible, the ephemeral key file holds the key that
    PCR17 committed to (not the setup key of PCR16). *)
Theorem c15_live_key_in_place : forall Y, sys_ok Y -> forall s tr f,
  reach Y s -> moment Y s tr f -> content f Quorum <> None ->
  exists e live live_pub setup_pub, stored f e /\ content f Eph = Some (encode live) /\ seed_for Y live live_pub
    /\ bank_committed Y tr (manifest_hash Y (env_manifest e)) setup_pub live_pub.
Proof.
  intros Y OK s tr f R M N. destruct (content f Quorum) as [c|] eqn:C; [|congruence].
  destruct (moment_snap OK s tr f R M c C) as (seed & k & e & pv & live & lk & sp & H). decompose [and] H.
  exists e, live, (public_to_bytes lk), sp. split; [assumption|]. split; [assumption|].
  split; [apply pair_seed; assumption|match goal with X : bank_locked _ _ _ _ |- _ => exact (proj1 (bank_text _ _ _ _) X) end].
Qed.
Print Assumptions c15_live_key_in_place.

(** Request by request: from the accepted boot on, whenever the key is there the
    ephemeral key file holds the second random seed of the boot, while the
    boot itself had published the first. *)
Theorem c15_rotated_before_key : forall Y, sys_ok Y -> forall b e pv s a s1 rs,
  reach Y s -> wf_req b = true -> Forall (fun r => wf_req r = true) rs ->
  boot_of b = Some (e, pv) -> handle Y b s = (a, s1) -> is_error a = false ->
  content (st_fs s1) Eph = Some (encode (s_rng Y (st_rngc s)))
  /\ (content (st_fs (snd (serve Y rs s1))) Quorum <> None ->
      content (st_fs (snd (serve Y rs s1))) Eph = Some (encode (s_rng Y (S (st_rngc s))))).
Proof.
  intros Y OK b e pv s a s1 rs R W Ws B H N.
  destruct (boot_accepted b e pv s a s1 B H N) as (_ & _ & _ & _ & _ & _ & setup & live & n & F & P & _ & -> & -> & _).
  destruct F as (_ & _ & _ & F4 & _). split; [now apply content_some with (m := 292)|]. intros Q.
  destruct (boot_begins OK b e pv s a s1 R W B H N) as (setup' & live' & E' & P' & C1 & C2).
  assert (live' = s_rng Y (S (st_rngc s))) as -> by congruence.
  assert (D : boot_target b = WaitingForQuorumShards \/ boot_target b = WaitingForForwardedKey) by (destruct b; cbn; auto).
  destruct D as [D|D].
  - destruct (provision_history OK e _ _ rs 0 s1 Ws (C1 D) Q) as (pre & r & post & -> & Pr & F & A & Col & Th & Eph'). exact Eph'.
  - now destruct (forward_history OK e _ _ rs s1 Ws (C2 D) Q) as [_ Eph'].
Qed.
Print Assumptions c15_rotated_before_key.

Example c15_nontrivial : content (st_fs s_booted) Eph = Some (encode (setup_seed 0))
  /\ content (st_fs s_done) Eph = Some (encode (live_seed 0)) /\ setup_seed 0 <> live_seed 0
  /\ content (st_fs s_done) Quorum <> None.
Proof. vm_compute. repeat split; discriminate. Qed.
