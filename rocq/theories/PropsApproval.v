(** C08-C10: approval checking. *)
From Coq Require Import Permutation.
From Verif Require Import Base Types TypesJson Msg World Attest Services SpecApproval ApprovalProofs Toy.
Local Open Scope N_scope.

(** ** C08 *)
Theorem c08_approvals_sound : forall Y e, check_approvals Y e = Ok tt ->
  approved Y (vm_manifest_set (env_manifest e)) (manifest_hash Y (env_manifest e)) (env_manifest_approvals e).
Proof. exact check_sound. Qed.
Print Assumptions c08_approvals_sound.

Example c08_nontrivial : check_approvals (toy calm 0) te = Ok tt /\ length (env_manifest_approvals te) = 2%nat.
Proof. vm_compute. auto. Qed.

(** ** C09 *)
Theorem c09_approvals_complete : forall Y e,
  (forall m1 m2, In m1 (members (vm_manifest_set (env_manifest e))) -> In m2 (members (vm_manifest_set (env_manifest e))) ->
     member_hash Y m1 = member_hash Y m2 -> m1 = m2) ->
  approved Y (vm_manifest_set (env_manifest e)) (manifest_hash Y (env_manifest e)) (env_manifest_approvals e) ->
  check_approvals Y e = Ok tt.
Proof. exact check_complete. Qed.
Print Assumptions c09_approvals_complete.

(** Only the manifest and the multiset of manifest approvals matter: neither
    their order, nor the share approvals, nor the envelope's version. *)
Theorem c09_order_and_shares_irrelevant : forall Y e1 e2,
  env_manifest e1 = env_manifest e2 -> Permutation (env_manifest_approvals e1) (env_manifest_approvals e2) ->
  (check_approvals Y e1 = Ok tt <-> check_approvals Y e2 = Ok tt).
Proof. intros Y e1 e2 E P. split; apply check_perm; auto. now symmetry. Qed.
Print Assumptions c09_order_and_shares_irrelevant.

Example c09_nontrivial : exists e, e <> te /\ env_manifest e = env_manifest te
  /\ Permutation (env_manifest_approvals te) (env_manifest_approvals e) /\ env_share_approvals e <> [].
Proof.
  set (a := approve seed_a alice tm). set (c := approve seed_c carol tm). set (b := approve seed_b bob tm).
  assert (Te : te = VE2 (ManifestEnvelopeV2 tm [c; a] [])) by reflexivity. rewrite Te. clearbody a b c.
  exists (VE2 (ManifestEnvelopeV2 tm [a; c] [b])). split; [intros H; discriminate H|]. split; [reflexivity|].
  split; [apply perm_swap|discriminate].
Qed.

(** ** C10 *)
Theorem c10_zero_threshold_needs_no_approval : forall Y e,
  threshold (vm_manifest_set (env_manifest e)) = 0 -> env_manifest_approvals e = [] ->
  (check_approvals Y e = Ok tt <-> proper_members Y (members (vm_manifest_set (env_manifest e)))).
Proof.
  intros Y e Z N. rewrite check_iff. cbn zeta. rewrite N, Z. split; [intros (H & _); exact H|].
  intros H. split; [exact H|]. split; [intros a []|]. split; [constructor|apply N.le_0_l].
Qed.
Print Assumptions c10_zero_threshold_needs_no_approval.

Theorem c10_positive_threshold_rejects_empty : forall Y e,
  0 < threshold (vm_manifest_set (env_manifest e)) -> env_manifest_approvals e = [] -> check_approvals Y e <> Ok tt.
Proof.
  intros Y e Z N H. apply check_iff in H. cbn zeta in H. rewrite N in H. destruct H as (_ & _ & _ & H). cbn in H. lia.
Qed.
Print Assumptions c10_positive_threshold_rejects_empty.

(** An envelope nobody approved is accepted: with members but threshold 0, and with no members at all. *)
Definition unapproved (ms : list quorum_member) : versioned_envelope :=
  VE2 (ManifestEnvelopeV2 (ManifestV2 (mf2_namespace tm) (mf2_pivot tm) (MemberSet 0 ms) sset (mf2_enclave tm) None) [] []).
Example c10_nontrivial : check_approvals (toy calm 0) (unapproved [alice; bob]) = Ok tt
  /\ check_approvals (toy calm 0) (unapproved []) = Ok tt.
Proof. vm_compute. auto. Qed.
