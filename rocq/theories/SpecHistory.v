(** Specification vocabulary for the properties about files and histories. *)
From Verif Require Import Base Hex Types TypesJson Msg World Attest Services SpecProtocol SpecApproval SpecAttest.
Local Open Scope N_scope.

Section SpecHistory.
  Context (Y : sys).

  (** [seed] is a usable 32-byte master seed whose encoded public key is [pub]. *)
  Definition seed_for (seed pub : bytes) : Prop :=
    length seed = 32%nat /\ exists enc_key sign_key, s_pair Y seed = Some (enc_key, sign_key) /\ pub = enc_key ++ sign_key.

  (** The device answered [a] to [q] at some point of the trace. *)
  Definition said (tr : list (entry Y)) (q : nsm_request) (a : nsm_response) : Prop :=
    exists x, In x tr /\ en_ev x = EvNsm q a.

  (** The device reported all of its (at least 32) registers locked, PCR16
      committing to the setup key and PCR17 to the live key, both for manifest hash [mh]. *)
  Definition bank_committed (tr : list (entry Y)) (mh setup_pub live_pub : bytes) : Prop :=
    (exists v1 v2 v3 id max locked d,
        said tr DescribeNSM (RDescribeNSM v1 v2 v3 id max locked d) /\ 32 <= max /\ forall i, i < max -> In i locked)
    /\ said tr (DescribePCR 16) (RDescribePCR true (committed_value Y Setup mh setup_pub))
    /\ said tr (DescribePCR 17) (RDescribePCR true (committed_value Y Live mh live_pub)).

  (** [e'] is [e] with share-set approvals appended, nothing else changed. *)
  Definition extends (e e' : versioned_envelope) : Prop :=
    env_manifest e' = env_manifest e
    /\ env_manifest_approvals e' = env_manifest_approvals e
    /\ exists l, env_share_approvals e' = env_share_approvals e ++ l.

  (** A provision request that counts: its approval is a share-set member's
      signature of the manifest's hash and its share decrypts under [setup]. *)
  Definition acceptable (e : versioned_envelope) (setup : bytes) (r : msg) : Prop :=
    forall sh a, r = ProvisionRequest sh a ->
    In (ap_member a) (members (vm_share_set (env_manifest e)))
    /\ signed Y (manifest_hash Y (env_manifest e)) a
    /\ exists share, s_decrypt Y setup sh = Ok share /\ share <> [].
  Definition is_provision (r : msg) : bool := match r with ProvisionRequest _ _ => true | _ => false end.
  Definition provisions (rs : list msg) : N := N.of_nat (length (filter is_provision rs)).

  (** The forwarded key is signed by the manifest's quorum key and is its secret. *)
  Definition forwarded (e : versioned_envelope) (setup : bytes) (r : msg) : Prop :=
    exists c g seed ek sk, r = InjectKeyRequest c g
      /\ ns_quorum_key (vm_namespace (env_manifest e)) = ek ++ sk
      /\ s_verify Y sk c g = true /\ s_decrypt Y setup c = Ok seed
      /\ length seed = 32%nat /\ s_pair Y seed = Some (ek, sk).
End SpecHistory.
