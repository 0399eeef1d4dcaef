(** Specification of key export (C19) and its primitives' laws (C20). *)
From Coq Require Import Permutation.
From Verif Require Import Base Hex Types TypesJson Msg World Attest Services SpecProtocol SpecApproval SpecAttest SpecHistory.
Local Open Scope N_scope.

Section SpecExport.
  Context (Y : sys).

  (** The attestation document is well formed, signed, and its certificate chain
      leads to the pinned root at time [t] (seconds). *)
  Definition doc_authentic (cose : bytes) (t : N) (d : att_doc) : Prop :=
    s_doc Y cose = Some d /\ doc_syntax 32 d
    /\ s_chain_ok Y (tl (ad_cabundle d)) (s_root Y) (ad_certificate d) t = true
    /\ s_cose_sig_ok Y (ad_certificate d) cose = true.

  (** The new manifest may receive the key held under the old one. *)
  Definition may_receive (old new : versioned_envelope) (d : att_doc) : Prop :=
    let om := env_manifest old in
    let nm := env_manifest new in
    approved Y (vm_manifest_set nm) (manifest_hash Y nm) (env_manifest_approvals new)
    /\ env_share_approvals new = []
    /\ ns_quorum_key (vm_namespace nm) = ns_quorum_key (vm_namespace om)
    /\ ns_name (vm_namespace nm) = ns_name (vm_namespace om)
    /\ threshold (vm_manifest_set nm) = threshold (vm_manifest_set om)
    /\ Permutation (members (vm_manifest_set nm)) (members (vm_manifest_set om))
    /\ ns_nonce (vm_namespace om) <= ns_nonce (vm_namespace nm)
    /\ (ns_nonce (vm_namespace om) = ns_nonce (vm_namespace nm) -> manifest_hash Y nm = manifest_hash Y om)
    /\ pcr3 (vm_enclave nm) = pcr3 (vm_enclave om)
    /\ doc_matches d (manifest_hash Y nm) (pcr0 (vm_enclave nm)) (pcr1 (vm_enclave nm)) (pcr2 (vm_enclave nm)) (pcr3 (vm_enclave nm))
    /\ doc_commits Y Setup d (manifest_hash Y nm).

  (** Correct public-key primitives. *)
  Record crypto_ok : Prop := CryptoOk {
    cr_decrypt : forall seed ek sk rnd m c, s_pair Y seed = Some (ek, sk) -> s_encrypt Y ek rnd m = Ok c -> s_decrypt Y seed c = Ok m;
    cr_verify : forall seed ek sk m, s_pair Y seed = Some (ek, sk) -> s_verify Y sk m (s_sign Y seed m) = true
  }.
End SpecExport.
