(** Protocol data types: /repo/src/qos_core/src/protocol/services/boot.rs,
    boot/manifest.rs, boot/manifest/v2.rs, boot/env.rs.
    Rust [String] and [Vec<u8>] are both byte lists here; that a [String] holds
    valid UTF-8 is part of the well-formedness predicates (see [wf_*] in
    TypesBorsh.v), because the Rust type guarantees it.  u16/u32 are [N] with
    range conditions in the same predicates. *)
From Verif Require Import Base.
Local Open Scope N_scope.

(** boot.rs:47-77 *)
Record nitro_config := NitroConfig {
  pcr0 : bytes; pcr1 : bytes; pcr2 : bytes; pcr3 : bytes;
  aws_root_certificate : bytes;
  qos_commit : bytes
}.

(** boot.rs:91-109 *)
Inductive restart_policy := Never | Always.

(** boot.rs:131-166.  [BridgeConfig] *)
Inductive bridge_config :=
| BServer (port : N) (host : bytes)
| BClient (port : N) (host : option bytes).

(** boot.rs:190-222 *)
Record pivot_config := PivotConfig {
  pv_hash : bytes; pv_restart : restart_policy;
  pv_bridge : list bridge_config; pv_debug : bool; pv_args : list bytes
}.

(** boot.rs:224-244 *)
Record pivot_config_v0 := PivotConfigV0 {
  pv0_hash : bytes; pv0_restart : restart_policy; pv0_args : list bytes
}.

(** boot.rs:268-290 *)
Record quorum_member := QuorumMember { m_alias : bytes; m_pub_key : bytes }.

(** boot.rs:329-350 ManifestSet and 352-371 ShareSet: same shape *)
Record member_set := MemberSet { threshold : N; members : list quorum_member }.

(** boot.rs:394-416 MemberPubKey is a one-field record; kept as its key. *)
Record patch_set := PatchSet { ps_threshold : N; ps_members : list bytes }.

(** boot.rs:418-446 *)
Record namespace := Namespace { ns_name : bytes; ns_nonce : N; ns_quorum_key : bytes }.

(** boot.rs:459-493 *)
Record manifest := Manifest {
  mf_namespace : namespace; mf_pivot : pivot_config; mf_manifest_set : member_set;
  mf_share_set : member_set; mf_enclave : nitro_config; mf_patch_set : patch_set
}.

(** boot.rs:495-522 *)
Record manifest_v0 := ManifestV0 {
  mf0_namespace : namespace; mf0_pivot : pivot_config_v0; mf0_manifest_set : member_set;
  mf0_share_set : member_set; mf0_enclave : nitro_config; mf0_patch_set : patch_set
}.

(** boot.rs:571-589 *)
Record approval := Approval { ap_signature : bytes; ap_member : quorum_member }.

(** boot.rs:606-650 ManifestEnvelope and ManifestEnvelopeV0 *)
Record manifest_envelope := ManifestEnvelope {
  e1_manifest : manifest; e1_manifest_approvals : list approval; e1_share_approvals : list approval }.
Record manifest_envelope_v0 := ManifestEnvelopeV0 {
  e0_manifest : manifest_v0; e0_manifest_approvals : list approval; e0_share_approvals : list approval }.

(** std::net::IpAddr: four octets, or eight 16-bit groups (each as its high
    and low byte). *)
Record ipv4 := Ipv4 { ip_a : byte; ip_b : byte; ip_c : byte; ip_d : byte }.
Definition group : Type := byte * byte.
Record ipv6 := Ipv6 { g0 : group; g1 : group; g2 : group; g3 : group; g4 : group; g5 : group; g6 : group; g7 : group }.
Inductive ip_addr := IpV4 (i : ipv4) | IpV6 (i : ipv6).
(** manifest/v2.rs:15-21 *)
Record dns_config := DnsConfig { dns_resolvers : list ip_addr }.

(** env.rs: [PivotEnv] is a BTreeMap from names to [Plain] values; the model is
    the sorted association list (see Env.v for the operations). *)
Definition pivot_env := list (bytes * bytes).

(** manifest/v2.rs:23-43 *)
Record pivot_config_v2 := PivotConfigV2 {
  pv2_hash : bytes; pv2_restart : restart_policy; pv2_bridge : list bridge_config;
  pv2_debug : bool; pv2_args : list bytes; pv2_env : pivot_env
}.

(** manifest/v2.rs:45-68.  The [version] field always holds V2 after decoding
    (deserialize_v2_version) and when built by the builder, so it is not stored. *)
Record manifest_v2 := ManifestV2 {
  mf2_namespace : namespace; mf2_pivot : pivot_config_v2; mf2_manifest_set : member_set;
  mf2_share_set : member_set; mf2_enclave : nitro_config; mf2_dns : option dns_config
}.

(** manifest/v2.rs:86-96 *)
Record manifest_envelope_v2 := ManifestEnvelopeV2 {
  e2_manifest : manifest_v2; e2_manifest_approvals : list approval; e2_share_approvals : list approval }.

(** manifest.rs:69-80 VersionedManifest; manifest.rs:293-303 VersionedManifestEnvelope *)
Inductive versioned_manifest := VM2 (m : manifest_v2) | VM1 (m : manifest) | VM0 (m : manifest_v0).
Inductive versioned_envelope :=
| VE2 (e : manifest_envelope_v2) | VE1 (e : manifest_envelope) | VE0 (e : manifest_envelope_v0).

(** manifest.rs:367-374 *)
Definition env_manifest (e : versioned_envelope) : versioned_manifest :=
  match e with
  | VE2 x => VM2 (e2_manifest x) | VE1 x => VM1 (e1_manifest x) | VE0 x => VM0 (e0_manifest x) end.
(** manifest.rs:376-384 *)
Definition env_manifest_approvals (e : versioned_envelope) : list approval :=
  match e with
  | VE2 x => e2_manifest_approvals x | VE1 x => e1_manifest_approvals x | VE0 x => e0_manifest_approvals x end.
(** manifest.rs:386-394 *)
Definition env_share_approvals (e : versioned_envelope) : list approval :=
  match e with
  | VE2 x => e2_share_approvals x | VE1 x => e1_share_approvals x | VE0 x => e0_share_approvals x end.

(** manifest.rs:137-235: accessors *)
Definition vm_namespace (m : versioned_manifest) : namespace :=
  match m with VM2 x => mf2_namespace x | VM1 x => mf_namespace x | VM0 x => mf0_namespace x end.
Definition vm_manifest_set (m : versioned_manifest) : member_set :=
  match m with VM2 x => mf2_manifest_set x | VM1 x => mf_manifest_set x | VM0 x => mf0_manifest_set x end.
Definition vm_share_set (m : versioned_manifest) : member_set :=
  match m with VM2 x => mf2_share_set x | VM1 x => mf_share_set x | VM0 x => mf0_share_set x end.
Definition vm_enclave (m : versioned_manifest) : nitro_config :=
  match m with VM2 x => mf2_enclave x | VM1 x => mf_enclave x | VM0 x => mf0_enclave x end.
Definition vm_pivot_hash (m : versioned_manifest) : bytes :=
  match m with VM2 x => pv2_hash (mf2_pivot x) | VM1 x => pv_hash (mf_pivot x) | VM0 x => pv0_hash (mf0_pivot x) end.
Definition vm_restart (m : versioned_manifest) : restart_policy :=
  match m with VM2 x => pv2_restart (mf2_pivot x) | VM1 x => pv_restart (mf_pivot x) | VM0 x => pv0_restart (mf0_pivot x) end.
Definition vm_args (m : versioned_manifest) : list bytes :=
  match m with VM2 x => pv2_args (mf2_pivot x) | VM1 x => pv_args (mf_pivot x) | VM0 x => pv0_args (mf0_pivot x) end.
Definition vm_bridge (m : versioned_manifest) : list bridge_config :=
  match m with VM2 x => pv2_bridge (mf2_pivot x) | VM1 x => pv_bridge (mf_pivot x) | VM0 _ => [] end.
Definition vm_debug (m : versioned_manifest) : bool :=
  match m with VM2 x => pv2_debug (mf2_pivot x) | VM1 x => pv_debug (mf_pivot x) | VM0 _ => false end.
Definition vm_dns (m : versioned_manifest) : option dns_config :=
  match m with VM2 x => mf2_dns x | _ => None end.

(** Derived [PartialEq] on members and approvals. *)
Definition member_eqb (a b : quorum_member) : bool :=
  bytes_eqb (m_alias a) (m_alias b) && bytes_eqb (m_pub_key a) (m_pub_key b).

Lemma member_eqb_eq a b : member_eqb a b = true <-> a = b.
Proof.
  destruct a as [a1 a2], b as [b1 b2]. unfold member_eqb; cbn.
  rewrite andb_true_iff, !bytes_eqb_eq. split; [intros [-> ->]; auto | intros E; inversion E; auto].
Qed.

Definition approval_eqb (a b : approval) : bool :=
  bytes_eqb (ap_signature a) (ap_signature b) && member_eqb (ap_member a) (ap_member b).

Lemma approval_eqb_eq a b : approval_eqb a b = true <-> a = b.
Proof.
  destruct a as [a1 a2], b as [b1 b2]. unfold approval_eqb; cbn.
  rewrite andb_true_iff, bytes_eqb_eq, member_eqb_eq.
  split; [intros [-> ->]; auto | intros E; inversion E; auto].
Qed.

Definition nitro_eqb (a b : nitro_config) : bool :=
  bytes_eqb (pcr0 a) (pcr0 b) && bytes_eqb (pcr1 a) (pcr1 b) && bytes_eqb (pcr2 a) (pcr2 b)
  && bytes_eqb (pcr3 a) (pcr3 b) && bytes_eqb (aws_root_certificate a) (aws_root_certificate b)
  && bytes_eqb (qos_commit a) (qos_commit b).

Lemma nitro_eqb_eq a b : nitro_eqb a b = true <-> a = b.
Proof.
  destruct a, b. unfold nitro_eqb; cbn.
  rewrite !andb_true_iff, !bytes_eqb_eq.
  split; [intros (((((-> & ->) & ->) & ->) & ->) & ->); auto | intros E; inversion E; tauto].
Qed.
