(** Borsh codecs of the protocol types (derive macros in boot.rs, field order
    as declared there), the V1/V0 compat decoders and their canonicity. *)
From Verif Require Import Base Utf8 Borsh BorshProofs Types.
Local Open Scope N_scope.

(** boot.rs:47-77 *)
Definition c_nitro : codec nitro_config :=
  c_iso (fun p : bytes * (bytes * (bytes * (bytes * (bytes * bytes)))) =>
           let '(a, (b, (c, (d, (e, f))))) := p in NitroConfig a b c d e f)
        (fun n => (pcr0 n, (pcr1 n, (pcr2 n, (pcr3 n, (aws_root_certificate n, qos_commit n))))))
        (c_pair c_bytes (c_pair c_bytes (c_pair c_bytes (c_pair c_bytes (c_pair c_bytes c_string))))).

(** boot.rs:91-109: Never = 0, Always = 1 *)
Definition c_restart : codec restart_policy :=
  c_iso (fun s : unit + (unit + Empty_set) => match s with inl _ => Never | inr _ => Always end)
        (fun r => match r with Never => inl tt | Always => inr (inl tt) end)
        (c_enum (t_cons c_unit (t_cons c_unit t_nil))).

(** boot.rs:131-166: Server = 0, Client = 1 *)
Definition c_bridge : codec bridge_config :=
  c_iso (fun s : (N * bytes) + ((N * option bytes) + Empty_set) =>
           match s with
           | inl (p, h) => BServer p h
           | inr (inl (p, h)) => BClient p h
           | inr (inr e) => match e return bridge_config with end
           end)
        (fun b => match b with BServer p h => inl (p, h) | BClient p h => inr (inl (p, h)) end)
        (c_enum (t_cons (c_pair c_u16 c_string) (t_cons (c_pair c_u16 (c_option c_string)) t_nil))).

(** boot.rs:190-222 *)
Definition c_pivot : codec pivot_config :=
  c_iso (fun p : bytes * (restart_policy * (list bridge_config * (bool * list bytes))) =>
           let '(h, (r, (b, (d, a)))) := p in PivotConfig h r b d a)
        (fun p => (pv_hash p, (pv_restart p, (pv_bridge p, (pv_debug p, pv_args p)))))
        (c_pair (c_fixed 32) (c_pair c_restart (c_pair (c_vec c_bridge) (c_pair c_bool (c_vec c_string))))).

(** boot.rs:224-244 *)
Definition c_pivot_v0 : codec pivot_config_v0 :=
  c_iso (fun p : bytes * (restart_policy * list bytes) => let '(h, (r, a)) := p in PivotConfigV0 h r a)
        (fun p => (pv0_hash p, (pv0_restart p, pv0_args p)))
        (c_pair (c_fixed 32) (c_pair c_restart (c_vec c_string))).

(** boot.rs:268-290 *)
Definition c_member : codec quorum_member :=
  c_iso (fun p : bytes * bytes => QuorumMember (fst p) (snd p))
        (fun m => (m_alias m, m_pub_key m))
        (c_pair c_string c_bytes).

(** boot.rs:329-371 *)
Definition c_member_set : codec member_set :=
  c_iso (fun p : N * list quorum_member => MemberSet (fst p) (snd p))
        (fun m => (threshold m, members m))
        (c_pair c_u32 (c_vec c_member)).

(** boot.rs:373-416 *)
Definition c_patch_set : codec patch_set :=
  c_iso (fun p : N * list bytes => PatchSet (fst p) (snd p))
        (fun m => (ps_threshold m, ps_members m))
        (c_pair c_u32 (c_vec c_bytes)).

(** boot.rs:418-446 *)
Definition c_namespace : codec namespace :=
  c_iso (fun p : bytes * (N * bytes) => let '(a, (b, c)) := p in Namespace a b c)
        (fun n => (ns_name n, (ns_nonce n, ns_quorum_key n)))
        (c_pair c_string (c_pair c_u32 c_bytes)).

(** boot.rs:459-493 *)
Definition c_manifest : codec manifest :=
  c_iso (fun p : namespace * (pivot_config * (member_set * (member_set * (nitro_config * patch_set)))) =>
           let '(a, (b, (c, (d, (e, f))))) := p in Manifest a b c d e f)
        (fun m => (mf_namespace m, (mf_pivot m, (mf_manifest_set m, (mf_share_set m, (mf_enclave m, mf_patch_set m))))))
        (c_pair c_namespace (c_pair c_pivot (c_pair c_member_set (c_pair c_member_set (c_pair c_nitro c_patch_set))))).

(** boot.rs:495-522 *)
Definition c_manifest_v0 : codec manifest_v0 :=
  c_iso (fun p : namespace * (pivot_config_v0 * (member_set * (member_set * (nitro_config * patch_set)))) =>
           let '(a, (b, (c, (d, (e, f))))) := p in ManifestV0 a b c d e f)
        (fun m => (mf0_namespace m, (mf0_pivot m, (mf0_manifest_set m, (mf0_share_set m, (mf0_enclave m, mf0_patch_set m))))))
        (c_pair c_namespace (c_pair c_pivot_v0 (c_pair c_member_set (c_pair c_member_set (c_pair c_nitro c_patch_set))))).

(** boot.rs:571-589 *)
Definition c_approval : codec approval :=
  c_iso (fun p : bytes * quorum_member => Approval (fst p) (snd p))
        (fun a => (ap_signature a, ap_member a))
        (c_pair c_bytes c_member).

(** boot.rs:606-650 *)
Definition c_envelope : codec manifest_envelope :=
  c_iso (fun p : manifest * (list approval * list approval) => let '(a, (b, c)) := p in ManifestEnvelope a b c)
        (fun e => (e1_manifest e, (e1_manifest_approvals e, e1_share_approvals e)))
        (c_pair c_manifest (c_pair (c_vec c_approval) (c_vec c_approval))).
Definition c_envelope_v0 : codec manifest_envelope_v0 :=
  c_iso (fun p : manifest_v0 * (list approval * list approval) => let '(a, (b, c)) := p in ManifestEnvelopeV0 a b c)
        (fun e => (e0_manifest e, (e0_manifest_approvals e, e0_share_approvals e)))
        (c_pair c_manifest_v0 (c_pair (c_vec c_approval) (c_vec c_approval))).

(** boot.rs:27-45 decode_borsh *)
Definition decode_borsh {T U V} (ct : codec T) (cu : codec U) (current : T -> V) (legacy : U -> V)
  (buf : bytes) : option V :=
  match from_slice ct buf, from_slice cu buf with
  | Some _, Some _ => None
  | Some t, None => Some (current t)
  | None, Some u => Some (legacy u)
  | None, None => None
  end.

(** manifest.rs:356-364: [deserialize_reader] of VersionedManifestEnvelope reads
    to the end of the input, so as a streaming decoder it leaves nothing. *)
Definition dec_versioned_envelope (b : bytes) : option (versioned_envelope * bytes) :=
  match decode_borsh c_envelope c_envelope_v0 VE1 VE0 b with
  | Some e => Some (e, [])
  | None => None
  end.

(** manifest.rs:340-354: serialize, an error for V2. *)
Definition c_versioned_envelope : codec versioned_envelope :=
  Codec (fun e => match e with VE2 _ => [] | VE1 x => enc c_envelope x | VE0 x => enc c_envelope_v0 x end)
        dec_versioned_envelope
        (fun e => match e with VE2 _ => false | VE1 x => wf c_envelope x | VE0 x => wf c_envelope_v0 x end).

(** manifest.rs:119-127 *)
Definition dec_versioned_manifest (b : bytes) : option versioned_manifest :=
  decode_borsh c_manifest c_manifest_v0 VM1 VM0 b.

(** ** Lawfulness *)
Ltac solve_iso :=
  apply c_iso_lawful;
  [ intros x; destruct x; reflexivity
  | intros x; repeat (match goal with p : (_ * _)%type |- _ => destruct p end); reflexivity
  | repeat first [ apply c_pair_lawful | assumption ] ].

Create HintDb law.
#[export] Hint Resolve c_bytes_lawful c_string_lawful c_bool_lawful c_unit_lawful c_fixed_lawful
  c_pair_lawful c_option_lawful : law.
#[export] Hint Resolve c_bytes_nonempty c_string_nonempty : law.

Lemma c_u16_lawful : lawful c_u16. Proof. apply c_uint_lawful. Qed.
Lemma c_u32_lawful : lawful c_u32. Proof. apply c_uint_lawful. Qed.
Lemma c_u64_lawful : lawful c_u64. Proof. apply c_uint_lawful. Qed.
Lemma c_u8_lawful : lawful c_u8. Proof. apply c_uint_lawful. Qed.
#[export] Hint Resolve c_u8_lawful c_u16_lawful c_u32_lawful c_u64_lawful c_vec_lawful : law.

Lemma c_nitro_lawful : lawful c_nitro.
Proof. unfold c_nitro; solve_iso; auto with law. Qed.

Lemma c_restart_lawful : lawful c_restart.
Proof.
  unfold c_restart. apply c_iso_lawful; [intros []; reflexivity | intros [[]|[[]|[]]]; reflexivity |].
  apply c_enum_lawful, t_cons_lawful; [auto with law|]. apply t_cons_lawful; [auto with law|apply t_nil_lawful].
Qed.
#[export] Hint Resolve c_nitro_lawful c_restart_lawful : law.

Lemma c_bridge_lawful : lawful c_bridge.
Proof.
  unfold c_bridge. apply c_iso_lawful; [intros []; reflexivity | intros [[]|[[]|[]]]; reflexivity |].
  apply c_enum_lawful, t_cons_lawful; [auto with law|]. apply t_cons_lawful; [auto with law|apply t_nil_lawful].
Qed.
Lemma c_bridge_nonempty : nonempty c_bridge.
Proof. apply c_iso_nonempty, c_enum_nonempty. Qed.
#[export] Hint Resolve c_bridge_lawful c_bridge_nonempty : law.

Lemma c_pivot_lawful : lawful c_pivot.
Proof. unfold c_pivot; solve_iso; auto with law. Qed.
Lemma c_pivot_v0_lawful : lawful c_pivot_v0.
Proof. unfold c_pivot_v0; solve_iso; auto with law. Qed.
Lemma c_member_lawful : lawful c_member.
Proof. unfold c_member; solve_iso; auto with law. Qed.
Lemma c_member_nonempty : nonempty c_member.
Proof. apply c_iso_nonempty, c_pair_nonempty_l; auto with law. Qed.
#[export] Hint Resolve c_pivot_lawful c_pivot_v0_lawful c_member_lawful c_member_nonempty : law.
Lemma c_member_set_lawful : lawful c_member_set.
Proof. unfold c_member_set; solve_iso; auto with law. Qed.
Lemma c_patch_set_lawful : lawful c_patch_set.
Proof. unfold c_patch_set; solve_iso; auto with law. Qed.
Lemma c_namespace_lawful : lawful c_namespace.
Proof. unfold c_namespace; solve_iso; auto with law. Qed.
#[export] Hint Resolve c_member_set_lawful c_patch_set_lawful c_namespace_lawful : law.
Lemma c_manifest_lawful : lawful c_manifest.
Proof. unfold c_manifest; solve_iso; auto with law. Qed.
Lemma c_manifest_v0_lawful : lawful c_manifest_v0.
Proof. unfold c_manifest_v0; solve_iso; auto with law. Qed.
Lemma c_approval_lawful : lawful c_approval.
Proof. unfold c_approval; solve_iso; auto with law. Qed.
Lemma c_approval_nonempty : nonempty c_approval.
Proof. apply c_iso_nonempty, c_pair_nonempty_l; auto with law. Qed.
#[export] Hint Resolve c_manifest_lawful c_manifest_v0_lawful c_approval_lawful c_approval_nonempty : law.
Lemma c_envelope_lawful : lawful c_envelope.
Proof. unfold c_envelope; solve_iso; auto with law. Qed.
Lemma c_envelope_v0_lawful : lawful c_envelope_v0.
Proof. unfold c_envelope_v0; solve_iso; auto with law. Qed.
