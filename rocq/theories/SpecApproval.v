(** Specification of a valid set of manifest approvals (C07-C10, C19). *)
From Verif Require Import Base Types World.
Local Open Scope N_scope.

Section SpecApproval.
  Context (Y : sys).

  (** A member's encoded key is exactly an encryption point followed by a signing point. *)
  Definition has_keys (m : quorum_member) (enc_key sign_key : bytes) : Prop :=
    m_pub_key m = enc_key ++ sign_key
    /\ length enc_key = 65%nat /\ length sign_key = 65%nat
    /\ s_point_ok Y enc_key = true /\ s_point_ok Y sign_key = true.

  (** The approver's own signing key verifies the signature over [mh]. *)
  Definition signed (mh : bytes) (a : approval) : Prop :=
    exists e g, has_keys (ap_member a) e g /\ s_verify Y g mh (ap_signature a) = true.

  (** A quorum set without impostors: valid keys, no alias, signing key or
      encryption key used twice. *)
  Definition proper_members (ms : list quorum_member) : Prop :=
    NoDup (map m_alias ms) /\
    exists encs signs, length encs = length ms /\ length signs = length ms
      /\ (forall i m, nth_error ms i = Some m ->
            exists e g, nth_error encs i = Some e /\ nth_error signs i = Some g /\ has_keys m e g)
      /\ NoDup encs /\ NoDup signs.

  (** [l] is a sufficient list of approvals of [mh] by distinct members of [set]. *)
  Definition approved (set : member_set) (mh : bytes) (l : list approval) : Prop :=
    proper_members (members set)
    /\ (forall a, In a l -> In (ap_member a) (members set) /\ signed mh a)
    /\ NoDup (map ap_member l)
    /\ threshold set <= N.of_nat (length l).
End SpecApproval.
