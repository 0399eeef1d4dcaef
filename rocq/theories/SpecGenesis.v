(** Specification of the genesis ceremony (C40). *)
From Verif Require Import Base Hex Types Borsh Msg World Services SpecApproval Shamir PropsShamir.
Local Open Scope N_scope.

Section SpecGenesis.
  Context (Y : sys).

  (** The system's secret sharing is the one of C25/C26: splitting draws the
      coefficients of a [k]-threshold sharing, combining interpolates. *)
  Record sharing_ok : Prop := SharingOk {
    sh_split : forall rnd secret n k, exists coeffs, drawn_for secret k coeffs /\ s_split Y rnd secret n k = shares_generate coeffs secret n k;
    sh_combine : forall l, s_combine Y l = shares_reconstruct l
  }.

  (** [o] is what member [m] receives for [share]: it names the member, carries
      the share encrypted to the member's own encryption key, and its hash. *)
  Definition output_for (m : quorum_member) (share : bytes) (o : genesis_member_output) : Prop :=
    gm_member o = m /\ gm_share_hash o = s_sha512 Y share /\
    exists e g rnd, has_keys Y m e g /\ s_encrypt Y e rnd share = Ok (gm_share o).

  (** [out] reports a sharing, by coefficients [coeffs], of the key with seed
      [seed] among the members of [set], in order, and a copy for the
      disaster-recovery key. *)
  Definition faithful (set : genesis_set) (dr : option bytes) (seed : bytes) (coeffs : list bytes) (out : genesis_output) : Prop :=
    go_set out = set /\ go_dr_key out = dr
    /\ (exists ek sk rnd, s_pair Y seed = Some (ek, sk) /\ go_quorum_key out = ek ++ sk
          /\ s_encrypt Y ek rnd (go_test_message out) = Ok (go_test_ciphertext out))
    /\ go_test_signature out = s_sign Y seed (go_test_message out) /\ go_test_message out = bs "qos-test-message"
    /\ go_quorum_key_hash out = s_sha512 Y (encode seed)
    /\ (exists shares, drawn_for seed (gs_threshold set) coeffs
          /\ shares_generate coeffs seed (lenN (gs_members set)) (gs_threshold set) = Some shares
          /\ length (go_member_outputs out) = length (gs_members set)
          /\ forall i m, nth_error (gs_members set) i = Some m ->
               exists o share, nth_error (go_member_outputs out) i = Some o /\ nth_error shares i = Some share /\ output_for m share o)
    /\ match dr, go_dr_key_wrapped out with
       | None, None => True
       | Some k, Some c => exists e g rnd, has_keys Y (QuorumMember [] k) e g /\ s_encrypt Y e rnd seed = Ok c
       | _, _ => False
       end.
End SpecGenesis.
