(** The protocol services: approvals, PCR commitment, boot, provisioning, key
    forwarding and genesis.  Models
    /repo/src/qos_core/src/protocol/services/{boot.rs,boot/manifest.rs,attestation.rs,
    provision.rs,key.rs,genesis.rs}. *)
From Verif Require Import Base Hex Json Types Borsh TypesBorsh TypesJson Msg World Attest.
Local Open Scope N_scope.
Local Open Scope m_scope.

(** *** Borsh codecs used for hashing *)
(** genesis.rs:19-37 *)
Definition c_genesis_set : codec genesis_set :=
  c_iso (fun p : list quorum_member * N => GenesisSet (fst p) (snd p))
        (fun g => (gs_members g, gs_threshold g)) (c_pair (c_vec c_member) c_u32).
(** genesis.rs:39-58 *)
Definition c_member_shard : codec member_shard :=
  c_iso (fun p : quorum_member * bytes => MemberShard (fst p) (snd p))
        (fun m => (sh_member m, sh_shard m)) (c_pair c_member c_bytes).
(** genesis.rs:77-97 *)
Definition c_genesis_member_output : codec genesis_member_output :=
  c_iso (fun p : quorum_member * (bytes * bytes) => let '(a, (b, c)) := p in GenesisMemberOutput a b c)
        (fun m => (gm_member m, (gm_share m, gm_share_hash m)))
        (c_pair c_member (c_pair c_bytes (c_fixed 64))).
(** genesis.rs:113-160 *)
Definition c_genesis_output : codec genesis_output :=
  c_iso (fun p : genesis_set * (option bytes * (bytes * (list genesis_member_output * (list (list member_shard) *
                 (option bytes * (bytes * (bytes * (bytes * bytes)))))))) =>
           let '(a, (b, (c, (d, (e, (f, (g, (h, (i, j))))))))) := p in GenesisOutput a b c d e f g h i j)
        (fun o => (go_set o, (go_dr_key o, (go_quorum_key o, (go_member_outputs o, (go_recovery_permutations o,
                  (go_dr_key_wrapped o, (go_quorum_key_hash o, (go_test_ciphertext o,
                  (go_test_signature o, go_test_message o))))))))))
        (c_pair c_genesis_set (c_pair (c_option c_bytes) (c_pair c_bytes (c_pair (c_vec c_genesis_member_output)
        (c_pair (c_vec (c_vec c_member_shard)) (c_pair (c_option c_bytes) (c_pair (c_fixed 64) (c_pair c_bytes
        (c_pair c_bytes c_bytes))))))))).

(** *** Derived [Ord] on members: alias, then key, byte-lexicographic (used by [sort]) *)
Fixpoint bytes_cmp (a b : bytes) : comparison :=
  match a, b with
  | [], [] => Eq | [], _ => Lt | _, [] => Gt
  | x :: a', y :: b' => match N.compare (b2n x) (b2n y) with Eq => bytes_cmp a' b' | c => c end
  end.
Definition member_leb (a b : quorum_member) : bool :=
  match bytes_cmp (m_alias a) (m_alias b) with
  | Lt => true | Gt => false
  | Eq => match bytes_cmp (m_pub_key a) (m_pub_key b) with Gt => false | _ => true end
  end.
Fixpoint insert_member (m : quorum_member) (l : list quorum_member) : list quorum_member :=
  match l with [] => [m] | x :: r => if member_leb m x then m :: l else x :: insert_member m r end.
Fixpoint sort_members (l : list quorum_member) : list quorum_member :=
  match l with [] => [] | m :: r => insert_member m (sort_members r) end.

Section Services.
  Context (Y : sys).
  Local Notation M := (M Y).

  (** protocol/mod.rs QosHash: sha256 of the Borsh encoding *)
  Definition member_hash (m : quorum_member) : bytes := s_sha256 Y (enc c_member m).
  Definition set_hash (m : member_set) : bytes := s_sha256 Y (enc c_member_set m).

  (** manifest.rs:131-137 (VersionedManifest) and :399-405 (envelope).  The V2
      hash is over canonical JSON; the Rust [expect] on its encoding is the [None] case. *)
  Definition manifest_preimage (m : versioned_manifest) : bytes :=
    match m with
    | VM2 x => match canon (jser js_manifest_v2 x) with Some b => b | None => [] end
    | VM1 x => enc c_manifest x
    | VM0 x => enc c_manifest_v0 x
    end.
  Definition manifest_hash (m : versioned_manifest) : bytes := s_sha256 Y (manifest_preimage m).

  (** *** Approvals *)
  (** boot.rs:310-327 ensure_unique_members *)
  Fixpoint unique_members (al sg en : list bytes) (ms : list quorum_member) : result perr unit :=
    match ms with
    | [] => Ok tt
    | m :: r =>
      match public_from_bytes Y (m_pub_key m) with
      | Err e => Err (P256Error e)
      | Ok (e, g) =>
        if memb bytes_eqb (m_alias m) al || memb bytes_eqb g sg || memb bytes_eqb e en
        then Err DuplicateQuorumMember
        else unique_members (m_alias m :: al) (g :: sg) (e :: en) r
      end
    end.
  Definition ensure_unique_members (ms : list quorum_member) : result perr unit := unique_members [] [] [] ms.

  (** boot.rs:595-604 Approval::verify *)
  Definition approval_verify (a : approval) (m : bytes) : result perr unit :=
    match public_from_bytes Y (m_pub_key (ap_member a)) with
    | Err e => Err (P256Error e)
    | Ok (_, g) => if s_verify Y g m (ap_signature a) then Ok tt else Err CouldNotVerifyApproval
    end.

  (** manifest.rs:434-468 check_approvals; [seen] is the hash set of member hashes *)
  Fixpoint check_each (ms : list quorum_member) (mh : bytes) (seen : list bytes) (l : list approval)
    : result perr (list bytes) :=
    match l with
    | [] => Ok seen
    | a :: r =>
      match public_from_bytes Y (m_pub_key (ap_member a)) with
      | Err e => Err (P256Error e)
      | Ok (_, g) =>
        if negb (s_verify Y g mh (ap_signature a)) then Err (InvalidManifestApproval a)
        else if negb (memb member_eqb (ap_member a) ms) then Err NotManifestSetMember
        else let h := member_hash (ap_member a) in
          if memb bytes_eqb h seen then Err DuplicateApproval
          else check_each ms mh (h :: seen) r
      end
    end.
  Definition check_approvals (e : versioned_envelope) : result perr unit :=
    let m := env_manifest e in
    let set := vm_manifest_set m in
    rbind (ensure_unique_members (members set)) (fun _ =>
    rbind (check_each (members set) (manifest_hash m) [] (env_manifest_approvals e)) (fun seen =>
    if lenN seen <? threshold set then Err NotEnoughApprovals else Ok tt)).

  (** *** attestation.rs *)
  Definition attest_err (t : string) : perr := QosAttestError (bs t).
  (** attestation.rs:184-193 *)
  Definition describe_nsm : M (N * list N * nsm_digest) :=
    do r <- op_nsm Y DescribeNSM;
    match r with
    | RDescribeNSM _ _ _ _ max locked d => ret (max, locked, d)
    | _ => err (attest_err "unexpected NSM response")
    end.
  (** attestation.rs:195-203 *)
  Definition describe_pcr (i : N) : M (bool * bytes) :=
    do r <- op_nsm Y (DescribePCR i);
    match r with
    | RDescribePCR lock data => ret (lock, data)
    | _ => err (attest_err "unexpected NSM response")
    end.
  (** attestation.rs:104-159 *)
  Definition extend_commitment (k : commitment_kind) (max : N) (locked : list N) (mh eph : bytes) : M bytes :=
    let i := pcr_index k in
    guard (negb (max <=? i)) (attest_err "PCR not supported") ;;
    guard (negb (memb N.eqb i locked)) (attest_err "PCR already locked") ;;
    do (lock, initial) <- describe_pcr i;
    guard (negb lock) (attest_err "PCR read-only") ;;
    guard (bytes_eqb initial INITIAL_PCR) (attest_err "PCR initial value mismatch") ;;
    let commitment := manifest_pcr_commitment Y k mh eph in
    do expected <- lift (rmap_err attest_perr (pcr_extend_sha384 Y initial commitment));
    do r <- op_nsm Y (ExtendPCR i commitment);
    match r with
    | RExtendPCR data => guard (bytes_eqb data expected) (attest_err "ExtendPCR unexpected value") ;; ret expected
    | _ => err (attest_err "unexpected NSM response")
    end.
  (** attestation.rs:161-182 *)
  Definition verify_locked (k : commitment_kind) (expected : bytes) : M unit :=
    do (lock, data) <- describe_pcr (pcr_index k);
    guard lock (attest_err "PCR not read-only after LockPCRs") ;;
    guard (bytes_eqb data expected) (attest_err "PCR post-lock value mismatch").
  (** attestation.rs:205-217 *)
  Definition all_locked (max : N) (locked : list N) : bool :=
    forallb (fun i => memb N.eqb i locked) (map N.of_nat (seq 0 (N.to_nat max))).
  (** attestation.rs:39-102 *)
  Definition lock_manifest_commitment_pcr_bank (mh setup_pub live_pub : bytes) : M unit :=
    do (max, locked, d) <- describe_nsm;
    guard (digest_eqb d SHA384) (attest_err "expected SHA384") ;;
    guard (negb (max <? ATTESTABLE_PCR_COUNT)) (attest_err "max_pcrs too small") ;;
    do e1 <- extend_commitment Setup max locked mh setup_pub;
    do e2 <- extend_commitment Live max locked mh live_pub;
    do r <- op_nsm Y (LockPCRs max);
    match r with RLockPCRs => ret tt | _ => err (attest_err "unexpected NSM response") end ;;
    do (max', locked', _) <- describe_nsm;
    guard (max' =? max) (attest_err "max_pcrs changed") ;;
    guard (all_locked max locked') (attest_err "PCR not locked after LockPCRs") ;;
    verify_locked Setup e1 ;;
    verify_locked Live e2.
  (** attestation.rs:25-38 *)
  Definition post_boot_attestation (pub mh : bytes) : M nsm_response :=
    op_nsm Y (Attestation (Some mh) None (Some pub)).
  (** attestation.rs:10-23 *)
  Definition live_attestation_doc : M nsm_response :=
    do (_, k) <- get_ephemeral_key Y;
    do e <- get_manifest_envelope Y;
    post_boot_attestation (public_to_bytes k) (manifest_hash (env_manifest e)).

  (** *** boot.rs:725-777 put_manifest_and_pivot *)
  Definition put_manifest_and_pivot (e : versioned_envelope) (pivot : bytes) : M nsm_response :=
    lift (check_approvals e) ;;
    guard (match env_share_approvals e with [] => true | _ => false end) BadShareSetApprovals ;;
    let actual := s_sha256 Y pivot in
    let expected := vm_pivot_hash (env_manifest e) in
    guard (bytes_eqb actual expected) (InvalidPivotHash (encode expected) (encode actual)) ;;
    do (setup, setup_k) <- pair_generate Y;
    do (live, live_k) <- pair_generate Y;
    let mh := manifest_hash (env_manifest e) in
    lock_manifest_commitment_pcr_bank mh (public_to_bytes setup_k) (public_to_bytes live_k) ;;
    modify (set_pending (Some live)) ;;
    put_ephemeral_key Y setup ;;
    put_pivot Y pivot ;;
    put_manifest_envelope Y e ;;
    post_boot_attestation (public_to_bytes setup_k) mh.
  (** boot.rs:779-788 *)
  Definition boot_standard := put_manifest_and_pivot.
  (** key.rs:77-86 *)
  Definition boot_key_forward := put_manifest_and_pivot.

  (** *** provision.rs *)
  Definition push_share_approval (a : approval) (e : versioned_envelope) : versioned_envelope :=
    match e with
    | VE2 x => VE2 (ManifestEnvelopeV2 (e2_manifest x) (e2_manifest_approvals x) (e2_share_approvals x ++ [a]))
    | VE1 x => VE1 (ManifestEnvelope (e1_manifest x) (e1_manifest_approvals x) (e1_share_approvals x ++ [a]))
    | VE0 x => VE0 (ManifestEnvelopeV0 (e0_manifest x) (e0_manifest_approvals x) (e0_share_approvals x ++ [a]))
    end.
  (** state.rs:230-236 *)
  Definition take_pending : M bytes := fun s =>
    match st_pending s with
    | Some k => (Ok k, set_pending None s)
    | None => (Err MissingLiveEphemeralKey, s)
    end.
  (** provision.rs:25-35 *)
  Definition add_share (sh : bytes) : M unit :=
    match sh with [] => err InvalidShare | _ => modify (fun s => set_shares (st_shares s ++ [sh]) s) end.
  (** provision.rs:38-47 *)
  Definition build_secret : M bytes :=
    do l <- gets st_shares;
    match s_combine Y l with
    | None => err (QosCrypto (bs "vsss"))
    | Some [] => err ReconstructionErrorEmptySecret
    | Some x => ret x
    end.
  (** provision.rs:59-134 *)
  Definition provision (share : bytes) (a : approval) : M bool :=
    do e <- get_manifest_envelope Y;
    let m := env_manifest e in
    let mh := manifest_hash m in
    lift (approval_verify a mh) ;;
    guard (memb member_eqb (ap_member a) (members (vm_share_set m))) NotShareSetMember ;;
    mutate_manifest_envelope Y (push_share_approval a) ;;
    do (eph, _) <- get_ephemeral_key Y;
    do sh <- lift (rmap_err (fun _ => DecryptionFailed) (s_decrypt Y eph share));
    add_share sh ;;
    do n <- gets (fun s => lenN (st_shares s));
    if n <? threshold (vm_share_set m) then ret false
    else
      do seed <- build_secret;
      modify (set_shares []) ;;
      guard (lenN seed =? 32) IncorrectSecretLen ;;
      do k <- lift (rmap_err P256Error (from_master_seed Y seed));
      guard (bytes_eqb (public_to_bytes k) (ns_quorum_key (vm_namespace m))) ReconstructionErrorIncorrectPubKey ;;
      do live <- take_pending;
      rotate_ephemeral_key Y live ;;
      put_quorum_key Y seed ;;
      ret true.

  (** *** key.rs *)
  Definition pub_eqb (a b : bytes * bytes) : bool := bytes_eqb (fst a) (fst b) && bytes_eqb (snd a) (snd b).
  (** key.rs:26-75 inject_key *)
  Definition inject_key (enc_key sig : bytes) : M unit :=
    do e <- get_manifest_envelope Y;
    let m := env_manifest e in
    do q <- lift (rmap_err P256Error (public_from_bytes Y (ns_quorum_key (vm_namespace m))));
    guard (s_verify Y (snd q) enc_key sig) InvalidEncryptedQuorumKeySignature ;;
    do (eph, _) <- get_ephemeral_key Y;
    do seed <- lift (rmap_err P256Error (s_decrypt Y eph enc_key));
    guard (lenN seed =? 32) EncryptedQuorumKeyInvalidLen ;;
    do k <- lift (rmap_err (fun _ => InvalidQuorumSecret) (from_master_seed Y seed));
    guard (pub_eqb k q) WrongQuorumKey ;;
    do live <- take_pending;
    rotate_ephemeral_key Y live ;;
    put_quorum_key Y seed.

  (** key.rs:140-269 validate_manifest: new envelope, old envelope, document *)
  Definition validate_manifest (new old : versioned_envelope) (d : att_doc) : result perr unit :=
    let nm := env_manifest new in
    let om := env_manifest old in
    rbind (check_approvals new) (fun _ =>
    match env_share_approvals new with
    | _ :: _ => Err BadShareSetApprovals
    | [] =>
      let oq := ns_quorum_key (vm_namespace om) in
      let nq := ns_quorum_key (vm_namespace nm) in
      if negb (bytes_eqb oq nq) then Err (DifferentQuorumKey (encode oq) (encode nq))
      else
        let os := MemberSet (threshold (vm_manifest_set om)) (sort_members (members (vm_manifest_set om))) in
        let ns := MemberSet (threshold (vm_manifest_set nm)) (sort_members (members (vm_manifest_set nm))) in
        if negb (threshold os =? threshold ns) || negb (list_eqb member_eqb (members os) (members ns))
        then Err (DifferentManifestSet (encode (set_hash os)) (encode (set_hash ns)))
        else if negb (bytes_eqb (ns_name (vm_namespace om)) (ns_name (vm_namespace nm)))
        then Err (DifferentNamespaceName (ns_name (vm_namespace om)) (ns_name (vm_namespace nm)))
        else if ns_nonce (vm_namespace nm) <? ns_nonce (vm_namespace om)
        then Err (LowNonce (ns_nonce (vm_namespace om)) (ns_nonce (vm_namespace nm)))
        else if (ns_nonce (vm_namespace om) =? ns_nonce (vm_namespace nm))
                && negb (bytes_eqb (manifest_hash om) (manifest_hash nm))
        then Err (DifferentManifest (encode (manifest_hash om)) (encode (manifest_hash nm)))
        else
          rbind (rmap_err attest_perr
            (verify_against_manifest Y Setup d (manifest_hash nm)
               (pcr0 (vm_enclave nm)) (pcr1 (vm_enclave nm)) (pcr2 (vm_enclave nm)) (pcr3 (vm_enclave nm)))) (fun _ =>
          if negb (bytes_eqb (pcr3 (vm_enclave om)) (pcr3 (vm_enclave nm)))
          then Err (DifferentPcr3 (encode (pcr3 (vm_enclave om))) (encode (pcr3 (vm_enclave nm))))
          else Ok tt)
    end).

  (** key.rs:88-137 export_key and export_key_internal, :271-282 verify_and_extract *)
  Definition export_key (new : versioned_envelope) (cose : bytes) : M (bytes * bytes) :=
    do t <- op_time Y;
    do ms <- match t with Some ms => ret ms | None => err (attest_err "timestamp") end;
    do d <- lift (rmap_err attest_perr (attestation_doc_from_der Y cose (s_root Y) (ms / 1000)));
    do old <- get_manifest_envelope Y;
    lift (validate_manifest new old d) ;;
    do pk <- match ad_public_key d with Some k => ret k | None => err MissingEphemeralKey end;
    do eph <- lift (rmap_err (fun _ => InvalidEphemeralKey) (public_from_bytes Y pk));
    do (seed, _) <- get_quorum_key Y;
    do r <- op_rand Y;
    do c <- lift (rmap_err P256Error (s_encrypt Y (fst eph) r seed));
    ret (c, s_sign Y seed c).

  (** *** genesis.rs:176-242 boot_genesis *)
  Definition QOS_TEST_MESSAGE : bytes := bs "qos-test-message".
  Fixpoint encrypt_shares (l : list (bytes * quorum_member)) : M (list genesis_member_output) :=
    match l with
    | [] => ret []
    | (sh, m) :: r =>
      do k <- lift (rmap_err P256Error (public_from_bytes Y (m_pub_key m)));
      do rnd <- op_rand Y;
      do c <- lift (rmap_err P256Error (s_encrypt Y (fst k) rnd sh));
      do rest <- encrypt_shares r;
      ret (GenesisMemberOutput m c (s_sha512 Y sh) :: rest)
    end.
  (** Run [m] but hand its outcome on as a value (a [Result] bound to a name). *)
  Definition catch {A} (m : M A) : M (result perr A) :=
    fun s => let '(r, s') := m s in (Ok r, s').
  Definition boot_genesis (set : genesis_set) (dr_key : option bytes) : M (genesis_output * nsm_response) :=
    lift (ensure_unique_members (gs_members set)) ;;
    do (seed, k) <- pair_generate Y;
    do rnd <- op_rand Y;
    do shares <- match s_split Y rnd seed (lenN (gs_members set)) (gs_threshold set) with
                 | Some l => ret l | None => err (QosCrypto (bs "vsss")) end;
    do outs <- catch (encrypt_shares (combine shares (gs_members set)));
    do wrapped <- match dr_key with
                  | None => ret None
                  | Some dk =>
                    do p <- lift (rmap_err InvalidP256DRKey (public_from_bytes Y dk));
                    do rnd <- op_rand Y;
                    do c <- lift (rmap_err P256Error (s_encrypt Y (fst p) rnd seed));
                    ret (Some c)
                  end;
    do outs <- lift outs;
    do rnd <- op_rand Y;
    do tc <- lift (rmap_err P256Error (s_encrypt Y (fst k) rnd QOS_TEST_MESSAGE));
    let o := GenesisOutput set dr_key (public_to_bytes k) outs [] wrapped
               (s_sha512 Y (encode seed)) tc (s_sign Y seed QOS_TEST_MESSAGE) QOS_TEST_MESSAGE in
    do r <- op_nsm Y (Attestation (Some (s_sha256 Y (enc c_genesis_output o))) None None);
    ret (o, r).
End Services.
