(** C58: re-encrypting a share to an enclave. *)
From Coq Require Import Permutation Sorting.Sorted ZifyBool ZifyN ZifyNat.
From Verif Require Import Base Utf8 Hex HexProofs Borsh Json Types TypesBorsh TypesJson StorageProofs Msg World Run FsProofs Attest Services
  ServiceProofs BootProofs State SpecProtocol HandleProofs Reach Invariant ProtocolProofs
  Builder SpecApproval ApprovalProofs SpecAttest AttestProofs SpecHistory HistoryProofs ProvisionProofs SpecExport ExportProofs Shamir ShamirProofs PropsShamir
  SpecGenesis PropsGenesis PropsLive JsonSound
  Client SpecClient ClientProofs ClientSets ClientFiles ClientApprove CodecExamples Toy ToyRuns ToyClient PropsClient PropsApprove.
Local Open Scope N_scope.

(** The document is signed under the pinned root certificate, by an enclave that runs QuorumOS with the manifest's
    measurements, for the organisation of the IAM role, and commits to this manifest and to the key it carries. *)
Record genuine (Y : sys) (cose : bytes) (now : N) (d : att_doc) (m : versioned_manifest) (role : bytes) : Prop := Genuine {
  ge_doc : s_doc Y cose = Some d;
  ge_syntax : doc_syntax 32 d;
  ge_chain : s_chain_ok Y (tl (ad_cabundle d)) (s_root Y) (ad_certificate d) now = true;
  ge_signature : s_cose_sig_ok Y (ad_certificate d) cose = true;
  ge_role : pcr3 (vm_enclave m) = s_sha384 Y (repeat x00 48 ++ role);
  ge_measures : doc_matches d (manifest_hash Y m) (pcr0 (vm_enclave m)) (pcr1 (vm_enclave m)) (pcr2 (vm_enclave m)) (pcr3 (vm_enclave m));
  ge_commits : doc_commits Y Setup d (manifest_hash Y m) }.

Definition envelope_in (f : option bytes) (e : versioned_envelope) : Prop := exists c, f = Some c /\ envelope_try_from_slice_compat c = Some e.
(** What the share holder is asked to confirm. *)
Definition shown_to_holder (e : versioned_envelope) (role : bytes) (asked : list question) : Prop :=
  exists approvers, asked = [QName (ns_name (vm_namespace (env_manifest e))); QNonce (ns_nonce (vm_namespace (env_manifest e))); QRole role; QApprovers approvers]
    /\ Permutation approvers (map (fun a => m_alias (ap_member a)) (env_manifest_approvals e)).
(** Whom the share is encrypted to: the document's key (or the operator's explicit, "unsafe" choice). *)
Definition recipient (Y : sys) (override : option (option bytes)) (d : att_doc) (ek : bytes) : Prop :=
  match override with
  | Some f => exists seed sk, personal_key Y f seed ek sk
  | None => exists k sk, ad_public_key d = Some k /\ has_keys Y (QuorumMember [] k) ek sk
  end.

Lemma sort_keys_perm l : Permutation (Client.sort_keys l) l.
Proof.
  pose proof (sort_perm (map anon l)) as P. rewrite <- sort_keys_members in P. apply (Permutation_map m_pub_key) in P.
  rewrite !map_map in P. cbn [anon m_pub_key] in P. rewrite !map_id in P. exact P.
Qed.
Lemma memb_member_iff x l : memb member_eqb x l = true <-> In x l.
Proof.
  unfold memb. rewrite existsb_exists. split.
  - intros (y & I & E). apply member_eqb_eq in E. now subst.
  - intros I. exists x. split; [exact I|now apply member_eqb_eq].
Qed.

Section C58.
  Context {Y : sys}.
  Definition proxy_inner (a : proxy_args) :=
      (let? kp := read_pair Y (pa_secret a) in
       let? e := read_manifest_envelope_compat (pa_envelope a) in
       let? cose := pa_doc a in
       let? d := extract_attestation_doc Y cose (pa_skip a) (pa_now a) in
       let? share := pa_share a in
       let? role := find_pcr3 (pa_pcr3 a) in
       let m := env_manifest e in
       if pa_skip a || (pcr3_preimage_ok Y role m && doc_is_setup_of Y d m) then
         let? eph := match pa_eph_override a with
                     | Some f => let? p := read_pair Y f in Some (snd p)
                     | None => let? pk := ad_public_key d in ok_opt (public_from_bytes Y pk)
                     end in
         let mem := QuorumMember (pa_alias a) (public_to_bytes (snd kp)) in
         let? ms := get_set Y (pa_manifest_set a) in
         if proxy_checks Y e ms mem then Some (kp, e, share, role, eph, mem) else None
       else None).
  Lemma proxy_unfold a : proxy_re_encrypt_share Y a =
    match proxy_inner a with
    | None => ([], None)
    | Some (kp, e, share, role, eph, mem) =>
      let '(asked, ok) := if pa_auto a then ([], true) else ask_all (proxy_questions e role) (pa_stdin a) in
      (asked,
       if negb ok then None
       else let? plain := ok_opt (s_decrypt Y (fst kp) share) in
            let? c := ok_opt (s_encrypt Y (fst eph) (pa_rng a) plain) in
            Some (write (jser js_approval (Approval (s_sign Y (fst kp) (manifest_hash Y (env_manifest e))) mem)), c))
    end.
  Proof. reflexivity. Qed.

  Lemma recipient_iff o d ek : (exists sk, (match o with
                     | Some f => let? p := read_pair Y f in Some (snd p)
                     | None => let? pk := ad_public_key d in ok_opt (public_from_bytes Y pk)
                     end) = Some (ek, sk)) <-> recipient Y o d ek.
  Proof.
    unfold recipient. destruct o as [f|]; split.
    - intros (sk & H). apply obind_some in H as ([seed [e s]] & R & E). cbn [snd] in E. assert (e = ek /\ s = sk) as [-> ->] by (split; congruence).
      exists seed, sk. now apply read_pair_iff.
    - intros (seed & sk & P). exists sk. apply read_pair_iff in P. rewrite P. reflexivity.
    - intros (sk & H). apply obind_some in H as (k & K & E). apply ok_opt_some in E. exists k, sk. split; [exact K|].
      apply (public_keys Y (QuorumMember [] k) ek sk). exact E.
    - intros (k & sk & K & H). exists sk. rewrite K. cbn [obind]. apply (public_keys Y (QuorumMember [] k)) in H. cbn [m_pub_key] in H. rewrite H. reflexivity.
  Qed.
  Lemma genuine_iff cose now d m role : extract_attestation_doc Y cose false now = Some d /\ pcr3_preimage_ok Y role m && doc_is_setup_of Y d m = true
    <-> genuine Y cose now d m role.
  Proof.
    unfold extract_attestation_doc. rewrite ok_opt_some, from_der_iff, Bool.andb_true_iff. unfold pcr3_preimage_ok, doc_is_setup_of.
    rewrite is_ok_iff, against_manifest_iff, bytes_eqb_eq. unfold pcr3_from_preimage. split.
    - intros ((A & B & C & D) & E & F & G). constructor; auto.
    - intros [A B C D E F G]. split; [split; [exact A|split; [exact B|split; [exact C|exact D]]]|]. split; [symmetry; exact E|]. split; [exact F|exact G].
  Qed.

  Lemma proxy_inner_iff a seed ek sk e share role ekr mem : (exists skr, proxy_inner a = Some (seed, (ek, sk), e, share, role, (ekr, skr), mem)) <->
    personal_key Y (pa_secret a) seed ek sk /\ envelope_in (pa_envelope a) e /\ pa_share a = Some share /\ first_line_is (pa_pcr3 a) role
    /\ (exists cose d, pa_doc a = Some cose /\ (if pa_skip a then s_doc Y cose = Some d else genuine Y cose (pa_now a) d (env_manifest e) role)
          /\ recipient Y (pa_eph_override a) d ekr)
    /\ mem = QuorumMember (pa_alias a) (ek ++ sk) /\ In mem (members (vm_share_set (env_manifest e)))
    /\ directory_set Y (pa_manifest_set a) (threshold (vm_manifest_set (env_manifest e))) (members (vm_manifest_set (env_manifest e)))
    /\ check_approvals Y e = Ok tt.
  Proof.
    unfold proxy_inner. split.
    - intros (skr & H). apply obind_some in H as ([sd [ek' sk']] & RP & H). apply obind_some in H as (e' & RE & H). apply obind_some in H as (cose & RC & H).
      apply obind_some in H as (d & RD & H). apply obind_some in H as (sh & RS & H). apply obind_some in H as (role' & RR & H).
      cbv zeta in H. cbn [snd] in H. apply if_some in H as [CK H]. apply obind_some in H as (eph & RX & H). apply obind_some in H as (ms & GM & H). apply if_some in H as [PC H].
      assert (sd = seed /\ ek' = ek /\ sk' = sk /\ e' = e /\ sh = share /\ role' = role /\ eph = (ekr, skr) /\ mem = QuorumMember (pa_alias a) (public_to_bytes (ek', sk')))
        as (-> & -> & -> & -> & -> & -> & -> & ->) by (repeat split; congruence). clear H.
      unfold proxy_checks in PC. rewrite !Bool.andb_true_iff in PC. destruct PC as ((P1 & P2) & P3). apply is_ok_iff in P1. apply set_eqb_eq in P2. apply memb_member_iff in P3.
      split; [now apply read_pair_iff|]. split; [unfold read_manifest_envelope_compat in RE; apply obind_some in RE; exact RE|].
      split; [exact RS|]. split; [now apply find_pcr3_iff|]. split.
      { exists cose, d. split; [exact RC|]. split; [|apply recipient_iff; eauto]. destruct (pa_skip a); [exact RD|]. cbn [orb] in CK. apply genuine_iff. now split. }
      split; [reflexivity|]. split; [exact P3|]. split; [|exact P1]. rewrite P2. now apply get_set_iff.
    - intros (PK & (c & Ec & Ee) & RS & RR & (cose & d & RC & GE & RX) & -> & Mem & GM & CA).
      apply read_pair_iff in PK. rewrite PK. cbn [obind]. unfold read_manifest_envelope_compat. rewrite Ec. cbn [obind]. rewrite Ee. cbn [obind]. rewrite RC. cbn [obind].
      apply recipient_iff in RX as (skr & RX). exists skr.
      assert (X : extract_attestation_doc Y cose (pa_skip a) (pa_now a) = Some d /\ pa_skip a || (pcr3_preimage_ok Y role (env_manifest e) && doc_is_setup_of Y d (env_manifest e)) = true).
      { destruct (pa_skip a); [split; [exact GE|reflexivity]|]. apply genuine_iff in GE. exact GE. }
      destruct X as [X1 X2]. rewrite X1. cbn [obind]. rewrite RS. cbn [obind]. apply find_pcr3_iff in RR. rewrite RR. cbn [obind]. cbv zeta. rewrite X2.
      match goal with |- obind ?x ?f = _ => transitivity (obind (Some (ekr, skr)) f); [exact (f_equal (fun o => obind o f) RX)|] end. cbn [obind].
      apply (proj2 (get_set_iff _ (vm_manifest_set (env_manifest e)))) in GM. rewrite GM. cbn [obind].
      unfold proxy_checks. rewrite CA, (proj2 (set_eqb_eq _ _) eq_refl). cbn [fst snd]. unfold public_to_bytes. cbn [fst snd].
      rewrite (proj2 (memb_member_iff _ _) Mem). reflexivity.
  Qed.
End C58.

(** ** Soundness.  If an approval and a re-encrypted share are written, then every one of these holds. *)
Theorem c58_reencrypt_sound : forall Y a asked text c, proxy_re_encrypt_share Y a = (asked, Some (text, c)) ->
  exists seed ek sk e share role cose d ekr plain, let m := env_manifest e in
    personal_key Y (pa_secret a) seed ek sk /\ envelope_in (pa_envelope a) e /\ pa_share a = Some share /\ first_line_is (pa_pcr3 a) role
    (* the right enclave *)
    /\ pa_doc a = Some cose /\ (pa_skip a = false -> genuine Y cose (pa_now a) d m role)
    (* a manifest approved by the manifest set that the holder's own directory names *)
    /\ directory_set Y (pa_manifest_set a) (threshold (vm_manifest_set m)) (members (vm_manifest_set m))
    /\ approved Y (vm_manifest_set m) (manifest_hash Y m) (env_manifest_approvals e)
    (* the holder is in the share set and agreed *)
    /\ In (QuorumMember (pa_alias a) (ek ++ sk)) (members (vm_share_set m))
    /\ (if pa_auto a then asked = [] else shown_to_holder e role asked /\ all_confirmed 4 (pa_stdin a))
    (* the output *)
    /\ recipient Y (pa_eph_override a) d ekr /\ s_decrypt Y seed share = Ok plain /\ s_encrypt Y ekr (pa_rng a) plain = Ok c
    /\ text = write (jser js_approval (Approval (s_sign Y seed (manifest_hash Y m)) (QuorumMember (pa_alias a) (ek ++ sk)))).
Proof.
  intros Y a asked text c. rewrite proxy_unfold.
  destruct (proxy_inner a) as [[[[[[[seed [ek sk]] e] share] role] [ekr skr]] mem]|] eqn:E; [|discriminate].
  pose proof (proj1 (proxy_inner_iff a seed ek sk e share role ekr mem) (ex_intro _ skr E)) as (PK & RE & RS & RR & (cose & d & RC & GE & RX) & -> & Mem & GM & CA).
  intros H. assert (X : exists ok, (if pa_auto a then ([], true) else ask_all (proxy_questions e role) (pa_stdin a)) = (asked, ok) /\
     (if negb ok then None
       else let? plain := ok_opt (s_decrypt Y seed share) in
            let? c := ok_opt (s_encrypt Y ekr (pa_rng a) plain) in
            Some (write (jser js_approval (Approval (s_sign Y seed (manifest_hash Y (env_manifest e))) (QuorumMember (pa_alias a) (ek ++ sk)))), c)) = Some (text, c)).
  { destruct (if pa_auto a then ([], true) else ask_all (proxy_questions e role) (pa_stdin a)) as [l ok]. exists ok. cbn [fst] in H. split; congruence. }
  destruct X as (ok & A & O). clear H. destruct ok; cbn [negb] in O; [|discriminate].
  apply obind_some in O as (plain & Dc & O). apply ok_opt_some in Dc. apply obind_some in O as (c' & En & O). apply ok_opt_some in En.
  assert (c' = c) as -> by congruence.
  exists seed, ek, sk, e, share, role, cose, d, ekr, plain. cbv zeta.
  split; [exact PK|]. split; [exact RE|]. split; [exact RS|]. split; [exact RR|]. split; [exact RC|].
  split; [intros N; rewrite N in GE; exact GE|]. split; [exact GM|]. split; [now apply check_sound|]. split; [exact Mem|].
  split.
  { destruct (pa_auto a); [congruence|]. apply ask_all_true in A as [-> AC]. split; [|exact AC].
    unfold shown_to_holder, proxy_questions. eexists. split; [reflexivity|]. apply sort_keys_perm. }
  split; [exact RX|]. split; [exact Dc|]. split; [exact En|]. congruence.
Qed.
Print Assumptions c58_reencrypt_sound.

(** ** Completeness: the listed conditions suffice (when hashing does not identify two members of the manifest set). *)
Theorem c58_reencrypt_complete : forall Y a seed ek sk e share role cose d ekr plain c, let m := env_manifest e in
  personal_key Y (pa_secret a) seed ek sk -> envelope_in (pa_envelope a) e -> pa_share a = Some share -> first_line_is (pa_pcr3 a) role ->
  pa_doc a = Some cose -> genuine Y cose (pa_now a) d m role -> recipient Y (pa_eph_override a) d ekr ->
  directory_set Y (pa_manifest_set a) (threshold (vm_manifest_set m)) (members (vm_manifest_set m)) ->
  (forall m1 m2, In m1 (members (vm_manifest_set m)) -> In m2 (members (vm_manifest_set m)) -> member_hash Y m1 = member_hash Y m2 -> m1 = m2) ->
  approved Y (vm_manifest_set m) (manifest_hash Y m) (env_manifest_approvals e) ->
  In (QuorumMember (pa_alias a) (ek ++ sk)) (members (vm_share_set m)) ->
  (pa_auto a = false -> all_confirmed 4 (pa_stdin a)) ->
  s_decrypt Y seed share = Ok plain -> s_encrypt Y ekr (pa_rng a) plain = Ok c ->
  exists asked, proxy_re_encrypt_share Y a =
    (asked, Some (write (jser js_approval (Approval (s_sign Y seed (manifest_hash Y m)) (QuorumMember (pa_alias a) (ek ++ sk)))), c)).
Proof.
  intros Y a seed ek sk e share role cose d ekr plain c m PK RE RS RR RC GE RX GM HI AP Mem AC Dc En.
  assert (CA : check_approvals Y e = Ok tt) by (now apply check_complete).
  assert (X : exists skr, proxy_inner (Y:=Y) a = Some (seed, (ek, sk), e, share, role, (ekr, skr), QuorumMember (pa_alias a) (ek ++ sk))).
  { apply proxy_inner_iff. split; [exact PK|]. split; [exact RE|]. split; [exact RS|]. split; [exact RR|]. split.
    - exists cose, d. split; [exact RC|]. split; [|exact RX]. destruct (pa_skip a); [apply (ge_doc _ _ _ _ _ _ GE)|exact GE].
    - split; [reflexivity|]. split; [exact Mem|]. split; [exact GM|exact CA]. }
  destruct X as (skr & X). rewrite proxy_unfold, X.
  assert (Z : exists asked, (if pa_auto a then ([], true) else ask_all (proxy_questions e role) (pa_stdin a)) = (asked, true)).
  { destruct (pa_auto a); [now exists []|]. exists (proxy_questions e role). apply ask_all_true. split; [reflexivity|]. apply AC. reflexivity. }
  destruct Z as (asked & Z). exists asked. rewrite Z. cbn [negb fst]. rewrite Dc. cbn [ok_opt obind]. rewrite En. reflexivity.
Qed.
Print Assumptions c58_reencrypt_complete.

(** ** What is posted.  Without "unsafe" flags the two files make an honest provision request for the enclave whose
    key the document carries. *)
Theorem c58_honest_request : forall Y a asked text c, sys_ok Y -> crypto_ok Y -> (forall seed x, length (s_sign Y seed x) = 64%nat) ->
  utf8_valid (pa_alias a) = true -> pa_eph_override a = None ->
  proxy_re_encrypt_share Y a = (asked, Some (text, c)) ->
  exists e d plain k ek sk r, envelope_in (pa_envelope a) e /\ (exists cose, pa_doc a = Some cose /\ s_doc Y cose = Some d)
    /\ (exists seed, (exists pe ps, personal_key Y (pa_secret a) seed pe ps) /\ (forall share, pa_share a = Some share -> s_decrypt Y seed share = Ok plain))
    /\ ad_public_key d = Some k /\ has_keys Y (QuorumMember [] k) ek sk
    /\ share_request (Some c) (Some text) = Some r /\ honest_share Y (env_manifest e) ek plain r.
Proof.
  intros Y a asked text c OK CR SL UA NO H. pose proof H as H0. rewrite proxy_unfold in H0.
  destruct (proxy_inner a) as [[[[[[[seed [ek sk]] e] share] role] [ekr skr]] mem]|] eqn:E; [|discriminate].
  pose proof (proj1 (proxy_inner_iff a seed ek sk e share role ekr mem) (ex_intro _ skr E)) as (PK & RE & RS & RR & (cose & d & RC & GE & RX) & -> & Mem & GM & CA).
  clear H. destruct (if pa_auto a then ([], true) else ask_all (proxy_questions e role) (pa_stdin a)) as [l ok]. destruct ok; cbn [negb] in H0; [|congruence].
  assert (O : (let? plain := ok_opt (s_decrypt Y seed share) in
            let? c := ok_opt (s_encrypt Y ekr (pa_rng a) plain) in
            Some (write (jser js_approval (Approval (s_sign Y seed (manifest_hash Y (env_manifest e))) (QuorumMember (pa_alias a) (ek ++ sk)))), c)) = Some (text, c)).
  { cbn [fst] in H0. congruence. }
  clear H0. apply obind_some in O as (plain & Dc & O). apply ok_opt_some in Dc. apply obind_some in O as (c' & En & O). apply ok_opt_some in En.
  assert (c' = c) as -> by congruence. rewrite NO in RX. destruct RX as (k & skx & K & HK).
  set (ap := Approval (s_sign Y seed (manifest_hash Y (env_manifest e))) (QuorumMember (pa_alias a) (ek ++ sk))) in *.
  assert (text = write (jser js_approval ap)) as -> by congruence. pose proof PK as (cc & _ & _ & P). destruct (ok_pair Y OK _ _ _ P) as (L1 & L2 & _).
  assert (RB : json_from_slice js_approval (write (jser js_approval ap)) = Some ap).
  { apply approval_reads. unfold portable, ap. cbn [ap_member m_alias m_pub_key ap_signature]. split; [exact UA|].
    rewrite !lenN_length, app_length, L1, L2, SL. split; reflexivity. }
  exists e, d, plain, k, ekr, skx, (ProvisionRequest c ap). split; [exact RE|]. split.
  { exists cose. split; [exact RC|]. destruct (pa_skip a); [exact GE|apply (ge_doc _ _ _ _ _ _ GE)]. }
  split; [exists seed; split; [now exists ek, sk|]; intros sh Es; congruence|]. split; [exact K|]. split; [exact HK|]. split.
  { unfold share_request. cbn [obind]. rewrite RB. reflexivity. }
  exists c, ap, (pa_rng a). split; [reflexivity|]. split; [exact En|]. split; [exact Mem|].
  exists ek, sk. split; [now apply (pair_has_keys OK seed)|]. exact (cr_verify Y CR seed ek sk _ P).
Qed.
Print Assumptions c58_honest_request.

(** ** From the share holders' commands to a provisioned enclave *)
(** [r] is what a share holder posts for [share] after running the command, without an "unsafe" recipient, on an
    envelope of [m] and a document that carries the key [k]. *)
Definition holder_posts (Y : sys) (m : versioned_manifest) (k share : bytes) (r : msg) : Prop :=
  exists a asked text c e cose d, proxy_re_encrypt_share Y a = (asked, Some (text, c)) /\ share_request (Some c) (Some text) = Some r
    /\ pa_eph_override a = None /\ utf8_valid (pa_alias a) = true
    /\ envelope_in (pa_envelope a) e /\ env_manifest e = m
    /\ pa_doc a = Some cose /\ s_doc Y cose = Some d /\ ad_public_key d = Some k
    /\ exists seed pe ps sf, personal_key Y (pa_secret a) seed pe ps /\ pa_share a = Some sf /\ s_decrypt Y seed sf = Ok share.
Lemma holder_honest Y m ek sk share r : sys_ok Y -> crypto_ok Y -> (forall seed x, length (s_sign Y seed x) = 64%nat) ->
  length ek = 65%nat -> holder_posts Y m (ek ++ sk) share r -> honest_share Y m ek share r /\ wf_req r = true.
Proof.
  intros OK CR SL Le (a & asked & text & c & e & cose & d & H & SR & NO & UA & (ce & Ee & De) & Em & RC & Dd & Kd & seed & pe & ps & sf & PK & SF & Dc).
  destruct (c58_honest_request Y a asked text c OK CR SL UA NO H) as (e' & d' & plain & k & ek' & sk' & r' & (ce' & Ee' & De') & (cose' & RC' & Dd')
    & (seed' & (pe' & ps' & PK') & SD) & K' & HK & SR' & HS).
  assert (r' = r) as -> by congruence. assert (cose' = cose) as -> by congruence. assert (d' = d) as -> by congruence.
  assert (e' = e) as -> by congruence. rewrite Em in HS. assert (k = ek ++ sk) as -> by congruence.
  apply read_pair_iff in PK, PK'. assert (seed' = seed) as -> by congruence. rewrite (SD sf SF) in Dc. assert (plain = share) as -> by congruence.
  destruct HK as (HE & Le' & _). cbn [m_pub_key] in HE.
  assert (ek' = ek) as -> by (apply app_inv_length in HE as [E _]; [now symmetry|congruence]). split; [exact HS|].
  unfold share_request in SR. cbn [obind] in SR. apply obind_some in SR as (ap & J & SR). assert (r = ProvisionRequest c ap) as -> by congruence.
  unfold wf_req. unfold json_from_slice in J. destruct (parse text) as [j|] eqn:PJ; [|discriminate]. eapply JsonSound.sound_approval; [|exact J].
  eapply JsonSound.parse_jtext; exact PJ.
Qed.
(** C54 with the requests that the client really makes. *)
Theorem c58_holders_provision_the_enclave : forall Y, sys_ok Y -> no_faults Y -> crypto_ok Y -> sharing_ok Y ->
  (forall seed x, length (s_sign Y seed x) = 64%nat) ->
  forall s r e pv a s', reach Y s -> wf_req r = true -> boot_of r = Some (e, pv) -> boot_target r = WaitingForQuorumShards ->
  handle Y r s = (a, s') -> is_error a = false ->
  exists setup, content (st_fs s') Eph = Some (encode setup) /\
  forall ek sk coeffs seed n shares chosen rs,
    s_pair Y setup = Some (ek, sk) ->
    let t := threshold (vm_share_set (env_manifest e)) in
    drawn_for seed t coeffs -> shares_generate coeffs seed n t = Some shares ->
    seed_for Y seed (ns_quorum_key (vm_namespace (env_manifest e))) ->
    incl chosen shares -> NoDup chosen -> lenN chosen = t ->
    Forall (fun q => is_provision q = false -> wf_req q = true) rs ->
    Forall2 (holder_posts Y (env_manifest e) (ek ++ sk)) chosen (filter is_provision rs) ->
    st_phase (snd (serve Y rs s')) = QuorumKeyProvisioned
    /\ content (st_fs (snd (serve Y rs s'))) Quorum = Some (encode seed)
    /\ map snd (filter (fun p => is_provision (fst p)) (combine rs (fst (serve Y rs s'))))
       = repeat (ProvisionResponse false) (N.to_nat t - 1) ++ [ProvisionResponse true].
Proof.
  intros Y OK NF CR SH SL s r e pv a s' R Wr B T H N.
  destruct (c54_honest_provisioning_completes Y OK NF CR SH s r e pv a s' R Wr B T H N) as (setup & Ep & C). exists setup. split; [exact Ep|].
  intros ek sk coeffs seed n shares chosen rs Pk t D G SF Inc ND K W F. destruct (ok_pair Y OK _ _ _ Pk) as (Le & _).
  assert (F' : Forall2 (honest_share Y (env_manifest e) ek) chosen (filter is_provision rs) /\ Forall (fun q => wf_req q = true) (filter is_provision rs)).
  { clear - F OK CR SL Le. induction F as [|x y l l' H F [IH1 IH2]]; [split; constructor|].
    destruct (holder_honest Y _ ek sk x y OK CR SL Le H) as [A1 A2]. split; constructor; assumption. }
  destruct F' as [F1 F2]. apply (C ek sk coeffs seed n shares chosen rs Pk D G SF Inc ND K); [|exact F1].
  apply Forall_forall. intros q I. rewrite Forall_forall in W, F2. destruct (is_provision q) eqn:Q; [|now apply W]. apply F2. apply filter_In. now split.
Qed.
Print Assumptions c58_holders_provision_the_enclave.

(** A holder's run against a document of a toy enclave, all checks on. *)
Definition h_m : versioned_manifest := VM2 (op_manifest []).
Definition h_mh : bytes := manifest_hash TS h_m.
Definition h_approve (seed : bytes) (who : quorum_member) : approval := Approval (toy_sign seed h_mh) who.
Definition h_env : versioned_envelope := VE2 (ManifestEnvelopeV2 (op_manifest []) [h_approve seed_c carol; h_approve seed_a alice] []).
Definition h_pk : bytes := pub_of (setup_seed 0).
Definition h_cose : bytes := h_mh ++ h_pk ++ committed_value TS Setup h_mh h_pk ++ zeros48.
Definition h_share : bytes := nth 1 l_shares [].
Definition h_args : proxy_args :=
  ProxyArgs (Some (encode seed_a)) (Some (seed_a ++ h_share)) (Some h_cose) op_role (envelope_to_storage_vec h_env) op_mset (bs "alice") false None
    false (yes_yes 4) 1000 [].
Example c58_nontrivial :
  (exists asked text c, proxy_re_encrypt_share TS h_args = (asked, Some (text, c)) /\ length asked = 4%nat
     /\ nth_error asked 3 = Some (QApprovers [bs "alice"; bs "carol"]) /\ c = setup_seed 0 ++ h_share)
  /\ (exists r, holder_posts TS h_m h_pk h_share r)
  /\ snd (proxy_re_encrypt_share TS (ProxyArgs (Some (encode seed_c)) (Some (seed_c ++ h_share)) (Some h_cose) op_role (envelope_to_storage_vec h_env) op_mset (bs "carol")
            false None false (yes_yes 4) 1000 [])) = None.
Proof.
  split; [eexists _, _, _; split; [vm_compute; reflexivity|split; [vm_compute; reflexivity|split; vm_compute; reflexivity]]|].
  split; [|vm_compute; reflexivity].
  eexists. exists h_args. eexists _, _, _, h_env, h_cose, _.
  split; [vm_compute; reflexivity|]. split; [vm_compute; reflexivity|]. split; [reflexivity|]. split; [vm_compute; reflexivity|].
  split. { destruct (envelope_storage h_env ltac:(vm_compute; reflexivity)) as (b & S & D). exists b. split; [exact S|exact D]. }
  split; [reflexivity|]. split; [reflexivity|]. split; [vm_compute; reflexivity|]. split; [vm_compute; reflexivity|].
  eexists seed_a, _, _, _. split; [eexists; split; [reflexivity|split; vm_compute; reflexivity]|]. split; [reflexivity|]. vm_compute. reflexivity.
Qed.
