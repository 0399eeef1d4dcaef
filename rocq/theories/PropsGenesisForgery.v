(** C59, the limit of the client's check: a boot attestation passes as a genesis
    attestation. *)
From Coq Require Import ZifyBool ZifyN ZifyNat.
From Verif Require Import Base Utf8 Hex HexProofs Borsh BorshProofs Json Types TypesBorsh TypesJson StorageProofs MsgBorsh Msg World Run FsProofs Attest Services
  ServiceProofs BootProofs State SpecProtocol HandleProofs Reach Invariant ProtocolProofs
  SpecApproval ApprovalProofs SpecAttest AttestProofs SpecHistory SpecExport ExportProofs Shamir ShamirProofs PropsShamir
  SpecGenesis PropsGenesis PropsDocs CalmProofs PropsBoot
  Client SpecClient ClientProofs ClientSets ClientFiles ClientApprove CodecExamples Toy ToyRuns ToyClient PropsClient PropsApprove PropsReencrypt PropsGenesisClient.
Local Open Scope N_scope.

(** Four members; the attacker's seed, and an output that shares it among them. *)
Definition seed_d : bytes := repeat x0d 32.
Definition dave := QuorumMember (bs "dave") (pub_of seed_d).
Definition fset : genesis_set := GenesisSet [alice; bob; carol; dave] 2.
Definition fset_dir : list (bytes * option bytes) :=
  [key_file "bob" seed_b; threshold_file "2"; key_file "alice" seed_a; key_file "dave" seed_d; key_file "carol" seed_c].
Definition fseed : bytes := repeat x66 32.
Definition fshares : list bytes := match s_split TS (repeat x01 32) fseed 4 2 with Some l => l | None => [] end.
Definition sealed (to msg : bytes) : bytes := match s_encrypt TS (firstn 65 to) [] msg with Ok c => c | Err _ => [] end.
Definition fouts : list genesis_member_output :=
  map (fun p => GenesisMemberOutput (fst p) (sealed (m_pub_key (fst p)) (snd p)) (s_sha512 TS (snd p))) (combine (gs_members fset) fshares).
Definition fout (msg : bytes) : genesis_output :=
  GenesisOutput fset None (pub_of fseed) fouts [] None (s_sha512 TS (encode fseed)) (sealed (pub_of fseed) msg) (s_sign TS fseed msg) msg.
(** The rest of the attacker's manifest: the pivot and a manifest set of one. *)
Definition mallory := QuorumMember (bs "mallory") (pub_of (repeat x4d 32)).
Definition fpivot := PivotConfig (toy_hash 32 pivot) Never [] false [bs "x"].
Definition fms := MemberSet 1 [mallory].
Definition fps := PatchSet 0 [].
Definition frest : bytes := enc c_pivot fpivot ++ enc c_member_set fms ++ enc c_member_set fms ++ enc c_nitro ex_nitro ++ enc c_patch_set fps.
Definition fmsg : bytes := repeat x00 (N.to_nat 15409) ++ frest.
(** What the coordinator is shown, and the manifest that the attacker boots. *)
Definition forged : genesis_output := fout fmsg.
Definition ftext : bytes := enc c_genesis_output forged.
Definition fmanifest : manifest :=
  Manifest (Namespace (firstn 4 (skipn 4 ftext)) (le_dec (firstn 4 (skipn 8 ftext))) (firstn (N.to_nat 33381) (skipn 16 ftext)))
    fpivot fms fms ex_nitro fps.
Definition fenv : versioned_envelope :=
  VE1 (ManifestEnvelope fmanifest [Approval (s_sign TS (repeat x4d 32) (manifest_hash TS (VM1 fmanifest))) mallory] []).
(** One byte string is the encoding of both. *)
Lemma forged_same_text : manifest_preimage (VM1 fmanifest) = enc c_genesis_output forged.
Proof. apply bytes_eqb_eq. vm_compute. reflexivity. Qed.
Lemma fenv_wf : wf_envelope fenv = true. Proof. vm_compute. reflexivity. Qed.
Lemma fenv_approved : check_approvals TS fenv = Ok tt. Proof. vm_compute. reflexivity. Qed.
Lemma forged_file : output_file (Some (enc c_genesis_output forged)) forged.
Proof. exists (enc c_genesis_output forged). split; [reflexivity|]. vm_compute. reflexivity. Qed.

(** The toy device, as one of [TS]. *)
Definition ts_device : device TS :=
  Device TS 32 toy_pcr (fun n _ => tn_locked n) (fun n => length (tn_16 n) = 48%nat /\ length (tn_17 n) = 48%nat) (fun _ => True).
Lemma ts_works : working ts_device.
Proof.
  destruct (toy_works calm 0) as [A B C D E F]. constructor; [exact A|exact B|exact C|exact D|exact E|exact F].
Qed.
Lemma op_release : release_pcrs op_pcrs (pcr0 ex_nitro) (pcr1 ex_nitro) (pcr2 ex_nitro).
Proof. apply pcrs_file_iff. vm_compute. reflexivity. Qed.
Lemma op_first_line : first_line_is op_role (repeat x06 48).
Proof. apply find_pcr3_iff. vm_compute. reflexivity. Qed.
Lemma TS_ok : sys_ok TS. Proof. apply shamir_ok, toy_ok. Qed.
Lemma TS_crypto : crypto_ok TS. Proof. apply shamir_crypto, toy_crypto. Qed.
Lemma TS_seeds : forall n, s_pair TS (s_rng TS n) <> None.
Proof. intros n H. pose proof (ok_rng TS TS_ok n) as L. change (s_pair TS) with toy_pair in H. unfold toy_pair in H. rewrite L in H. discriminate. Qed.

Lemma fshares_length : length fshares = length (gs_members fset). Proof. vm_compute. reflexivity. Qed.
Lemma fouts_nodup : NoDup (map (fun o => m_alias (gm_member o)) fouts).
Proof.
  assert (E : map (fun o => m_alias (gm_member o)) fouts = [bs "alice"; bs "bob"; bs "carol"; bs "dave"]) by (vm_compute; reflexivity).
  rewrite E. repeat constructor; cbn; intuition discriminate.
Qed.

(** ** An enclave of the release, honestly following the protocol, boots a manifest
    written and approved by one person; its boot document makes the coordinator
    accept that person's own genesis output, makes every member take his share out
    of it and makes verify-genesis accept that person's seed - and no ceremony has
    ever had this output.  No hash collides: the manifest's encoding is the
    output's encoding. *)
Theorem c59_boot_document_passes_for_genesis :
  sys_ok TS /\ crypto_ok TS /\ sharing_ok TS /\ no_faults TS /\ working ts_device
  /\ exists s r s' cose seed o, reach TS s /\ wf_req r = true /\ handle TS r s = (BootStandardResponse (RAttestation cose), s')
    /\ boot_of r = Some (fenv, pivot) /\ manifest_preimage (env_manifest fenv) = enc c_genesis_output o
    /\ get_genesis_set TS fset_dir = Some fset
    /\ genesis_accept TS fset None (BootGenesisResponse (RAttestation cose) o) op_pcrs op_role false 0 = Some (o, cose)
    /\ (forall i m own, nth_error (gs_members fset) i = Some m -> seed_for TS own (m_pub_key m) ->
          exists c share, after_genesis TS (Some (encode own)) (m_alias m) (Some (enc c_genesis_output o)) (Some cose) op_pcrs op_role false 0 = Some c
            /\ s_decrypt TS own c = Ok share /\ nth_error fshares i = Some share)
    /\ seed_for TS seed (go_quorum_key o) /\ verify_genesis TS (Some (enc c_genesis_output o)) (Some (encode seed)) = Some tt
    /\ forall x, ~ ceremony TS o x.
Proof.
  split; [exact TS_ok|]. split; [exact TS_crypto|]. split; [apply shamir_sharing|]. split; [intros n; reflexivity|]. split; [exact ts_works|].
  assert (NF : no_faults TS) by (intros n; reflexivity).
  destruct (c64_approved_boot_succeeds TS ts_device TS_ok NF ts_works TS_seeds gs0 (BootStandardJsonEnvelopeRequest fenv pivot) fenv pivot)
    as (cose & d & s' & setup & ek & sk & H & _ & (A1 & A2 & A3 & A4) & M & _).
  { reflexivity. } { exact fenv_wf. } { reflexivity. } { reflexivity. } { reflexivity. } { reflexivity. }
  { split; [split; reflexivity|]. intros i [->| ->]; split; reflexivity. }
  { exact fenv_approved. } { reflexivity. } { vm_compute; reflexivity. }
  exists gs0, (BootStandardJsonEnvelopeRequest fenv pivot), s', cose, fseed, forged.
  split; [apply R_init; reflexivity|]. split; [exact fenv_wf|]. split; [exact H|]. split; [reflexivity|]. split; [exact forged_same_text|].
  split; [vm_compute; reflexivity|].
  assert (EN : endorses TS op_pcrs op_role cose 0 forged).
  { exists d, (pcr0 ex_nitro), (pcr1 ex_nitro), (pcr2 ex_nitro), (repeat x06 48). split; [exact op_release|]. split; [exact op_first_line|].
    split; [exact A1|]. split; [exact A2|]. split; [exact (A4 0 I)|]. split; [exact A3|].
    replace (output_hash TS forged) with (manifest_hash TS (env_manifest fenv)).
    2:{ exact (f_equal (s_sha256 TS) forged_same_text). }
    replace (s_sha384 TS (repeat x00 48 ++ repeat x06 48)) with (pcr3 ex_nitro) by (vm_compute; reflexivity). exact M. }
  split; [|split; [|split; [|split]]].
  - apply c59_accept_iff. split; [reflexivity|]. split; [reflexivity|]. split; [reflexivity|].
    split; [exists (firstn 65 (pub_of fseed)), (skipn 65 (pub_of fseed)); apply public_keys; vm_compute; reflexivity|].
    split; [reflexivity|]. split; [|exact EN]. intros mo I. change (In mo fouts) in I. apply in_map_iff in I as ([m sh] & <- & I). apply in_combine_l in I. exact I.
  - intros i m own Em (Lo & e & g & P & K).
    assert (X : exists mo share, nth_error fouts i = Some mo /\ nth_error fshares i = Some share /\ gm_member mo = m /\ gm_share mo = sealed (m_pub_key m) share
               /\ gm_share_hash mo = s_sha512 TS share).
    { assert (Hi : (i < length fshares)%nat). { assert (i < length (gs_members fset))%nat by (apply nth_error_Some; congruence). rewrite fshares_length. assumption. }
      destruct (nth_error fshares i) as [sh|] eqn:Es; [|apply nth_error_None in Es; lia].
      exists (GenesisMemberOutput m (sealed (m_pub_key m) sh) (s_sha512 TS sh)), sh. split; [|auto].
      unfold fouts. rewrite nth_error_map, (nth_error_combine _ _ _ _ _ Em Es). reflexivity. }
    destruct X as (mo & share & Emo & Es & Mm & Sh & Hs). exists (gm_share mo), share.
    assert (DC : s_decrypt TS own (gm_share mo) = Ok share).
    { destruct (ok_pair TS TS_ok _ _ _ P) as (Le & _). rewrite Sh, K. unfold sealed. rewrite <- Le, firstn_app, Nat.sub_diag, firstn_all, firstn_O, app_nil_r.
      destruct (s_encrypt TS e [] share) as [c|x] eqn:Ec; [|discriminate Ec]. exact (cr_decrypt TS TS_crypto _ _ _ _ _ _ P Ec). }
    split; [|split; [exact DC|exact Es]]. apply c59_after_iff. exists own, e, g, forged, cose, mo, share.
    split; [exists (encode own); split; [reflexivity|]; split; [now apply seed_of_hex_encode|exact P]|].
    split; [exact forged_file|]. split; [reflexivity|]. split; [exact EN|]. split; [|split; [reflexivity|split; [exact DC|now symmetry]]].
    change (go_member_outputs forged) with fouts. apply nth_error_split in Emo as Sp. destruct Sp as (b & af & El & Lb). exists b, af. split; [exact El|].
    assert (QuorumMember (m_alias m) (e ++ g) = m) as -> by (rewrite <- K; destruct m; reflexivity). split; [exact Mm|].
    apply Forall_forall. intros y I0 X. apply In_nth_error in I0 as (j & I0). assert (j < length b)%nat as Hj by (apply nth_error_Some; congruence).
    assert (Ej : nth_error fouts j = Some y) by (rewrite El, nth_error_app1 by lia; exact I0).
    assert (Q : nth_error (map (fun o => m_alias (gm_member o)) fouts) j = nth_error (map (fun o => m_alias (gm_member o)) fouts) i).
    { rewrite !nth_error_map, Ej, Emo. cbn. congruence. }
    assert (j = i); [|lia]. apply (NoDup_nth_error (map (fun o => m_alias (gm_member o)) fouts)); [|rewrite map_length; apply nth_error_Some; congruence|exact Q].
    exact fouts_nodup.
  - split; [reflexivity|]. exists (firstn 65 (pub_of fseed)), (skipn 65 (pub_of fseed)). split; [vm_compute; reflexivity|symmetry; apply firstn_skipn].
  - vm_compute. reflexivity.
  - intros x (s & set & dr & s1 & R & HH). apply (c40_genesis_output_faithful TS (shamir_sharing T)) in HH as (_ & _ & _ & (coeffs & F) & _).
    destruct F as (_ & _ & _ & _ & TM & _). apply (f_equal (hd x00)) in TM. vm_compute in TM. discriminate TM.
Qed.
Print Assumptions c59_boot_document_passes_for_genesis.

(** The hypotheses of the theorems about accepted outputs are met.  A system where
    only the document of the ceremony below is signed: *)
Definition with_sig (f : bytes -> bool) (Y : sys) : sys := {|
  s_nsm := s_nsm Y; s_nsm_step := s_nsm_step Y; s_nsm_time := s_nsm_time Y; s_root := s_root Y; s_sha256 := s_sha256 Y; s_sha384 := s_sha384 Y; s_sha512 := s_sha512 Y;
  s_point_ok := s_point_ok Y; s_pair := s_pair Y; s_sign := s_sign Y; s_verify := s_verify Y; s_encrypt := s_encrypt Y; s_decrypt := s_decrypt Y;
  s_combine := s_combine Y; s_split := s_split Y;
  s_doc := s_doc Y; s_chain_ok := s_chain_ok Y; s_cose_sig_ok := fun _ => f; s_rng := s_rng Y; s_io := s_io Y;
  s_version := s_version Y; s_commit := s_commit Y |}.
Definition gresult : option (bytes * genesis_output) :=
  match fst (handle TS (BootGenesisRequest gset None) gs0) with BootGenesisResponse (RAttestation c) o => Some (c, o) | _ => None end.
Definition gcose : bytes := match gresult with Some (c, _) => c | None => [] end.
Definition gout : genesis_output := match gresult with Some (_, o) => o | None => forged end.
Definition TG : sys := with_sig (bytes_eqb gcose) TS.
Definition gs1 : st TG := fresh TG (fun _ => None) toy_nsm0 0 0 [].
Definition gseed : bytes := s_rng TG 0.
Lemma gs1_ceremony : exists s', handle TG (BootGenesisRequest gset None) gs1 = (BootGenesisResponse (RAttestation gcose) gout, s').
Proof.
  destruct (handle TG (BootGenesisRequest gset None) gs1) as [a s'] eqn:E. exists s'. f_equal.
  change a with (fst (a, s')). rewrite <- E. vm_compute. reflexivity.
Qed.
Lemma TG_sharing : sharing_ok TG.
Proof. destruct (shamir_sharing T) as [A B]. constructor; [exact A|exact B]. Qed.
Example c59_nontrivial :
  sys_ok TG /\ crypto_ok TG /\ sharing_ok TG /\ vouched TG op_pcrs /\ endorses TG op_pcrs op_role gcose 0 gout
  /\ (exists d, s_doc TG gcose = Some d /\ ad_public_key d = None)
  /\ genesis_accept TG gset None (BootGenesisResponse (RAttestation gcose) gout) op_pcrs op_role false 0 = Some (gout, gcose)
  /\ is_some (after_genesis TG (Some (encode seed_b)) (bs "bob") (Some (enc c_genesis_output gout)) (Some gcose) op_pcrs op_role false 0) = true
  /\ verify_genesis TG (Some (enc c_genesis_output gout)) (Some (encode gseed)) = Some tt
  (* and these are refused *)
  /\ genesis_accept TG gset (Some (pub_of seed_q)) (BootGenesisResponse (RAttestation gcose) gout) op_pcrs op_role false 0 = None
  /\ genesis_accept TG gset None (BootGenesisResponse (RAttestation gcose) forged) op_pcrs op_role false 0 = None
  /\ after_genesis TG (Some (encode seed_d)) (bs "bob") (Some (enc c_genesis_output gout)) (Some gcose) op_pcrs op_role false 0 = None
  /\ verify_genesis TG (Some (enc c_genesis_output gout)) (Some (encode fseed)) = None.
Proof.
  assert (OK : sys_ok TG) by (destruct TS_ok; constructor; assumption).
  split; [exact OK|]. split; [destruct TS_crypto; constructor; assumption|]. split; [exact TG_sharing|].
  assert (AC : genesis_accept TG gset None (BootGenesisResponse (RAttestation gcose) gout) op_pcrs op_role false 0 = Some (gout, gcose)) by (vm_compute; reflexivity).
  split.
  { intros cose d now p0 p1 p2 _ D _ S _ _ _. change (bytes_eqb gcose cose = true) in S. apply bytes_eqb_eq in S. subst cose.
    destruct gs1_ceremony as (s' & H). destruct (c40_genesis_output_faithful TG TG_sharing _ _ _ _ _ _ H) as (_ & _ & _ & _ & _ & (n & _ & TR)).
    exists s'. split. { pose proof (R_step TG gs1 (BootGenesisRequest gset None)) as R. rewrite H in R. apply R; [apply R_init; reflexivity|reflexivity]. }
    eexists. split; [rewrite TR; left; reflexivity|]. cbn [en_ev].
    assert (X : match s_doc TG gcose with Some d => (ad_user_data d, ad_nonce d, ad_public_key d) | None => (None, None, None) end
                = (Some (s_sha256 TG (enc c_genesis_output gout)), None, None)) by (vm_compute; reflexivity).
    rewrite D in X. injection X as X1 X2 X3. rewrite X1, X2, X3. reflexivity. }
  split; [apply c59_accept_iff in AC; apply AC|]. split; [eexists; split; [vm_compute; reflexivity|reflexivity]|]. split; [exact AC|].
  split; [vm_compute; reflexivity|]. split; [vm_compute; reflexivity|]. split; [vm_compute; reflexivity|]. split; [vm_compute; reflexivity|].
  split; vm_compute; reflexivity.
Qed.
(** And those of the theorem about honest ceremonies. *)
Example c59_honest_nontrivial : sys_ok TS /\ crypto_ok TS /\ sharing_ok TS /\ working ts_device /\ dv_good ts_device (st_nsm gs0)
  /\ (exists s', handle TS (BootGenesisRequest gset None) gs0 = (BootGenesisResponse (RAttestation gcose) gout, s'))
  /\ release_pcrs op_pcrs (dv_pcr ts_device (st_nsm gs0) 0) (dv_pcr ts_device (st_nsm gs0) 1) (dv_pcr ts_device (st_nsm gs0) 2)
  /\ first_line_is op_role (repeat x06 48) /\ dv_pcr ts_device (st_nsm gs0) 3 = s_sha384 TS (repeat x00 48 ++ repeat x06 48)
  /\ dv_valid ts_device 0 /\ output_file (Some (enc c_genesis_output gout)) gout /\ personal_key TS (Some (encode seed_b)) seed_b (firstn 65 (pub_of seed_b)) (skipn 65 (pub_of seed_b)).
Proof.
  split; [exact TS_ok|]. split; [exact TS_crypto|]. split; [apply shamir_sharing|]. split; [exact ts_works|]. split; [split; reflexivity|].
  split. { destruct (handle TS (BootGenesisRequest gset None) gs0) as [a s'] eqn:E. exists s'. f_equal. change a with (fst (a, s')). rewrite <- E. vm_compute. reflexivity. }
  split; [exact op_release|]. split; [exact op_first_line|]. split; [vm_compute; reflexivity|]. split; [exact I|].
  split; [exists (enc c_genesis_output gout); split; [reflexivity|vm_compute; reflexivity]|].
  exists (encode seed_b). split; [reflexivity|]. split; vm_compute; reflexivity.
Qed.
