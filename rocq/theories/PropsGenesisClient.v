(** C59: the client's side of the genesis ceremony. *)
From Coq Require Import ZifyBool ZifyN ZifyNat.
From Verif Require Import Base Utf8 Hex HexProofs Borsh BorshProofs Json Types TypesBorsh TypesJson StorageProofs MsgBorsh Msg World Run FsProofs Attest Services
  ServiceProofs BootProofs State SpecProtocol HandleProofs Reach Invariant ProtocolProofs
  SpecApproval ApprovalProofs SpecAttest AttestProofs SpecHistory SpecExport ExportProofs Shamir ShamirProofs PropsShamir
  SpecGenesis PropsGenesis PropsDocs CalmProofs PropsBoot
  Client SpecClient ClientProofs ClientSets ClientFiles ClientApprove CodecExamples Toy ToyRuns ToyClient PropsClient PropsApprove PropsReencrypt.
Local Open Scope N_scope.

(** *** Specification *)
(** The hash of a genesis output that is to be attested. *)
Definition output_hash (Y : sys) (o : genesis_output) : bytes := s_sha256 Y (enc c_genesis_output o).
(** [cose] is a document, signed under the pinned root certificate, of an enclave with the measurements in the release
    files and the IAM role of the organisation, about the genesis output [o]. *)
Definition endorses (Y : sys) (pcrs role_file : option bytes) (cose : bytes) (now : N) (o : genesis_output) : Prop :=
  exists d p0 p1 p2 role, release_pcrs pcrs p0 p1 p2 /\ first_line_is role_file role
    /\ s_doc Y cose = Some d /\ doc_syntax 32 d
    /\ s_chain_ok Y (tl (ad_cabundle d)) (s_root Y) (ad_certificate d) now = true /\ s_cose_sig_ok Y (ad_certificate d) cose = true
    /\ doc_matches d (output_hash Y o) p0 p1 p2 (s_sha384 Y (repeat x00 48 ++ role)).
Definition output_file (f : option bytes) (o : genesis_output) : Prop := exists c, f = Some c /\ from_slice c_genesis_output c = Some o.
(** The first output for the member with this alias and key. *)
Definition first_for (m : quorum_member) (l : list genesis_member_output) (o : genesis_member_output) : Prop :=
  exists before after, l = before ++ o :: after /\ gm_member o = m /\ Forall (fun x => gm_member x <> m) before.

Section C59.
  Context {Y : sys}.
  Lemma gset_eqb_eq a b : gset_eqb a b = true <-> a = b.
  Proof.
    unfold gset_eqb, members_eqb. rewrite Bool.andb_true_iff, N.eqb_eq, (list_eqb_true member_eqb member_eqb_eq). destruct a, b; cbn.
    split; [intros [-> ->]; reflexivity|intros H; inversion H; auto].
  Qed.
  Lemma opt_bytes_eqb_eq a b : option_eqb bytes_eqb a b = true <-> a = b.
  Proof. destruct a, b; cbn; rewrite ?bytes_eqb_eq; split; congruence. Qed.

  Lemma endorses_iff pcrs role cose now o :
    (exists d p0 p1 p2 p3, extract_attestation_doc Y cose false now = Some d /\ extract_qos_pcrs pcrs = Some (p0, p1, p2) /\ extract_pcr3 Y role = Some p3
       /\ is_ok (verify_user_input d (genesis_hash Y o) p0 p1 p2 p3) = true) <-> endorses Y pcrs role cose now o.
  Proof.
    unfold endorses, extract_attestation_doc, extract_pcr3, pcr3_from_preimage. split.
    - intros (d & p0 & p1 & p2 & p3 & A & B & C & E). apply obind_some in C as (r & C & Er). assert (p3 = s_sha384 Y (repeat x00 48 ++ r)) as -> by congruence.
      apply ok_opt_some, from_der_iff in A as (A1 & A2 & A3 & A4). apply pcrs_file_iff in B. apply find_pcr3_iff in C. apply is_ok_iff, user_input_iff in E.
      exists d, p0, p1, p2, r. split; [exact B|]. split; [exact C|]. split; [exact A1|]. split; [exact A2|]. split; [exact A3|]. split; [exact A4|exact E].
    - intros (d & p0 & p1 & p2 & r & B & C & A1 & A2 & A3 & A4 & E). exists d, p0, p1, p2, (s_sha384 Y (repeat x00 48 ++ r)).
      split; [apply ok_opt_some, from_der_iff; split; [exact A1|split; [exact A2|split; [exact A3|exact A4]]]|].
      split; [now apply pcrs_file_iff|]. apply find_pcr3_iff in C. rewrite C. split; [reflexivity|]. apply is_ok_iff. now apply user_input_iff.
  Qed.

  Lemma find_first m l o : find (fun mo => bytes_eqb (m_pub_key (gm_member mo)) (m_pub_key m) && bytes_eqb (m_alias (gm_member mo)) (m_alias m)) l = Some o
    <-> first_for m l o.
  Proof.
    assert (K : forall x, bytes_eqb (m_pub_key (gm_member x)) (m_pub_key m) && bytes_eqb (m_alias (gm_member x)) (m_alias m) = true <-> gm_member x = m).
    { intros x. rewrite Bool.andb_true_iff, !bytes_eqb_eq. destruct (gm_member x), m; cbn. split; [intros [-> ->]; reflexivity|intros H; inversion H; auto]. }
    induction l as [|x l IH]; cbn [find].
    - split; [discriminate|]. intros (b & a & E & _). destruct b; discriminate E.
    - destruct (bytes_eqb (m_pub_key (gm_member x)) (m_pub_key m) && bytes_eqb (m_alias (gm_member x)) (m_alias m)) eqn:E.
      + apply K in E. split.
        * intros H. assert (x = o) as -> by congruence. exists [], l. split; [reflexivity|]. split; [exact E|constructor].
        * intros (b & a & El & Eo & F). destruct b as [|y b]; cbn [app] in El; [congruence|]. inversion F; subst. congruence.
      + assert (NE : gm_member x <> m) by (intros X; apply K in X; congruence). rewrite IH. split.
        * intros (b & a & -> & Eo & F). exists (x :: b), a. split; [reflexivity|]. split; [exact Eo|now constructor].
        * intros (b & a & El & Eo & F). destruct b as [|y b]; cbn [app] in El; [exfalso; apply NE; congruence|]. exists b, a. split; [congruence|]. split; [exact Eo|].
          now inversion F.
  Qed.
  Lemma decode_pairs_length : forall k t b, (length t <= k)%nat -> Nat.even (length t) = true -> decode_pairs t = Ok b -> length t = (2 * length b)%nat.
  Proof.
    induction k as [|k IH]; intros t b' Hk Ev E.
    - destruct t; [|cbn in Hk; lia]. inversion E; reflexivity.
    - destruct t as [|a [|c t]]; cbn [decode_pairs] in E; [inversion E; reflexivity|discriminate Ev|].
      destruct (decode_pair a c); [|discriminate E]. destruct (decode_pairs t) as [l|] eqn:Et; [|discriminate E].
      inversion E; subst. cbn [length]. rewrite (IH t l); auto; cbn in Hk; lia.
  Qed.
  Lemma seed_length c seed : seed_of_hex c = Some seed -> length seed = 32%nat.
  Proof.
    unfold seed_of_hex. intros H. apply obind_some in H as (cs & _ & H). apply ok_opt_some in H. unfold decode_to_buf in H.
    destruct (utf8_enc (trim cs)) as [|x [|y l]]; [discriminate H|discriminate H|].
    set (t := strip_0x (x :: y :: l)) in *. destruct (N.even (lenN t)) eqn:Ev; cbn [negb] in H; [|discriminate H]. rewrite even_lenN in Ev.
    destruct (N.eqb_spec (lenN t / 2) 32) as [E|]; cbn [negb] in H; [|discriminate H].
    pose proof (decode_pairs_length _ _ _ (le_n _) Ev H) as L. rewrite lenN_length, L in E.
    rewrite Nat2N.inj_mul, N.mul_comm, N.div_mul in E by (cbn; lia). lia.
  Qed.
End C59.

(** ** What the coordinator accepts: exactly the outputs for the set and recovery key that were asked for, with as many
    member outputs as members, each for a member, and a valid quorum key, endorsed by an enclave of the release. *)
Theorem c59_accept_iff : forall Y set dr resp pcrs role now o cose,
  genesis_accept Y set dr resp pcrs role false now = Some (o, cose) <->
  resp = BootGenesisResponse (RAttestation cose) o /\ go_set o = set /\ go_dr_key o = dr
  /\ (exists ek sk, has_keys Y (QuorumMember [] (go_quorum_key o)) ek sk)
  /\ length (go_member_outputs o) = length (gs_members set) /\ (forall mo, In mo (go_member_outputs o) -> In (gm_member mo) (gs_members set))
  /\ endorses Y pcrs role cose now o.
Proof.
  intros Y set dr resp pcrs role now o cose. unfold genesis_accept. split.
  - destruct resp; try discriminate. match goal with |- match ?x with _ => _ end = _ -> _ => destruct x; try discriminate end.
    intros H. apply if_negb_some in H as [C H]. apply Bool.andb_true_iff in C as [C1 C2]. apply gset_eqb_eq in C1. apply opt_bytes_eqb_eq in C2.
    apply obind_some in H as ([ek sk] & K & H). apply ok_opt_some in K. apply obind_some in H as (d & Ed & H). apply obind_some in H as ([[p0 p1] p2] & Ep & H).
    apply if_negb_some in H as [L H]. apply if_negb_some in H as [M H]. apply obind_some in H as (p3 & E3 & H). apply if_some in H as [V H].
    match type of H with Some (?a, ?b) = _ => assert (a = o /\ b = cose) as [-> ->] by (split; congruence) end. clear H.
    split; [reflexivity|]. split; [exact C1|]. split; [exact C2|]. split; [exists ek, sk; now apply public_keys|].
    split; [rewrite !lenN_length in L; lia|]. split; [intros mo I; rewrite forallb_forall in M; apply memb_member_iff, M, I|].
    apply endorses_iff. exists d, p0, p1, p2, p3. auto.
  - intros (-> & A & B & (ek & sk & K) & L & M & E). apply endorses_iff in E as (d & p0 & p1 & p2 & p3 & Ed & Ep & E3 & V).
    replace (gset_eqb (go_set o) set) with true by (symmetry; now apply gset_eqb_eq).
    replace (option_eqb bytes_eqb (go_dr_key o) dr) with true by (symmetry; now apply opt_bytes_eqb_eq). cbn [andb negb].
    apply public_keys in K. cbn [m_pub_key] in K. rewrite K. cbn [ok_opt obind]. rewrite Ed. cbn [obind]. rewrite Ep. cbn [obind].
    replace (lenN (gs_members set) =? lenN (go_member_outputs o)) with true by (rewrite !lenN_length; lia). cbn [negb].
    replace (forallb _ _) with true by (symmetry; apply forallb_forall; intros mo I; apply memb_member_iff, M, I). cbn [negb].
    rewrite E3. cbn [obind]. now rewrite V.
Qed.
Print Assumptions c59_accept_iff.

(** ** What a member stores: the share for his alias and key in an endorsed output, and only if it opens to what its hash says. *)
Theorem c59_after_iff : forall Y secret alias output doc pcrs role now share,
  after_genesis Y secret alias output doc pcrs role false now = Some share <->
  exists seed ek sk o cose mo plain, personal_key Y secret seed ek sk /\ output_file output o /\ doc = Some cose /\ endorses Y pcrs role cose now o
    /\ first_for (QuorumMember alias (ek ++ sk)) (go_member_outputs o) mo /\ share = gm_share mo
    /\ s_decrypt Y seed share = Ok plain /\ s_sha512 Y plain = gm_share_hash mo.
Proof.
  intros Y secret alias output doc pcrs role now share. unfold after_genesis. split.
  - intros H. apply obind_some in H as ([seed [ek sk]] & K & H). apply obind_some in H as ([[p0 p1] p2] & Ep & H). apply obind_some in H as (cose & -> & H).
    apply obind_some in H as (d & Ed & H). apply obind_some in H as (c & -> & H). apply obind_some in H as (o & Eo & H). cbv zeta in H.
    apply obind_some in H as ([] & V & H). apply obind_some in V as (p3 & E3 & V). apply if_some in V as [V _].
    apply obind_some in H as (mo & F & H). apply obind_some in H as (plain & Dc & H). apply ok_opt_some in Dc. apply if_some in H as [Hs H].
    apply bytes_eqb_eq in Hs. assert (share = gm_share mo) as -> by congruence. cbn [fst snd] in *.
    exists seed, ek, sk, o, cose, mo, plain. split; [now apply read_pair_iff|]. split; [exists c; auto|]. split; [reflexivity|].
    split; [apply endorses_iff; exists d, p0, p1, p2, p3; auto|]. split; [exact (proj1 (find_first (QuorumMember alias (ek ++ sk)) _ _) F)|]. auto.
  - intros (seed & ek & sk & o & cose & mo & plain & K & (c & -> & Eo) & -> & E & F & -> & Dc & Hs).
    apply endorses_iff in E as (d & p0 & p1 & p2 & p3 & Ed & Ep & E3 & V). apply read_pair_iff in K. rewrite K. cbn [obind]. rewrite Ep. cbn [obind].
    rewrite Ed. cbn [obind]. rewrite Eo. cbn [obind]. rewrite E3. cbn [obind]. rewrite V. cbn [obind fst snd].
    apply (proj2 (find_first (QuorumMember alias (ek ++ sk)) _ _)) in F. cbn [m_pub_key m_alias] in F. unfold public_to_bytes. cbn [fst snd]. rewrite F. cbn [obind].
    rewrite Dc. cbn [ok_opt obind]. now rewrite (proj2 (bytes_eqb_eq _ _) Hs).
Qed.
Print Assumptions c59_after_iff.

(** ** What verify-genesis accepts as the seed. *)
Theorem c59_verify_iff : forall Y output seed_file, verify_genesis Y output seed_file = Some tt <->
  exists o seed ek sk, output_file output o /\ seed_file = Some (encode seed) /\ length seed = 32%nat /\ s_pair Y seed = Some (ek, sk)
    /\ s_sha512 Y (encode seed) = go_quorum_key_hash o
    /\ s_verify Y sk (go_test_message o) (go_test_signature o) = true /\ s_sign Y seed (go_test_message o) = go_test_signature o
    /\ s_decrypt Y seed (go_test_ciphertext o) = Ok (go_test_message o).
Proof.
  intros Y output seed_file. unfold verify_genesis. split.
  - intros H. apply obind_some in H as (c & -> & H). apply obind_some in H as (o & Eo & H). apply obind_some in H as (hex & -> & H).
    apply if_negb_some in H as [U H]. apply obind_some in H as ([seed [ek sk]] & K & H). cbn [fst snd] in H.
    apply if_negb_some in H as [A H]. apply bytes_eqb_eq in A. subst hex. apply if_negb_some in H as [B H]. apply bytes_eqb_eq in B.
    apply if_negb_some in H as [C H]. apply if_negb_some in H as [D H]. apply bytes_eqb_eq in D. apply obind_some in H as (plain & Dc & H).
    apply ok_opt_some in Dc. apply if_some in H as [E _]. apply bytes_eqb_eq in E. subst plain.
    apply read_pair_iff in K as (c' & Ec & Sd & P). assert (c' = encode seed) as -> by congruence.
    exists o, seed, ek, sk. split; [exists c; auto|]. split; [reflexivity|]. split.
    { exact (seed_length _ _ Sd). }
    split; [exact P|]. auto.
  - intros (o & seed & ek & sk & (c & -> & Eo) & -> & L & P & A & B & C & D). cbn [obind]. rewrite Eo. cbn [obind].
    assert (Sd : seed_of_hex (encode seed) = Some seed) by (now apply seed_of_hex_encode).
    replace (utf8_valid (encode seed)) with true by (symmetry; apply ascii_valid, encode_ascii). cbn [negb].
    assert (K : read_pair Y (Some (encode seed)) = Some (seed, (ek, sk))) by (apply read_pair_iff; exists (encode seed); auto). rewrite K. cbn [obind fst snd].
    rewrite bytes_eqb_refl. cbn [negb]. rewrite (proj2 (bytes_eqb_eq _ _) A). cbn [negb]. rewrite B. cbn [negb]. rewrite (proj2 (bytes_eqb_eq _ _) C). cbn [negb].
    rewrite D. cbn [ok_opt obind]. now rewrite bytes_eqb_refl.
Qed.
Print Assumptions c59_verify_iff.

Lemma member_dec (a b : quorum_member) : {a = b} + {a <> b}. Proof. decide equality; apply bytes_dec. Qed.
Lemma gout_dec (a b : genesis_output) : {a = b} + {a <> b}.
Proof.
  assert (MS : forall x y : member_shard, {x = y} + {x <> y}) by (decide equality; [apply bytes_dec|apply member_dec]).
  assert (MO : forall x y : genesis_member_output, {x = y} + {x <> y}) by (decide equality; [apply bytes_dec|apply bytes_dec|apply member_dec]).
  assert (GS : forall x y : genesis_set, {x = y} + {x <> y}) by (decide equality; [apply N.eq_dec|apply list_eq_dec, member_dec]).
  assert (OB : forall x y : option bytes, {x = y} + {x <> y}) by (decide equality; apply bytes_dec).
  decide equality; first [apply bytes_dec|apply OB|apply GS|apply list_eq_dec, MO|apply list_eq_dec, list_eq_dec, MS].
Qed.

(** ** What an accepted output is worth.  Suppose documents with the release's
    measurements come only from enclaves of this release ([vouched]).  Then an
    accepted output is the answer of a ceremony of such an enclave - unless another
    output has its hash, or the document was made for an enclave's boot or live
    attestation and the hash of that enclave's manifest is the hash of the output. *)
Definition vouched (Y : sys) (pcrs : option bytes) : Prop := forall cose d now p0 p1 p2, release_pcrs pcrs p0 p1 p2 ->
  s_doc Y cose = Some d -> s_chain_ok Y (tl (ad_cabundle d)) (s_root Y) (ad_certificate d) now = true -> s_cose_sig_ok Y (ad_certificate d) cose = true ->
  pcr_is d 0 p0 -> pcr_is d 1 p1 -> pcr_is d 2 p2 ->
  exists s, reach Y s /\ said Y (st_trace s) (Attestation (ad_user_data d) (ad_nonce d) (ad_public_key d)) (RAttestation cose).
Theorem c59_endorsed_is_a_ceremony : forall Y, sys_ok Y -> forall pcrs role cose now o, vouched Y pcrs -> endorses Y pcrs role cose now o ->
  ceremony Y o (RAttestation cose)
  \/ (exists o', ceremony Y o' (RAttestation cose) /\ output_hash Y o' = output_hash Y o /\ o' <> o)
  \/ (exists s x e k d, reach Y s /\ In x (st_trace s) /\ stored (en_fs x) e /\ manifest_hash Y (env_manifest e) = output_hash Y o
        /\ s_doc Y cose = Some d /\ ad_public_key d = Some k).
Proof.
  intros Y OK pcrs role cose now o V (d & p0 & p1 & p2 & r & B & C & A1 & A2 & A3 & A4 & (U & NO & P0 & P1 & P2 & P3)).
  destruct (V cose d now p0 p1 p2 B A1 A3 A4 P0 P1 P2) as (s & R & (x & I & E)).
  destruct (c55_only_own_requests Y OK s x _ _ R I E eq_refl) as [(e & c & seed & ek & sk & ST & _ & _ & _ & Q)|(o' & Q & CE)].
  - right. right. exists s, x, e, (ek ++ sk), d. split; [exact R|]. split; [exact I|]. split; [exact ST|].
    assert (Some (manifest_hash Y (env_manifest e)) = Some (output_hash Y o)) as X by congruence. split; [congruence|]. split; [exact A1|].
    assert (K : ad_public_key d = Some (ek ++ sk)) by (injection Q; intros; assumption). exact K.
  - unfold PropsDocs.genesis_request in Q. assert (output_hash Y o' = output_hash Y o) as X by (unfold output_hash in *; congruence).
    destruct (gout_dec o' o) as [->|NE]; [left; exact CE|right; left; exists o'; auto].
Qed.
Print Assumptions c59_endorsed_is_a_ceremony.

(** In particular, if the document carries no ephemeral key - which the client does
    not check - only a collision of SHA-256 can stand against it. *)
Theorem c59_keyless_document_is_a_ceremony : forall Y, sys_ok Y -> forall pcrs role cose now o d, vouched Y pcrs -> endorses Y pcrs role cose now o ->
  s_doc Y cose = Some d -> ad_public_key d = None ->
  ceremony Y o (RAttestation cose) \/ exists o', ceremony Y o' (RAttestation cose) /\ output_hash Y o' = output_hash Y o /\ o' <> o.
Proof.
  intros Y OK pcrs role cose now o d V E D K. destruct (c59_endorsed_is_a_ceremony Y OK _ _ _ _ _ V E) as [C|[C|(s & x & e & k & d' & _ & _ & _ & _ & D' & K')]]; auto.
  exfalso. congruence.
Qed.
Print Assumptions c59_keyless_document_is_a_ceremony.

(** ** An honest ceremony on a working device is accepted, every member can take
    his share out, and the genesis seed - and, short of a collision of SHA-512, no
    other file - passes verify-genesis. *)
Theorem c59_honest_ceremony_accepted : forall Y (D : device Y), sys_ok Y -> crypto_ok Y -> sharing_ok Y -> working D ->
  forall set dr s x o s' pcrs role_file role output,
  handle Y (BootGenesisRequest set dr) s = (BootGenesisResponse x o, s') -> dv_good D (st_nsm s) ->
  release_pcrs pcrs (dv_pcr D (st_nsm s) 0) (dv_pcr D (st_nsm s) 1) (dv_pcr D (st_nsm s) 2) ->
  first_line_is role_file role -> dv_pcr D (st_nsm s) 3 = s_sha384 Y (repeat x00 48 ++ role) -> output_file output o ->
  exists cose seed shares, x = RAttestation cose /\ seed_for Y seed (go_quorum_key o)
  /\ (exists coeffs, drawn_for seed (gs_threshold set) coeffs /\ shares_generate coeffs seed (lenN (gs_members set)) (gs_threshold set) = Some shares)
  /\ length shares = length (gs_members set)
  /\ (forall now, dv_valid D now -> genesis_accept Y set dr (BootGenesisResponse x o) pcrs role_file false now = Some (o, cose))
  /\ (forall now i m secret own ek sk, dv_valid D now -> nth_error (gs_members set) i = Some m -> personal_key Y secret own ek sk -> m_pub_key m = ek ++ sk ->
        exists c, after_genesis Y secret (m_alias m) output (Some cose) pcrs role_file false now = Some c /\ s_decrypt Y own c = Ok (nth i shares []))
  /\ (forall l, incl l shares -> NoDup l -> gs_threshold set <= lenN l -> s_combine Y l = Some seed)
  /\ verify_genesis Y output (Some (encode seed)) = Some tt
  /\ (forall f, verify_genesis Y output f = Some tt -> f = Some (encode seed) \/ exists t, f = Some t /\ t <> encode seed /\ s_sha512 Y t = s_sha512 Y (encode seed)).
Proof.
  intros Y D OK CR SH WK set dr s x o s' pcrs role_file role output H Gd RP RL P3 OF.
  destruct (c40_genesis_output_faithful Y SH _ _ _ _ _ _ H) as (_ & _ & PM & (coeffs & F) & _ & (n & N & _)).
  destruct F as (F1 & F2 & (ek & sk & rnd & SP & QK & TC) & SG & TM & QH & (shares & Dr & G & LO & EACH) & DR).
  set (seed := s_rng Y (st_rngc s)) in *. destruct (ok_pair Y OK _ _ _ SP) as (Le & Ls & O1 & O2).
  destruct (wk_attest D WK (st_nsm s) (output_hash Y o) None Gd) as (cose & d & n' & E & _ & AU & UD & NO & PK & RG).
  { apply (ok_sha256 Y OK). } { discriminate. }
  assert (x = RAttestation cose) as -> by (pose proof (eq_trans (eq_sym N) E) as X; injection X; auto).
  assert (EN : forall now, dv_valid D now -> endorses Y pcrs role_file cose now o).
  { intros now VA. destruct AU as (A1 & A2 & A3 & A4). exists d, (dv_pcr D (st_nsm s) 0), (dv_pcr D (st_nsm s) 1), (dv_pcr D (st_nsm s) 2), role.
    split; [exact RP|]. split; [exact RL|]. split; [exact A1|]. split; [exact A2|]. split; [exact (A4 now VA)|]. split; [exact A3|].
    split; [exact UD|]. split; [exact NO|]. rewrite <- P3. split; [apply RG; lia|]. split; [apply RG; lia|]. split; [apply RG; lia|]. apply RG; lia. }
  exists cose, seed, shares. split; [reflexivity|]. split; [split; [apply (ok_rng Y OK)|exists ek, sk; auto]|].
  split; [exists coeffs; split; [exact Dr|exact G]|].
  pose proof (c25_shares_distinct _ _ _ _ _ G) as [LS NDs]. rewrite !lenN_length in LS. split; [apply Nat2N.inj; exact LS|].
  assert (MEM : forall i mo, nth_error (go_member_outputs o) i = Some mo -> exists m share, nth_error (gs_members set) i = Some m /\ nth_error shares i = Some share /\ output_for Y m share mo).
  { intros i mo Hm. assert (i < length (gs_members set))%nat as Hi by (rewrite <- LO; apply nth_error_Some; congruence).
    destruct (nth_error (gs_members set) i) as [m|] eqn:Em; [|apply nth_error_None in Em; lia]. destruct (EACH i m Em) as (mo' & sh & A & B & C).
    exists m, sh. split; [reflexivity|]. split; [exact B|]. assert (mo' = mo) as <- by congruence. exact C. }
  split; [|split; [|split; [|split]]].
  - intros now VA. apply c59_accept_iff. split; [reflexivity|]. split; [exact F1|]. split; [exact F2|].
    split; [exists ek, sk; split; [exact QK|]; split; [exact Le|]; split; [exact Ls|]; split; [exact O1|exact O2]|].
    split; [exact LO|]. split; [|exact (EN now VA)].
    intros mo I. apply In_nth_error in I as (i & I). destruct (MEM i mo I) as (m & sh & Em & _ & (-> & _)). eapply nth_error_In; exact Em.
  - intros now i m secret own e1 g1 VA Em PKy MK. destruct (EACH i m Em) as (mo & share & Emo & Es & (OM & OH & e & g & r & (HK1 & HK2 & HK3 & _) & ENC)).
    assert (e = e1 /\ g = g1) as [-> ->].
    { destruct PKy as (c & _ & _ & P). destruct (ok_pair Y OK _ _ _ P) as (L1 & L2 & _). rewrite HK1 in MK. apply app_inv_length in MK; [exact MK|congruence]. }
    exists (gm_share mo). rewrite (nth_error_nth _ _ _ Es).
    assert (DC : s_decrypt Y own (gm_share mo) = Ok share) by (destruct PKy as (c & _ & _ & P); exact (cr_decrypt Y CR _ _ _ _ _ _ P ENC)).
    split; [|exact DC]. apply c59_after_iff. exists own, e1, g1, o, cose, mo, share. split; [exact PKy|]. split; [exact OF|]. split; [reflexivity|]. split; [exact (EN now VA)|].
    split; [|split; [reflexivity|split; [exact DC|now symmetry]]].
    apply nth_error_split in Emo as Sp. destruct Sp as (b & af & El & Lb). exists b, af. split; [exact El|].
    assert (QuorumMember (m_alias m) (e1 ++ g1) = m) as -> by (destruct m; cbn in *; congruence). split; [exact OM|].
    apply Forall_forall. intros y I X. apply In_nth_error in I as (j & I). assert (j < length b)%nat as Hj by (apply nth_error_Some; congruence).
    destruct (MEM j y) as (m' & _ & Em' & _ & (OM' & _)). { rewrite El, nth_error_app1 by lia. exact I. }
    destruct PM as (ND & _). assert (j = i); [|lia]. apply (NoDup_nth_error (map m_alias (gs_members set)) ); [exact ND| |].
    + rewrite map_length. apply nth_error_Some. congruence.
    + rewrite !nth_error_map, Em, Em'. cbn. congruence.
  - intros l I ND K. rewrite (sh_combine Y SH). exact (c25_any_k_shares_reconstruct coeffs seed (lenN (gs_members set)) (gs_threshold set) shares l Dr G I ND K).
  - apply c59_verify_iff. exists o, seed, ek, sk. split; [exact OF|]. split; [reflexivity|]. split; [apply (ok_rng Y OK)|]. split; [exact SP|].
    split; [now symmetry|]. split; [rewrite SG; exact (cr_verify Y CR _ _ _ _ SP)|]. split; [now symmetry|]. exact (cr_decrypt Y CR _ _ _ _ _ _ SP TC).
  - intros f V. apply c59_verify_iff in V as (o' & sd & e' & g' & OF' & -> & _ & _ & HS & _).
    assert (o' = o) as ->. { destruct OF as (c & -> & X1), OF' as (c' & X2 & X3). congruence. }
    destruct (bytes_dec (encode sd) (encode seed)) as [->|NE]; [left; reflexivity|right; exists (encode sd); split; [reflexivity|]; split; [exact NE|congruence]].
Qed.
Print Assumptions c59_honest_ceremony_accepted.
