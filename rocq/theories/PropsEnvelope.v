(** C61: collecting approvals into a manifest envelope. *)
From Coq Require Import Permutation Sorting.Sorted ZifyBool ZifyN ZifyNat.
From Verif Require Import Base Utf8 Hex HexProofs Borsh Json Types TypesBorsh TypesJson TypesJsonProofs TypesJsonLaws StorageProofs Msg World Attest Services
  Builder CliParser SpecApproval ApprovalProofs SpecExport JsonSound Invariant
  Client SpecClient ClientProofs ClientSets ClientFiles ClientApprove CodecExamples Toy ToyClient PropsClient PropsApprove PropsReencrypt PropsGenerate.
Local Open Scope N_scope.

Definition approval_entry (e : bytes * option bytes) : Prop := ~ hidden (fst e) /\ extension (fst e) (bs "approval").
Definition approval_in (e : bytes * option bytes) (ap : approval) : Prop := exists c, snd e = Some c /\ json_from_slice js_approval c = Some ap.
(** [l] are the approvals in the approval files of the directory. *)
Definition collected (d : list (bytes * option bytes)) (l : list approval) : Prop :=
  exists files others, Permutation d (files ++ others) /\ Forall approval_entry files /\ Forall (fun e => ~ approval_entry e) others /\ Forall2 approval_in files l.

Definition appr_entry (e : bytes * file) : bool := negb (starts_with (bs "._") (fst e)) && last_is APPROVAL_EXT (split_file_name (fst e)).
Lemma appr_entry_iff e : appr_entry e = true <-> approval_entry e.
Proof.
  unfold appr_entry, approval_entry. rewrite andb_true_iff, extension_iff. rewrite <- (hidden_iff (fst e)).
  destruct (starts_with (bs "._") (fst e)); cbn [negb]; split; intros [A B]; (split; [|exact B]); try discriminate; try congruence; try reflexivity.
Qed.
Lemma with_appr d : with_ext APPROVAL_EXT d = filter appr_entry d.
Proof. unfold with_ext, find_file_paths. rewrite filter_filter. reflexivity. Qed.

Lemma envelope_of_manifest m l : env_manifest (envelope_of m l) = m. Proof. destruct m; reflexivity. Qed.
Lemma envelope_of_approvals m l : env_manifest_approvals (envelope_of m l) = l. Proof. destruct m; reflexivity. Qed.
Lemma envelope_of_shares m l : env_share_approvals (envelope_of m l) = []. Proof. destruct m; reflexivity. Qed.

Section C61.
  Context {Y : sys}.
  Lemma read_approval_iff m e ap : read_approval Y m e = Some ap <->
    approval_in e ap /\ In (ap_member ap) (members (vm_manifest_set m)) /\ signed Y (manifest_hash Y m) ap.
  Proof.
    unfold read_approval, approval_in. split.
    - intros H. apply obind_some in H as (c & Ec & H). apply obind_some in H as (a & J & H). apply if_some in H as [M H].
      apply obind_some in H as ([ek sk] & P & H). apply ok_opt_some in P. cbn [snd] in H. apply if_some in H as [V H]. assert (a = ap) as -> by congruence.
      split; [eauto|]. split; [now apply memb_member_iff|]. exists ek, sk. split; [now apply public_keys|exact V].
    - intros ((c & Ec & J) & M & (ek & sk & K & V)). destruct e as [n fl]. cbn [snd] in *. subst fl. cbn [obind]. rewrite J. cbn [obind]. apply memb_member_iff in M. rewrite M.
      apply public_keys in K. rewrite K. cbn [ok_opt obind snd]. now rewrite V.
  Qed.
  Lemma collect_iff d l m : mapM (read_approval Y m) (with_ext APPROVAL_EXT d) = Some l ->
    collected d l /\ Forall (fun ap => In (ap_member ap) (members (vm_manifest_set m)) /\ signed Y (manifest_hash Y m) ap) l.
  Proof.
    rewrite with_appr. intros H. apply mapM_iff in H. split.
    - exists (filter appr_entry d), (filter (fun x => negb (appr_entry x)) d). split; [apply filter_partition|].
      split; [apply Forall_forall; intros x I; apply filter_In in I as [_ I]; now apply appr_entry_iff|].
      split; [apply Forall_forall; intros x I N; apply filter_In in I as [_ I]; apply appr_entry_iff in N; rewrite N in I; discriminate|].
      eapply Forall2_impl2; [|exact H]. intros x y E. apply read_approval_iff in E as [E _]. exact E.
    - clear - H. induction H as [|x y l l' E H IH]; constructor; [|exact IH]. apply read_approval_iff in E as [_ E]. exact E.
  Qed.
  Lemma collect_back d l m : collected d l ->
    Forall (fun ap => In (ap_member ap) (members (vm_manifest_set m)) /\ signed Y (manifest_hash Y m) ap) l ->
    exists l', Permutation l l' /\ mapM (read_approval Y m) (with_ext APPROVAL_EXT d) = Some l'.
  Proof.
    intros (files & others & P & Fa & Fo & F2) FA. rewrite with_appr.
    assert (Q : Permutation (filter appr_entry d) files).
    { eapply partition_filter; [exact P| |].
      - eapply Forall_impl; [|exact Fa]. intros x H. now apply appr_entry_iff.
      - apply Forall_forall. intros x I. rewrite Forall_forall in Fo. specialize (Fo x I). destruct (appr_entry x) eqn:X; [|reflexivity].
        exfalso. apply Fo. now apply appr_entry_iff. }
    assert (F2' : Forall2 (fun e ap => read_approval Y m e = Some ap) files l).
    { clear - F2 FA. induction F2 as [|x y l l' E F2 IH]; inversion FA; subst; constructor; [|now apply IH]. apply read_approval_iff. now split. }
    destruct (Forall2_perm _ _ _ _ (Permutation_sym Q) F2') as (l' & F3 & Pl). exists l'. split; [now apply Permutation_sym|]. now apply mapM_iff.
  Qed.
End C61.

(** ** Soundness: the envelope carries exactly the approvals of the directory, they are sufficient, and no share approvals. *)
Theorem c61_envelope_sound : forall Y d f text, generate_manifest_envelope Y d f = Some text ->
  exists m e, manifest_in f m /\ env_manifest e = m /\ env_share_approvals e = []
    /\ collected d (env_manifest_approvals e) /\ approved Y (vm_manifest_set m) (manifest_hash Y m) (env_manifest_approvals e)
    /\ check_approvals Y e = Ok tt /\ envelope_to_storage_vec e = Some text.
Proof.
  intros Y d f text H. unfold generate_manifest_envelope in H. apply obind_some in H as (m & RM & H). apply obind_some in H as (l & FA & H).
  cbv zeta in H. apply if_some in H as [CA H]. apply is_ok_iff in CA. unfold find_approvals in FA. apply obind_some in FA as (l' & C & FA).
  apply if_some in FA as [_ FA]. assert (l' = l) as -> by congruence. apply collect_iff in C as [C _].
  exists m, (envelope_of m l). rewrite envelope_of_manifest, envelope_of_shares, envelope_of_approvals.
  split; [unfold read_manifest_compat in RM; apply obind_some in RM; exact RM|]. split; [reflexivity|]. split; [reflexivity|]. split; [exact C|].
  split; [|split; [exact CA|exact H]]. apply check_sound in CA. rewrite envelope_of_manifest, envelope_of_approvals in CA. exact CA.
Qed.
Print Assumptions c61_envelope_sound.

Lemma json_approval_wf c ap : json_from_slice js_approval c = Some ap -> jwf js_approval ap = true.
Proof.
  unfold json_from_slice. destruct (parse c) as [j|] eqn:P; [|discriminate]. intros J. eapply sound_approval; [|exact J]. eapply parse_jtext; exact P.
Qed.
Lemma collected_wf d l : collected d l -> jwf (js_vec js_approval) l = true.
Proof.
  intros (files & others & _ & _ & _ & F2). change (forallb (jwf js_approval) l = true).
  induction F2 as [|x y l l' (c & _ & J) F IH]; [reflexivity|]. cbn [forallb]. now rewrite (json_approval_wf _ _ J).
Qed.
Lemma envelope_of_wf m l : wf_manifest m = true -> jwf (js_vec js_approval) l = true -> wf_envelope (envelope_of m l) = true.
Proof.
  intros M L. destruct m as [x|x|x]; cbn [wf_manifest wf_envelope envelope_of] in *;
  [change (jwf js_manifest_v2 x && jwf (js_vec js_approval) l && jwf (js_vec js_approval) [] = true)
  |change (jwf js_manifest x && jwf (js_vec js_approval) l && jwf (js_vec js_approval) [] = true)
  |change (jwf js_manifest_v0 x && jwf (js_vec js_approval) l && jwf (js_vec js_approval) [] = true)]; rewrite M, L; reflexivity.
Qed.
(** The file reads back as that envelope (for any manifest that JSON can carry). *)
Theorem c61_reads_back : forall Y d f text m, generate_manifest_envelope Y d f = Some text -> manifest_in f m -> wf_manifest m = true ->
  exists e, envelope_in (Some text) e /\ env_manifest e = m /\ env_share_approvals e = [] /\ check_approvals Y e = Ok tt /\ wf_envelope e = true.
Proof.
  intros Y d f text m H (c & -> & Dm) W. unfold generate_manifest_envelope in H. apply obind_some in H as (m' & RM & H). cbn [read_manifest_compat obind] in RM.
  assert (m' = m) as -> by congruence. apply obind_some in H as (l & FA & H).
  cbv zeta in H. apply if_some in H as [CA H]. apply is_ok_iff in CA. unfold find_approvals in FA. apply obind_some in FA as (l' & C & FA).
  apply if_some in FA as [_ FA]. assert (l' = l) as -> by congruence. apply collect_iff in C as [C _].
  destruct (envelope_storage (envelope_of m l) (envelope_of_wf m l W (collected_wf d l C))) as (b & S & R).
  exists (envelope_of m l). split; [exists b; split; [congruence|exact R]|].
  rewrite envelope_of_manifest, envelope_of_shares. split; [reflexivity|]. split; [reflexivity|]. split; [exact CA|].
  exact (envelope_of_wf m l W (collected_wf d l C)).
Qed.
Print Assumptions c61_reads_back.

(** ** Completeness: a directory whose approval files are sufficient approvals by distinct members gives an envelope,
    in whatever order they are listed. *)
Theorem c61_envelope_complete : forall Y d f m l, manifest_in f m -> wf_manifest m = true -> collected d l ->
  approved Y (vm_manifest_set m) (manifest_hash Y m) l ->
  (forall m1 m2, In m1 (members (vm_manifest_set m)) -> In m2 (members (vm_manifest_set m)) -> member_hash Y m1 = member_hash Y m2 -> m1 = m2) ->
  exists text e, generate_manifest_envelope Y d f = Some text /\ envelope_in (Some text) e /\ env_manifest e = m
    /\ Permutation l (env_manifest_approvals e).
Proof.
  intros Y d f m l (c & -> & Dm) W C A HI.
  assert (FA : Forall (fun ap => In (ap_member ap) (members (vm_manifest_set m)) /\ signed Y (manifest_hash Y m) ap) l).
  { apply Forall_forall. destruct A as (_ & A & _). exact A. }
  destruct (collect_back d l m C FA) as (l' & P & MM). pose proof (collect_iff _ _ _ MM) as [C' _].
  assert (A' : approved Y (vm_manifest_set m) (manifest_hash Y m) l').
  { destruct A as (A1 & A2 & A3 & A4). split; [exact A1|]. split; [intros a I; apply A2; eapply Permutation_in; [apply Permutation_sym, P|exact I]|].
    split; [eapply Permutation_NoDup; [apply Permutation_map, P|exact A3]|]. rewrite <- (Permutation_length P). exact A4. }
  assert (CA : check_approvals Y (envelope_of m l') = Ok tt).
  { apply check_complete; rewrite envelope_of_manifest; [exact HI|]. rewrite envelope_of_approvals. exact A'. }
  destruct (envelope_storage (envelope_of m l') (envelope_of_wf m l' W (collected_wf d l' C'))) as (b & S & R).
  exists b, (envelope_of m l'). split.
  - unfold generate_manifest_envelope. cbn [read_manifest_compat obind]. rewrite Dm. cbn [obind]. unfold find_approvals. rewrite MM. cbn [obind].
    replace (threshold (vm_manifest_set m) <=? lenN l') with true by (symmetry; apply N.leb_le; rewrite lenN_length; apply A').
    cbn [obind]. cbv zeta. rewrite CA. exact S.
  - split; [exists b; now split|]. split; [apply envelope_of_manifest|]. rewrite envelope_of_approvals. exact P.
Qed.
Print Assumptions c61_envelope_complete.

(** Approvals written by [approve_manifest] are collected by [generate_manifest_envelope]. *)
Theorem c61_collects_what_was_approved : forall Y a asked name text m, sys_ok Y -> crypto_ok Y -> utf8_valid (aa_alias a) = true ->
  (forall seed x, length (s_sign Y seed x) = 64%nat) -> ~ hidden name ->
  approve_manifest Y a = (asked, Some (name, text)) -> manifest_in (aa_manifest a) m ->
  approval_entry (name, Some text) /\ exists ap, approval_in (name, Some text) ap /\ signed Y (manifest_hash Y m) ap /\ m_alias (ap_member ap) = aa_alias a.
Proof.
  intros Y a asked name text m OK CR UA SL NH H M. split.
  - split; [exact NH|]. apply c57_approve_iff in H as (seed & ek & sk & m' & _ & _ & _ & _ & -> & _). cbn [fst]. split; [cbn; intuition discriminate|]. right.
    eexists. rewrite !app_assoc. change (bs ".approval") with ("."%byte :: bs "approval"). reflexivity.
  - destruct (c57_signed Y a asked name text OK CR UA SL H) as (m' & ap & (c' & E' & D') & J & Al & Sg). destruct M as (c & E & D).
    assert (m' = m) as -> by congruence. exists ap. split; [exists text; now split|]. now split.
Qed.
Print Assumptions c61_collects_what_was_approved.

(** Two reviewers approve and their files make an envelope; one approval, or one approval twice, is not enough. *)
Definition ap_file (name : string) (seed : bytes) (who : quorum_member) : bytes * option bytes :=
  (bs name, Some (write (jser js_approval (h_approve seed who)))).
Example c61_nontrivial :
  (exists text, generate_manifest_envelope T [ap_file "carol-x.approval" seed_c carol; (bs "notes.txt", None); ap_file "alice-x.approval" seed_a alice] (stored_text h_m) = Some text)
  /\ generate_manifest_envelope T [ap_file "alice-x.approval" seed_a alice] (stored_text h_m) = None
  /\ generate_manifest_envelope T [ap_file "alice-x.approval" seed_a alice; ap_file "alice-y.approval" seed_a alice] (stored_text h_m) = None
  /\ generate_manifest_envelope T [ap_file "alice-x.approval" seed_a alice; ap_file "carol-x.approval" seed_b carol] (stored_text h_m) = None.
Proof.
  split; [eexists; vm_compute; reflexivity|]. split; [vm_compute; reflexivity|]. split; vm_compute; reflexivity.
Qed.
