(** C60: writing a manifest. *)
From Coq Require Import Permutation Sorting.Sorted ZifyBool ZifyN ZifyNat.
From Verif Require Import Base Utf8 Hex HexProofs Borsh Json Types TypesBorsh TypesJson TypesJsonProofs TypesJsonLaws StorageProofs Msg World Attest Services
  Builder SpecBuilder BuilderProofs SpecApproval ApprovalProofs SpecExport JsonSound
  Client SpecClient ClientProofs ClientSets ClientFiles ClientApprove CodecExamples Toy ToyClient PropsClient PropsApprove.
Local Open Scope N_scope.

(** The manifest [m] is what the command line and the files say. *)
Record described_by (Y : sys) (a : generate_args) (m : versioned_manifest) : Prop := DescribedBy {
  db_agrees : agrees Y m (ga_manifest_set a) (ga_share_set a) (ga_patch_set a) (ga_pcrs a) (ga_pcr3 a) (ga_pivot_hash a) (ga_quorum_key a);
  db_name : ns_name (vm_namespace m) = ga_namespace a;
  db_nonce : ns_nonce (vm_namespace m) = ga_nonce a;
  db_restart : vm_restart m = ga_restart a;
  db_args : vm_args m = ga_args a;
  db_bridge : vm_bridge m = ga_bridge a;
  db_debug : vm_debug m = ga_debug a;
  db_hash : length (vm_pivot_hash m) = 32%nat }.

(** Version 1: needs a patch set and knows no DNS resolvers. *)
Theorem c60_v1_iff : forall Y a text, generate_manifest Y a = Some text <->
  exists x, described_by Y a (VM1 x) /\ ga_dns a = None /\ text = write (jser js_manifest x).
Proof.
  intros Y a text. unfold generate_manifest. split.
  - destruct (ga_dns a) eqn:Dn; [discriminate|]. intros H.
    apply obind_some in H as (nc & NC & H). apply obind_some in H as (h & PH & H). apply obind_some in H as (ms & GM & H). apply obind_some in H as (ss & GS & H).
    apply obind_some in H as (pd & PD & H). apply obind_some in H as (ps & GP & H). apply obind_some in H as (k & RK & H). apply if_negb_some in H as [Lh H].
    apply N.eqb_eq in Lh. rewrite lenN_length in Lh.
    unfold setters_common in H. cbn [app fold_left apply_setter builder_new] in H. unfold build in H.
    cbn [b_version b_namespace b_hash b_restart b_bridge b_debug b_args b_env b_manifest_set b_share_set b_enclave b_patch_set b_dns ok_or rbind unwrap_or ok_opt obind manifest_to_storage_vec] in H.
    match type of H with Some (write (jser _ ?x)) = _ => exists x end. split; [|split; [reflexivity|congruence]].
    constructor; try reflexivity; [|cbn; lia].
    constructor; cbn [vm_manifest_set vm_share_set vm_enclave vm_pivot_hash vm_namespace mf_manifest_set mf_share_set mf_enclave mf_pivot pv_hash mf_namespace ns_quorum_key mf_patch_set].
    + now apply get_set_iff.
    + now apply get_set_iff.
    + exists pd. split; [exact PD|]. now apply get_patch_iff.
    + now apply nitro_iff.
    + now apply pivot_hash_iff.
    + apply public_hex_of. eauto.
  - intros (x & [[A1 A2 A3 A4 A5 A6] Hn Hc Hr Ha Hb Hd Hh] & Dn & ->). rewrite Dn. destruct A3 as (pd & PD & A3).
    apply nitro_iff in A4. rewrite A4. cbn [obind]. apply pivot_hash_iff in A5. rewrite A5. cbn [obind].
    apply (proj2 (get_set_iff _ (vm_manifest_set (VM1 x)))) in A1. apply (proj2 (get_set_iff _ (vm_share_set (VM1 x)))) in A2. rewrite A1, A2. cbn [obind].
    rewrite PD. cbn [obind]. apply get_patch_iff in A3. rewrite A3. cbn [obind]. apply public_hex_of in A6 as (kk & K & Ek). rewrite K. cbn [obind].
    replace (lenN (vm_pivot_hash (VM1 x)) =? 32) with true by (symmetry; apply N.eqb_eq; rewrite lenN_length; lia). cbn [negb].
    unfold setters_common. cbn [app fold_left apply_setter builder_new]. unfold build.
    cbn [b_version b_namespace b_hash b_restart b_bridge b_debug b_args b_env b_manifest_set b_share_set b_enclave b_patch_set b_dns ok_or rbind unwrap_or ok_opt obind manifest_to_storage_vec].
    rewrite Ek, <- Hn, <- Hc, <- Hr, <- Ha, <- Hb, <- Hd. destruct x as [[] [] ? ? ? ?]. reflexivity.
Qed.
Print Assumptions c60_v1_iff.

(** Version 2: takes no patch set; the pivot gets no environment variables. *)
Theorem c60_v2_iff : forall Y a text, generate_manifest_v2 Y a = Some text <->
  exists x, described_by Y a (VM2 x) /\ mf2_dns x = option_map DnsConfig (ga_dns a) /\ pv2_env (mf2_pivot x) = []
    /\ manifest_to_storage_vec (VM2 x) = Some text.
Proof.
  intros Y a text. unfold generate_manifest_v2. split.
  - destruct (ga_patch_set a) eqn:Pn; [discriminate|]. intros H.
    apply obind_some in H as (nc & NC & H). apply obind_some in H as (h & PH & H). apply obind_some in H as (ms & GM & H). apply obind_some in H as (ss & GS & H).
    apply obind_some in H as (k & RK & H). apply if_negb_some in H as [Lh H]. apply N.eqb_eq in Lh. rewrite lenN_length in Lh.
    exists (ManifestV2 (Namespace (ga_namespace a) (ga_nonce a) (public_to_bytes k)) (PivotConfigV2 h (ga_restart a) (ga_bridge a) (ga_debug a) (ga_args a) []) ms ss nc (option_map DnsConfig (ga_dns a))).
    split; [|split; [reflexivity|split; [reflexivity|]]].
    + constructor; try reflexivity; [|cbn; lia].
      constructor; cbn [vm_manifest_set vm_share_set vm_enclave vm_pivot_hash vm_namespace mf2_manifest_set mf2_share_set mf2_enclave mf2_pivot pv2_hash mf2_namespace ns_quorum_key].
      * now apply get_set_iff.
      * now apply get_set_iff.
      * exact Pn.
      * now apply nitro_iff.
      * now apply pivot_hash_iff.
      * apply public_hex_of. eauto.
    + destruct (ga_dns a) as [r|]; unfold setters_common in H; cbn [app fold_left apply_setter builder_new] in H; unfold build in H;
        cbn [b_version b_namespace b_hash b_restart b_bridge b_debug b_args b_env b_manifest_set b_share_set b_enclave b_patch_set b_dns ok_or rbind unwrap_or ok_opt obind manifest_canonical] in H;
        exact H.
  - intros (x & [[A1 A2 A3 A4 A5 A6] Hn Hc Hr Ha Hb Hd Hh] & Dn & En & St). cbn [vm_manifest_set] in *. rewrite A3.
    apply nitro_iff in A4. rewrite A4. cbn [obind]. apply pivot_hash_iff in A5. rewrite A5. cbn [obind].
    apply (proj2 (get_set_iff _ (vm_manifest_set (VM2 x)))) in A1. apply (proj2 (get_set_iff _ (vm_share_set (VM2 x)))) in A2. rewrite A1, A2. cbn [obind].
    apply public_hex_of in A6 as (kk & K & Ek). rewrite K. cbn [obind].
    replace (lenN (vm_pivot_hash (VM2 x)) =? 32) with true by (symmetry; apply N.eqb_eq; rewrite lenN_length; lia). cbn [negb].
    destruct (ga_dns a) as [r|]; unfold setters_common; cbn [app fold_left apply_setter builder_new]; unfold build;
      cbn [b_version b_namespace b_hash b_restart b_bridge b_debug b_args b_env b_manifest_set b_share_set b_enclave b_patch_set b_dns ok_or rbind unwrap_or ok_opt obind manifest_canonical];
      cbn [option_map] in Dn; rewrite Ek, <- Hn, <- Hc, <- Hr, <- Ha, <- Hb, <- Hd; rewrite <- St; cbn [manifest_to_storage_vec]; do 2 f_equal;
      destruct x as [[] [] ? ? ? ?]; cbn in *; subst; reflexivity.
Qed.
Print Assumptions c60_v2_iff.

(** Nothing but the files decides: with readable files a manifest is written. *)
Theorem c60_complete : forall Y a ms ss nc h k,
  directory_set Y (ga_manifest_set a) (threshold ms) (members ms) -> directory_set Y (ga_share_set a) (threshold ss) (members ss) ->
  release_config Y (ga_pcrs a) (ga_pcr3 a) nc -> (exists l, first_line_is (ga_pivot_hash a) l /\ decode l = Ok h) -> length h = 32%nat ->
  public_key_file Y (ga_quorum_key a) k ->
  (ga_dns a = None -> forall d p, ga_patch_set a = Some d -> directory_patch_set Y d p -> exists text, generate_manifest Y a = Some text)
  /\ (ga_patch_set a = None -> generate_manifest_v2 Y a =
        manifest_to_storage_vec (VM2 (ManifestV2 (Namespace (ga_namespace a) (ga_nonce a) k)
          (PivotConfigV2 h (ga_restart a) (ga_bridge a) (ga_debug a) (ga_args a) []) ms ss nc (option_map DnsConfig (ga_dns a))))).
Proof.
  intros Y a ms ss nc h k A1 A2 A4 A5 Lh A6. split.
  - intros Dn d p Pd A3. eexists. apply c60_v1_iff.
    exists (Manifest (Namespace (ga_namespace a) (ga_nonce a) k) (PivotConfig h (ga_restart a) (ga_bridge a) (ga_debug a) (ga_args a)) ms ss nc p).
    split; [|split; [exact Dn|reflexivity]]. constructor; try reflexivity; [|exact Lh]. constructor; try assumption. exists d. now split.
  - intros Pn. set (x := ManifestV2 _ _ _ _ _ _).
    assert (D : described_by Y a (VM2 x)) by (constructor; try reflexivity; [constructor; assumption|exact Lh]).
    destruct (manifest_to_storage_vec (VM2 x)) as [t|] eqn:St.
    + apply c60_v2_iff. exists x. split; [exact D|]. split; [reflexivity|]. split; [reflexivity|exact St].
    + destruct (generate_manifest_v2 Y a) as [t|] eqn:G; [|reflexivity]. exfalso. apply c60_v2_iff in G as (y & Dy & Dny & Ey & Sy).
      assert (y = x) as ->; [|congruence]. destruct Dy as [[B1 B2 B3 B4 B5 B6] Hn Hc Hr Ha Hb Hd Hh].
      pose proof (dset_unique _ _ _ _ A1 B1) as E1. pose proof (dset_unique _ _ _ _ A2 B2) as E2. pose proof (release_unique _ _ _ _ _ A4 B4) as E4.
      pose proof (pivot_unique _ _ _ A5 B5) as E5. pose proof (key_unique _ _ _ _ A6 B6) as E6.
      unfold x. destruct y as [[] [] ? ? ? ?]; cbn in *; subst; reflexivity.
Qed.
Print Assumptions c60_complete.

(** ** Reading back *)
Lemma utf8_char_ascii c x : is_scalar c = true -> In x (utf8_char c) -> b2n x < 128 -> utf8_char c = [x].
Proof.
  intros S. unfold utf8_char. destruct (N.ltb_spec c 128) as [L|L].
  - intros [<-|[]] _. reflexivity.
  - assert (G : forall n, 128 <= n -> n < 256 -> 128 <= b2n (n2b n)) by (intros n A B; rewrite b2n_n2b, N.mod_small; lia).
    unfold is_scalar in S. intros I Lx. exfalso.
    destruct (N.ltb_spec c 2048); [|destruct (N.ltb_spec c 65536)]; cbn [In] in I;
      repeat (destruct I as [I|I]; [subst x; match type of Lx with b2n (n2b ?n) < _ => assert (128 <= b2n (n2b n)) by (apply G; lia); lia end|]); exact I.
Qed.
Lemma utf8_before cs : scalars cs = true -> forall a x r, utf8_enc cs = a ++ x :: r -> b2n x < 128 -> exists cs1, scalars cs1 = true /\ a = utf8_enc cs1.
Proof.
  induction cs as [|c cs IH]; intros S a x r E Lx; [destruct a; discriminate E|].
  cbn [scalars forallb] in S. apply andb_true_iff in S as [Sc S].
  change (utf8_enc (c :: cs)) with (utf8_char c ++ utf8_enc cs) in E.
  destruct a as [|y a]; [exists []; split; reflexivity|].
  apply app_eq_app in E as (l & [[E1 E2]|[E1 E2]]).
  - destruct l as [|z l].
    + exists [c]. split; [cbn; now rewrite Sc|]. rewrite app_nil_r in E1. unfold utf8_enc. cbn [map concat]. now rewrite app_nil_r.
    + cbn [app] in E2. assert (z = x) as -> by congruence. exfalso.
      assert (I : In x (utf8_char c)) by (rewrite E1; apply in_or_app; right; now left).
      rewrite (utf8_char_ascii c x Sc I Lx) in E1. destruct a; discriminate E1.
  - destruct (IH S l x r E2 Lx) as (cs1 & S1 & ->). exists (c :: cs1). split; [cbn [scalars forallb]; now rewrite Sc|]. exact E1.
Qed.
Lemma stem_valid n a : utf8_valid n = true -> stem n a -> utf8_valid a = true.
Proof.
  intros V [_ [->|(r & ->)]]; [exact V|]. unfold utf8_valid in *. destruct (utf8_dec (a ++ "."%byte :: r)) as [cs|] eqn:D; [|discriminate].
  apply utf8_dec_inv in D as [S E]. destruct (utf8_before cs S a "."%byte r (eq_sym E) eq_refl) as (cs1 & S1 & ->). now rewrite utf8_dec_enc.
Qed.

(** What the command line can pass and a directory listing can return. *)
Definition text_names (d : list (bytes * option bytes)) : Prop := Forall (fun e => utf8_valid (fst e) = true) d.
Definition port_ok (b : bridge_config) : Prop :=
  match b with BServer p h => p < 65536 /\ utf8_valid h = true | BClient p h => p < 65536 /\ forall x, h = Some x -> utf8_valid x = true end.
Record text_inputs (a : generate_args) : Prop := TextInputs {
  ti_name : utf8_valid (ga_namespace a) = true; ti_nonce : ga_nonce a < 4294967296;
  ti_args : Forall (fun x => utf8_valid x = true) (ga_args a); ti_bridge : Forall port_ok (ga_bridge a);
  ti_mset : text_names (ga_manifest_set a); ti_sset : text_names (ga_share_set a) }.

Section Back.
  Context {Y : sys}.
  Lemma has_keys_len m e g : has_keys Y m e g -> 2 * lenN (m_pub_key m) <? STR_MAX_LENGTH = true.
  Proof. intros (E & L1 & L2 & _). rewrite E, lenN_length, app_length, L1, L2. reflexivity. Qed.
  Lemma decimal_lt w n : decimal w n -> n <? 4294967296 = true.
  Proof. intros (ds & _ & _ & L & _). now apply N.ltb_lt. Qed.
  Lemma set_wf d s : text_names d -> directory_set Y d (threshold s) (members s) -> jwf js_member_set s = true.
  Proof.
    intros TN [(files & others & P & Fk & _ & ms & F2 & Pm & _) (c & oth & _ & _ & (_ & l & rest & w & _ & _ & De))].
    cbn [js_member_set jwf js_u32 js_uint js_vec]. apply andb_true_iff. split; [apply andb_true_iff; split; [exact (decimal_lt _ _ De)|reflexivity]|].
    apply forallb_forall. intros m I. apply (Permutation_in _ Pm) in I.
    assert (X : exists e, In e files /\ key_in Y e m).
    { clear - F2 I. induction F2 as [|e m' l l' K F IH]; [destruct I|]. destruct I as [->|I]; [exists e; split; [now left|exact K]|].
      destruct (IH I) as (e' & I' & K'). exists e'. split; [now right|exact K']. }
    destruct X as (e & Ie & (St & c' & eg & sg & _ & _ & HK)). cbn [js_member jwf js_string js_hex]. apply andb_true_iff. split.
    - eapply stem_valid; [|exact St]. unfold text_names in TN. rewrite Forall_forall in TN. apply TN. eapply Permutation_in; [apply Permutation_sym, P|]. apply in_or_app. now left.
    - exact (has_keys_len _ _ _ HK).
  Qed.
  Lemma patch_wf d p : directory_patch_set Y d p -> jwf js_patch_set p = true.
  Proof.
    intros [(files & others & P & Fk & _ & ms & F2 & Pm & _) (c & oth & _ & _ & (_ & l & rest & w & _ & _ & De))].
    cbn [js_patch_set jwf js_u32 js_uint js_vec]. apply andb_true_iff. split; [apply andb_true_iff; split; [exact (decimal_lt _ _ De)|reflexivity]|].
    apply forallb_forall. intros k I. apply (Permutation_in _ Pm) in I. apply in_map_iff in I as (m & <- & I).
    assert (X : exists e, In e files /\ key_in Y e m).
    { clear - F2 I. induction F2 as [|e m' l l' K F IH]; [destruct I|]. destruct I as [->|I]; [exists e; split; [now left|exact K]|].
      destruct (IH I) as (e' & I' & K'). exists e'. split; [now right|exact K']. }
    destruct X as (e & Ie & (St & c' & eg & sg & _ & _ & HK)). exact (has_keys_len _ _ _ HK).
  Qed.
  Lemma decode_len s b : decode s = Ok b -> 2 * lenN b <? STR_MAX_LENGTH = true.
  Proof.
    intros D. destruct s as [|x [|y s]]; cbn [decode] in D; [inversion D; reflexivity|discriminate|].
    destruct (N.even _); destruct (N.ltb_spec (lenN (strip_0x (x :: y :: s))) STR_MAX_LENGTH); try discriminate.
    apply (decode_pairs_len _ _ _ (le_n _)) in D. rewrite lenN_length in *. lia.
  Qed.
  Lemma nitro_wf (OK : sys_ok Y) pcrs role n : 2 * lenN (s_root Y) < STR_MAX_LENGTH -> release_config Y pcrs role n -> jwf js_nitro n = true.
  Proof.
    intros Rt ((c & ls & h0 & h1 & h2 & more & _ & _ & _ & _ & D0 & D1 & D2) & (r & _ & E3) & Er & Ec).
    cbn [js_nitro jwf js_hex js_string]. rewrite E3, Er, Ec, (decode_len _ _ D0), (decode_len _ _ D1), (decode_len _ _ D2).
    rewrite lenN_length, (ok_sha384 Y OK). apply N.ltb_lt in Rt. rewrite Rt. reflexivity.
  Qed.
  Lemma bridge_wf l : Forall port_ok l -> jwf (js_vec js_bridge) l = true.
  Proof.
    intros F. change (forallb (jwf js_bridge) l = true). apply forallb_forall. intros b I. rewrite Forall_forall in F. specialize (F b I).
    cbn [js_bridge jwf js_u16 js_uint]. destruct b as [q h|q h]; cbn [port_ok] in F; destruct F as [L V]; apply andb_true_iff; split; try (apply andb_true_iff; split; [now apply N.ltb_lt|reflexivity]).
    - exact V.
    - destruct h; [now apply V|reflexivity].
  Qed.
  Lemma args_wf l : Forall (fun x => utf8_valid x = true) l -> jwf (js_vec js_string) l = true.
  Proof. intros F. change (forallb utf8_valid l = true). apply forallb_forall. rewrite Forall_forall in F. exact F. Qed.

  Lemma described_wf (OK : sys_ok Y) a m : 2 * lenN (s_root Y) < STR_MAX_LENGTH -> text_inputs a -> described_by Y a m ->
    (match m with VM2 x => pv2_env (mf2_pivot x) = [] | VM1 _ => True | VM0 _ => False end) -> wf_manifest m = true.
  Proof.
    intros Rt [T1 T2 T3 T4 T5 T6] [[A1 A2 A3 A4 A5 A6] Hn Hc Hr Ha Hb Hd Hh] Hv.
    apply (set_wf _ _ T5) in A1. apply (set_wf _ _ T6) in A2. apply (nitro_wf OK _ _ _ Rt) in A4.
    assert (Wn : jwf js_namespace (vm_namespace m) = true).
    { destruct A6 as (c & eg & sg & _ & _ & HK). apply has_keys_len in HK. cbn [m_pub_key] in HK.
      cbn [js_namespace jwf js_string js_u32 js_uint js_hex]. rewrite Hn, Hc, T1, HK. apply N.ltb_lt in T2. now rewrite T2. }
    assert (Wh : lenN (vm_pivot_hash m) =? 32 = true) by (apply N.eqb_eq; rewrite lenN_length; lia).
    rewrite <- Hb in T4. apply bridge_wf in T4. rewrite <- Ha in T3. apply args_wf in T3.
    destruct m as [x|x|x]; [| |destruct Hv]; cbn [wf_manifest vm_namespace vm_manifest_set vm_share_set vm_enclave vm_pivot_hash vm_bridge vm_args] in *.
    - change (jwf js_namespace (mf2_namespace x) && ((lenN (pv2_hash (mf2_pivot x)) =? 32) && jwf (js_vec js_bridge) (pv2_bridge (mf2_pivot x))
        && jwf (js_vec js_string) (pv2_args (mf2_pivot x)) && jwf js_env (pv2_env (mf2_pivot x))) && jwf js_member_set (mf2_manifest_set x)
        && jwf js_member_set (mf2_share_set x) && jwf js_nitro (mf2_enclave x) = true).
      rewrite Wn, Wh, T3, T4, A1, A2, A4, Hv. reflexivity.
    - destruct A3 as (d & _ & A3). apply patch_wf in A3.
      change (jwf js_namespace (mf_namespace x) && ((lenN (pv_hash (mf_pivot x)) =? 32) && jwf (js_vec js_bridge) (pv_bridge (mf_pivot x))
        && jwf (js_vec js_string) (pv_args (mf_pivot x))) && jwf js_member_set (mf_manifest_set x)
        && jwf js_member_set (mf_share_set x) && jwf js_nitro (mf_enclave x) && jwf js_patch_set (mf_patch_set x) = true).
      rewrite Wn, Wh, T3, T4, A1, A2, A3, A4. reflexivity.
  Qed.
End Back.

(** The file reads back as the described manifest; so what was written is what the reviewers and the enclave see. *)
Theorem c60_reads_back : forall Y a text, sys_ok Y -> 2 * lenN (s_root Y) < STR_MAX_LENGTH -> text_inputs a ->
  generate_manifest Y a = Some text \/ generate_manifest_v2 Y a = Some text ->
  exists m, described_by Y a m /\ manifest_in (Some text) m.
Proof.
  intros Y a text OK Rt TI [G|G].
  - apply c60_v1_iff in G as (x & D & _ & ->). exists (VM1 x). split; [exact D|].
    destruct (manifest_storage (VM1 x) (described_wf OK a (VM1 x) Rt TI D I)) as (b & S & R). exists b. split; [|exact R]. cbn [manifest_to_storage_vec] in S. congruence.
  - apply c60_v2_iff in G as (x & D & _ & En & St). exists (VM2 x). split; [exact D|].
    destruct (manifest_storage (VM2 x) (described_wf OK a (VM2 x) Rt TI D En)) as (b & S & R). exists b. split; [congruence|exact R].
Qed.
Print Assumptions c60_reads_back.

(** A reviewer with the same files who confirms every question approves it. *)
Theorem c60_approvable : forall Y a text b seed ek sk, sys_ok Y -> 2 * lenN (s_root Y) < STR_MAX_LENGTH -> text_inputs a ->
  generate_manifest Y a = Some text \/ generate_manifest_v2 Y a = Some text ->
  aa_manifest b = Some text -> aa_manifest_set b = ga_manifest_set a -> aa_share_set b = ga_share_set a -> aa_patch_set b = ga_patch_set a ->
  aa_pcrs b = ga_pcrs a -> aa_pcr3 b = ga_pcr3 a -> aa_pivot_hash b = ga_pivot_hash a -> aa_quorum_key b = ga_quorum_key a ->
  personal_key Y (aa_secret b) seed ek sk -> aa_auto b = false -> all_confirmed 8 (aa_stdin b) ->
  exists asked w, approve_manifest Y b = (asked, Some w).
Proof.
  intros Y a text b seed ek sk OK Rt TI G E1 E2 E3 E4 E5 E6 E7 E8 PK Au AC.
  destruct (c60_reads_back Y a text OK Rt TI G) as (m & [D _ _ _ _ _ _ _] & M).
  eexists (shown m), (_, _). apply c57_approve_iff. exists seed, ek, sk, m. split; [exact PK|]. split; [now rewrite E1|].
  split; [unfold agrees_with; rewrite E2, E3, E4, E5, E6, E7, E8; exact D|]. split; [|split; reflexivity].
  unfold consented. rewrite Au. split; [reflexivity|].
  assert (X : forall n k inp, all_confirmed n inp -> (k <= n)%nat -> all_confirmed k inp).
  { clear. induction n as [|n IH]; intros k inp H L; [assert (k = 0%nat) as -> by lia; constructor|]. destruct k; [constructor|].
    inversion H as [|? ? rest C A]; subst. apply (AC_more k inp rest C). apply IH; [exact A|lia]. }
  apply (X 8%nat); [exact AC|]. destruct m; cbn; lia.
Qed.
Print Assumptions c60_approvable.

Definition op_generate (p : option dir) (dns : option (list ip_addr)) : generate_args :=
  GenerateArgs 7 (bs "a/b") Always [bs "q"] [BServer 3000 (bs "0.0.0.0")] dns false op_pivot op_pcrs op_role op_key op_mset op_sset p.
Example c60_nontrivial :
  sys_ok T /\ 2 * lenN (s_root T) < STR_MAX_LENGTH /\ text_inputs (op_generate None (Some [IpV4 (Ipv4 x08 x08 x04 x04)]))
  /\ generate_manifest_v2 T (op_generate None (Some [IpV4 (Ipv4 x08 x08 x04 x04)])) = stored_text (VM2 (op_manifest []))
  /\ (exists text, generate_manifest T (op_generate (Some op_pset) None) = Some text)
  /\ generate_manifest T (op_generate None None) = None /\ generate_manifest_v2 T (op_generate (Some op_pset) None) = None.
Proof.
  split; [apply toy_ok|]. split; [reflexivity|]. split.
  { constructor; try reflexivity.
    - repeat constructor.
    - repeat constructor.
    - apply Forall_forall, (forallb_forall (fun e : bytes * option bytes => utf8_valid (fst e))). reflexivity.
    - apply Forall_forall, (forallb_forall (fun e : bytes * option bytes => utf8_valid (fst e))). reflexivity. }
  split; [vm_compute; reflexivity|]. split; [eexists; vm_compute; reflexivity|]. split; reflexivity.
Qed.
