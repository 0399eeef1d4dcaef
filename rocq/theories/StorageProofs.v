(** Storage round trips (manifest.rs try_from_slice_compat / to_storage_vec). *)
From Verif Require Import Base Utf8 Hex HexProofs Json JsonProofs NormProofs Types TypesBorsh Env EnvProofs TypesJson TypesJsonProofs TypesJsonLaws.
From Coq Require Import Permutation.
Local Open Scope N_scope.

Lemma norm_get fields n : names_ok (map fst fields) = true ->
  Forall (fun f => match snd f with Some v => exists v', norm v = Some v' /\ v' <> JNull | None => True end) fields ->
  norm (ser_struct fields) = Some n ->
  forall k v, In (k, Some v) fields -> exists v', norm v = Some v' /\ jget k n = Some v'.
Proof.
  intros NO F E k v Hin. rewrite ser_struct_pres in E.
  assert (NDf : NoDup (map fst fields)) by (apply andb_true_iff in NO as [X _]; now apply nodupb_NoDup).
  assert (X : exists m, Forall2 (fun p q => fst p = fst q /\ norm (snd p) = Some (snd q) /\ snd q <> JNull) (pres fields) m).
  { clear -F. induction F as [|[k [v|]] r HF F (m & IH)]; cbn [pres flat_map snd fst app].
    - exists []. constructor.
    - destruct HF as (v' & N & NN). exists ((k, v') :: m). constructor; auto.
    - exists m. exact IH. }
  destruct X as (m & X). pose proof (norm_obj _ m (pres_nodup _ NDf) X) as E2. change (map _ (pres fields)) with (map rekey (pres fields)) in E2.
  rewrite E2 in E. inversion E; subst n.
  assert (Y : exists v', norm v = Some v' /\ In (k, v') m).
  { assert (I : In (k, v) (pres fields)).
    { unfold pres. apply in_flat_map. exists (k, Some v). split; auto. now left. }
    clear -X I. induction X as [|[k1 v1] [k2 v2] p m (E1 & E2 & E3) X IH]; [contradiction|].
    destruct I as [I|I].
    - inversion I; subst. cbn in *. subst. exists v2. split; auto.
    - destruct (IH I) as (v' & Y1 & Y2). exists v'. split; auto. now right. }
  destruct Y as (v' & Y1 & Y2). exists v'. split; auto. cbn [jget].
  assert (NDm : NoDup (map fst m)).
  { replace (map fst m) with (map fst (pres fields)); [now apply pres_nodup|].
    clear -X. induction X as [|p q l m (E1 & _) X IH]; cbn; [reflexivity|]. now rewrite E1, IH. }
  pose proof (sort_keys_perm m) as P.
  assert (NDs : NoDup (map fst (sort_keys m))).
  { eapply Permutation_NoDup; [apply Permutation_map, Permutation_sym, P|auto]. }
  change (map _ (sort_keys m)) with (map rekey (sort_keys m)).
  rewrite find_last_rekey by auto. apply assoc_In; auto. eapply Permutation_in; [apply Permutation_sym, P|auto].
Qed.

Lemma jlawful_norm {A} (c : jcodec A) a : jlawful c -> jwf c a = true -> exists v', norm (jser c a) = Some v' /\ v' <> JNull.
Proof. intros L W. destruct (L a W) as [_ (n & N & (_ & NN & _))]. eauto. Qed.

Lemma from_slice_good {A} (c : jcodec A) a j : good c a j -> (jneed c <= MAX_DEPTH)%nat ->
  json_from_slice c (write j) = Some a /\ parse_strict (write j) = Some j.
Proof.
  intros (J & NN & D) H. unfold json_from_slice, parse_strict. rewrite (parse_write j J).
  destruct (D _ H) as [D1 D2]. now rewrite D1, D2.
Qed.

Ltac le128 := unfold MAX_DEPTH; apply Nat.leb_le; reflexivity.

Lemma m2_version m n : jwf js_manifest_v2 m = true -> norm (jser js_manifest_v2 m) = Some n ->
  is_some (jget (bs "version") n) = true.
Proof.
  intros W N. assert (V : exists v', norm (str (bs "v2")) = Some v' /\ jget (bs "version") n = Some v').
  { eapply norm_get; [| |exact N|left; reflexivity]; [reflexivity|].
    cbn [js_manifest_v2 jwf] in W. splitwf.
    repeat (apply Forall_cons; [cbn [snd]|]).
    - eexists. split; [reflexivity|discriminate].
    - apply jlawful_norm; eauto with jlaw.
    - apply jlawful_norm; eauto with jlaw.
    - apply jlawful_norm; eauto with jlaw.
    - apply jlawful_norm; eauto with jlaw.
    - apply jlawful_norm; eauto with jlaw.
    - destruct (mf2_dns m); [|exact I]. apply jlawful_norm; eauto with jlaw.
    - constructor. }
  destruct V as (v' & _ & ->). reflexivity.
Qed.

Lemma manifest_storage m : wf_manifest m = true ->
  exists b, manifest_to_storage_vec m = Some b /\ manifest_try_from_slice_compat b = Some m.
Proof.
  destruct m as [m|m|m]; cbn [wf_manifest]; intros W.
  - destruct (js_manifest_v2_law m W) as [_ (n & N & G)].
    destruct (from_slice_good _ _ _ G ltac:(le128)) as [D PS].
    exists (write n). cbn [manifest_to_storage_vec]. unfold canon. rewrite N. split; [reflexivity|].
    unfold manifest_try_from_slice_compat, declares_a_version. rewrite PS, D.
    rewrite (m2_version m n W N). reflexivity.
  - destruct (js_manifest_law m W) as [G _].
    destruct (from_slice_good _ _ _ G ltac:(le128)) as [D PS].
    exists (write (jser js_manifest m)). split; [reflexivity|].
    unfold manifest_try_from_slice_compat, declares_a_version. rewrite PS, D.
    change (jget (bs "version") (jser js_manifest m)) with (@None json). reflexivity.
  - destruct (js_manifest_v0_law m W) as [G _].
    destruct (from_slice_good _ _ _ G ltac:(le128)) as [D PS].
    exists (write (jser js_manifest_v0 m)). split; [reflexivity|].
    unfold manifest_try_from_slice_compat, declares_a_version. rewrite PS, D.
    change (jget (bs "version") (jser js_manifest_v0 m)) with (@None json). cbn [is_some].
    assert (X : json_from_slice js_manifest (write (jser js_manifest_v0 m)) = None).
    { unfold json_from_slice. destruct G as (J & _). rewrite (parse_write _ J).
      assert (P : forall d, jdec js_pivot (S (S d)) (jser js_pivot_v0 (mf0_pivot m)) = None).
      { intros d. change (jdec js_pivot (S (S d)) (jser js_pivot_v0 (mf0_pivot m))) with
          (let? _ := jdec (js_hex_n 32) (S d) (jser (js_hex_n 32) (pv0_hash (mf0_pivot m))) in
           let? _ := jdec js_restart (S d) (jser js_restart (pv0_restart (mf0_pivot m))) in @None pivot_config).
        destruct (jdec (js_hex_n 32) _ _); [|reflexivity]. cbn [obind]. destruct (jdec js_restart _ _); reflexivity. }
      change MAX_DEPTH with (S (S (S 125))).
      transitivity (let? a := jdec js_namespace (S (S 125)) (jser js_namespace (mf0_namespace m)) in
          let? b := jdec js_pivot (S (S 125)) (jser js_pivot_v0 (mf0_pivot m)) in @None manifest).
      - change (jdec js_manifest (S (S (S 125))) (jser js_manifest_v0 m)) with
          (let? a := jdec js_namespace (S (S 125)) (jser js_namespace (mf0_namespace m)) in
           let? b := jdec js_pivot (S (S 125)) (jser js_pivot_v0 (mf0_pivot m)) in
           let? c := jdec js_member_set (S (S 125)) (jser js_member_set (mf0_manifest_set m)) in
           let? e := jdec js_member_set (S (S 125)) (jser js_member_set (mf0_share_set m)) in
           let? f := jdec js_nitro (S (S 125)) (jser js_nitro (mf0_enclave m)) in
           let? g := jdec js_patch_set (S (S 125)) (jser js_patch_set (mf0_patch_set m)) in
           Some (Manifest a b c e f g)).
        rewrite (P 125%nat). reflexivity.
      - rewrite (P 125%nat). destruct (jdec js_namespace _ _); reflexivity. }
    rewrite X. reflexivity.
Qed.

Lemma envelope_storage e : wf_envelope e = true ->
  exists b, envelope_to_storage_vec e = Some b /\ envelope_try_from_slice_compat b = Some e.
Proof.
  destruct e as [e|e|e]; cbn [wf_envelope]; intros W.
  - destruct (js_envelope_v2_law e W) as [_ (n & N & G)].
    destruct (from_slice_good _ _ _ G ltac:(le128)) as [D PS].
    exists (write n). cbn [envelope_to_storage_vec]. unfold canon. rewrite N. split; [reflexivity|].
    unfold envelope_try_from_slice_compat, enveloped_manifest_declares_a_version. rewrite PS, D.
    cbn [js_envelope_v2 jwf] in W. splitwf.
    assert (V : exists v', norm (jser js_manifest_v2 (e2_manifest e)) = Some v' /\ jget (bs "manifest") n = Some v').
    { eapply norm_get; [| |exact N|left; reflexivity]; [reflexivity|].
      repeat (apply Forall_cons; [cbn [snd]; apply jlawful_norm; eauto with jlaw|]). constructor. }
    destruct V as (v' & N' & ->). rewrite (m2_version (e2_manifest e) v'); auto.
  - destruct (js_envelope_law e W) as [G _].
    destruct (from_slice_good _ _ _ G ltac:(le128)) as [D PS].
    exists (write (jser js_envelope e)). split; [reflexivity|].
    unfold envelope_try_from_slice_compat, enveloped_manifest_declares_a_version. rewrite PS, D.
    change (jget (bs "manifest") (jser js_envelope e)) with (Some (jser js_manifest (e1_manifest e))).
    change (jget (bs "version") (jser js_manifest (e1_manifest e))) with (@None json). reflexivity.
  - destruct (js_envelope_v0_law e W) as [G _].
    destruct (from_slice_good _ _ _ G ltac:(le128)) as [D PS].
    exists (write (jser js_envelope_v0 e)). split; [reflexivity|].
    unfold envelope_try_from_slice_compat, enveloped_manifest_declares_a_version. rewrite PS, D.
    change (jget (bs "manifest") (jser js_envelope_v0 e)) with (Some (jser js_manifest_v0 (e0_manifest e))).
    change (jget (bs "version") (jser js_manifest_v0 (e0_manifest e))) with (@None json). cbn [is_some].
    assert (X : json_from_slice js_envelope (write (jser js_envelope_v0 e)) = None).
    { unfold json_from_slice. destruct G as (J & _). rewrite (parse_write _ J).
      change MAX_DEPTH with (S (S 126)).
      change (jdec js_envelope (S (S 126)) (jser js_envelope_v0 e)) with
        (let? a := jdec js_manifest (S 126) (jser js_manifest_v0 (e0_manifest e)) in @None manifest_envelope).
      destruct (jdec js_manifest _ _); reflexivity. }
    rewrite X. reflexivity.
Qed.
