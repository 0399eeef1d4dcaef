(** Property theorems: codecs (C28-C33), builder (C38), pivot env (C39). *)
From Verif Require Import Base Utf8 Hex SpecHex HexProofs Borsh BorshProofs Json JsonProofs NormProofs
  Types TypesBorsh Env EnvProofs TypesJson TypesJsonLaws StorageProofs SpecJson CanonProofs
  Builder SpecBuilder BuilderProofs SpecEnv EnvReach CodecExamples.
Local Open Scope N_scope.

(** ** C33 hex *)
Theorem c33_hex_round_trip : forall b : bytes, 2 * N.of_nat (length b) < 256 * 1024 * 1024 ->
  decode (encode b) = Ok b /\ decode (["0"; "x"]%byte ++ encode b) = Ok b.
Proof. exact hex_round_trip. Qed.
Print Assumptions c33_hex_round_trip.

Theorem c33_hex_encode_lowercase : forall b : bytes,
  encode b = concat (map lower_pair b) /\ length (encode b) = (2 * length b)%nat.
Proof. exact hex_encode_lower. Qed.
Print Assumptions c33_hex_encode_lowercase.

(** on texts without a plus sign, decode accepts exactly optionally 0x-prefixed
    even-length hexadecimal below the cap, and yields the spelled bytes *)
Theorem c33_hex_decode_exact : forall s b, ~ In "+"%byte s ->
  (decode s = Ok b <-> hex_text (strip_0x s) b /\ N.of_nat (length (strip_0x s)) < 256 * 1024 * 1024).
Proof. exact hex_decode_exact. Qed.
Print Assumptions c33_hex_decode_exact.

(** the unrestricted claim is false: a plus sign is accepted as a digit *)
Theorem c33_hex_decode_exact_refuted : exists s b, decode s = Ok b /\ ~ hex_text (strip_0x s) b.
Proof. exact hex_plus_refuted. Qed.
Print Assumptions c33_hex_decode_exact_refuted.

(** ** C28 Borsh *)
(** [canonical] is CodecExamples.canonical: encode then decode is the identity, every accepted input is the encoding of its value, encoding is injective *)
Theorem c28_borsh_canonical :
  canonical c_manifest /\ canonical c_manifest_v0 /\ canonical c_envelope /\ canonical c_envelope_v0 /\
  canonical c_namespace /\ canonical c_pivot /\ canonical c_pivot_v0 /\ canonical c_nitro /\
  canonical c_member_set /\ canonical c_patch_set /\ canonical c_member /\ canonical c_approval /\
  canonical c_bridge /\ canonical c_restart /\ canonical c_bytes /\ canonical c_string.
Proof. exact borsh_all_canonical. Qed.
Print Assumptions c28_borsh_canonical.

Example c28_nontrivial : wf c_envelope ex_envelope = true /\ wf c_envelope_v0 ex_envelope_v0 = true.
Proof. vm_compute. auto. Qed.

(** ** C29 V1/V0 never confused *)
Theorem c29_borsh_versions_exclusive : forall b v,
  dec_versioned_manifest b = Some v <->
  match v with
  | VM2 _ => False
  | VM1 m => (wf c_manifest m = true /\ b = enc c_manifest m) /\
             ~ exists m0, wf c_manifest_v0 m0 = true /\ b = enc c_manifest_v0 m0
  | VM0 m0 => (wf c_manifest_v0 m0 = true /\ b = enc c_manifest_v0 m0) /\
             ~ exists m, wf c_manifest m = true /\ b = enc c_manifest m
  end.
Proof. exact borsh_manifest_exclusive. Qed.
Print Assumptions c29_borsh_versions_exclusive.

Theorem c29_borsh_envelope_versions_exclusive : forall b v r,
  dec_versioned_envelope b = Some (v, r) <-> r = [] /\
  match v with
  | VE2 _ => False
  | VE1 m => (wf c_envelope m = true /\ b = enc c_envelope m) /\
             ~ exists m0, wf c_envelope_v0 m0 = true /\ b = enc c_envelope_v0 m0
  | VE0 m0 => (wf c_envelope_v0 m0 = true /\ b = enc c_envelope_v0 m0) /\
             ~ exists m, wf c_envelope m = true /\ b = enc c_envelope m
  end.
Proof. exact borsh_envelope_exclusive. Qed.
Print Assumptions c29_borsh_envelope_versions_exclusive.

(** the ambiguity that must be rejected does exist *)
Theorem c29_ambiguity_exists : exists m m0, wf c_manifest m = true /\ wf c_manifest_v0 m0 = true /\
  enc c_manifest m = enc c_manifest_v0 m0 /\ dec_versioned_manifest (enc c_manifest m) = None.
Proof. exact borsh_ambiguous. Qed.
Print Assumptions c29_ambiguity_exists.

(** ** C30 storage round trip *)
Theorem c30_envelope_storage_round_trip : forall e, wf_envelope e = true ->
  exists b, envelope_to_storage_vec e = Some b /\ envelope_try_from_slice_compat b = Some e.
Proof. exact envelope_storage. Qed.
Print Assumptions c30_envelope_storage_round_trip.

Theorem c30_manifest_storage_round_trip : forall m, wf_manifest m = true ->
  exists b, manifest_to_storage_vec m = Some b /\ manifest_try_from_slice_compat b = Some m.
Proof. exact manifest_storage. Qed.
Print Assumptions c30_manifest_storage_round_trip.

Example c30_nontrivial : wf_envelope (VE0 ex_envelope_v0) = true /\ wf_envelope (VE1 ex_envelope) = true
  /\ wf_envelope (VE2 ex_envelope_v2) = true.
Proof. vm_compute. auto. Qed.

(** ** C31 no fallback from a declared version *)
(** for documents that are valid JSON by the strict reader *)
Theorem c31_declared_version_no_fallback : forall b j m,
  parse_strict b = Some j -> jget (bs "manifest") j = Some m -> jget (bs "version") m <> None ->
  envelope_try_from_slice_compat b = None \/
  (exists e, envelope_try_from_slice_compat b = Some (VE2 e)).
Proof. exact declared_no_fallback. Qed.
Print Assumptions c31_declared_version_no_fallback.

Theorem c31_declared_version_manifest_no_fallback : forall b j,
  parse_strict b = Some j -> jget (bs "version") j <> None ->
  manifest_try_from_slice_compat b = None \/
  (exists e, manifest_try_from_slice_compat b = Some (VM2 e)).
Proof. exact declared_manifest_no_fallback. Qed.
Print Assumptions c31_declared_version_manifest_no_fallback.

(** a version other than "v2" is never accepted *)
Theorem c31_v2_means_v2 : forall b e, envelope_try_from_slice_compat b = Some (VE2 e) ->
  exists j m, parse_strict b = Some j /\ jget (bs "manifest") j = Some m /\
    (jget (bs "version") m = Some (str (bs "v2")) \/
     exists o, jget (bs "version") m = Some o /\ jget (bs "v2") o = Some JNull).
Proof. exact v2_means_v2. Qed.
Print Assumptions c31_v2_means_v2.

(** in full generality the claim is false: the version probe uses a stricter
    JSON reader than the V1 decoder it guards *)
Theorem c31_declared_version_refuted : exists b j m e,
  parse b = Some j /\ jget (bs "manifest") j = Some m /\ jget (bs "version") m = Some (str (bs "v2")) /\
  envelope_try_from_slice_compat b = Some (VE1 e).
Proof. exact declared_version_refuted. Qed.
Print Assumptions c31_declared_version_refuted.

(** ** C32 canonical JSON *)
Theorem c32_canonical_json_iff : forall a b, jok a = true -> jok b = true ->
  (canon a = canon b <-> jeq a b).
Proof. exact canon_iff. Qed.
Print Assumptions c32_canonical_json_iff.

Theorem c32_canonical_json_parses_back : forall a, jok a = true ->
  exists n t, canon a = Some t /\ parse t = Some n /\ jeq a n /\ canon n = Some t.
Proof. exact canon_parses_back. Qed.
Print Assumptions c32_canonical_json_parses_back.

(** the V2 manifest hash preimage determines the manifest *)
Theorem c32_manifest_v2_preimage_injective : forall m m', jwf js_manifest_v2 m = true -> jwf js_manifest_v2 m' = true ->
  canon (jser js_manifest_v2 m) = canon (jser js_manifest_v2 m') -> m = m'.
Proof. exact manifest_v2_canon_inj. Qed.
Print Assumptions c32_manifest_v2_preimage_injective.

Example c32_nontrivial :
  let a := JObj [(Some (bs "b"), JInt 7); (Some (bs "a"), JNull); (Some (bs "c"), JArr [JInt (-3)])] in
  let b := JObj [(Some (bs "c"), JArr [str (bs "-3")]); (Some (bs "b"), str (bs "7"))] in
  jok a = true /\ jok b = true /\ a <> b /\ canon a = Some (bs "{""b"":""7"",""c"":[""-3""]}") /\ canon a = canon b.
Proof. repeat split; try reflexivity. discriminate. Qed.

(** ** C38 manifest builder *)
Theorem c38_builder_exact : forall ops m,
  build (fold_left apply_setter ops builder_new) = Ok m <-> described ops m.
Proof. exact builder_described. Qed.
Print Assumptions c38_builder_exact.

Theorem c38_builder_fails_iff_incomplete : forall ops,
  is_ok (build (fold_left apply_setter ops builder_new)) = true <-> complete ops.
Proof. exact builder_complete. Qed.
Print Assumptions c38_builder_fails_iff_incomplete.

Example c38_nontrivial : exists ops m, described ops (VM2 m) /\ mf2_dns m <> None /\ pv2_env (mf2_pivot m) <> [].
Proof. exact builder_example. Qed.

(** ** C39 pivot environment *)
Theorem c39_env_limits : forall e, env_made e -> env_limits e.
Proof. exact made_limits. Qed.
Print Assumptions c39_env_limits.

Theorem c39_env_insert : forall n v e, env_made e -> name_new n = Some n -> value_new v = Some v ->
  (snd (env_insert n v e) = Err tt /\ fst (env_insert n v e) = e /\ map_get n e = None /\ length e = 512%nat) \/
  (snd (env_insert n v e) = Ok (map_get n e) /\
   (forall k, map_get k (fst (env_insert n v e)) = if bytes_eqb k n then Some v else map_get k e) /\
   (map_get n e <> None \/ (length e < 512)%nat)).
Proof. exact insert_spec. Qed.
Print Assumptions c39_env_insert.

Theorem c39_env_names_exact : forall n, name_new n = Some n <-> good_name n.
Proof. exact name_new_exact. Qed.
Print Assumptions c39_env_names_exact.

Theorem c39_env_values_exact : forall v, value_new v = Some v <-> good_value v.
Proof. exact value_new_exact. Qed.
Print Assumptions c39_env_values_exact.

Theorem c39_env_borsh_round_trip : forall e r, env_ok e = true -> env_dec (env_enc e ++ r) = Some (e, r).
Proof. exact env_dec_enc. Qed.
Print Assumptions c39_env_borsh_round_trip.

Example c39_nontrivial : env_made [(bs "A_1", bs "x=y"); (bs "_b", [])].
Proof. exact env_example. Qed.
