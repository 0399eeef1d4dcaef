(** C93: white space, string spelling and member order of JSON files and
    requests do not matter. *)
From Coq Require Import Permutation ZifyBool ZifyN ZifyNat.
From Verif Require Import Base Utf8 Hex Borsh BorshProofs Json JsonProofs SpecLayout LayoutProofs Types TypesBorsh TypesJson TypesJsonProofs TypesJsonLaws Env JsonComb Msg MsgBorsh MsgJson
  ReorderProofs Wire CodecExamples PropsConvert ClientCli.
Local Open Scope N_scope.

(** ** What a writer writes is a document *)
Lemma esc_byte_spells s t c : spells s t -> spells (c :: s) (esc_byte c ++ t).
Proof.
  intros H. unfold esc_byte.
  destruct (byte_eqb_spec c x22) as [-> |N1]; [apply (sp_esc x22 x22); [now left|exact H]|].
  destruct (byte_eqb_spec c x5c) as [-> |N2]; [apply (sp_esc x5c x5c); [right; now left|exact H]|].
  destruct (N.ltb_spec (b2n c) 32) as [L|G].
  - destruct c; cbn in L; try lia; cbn;
      solve [ eapply sp_esc; [cbn; tauto|exact H] 
            | match goal with |- spells (?x :: s) (_ :: _ :: ?a :: ?b :: ?c :: ?d :: _) =>
                refine (sp_unicode a b c d (b2n x) s t _ _ H); [reflexivity|cbn; lia] end ].
  - now apply sp_raw.
Qed.
Lemma write_str_quoted s : utf8_valid s = true -> quoted s (write_str s).
Proof.
  intros U. split; [exact U|]. exists (concat (map esc_byte s)). split; [|reflexivity].
  clear U. induction s as [|c s IH]; [constructor|]. cbn [map concat]. now apply esc_byte_spells.
Qed.
Lemma blank_nil : blank []. Proof. constructor. Qed.
#[local] Hint Resolve blank_nil : core.
Lemma written_laid : forall j, jok j = true -> laid j (write j).
Proof.
  induction j as [| [] |z|raw|s|l IH|m IH] using json_ind'; intros O; try discriminate.
  - exact la_null.
  - exact la_true.
  - exact la_false.
  - apply la_int. cbn [jok] in O. lia.
  - cbn [jok] in O. destruct s as [s|]; [|discriminate]. apply la_str. now apply write_str_quoted.
  - destruct l as [|x l]; [exact (la_arr0 [] blank_nil)|].
    change (write (JArr (x :: l))) with ("["%byte :: write x ++ tail_elems l ++ ["]"%byte]). apply la_arr.
    cbn [jok] in O. revert x IH O. induction l as [|y l IHl]; intros x IH O; inversion IH as [|? ? IX IH']; subst; cbn [forallb] in O;
      apply andb_true_iff in O as [OX OL].
    + exact (le_last x (write x) [] [] (IX OX) blank_nil blank_nil).
    + unfold tail_elems in *. cbn [map].
      change (concat ((","%byte :: write y) :: map (fun y0 => ","%byte :: write y0) l) ++ ["]"%byte])
        with (","%byte :: (write y ++ concat (map (fun y0 => ","%byte :: write y0) l)) ++ ["]"%byte]).
      rewrite <- app_assoc. exact (le_more x (write x) [] [] (y :: l) _ (IX OX) blank_nil blank_nil (IHl y IH' OL)).
  - destruct m as [|[k x] m]; [exact (la_obj0 [] blank_nil)|].
    change (write (JObj ((k, x) :: m))) with ("{"%byte :: write_str (opt_str k) ++ ":"%byte :: write x ++ tail_members m ++ ["}"%byte]). apply la_obj.
    cbn [jok] in O. revert k x IH O. induction m as [|[k' y] m IHm]; intros k x IH O; inversion IH as [|? ? IX IH']; subst; cbn [forallb fst snd] in O, IX;
      apply andb_true_iff in O as [OX OL]; apply andb_true_iff in OX as [OK OX]; destruct k as [k|]; try discriminate; cbn [okey opt_str] in *.
    + exact (lm_last k (write_str k) x (write x) [] [] [] [] (write_str_quoted k OK) (IX OX) blank_nil blank_nil blank_nil blank_nil).
    + specialize (IHm k' y IH' OL). unfold tail_members in *. cbn [map fst snd].
      change (concat ((","%byte :: write_str (opt_str k') ++ ":"%byte :: write y) :: map (fun p => ","%byte :: write_str (opt_str (fst p)) ++ ":"%byte :: write (snd p)) m) ++ ["}"%byte])
        with (","%byte :: ((write_str (opt_str k') ++ ":"%byte :: write y) ++ concat (map (fun p => ","%byte :: write_str (opt_str (fst p)) ++ ":"%byte :: write (snd p)) m)) ++ ["}"%byte]).
      rewrite <- !app_assoc. cbn [app].
      exact (lm_more k (write_str k) x (write x) [] [] [] [] ((k', y) :: m) _ (write_str_quoted k OK) (IX OX) blank_nil blank_nil blank_nil blank_nil IHm).
Qed.
Lemma written_document j : jok j = true -> document j (write j).
Proof. intros O. exists [], (write j), []. repeat split; try constructor; [now apply written_laid|now rewrite app_nil_r]. Qed.

(** ** Readers *)
Lemma same_read {A} (c : jcodec A) b b' : respects c -> same_document b b' -> json_from_slice c b = json_from_slice c b'.
Proof.
  intros C (j & j' & D & D' & R). unfold json_from_slice. rewrite (document_parse j b D), (document_parse j' b' D'). now apply C.
Qed.
Lemma jget_re k j j' : reordered j j' -> orel (jget k j) (jget k j').
Proof. intros R. ro_cases R; try exact I. now apply obj_find. Qed.
Lemma parse_strict_re b b' : same_document b b' ->
  match parse_strict b, parse_strict b' with Some j, Some j' => reordered j j' | None, None => True | _, _ => False end.
Proof.
  intros (j & j' & D & D' & R). unfold parse_strict. rewrite (document_parse j b D), (document_parse j' b' D'), (strict_re j MAX_DEPTH j' R).
  destruct (strict MAX_DEPTH j'); [exact R|exact I].
Qed.
Lemma declares_re b b' : same_document b b' -> declares_a_version b = declares_a_version b'.
Proof.
  intros S. apply parse_strict_re in S. unfold declares_a_version. destruct (parse_strict b) as [j|], (parse_strict b') as [j'|]; try contradiction; [|reflexivity].
  apply (jget_re (bs "version")) in S. destruct (jget _ j), (jget _ j'); cbn [orel] in S; try contradiction; reflexivity.
Qed.
Lemma enveloped_declares_re b b' : same_document b b' -> enveloped_manifest_declares_a_version b = enveloped_manifest_declares_a_version b'.
Proof.
  intros S. apply parse_strict_re in S. unfold enveloped_manifest_declares_a_version. destruct (parse_strict b) as [j|], (parse_strict b') as [j'|]; try contradiction; [|reflexivity].
  apply (jget_re (bs "manifest")) in S. destruct (jget (bs "manifest") j) as [x|], (jget (bs "manifest") j') as [y|]; cbn [orel] in S; try contradiction; [|reflexivity].
  apply (jget_re (bs "version")) in S. destruct (jget _ x), (jget _ y); cbn [orel] in S; try contradiction; reflexivity.
Qed.
Lemma json_not_borsh_manifest {V} (f : manifest -> V) g b j : parse b = Some j -> decode_borsh c_manifest c_manifest_v0 f g b = None.
Proof.
  intros P. destruct (decode_borsh c_manifest c_manifest_v0 f g b) as [v|] eqn:E; [|reflexivity]. exfalso.
  apply decode_borsh_exact in E; [|apply c_manifest_lawful|apply c_manifest_v0_lawful].
  destruct E as [(t & _ & (_ & ->) & _)|(t & _ & (_ & ->) & _)];
    [rewrite (c74_borsh_is_never_json _ (BF_manifest t)) in P|rewrite (c74_borsh_is_never_json _ (BF_manifest_v0 t)) in P]; discriminate.
Qed.
Lemma json_not_borsh_envelope {V} (f : manifest_envelope -> V) g b j : parse b = Some j -> decode_borsh c_envelope c_envelope_v0 f g b = None.
Proof.
  intros P. destruct (decode_borsh c_envelope c_envelope_v0 f g b) as [v|] eqn:E; [|reflexivity]. exfalso.
  apply decode_borsh_exact in E; [|apply c_envelope_lawful|apply c_envelope_v0_lawful].
  destruct E as [(t & _ & (_ & ->) & _)|(t & _ & (_ & ->) & _)];
    [rewrite (c74_borsh_is_never_json _ (BF_envelope t)) in P|rewrite (c74_borsh_is_never_json _ (BF_envelope_v0 t)) in P]; discriminate.
Qed.

(** A text of a JSON value is read as that value. *)
Theorem c93_any_layout_is_read : forall j b, document j b -> parse b = Some j.
Proof. exact document_parse. Qed.
Print Assumptions c93_any_layout_is_read.

(** Manifest and envelope files: any layout and any member order give the same
    manifest or envelope, or are refused alike. *)
Theorem c93_manifest_in_any_order : forall b b', same_document b b' ->
  manifest_try_from_slice_compat b = manifest_try_from_slice_compat b'.
Proof.
  intros b b' S. unfold manifest_try_from_slice_compat.
  rewrite (declares_re b b' S), (same_read _ b b' re_manifest_v2 S), (same_read _ b b' re_manifest S), (same_read _ b b' re_manifest_v0 S).
  destruct S as (j & j' & D & D' & _).
  rewrite (json_not_borsh_manifest VM1 VM0 b j (document_parse _ _ D)), (json_not_borsh_manifest VM1 VM0 b' j' (document_parse _ _ D')). reflexivity.
Qed.
Print Assumptions c93_manifest_in_any_order.
Theorem c93_envelope_in_any_order : forall b b', same_document b b' ->
  envelope_try_from_slice_compat b = envelope_try_from_slice_compat b'.
Proof.
  intros b b' S. unfold envelope_try_from_slice_compat.
  rewrite (enveloped_declares_re b b' S), (same_read _ b b' re_envelope_v2 S), (same_read _ b b' re_envelope S), (same_read _ b b' re_envelope_v0 S).
  destruct S as (j & j' & D & D' & _).
  rewrite (json_not_borsh_envelope VE1 VE0 b j (document_parse _ _ D)), (json_not_borsh_envelope VE1 VE0 b' j' (document_parse _ _ D')). reflexivity.
Qed.
Print Assumptions c93_envelope_in_any_order.
(** Requests to the enclave (and its replies, read by the client). *)
Theorem c93_message_in_any_order : forall b b', same_document b b' -> forall m,
  from_wire b = Ok (m, EJson) <-> from_wire b' = Ok (m, EJson).
Proof.
  intros b b' S m. unfold from_wire. rewrite (same_read _ b b' re_msg S). destruct (json_from_slice js_msg b') as [x|]; [reflexivity|].
  assert (Z : forall c : bytes, match from_slice c_msg c with
              | Some m0 => if is_genesis m0 then Err LegacyGenesisNotSupported else Ok (m0, EBorsh) | None => Err ProtocolMsgDeserialization end <> Ok (m, EJson)).
  { intros c. destruct (from_slice c_msg c) as [x|]; [destruct (is_genesis x)|]; discriminate. }
  split; intros E; now apply Z in E.
Qed.
Print Assumptions c93_message_in_any_order.
(** Approval files and the bridge configuration given to the client. *)
Theorem c93_client_input_in_any_order : forall b b', same_document b b' ->
  json_from_slice js_approval b = json_from_slice js_approval b' /\ bridge_config_from b = bridge_config_from b'.
Proof.
  intros b b' S. split; [exact (same_read _ b b' re_approval S)|]. unfold bridge_config_from.
  now rewrite (same_read _ b b' (re_vec _ re_bridge) S).
Qed.
Print Assumptions c93_client_input_in_any_order.

(** The member order of arrays does matter, and a member given twice is not
    just another order: both are outside [same_document]. *)
Example c93_nontrivial : exists b b', same_document b b' /\ b <> b' /\ manifest_try_from_slice_compat b = Some (VM2 ex_manifest_v2)
  /\ manifest_try_from_slice_compat b' = Some (VM2 ex_manifest_v2).
Proof.
  set (j := jser js_manifest_v2 ex_manifest_v2).
  destruct j as [| | | | | |m] eqn:J; try (vm_compute in J; discriminate).
  assert (O : jok (JObj m) = true) by (rewrite <- J; vm_compute; reflexivity).
  assert (O' : jok (JObj (rev m)) = true).
  { cbn [jok] in *. rewrite forallb_forall in *. intros p I. apply O. now apply in_rev. }
  assert (R : reordered (JObj m) (JObj (rev m))).
  { apply (ro_obj m m (rev m)).
    - apply mem_refl.
    - assert (K : map fst m = map Some [bs "version"; bs "namespace"; bs "pivot"; bs "manifestSet"; bs "shareSet"; bs "enclave"; bs "dns"]).
      { injection J as <-. vm_compute. reflexivity. }
      rewrite K. clear. cbn [map]. 
      repeat (constructor; [cbn [In]; intros I; repeat (destruct I as [I|I]; [discriminate I|]); exact I|]). constructor.
    - apply Permutation_rev. }
  assert (S : same_document (write (JObj m)) (x20 :: write (JObj (rev m)) ++ [x0a])).
  { exists (JObj m), (JObj (rev m)). split; [now apply written_document|]. split; [|exact R].
    exists [x20], (write (JObj (rev m))), [x0a]. split; [repeat constructor|]. split; [constructor; [right; right; now left|constructor]|].
    split; [now apply written_laid|reflexivity]. }
  assert (E : manifest_try_from_slice_compat (write (JObj m)) = Some (VM2 ex_manifest_v2)).
  { rewrite <- J. vm_compute. reflexivity. }
  exists (write (JObj m)), (x20 :: write (JObj (rev m)) ++ [x0a]). split; [exact S|]. split.
  - destruct m as [|[k x] m]; [discriminate|]. cbn [write]. discriminate.
  - split; [exact E|]. now rewrite <- (c93_manifest_in_any_order _ _ S).
Qed.
