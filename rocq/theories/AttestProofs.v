(** Attestation checks decide exactly their specifications. *)
From Coq Require Import ZifyBool ZifyN ZifyNat.
From Verif Require Import Base Utf8 Hex HexProofs Json JsonProofs NormProofs CanonProofs Types TypesJson Msg World Attest
  SpecAttest ServiceProofs.
Local Open Scope N_scope.

(** *** Syntax *)
Lemma bytes_512_iff o : validate_bytes_512 o = Ok tt <-> forall u, o = Some u -> (length u <= 512)%nat.
Proof.
  unfold validate_bytes_512. destruct o as [u|].
  - rewrite lenN_length. destruct (512 <? N.of_nat (length u)) eqn:L; split; intros H; auto; try discriminate.
    + specialize (H u eq_refl). lia.
    + intros v Hv. inversion Hv; subst. lia.
  - split; [intros _ u Hu; discriminate Hu|reflexivity].
Qed.
Lemma public_key_iff o : validate_public_key o = Ok tt <-> forall u, o = Some u -> (1 <= length u <= 1024)%nat.
Proof.
  unfold validate_public_key. destruct o as [u|].
  - rewrite lenN_length. destruct ((1 <=? N.of_nat (length u)) && (N.of_nat (length u) <=? 1024)) eqn:L; split; intros H; auto; try discriminate.
    + intros v Hv. inversion Hv; subst. lia.
    + specialize (H u eq_refl). lia.
  - split; [intros _ u Hu; discriminate Hu|reflexivity].
Qed.
Lemma cabundle_iff l : validate_cabundle l = Ok tt <-> l <> [] /\ forall c, In c l -> (1 <= length c <= 1024)%nat.
Proof.
  unfold validate_cabundle. rewrite lenN_length.
  destruct (forallb (fun c => (1 <=? lenN c) && (lenN c <=? 1024)) l) eqn:F.
  - rewrite orb_false_r. rewrite forallb_forall in F.
    assert (G : forall c, In c l -> (1 <= length c <= 1024)%nat).
    { intros c Hc. specialize (F c Hc). rewrite lenN_length in F. lia. }
    destruct l as [|c l]; [split; [discriminate|intros [H _]; congruence]|].
    replace (1 <=? N.of_nat (length (c :: l))) with true by (cbn [length]; lia). cbn [negb orb].
    split; [intros _; split; [discriminate|exact G]|reflexivity].
  - rewrite orb_true_r. split; [discriminate|]. intros [_ G]. exfalso.
    assert (X : forallb (fun c => (1 <=? lenN c) && (lenN c <=? 1024)) l = true); [|congruence].
    apply forallb_forall. intros c Hc. specialize (G c Hc). rewrite lenN_length. lia.
Qed.
Lemma pcrs_iff l : validate_pcrs l = Ok tt <->
  (1 <= length l <= 32)%nat /\ forall i v, In (i, v) l -> i <= 32 /\ (length v = 32 \/ length v = 48 \/ length v = 64)%nat.
Proof.
  unfold validate_pcrs. rewrite lenN_length. set (P := fun '(idx, pcr) => _).
  destruct (forallb P l) eqn:F; cbn [negb orb].
  - rewrite forallb_forall in F.
    assert (G : forall i v, In (i, v) l -> i <= 32 /\ (length v = 32 \/ length v = 48 \/ length v = 64)%nat).
    { intros i v Hv. specialize (F _ Hv). cbn in F. rewrite lenN_length in F. lia. }
    destruct ((1 <=? N.of_nat (length l)) && (N.of_nat (length l) <=? 32)) eqn:C; cbn [negb].
    + split; [|reflexivity]. intros _. split; [lia|exact G].
    + split; [discriminate|]. intros [H _]. lia.
  - split; [discriminate|]. intros [_ G]. exfalso.
    assert (X : forallb P l = true); [|congruence].
    apply forallb_forall. intros [i v] Hv. specialize (G i v Hv). unfold P. rewrite lenN_length. lia.
Qed.
Lemma rbind_ok {E A} (r : result E unit) (f : unit -> result E A) a : rbind r f = Ok a <-> r = Ok tt /\ f tt = Ok a.
Proof. destruct r as [[]|e]; cbn; split; intros H; try tauto; try (destruct H; congruence); discriminate H. Qed.

Lemma syntax_iff d : validate_attestation_doc d = Ok tt <-> doc_syntax 32 d.
Proof.
  unfold validate_attestation_doc. rewrite !rbind_ok, pcrs_iff, cabundle_iff, public_key_iff, !bytes_512_iff.
  unfold doc_syntax, validate_module_id, validate_digest, validate_timestamp.
  assert (A : (match ad_module_id d with [] => Err AInvalidModuleId | _ :: _ => Ok tt end) = Ok tt <-> ad_module_id d <> [])
    by (destruct (ad_module_id d); split; congruence).
  assert (B : (if digest_eqb (ad_digest d) SHA384 then Ok tt else Err AInvalidDigest) = Ok tt <-> ad_digest d = SHA384)
    by (destruct (ad_digest d); cbn; split; congruence).
  assert (C : (if ad_timestamp d =? 0 then Err AInvalidTimeStamp else Ok tt) = Ok tt <-> ad_timestamp d <> 0)
    by (destruct (ad_timestamp d =? 0) eqn:E; split; intros; try congruence; lia).
  rewrite A, B, C. tauto.
Qed.

(** *** Matching *)
Section AT.
  Context (Y : sys).
  Lemma check_pcr_iff d i v : check_pcr d i v = Ok tt <-> pcr_is d i v.
  Proof.
    unfold check_pcr, pcr_is. destruct (alookup i (ad_pcrs d)) as [w|]; [|split; discriminate].
    destruct (bytes_eqb v w) eqn:E.
    - apply bytes_eqb_eq in E as ->. tauto.
    - split; [discriminate|]. intros H. inversion H; subst. now rewrite bytes_eqb_refl in E.
  Qed.
  Lemma user_input_iff d ud p0 p1 p2 p3 : verify_user_input d ud p0 p1 p2 p3 = Ok tt <-> doc_matches d ud p0 p1 p2 p3.
  Proof.
    unfold verify_user_input, doc_matches. destruct (ad_user_data d) as [u|].
    2:{ split; [discriminate|]. intros [H _]. discriminate H. }
    destruct (bytes_eqb ud u) eqn:E; cbn [negb].
    2:{ split; [discriminate|]. intros [H _]. inversion H; subst. now rewrite bytes_eqb_refl in E. }
    apply bytes_eqb_eq in E as ->. destruct (ad_nonce d); cbn [is_some].
    { split; [discriminate|]. intros (_ & H & _). discriminate H. }
    rewrite !rbind_ok, !check_pcr_iff. tauto.
  Qed.

  (** *** The commitment text *)
  Lemma norm_commitment k mh pk : norm (commitment_json k mh pk) =
    Some (JObj [(Some (bs "domain"), str (domain k)); (Some (bs "ephemeralPublicKey"), str (encode pk));
                (Some (bs "manifestHash"), str (encode mh))]).
  Proof. unfold commitment_json. generalize (encode mh) (encode pk). intros a b. destruct k; vm_compute; reflexivity. Qed.
  Lemma esc_encode l : concat (map esc_byte (encode l)) = encode l.
  Proof.
    induction l as [|x l IH]; [reflexivity|]. change (encode (x :: l)) with (hex_pair x ++ encode l).
    rewrite map_app, concat_app, IH. f_equal.
    assert (H : forall b, bytes_eqb (concat (map esc_byte (hex_pair b))) (hex_pair b) = true).
    { apply byte_sweep. vm_compute. reflexivity. }
    apply bytes_eqb_eq, H.
  Qed.
  Lemma canon_commitment k mh pk : canon (commitment_json k mh pk) = Some (commitment_text k mh pk).
  Proof.
    unfold canon. rewrite norm_commitment. cbn [obind]. f_equal. cbn [write map fst snd opt_str str].
    unfold write_str. rewrite !esc_encode. unfold commitment_text.
    generalize (encode mh) (encode pk). intros a b. destruct k; cbn; repeat (rewrite <- ?app_assoc; cbn); reflexivity.
  Qed.
  Lemma preimage_text k mh pk : commitment_preimage k mh pk = commitment_text k mh pk.
  Proof. unfold commitment_preimage. now rewrite canon_commitment. Qed.

  Lemma text_inj k mh pk k' mh' pk' : commitment_text k mh pk = commitment_text k' mh' pk' -> k = k' /\ mh = mh' /\ pk = pk'.
  Proof.
    intros E.
    assert (C : Some (JObj [(Some (bs "domain"), str (domain k)); (Some (bs "ephemeralPublicKey"), str (encode pk));
                (Some (bs "manifestHash"), str (encode mh))]) =
               Some (JObj [(Some (bs "domain"), str (domain k')); (Some (bs "ephemeralPublicKey"), str (encode pk'));
                (Some (bs "manifestHash"), str (encode mh'))])).
    { rewrite <- !norm_commitment.
      assert (U : forall l, utf8_valid (encode l) = true) by (intros; apply ascii_valid, encode_ascii).
      apply canon_norm; [| |rewrite !canon_commitment; congruence];
        unfold commitment_json; cbn; rewrite !U; destruct k, k'; reflexivity. }
    assert (D : forall x y, domain x = domain y -> x = y) by (intros [] []; cbn; intros X; auto; discriminate X).
    injection C as C1 C2 C3. repeat split; [now apply D|now apply encode_inj|now apply encode_inj].
  Qed.

  Lemma commitment_value_text k mh pk : commitment_value Y k mh pk = committed_value Y k mh pk.
  Proof. unfold commitment_value, committed_value. now rewrite preimage_text. Qed.

  Lemma expected_commitment k mh pk : expected_commitment_pcr Y k mh pk = Ok (committed_value Y k mh pk).
  Proof.
    unfold expected_commitment_pcr, pcr_extend_sha384, manifest_pcr_commitment. change (lenN INITIAL_PCR =? 48) with true.
    cbv iota. now rewrite preimage_text.
  Qed.

  Lemma attestable_iff pcrs : all_attestable pcrs = None <-> forall i, i < 32 -> exists v, alookup i pcrs = Some v.
  Proof.
    unfold all_attestable. split.
    - intros H i Hi. assert (In i (map N.of_nat (seq 0 32))).
      { apply in_map_iff. exists (N.to_nat i). split; [lia|]. apply in_seq. lia. }
      pose proof (find_none _ _ H i H0) as F. cbn in F. destruct (alookup i pcrs); [eauto|discriminate F].
    - intros H. destruct (find _ _) as [i|] eqn:F; [|reflexivity]. exfalso. apply find_some in F as [I F].
      apply in_map_iff in I as (n & <- & Hn). apply in_seq in Hn.
      destruct (H (N.of_nat n)) as (v & Hv); [lia|]. rewrite Hv in F. discriminate F.
  Qed.

  Lemma commitment_iff d k mh : verify_commitment Y d k mh = Ok tt <-> doc_commits Y k d mh.
  Proof.
    unfold verify_commitment, doc_commits, pcr_is.
    destruct (all_attestable (ad_pcrs d)) as [i|] eqn:A.
    - split; [discriminate|]. intros [H _]. apply attestable_iff in H. congruence.
    - rewrite attestable_iff in A. destruct (ad_public_key d) as [pk|].
      2:{ split; [discriminate|]. intros (_ & pk & H & _). discriminate H. }
      rewrite expected_commitment. cbn [rbind].
      change (match k with Setup => 16 | Live => 17 end) with (pcr_index k).
      destruct (alookup (pcr_index k) (ad_pcrs d)) as [v|].
      2:{ split; [discriminate|]. intros (_ & p & _ & H). discriminate H. }
      destruct (bytes_eqb v (committed_value Y k mh pk)) eqn:E.
      + apply bytes_eqb_eq in E as ->. split; [|reflexivity]. intros _. split; [exact A|]. eauto.
      + split; [discriminate|]. intros (_ & p & Hp & H). inversion Hp; inversion H; subst. now rewrite bytes_eqb_refl in E.
  Qed.

  Lemma against_manifest_iff k d mh p0 p1 p2 p3 : verify_against_manifest Y k d mh p0 p1 p2 p3 = Ok tt <->
    doc_matches d mh p0 p1 p2 p3 /\ doc_commits Y k d mh.
  Proof. unfold verify_against_manifest. now rewrite rbind_ok, user_input_iff, commitment_iff. Qed.

  Lemma from_der_iff cose root t d : attestation_doc_from_der Y cose root t = Ok d <->
    s_doc Y cose = Some d /\ doc_syntax 32 d /\ s_chain_ok Y (tl (ad_cabundle d)) root (ad_certificate d) t = true
    /\ s_cose_sig_ok Y (ad_certificate d) cose = true.
  Proof.
    unfold attestation_doc_from_der. destruct (s_doc Y cose) as [d'|].
    2:{ split; [discriminate|]. intros [H _]. discriminate H. }
    rewrite rbind_ok, syntax_iff.
    destruct (s_chain_ok Y (tl (ad_cabundle d')) root (ad_certificate d') t) eqn:C.
    2:{ split; [intros [_ H]; discriminate H|]. intros (H & _ & H' & _). inversion H; subst. congruence. }
    destruct (s_cose_sig_ok Y (ad_certificate d') cose) eqn:S.
    2:{ split; [intros [_ H]; discriminate H|]. intros (H & _ & _ & H'). inversion H; subst. congruence. }
    split.
    - intros [H E]. inversion E; subst. auto.
    - intros (H & H1 & _). inversion H; subst. auto.
  Qed.
End AT.
