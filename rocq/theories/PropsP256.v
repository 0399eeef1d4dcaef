(** C41: the key set. *)
From Coq Require Import ZifyBool ZifyN ZifyNat.
From Verif Require Import Base Utf8 Hex SpecHex HexProofs Borsh BorshProofs Msg P256 SpecP256.
Local Open Scope N_scope.

Lemma app_len_inj {A} (a b c d : list A) : a ++ b = c ++ d -> length a = length c -> a = c /\ b = d.
Proof.
  revert c. induction a as [|x a IH]; intros [|y c] E L; cbn in *; try discriminate; [auto|].
  injection E as -> E. destruct (IH c E) as [-> ->]; [congruence|auto].
Qed.

(** *** Public keys *)
Theorem c41_public_key_layout Q b k :
  public_from_bytes Q b = Ok k <-> key_layout Q b (pb_encrypt k) (pb_sign k).
Proof.
  unfold public_from_bytes, key_layout, point_from_bytes, PUB_KEY_LEN. rewrite !lenN_length, firstn_length, skipn_length. split.
  - destruct (2 * 65 <? N.of_nat (length b)) eqn:L1; [discriminate|]. destruct (N.of_nat (length b) <? 2 * 65) eqn:L2; [discriminate|].
    assert (length b = 130%nat) as L by lia. rewrite L. cbn [Nat.min Nat.sub].
    change (65 <? N.of_nat 65) with false. change (N.of_nat 65 <? 65) with false. cbv iota.
    destruct (q_point_ok Q (firstn 65 b)) eqn:P1; [|discriminate]. destruct (q_point_ok Q (skipn 65 b)) eqn:P2; [|discriminate].
    intros E. assert (k = Public (firstn 65 b) (skipn 65 b)) as -> by congruence. clear E. cbn [pb_encrypt pb_sign].
    split; [symmetry; apply firstn_skipn|]. rewrite firstn_length, skipn_length, L. auto.
  - intros (-> & L1 & L2 & P1 & P2). rewrite app_length, L1, L2. cbn [Nat.add Nat.min Nat.sub].
    change (2 * 65 <? N.of_nat 130) with false. change (N.of_nat 130 <? 2 * 65) with false. change (65 <? N.of_nat 65) with false. change (N.of_nat 65 <? 65) with false. cbv iota.
    rewrite firstn_app, L1, Nat.sub_diag, firstn_O, app_nil_r, firstn_all2 by lia.
    rewrite skipn_app, L1, Nat.sub_diag, skipn_O, skipn_all2 by lia. cbn [app]. rewrite P1, P2. now destruct k.
Qed.
Print Assumptions c41_public_key_layout.

Theorem c41_public_key_round_trip Q b k : public_from_bytes Q b = Ok k -> public_to_bytes k = b.
Proof. intros H. apply c41_public_key_layout in H as (E & _). now symmetry. Qed.
Print Assumptions c41_public_key_round_trip.


(** What reading refuses, and why: only the length decides between the errors. *)
Theorem c41_public_key_refusals Q b e : public_from_bytes Q b = Err e ->
  (130 < lenN b /\ e = EncodedPublicKeyTooLong) \/ (lenN b < 130 /\ e = EncodedPublicKeyTooShort)
  \/ (lenN b = 130 /\ e = FailedToReadPublicKey).
Proof.
  unfold public_from_bytes, PUB_KEY_LEN.
  destruct (2 * 65 <? lenN b) eqn:L1; [intros E; injection E as <-; left; split; [lia|reflexivity]|].
  destruct (lenN b <? 2 * 65) eqn:L2; [intros E; injection E as <-; right; left; split; [lia|reflexivity]|].
  intros H. right. right. split; [lia|]. destruct (point_from_bytes Q (firstn 65 b)); [|congruence].
  destruct (point_from_bytes Q (skipn 65 b)); congruence.
Qed.
Print Assumptions c41_public_key_refusals.

Definition ascii_white (w : bytes) : Prop := forallb (fun b => (b2n b <? 128) && is_white (b2n b))%bool w = true.

Lemma seed_pair Q seed p : pair_from_master_seed Q seed = Ok p ->
  p = Pair (q_hkdf Q (bs "qos_p256_encrypt") seed) (q_hkdf Q (bs "qos_p256_sign") seed) seed (q_hkdf Q (bs "qos_aes_gcm_encrypt") seed)
  /\ q_scalar_ok Q (pr_encrypt p) = true /\ q_scalar_ok Q (pr_sign p) = true.
Proof.
  unfold pair_from_master_seed, derive_secret, secret_from_bytes. cbn [rbind].
  change P256_ENCRYPT_DERIVE_PATH with (bs "qos_p256_encrypt"). change P256_SIGN_DERIVE_PATH with (bs "qos_p256_sign"). change AES_GCM_256_PATH with (bs "qos_aes_gcm_encrypt").
  destruct (q_scalar_ok Q (q_hkdf Q (bs "qos_p256_encrypt") seed)) eqn:A; [|discriminate]. cbn [rbind].
  destruct (q_scalar_ok Q (q_hkdf Q (bs "qos_p256_sign") seed)) eqn:B; [|discriminate]. cbn [rbind].
  intros E. injection E as <-. auto.
Qed.

(** The public key of a pair, written to bytes or to a hex file (with any ASCII
    white space around it), reads back as the same key. *)
Theorem c41_pair_public_key_reads_back Q seed p w1 w2 : prims_ok Q -> pair_from_master_seed Q seed = Ok p ->
  ascii_white w1 -> ascii_white w2 ->
  public_from_bytes Q (public_to_bytes (public_key Q p)) = Ok (public_key Q p)
  /\ public_of_hex Q (w1 ++ public_hex (public_key Q p) ++ w2) = Ok (public_key Q p).
Proof.
  intros OK H W1 W2. apply seed_pair in H as (_ & A & B). destruct (l_pub Q OK _ A) as [La Pa]. destruct (l_pub Q OK _ B) as [Lb Pb].
  rewrite lenN_length in La, Lb.
  assert (R : public_from_bytes Q (public_to_bytes (public_key Q p)) = Ok (public_key Q p)).
  { apply c41_public_key_layout. unfold key_layout, public_to_bytes, public_key. cbn [pb_encrypt pb_sign]. repeat split; auto; lia. }
  split; [exact R|]. unfold public_of_hex, public_hex. rewrite decode_from_vec_encode; [exact R|exact W1|exact W2|].
  unfold public_to_bytes, public_key. cbn [pb_encrypt pb_sign]. rewrite lenN_length, app_length. unfold STR_MAX_LENGTH. lia.
Qed.
Print Assumptions c41_pair_public_key_reads_back.

(** *** Pairs *)
(** SPEC.md "Secret Management": the three secrets are HKDF outputs of the seed
    under three different salts; generating is drawing a seed. *)
Theorem c41_pair_is_derived Q seed p : pair_from_master_seed Q seed = Ok p ->
  pr_seed p = seed /\ pr_sign p = q_hkdf Q (bs "qos_p256_sign") seed /\ pr_encrypt p = q_hkdf Q (bs "qos_p256_encrypt") seed
  /\ pr_aes p = q_hkdf Q (bs "qos_aes_gcm_encrypt") seed
  /\ NoDup [bs "qos_p256_sign"; bs "qos_p256_encrypt"; bs "qos_aes_gcm_encrypt"].
Proof.
  intros H. apply seed_pair in H as (E & _). rewrite E. cbn [pr_seed pr_sign pr_encrypt pr_aes]. repeat (split; [reflexivity|]).
  repeat constructor; cbn [In]; intros H; repeat (destruct H as [H|H]; [discriminate H|]); exact H.
Qed.
Print Assumptions c41_pair_is_derived.
Theorem c41_generate_is_a_random_seed Q rnd : pair_generate Q rnd = pair_from_master_seed Q rnd.
Proof. reflexivity. Qed.
Print Assumptions c41_generate_is_a_random_seed.

(** A saved pair reads back as the same pair, white space around the hex being ignored. *)
Theorem c41_saved_pair_reads_back Q seed p w1 w2 : pair_from_master_seed Q seed = Ok p -> length seed = 32%nat ->
  ascii_white w1 -> ascii_white w2 -> pair_of_hex Q (w1 ++ pair_hex p ++ w2) = Ok p.
Proof.
  intros H L W1 W2. pose proof (seed_pair Q seed p H) as (E & _). unfold pair_hex. rewrite E. cbn [pr_seed]. rewrite <- E.
  unfold pair_of_hex.
  assert (Sp : forall w, ascii_white w -> forallb (fun b => b2n b <? 128) w = true /\ forallb is_white (map b2n w) = true).
  { unfold ascii_white. induction w as [|b w IH]; [now split|]. cbn [forallb map]. intros X. apply andb_true_iff in X as [X X'].
    apply andb_true_iff in X as [-> ->]. apply IH in X' as [-> ->]. now split. }
  apply Sp in W1 as [A1 W1], W2 as [A2 W2].
  rewrite utf8_dec_ascii by (rewrite !forallb_app, A1, A2, encode_ascii; reflexivity).
  rewrite !map_app, trim_surround; auto using encode_not_white. rewrite utf8_enc_ascii by apply encode_ascii.
  pose proof (decode_to_buf_encode seed) as D. rewrite lenN_length, L in D. change (N.of_nat 32) with 32 in D. rewrite D. exact H.
Qed.
Print Assumptions c41_saved_pair_reads_back.

(** *** Associated data determines sender and receiver *)
Theorem c41_aad_determines_parties s r s' r' a :
  create_aad s r = Ok a -> create_aad s' r' = Ok a -> s = s' /\ r = r'.
Proof.
  unfold create_aad. intros H H'.
  destruct (255 <? lenN s) eqn:S1; [discriminate|]. destruct (255 <? lenN r) eqn:R1; [discriminate|].
  destruct (255 <? lenN s') eqn:S2; [discriminate|]. destruct (255 <? lenN r') eqn:R2; [discriminate|].
  injection H as <-. injection H' as E.
  assert (X : (s' ++ [n2b (lenN s')] ++ r') ++ [n2b (lenN r')] = (s ++ [n2b (lenN s)] ++ r) ++ [n2b (lenN r)]).
  { rewrite <- !app_assoc. exact E. }
  apply app_inj_tail in X as [X Y]. apply (f_equal b2n) in Y. rewrite !b2n_n2b, !N.mod_small in Y by lia.
  rewrite !lenN_length in Y.
  assert (X' : (s' ++ [n2b (lenN s')]) ++ r' = (s ++ [n2b (lenN s)]) ++ r) by (rewrite <- !app_assoc; exact X).
  apply app_len_inj in X' as [Z ->].
  - apply app_inj_tail in Z as [-> _]. auto.
  - apply (f_equal (@length byte)) in X'. rewrite !app_length in *. cbn [length] in *. lia.
Qed.
Print Assumptions c41_aad_determines_parties.

(** *** Envelopes *)
Lemma envelope_iff env nonce sender c : from_slice c_envelope env = Some (nonce, (sender, c)) <-> envelope_layout env nonce sender c.
Proof.
  assert (L : lawful c_envelope) by (apply c_pair_lawful; [apply c_fixed_lawful|apply c_pair_lawful; [apply c_fixed_lawful|apply c_bytes_lawful]]).
  rewrite (lawful_slice_iff _ L). unfold envelope_layout, c_envelope. cbn [wf enc c_pair c_fixed c_bytes fst snd].
  rewrite !andb_true_iff, !Nat.eqb_eq, N.ltb_lt. change U32_LIMIT with (2 ^ 32). tauto.
Qed.
Lemma sym_envelope_iff env nonce c : from_slice c_sym_envelope env = Some (nonce, c) <-> sym_envelope_layout env nonce c.
Proof.
  assert (L : lawful c_sym_envelope) by (apply c_pair_lawful; [apply c_fixed_lawful|apply c_bytes_lawful]).
  rewrite (lawful_slice_iff _ L). unfold sym_envelope_layout, c_sym_envelope. cbn [wf enc c_pair c_fixed c_bytes fst snd].
  rewrite !andb_true_iff, !Nat.eqb_eq, N.ltb_lt. change U32_LIMIT with (2 ^ 32). tauto.
Qed.
Lemma aad_65 s r : length s = 65%nat -> length r = 65%nat -> create_aad s r = Ok (hpke_aad s r).
Proof.
  intros A B. unfold create_aad, hpke_aad. rewrite !lenN_length, A, B. reflexivity.
Qed.

(** Decryption accepts exactly the envelopes of the written format whose
    ciphertext opens under the key and associated data of SPEC.md, and one
    envelope has one reading. *)
Theorem c41_decrypt_follows_the_format Q private env m : prims_ok Q -> q_scalar_ok Q private = true ->
  (decrypt Q private env = Ok m <->
   exists nonce sender c, envelope_layout env nonce sender c /\ q_point_ok Q sender = true
     /\ q_open Q (hpke_key Q sender (q_pub Q private) (q_dh Q private sender)) nonce (hpke_aad sender (q_pub Q private)) c = Some m).
Proof.
  intros OK SK. destruct (l_pub Q OK _ SK) as [Lp _]. rewrite lenN_length in Lp. unfold decrypt. split.
  - destruct (from_slice c_envelope env) as [[nonce [sender c]]|] eqn:E; [|discriminate]. apply envelope_iff in E.
    destruct (q_point_ok Q sender) eqn:P; [|discriminate]. cbn [negb]. cbv zeta.
    pose proof E as (_ & _ & Ls & _). rewrite aad_65 by (assumption || lia). cbn [rbind].
    change (cipher_key Q (q_dh Q private sender) sender (q_pub Q private)) with (hpke_key Q sender (q_pub Q private) (q_dh Q private sender)).
    destruct (q_open _ _ _ _ _) as [m'|] eqn:O; [|discriminate]. intros X. injection X as <-. exists nonce, sender, c. auto.
  - intros (nonce & sender & c & E & P & O). pose proof E as (_ & _ & Ls & _). apply envelope_iff in E. rewrite E, P. cbn [negb]. cbv zeta.
    rewrite aad_65 by (assumption || lia). cbn [rbind].
    change (cipher_key Q (q_dh Q private sender) sender (q_pub Q private)) with (hpke_key Q sender (q_pub Q private) (q_dh Q private sender)).
    now rewrite O.
Qed.
Print Assumptions c41_decrypt_follows_the_format.
Theorem c41_envelope_one_reading env n1 s1 c1 n2 s2 c2 :
  envelope_layout env n1 s1 c1 -> envelope_layout env n2 s2 c2 -> n1 = n2 /\ s1 = s2 /\ c1 = c2.
Proof. intros A B. apply envelope_iff in A, B. rewrite A in B. injection B as -> -> ->. auto. Qed.
Print Assumptions c41_envelope_one_reading.

(** What is encrypted to a pair's public key, that pair decrypts; so does the
    holder of the ECDH secret between the pair and the envelope's sender. *)
Theorem c41_decrypts_what_was_encrypted Q seed p es nonce m env : prims_ok Q -> pair_from_master_seed Q seed = Ok p ->
  q_scalar_ok Q es = true ->
  public_encrypt Q (public_key Q p) es nonce m = Ok env ->
  pair_decrypt Q p env = Ok m /\
  decrypt_from_shared_secret Q (pb_encrypt (public_key Q p)) env (q_dh Q (pr_encrypt p) (q_pub Q es)) = Ok m.
Proof.
  intros OK H SE E. apply seed_pair in H as (_ & SK & _). destruct (l_pub Q OK _ SK) as [Lp Pp]. destruct (l_pub Q OK _ SE) as [Ls Ps].
  rewrite lenN_length in Lp, Ls. unfold public_encrypt, encrypt, public_key in E. cbn [pb_encrypt] in E. cbv zeta in E.
  unfold PUB_KEY_LEN in E. rewrite lenN_length in E. destruct (negb (N.of_nat (length (q_pub Q es)) =? 65)); [discriminate|].
  rewrite aad_65 in E by lia. cbn [rbind] in E.
  destruct (q_seal _ _ _ _ _) as [c|] eqn:SL; [|discriminate]. unfold to_vec in E. destruct (wf c_envelope (nonce, (q_pub Q es, c))) eqn:W; [|discriminate].
  assert (env = enc c_envelope (nonce, (q_pub Q es, c))) as -> by congruence. clear E.
  assert (F : from_slice c_envelope (enc c_envelope (nonce, (q_pub Q es, c))) = Some (nonce, (q_pub Q es, c))).
  { apply lawful_slice_iff; [|auto]. apply c_pair_lawful; [apply c_fixed_lawful|apply c_pair_lawful; [apply c_fixed_lawful|apply c_bytes_lawful]]. }
  apply (l_open Q OK) in SL. rewrite (l_dh Q OK _ _ SE SK) in SL.
  split.
  - unfold pair_decrypt, decrypt. rewrite F, Ps. cbn [negb]. cbv zeta. rewrite aad_65 by lia. cbn [rbind]. now rewrite SL.
  - unfold decrypt_from_shared_secret, public_key. cbn [pb_encrypt]. rewrite F. cbv zeta. rewrite aad_65 by lia. cbn [rbind]. now rewrite SL.
Qed.
Print Assumptions c41_decrypts_what_was_encrypted.

(** Encryption fails only if the message does not fit (the cipher refuses it or
    the ciphertext needs 2^32 bytes or more). *)
Theorem c41_encrypts_what_fits Q seed p es nonce m : prims_ok Q -> pair_from_master_seed Q seed = Ok p ->
  q_scalar_ok Q es = true -> length nonce = 12%nat ->
  (forall k a, exists c, q_seal Q k nonce a m = Some c /\ lenN c < 2 ^ 32) ->
  exists env, public_encrypt Q (public_key Q p) es nonce m = Ok env.
Proof.
  intros OK H SE LN FIT. apply seed_pair in H as (_ & SK & _). destruct (l_pub Q OK _ SK) as [Lp Pp]. destruct (l_pub Q OK _ SE) as [Ls Ps].
  unfold public_encrypt, encrypt, public_key. cbn [pb_encrypt]. cbv zeta. unfold PUB_KEY_LEN. rewrite Ls. change (negb (65 =? 65)) with false. cbv iota.
  rewrite lenN_length in Lp, Ls. rewrite aad_65 by lia. cbn [rbind].
  match goal with |- context [q_seal Q ?k nonce ?a m] => destruct (FIT k a) as (c & -> & L) end.
  unfold to_vec. cbn [wf c_envelope c_pair c_fixed c_bytes fst snd]. rewrite LN. 
  replace (length (q_pub Q es)) with 65%nat by lia. change U32_LIMIT with (2 ^ 32). apply N.ltb_lt in L. rewrite L. cbn. eauto.
Qed.
Print Assumptions c41_encrypts_what_fits.

(** Symmetric encryption: format and round trip. *)
Theorem c41_aes_follows_the_format Q p env m :
  pair_aes_decrypt Q p env = Ok m <->
  exists nonce c, sym_envelope_layout env nonce c /\ q_open Q (pr_aes p) nonce (bs "qos_aes_gcm_256_hmac_sha512") c = Some m.
Proof.
  unfold pair_aes_decrypt, aes_decrypt. change AES_TAG with (bs "qos_aes_gcm_256_hmac_sha512"). split.
  - destruct (from_slice c_sym_envelope env) as [[nonce c]|] eqn:E; [|discriminate]. apply sym_envelope_iff in E.
    destruct (q_open _ _ _ _ _) as [m'|] eqn:O; [|discriminate]. intros X. injection X as <-. eauto.
  - intros (nonce & c & E & O). apply sym_envelope_iff in E. now rewrite E, O.
Qed.
Print Assumptions c41_aes_follows_the_format.
Theorem c41_aes_round_trip Q p nonce m env : prims_ok Q -> pair_aes_encrypt Q p nonce m = Ok env -> pair_aes_decrypt Q p env = Ok m.
Proof.
  intros OK. unfold pair_aes_encrypt, aes_encrypt. destruct (q_seal _ _ _ _ _) as [c|] eqn:SL; [|discriminate].
  unfold to_vec. destruct (wf c_sym_envelope (nonce, c)) eqn:W; [|discriminate]. intros E.
  assert (env = enc c_sym_envelope (nonce, c)) as -> by congruence. clear E.
  unfold pair_aes_decrypt, aes_decrypt.
  assert (F : from_slice c_sym_envelope (enc c_sym_envelope (nonce, c)) = Some (nonce, c)).
  { apply lawful_slice_iff; [|auto]. apply c_pair_lawful; [apply c_fixed_lawful|apply c_bytes_lawful]. }
  rewrite F. now rewrite (l_open Q OK _ _ _ _ _ SL).
Qed.
Print Assumptions c41_aes_round_trip.

(** Signatures made by a pair verify under its public key. *)
Theorem c41_signatures_verify Q seed p m : prims_ok Q -> pair_from_master_seed Q seed = Ok p ->
  verify Q (public_key Q p) m (sign Q p m) = Ok tt.
Proof.
  intros OK H. apply seed_pair in H as (_ & _ & B). unfold verify, sign, public_key. cbn [pb_sign].
  destruct (l_sign Q OK _ m B) as [-> ->]. reflexivity.
Qed.
Print Assumptions c41_signatures_verify.

(** *** These are the keys the protocol model uses: replacing the protocol's
    abstract key operations by the ones above gives a system satisfying the laws
    the protocol theorems (C19-C21, C40) assume. *)
From Verif Require World SpecExport.

Definition with_p256 (Q : prims) (draw : bytes -> bytes * bytes) (Y : World.sys) : World.sys := {|
  World.s_nsm := World.s_nsm Y; World.s_nsm_step := World.s_nsm_step Y; World.s_nsm_time := World.s_nsm_time Y; World.s_root := World.s_root Y;
  World.s_sha256 := World.s_sha256 Y; World.s_sha384 := World.s_sha384 Y; World.s_sha512 := World.s_sha512 Y;
  World.s_point_ok := fun b => (lenN b =? 65) && q_point_ok Q b;
  World.s_pair := fun seed => match pair_from_master_seed Q seed with
                              | Ok p => Some (pb_encrypt (public_key Q p), pb_sign (public_key Q p)) | Err _ => None end;
  World.s_sign := fun seed m => match pair_from_master_seed Q seed with Ok p => sign Q p m | Err _ => [] end;
  World.s_verify := fun g m sig => match verify Q (Public [] g) m sig with Ok _ => true | Err _ => false end;
  World.s_encrypt := fun e rnd m => encrypt Q e (fst (draw rnd)) (snd (draw rnd)) m;
  World.s_decrypt := fun seed env => match pair_from_master_seed Q seed with Ok p => pair_decrypt Q p env | Err e => Err e end;
  World.s_combine := World.s_combine Y; World.s_split := World.s_split Y;
  World.s_doc := World.s_doc Y; World.s_chain_ok := World.s_chain_ok Y; World.s_cose_sig_ok := World.s_cose_sig_ok Y;
  World.s_rng := World.s_rng Y; World.s_io := World.s_io Y; World.s_version := World.s_version Y; World.s_commit := World.s_commit Y |}.

Theorem c41_protocol_keys_lawful Q draw Y : prims_ok Q -> (forall r, q_scalar_ok Q (fst (draw r)) = true) -> World.sys_ok Y ->
  World.sys_ok (with_p256 Q draw Y) /\ SpecExport.crypto_ok (with_p256 Q draw Y)
  /\ forall b, World.public_from_bytes (with_p256 Q draw Y) b
       = match public_from_bytes Q b with Ok k => Ok (pb_encrypt k, pb_sign k) | Err e => Err e end.
Proof.
  intros OK DR SY. split; [|split].
  - destruct SY as [A B C D _]. constructor; try assumption. cbn [World.s_pair World.s_point_ok with_p256]. intros seed e g.
    destruct (pair_from_master_seed Q seed) as [p|] eqn:E; [|discriminate]. apply seed_pair in E as (_ & SE & SG).
    intros H. assert (e = q_pub Q (pr_encrypt p) /\ g = q_pub Q (pr_sign p)) as [-> ->] by (cbn in H; split; congruence).
    destruct (l_pub Q OK _ SE) as [L1 P1]. destruct (l_pub Q OK _ SG) as [L2 P2]. rewrite L1, L2, P1, P2. rewrite lenN_length in L1, L2.
    repeat split; lia.
  - constructor; cbn [World.s_pair World.s_encrypt World.s_decrypt World.s_verify World.s_sign with_p256].
    + intros seed ek sk rnd m c. destruct (pair_from_master_seed Q seed) as [p|] eqn:E; [|discriminate]. intros H EN.
      assert (ek = pb_encrypt (public_key Q p)) as -> by congruence.
      exact (proj1 (c41_decrypts_what_was_encrypted Q seed p _ _ m c OK E (DR rnd) EN)).
    + intros seed ek sk m. destruct (pair_from_master_seed Q seed) as [p|] eqn:E; [|discriminate]. intros H.
      assert (sk = pb_sign (public_key Q p)) as -> by congruence.
      pose proof (c41_signatures_verify Q seed p m OK E) as V. unfold verify in *. cbn [pb_sign] in *. now rewrite V.
  - intros b. unfold World.public_from_bytes, public_from_bytes, point_from_bytes, PUB_KEY_LEN. cbn [World.s_point_ok with_p256].
    destruct (130 <? lenN b) eqn:L1; [change (2 * 65) with 130; now rewrite L1|]. change (2 * 65) with 130. rewrite L1.
    destruct (lenN b <? 130) eqn:L2; [reflexivity|]. rewrite !lenN_length in *. rewrite firstn_length, skipn_length.
    assert (length b = 130%nat) as L by lia. rewrite L. cbn [Nat.min Nat.sub].
    change (N.of_nat 65 =? 65) with true. change (65 <? N.of_nat 65) with false. change (N.of_nat 65 <? 65) with false. cbn [andb]. cbv iota.
    destruct (q_point_ok Q (firstn 65 b)); [|reflexivity]. destruct (q_point_ok Q (skipn 65 b)); reflexivity.
Qed.
Print Assumptions c41_protocol_keys_lawful.

(** Non-trivial case: a toy group (addition of byte strings) and cipher. *)
Definition badd (a b : bytes) : bytes := map (fun p => n2b (b2n (fst p) + b2n (snd p))) (combine a b).
Definition in_point (p : bytes) : bytes := firstn 32 (tl p).
Definition toy_prims : prims := {|
  q_scalar_ok := fun b => (length b =? 32)%nat;
  q_pub := fun k => x04 :: k ++ repeat x00 32;
  q_point_ok := fun p => byte_eqb (hd x00 p) x04;
  q_dh := fun a p => badd a (in_point p);
  q_hmac := fun k m => firstn 64 (badd k (repeat x05 64) ++ m ++ repeat x00 64);
  q_hkdf := fun salt ikm => firstn 32 (badd (salt ++ repeat x01 32) ikm ++ repeat x02 32);
  q_seal := fun k n a m => Some (firstn 4 k ++ firstn 4 a ++ m);
  q_open := fun k n a c => if bytes_eqb (firstn (length (firstn 4 k ++ firstn 4 a)) c) (firstn 4 k ++ firstn 4 a)
                           then Some (skipn (length (firstn 4 k ++ firstn 4 a)) c) else None;
  q_sign := fun k m => k ++ repeat x03 32;
  q_sig_ok := fun s => (length s =? 64)%nat;
  q_verify := fun p m s => bytes_eqb (firstn 32 s) (in_point p)
|}.
Lemma firstn_app_l {A} (a b : list A) : firstn (length a) (a ++ b) = a.
Proof. rewrite firstn_app, Nat.sub_diag, firstn_O, app_nil_r. apply firstn_all. Qed.
Lemma skipn_app_l {A} (a b : list A) : skipn (length a) (a ++ b) = b.
Proof. rewrite skipn_app, Nat.sub_diag, skipn_all. reflexivity. Qed.
Lemma in_point_pub k : length k = 32%nat -> in_point (x04 :: k ++ repeat x00 32) = k.
Proof. intros L. unfold in_point. cbn [tl]. rewrite <- L. apply firstn_app_l. Qed.
Lemma badd_comm a : forall b, badd a b = badd b a.
Proof. unfold badd. induction a as [|x a IH]; intros [|y b]; try reflexivity. cbn [combine map fst snd]. rewrite N.add_comm. now f_equal. Qed.
Lemma toy_prims_ok : prims_ok toy_prims.
Proof.
  constructor; cbn [q_scalar_ok q_pub q_point_ok q_dh q_seal q_open q_sign q_sig_ok q_verify toy_prims].
  - intros k L. apply Nat.eqb_eq in L. rewrite lenN_length. cbn [length]. rewrite app_length, repeat_length, L. auto.
  - intros a b A B. apply Nat.eqb_eq in A, B. rewrite !in_point_pub by assumption. apply badd_comm.
  - intros k n a m c E. injection E as <-. rewrite app_assoc, firstn_app_l, bytes_eqb_refl, skipn_app_l. reflexivity.
  - intros k m L. apply Nat.eqb_eq in L. split; [rewrite app_length, repeat_length, L; reflexivity|].
    rewrite in_point_pub by assumption. replace 32%nat with (length k) at 1 by exact L. rewrite firstn_app_l. apply bytes_eqb_refl.
Qed.
Example c41_nontrivial : prims_ok toy_prims /\
  (exists p env, pair_from_master_seed toy_prims (repeat x09 32) = Ok p /\
     public_encrypt toy_prims (public_key toy_prims p) (repeat x21 32) (repeat x00 12) (bs "hello") = Ok env /\
     pair_decrypt toy_prims p env = Ok (bs "hello") /\
     pair_decrypt toy_prims p (repeat x00 12 ++ public_to_bytes (public_key toy_prims p)) = Err FailedToDeserializeEnvelope /\
     (exists env2, pair_aes_encrypt toy_prims p (repeat x00 12) (bs "hi") = Ok env2 /\ pair_aes_decrypt toy_prims p env2 = Ok (bs "hi"))) /\
  create_aad (bs "ab") (bs "c") = Ok (bs "ab" ++ [x02] ++ bs "c" ++ [x01]) /\
  create_aad (repeat x00 256) (bs "c") = Err CannotCoerceLenToU8.
Proof.
  split; [exact toy_prims_ok|]. split; [|split; vm_compute; reflexivity].
  eexists. eexists. split; [vm_compute; reflexivity|]. split; [vm_compute; reflexivity|]. split; [vm_compute; reflexivity|].
  split; [vm_compute; reflexivity|]. eexists. split; vm_compute; reflexivity.
Qed.
