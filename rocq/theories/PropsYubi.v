(** C79, C80: smart-card member keys (Yubi.v). *)
From Verif Require Import Base Hex Borsh Msg P256 SpecP256 PropsP256 Yubi.
From Coq Require Import ZifyBool ZifyN ZifyNat.
Local Open Scope N_scope.

(** ** Specification *)
(** What is assumed of the parts not opened: SEC1 encodings have 1, 33 or 65
    bytes, points are encodings, decoded DER signatures are signatures. *)
Record card_laws (Q : prims) (from_der : bytes -> option bytes) (encoded_ok : bytes -> bool) : Prop := CardLaws {
  l_encoded : forall b, encoded_ok b = true -> length b = 1%nat \/ length b = 33%nat \/ length b = 65%nat;
  l_point : forall b, q_point_ok Q b = true -> encoded_ok b = true;
  l_der : forall b s, from_der b = Some s -> q_sig_ok Q s = true
}.
(** The card carries the keys of [p] and certificates that say so. *)
Definition holds (Q : prims) (d : card) (p : pair) : Prop :=
  (exists k, c_key d KeyManagement = Some k /\ k_scalar k = pr_encrypt p) /\
  (exists k, c_key d Signature = Some k /\ k_scalar k = pr_sign p) /\
  c_cert d KeyManagement = Some (Some (q_pub Q (pr_encrypt p))) /\ c_cert d Signature = Some (Some (q_pub Q (pr_sign p))).
(** No exchange with the card fails. *)
Definition calm (d : card) : Prop := Forall (eq Works) (c_plan d).
Definition right_pin (d : card) (pin : bytes) : Prop :=
  pin = c_pin d /\ pin <> [] /\ lenN pin <= 8 /\ (0 < c_retries d)%nat /\ (0 < c_max d)%nat.
Definition same_keys (d d' : card) : Prop := c_key d' = c_key d /\ c_cert d' = c_cert d.

(** ** The monad *)
Lemma exchange_cases {A} (f : card -> option A * card) d :
  exchange f d = f (advance d) \/ exchange f d = (None, advance d) \/ exchange f d = (None, snd (f (advance d))).
Proof. unfold exchange. destruct (c_plan d) as [|[]]; auto. Qed.
Lemma exchange_ok {A} (f : card -> option A * card) d a d' : exchange f d = (Some a, d') -> f (advance d) = (Some a, d').
Proof. intros H. destruct (exchange_cases f d) as [E|[E|E]]; rewrite E in H; [exact H|discriminate|discriminate]. Qed.
Lemma exchange_calm {A} (f : card -> option A * card) d : calm d -> exchange f d = f (advance d).
Proof. unfold calm, exchange. destruct (c_plan d) as [|x l]; [reflexivity|]. intros H. inversion H; subst. reflexivity. Qed.
Lemma calm_advance d : calm d -> calm (advance d).
Proof. unfold calm, advance. cbn [c_plan]. destruct (c_plan d) as [|x l]; [auto|]. intros H. inversion H. assumption. Qed.
Lemma ybind_ok {A B} (m : y A) (f : A -> y B) d b d' : ybind m f d = (Ok b, d') -> exists a d1, m d = (Ok a, d1) /\ f a d1 = (Ok b, d').
Proof. unfold ybind. destruct (m d) as [[a|e] d1]; [eauto|discriminate]. Qed.
Lemma ybind_run {A B} (m : y A) (f : A -> y B) d a d1 : m d = (Ok a, d1) -> ybind m f d = f a d1.
Proof. unfold ybind. now intros ->. Qed.
Lemma ybind_stop {A B} (m : y A) (f : A -> y B) d e d1 : m d = (Err e, d1) -> ybind m f d = (Err e, d1).
Proof. unfold ybind. now intros ->. Qed.
Lemma yop_ok {A} (f : card -> option A * card) e d a d' : yop f e d = (Ok a, d') -> f (advance d) = (Some a, d').
Proof. unfold yop. destruct (exchange f d) as [[x|] d1] eqn:E; [|discriminate]. intros H. injection H as -> ->. now apply exchange_ok. Qed.
Lemma yop_calm {A} (f : card -> option A * card) e d : calm d ->
  yop f e d = match f (advance d) with (Some a, d') => (Ok a, d') | (None, d') => (Err e, d') end.
Proof. intros C. unfold yop. now rewrite exchange_calm. Qed.

(** ** Whatever happens: relations kept by every step *)
Section Keep.
  Variable R : card -> card -> Prop.
  Hypothesis Rr : forall d, R d d.
  Hypothesis Rt : forall a b c, R a b -> R b c -> R a c.
  Hypothesis Ra : forall d, R d (advance d).
  Definition keeps {A} (m : y A) : Prop := forall d, R d (snd (m d)).
  Lemma keeps_bind {A B} (m : y A) (f : A -> y B) : keeps m -> (forall a, keeps (f a)) -> keeps (ybind m f).
  Proof. intros M F d. unfold ybind. specialize (M d). destruct (m d) as [[a|e] d1]; cbn [snd] in *; [eapply Rt; [exact M|apply F]|exact M]. Qed.
  Lemma keeps_ret {A} (a : A) : keeps (yret a). Proof. intros d. apply Rr. Qed.
  Lemma keeps_fail {A} e : keeps (@yfail A e). Proof. intros d. apply Rr. Qed.
  Lemma keeps_exchange {A} (f : card -> option A * card) : (forall d, R d (snd (f d))) -> forall d, R d (snd (exchange f d)).
  Proof.
    intros F d. destruct (exchange_cases f d) as [E|[E|E]]; rewrite E; cbn [snd]; [eapply Rt; [apply Ra|apply F]|apply Ra|eapply Rt; [apply Ra|apply F]].
  Qed.
  Lemma keeps_op {A} (f : card -> option A * card) e : (forall d, R d (snd (f d))) -> keeps (yop f e).
  Proof. intros F d. pose proof (keeps_exchange f F d) as H. unfold yop. destruct (exchange f d) as [[a|] d1]; exact H. Qed.
End Keep.

Lemma same_refl d : same_keys d d. Proof. now split. Qed.
Lemma same_trans a b c : same_keys a b -> same_keys b c -> same_keys a c. Proof. intros [A B] [C D]. split; congruence. Qed.
Lemma same_advance d : same_keys d (advance d). Proof. now split. Qed.
Lemma same_use s d : same_keys d (snd (use_key s d)).
Proof. unfold use_key. destruct (c_key d s) as [k|]; [destruct (k_pin k); [|destruct (c_verified d)|destruct (c_verified d)]|]; now split. Qed.
Lemma same_pin p d : same_keys d (snd (op_verify_pin p d)).
Proof.
  unfold op_verify_pin. destruct (PIN_MAX <? lenN p); [now split|]. destruct p; [now split|].
  destruct (c_retries d =? 0)%nat; [now split|]. destruct (bytes_eqb _ _); now split.
Qed.
Lemma same_sign f s x d : same_keys d (snd (op_sign f s x d)).
Proof. pose proof (same_use s d) as H. unfold op_sign. destruct (use_key s d) as [[k|] d1]; exact H. Qed.
Lemma same_dh Q s x d : same_keys d (snd (op_dh Q s x d)).
Proof. pose proof (same_use s d) as H. unfold op_dh. destruct (use_key s d) as [[k|] d1]; exact H. Qed.
Ltac keep := repeat first [apply keeps_bind; [exact same_trans| |intros ?] | apply keeps_op; [exact same_trans|exact same_advance|] | apply keeps_ret; exact same_refl | apply keeps_fail; exact same_refl].

Section Props.
  Context (Q : prims) (card_sign : bytes -> bytes -> bytes) (from_der : bytes -> option bytes) (sha256 : bytes -> bytes) (encoded_ok : bytes -> bool).
  Notation sign_data := (sign_data Q card_sign from_der sha256 encoded_ok).
  Notation yubi_decrypt := (yubi_decrypt Q encoded_ok).
  Notation pair_public_key := (pair_public_key encoded_ok).
  Notation provision := (provision_yubikey Q encoded_ok).
  Notation provision_seed := (advanced_provision_yubikey Q encoded_ok).
  Notation yubikey_sign := (yubikey_sign Q card_sign from_der sha256 encoded_ok).

  Lemma keeps_extract o : keeps same_keys (extract_encoded_point encoded_ok o).
  Proof. unfold extract_encoded_point. destruct o as [b|]; [destruct (encoded_ok b)|]; keep. Qed.
  Lemma keeps_read s e : keeps same_keys (yop (op_read_cert s) e). Proof. keep. intros d. apply same_refl. Qed.
  Lemma keeps_verify p : keeps same_keys (verify_pin p). Proof. unfold verify_pin. keep. apply same_pin. Qed.
  Lemma keeps_sign data pin : keeps same_keys (sign_data data pin).
  Proof.
    unfold Yubi.sign_data. apply keeps_bind; [exact same_trans|apply keeps_read|intros c].
    apply keeps_bind; [exact same_trans|apply keeps_extract|intros g].
    apply keeps_bind; [exact same_trans|destruct (q_point_ok Q g); keep|intros []].
    apply keeps_bind; [exact same_trans|apply keeps_verify|intros []].
    apply keeps_bind; [exact same_trans|keep; apply same_sign|intros der].
    apply keeps_bind; [exact same_trans|unfold ytry; destruct (from_der der); keep|intros s]. destruct (q_verify Q g data s); keep.
  Qed.
  Lemma keeps_agree_key : keeps same_keys (key_agree_public_key encoded_ok).
  Proof. unfold key_agree_public_key. apply keeps_bind; [exact same_trans|apply keeps_read|intros c]. apply keeps_extract. Qed.
  Lemma keeps_shared env pin : keeps same_keys (shared_secret Q env pin).
  Proof.
    unfold shared_secret. destruct (from_slice c_envelope env) as [[n [s c]]|]; [|keep]. unfold key_agreement.
    apply keeps_bind; [exact same_trans|apply keeps_verify|intros []]. keep. apply same_dh.
  Qed.
  Lemma keeps_p256 {A} (r : result p256_error A) : keeps same_keys (of_p256 r). Proof. destruct r; cbn [of_p256]; keep. Qed.
  Lemma keeps_decrypt env pin : keeps same_keys (yubi_decrypt env pin).
  Proof.
    unfold Yubi.yubi_decrypt. apply keeps_bind; [exact same_trans|apply keeps_shared|intros s].
    apply keeps_bind; [exact same_trans|apply keeps_agree_key|intros e].
    apply keeps_bind; [exact same_trans|apply keeps_p256|intros r]. apply keeps_p256.
  Qed.
  Lemma keeps_public : keeps same_keys pair_public_key.
  Proof.
    unfold Yubi.pair_public_key. apply keeps_bind; [exact same_trans|apply keeps_read|intros c].
    apply keeps_bind; [exact same_trans|apply keeps_extract|intros g].
    apply keeps_bind; [exact same_trans|apply keeps_agree_key|intros e]. keep.
  Qed.

  (** ** C79 *)
  Lemma extract_ok o d b d' : extract_encoded_point encoded_ok o d = (Ok b, d') -> o = Some b /\ encoded_ok b = true /\ d' = d.
  Proof.
    unfold extract_encoded_point. destruct o as [x|]; [|discriminate]. destruct (encoded_ok x) eqn:E; [|discriminate].
    intros H. injection H as -> ->. auto.
  Qed.
  Lemma read_ok s e d c d' : yop (op_read_cert s) e d = (Ok c, d') -> c_cert d s = Some c /\ d' = advance d.
  Proof. intros H. apply yop_ok in H. unfold op_read_cert in H. injection H as H <-. auto. Qed.
  Lemma public_ok d pk d' : pair_public_key d = (Ok pk, d') ->
    exists e g, pk = e ++ g /\ c_cert d KeyManagement = Some (Some e) /\ c_cert d Signature = Some (Some g) /\ encoded_ok e = true /\ encoded_ok g = true.
  Proof.
    unfold Yubi.pair_public_key, key_agree_public_key. intros H.
    apply ybind_ok in H as (c & d1 & H1 & H). apply read_ok in H1 as [C1 ->].
    apply ybind_ok in H as (g & d1 & H1 & H). apply extract_ok in H1 as (-> & G & ->).
    apply ybind_ok in H as (e & d1 & H1 & H). apply ybind_ok in H1 as (c & d2 & H1 & H2). apply read_ok in H1 as [C2 ->].
    apply extract_ok in H2 as (-> & E & ->). unfold yret in H. injection H as <- _. exists e, g. auto.
  Qed.

  (** A signature the card produced verifies under the public key it reports. *)
  Theorem c79_signatures_verify : card_laws Q from_der encoded_ok -> forall d data pin s d',
    sign_data data pin d = (Ok s, d') ->
    forall d1 pk d2 k, same_keys d d1 -> pair_public_key d1 = (Ok pk, d2) -> public_from_bytes Q pk = Ok k -> verify Q k data s = Ok tt.
  Proof.
    intros L d data pin s d' H d1 pk d2 k [_ SK] P K. unfold Yubi.sign_data in H.
    apply ybind_ok in H as (c & e1 & H1 & H). apply read_ok in H1 as [C1 ->].
    apply ybind_ok in H as (g & e1 & H1 & H). apply extract_ok in H1 as (-> & G & ->).
    apply ybind_ok in H as (u & e1 & H1 & H). apply ybind_ok in H as (u2 & e2 & H2 & H).
    apply ybind_ok in H as (der & e3 & H3 & H). apply ybind_ok in H as (sig & e4 & H4 & H).
    destruct (q_verify Q g data sig) eqn:V; [|discriminate]. unfold yret in H. injection H as <- _.
    unfold ytry in H4. destruct (from_der der) as [x|] eqn:D; [|discriminate]. injection H4 as -> _.
    apply public_ok in P as (e & g' & -> & Ce & Cg & Ee & Eg). rewrite SK in Cg. assert (g' = g) by (unfold SIGNING_SLOT in C1; congruence). subst g'.
    destruct (l_encoded _ _ _ L _ Ee) as [X|[X|X]], (l_encoded _ _ _ L _ Eg) as [Z|[Z|Z]];
      try (exfalso; unfold public_from_bytes in K; rewrite (lenN_length (e ++ g)), app_length, X, Z in K; discriminate K).
    assert (KS : pb_sign k = g).
    { apply c41_public_key_layout in K as (E1 & L1 & L2 & _). 
      destruct (app_len_inj _ _ _ _ E1 ltac:(congruence)) as [_ E2]. symmetry. exact E2. }
    unfold verify. rewrite (l_der _ _ _ L _ _ D), KS, V. reflexivity.
  Qed.

  (** *** Decryption *)
  Lemma verify_ok pin d u d' : verify_pin pin d = (Ok u, d') -> same_keys d d' /\ c_plan d' = tl (c_plan d).
  Proof.
    intros H. pose proof (keeps_verify pin d) as K. rewrite H in K. split; [exact K|]. apply yop_ok in H. unfold op_verify_pin in H.
    destruct (PIN_MAX <? lenN pin); [discriminate|]. destruct pin; [destruct (c_verified (advance d)); [|discriminate]; injection H as _ <-; reflexivity|].
    destruct (c_retries (advance d) =? 0)%nat; [discriminate|]. destruct (bytes_eqb _ _); [|discriminate]. injection H as _ <-. reflexivity.
  Qed.
  Lemma point_ok e r : point_from_bytes Q e = Ok r -> r = e.
  Proof.
    unfold point_from_bytes. destruct (PUB_KEY_LEN <? lenN e); [discriminate|]. destruct (lenN e <? PUB_KEY_LEN); [discriminate|].
    destruct (q_point_ok Q e); [|discriminate]. congruence.
  Qed.
  Lemma shared_ok d p env pin sh d' : holds Q d p -> shared_secret Q env pin d = (Ok sh, d') ->
    same_keys d d' /\ exists n s c, from_slice c_envelope env = Some (n, (s, c)) /\ q_point_ok Q s = true /\ sh = q_dh Q (pr_encrypt p) s.
  Proof.
    intros Ho H. pose proof (keeps_shared env pin d) as K. rewrite H in K. split; [exact K|]. unfold shared_secret in H.
    destruct (from_slice c_envelope env) as [[n [s c]]|]; [|discriminate]. exists n, s, c. split; [reflexivity|].
    unfold key_agreement in H. apply ybind_ok in H as (u & d1 & H1 & H). apply verify_ok in H1 as [[S _] _].
    apply yop_ok in H. unfold op_dh, use_key in H. unfold KEY_AGREEMENT_SLOT in H.
    destruct Ho as ((k & Hk & Sk) & _). change (c_key (advance d1)) with (c_key d1) in H. rewrite S, Hk in H.
    destruct (k_pin k); [|destruct (c_verified (advance d1)); [|discriminate]|destruct (c_verified (advance d1)); [|discriminate]];
      destruct (q_point_ok Q s); try discriminate; injection H as <- _; rewrite Sk; auto.
  Qed.
  Lemma same_decrypt p env n s c : from_slice c_envelope env = Some (n, (s, c)) -> q_point_ok Q s = true ->
    decrypt_from_shared_secret Q (q_pub Q (pr_encrypt p)) env (q_dh Q (pr_encrypt p) s) = pair_decrypt Q p env.
  Proof. intros F S. unfold decrypt_from_shared_secret, pair_decrypt, decrypt. rewrite F, S. reflexivity. Qed.
  (** The sign command prints, in hex, a signature over the bytes its argument
      spells, which checks under the key the card publishes. *)
  Theorem c79_sign_command : card_laws Q from_der encoded_ok -> forall d hex pin t d', yubikey_sign hex pin d = (Ok t, d') ->
    exists data s, decode hex = Ok data /\ t = encode s /\
      forall d1 pk d2 k, same_keys d d1 -> pair_public_key d1 = (Ok pk, d2) -> public_from_bytes Q pk = Ok k -> verify Q k data s = Ok tt.
  Proof.
    intros L d hex pin t d' H. unfold Yubi.yubikey_sign in H. destruct (decode hex) as [data|]; [|discriminate].
    apply ybind_ok in H as (u & d0 & H0 & H). apply ybind_ok in H as (s & d3 & H1 & H). unfold yret in H. injection H as <- _.
    exists data, s. split; [reflexivity|]. split; [reflexivity|]. intros d1 pk d2 k SK P K.
    unfold yubi_sign in H1. refine (c79_signatures_verify L d0 data pin s d3 H1 d1 pk d2 k _ P K).
    unfold open_single in H0. apply yop_ok in H0. unfold op_open in H0. injection H0 as _ E0. rewrite <- E0. exact SK.
  Qed.
  (** Whatever the card and the connection do, a card holding a pair's keys
      decrypts only to what that pair decrypts to ... *)
  Theorem c79_decrypts_only_as_the_key_file : forall d p, holds Q d p -> forall env pin m d',
    yubi_decrypt env pin d = (Ok m, d') -> pair_decrypt Q p env = Ok m.
  Proof.
    intros d p Ho env pin m d' H. unfold Yubi.yubi_decrypt in H. apply ybind_ok in H as (sh & d1 & H1 & H).
    destruct (shared_ok _ _ _ _ _ _ Ho H1) as [[_ S] (n & s & c & F & P & ->)].
    apply ybind_ok in H as (e & d2 & H2 & H). unfold key_agree_public_key in H2. apply ybind_ok in H2 as (x & d3 & H2 & H3).
    apply read_ok in H2 as [C _]. apply extract_ok in H3 as (-> & _ & _). destruct Ho as (_ & _ & Ce & _).
    unfold KEY_AGREEMENT_SLOT in C. rewrite S, Ce in C. injection C as C. subst e.
    apply ybind_ok in H as (r & d4 & H3 & H). destruct (point_from_bytes Q (q_pub Q (pr_encrypt p))) as [r'|] eqn:PR; [|discriminate].
    apply point_ok in PR. subst r'. cbn [of_p256] in H3. unfold yret in H3. injection H3 as <- _.
    rewrite (same_decrypt p env _ _ _ F P) in H. destruct (pair_decrypt Q p env) as [m'|]; [|discriminate]. cbn [of_p256] in H. unfold yret in H. congruence.
  Qed.
  (** ... and with the right PIN and no failing exchange to all of it. *)
  Lemma verify_run pin d : calm d -> right_pin d pin -> exists d1, verify_pin pin d = (Ok tt, d1) /\ calm d1 /\ right_pin d1 pin /\ c_verified d1 = true
    /\ c_authed d1 = c_authed d /\ same_keys d d1 /\ c_rng d1 = c_rng d /\ c_mgm d1 = c_mgm d.
  Proof.
    intros C (E & N & L & R & M). unfold verify_pin. rewrite yop_calm by exact C. unfold op_verify_pin, PIN_MAX.
    destruct (N.ltb_spec 8 (lenN pin)); [lia|]. destruct pin as [|b pin]; [contradiction|].
    cbn [advance c_retries c_pin]. destruct (Nat.eqb_spec (c_retries d) 0); [lia|]. rewrite <- E.
    destruct (bytes_eqb_spec (b :: pin) (b :: pin)); [|congruence]. eexists. split; [reflexivity|].
    split; [exact (calm_advance _ C)|]. unfold right_pin. cbn [set_pin advance c_pin c_retries c_max c_verified c_authed c_rng c_mgm].
    repeat split; auto; congruence.
  Qed.
  Lemma read_run s e d x : calm d -> c_cert d s = Some x -> yop (op_read_cert s) e d = (Ok x, advance d).
  Proof. intros C H. rewrite yop_calm by exact C. unfold op_read_cert. cbn [advance c_cert]. now rewrite H. Qed.
  Lemma use_run s d k : c_key d s = Some k -> c_verified d = true -> exists d', use_key s d = (Some k, d') /\ same_keys d d'
    /\ c_plan d' = c_plan d /\ c_authed d' = c_authed d /\ (forall pin, right_pin d pin -> right_pin d' pin) /\ c_rng d' = c_rng d /\ c_mgm d' = c_mgm d.
  Proof.
    intros K V. unfold use_key. rewrite K, V. destruct (k_pin k); eexists; (split; [reflexivity|]); (split; [now split|]); (split; [reflexivity|]); (split; [reflexivity|]);
      (split; [intros pin RP; exact RP|]); now split.
  Qed.
  Theorem c79_decrypts_all_the_key_file_does : prims_ok Q -> card_laws Q from_der encoded_ok ->
    forall d p, holds Q d p -> q_scalar_ok Q (pr_encrypt p) = true -> calm d -> forall pin, right_pin d pin ->
    forall env m, pair_decrypt Q p env = Ok m -> fst (yubi_decrypt env pin d) = Ok m.
  Proof.
    intros QL L d p Ho Sc C pin RP env m D. destruct (l_pub _ QL _ Sc) as [L65 Pt].
    pose proof D as D0. unfold pair_decrypt, decrypt in D0. destruct (from_slice c_envelope env) as [[n [s c]]|] eqn:F; [|discriminate].
    destruct (q_point_ok Q s) eqn:P; [|discriminate]. clear D0.
    destruct (verify_run pin d C RP) as (d1 & V1 & C1 & RP1 & Vd & _ & S1 & _).
    destruct Ho as ((k & Hk & Sk) & _ & Ce & _).
    destruct (use_run KeyManagement (advance d1) k) as (d2 & U & S2 & P2 & _); [cbn [advance c_key]; rewrite (proj1 S1); exact Hk|exact Vd|].
    assert (SH : shared_secret Q env pin d = (Ok (q_dh Q (pr_encrypt p) s), d2)).
    { unfold shared_secret. rewrite F. unfold key_agreement. rewrite (ybind_run _ _ _ _ _ V1).
      rewrite yop_calm by exact C1. unfold op_dh, KEY_AGREEMENT_SLOT. rewrite U, P, Sk. reflexivity. }
    assert (C2 : calm d2) by (unfold calm; rewrite P2; exact (calm_advance _ C1)).
    assert (KA : key_agree_public_key encoded_ok d2 = (Ok (q_pub Q (pr_encrypt p)), advance d2)).
    { unfold key_agree_public_key, KEY_AGREEMENT_SLOT.
      rewrite (ybind_run _ _ d2 (Some (q_pub Q (pr_encrypt p))) (advance d2)); [|apply read_run; [exact C2|rewrite (proj2 S2); cbn [advance c_cert]; rewrite (proj2 S1); exact Ce]].
      unfold extract_encoded_point. rewrite (l_point _ _ _ L _ Pt). reflexivity. }
    assert (PF : point_from_bytes Q (q_pub Q (pr_encrypt p)) = Ok (q_pub Q (pr_encrypt p))).
    { unfold point_from_bytes, PUB_KEY_LEN. rewrite L65, Pt. reflexivity. }
    unfold Yubi.yubi_decrypt. rewrite (ybind_run _ _ _ _ _ SH), (ybind_run _ _ _ _ _ KA), PF.
    cbn [of_p256]. rewrite (ybind_run (yret (q_pub Q (pr_encrypt p))) _ (advance d2) _ (advance d2) eq_refl).
    rewrite (same_decrypt p env _ _ _ F P), D. reflexivity.
  Qed.

  (** *** Provisioning *)
  Lemma auth_ok m e d u d' : yop (op_authenticate m) e d = (Ok u, d') -> same_keys d d'.
  Proof. intros H. apply yop_ok in H. unfold op_authenticate in H. destruct (bytes_eqb _ _); [|discriminate]. injection H as _ <-. now split. Qed.
  Lemma refuse_keeps s d : same_keys d (snd (refuse_occupied s d)).
  Proof.
    unfold refuse_occupied. pose proof (keeps_exchange same_keys same_trans same_advance (op_read_cert s) (fun d => same_refl d) d) as K.
    destruct (exchange (op_read_cert s) d) as [[c|] d1]; exact K.
  Qed.
  Lemma self_sign_ok s pub e d u d' : yop (op_self_sign s pub) e d = (Ok u, d') ->
    c_key d' = c_key d /\ c_cert d' s = Some (Some pub) /\ forall t, t <> s -> c_cert d' t = c_cert d t.
  Proof.
    intros H. apply yop_ok in H. unfold op_self_sign in H. pose proof (same_use s (advance d)) as U.
    destruct (use_key s (advance d)) as [[k|] d1]; [|discriminate]. destruct (c_authed d1); [|discriminate]. injection H as _ <-.
    destruct U as [U1 U2]. cbn [snd] in U1, U2. cbn [set_cert c_key c_cert]. split; [exact U1|]. rewrite U2. split.
    - assert (X : slot_eqb s s = true) by (destruct s; cbn; auto using N.eqb_refl). now rewrite X.
    - intros t N. assert (X : slot_eqb t s = false).
      { destruct t, s; cbn; try reflexivity; try congruence. destruct (N.eqb_spec n n0); [congruence|reflexivity]. }
      rewrite X. reflexivity.
  Qed.
  Lemma slot_refl s : slot_eqb s s = true. Proof. destruct s; cbn; auto using N.eqb_refl. Qed.
  Lemma slot_neq t s : t <> s -> slot_eqb t s = false.
  Proof. intros N. destruct t, s; cbn; try reflexivity; try congruence. destruct (N.eqb_spec n n0); [congruence|reflexivity]. Qed.
  Lemma import_ok k s pin mgm touch d u d' : import_key Q k s pin mgm touch d = (Ok u, d') ->
    q_scalar_ok Q k = true /\ c_key d' s = Some (Key k Always touch) /\ c_cert d' s = Some (Some (q_pub Q k))
    /\ forall t, t <> s -> c_key d' t = c_key d t /\ c_cert d' t = c_cert d t.
  Proof.
    unfold import_key. intros H. apply ybind_ok in H as (u1 & d1 & H1 & H). apply verify_ok in H1 as [S1 _].
    apply ybind_ok in H as (u2 & d2 & H2 & H). apply auth_ok in H2.
    apply ybind_ok in H as (u3 & d3 & H3 & H). pose proof (refuse_keeps s d2) as H3'. rewrite H3 in H3'. cbn [snd] in H3'.
    apply ybind_ok in H as (pub & d4 & H4 & H). unfold ytry in H4. destruct (q_scalar_ok Q k) eqn:Sc; [|discriminate]. unfold yret in H4. injection H4 as <- <-.
    apply ybind_ok in H as (u5 & d5 & H5 & H). apply yop_ok in H5. unfold op_import in H5. destruct (c_authed (advance d3)); [|discriminate]. injection H5 as _ <-.
    apply ybind_ok in H as (u6 & d6 & H6 & H). apply verify_ok in H6 as [S6 _].
    apply ybind_ok in H as (u7 & d7 & H7 & H). apply self_sign_ok in H7 as (K7 & C7 & O7). unfold yret in H. injection H as _ <-.
    split; [reflexivity|]. pose proof (same_trans _ _ _ S1 (same_trans _ _ _ H2 H3')) as S3. destruct S3 as [S3k S3c], S6 as [S6k S6c].
    cbn [set_key c_key c_cert advance] in S6k, S6c. rewrite K7, S6k. split; [now rewrite slot_refl|]. split; [exact C7|].
    intros t N. split; [now rewrite slot_neq, S3k by exact N|]. rewrite (O7 t N), S6c, S3c. reflexivity.
  Qed.
  Lemma generate_ok s pin mgm touch d g d' : generate_signed_certificate Q encoded_ok s pin mgm touch d = (Ok g, d') ->
    exists k, g = q_pub Q k /\ c_key d' s = Some (Key k Always touch) /\ c_cert d' s = Some (Some (q_pub Q k))
    /\ forall t, t <> s -> c_key d' t = c_key d t /\ c_cert d' t = c_cert d t.
  Proof.
    unfold generate_signed_certificate. intros H. apply ybind_ok in H as (u1 & d1 & H1 & H). apply verify_ok in H1 as [S1 _].
    apply ybind_ok in H as (u2 & d2 & H2 & H). apply auth_ok in H2.
    apply ybind_ok in H as (u3 & d3 & H3 & H). pose proof (refuse_keeps s d2) as H3'. rewrite H3 in H3'. cbn [snd] in H3'.
    apply ybind_ok in H as (pub & d4 & H4 & H). apply yop_ok in H4. unfold op_generate in H4. destruct (c_authed (advance d3)); [|discriminate].
    destruct (c_rng (advance d3)) as [|k r]; [discriminate|]. injection H4 as <- <-.
    apply ybind_ok in H as (pt & d5 & H5 & H). apply extract_ok in H5 as (E5 & _ & ->). injection E5 as <-.
    apply ybind_ok in H as (u6 & d6 & H6 & H). apply verify_ok in H6 as [S6 _].
    apply ybind_ok in H as (u7 & d7 & H7 & H). apply self_sign_ok in H7 as (K7 & C7 & O7). unfold yret in H. injection H as <- <-.
    exists k. split; [reflexivity|]. pose proof (same_trans _ _ _ S1 (same_trans _ _ _ H2 H3')) as S3. destruct S3 as [S3k S3c], S6 as [S6k S6c].
    cbn [set_key c_key c_cert advance] in S6k, S6c. rewrite K7, S6k. split; [now rewrite slot_refl|]. split; [exact C7|].
    intros t N. split; [now rewrite slot_neq, S3k by exact N|]. rewrite (O7 t N), S6c, S3c. reflexivity.
  Qed.
  (** When provisioning from a seed reports success, whatever failed on the
      way, the card holds exactly the seed's keys, each asking for the PIN and
      a touch at every use. *)
  Theorem c79_provisioned_from_the_seed : forall file pin d u d', provision_seed file pin d = (Ok u, d') ->
    exists p, pair_of_hex Q file = Ok p /\ holds Q d' p
      /\ c_key d' KeyManagement = Some (Key (pr_encrypt p) Always Always) /\ c_key d' Signature = Some (Key (pr_sign p) Always Always).
  Proof.
    intros file pin d u d' H. unfold advanced_provision_yubikey in H. apply ybind_ok in H as (u0 & d0 & _ & H).
    apply ybind_ok in H as (p & d1 & H1 & H). destruct (pair_of_hex Q file) as [p'|] eqn:F; [|discriminate]. cbn [of_p256] in H1. unfold yret in H1. injection H1 as -> <-.
    assert (DP : pr_encrypt p = q_hkdf Q P256_ENCRYPT_DERIVE_PATH (pr_seed p) /\ pr_sign p = q_hkdf Q P256_SIGN_DERIVE_PATH (pr_seed p)).
    { unfold pair_of_hex in F. destruct (Utf8.utf8_dec file) as [cs|]; [|discriminate]. destruct (decode_to_buf _ 32) as [seed|]; [|discriminate].
      unfold pair_from_master_seed, derive_secret, secret_from_bytes in F. cbn [rbind] in F.
      destruct (q_scalar_ok Q (q_hkdf Q P256_ENCRYPT_DERIVE_PATH seed)); [|discriminate]. cbn [rbind] in F.
      destruct (q_scalar_ok Q (q_hkdf Q P256_SIGN_DERIVE_PATH seed)); [|discriminate]. cbn [rbind] in F. injection F as <-. now split. }
    destruct DP as [DE DS]. exists p. split; [reflexivity|].
    cbn [derive_secret of_p256] in H. apply ybind_ok in H as (e & d2 & H2 & H). unfold yret in H2. injection H2 as <- <-.
    apply ybind_ok in H as (g & d2 & H2 & H). unfold yret in H2. injection H2 as <- <-. rewrite <- DE, <- DS in H.
    apply ybind_ok in H as (u3 & d3 & H3 & H). apply import_ok in H3 as (_ & K3 & C3 & _).
    apply ybind_ok in H as (u4 & d4 & H4 & H). apply import_ok in H4 as (_ & K4 & C4 & O4).
    apply ybind_ok in H as (k & d5 & H5 & H). pose proof (keeps_public d4) as S5. rewrite H5 in S5. destruct S5 as [S5k S5c]. cbn [snd] in S5k, S5c.
    destruct (bytes_eqb k _); [|discriminate]. unfold yret in H. injection H as _ <-.
    unfold KEY_AGREEMENT_SLOT, SIGNING_SLOT in *. destruct (O4 Signature ltac:(discriminate)) as [O4k O4c].
    unfold holds. rewrite S5k, S5c, K4, C4, O4k, O4c, K3, C3. repeat split; try (eexists; split; reflexivity).
  Qed.
  (** When generating succeeds, the file written is the public key of the keys
      now on the card (which never left it). *)
  Theorem c79_generated_key_is_the_published_one : forall pin d text d', provision pin d = (Ok text, d') ->
    exists ke kg, c_key d' KeyManagement = Some (Key ke Always Always) /\ c_key d' Signature = Some (Key kg Always Always)
      /\ text = encode (q_pub Q ke ++ q_pub Q kg) /\ forall seed aes, holds Q d' (Pair ke kg seed aes).
  Proof.
    intros pin d text d' H. unfold provision_yubikey in H. apply ybind_ok in H as (u0 & d0 & _ & H).
    apply ybind_ok in H as (g & d3 & H3 & H). apply generate_ok in H3 as (kg & _ & K3 & C3 & _).
    apply ybind_ok in H as (e & d4 & H4 & H). apply generate_ok in H4 as (ke & _ & K4 & C4 & O4).
    apply ybind_ok in H as (k & d5 & H5 & H). pose proof (keeps_public d4) as S5. rewrite H5 in S5. destruct S5 as [S5k S5c]. cbn [snd] in S5k, S5c.
    apply public_ok in H5 as (e' & g' & -> & E1 & E2 & _). unfold yret in H. injection H as <- <-.
    unfold KEY_AGREEMENT_SLOT, SIGNING_SLOT in *. destruct (O4 Signature ltac:(discriminate)) as [O4k O4c].
    rewrite C4 in E1. rewrite O4c, C3 in E2. injection E1 as <-. injection E2 as <-. exists ke, kg.
    unfold holds. rewrite S5k, S5c, K4, C4, O4k, O4c, K3, C3. repeat split; try (eexists; split; reflexivity).
  Qed.
  (** *** Provisioning a fresh card succeeds *)
  Definition ready (d : card) (pin : bytes) : Prop := calm d /\ right_pin d pin /\ c_mgm d = DEFAULT_MGM.
  Lemma open_run d pin : ready d pin -> exists d1, open_single d = (Ok tt, d1) /\ ready d1 pin /\ same_keys d d1 /\ c_rng d1 = c_rng d.
  Proof.
    intros (C & R & M). unfold open_single. rewrite yop_calm by exact C. unfold op_open. eexists. split; [reflexivity|].
    split; [|split; [now split|reflexivity]]. split; [exact (calm_advance _ C)|]. split; [exact R|exact M].
  Qed.
  Lemma auth_run e d pin : ready d pin -> exists d1, yop (op_authenticate DEFAULT_MGM) e d = (Ok tt, d1) /\ ready d1 pin /\ same_keys d d1
    /\ c_rng d1 = c_rng d /\ c_authed d1 = true.
  Proof.
    intros (C & R & M). rewrite yop_calm by exact C. unfold op_authenticate. cbn [advance c_mgm]. rewrite M.
    destruct (bytes_eqb_spec DEFAULT_MGM DEFAULT_MGM); [|congruence]. eexists. split; [reflexivity|].
    split; [|split; [now split|split; reflexivity]]. split; [exact (calm_advance _ C)|]. split; [exact R|exact M].
  Qed.
  Lemma refuse_run s d : calm d -> c_cert d s = None -> refuse_occupied s d = (Ok tt, advance d).
  Proof. intros C N. unfold refuse_occupied. rewrite exchange_calm by exact C. unfold op_read_cert. cbn [advance c_cert]. now rewrite N. Qed.
  Lemma finish_run s e k pub d pin : ready d pin -> c_authed d = true -> c_key d s = Some k ->
    exists d1 d2, verify_pin pin d = (Ok tt, d1) /\ yop (op_self_sign s pub) e d1 = (Ok tt, d2) /\ ready d2 pin /\ c_rng d2 = c_rng d.
  Proof.
    intros (C & R & M) A K. destruct (verify_run pin d C R) as (d1 & V & C1 & R1 & Vd & A1 & S1 & G1 & M1). exists d1.
    rewrite V. rewrite yop_calm by exact C1. unfold op_self_sign.
    destruct (use_run s (advance d1) k) as (d2 & U & S2 & P2 & A2 & R2 & G2 & M2); [cbn [advance c_key]; rewrite (proj1 S1); exact K|exact Vd|].
    rewrite U, A2. cbn [advance c_authed]. rewrite A1, A. eexists. split; [reflexivity|]. split; [reflexivity|].
    split; [|cbn [set_cert c_rng]; rewrite G2; exact G1]. split; [unfold calm; cbn [set_cert c_plan]; rewrite P2; exact (calm_advance _ C1)|].
    split; [exact (R2 pin R1)|]. cbn [set_cert c_mgm]. rewrite M2. cbn [advance c_mgm]. congruence.
  Qed.
  Lemma import_run k s d pin : ready d pin -> c_cert d s = None -> q_scalar_ok Q k = true ->
    exists d', import_key Q k s pin DEFAULT_MGM Always d = (Ok tt, d') /\ ready d' pin /\ c_rng d' = c_rng d.
  Proof.
    intros RD N Sc. pose proof RD as (C & R & M). destruct (verify_run pin d C R) as (d1 & V & C1 & R1 & _ & _ & S1 & G1 & M1).
    unfold import_key. rewrite (ybind_run _ _ _ _ _ V).
    destruct (auth_run FailedToAuthWithMGM d1 pin) as (d2 & A2 & RD2 & S2 & G2 & Au2); [split; [exact C1|split; [exact R1|congruence]]|].
    rewrite (ybind_run _ _ _ _ _ A2). pose proof RD2 as (C2 & R2 & M2).
    assert (N2 : c_cert d2 s = None) by (rewrite (proj2 S2), (proj2 S1); exact N).
    rewrite (ybind_run _ _ _ _ _ (refuse_run s d2 C2 N2)). rewrite Sc. cbn [ytry].
    rewrite (ybind_run (yret (q_pub Q k)) _ (advance d2) _ (advance d2) eq_refl).
    pose proof (calm_advance _ C2) as C3.
    assert (I : yop (op_import s k Always Always) FailedToLoadKey (advance d2) = (Ok tt, set_key (advance (advance d2)) s (Key k Always Always) (c_rng d2))).
    { rewrite yop_calm by exact C3. unfold op_import. cbn [advance c_authed]. now rewrite Au2. }
    rewrite (ybind_run _ _ _ _ _ I).
    destruct (finish_run s FailedToGenerateSelfSignedCert (Key k Always Always) (q_pub Q k) (set_key (advance (advance d2)) s (Key k Always Always) (c_rng d2)) pin)
      as (d4 & d5 & V4 & F5 & RD5 & G5).
    { split; [exact (calm_advance _ C3)|]. split; [exact R2|exact M2]. } { exact Au2. } { cbn [set_key c_key]. now rewrite slot_refl. }
    rewrite (ybind_run _ _ _ _ _ V4), (ybind_run _ _ _ _ _ F5). exists d5. split; [reflexivity|]. split; [exact RD5|]. rewrite G5. cbn [set_key c_rng]. congruence.
  Qed.
  Lemma generate_run k r s d pin : ready d pin -> c_cert d s = None -> c_rng d = k :: r -> encoded_ok (q_pub Q k) = true ->
    exists d', generate_signed_certificate Q encoded_ok s pin DEFAULT_MGM Always d = (Ok (q_pub Q k), d') /\ ready d' pin /\ c_rng d' = r.
  Proof.
    intros RD N G Sc. pose proof RD as (C & R & M). destruct (verify_run pin d C R) as (d1 & V & C1 & R1 & _ & _ & S1 & G1 & M1).
    unfold generate_signed_certificate. rewrite (ybind_run _ _ _ _ _ V).
    destruct (auth_run FailedToAuthWithMGM d1 pin) as (d2 & A2 & RD2 & S2 & G2 & Au2); [split; [exact C1|split; [exact R1|congruence]]|].
    rewrite (ybind_run _ _ _ _ _ A2). pose proof RD2 as (C2 & R2 & M2).
    assert (N2 : c_cert d2 s = None) by (rewrite (proj2 S2), (proj2 S1); exact N).
    rewrite (ybind_run _ _ _ _ _ (refuse_run s d2 C2 N2)).
    pose proof (calm_advance _ C2) as C3.
    assert (I : yop (op_generate Q s Always Always) FailedToGenerateKey (advance d2) = (Ok (q_pub Q k), set_key (advance (advance d2)) s (Key k Always Always) r)).
    { rewrite yop_calm by exact C3. unfold op_generate. cbn [advance c_authed c_rng]. now rewrite Au2, G2, G1, G. }
    rewrite (ybind_run _ _ _ _ _ I). unfold extract_encoded_point. rewrite Sc.
    rewrite (ybind_run (yret (q_pub Q k)) _ _ _ _ eq_refl).
    destruct (finish_run s FailedToGenerateSelfSignedCert (Key k Always Always) (q_pub Q k) (set_key (advance (advance d2)) s (Key k Always Always) r) pin)
      as (d4 & d5 & V4 & F5 & RD5 & G5).
    { split; [exact (calm_advance _ C3)|]. split; [exact R2|exact M2]. } { exact Au2. } { cbn [set_key c_key]. now rewrite slot_refl. }
    rewrite (ybind_run _ _ _ _ _ V4), (ybind_run _ _ _ _ _ F5). exists d5. split; [reflexivity|]. split; [exact RD5|]. rewrite G5. reflexivity.
  Qed.
  Lemma public_run d e g : calm d -> c_cert d KeyManagement = Some (Some e) -> c_cert d Signature = Some (Some g) ->
    encoded_ok e = true -> encoded_ok g = true -> fst (pair_public_key d) = Ok (e ++ g).
  Proof.
    intros C Ce Cg Ee Eg. unfold Yubi.pair_public_key, SIGNING_SLOT.
    rewrite (ybind_run _ _ _ _ _ (read_run Signature CannotFindSigningKey d _ C Cg)). unfold extract_encoded_point. rewrite Eg.
    rewrite (ybind_run (yret g) _ _ _ _ eq_refl). unfold key_agree_public_key, KEY_AGREEMENT_SLOT.
    assert (E : (let! c := yop (op_read_cert KeyManagement) CannotFindKeyAgree in extract_encoded_point encoded_ok c) (advance d) = (Ok e, advance (advance d))).
    { rewrite (ybind_run _ _ _ _ _ (read_run KeyManagement CannotFindKeyAgree (advance d) (Some e) (calm_advance _ C) Ce)). unfold extract_encoded_point. rewrite Ee. reflexivity. }
    rewrite (ybind_run _ _ _ _ _ E). reflexivity.
  Qed.
  Definition fresh (d : card) : Prop := c_cert d Signature = None /\ c_cert d KeyManagement = None.
  Theorem c79_a_fresh_card_is_provisioned : prims_ok Q -> card_laws Q from_der encoded_ok -> forall d pin, ready d pin -> fresh d ->
    (forall file p, pair_of_hex Q file = Ok p -> fst (provision_seed file pin d) = Ok tt) /\
    (forall kg ke r, c_rng d = kg :: ke :: r -> q_scalar_ok Q kg = true -> q_scalar_ok Q ke = true ->
       fst (provision pin d) = Ok (encode (q_pub Q ke ++ q_pub Q kg))).
  Proof.
    intros QL L d pin RD [F1 F2]. destruct (open_run d pin RD) as (d0 & O & RD0 & S0 & G0). split.
    - intros file p F. unfold advanced_provision_yubikey. rewrite (ybind_run _ _ _ _ _ O). rewrite F. cbn [of_p256].
      rewrite (ybind_run (yret p) _ _ _ _ eq_refl).
      assert (DP : pr_encrypt p = q_hkdf Q P256_ENCRYPT_DERIVE_PATH (pr_seed p) /\ pr_sign p = q_hkdf Q P256_SIGN_DERIVE_PATH (pr_seed p)
        /\ q_scalar_ok Q (pr_encrypt p) = true /\ q_scalar_ok Q (pr_sign p) = true).
      { unfold pair_of_hex in F. destruct (Utf8.utf8_dec file) as [cs|]; [|discriminate]. destruct (decode_to_buf _ 32) as [seed|]; [|discriminate].
        unfold pair_from_master_seed, derive_secret, secret_from_bytes in F. cbn [rbind] in F.
        destruct (q_scalar_ok Q (q_hkdf Q P256_ENCRYPT_DERIVE_PATH seed)) eqn:A; [|discriminate]. cbn [rbind] in F.
        destruct (q_scalar_ok Q (q_hkdf Q P256_SIGN_DERIVE_PATH seed)) eqn:B; [|discriminate]. cbn [rbind] in F. injection F as <-. auto. }
      destruct DP as (DE & DS & SE & SS). cbn [derive_secret of_p256]. rewrite (ybind_run (yret _) _ _ _ _ eq_refl), (ybind_run (yret _) _ _ _ _ eq_refl), <- DE, <- DS.
      destruct (import_run (pr_sign p) Signature d0 pin RD0 ltac:(rewrite (proj2 S0); exact F1) SS) as (d1 & I1 & RD1 & _).
      unfold SIGNING_SLOT, KEY_AGREEMENT_SLOT. rewrite (ybind_run _ _ _ _ _ I1). apply import_ok in I1 as (_ & K1 & C1 & O1).
      destruct (O1 KeyManagement ltac:(discriminate)) as [_ O1c].
      destruct (import_run (pr_encrypt p) KeyManagement d1 pin RD1 ltac:(rewrite O1c, (proj2 S0); exact F2) SE) as (d2 & I2 & RD2 & _).
      rewrite (ybind_run _ _ _ _ _ I2). apply import_ok in I2 as (_ & K2 & C2 & O2). destruct (O2 Signature ltac:(discriminate)) as [_ O2c]. rewrite C1 in O2c.
      destruct (l_pub _ QL _ SE) as [_ PE]. destruct (l_pub _ QL _ SS) as [_ PS].
      pose proof (public_run d2 _ _ (proj1 RD2) C2 O2c (l_point _ _ _ L _ PE) (l_point _ _ _ L _ PS)) as PR.
      unfold ybind. destruct (pair_public_key d2) as [[k|] d3]; [|discriminate]. cbn [fst] in PR. assert (k = q_pub Q (pr_encrypt p) ++ q_pub Q (pr_sign p)) by congruence. subst k.
      unfold public_to_bytes, public_key. cbn [pb_encrypt pb_sign].
      destruct (bytes_eqb_spec (q_pub Q (pr_encrypt p) ++ q_pub Q (pr_sign p)) (q_pub Q (pr_encrypt p) ++ q_pub Q (pr_sign p))); [reflexivity|congruence].
    - intros kg ke r G SS SE. unfold provision_yubikey. rewrite (ybind_run _ _ _ _ _ O).
      destruct (l_pub _ QL _ SE) as [_ PE]. destruct (l_pub _ QL _ SS) as [_ PS]. pose proof (l_point _ _ _ L _ PE) as EE. pose proof (l_point _ _ _ L _ PS) as ES.
      destruct (generate_run kg (ke :: r) Signature d0 pin RD0 ltac:(rewrite (proj2 S0); exact F1) ltac:(congruence) ES) as (d1 & I1 & RD1 & G1).
      unfold SIGNING_SLOT, KEY_AGREEMENT_SLOT. rewrite (ybind_run _ _ _ _ _ I1). apply generate_ok in I1 as (k1 & E1 & K1 & C1 & O1). rewrite <- E1 in C1.
      destruct (O1 KeyManagement ltac:(discriminate)) as [_ O1c].
      destruct (generate_run ke r KeyManagement d1 pin RD1 ltac:(rewrite O1c, (proj2 S0); exact F2) G1 EE) as (d2 & I2 & RD2 & _).
      rewrite (ybind_run _ _ _ _ _ I2). apply generate_ok in I2 as (k2 & E2 & K2 & C2 & O2). rewrite <- E2 in C2.
      destruct (O2 Signature ltac:(discriminate)) as [_ O2c]. rewrite C1 in O2c.
      pose proof (public_run d2 _ _ (proj1 RD2) C2 O2c EE ES) as PR.
      unfold ybind. destruct (pair_public_key d2) as [[k|] d3]; [|discriminate]. cbn [fst] in PR. assert (k = q_pub Q ke ++ q_pub Q kg) by congruence. subst k. reflexivity.
  Qed.
  (** A card that signs correctly signs: the signature of a card holding a
      pair's keys is one that pair's public key accepts. *)
  Theorem c79_signs_with_the_right_pin : prims_ok Q -> card_laws Q from_der encoded_ok -> forall d p pin, holds Q d p -> q_scalar_ok Q (pr_sign p) = true ->
    calm d -> right_pin d pin -> forall data s, from_der (card_sign (pr_sign p) (sha256 data)) = Some s -> q_verify Q (q_pub Q (pr_sign p)) data s = true ->
    fst (sign_data data pin d) = Ok s.
  Proof.
    intros QL L d p pin (_ & (k & Hk & Sk) & _ & Cg) Sc C RP data s D V. destruct (l_pub _ QL _ Sc) as [_ Pt].
    unfold Yubi.sign_data, SIGNING_SLOT. rewrite (ybind_run _ _ _ _ _ (read_run Signature CannotFindSigningKey d _ C Cg)).
    unfold extract_encoded_point. rewrite (l_point _ _ _ L _ Pt). rewrite (ybind_run (yret _) _ _ _ _ eq_refl). rewrite Pt.
    rewrite (ybind_run (yret tt) _ _ _ _ eq_refl).
    destruct (verify_run pin (advance d) (calm_advance _ C) RP) as (d1 & V1 & C1 & _ & Vd & _ & S1 & _). rewrite (ybind_run _ _ _ _ _ V1).
    destruct (use_run Signature (advance d1) k) as (d2 & U & _); [cbn [advance c_key]; rewrite (proj1 S1); exact Hk|exact Vd|].
    assert (SG : yop (op_sign card_sign Signature (sha256 data)) SigningFailed d1 = (Ok (card_sign (pr_sign p) (sha256 data)), d2)).
    { rewrite yop_calm by exact C1. unfold op_sign. rewrite U, Sk. reflexivity. }
    rewrite (ybind_run _ _ _ _ _ SG), D. cbn [ytry]. rewrite (ybind_run (yret s) _ _ _ _ eq_refl), V. reflexivity.
  Qed.

  (** ** C80 *)
  (** Signing, decrypting, reading the public key and changing the PIN never
      touch a key or a certificate, whatever fails. *)
  Theorem c80_use_changes_no_key : forall d data env pin new,
    same_keys d (snd (sign_data data pin d)) /\ same_keys d (snd (yubi_decrypt env pin d)) /\ same_keys d (snd (pair_public_key d))
    /\ same_keys d (snd (yubikey_change_pin pin new d)).
  Proof.
    intros d data env pin new. split; [apply keeps_sign|]. split; [apply keeps_decrypt|]. split; [apply keeps_public|].
    assert (K : keeps same_keys (yubikey_change_pin pin new)); [|apply K].
    unfold yubikey_change_pin, open_single. keep; [intros d0; now split|]. intros d0. unfold op_change_pin.
    destruct (_ || _); [now split|]. destruct (c_retries d0 =? 0)%nat; [now split|]. destruct (bytes_eqb _ _); now split.
  Qed.
  (** A slot that has a certificate is never written to, if no exchange fails. *)
  Lemma calm_verify pin d : calm d -> calm (snd (verify_pin pin d)).
  Proof.
    intros C. unfold verify_pin. rewrite yop_calm by exact C. unfold op_verify_pin. pose proof (calm_advance _ C) as A.
    destruct (PIN_MAX <? lenN pin); [exact A|]. destruct pin; [destruct (c_verified (advance d)); exact A|].
    destruct (c_retries (advance d) =? 0)%nat; [exact A|]. destruct (bytes_eqb _ _); exact A.
  Qed.
  Lemma calm_auth m e d : calm d -> calm (snd (yop (op_authenticate m) e d)).
  Proof. intros C. rewrite yop_calm by exact C. unfold op_authenticate. pose proof (calm_advance _ C) as A. destruct (bytes_eqb _ _); exact A. Qed.
  Lemma refused {A} (m : y A) s pin mgm d : calm d -> c_cert d s <> None ->
    exists e, fst ((do! verify_pin pin in do! yop (op_authenticate mgm) FailedToAuthWithMGM in do! refuse_occupied s in m) d) = Err e
    /\ same_keys d (snd ((do! verify_pin pin in do! yop (op_authenticate mgm) FailedToAuthWithMGM in do! refuse_occupied s in m) d)).
  Proof.
    intros C N. unfold ybind. pose proof (keeps_verify pin d) as S1. pose proof (calm_verify pin d C) as C1.
    destruct (verify_pin pin d) as [[u|e] d1]; cbn [snd fst] in *; [|exists e; split; [reflexivity|exact S1]].
    assert (S2 : same_keys d1 (snd (yop (op_authenticate mgm) FailedToAuthWithMGM d1))).
    { apply (keeps_op same_keys same_trans same_advance (op_authenticate mgm)). intros d0. unfold op_authenticate. destruct (bytes_eqb _ _); now split. }
    pose proof (calm_auth mgm FailedToAuthWithMGM d1 C1) as C2.
    destruct (yop (op_authenticate mgm) FailedToAuthWithMGM d1) as [[u2|e] d2]; cbn [snd fst] in *; [|exists e; split; [reflexivity|now apply (same_trans _ d1)]].
    unfold refuse_occupied. rewrite exchange_calm by exact C2. unfold op_read_cert. cbn [advance c_cert].
    rewrite (proj2 S2), (proj2 S1). destruct (c_cert d s); [|congruence]. exists WillNotOverwriteSlot. split; [reflexivity|].
    apply (same_trans _ d1); [exact S1|]. apply (same_trans _ d2); [exact S2|apply same_advance].
  Qed.
  (** [d'] is [d] but for slot [s], and still no exchange fails. *)
  Definition elsewhere (s : slot) (d d' : card) : Prop :=
    calm d -> calm d' /\ forall t, t <> s -> c_key d' t = c_key d t /\ c_cert d' t = c_cert d t.
  Lemma else_refl s d : elsewhere s d d. Proof. intros C. auto. Qed.
  Lemma else_trans s a b c : elsewhere s a b -> elsewhere s b c -> elsewhere s a c.
  Proof.
    intros H1 H2 C. destruct (H1 C) as [C1 E1]. destruct (H2 C1) as [C2 E2]. split; [exact C2|]. intros t N.
    destruct (E1 t N), (E2 t N). split; congruence.
  Qed.
  Lemma else_advance s d : elsewhere s d (advance d). Proof. intros C. split; [exact (calm_advance _ C)|]. intros t N. now split. Qed.
  Ltac elsewh := repeat first [apply keeps_bind; [exact (else_trans _)| |intros ?] | apply keeps_op; [exact (else_trans _)|exact (else_advance _)|]
    | apply keeps_ret; exact (else_refl _) | apply keeps_fail; exact (else_refl _)].
  Lemma else_verify s p d : elsewhere s d (snd (op_verify_pin p d)).
  Proof.
    unfold op_verify_pin. destruct (PIN_MAX <? lenN p); [apply else_refl|]. destruct p; [apply else_refl|].
    destruct (c_retries d =? 0)%nat; [apply else_refl|]. destruct (bytes_eqb _ _); intros C; (split; [exact C|]); intros t N; now split.
  Qed.
  Lemma else_cert s x d : elsewhere s d (set_cert d s x).
  Proof. intros C. split; [exact C|]. intros t N. cbn [set_cert c_key c_cert]. now rewrite slot_neq by exact N. Qed.
  Lemma else_session s d a v : elsewhere s d (set_session d a v). Proof. intros C. split; [exact C|]. intros t N. now split. Qed.
  Lemma else_self_sign s x d : elsewhere s d (snd (op_self_sign s x d)).
  Proof.
    unfold op_self_sign. assert (U : elsewhere s d (snd (use_key s d))).
    { unfold use_key. destruct (c_key d s) as [k|]; [|apply else_refl].
      destruct (k_pin k); [apply else_refl|apply else_refl|]. destruct (c_verified d); [apply else_session|apply else_refl]. }
    destruct (use_key s d) as [[k|] d1]; cbn [snd] in U; [|exact U]. destruct (c_authed d1); [|exact U]. apply (else_trans _ _ _ _ U). apply else_cert.
  Qed.
  Lemma else_generate s a b d : elsewhere s d (snd (op_generate Q s a b d)).
  Proof.
    unfold op_generate. destruct (c_authed d); [|apply else_refl]. destruct (c_rng d); [apply else_refl|].
    intros C. split; [exact C|]. intros t N. cbn [snd set_key c_key c_cert]. now rewrite slot_neq by exact N.
  Qed.
  Lemma else_import s k a b d : elsewhere s d (snd (op_import s k a b d)).
  Proof.
    unfold op_import. destruct (c_authed d); [|apply else_refl].
    intros C. split; [exact C|]. intros t N. cbn [snd set_key c_key c_cert]. now rewrite slot_neq by exact N.
  Qed.
  (** A slot with a certificate keeps it and its key. *)
  Definition spared (d d' : card) : Prop := calm d -> calm d' /\ forall s, c_cert d s <> None -> c_key d' s = c_key d s /\ c_cert d' s = c_cert d s.
  Lemma spared_refl d : spared d d. Proof. intros C. auto. Qed.
  Lemma spared_trans a b c : spared a b -> spared b c -> spared a c.
  Proof.
    intros H1 H2 C. destruct (H1 C) as [C1 E1]. destruct (H2 C1) as [C2 E2]. split; [exact C2|]. intros t N.
    destruct (E1 t N) as [A B]. destruct (E2 t ltac:(congruence)). split; congruence.
  Qed.
  Lemma guarded {A} (m : y A) s pin mgm : keeps (elsewhere s) m ->
    keeps spared (do! verify_pin pin in do! yop (op_authenticate mgm) FailedToAuthWithMGM in do! refuse_occupied s in m).
  Proof.
    intros M d C. unfold ybind. pose proof (keeps_verify pin d) as S1. pose proof (calm_verify pin d C) as C1.
    assert (F : forall d', calm d' -> same_keys d d' -> calm d' /\ forall s, c_cert d s <> None -> c_key d' s = c_key d s /\ c_cert d' s = c_cert d s).
    { intros d' C' [S1' S2']. split; [exact C'|]. intros t _. rewrite S1', S2'. now split. }
    destruct (verify_pin pin d) as [[u|e] d1]; cbn [snd fst] in *; [|now apply F].
    assert (S2 : same_keys d1 (snd (yop (op_authenticate mgm) FailedToAuthWithMGM d1))).
    { apply (keeps_op same_keys same_trans same_advance (op_authenticate mgm)). intros d0. unfold op_authenticate. destruct (bytes_eqb _ _); now split. }
    pose proof (calm_auth mgm FailedToAuthWithMGM d1 C1) as C2.
    destruct (yop (op_authenticate mgm) FailedToAuthWithMGM d1) as [[u2|e] d2]; cbn [snd fst] in *; [|apply F; [exact C2|now apply (same_trans _ d1)]].
    pose proof (same_trans _ _ _ S1 S2) as S3. pose proof (same_trans _ _ _ S3 (same_advance d2)) as S4.
    unfold refuse_occupied. rewrite exchange_calm by exact C2. unfold op_read_cert. cbn [advance c_cert].
    destruct (c_cert d2 s) as [x|] eqn:Z; [apply F; [exact (calm_advance _ C2)|exact S4]|].
    change (Card (c_pin d2) (c_retries d2) (c_max d2) (c_puk d2) (c_mgm d2) (c_key d2) (c_cert d2) (c_authed d2) (c_verified d2) (c_rng d2) (tl (c_plan d2))) with (advance d2).
    destruct (M (advance d2) (calm_advance _ C2)) as [C5 E5]. split; [exact C5|]. intros t N.
    destruct (E5 t) as [A5 B5]; [intros ->; rewrite <- (proj2 S3) in N; contradiction|]. rewrite A5, B5, (proj1 S4), (proj2 S4). now split.
  Qed.
  Lemma spared_same {A} (m : y A) : keeps same_keys m -> (forall d, calm d -> calm (snd (m d))) -> keeps spared m.
  Proof. intros K C d Cd. split; [now apply C|]. intros s _. destruct (K d) as [A1 B1]. now rewrite A1, B1. Qed.
  Lemma spared_open : keeps spared open_single.
  Proof. apply keeps_op; [exact spared_trans| |]; intros d C; (split; [|intros s _; now split]); [exact (calm_advance _ C)|exact C]. Qed.
  Lemma spared_read s e : keeps spared (yop (op_read_cert s) e).
  Proof. apply keeps_op; [exact spared_trans| |intros d; apply spared_refl]. intros d C. split; [exact (calm_advance _ C)|intros t _; now split]. Qed.
  Lemma spared_extract o : keeps spared (extract_encoded_point encoded_ok o).
  Proof. unfold extract_encoded_point. intros d. destruct o as [b|]; [destruct (encoded_ok b)|]; apply spared_refl. Qed.
  Lemma spared_public : keeps spared pair_public_key.
  Proof.
    unfold Yubi.pair_public_key, key_agree_public_key.
    repeat first [apply keeps_bind; [exact spared_trans| |intros ?] | apply spared_read | apply spared_extract | apply keeps_ret; exact spared_refl].
  Qed.
  Lemma else_extract s o : keeps (elsewhere s) (extract_encoded_point encoded_ok o).
  Proof. unfold extract_encoded_point. intros d. destruct o as [b|]; [destruct (encoded_ok b)|]; apply else_refl. Qed.
  Lemma spared_generate s pin mgm touch : keeps spared (generate_signed_certificate Q encoded_ok s pin mgm touch).
  Proof.
    apply guarded. apply keeps_bind; [exact (else_trans s)|elsewh; apply else_generate|intros pub].
    apply keeps_bind; [exact (else_trans s)|apply else_extract|intros pt]. unfold verify_pin. elsewh; [apply else_verify|apply else_self_sign].
  Qed.
  Lemma spared_import k s pin mgm touch : keeps spared (import_key Q k s pin mgm touch).
  Proof.
    apply guarded. apply keeps_bind; [exact (else_trans s)|destruct (q_scalar_ok Q k); cbn [ytry]; elsewh|intros pub].
    unfold verify_pin. elsewh; [apply else_import|apply else_verify|apply else_self_sign].
  Qed.
  Lemma spared_p256 {A} (r : result p256_error A) : keeps spared (of_p256 r). Proof. intros d. destruct r; apply spared_refl. Qed.
  (** A slot that has a certificate is never written to by provisioning, if no
      exchange fails: the key and the certificate are the old ones. *)
  Theorem c80_never_overwrites_without_faults : forall d, calm d -> forall s, c_cert d s <> None -> forall pin file,
    (let d' := snd (provision pin d) in c_key d' s = c_key d s /\ c_cert d' s = c_cert d s) /\
    (let d' := snd (provision_seed file pin d) in c_key d' s = c_key d s /\ c_cert d' s = c_cert d s).
  Proof.
    intros d C s N pin file.
    assert (P1 : keeps spared (provision pin)).
    { unfold provision_yubikey. repeat first [apply spared_open | apply spared_generate | apply spared_public | apply keeps_ret; exact spared_refl | apply keeps_bind; [exact spared_trans| |intros ?]]. }
    assert (P2 : keeps spared (provision_seed file pin)).
    { unfold advanced_provision_yubikey. repeat first [apply spared_open | apply spared_import | apply spared_p256 | apply spared_public | apply keeps_bind; [exact spared_trans| |intros ?]].
      intros d0. destruct (bytes_eqb _ _); apply spared_refl. }
    split; [exact (proj2 (P1 d C) s N)|exact (proj2 (P2 d C) s N)].
  Qed.
  (** A card whose signing slot is taken - in particular one whose provisioning
      was interrupted - cannot be provisioned any more: every attempt fails
      without changing a key. *)
  Theorem c80_half_provisioned_is_stuck : forall d, calm d -> c_cert d Signature <> None -> forall pin file,
    (forall r, fst (provision pin d) <> Ok r) /\ same_keys d (snd (provision pin d)) /\
    (forall r, fst (provision_seed file pin d) <> Ok r) /\ same_keys d (snd (provision_seed file pin d)).
  Proof.
    intros d C N pin file.
    assert (O : exists d0, open_single d = (Ok tt, d0) /\ calm d0 /\ same_keys d d0).
    { unfold open_single. rewrite yop_calm by exact C. eexists. split; [reflexivity|]. split; [exact (calm_advance _ C)|now split]. }
    destruct O as (d0 & O & C0 & S0). assert (N0 : c_cert d0 Signature <> None) by (rewrite (proj2 S0); exact N).
    unfold provision_yubikey, advanced_provision_yubikey. rewrite !(ybind_run _ _ _ _ _ O). unfold SIGNING_SLOT.
    assert (A : exists e d1, generate_signed_certificate Q encoded_ok Signature pin DEFAULT_MGM Always d0 = (Err e, d1) /\ same_keys d0 d1).
    { pose proof (refused _ Signature pin DEFAULT_MGM d0 C0 N0 : exists e, fst (generate_signed_certificate Q encoded_ok Signature pin DEFAULT_MGM Always d0) = Err e
        /\ same_keys d0 (snd (generate_signed_certificate Q encoded_ok Signature pin DEFAULT_MGM Always d0))) as (e & E & S1).
      destruct (generate_signed_certificate Q encoded_ok Signature pin DEFAULT_MGM Always d0) as [r1 d1]. cbn [fst snd] in E, S1. subst r1. eauto. }
    assert (B : forall k, exists e d1, import_key Q k Signature pin DEFAULT_MGM Always d0 = (Err e, d1) /\ same_keys d0 d1).
    { intros k. pose proof (refused _ Signature pin DEFAULT_MGM d0 C0 N0 : exists e, fst (import_key Q k Signature pin DEFAULT_MGM Always d0) = Err e
        /\ same_keys d0 (snd (import_key Q k Signature pin DEFAULT_MGM Always d0))) as (e & E & S1).
      destruct (import_key Q k Signature pin DEFAULT_MGM Always d0) as [r1 d1]. cbn [fst snd] in E, S1. subst r1. eauto. }
    destruct A as (e & d1 & A & S1). rewrite (ybind_stop _ _ _ _ _ A). split; [discriminate|]. split; [exact (same_trans _ _ _ S0 S1)|].
    destruct (pair_of_hex Q file) as [p|pe]; cbn [of_p256]; [|split; [discriminate|exact S0]].
    rewrite (ybind_run (yret p) _ d0 p d0 eq_refl). cbn [derive_secret of_p256]. rewrite !(ybind_run (yret _) _ _ _ _ eq_refl).
    destruct (B (q_hkdf Q P256_SIGN_DERIVE_PATH (pr_seed p))) as (e2 & d2 & B2 & S2). rewrite (ybind_stop _ _ _ _ _ B2).
    split; [discriminate|]. exact (same_trans _ _ _ S0 S2).
  Qed.

  (** *** The PIN *)
  (** The command fails, changes no key and costs at most one PIN try. *)
  Definition turned_away {A} (m : y A) (d : card) : Prop :=
    (forall a, fst (m d) <> Ok a) /\ same_keys d (snd (m d)) /\ c_pin (snd (m d)) = c_pin d
    /\ (c_retries (snd (m d)) <= c_retries d <= Datatypes.S (c_retries (snd (m d))))%nat.
  Lemma wrong_verify {B} (f : unit -> y B) pin d : pin <> c_pin d -> c_verified d = false -> turned_away (ybind (verify_pin pin) f) d.
  Proof.
    intros N V. assert (X : exists d1, verify_pin pin d = (Err FailedToVerifyPin, d1) /\ same_keys d d1 /\ c_pin d1 = c_pin d /\ (c_retries d1 <= c_retries d <= Datatypes.S (c_retries d1))%nat).
    { assert (Y : fst (op_verify_pin pin (advance d)) = None /\ same_keys d (snd (op_verify_pin pin (advance d))) /\ c_pin (snd (op_verify_pin pin (advance d))) = c_pin d
        /\ (c_retries (snd (op_verify_pin pin (advance d))) <= c_retries d <= Datatypes.S (c_retries (snd (op_verify_pin pin (advance d)))))%nat).
      { unfold op_verify_pin. cbn [advance c_verified c_retries c_pin]. rewrite V. destruct (PIN_MAX <? lenN pin); [split; [reflexivity|split; [now split|split; [reflexivity|cbn; lia]]]|].
        destruct pin as [|b pin]; [split; [reflexivity|split; [now split|split; [reflexivity|cbn; lia]]]|].
        destruct (Nat.eqb_spec (c_retries d) 0); [split; [reflexivity|split; [now split|split; [reflexivity|cbn; lia]]]|].
        destruct (bytes_eqb_spec (b :: pin) (c_pin d)); [contradiction|]. split; [reflexivity|split; [now split|split; [reflexivity|cbn; lia]]]. }
      destruct Y as (Y1 & Y2 & Y3 & Y4). unfold verify_pin, yop.
      destruct (exchange_cases (op_verify_pin pin) d) as [E|[E|E]]; rewrite E.
      - destruct (op_verify_pin pin (advance d)) as [r d1]. cbn [fst snd] in *. subst r. eauto 6.
      - eexists. split; [reflexivity|]. split; [apply same_advance|]. split; [reflexivity|]. cbn; lia.
      - eexists. split; [reflexivity|]. eauto. }
    destruct X as (d1 & X & S & P & R). unfold turned_away. rewrite (ybind_stop _ _ _ _ _ X). cbn [fst snd]. split; [discriminate|]. split; [exact S|]. now split.
  Qed.
  Lemma after {A B} (m : y A) (f : A -> y B) d :
    same_keys d (snd (m d)) -> c_pin (snd (m d)) = c_pin d -> c_retries (snd (m d)) = c_retries d ->
    (forall a d1, m d = (Ok a, d1) -> turned_away (f a) d1) -> turned_away (ybind m f) d.
  Proof.
    intros K P R F. unfold turned_away, ybind. destruct (m d) as [[a|e] d1]; cbn [fst snd] in *.
    - destruct (F a d1 eq_refl) as (F1 & F2 & F3 & F4). split; [exact F1|]. split; [exact (same_trans _ _ _ K F2)|]. split; [congruence|]. now rewrite <- R.
    - split; [discriminate|]. split; [exact K|]. split; [exact P|]. rewrite R. lia.
  Qed.
  Lemma away_bind {A B} (m : y A) (f : A -> y B) d : turned_away m d -> turned_away (ybind m f) d.
  Proof.
    unfold turned_away, ybind. intros (H1 & H2 & H3 & H4). destruct (m d) as [[a|e] d1]; cbn [fst snd] in *; [destruct (H1 a eq_refl)|].
    split; [discriminate|]. split; [exact H2|]. now split.
  Qed.
  Lemma open_shape d : same_keys d (snd (open_single d)) /\ c_pin (snd (open_single d)) = c_pin d /\ c_retries (snd (open_single d)) = c_retries d
    /\ forall a d1, open_single d = (Ok a, d1) -> c_verified d1 = false /\ c_pin d1 = c_pin d.
  Proof.
    unfold open_single, yop. destruct (exchange_cases op_open d) as [E|[E|E]]; rewrite E; unfold op_open; cbn [snd];
      (split; [now split|]); (split; [reflexivity|]); (split; [reflexivity|]); intros a d1 H; try discriminate. injection H as _ <-. now split.
  Qed.
  Lemma pure_shape {A} (m : y A) : (forall d, snd (m d) = d) -> forall d, same_keys d (snd (m d)) /\ c_pin (snd (m d)) = c_pin d /\ c_retries (snd (m d)) = c_retries d.
  Proof. intros H d. rewrite H. split; [now split|]. now split. Qed.
  (** With a wrong PIN nothing is provisioned, signed or decrypted, whatever
      the exchanges do. *)
  Theorem c80_needs_the_pin : forall d pin, pin <> c_pin d -> forall file hex env,
    turned_away (provision pin) d /\ turned_away (provision_seed file pin) d /\ turned_away (yubikey_sign hex pin) d
    /\ turned_away (do! open_single in yubi_decrypt env pin) d.
  Proof.
    intros d pin N file hex env. destruct (open_shape d) as (O1 & O2 & O3 & O4).
    assert (PF : forall {A} (r : result p256_error A), forall d, snd (of_p256 r d) = d) by (intros A [|] d0; reflexivity).
    assert (NOW : forall {A} e d, turned_away (@yfail A e) d).
    { intros A e d0. split; [discriminate|]. split; [now split|]. split; [reflexivity|]. cbn; lia. }
    assert (VF : forall {A} (r : result p256_error A) d a d1, of_p256 r d = (Ok a, d1) -> d1 = d).
    { intros A r d0 a d1 H. pose proof (PF A r d0) as X. rewrite H in X. exact X. }
    split; [|split; [|split]].
    - apply after; auto. intros [] d1 H. destruct (O4 _ _ H) as [V P]. apply away_bind. apply wrong_verify; congruence.
    - apply after; auto. intros [] d1 H. destruct (O4 _ _ H) as [V P].
      destruct (pure_shape _ (PF _ (pair_of_hex Q file)) d1) as (A1 & A2 & A3). apply after; auto. intros p d2 H2. apply VF in H2. subst d2.
      cbn [derive_secret of_p256]. apply after; [now split|reflexivity|reflexivity|]. intros e d2 H2. unfold yret in H2. injection H2 as <- <-.
      apply after; [now split|reflexivity|reflexivity|]. intros g d2 H2. unfold yret in H2. injection H2 as <- <-.
      apply away_bind. apply wrong_verify; congruence.
    - unfold Yubi.yubikey_sign. destruct (decode hex) as [b|]; [|apply NOW]. apply after; auto. intros [] d1 H. destruct (O4 _ _ H) as [V P].
      apply away_bind. unfold yubi_sign, Yubi.sign_data.
      assert (RD : snd (yop (op_read_cert SIGNING_SLOT) CannotFindSigningKey d1) = advance d1).
      { unfold yop. destruct (exchange_cases (op_read_cert SIGNING_SLOT) d1) as [E|[E|E]]; rewrite E; unfold op_read_cert; try reflexivity. destruct (c_cert _ _); reflexivity. }
      apply after; try (rewrite RD; now split). intros c d2 H2. rewrite H2 in RD. cbn [snd] in RD. subst d2.
      assert (EX : forall d, snd (extract_encoded_point encoded_ok c d) = d) by (intros d0; unfold extract_encoded_point; destruct c as [x|]; [destruct (encoded_ok x)|]; reflexivity).
      destruct (pure_shape _ EX (advance d1)) as (A1 & A2 & A3). apply after; auto. intros g d2 H3. apply extract_ok in H3 as (_ & _ & ->).
      apply after; try (destruct (q_point_ok Q g); now split). intros u d2 H3. assert (d2 = advance d1) by (destruct (q_point_ok Q g); [unfold yret in H3; congruence|discriminate]). subst d2.
      apply wrong_verify; [cbn [advance c_pin]; congruence|exact V].
    - apply after; auto. intros [] d1 H. destruct (O4 _ _ H) as [V P]. unfold Yubi.yubi_decrypt, shared_secret.
      apply away_bind. destruct (from_slice c_envelope env) as [[n [s c]]|]; [|apply NOW]. apply wrong_verify; congruence.
  Qed.

  (** *** Resetting *)
  (** Three wrong PINs block a card with up to three tries, and only then does
      the reset wipe it. *)
  Lemma wrong_try d : calm d -> c_pin d <> bs "000000" \/ c_retries d = 0%nat -> exists d1, ignore (op_verify_pin (bs "000000")) d = (Ok tt, d1) /\ calm d1
    /\ c_pin d1 = c_pin d /\ c_retries d1 = pred (c_retries d).
  Proof.
    intros C N. unfold ignore. rewrite exchange_calm by exact C. unfold op_verify_pin. change (PIN_MAX <? lenN (bs "000000")) with false. cbv iota.
    change (bs "000000") with (x30 :: bs "00000") at 1. cbv iota. cbn [advance c_retries c_pin].
    destruct (Nat.eqb_spec (c_retries d) 0).
    - eexists. split; [reflexivity|]. split; [exact (calm_advance _ C)|]. split; [reflexivity|]. cbn [snd advance c_retries]. lia.
    - destruct (bytes_eqb_spec (bs "000000") (c_pin d)) as [E|_]; [exfalso; destruct N as [N|N]; [exact (N (eq_sym E))|congruence]|]. eexists. split; [reflexivity|]. split; [exact (calm_advance _ C)|]. split; reflexivity.
  Qed.
  Lemma wrong_auth m d : calm d -> exists d1, ignore (op_authenticate m) d = (Ok tt, d1) /\ calm d1 /\ c_pin d1 = c_pin d /\ c_retries d1 = c_retries d.
  Proof.
    intros C. unfold ignore. rewrite exchange_calm by exact C. unfold op_authenticate.
    destruct (bytes_eqb _ _); eexists; (split; [reflexivity|]); (split; [exact (calm_advance _ C)|]); split; reflexivity.
  Qed.
  Theorem c80_reset_wipes : forall d m1 m2 m3, calm d -> (c_retries d <= 3)%nat -> c_pin d <> bs "000000" \/ c_retries d = 0%nat ->
    let (r, d') := yubikey_piv_reset m1 m2 m3 d in
    r = Ok tt /\ (forall s, c_key d' s = None /\ c_cert d' s = None) /\ c_pin d' = bs "123456" /\ (0 < c_retries d')%nat /\ c_mgm d' = DEFAULT_MGM.
  Proof.
    intros d m1 m2 m3 C R P. unfold yubikey_piv_reset.
    assert (O : exists d0, open_single d = (Ok tt, d0) /\ calm d0 /\ c_pin d0 = c_pin d /\ c_retries d0 = c_retries d).
    { unfold open_single. rewrite yop_calm by exact C. eexists. split; [reflexivity|]. split; [exact (calm_advance _ C)|]. now split. }
    destruct O as (d0 & O & C0 & P0 & R0). rewrite (ybind_run _ _ _ _ _ O).
    destruct (wrong_auth m1 d0 C0) as (d1 & O1 & C1 & P1 & R1). rewrite (ybind_run _ _ _ _ _ O1).
    destruct (wrong_try d1 C1 ltac:(destruct P as [P|P]; [left; congruence|right; lia])) as (d2 & O2 & C2 & P2 & R2). rewrite (ybind_run _ _ _ _ _ O2).
    destruct (wrong_auth m2 d2 C2) as (d3 & O3 & C3 & P3 & R3). rewrite (ybind_run _ _ _ _ _ O3).
    destruct (wrong_try d3 C3 ltac:(destruct P as [P|P]; [left; congruence|right; lia])) as (d4 & O4 & C4 & P4 & R4). rewrite (ybind_run _ _ _ _ _ O4).
    destruct (wrong_auth m3 d4 C4) as (d5 & O5 & C5 & P5 & R5). rewrite (ybind_run _ _ _ _ _ O5).
    destruct (wrong_try d5 C5 ltac:(destruct P as [P|P]; [left; congruence|right; lia])) as (d6 & O6 & C6 & P6 & R6). rewrite (ybind_run _ _ _ _ _ O6).
    assert (Z : c_retries d6 = 0%nat) by (clear - R R0 R1 R2 R3 R4 R5 R6; lia).
    assert (B : ignore op_block_puk d6 = (Ok tt, set_puk (advance d6) 0)) by (unfold ignore; rewrite exchange_calm by exact C6; reflexivity).
    rewrite (ybind_run _ _ _ _ _ B).
    assert (C7 : calm (set_puk (advance d6) 0)) by exact (calm_advance _ C6).
    unfold ignore, ybind. rewrite exchange_calm by exact C7. unfold op_reset. cbn [advance set_puk c_retries c_puk]. rewrite Z. cbn [snd yret].
    unfold yret. split; [reflexivity|]. cbn [c_key c_cert c_pin c_retries c_mgm]. split; [now split|]. split; [reflexivity|]. split; [apply Nat.lt_0_succ|reflexivity].
  Qed.

  (** *** What the code does not guarantee *)
  (** "Provisioning never overwrites a key" fails when the read that looks for
      a certificate fails: the error is taken for an empty slot. *)
  Theorem c80_refuted_provisioning_never_overwrites : forall old k, exists d pin, right_pin d pin /\ c_cert d Signature <> None /\
    c_key d Signature = Some old /\ c_key (snd (provision pin d)) Signature = Some (Key k Always Always).
  Proof.
    intros old k. exists (Card (bs "123456") 3 3 3 DEFAULT_MGM (fun _ => Some old) (fun _ => Some None) false false [k] [Works; Works; Works; FailsBefore; Works; FailsBefore]), (bs "123456").
    split; [|split; [discriminate|split; [reflexivity|]]].
    - split; [reflexivity|]. split; [discriminate|]. split; [vm_compute; discriminate|]. cbn; lia.
    - vm_compute. destruct (encoded_ok _); reflexivity.
  Qed.
  (** "A provisioning that was interrupted can be run again" fails: one lost
      exchange between the two slots leaves a card no later run accepts. *)
  Theorem c80_refuted_interrupted_provisioning_can_be_completed : forall k, encoded_ok (q_pub Q k) = true -> exists d pin, fresh d /\ right_pin d pin /\ c_mgm d = DEFAULT_MGM /\
    let d' := snd (provision pin d) in calm d' /\ c_cert d' KeyManagement = None /\
    forall pin' file, (forall r, fst (provision pin' d') <> Ok r) /\ (forall r, fst (provision_seed file pin' d') <> Ok r).
  Proof.
    intros k E. exists (Card (bs "123456") 3 3 3 DEFAULT_MGM (fun _ => None) (fun _ => None) false false [k] [Works; Works; Works; Works; Works; Works; Works; FailsBefore]), (bs "123456").
    split; [now split|]. split; [|split; [reflexivity|]].
    - split; [reflexivity|]. split; [discriminate|]. split; [vm_compute; discriminate|]. cbn; lia.
    - match goal with |- let d' := ?x in _ => assert (X : c_plan x = [] /\ c_cert x KeyManagement = None /\ c_cert x Signature <> None) end.
      { vm_compute. vm_compute in E. rewrite E. split; [reflexivity|]. split; [reflexivity|discriminate]. }
      destruct X as (X1 & X2 & X3). intros d'. assert (C : calm d') by (unfold calm; unfold d'; rewrite X1; constructor).
      split; [exact C|]. split; [exact X2|]. intros pin' file. destruct (c80_half_provisioned_is_stuck d' C X3 pin' file) as (A & _ & B & _). now split.
  Qed.
  (** "A reset that reports success has wiped the card" fails: for a card with
      more than three PIN tries, or whose PIN is 000000, nothing is wiped. *)
  Definition unblockable (n : nat) (d : card) : Prop :=
    calm d /\ (0 < c_max d)%nat /\ ((n < c_retries d)%nat \/ c_pin d = bs "000000" /\ (0 < c_retries d)%nat).
  Lemma more_try n d : unblockable (Datatypes.S n) d -> exists d1, ignore (op_verify_pin (bs "000000")) d = (Ok tt, d1) /\ unblockable n d1 /\ same_keys d d1.
  Proof.
    intros (C & M & U). unfold ignore. rewrite exchange_calm by exact C. unfold op_verify_pin. change (PIN_MAX <? lenN (bs "000000")) with false. cbv iota.
    change (bs "000000") with (x30 :: bs "00000") at 1. cbv iota. cbn [advance c_retries c_pin].
    destruct (Nat.eqb_spec (c_retries d) 0) as [Z|Z]; [exfalso; destruct U as [U|[_ U]]; clear - U Z; lia|].
    destruct (bytes_eqb_spec (bs "000000") (c_pin d)) as [E|E]; (eexists; split; [reflexivity|]; split; [|now split]); (split; [exact (calm_advance _ C)|split; [exact M|]]).
    - right. split; [symmetry; exact E|exact M].
    - left. destruct U as [U|[U _]]; [|congruence]. change (n < pred (c_retries d))%nat. clear - U. lia.
  Qed.
  Lemma more_auth n m d : unblockable n d -> exists d1, ignore (op_authenticate m) d = (Ok tt, d1) /\ unblockable n d1 /\ same_keys d d1.
  Proof.
    intros (C & M & U). unfold ignore. rewrite exchange_calm by exact C. unfold op_authenticate.
    destruct (bytes_eqb _ _); eexists; (split; [reflexivity|]); (split; [|now split]); (split; [exact (calm_advance _ C)|]); split; assumption.
  Qed.
  Lemma reset_does_nothing d m1 m2 m3 : unblockable 3 d -> exists d', yubikey_piv_reset m1 m2 m3 d = (Ok tt, d') /\ same_keys d d'.
  Proof.
    intros U. unfold yubikey_piv_reset.
    assert (O : exists d0, open_single d = (Ok tt, d0) /\ unblockable 3 d0 /\ same_keys d d0).
    { unfold open_single. rewrite yop_calm by exact (proj1 U). eexists. split; [reflexivity|]. split; [|now split].
      destruct U as (C & M & U). split; [exact (calm_advance _ C)|]. split; assumption. }
    destruct O as (d0 & O & U0 & S0). rewrite (ybind_run _ _ _ _ _ O).
    destruct (more_auth _ m1 d0 U0) as (d1 & O1 & U1 & S1). rewrite (ybind_run _ _ _ _ _ O1).
    destruct (more_try _ d1 U1) as (d2 & O2 & U2 & S2). rewrite (ybind_run _ _ _ _ _ O2).
    destruct (more_auth _ m2 d2 U2) as (d3 & O3 & U3 & S3). rewrite (ybind_run _ _ _ _ _ O3).
    destruct (more_try _ d3 U3) as (d4 & O4 & U4 & S4). rewrite (ybind_run _ _ _ _ _ O4).
    destruct (more_auth _ m3 d4 U4) as (d5 & O5 & U5 & S5). rewrite (ybind_run _ _ _ _ _ O5).
    destruct (more_try _ d5 U5) as (d6 & O6 & (C6 & M6 & U6) & S6). rewrite (ybind_run _ _ _ _ _ O6).
    assert (B : ignore op_block_puk d6 = (Ok tt, set_puk (advance d6) 0)) by (unfold ignore; rewrite exchange_calm by exact C6; reflexivity).
    rewrite (ybind_run _ _ _ _ _ B).
    assert (C7 : calm (set_puk (advance d6) 0)) by exact (calm_advance _ C6).
    unfold ignore, ybind. rewrite exchange_calm by exact C7. unfold op_reset. cbn [advance set_puk c_retries c_puk].
    assert (Z : (c_retries d6 =? 0)%nat = false) by (apply Nat.eqb_neq; destruct U6 as [U6|[_ U6]]; clear - U6; lia). rewrite Z. cbn [andb snd]. unfold yret.
    eexists. split; [reflexivity|]. apply (same_trans _ d6); [|now split].
    exact (same_trans _ _ _ S0 (same_trans _ _ _ S1 (same_trans _ _ _ S2 (same_trans _ _ _ S3 (same_trans _ _ _ S4 (same_trans _ _ _ S5 S6)))))).
  Qed.
  Theorem c80_refuted_reset_success_means_reset : forall d m1 m2 m3, calm d -> (0 < c_max d)%nat ->
    (3 < c_retries d)%nat \/ c_pin d = bs "000000" /\ (0 < c_retries d)%nat ->
    exists d', yubikey_piv_reset m1 m2 m3 d = (Ok tt, d') /\ same_keys d d'.
  Proof. intros d m1 m2 m3 C M U. apply reset_does_nothing. now split. Qed.
End Props.
Print Assumptions c79_signatures_verify.
Print Assumptions c79_sign_command.
Print Assumptions c79_decrypts_only_as_the_key_file.
Print Assumptions c79_decrypts_all_the_key_file_does.
Print Assumptions c79_provisioned_from_the_seed.
Print Assumptions c79_generated_key_is_the_published_one.
Print Assumptions c79_a_fresh_card_is_provisioned.
Print Assumptions c79_signs_with_the_right_pin.
Print Assumptions c80_use_changes_no_key.
Print Assumptions c80_never_overwrites_without_faults.
Print Assumptions c80_half_provisioned_is_stuck.
Print Assumptions c80_needs_the_pin.
Print Assumptions c80_reset_wipes.
Print Assumptions c80_refuted_provisioning_never_overwrites.
Print Assumptions c80_refuted_interrupted_provisioning_can_be_completed.
Print Assumptions c80_refuted_reset_success_means_reset.

(** Non-trivial cases: the toy group with 65-byte points. *)
Definition card_prims : prims := {|
  q_scalar_ok := q_scalar_ok toy_prims; q_pub := q_pub toy_prims;
  q_point_ok := fun p => q_point_ok toy_prims p && (length p =? 65)%nat;
  q_dh := q_dh toy_prims; q_hmac := q_hmac toy_prims; q_hkdf := q_hkdf toy_prims; q_seal := q_seal toy_prims; q_open := q_open toy_prims;
  q_sign := q_sign toy_prims; q_sig_ok := q_sig_ok toy_prims; q_verify := q_verify toy_prims |}.
Definition toy_card_sign (k digest : bytes) : bytes := k ++ repeat x03 32.
Definition toy_from_der (b : bytes) : option bytes := if (length b =? 64)%nat then Some b else None.
Definition toy_encoded_ok (b : bytes) : bool := (length b =? 65)%nat.
Lemma card_prims_ok : prims_ok card_prims.
Proof.
  destruct toy_prims_ok as [P1 P2 P3 P4]. constructor; try assumption.
  intros k L. cbn [card_prims q_scalar_ok q_pub q_point_ok] in *. destruct (P1 k L) as [A B]. split; [exact A|]. rewrite B, andb_true_l.
  rewrite lenN_length in A. apply Nat.eqb_eq. lia.
Qed.
Lemma toy_card_laws : card_laws card_prims toy_from_der toy_encoded_ok.
Proof.
  constructor.
  - intros b H. apply Nat.eqb_eq in H. auto.
  - intros b H. cbn [card_prims q_point_ok] in H. apply andb_true_iff in H. exact (proj2 H).
  - intros b s. unfold toy_from_der. destruct (length b =? 64)%nat eqn:E; [|discriminate]. intros H. injection H as <-. exact E.
Qed.
Definition new_card : card := Card (bs "123456") 3 3 3 DEFAULT_MGM (fun _ => None) (fun _ => None) false false [repeat x11 32; repeat x22 32] [].
Definition seed_file : bytes := encode (repeat x09 32).
Example c79_nontrivial : prims_ok card_prims /\ card_laws card_prims toy_from_der toy_encoded_ok /\ ready new_card (bs "123456") /\ fresh new_card /\
  (exists p, pair_of_hex card_prims seed_file = Ok p /\
     let d := snd (advanced_provision_yubikey card_prims toy_encoded_ok seed_file (bs "123456") new_card) in
     fst (yubikey_public toy_encoded_ok d) = Ok (encode (public_to_bytes (public_key card_prims p))) /\
     exists s, fst (sign_data card_prims toy_card_sign toy_from_der (fun b => b) toy_encoded_ok (bs "hello") (bs "123456") d) = Ok s /\
       verify card_prims (public_key card_prims p) (bs "hello") s = Ok tt) /\
  fst (provision_yubikey card_prims toy_encoded_ok (bs "123456") new_card) =
    Ok (encode (q_pub card_prims (repeat x22 32) ++ q_pub card_prims (repeat x11 32))).
Proof.
  split; [exact card_prims_ok|]. split; [exact toy_card_laws|]. split; [|split; [now split|split]].
  - split; [constructor|]. split; [|reflexivity]. split; [reflexivity|]. split; [discriminate|]. split; [vm_compute; discriminate|]. cbn; lia.
  - eexists. split; [vm_compute; reflexivity|]. cbv zeta. split; [vm_compute; reflexivity|]. eexists. split; vm_compute; reflexivity.
  - vm_compute. reflexivity.
Qed.
Example c80_nontrivial :
  let d := snd (provision_yubikey card_prims toy_encoded_ok (bs "123456") new_card) in
  calm d /\ c_cert d Signature <> None /\ bs "654321" <> c_pin d /\ (c_retries d <= 3)%nat /\ c_pin d <> bs "000000" /\
  fst (provision_yubikey card_prims toy_encoded_ok (bs "123456") d) = Err WillNotOverwriteSlot /\
  c_retries (snd (provision_yubikey card_prims toy_encoded_ok (bs "654321") d)) = 2%nat /\
  c_key (snd (yubikey_piv_reset (bs "a") (bs "b") (bs "c") d)) Signature = None /\
  (exists k, let five := set_pin d (bs "123456") 5 false in
     c_key (snd (yubikey_piv_reset (bs "a") (bs "b") (bs "c") five)) Signature = Some k).
Proof.
  cbv zeta. split; [vm_compute; constructor|]. split; [vm_compute; discriminate|]. split; [vm_compute; discriminate|]. split; [vm_compute; lia|].
  split; [vm_compute; discriminate|]. split; [vm_compute; reflexivity|]. split; [vm_compute; reflexivity|].
  split; [vm_compute; reflexivity|]. eexists. vm_compute. reflexivity.
Qed.
