(** Laws of every manifest JSON codec. *)
From Verif Require Import Base Utf8 Hex HexProofs Json JsonProofs NormProofs Types TypesBorsh Env EnvProofs TypesJson TypesJsonProofs.
From Coq Require Import Permutation.
Require Import ZifyBool ZifyN ZifyNat.
Local Open Scope N_scope.

Lemma js_u16_law : jlawful js_u16. Proof. apply js_uint_law. Qed.
Lemma js_u32_law : jlawful js_u32. Proof. apply js_uint_law. Qed.
#[export] Hint Resolve js_u16_law js_u32_law : jlaw.

Lemma need_js_string : jneed js_string = 0%nat. Proof. reflexivity. Qed.
Lemma need_js_hex : jneed js_hex = 0%nat. Proof. reflexivity. Qed.
Lemma need_js_u16 : jneed js_u16 = 0%nat. Proof. reflexivity. Qed.
Lemma need_js_u32 : jneed js_u32 = 0%nat. Proof. reflexivity. Qed.
Lemma need_js_bool : jneed js_bool = 0%nat. Proof. reflexivity. Qed.
Lemma need_js_restart : jneed js_restart = 0%nat. Proof. reflexivity. Qed.
Lemma need_js_ip : jneed js_ip = 0%nat. Proof. reflexivity. Qed.
Lemma need_js_bridge : jneed js_bridge = 2%nat. Proof. reflexivity. Qed.
Lemma need_js_nitro : jneed js_nitro = 2%nat. Proof. reflexivity. Qed.
Lemma need_js_pivot : jneed js_pivot = 4%nat. Proof. reflexivity. Qed.
Lemma need_js_pivot_v0 : jneed js_pivot_v0 = 4%nat. Proof. reflexivity. Qed.
Lemma need_js_member : jneed js_member = 2%nat. Proof. reflexivity. Qed.
Lemma need_js_member_set : jneed js_member_set = 4%nat. Proof. reflexivity. Qed.
Lemma need_js_member_pub_key : jneed js_member_pub_key = 2%nat. Proof. reflexivity. Qed.
Lemma need_js_patch_set : jneed js_patch_set = 4%nat. Proof. reflexivity. Qed.
Lemma need_js_namespace : jneed js_namespace = 2%nat. Proof. reflexivity. Qed.
Lemma need_js_manifest : jneed js_manifest = 5%nat. Proof. reflexivity. Qed.
Lemma need_js_manifest_v0 : jneed js_manifest_v0 = 5%nat. Proof. reflexivity. Qed.
Lemma need_js_approval : jneed js_approval = 3%nat. Proof. reflexivity. Qed.
Lemma need_js_envelope : jneed js_envelope = 6%nat. Proof. reflexivity. Qed.
Lemma need_js_envelope_v0 : jneed js_envelope_v0 = 6%nat. Proof. reflexivity. Qed.
Lemma need_js_dns : jneed js_dns = 3%nat. Proof. reflexivity. Qed.
Lemma need_js_env_value : jneed js_env_value = 3%nat. Proof. reflexivity. Qed.
Lemma need_js_env : jneed js_env = 4%nat. Proof. reflexivity. Qed.
Lemma need_js_pivot_v2 : jneed js_pivot_v2 = 5%nat. Proof. reflexivity. Qed.
Lemma need_js_manifest_v2 : jneed js_manifest_v2 = 6%nat. Proof. reflexivity. Qed.
Lemma need_js_envelope_v2 : jneed js_envelope_v2 = 7%nat. Proof. reflexivity. Qed.
Lemma need_js_hex_n n : jneed (js_hex_n n) = 0%nat. Proof. reflexivity. Qed.
Lemma need_js_vec {A} (c : jcodec A) : jneed (js_vec c) = Nat.max 2 (S (jneed c)). Proof. reflexivity. Qed.
#[export] Hint Rewrite need_js_string need_js_hex need_js_u16 need_js_u32 need_js_bool need_js_restart need_js_ip need_js_bridge need_js_nitro need_js_pivot need_js_pivot_v0 need_js_member need_js_member_set need_js_member_pub_key need_js_patch_set need_js_namespace need_js_manifest need_js_manifest_v0 need_js_approval need_js_envelope need_js_envelope_v0 need_js_dns need_js_env_value need_js_env need_js_pivot_v2 need_js_manifest_v2 need_js_envelope_v2 need_js_hex_n @need_js_vec : jneed.
Ltac need := autorewrite with jneed in *; lia.
Ltac needd H := clear -H; need.
Ltac need0 := clear; need.
Ltac law c a n := let G := fresh "G" in let N := fresh "N" in let Gn := fresh "Gn" in
  let L := fresh in assert (L : jlawful c) by (eauto with jlaw);
  destruct (L a ltac:(assumption || reflexivity)) as [G (n & N & Gn)]; clear L.

(** BridgeConfig: internally tagged *)
Lemma bridge_struct tag p h : jok tag = true -> (forall d, strict d tag = true) -> tag <> JNull -> norm tag = Some tag ->
  jwf js_u16 p = true -> match h with Some x => utf8_valid x = true | None => True end ->
  let f v := [(K_type, Some tag); (K_port, Some v); (K_host, match h with Some x => Some (str x) | None => None end)] in
  exists np, good js_u16 p (jser js_u16 p) /\ good js_u16 p np /\ norm (jser js_u16 p) = Some np /\
  let ok j v := jok j = true /\ j <> JNull /\ (forall d, (2 <= d)%nat -> strict d j = true) /\
      exists m, j = JObj (map rekey m) /\ Permutation m (pres (f v)) in
  ok (ser_struct (f (jser js_u16 p))) (jser js_u16 p) /\
  exists n, norm (ser_struct (f (jser js_u16 p))) = Some n /\ ok n np.
Proof.
  intros T1 T2 T3 T4 Hp Hh f. law js_u16 p np. exists np. repeat split; try apply G; try apply Gn; auto.
  all: destruct (struct_law 0 [K_type; K_port; K_host] (f (jser js_u16 p)) (f np) eq_refl eq_refl eq_refl) as [S1 (nn & NN & S2)].
  all: try (unfold f; cbn [map snd]; repeat (apply Forall2_cons || apply Forall2_nil);
     [ cbn; repeat split; auto | eapply fok_good; [eassumption|eassumption|eassumption|cbn; lia]
     | destruct h as [x|]; cbn; [repeat split; auto; discriminate|auto] ]).
  - apply S1.
  - destruct S1 as (_ & X & _). exact X.
  - destruct S1 as (_ & _ & X & _). intros d Hd. apply X. lia.
  - rewrite ser_struct_pres. eauto.
  - exists nn. split; [exact NN|]. destruct S2 as (X1 & X2 & X3 & _). repeat split; auto.
    + intros d Hd. apply X3. lia.
    + exists (sort_keys (pres (f np))). split; [|apply sort_keys_perm].
      assert (Y : norm (ser_struct (f (jser js_u16 p))) = Some (JObj (map rekey (sort_keys (pres (f np)))))).
      { rewrite ser_struct_pres. apply norm_obj.
        - apply pres_nodup. apply nodupb_NoDup. reflexivity.
        - unfold f. destruct h as [x|]; cbn [pres flat_map snd fst app]; repeat (apply Forall2_cons || apply Forall2_nil); cbn [fst snd]; repeat split; auto; try discriminate; try apply Gn. }
      rewrite NN in Y. now inversion Y.
Qed.

Lemma filter_perm {A} (f : A -> bool) l l' : Permutation l l' -> Permutation (filter f l) (filter f l').
Proof.
  induction 1 as [|x l l' P IH|x y l|l l' l'' P1 IH1 P2 IH2]; cbn; auto.
  - destruct (f x); auto.
  - destruct (f x), (f y); auto. apply perm_swap.
  - eapply perm_trans; eauto.
Qed.

Definition bf (tag v : json) (h : option bytes) : list (bytes * option json) :=
  [(K_type, Some tag); (K_port, Some v); (K_host, match h with Some x => Some (str x) | None => None end)].

Lemma dec_bridge tag v p h m d : let j := JObj (map rekey m) in
  Permutation m (pres (bf (str tag) v h)) -> strict d j = true -> good js_u16 p v ->
  match h with Some x => utf8_valid x = true | None => True end ->
  jdec js_bridge d j =
    dec_bridge_fields tag (Some [Some v; match h with Some x => Some (str x) | None => None end]).
Proof.
  intros j P S G Hh. unfold js_bridge. cbn [jdec]. rewrite S.
  assert (ND : NoDup (map fst m)).
  { eapply Permutation_NoDup; [apply Permutation_map, Permutation_sym, P|]. apply pres_nodup, nodupb_NoDup. reflexivity. }
  assert (FT : find_last K_type (map rekey m) = Some (str tag)).
  { rewrite find_last_rekey by auto. rewrite (assoc_perm K_type _ _ ND P). reflexivity. }
  assert (CT : count_key K_type (map rekey m) = 1%nat).
  { unfold count_key. assert (X : Permutation (map rekey m) (map rekey (pres (bf (str tag) v h)))) by now apply Permutation_map.
    apply (filter_perm (fun p0 : option bytes * json => okey_eqb K_type (fst p0))) in X. apply Permutation_length in X.
    rewrite X. destruct h; reflexivity. }
  unfold j. rewrite CT, FT. cbn [Nat.eqb str].
  assert (FE : filter (fun p0 : option bytes * json => negb (okey_eqb K_type (fst p0))) (map rekey m)
     = map rekey (filter (fun p0 => negb (bytes_eqb K_type (fst p0))) m)).
  { clear. induction m as [|[k x] m IH]; cbn [map filter rekey fst okey_eqb]; [reflexivity|].
    destruct (bytes_eqb K_type k); cbn [negb]; [exact IH|]. cbn [map rekey fst snd]. f_equal. exact IH. }
  rewrite FE. f_equal.
  set (f2 := [(K_port, Some v); (K_host, match h with Some x => Some (str x) | None => None end)]).
  destruct (perm_struct 0 [K_port; K_host] f2 (filter (fun p0 => negb (bytes_eqb K_type (fst p0))) m) eq_refl eq_refl) as (_ & _ & D & _).
  - unfold f2. constructor; [eapply good_vok; [exact G|cbn; lia]|]. constructor; [|constructor]. cbn [snd].
    destruct h; [|exact I]. repeat split; auto. discriminate.
  - apply (filter_perm (fun p0 => negb (bytes_eqb K_type (fst p0)))) in P. eapply perm_trans; [exact P|]. destruct h; apply Permutation_refl.
  - apply D. lia.
Qed.

Lemma js_bridge_law : jlawful js_bridge.
Proof.
  assert (K : forall tag p h b, jser js_bridge b = ser_struct (bf (str tag) (jser js_u16 p) h) ->
     utf8_valid tag = true -> jwf js_u16 p = true -> match h with Some x => utf8_valid x = true | None => True end ->
     (forall v, good js_u16 p v -> dec_bridge_fields tag (Some [Some v; match h with Some x => Some (str x) | None => None end]) = Some b) ->
     good js_bridge b (jser js_bridge b) /\ exists n, norm (jser js_bridge b) = Some n /\ good js_bridge b n).
  { intros tag p h b -> Ht Hp Hh D.
    destruct (bridge_struct (str tag) p h) as (np & G1 & G2 & _ & S1 & n & NN & S2); auto; try discriminate.
    split; [|exists n; split; [exact NN|]].
    - destruct S1 as (A1 & A2 & A3 & m & E & P). split; [exact A1|split; [exact A2|]].
      intros d Hd. split; [now apply A3|]. change (ser_struct _) with (ser_struct (bf (str tag) (jser js_u16 p) h)) in E.
      unfold bf in E. unfold bf. rewrite E in *. rewrite (dec_bridge tag (jser js_u16 p) p h m d P); auto.
    - destruct S2 as (A1 & A2 & A3 & m & E & P). split; [exact A1|split; [exact A2|]].
      intros d Hd. split; [now apply A3|]. subst n. rewrite (dec_bridge tag np p h m d P); auto. }
  intros [p h|p h] H; cbn [js_bridge jwf] in H; apply andb_true_iff in H as [H1 H2].
  - apply (K (bs "server") p (Some h)); [reflexivity|reflexivity|exact H1|exact H2|]. intros v G. unfold dec_bridge_fields, req.
    rewrite (good_dec js_u16 p v _ G) by (cbn; lia). reflexivity.
  - apply (K (bs "client") p h); [destruct h; reflexivity|reflexivity|exact H1|destruct h; auto|].
    intros v G. unfold dec_bridge_fields, req. rewrite (good_dec js_u16 p v _ G) by (cbn; lia).
      destruct h; reflexivity.
Qed.
#[export] Hint Resolve js_bridge_law : jlaw.

Opaque js_string js_hex js_u16 js_u32 js_bool js_restart js_ip js_bridge js_nitro js_pivot js_pivot_v0 js_member js_member_set js_member_pub_key js_patch_set js_namespace js_manifest js_manifest_v0 js_approval js_envelope js_envelope_v0 js_dns js_env_value js_env js_pivot_v2 js_manifest_v2 js_envelope_v2 js_hex_n js_vec.

Lemma js_member_law : jlawful js_member.
Proof.
  intros m H. Transparent js_member. cbn [js_member jwf] in H. Opaque js_member. splitwf.
  assert (W0 : jwf (js_string) (m_alias m) = true) by (assumption || reflexivity).
  assert (L0 : jlawful (js_string)) by eauto with jlaw. destruct (L0 (m_alias m) W0) as [G0 (n0 & N0 & Gn0)].
  assert (W1 : jwf (js_hex) (m_pub_key m) = true) by (assumption || reflexivity).
  assert (L1 : jlawful (js_hex)) by eauto with jlaw. destruct (L1 (m_pub_key m) W1) as [G1 (n1 & N1 & Gn1)].
  destruct (struct_law 0 [bs "alias"; bs "pubKey"]
    [(bs "alias", Some (jser (js_string) (m_alias m))); (bs "pubKey", Some (jser (js_hex) (m_pub_key m)))]
    [(bs "alias", Some n0); (bs "pubKey", Some n1)] eq_refl eq_refl eq_refl) as [S1 (n & N & S2)].
  { cbn [map snd]. apply Forall2_cons; [apply (fok_good _ _ _ _ G0 N0 Gn0); need0|]. apply Forall2_cons; [apply (fok_good _ _ _ _ G1 N1 Gn1); need0|]. constructor. }
  split; [|exists n; split; [exact N|]].
  - destruct S1 as (J & NN & D & _). split; [exact J|split; [exact NN|]].
    intros d Hd. destruct (D d ltac:(needd Hd)) as [D1 D2]. split; [exact D1|]. Transparent js_member. cbn [js_member jdec jser]. Opaque js_member. rewrite D2. cbn [map snd req].
    rewrite (good_dec _ _ _ _ G0) by needd Hd. cbn [obind]. rewrite (good_dec _ _ _ _ G1) by needd Hd. cbn [obind]. now destruct m.
  - destruct S2 as (J & NN & D & _). split; [exact J|split; [exact NN|]].
    intros d Hd. destruct (D d ltac:(needd Hd)) as [D1 D2]. split; [exact D1|]. Transparent js_member. cbn [js_member jdec jser]. Opaque js_member. rewrite D2. cbn [map snd req].
    rewrite (good_dec _ _ _ _ Gn0) by needd Hd. cbn [obind]. rewrite (good_dec _ _ _ _ Gn1) by needd Hd. cbn [obind]. now destruct m.
Qed.
#[export] Hint Resolve js_member_law : jlaw.

Lemma js_nitro_law : jlawful js_nitro.
Proof.
  intros m H. Transparent js_nitro. cbn [js_nitro jwf] in H. Opaque js_nitro. splitwf.
  assert (W0 : jwf (js_hex) (pcr0 m) = true) by (assumption || reflexivity).
  assert (L0 : jlawful (js_hex)) by eauto with jlaw. destruct (L0 (pcr0 m) W0) as [G0 (n0 & N0 & Gn0)].
  assert (W1 : jwf (js_hex) (pcr1 m) = true) by (assumption || reflexivity).
  assert (L1 : jlawful (js_hex)) by eauto with jlaw. destruct (L1 (pcr1 m) W1) as [G1 (n1 & N1 & Gn1)].
  assert (W2 : jwf (js_hex) (pcr2 m) = true) by (assumption || reflexivity).
  assert (L2 : jlawful (js_hex)) by eauto with jlaw. destruct (L2 (pcr2 m) W2) as [G2 (n2 & N2 & Gn2)].
  assert (W3 : jwf (js_hex) (pcr3 m) = true) by (assumption || reflexivity).
  assert (L3 : jlawful (js_hex)) by eauto with jlaw. destruct (L3 (pcr3 m) W3) as [G3 (n3 & N3 & Gn3)].
  assert (W4 : jwf (js_hex) (aws_root_certificate m) = true) by (assumption || reflexivity).
  assert (L4 : jlawful (js_hex)) by eauto with jlaw. destruct (L4 (aws_root_certificate m) W4) as [G4 (n4 & N4 & Gn4)].
  assert (W5 : jwf (js_string) (qos_commit m) = true) by (assumption || reflexivity).
  assert (L5 : jlawful (js_string)) by eauto with jlaw. destruct (L5 (qos_commit m) W5) as [G5 (n5 & N5 & Gn5)].
  destruct (struct_law 0 [bs "pcr0"; bs "pcr1"; bs "pcr2"; bs "pcr3"; bs "awsRootCertificate"; bs "qosCommit"]
    [(bs "pcr0", Some (jser (js_hex) (pcr0 m))); (bs "pcr1", Some (jser (js_hex) (pcr1 m))); (bs "pcr2", Some (jser (js_hex) (pcr2 m))); (bs "pcr3", Some (jser (js_hex) (pcr3 m))); (bs "awsRootCertificate", Some (jser (js_hex) (aws_root_certificate m))); (bs "qosCommit", Some (jser (js_string) (qos_commit m)))]
    [(bs "pcr0", Some n0); (bs "pcr1", Some n1); (bs "pcr2", Some n2); (bs "pcr3", Some n3); (bs "awsRootCertificate", Some n4); (bs "qosCommit", Some n5)] eq_refl eq_refl eq_refl) as [S1 (n & N & S2)].
  { cbn [map snd]. apply Forall2_cons; [apply (fok_good _ _ _ _ G0 N0 Gn0); need0|]. apply Forall2_cons; [apply (fok_good _ _ _ _ G1 N1 Gn1); need0|]. apply Forall2_cons; [apply (fok_good _ _ _ _ G2 N2 Gn2); need0|]. apply Forall2_cons; [apply (fok_good _ _ _ _ G3 N3 Gn3); need0|]. apply Forall2_cons; [apply (fok_good _ _ _ _ G4 N4 Gn4); need0|]. apply Forall2_cons; [apply (fok_good _ _ _ _ G5 N5 Gn5); need0|]. constructor. }
  split; [|exists n; split; [exact N|]].
  - destruct S1 as (J & NN & D & _). split; [exact J|split; [exact NN|]].
    intros d Hd. destruct (D d ltac:(needd Hd)) as [D1 D2]. split; [exact D1|]. Transparent js_nitro. cbn [js_nitro jdec jser]. Opaque js_nitro. rewrite D2. cbn [map snd req].
    rewrite (good_dec _ _ _ _ G0) by needd Hd. cbn [obind]. rewrite (good_dec _ _ _ _ G1) by needd Hd. cbn [obind]. rewrite (good_dec _ _ _ _ G2) by needd Hd. cbn [obind]. rewrite (good_dec _ _ _ _ G3) by needd Hd. cbn [obind]. rewrite (good_dec _ _ _ _ G4) by needd Hd. cbn [obind]. rewrite (good_dec _ _ _ _ G5) by needd Hd. cbn [obind]. now destruct m.
  - destruct S2 as (J & NN & D & _). split; [exact J|split; [exact NN|]].
    intros d Hd. destruct (D d ltac:(needd Hd)) as [D1 D2]. split; [exact D1|]. Transparent js_nitro. cbn [js_nitro jdec jser]. Opaque js_nitro. rewrite D2. cbn [map snd req].
    rewrite (good_dec _ _ _ _ Gn0) by needd Hd. cbn [obind]. rewrite (good_dec _ _ _ _ Gn1) by needd Hd. cbn [obind]. rewrite (good_dec _ _ _ _ Gn2) by needd Hd. cbn [obind]. rewrite (good_dec _ _ _ _ Gn3) by needd Hd. cbn [obind]. rewrite (good_dec _ _ _ _ Gn4) by needd Hd. cbn [obind]. rewrite (good_dec _ _ _ _ Gn5) by needd Hd. cbn [obind]. now destruct m.
Qed.
#[export] Hint Resolve js_nitro_law : jlaw.

Lemma js_pivot_law : jlawful js_pivot.
Proof.
  intros m H. Transparent js_pivot. cbn [js_pivot jwf] in H. Opaque js_pivot. splitwf.
  assert (W0 : jwf (js_hex_n 32) (pv_hash m) = true) by (assumption || reflexivity).
  assert (L0 : jlawful (js_hex_n 32)) by eauto with jlaw. destruct (L0 (pv_hash m) W0) as [G0 (n0 & N0 & Gn0)].
  assert (W1 : jwf (js_restart) (pv_restart m) = true) by (assumption || reflexivity).
  assert (L1 : jlawful (js_restart)) by eauto with jlaw. destruct (L1 (pv_restart m) W1) as [G1 (n1 & N1 & Gn1)].
  assert (W2 : jwf (js_vec js_bridge) (pv_bridge m) = true) by (assumption || reflexivity).
  assert (L2 : jlawful (js_vec js_bridge)) by eauto with jlaw. destruct (L2 (pv_bridge m) W2) as [G2 (n2 & N2 & Gn2)].
  assert (W3 : jwf (js_bool) (pv_debug m) = true) by (assumption || reflexivity).
  assert (L3 : jlawful (js_bool)) by eauto with jlaw. destruct (L3 (pv_debug m) W3) as [G3 (n3 & N3 & Gn3)].
  assert (W4 : jwf (js_vec js_string) (pv_args m) = true) by (assumption || reflexivity).
  assert (L4 : jlawful (js_vec js_string)) by eauto with jlaw. destruct (L4 (pv_args m) W4) as [G4 (n4 & N4 & Gn4)].
  destruct (struct_law 3 [bs "hash"; bs "restart"; bs "bridgeConfig"; bs "debugMode"; bs "args"]
    [(bs "hash", Some (jser (js_hex_n 32) (pv_hash m))); (bs "restart", Some (jser (js_restart) (pv_restart m))); (bs "bridgeConfig", Some (jser (js_vec js_bridge) (pv_bridge m))); (bs "debugMode", Some (jser (js_bool) (pv_debug m))); (bs "args", Some (jser (js_vec js_string) (pv_args m)))]
    [(bs "hash", Some n0); (bs "restart", Some n1); (bs "bridgeConfig", Some n2); (bs "debugMode", Some n3); (bs "args", Some n4)] eq_refl eq_refl eq_refl) as [S1 (n & N & S2)].
  { cbn [map snd]. apply Forall2_cons; [apply (fok_good _ _ _ _ G0 N0 Gn0); need0|]. apply Forall2_cons; [apply (fok_good _ _ _ _ G1 N1 Gn1); need0|]. apply Forall2_cons; [apply (fok_good _ _ _ _ G2 N2 Gn2); need0|]. apply Forall2_cons; [apply (fok_good _ _ _ _ G3 N3 Gn3); need0|]. apply Forall2_cons; [apply (fok_good _ _ _ _ G4 N4 Gn4); need0|]. constructor. }
  split; [|exists n; split; [exact N|]].
  - destruct S1 as (J & NN & D & _). split; [exact J|split; [exact NN|]].
    intros d Hd. destruct (D d ltac:(needd Hd)) as [D1 D2]. split; [exact D1|]. Transparent js_pivot. cbn [js_pivot jdec jser]. Opaque js_pivot. rewrite D2. cbn [map snd req].
    rewrite (good_dec _ _ _ _ G0) by needd Hd. cbn [obind]. rewrite (good_dec _ _ _ _ G1) by needd Hd. cbn [obind]. rewrite (good_dec _ _ _ _ G2) by needd Hd. cbn [obind]. rewrite (good_dec _ _ _ _ G3) by needd Hd. cbn [obind]. rewrite (good_dec _ _ _ _ G4) by needd Hd. cbn [obind]. now destruct m.
  - destruct S2 as (J & NN & D & _). split; [exact J|split; [exact NN|]].
    intros d Hd. destruct (D d ltac:(needd Hd)) as [D1 D2]. split; [exact D1|]. Transparent js_pivot. cbn [js_pivot jdec jser]. Opaque js_pivot. rewrite D2. cbn [map snd req].
    rewrite (good_dec _ _ _ _ Gn0) by needd Hd. cbn [obind]. rewrite (good_dec _ _ _ _ Gn1) by needd Hd. cbn [obind]. rewrite (good_dec _ _ _ _ Gn2) by needd Hd. cbn [obind]. rewrite (good_dec _ _ _ _ Gn3) by needd Hd. cbn [obind]. rewrite (good_dec _ _ _ _ Gn4) by needd Hd. cbn [obind]. now destruct m.
Qed.
#[export] Hint Resolve js_pivot_law : jlaw.

Lemma js_pivot_v0_law : jlawful js_pivot_v0.
Proof.
  intros m H. Transparent js_pivot_v0. cbn [js_pivot_v0 jwf] in H. Opaque js_pivot_v0. splitwf.
  assert (W0 : jwf (js_hex_n 32) (pv0_hash m) = true) by (assumption || reflexivity).
  assert (L0 : jlawful (js_hex_n 32)) by eauto with jlaw. destruct (L0 (pv0_hash m) W0) as [G0 (n0 & N0 & Gn0)].
  assert (W1 : jwf (js_restart) (pv0_restart m) = true) by (assumption || reflexivity).
  assert (L1 : jlawful (js_restart)) by eauto with jlaw. destruct (L1 (pv0_restart m) W1) as [G1 (n1 & N1 & Gn1)].
  assert (W2 : jwf (js_vec js_string) (pv0_args m) = true) by (assumption || reflexivity).
  assert (L2 : jlawful (js_vec js_string)) by eauto with jlaw. destruct (L2 (pv0_args m) W2) as [G2 (n2 & N2 & Gn2)].
  destruct (struct_law 3 [bs "hash"; bs "restart"; bs "args"]
    [(bs "hash", Some (jser (js_hex_n 32) (pv0_hash m))); (bs "restart", Some (jser (js_restart) (pv0_restart m))); (bs "args", Some (jser (js_vec js_string) (pv0_args m)))]
    [(bs "hash", Some n0); (bs "restart", Some n1); (bs "args", Some n2)] eq_refl eq_refl eq_refl) as [S1 (n & N & S2)].
  { cbn [map snd]. apply Forall2_cons; [apply (fok_good _ _ _ _ G0 N0 Gn0); need0|]. apply Forall2_cons; [apply (fok_good _ _ _ _ G1 N1 Gn1); need0|]. apply Forall2_cons; [apply (fok_good _ _ _ _ G2 N2 Gn2); need0|]. constructor. }
  split; [|exists n; split; [exact N|]].
  - destruct S1 as (J & NN & D & _). split; [exact J|split; [exact NN|]].
    intros d Hd. destruct (D d ltac:(needd Hd)) as [D1 D2]. split; [exact D1|]. Transparent js_pivot_v0. cbn [js_pivot_v0 jdec jser]. Opaque js_pivot_v0. rewrite D2. cbn [map snd req].
    rewrite (good_dec _ _ _ _ G0) by needd Hd. cbn [obind]. rewrite (good_dec _ _ _ _ G1) by needd Hd. cbn [obind]. rewrite (good_dec _ _ _ _ G2) by needd Hd. cbn [obind]. now destruct m.
  - destruct S2 as (J & NN & D & _). split; [exact J|split; [exact NN|]].
    intros d Hd. destruct (D d ltac:(needd Hd)) as [D1 D2]. split; [exact D1|]. Transparent js_pivot_v0. cbn [js_pivot_v0 jdec jser]. Opaque js_pivot_v0. rewrite D2. cbn [map snd req].
    rewrite (good_dec _ _ _ _ Gn0) by needd Hd. cbn [obind]. rewrite (good_dec _ _ _ _ Gn1) by needd Hd. cbn [obind]. rewrite (good_dec _ _ _ _ Gn2) by needd Hd. cbn [obind]. now destruct m.
Qed.
#[export] Hint Resolve js_pivot_v0_law : jlaw.

Lemma js_member_set_law : jlawful js_member_set.
Proof.
  intros m H. Transparent js_member_set. cbn [js_member_set jwf] in H. Opaque js_member_set. splitwf.
  assert (W0 : jwf (js_u32) (threshold m) = true) by (assumption || reflexivity).
  assert (L0 : jlawful (js_u32)) by eauto with jlaw. destruct (L0 (threshold m) W0) as [G0 (n0 & N0 & Gn0)].
  assert (W1 : jwf (js_vec js_member) (members m) = true) by (assumption || reflexivity).
  assert (L1 : jlawful (js_vec js_member)) by eauto with jlaw. destruct (L1 (members m) W1) as [G1 (n1 & N1 & Gn1)].
  destruct (struct_law 3 [bs "threshold"; bs "members"]
    [(bs "threshold", Some (jser (js_u32) (threshold m))); (bs "members", Some (jser (js_vec js_member) (members m)))]
    [(bs "threshold", Some n0); (bs "members", Some n1)] eq_refl eq_refl eq_refl) as [S1 (n & N & S2)].
  { cbn [map snd]. apply Forall2_cons; [apply (fok_good _ _ _ _ G0 N0 Gn0); need0|]. apply Forall2_cons; [apply (fok_good _ _ _ _ G1 N1 Gn1); need0|]. constructor. }
  split; [|exists n; split; [exact N|]].
  - destruct S1 as (J & NN & D & _). split; [exact J|split; [exact NN|]].
    intros d Hd. destruct (D d ltac:(needd Hd)) as [D1 D2]. split; [exact D1|]. Transparent js_member_set. cbn [js_member_set jdec jser]. Opaque js_member_set. rewrite D2. cbn [map snd req].
    rewrite (good_dec _ _ _ _ G0) by needd Hd. cbn [obind]. rewrite (good_dec _ _ _ _ G1) by needd Hd. cbn [obind]. now destruct m.
  - destruct S2 as (J & NN & D & _). split; [exact J|split; [exact NN|]].
    intros d Hd. destruct (D d ltac:(needd Hd)) as [D1 D2]. split; [exact D1|]. Transparent js_member_set. cbn [js_member_set jdec jser]. Opaque js_member_set. rewrite D2. cbn [map snd req].
    rewrite (good_dec _ _ _ _ Gn0) by needd Hd. cbn [obind]. rewrite (good_dec _ _ _ _ Gn1) by needd Hd. cbn [obind]. now destruct m.
Qed.
#[export] Hint Resolve js_member_set_law : jlaw.

Lemma js_member_pub_key_law : jlawful js_member_pub_key.
Proof.
  intros m H. Transparent js_member_pub_key. cbn [js_member_pub_key jwf] in H. Opaque js_member_pub_key. splitwf.
  assert (W0 : jwf (js_hex) m = true) by (assumption || reflexivity).
  assert (L0 : jlawful (js_hex)) by eauto with jlaw. destruct (L0 m W0) as [G0 (n0 & N0 & Gn0)].
  destruct (struct_law 0 [bs "pubKey"]
    [(bs "pubKey", Some (jser (js_hex) m))]
    [(bs "pubKey", Some n0)] eq_refl eq_refl eq_refl) as [S1 (n & N & S2)].
  { cbn [map snd]. apply Forall2_cons; [apply (fok_good _ _ _ _ G0 N0 Gn0); need0|]. constructor. }
  split; [|exists n; split; [exact N|]].
  - destruct S1 as (J & NN & D & _). split; [exact J|split; [exact NN|]].
    intros d Hd. destruct (D d ltac:(needd Hd)) as [D1 D2]. split; [exact D1|]. Transparent js_member_pub_key. cbn [js_member_pub_key jdec jser]. Opaque js_member_pub_key. rewrite D2. cbn [map snd req].
    rewrite (good_dec _ _ _ _ G0) by needd Hd. cbn [obind]. reflexivity.
  - destruct S2 as (J & NN & D & _). split; [exact J|split; [exact NN|]].
    intros d Hd. destruct (D d ltac:(needd Hd)) as [D1 D2]. split; [exact D1|]. Transparent js_member_pub_key. cbn [js_member_pub_key jdec jser]. Opaque js_member_pub_key. rewrite D2. cbn [map snd req].
    rewrite (good_dec _ _ _ _ Gn0) by needd Hd. cbn [obind]. reflexivity.
Qed.
#[export] Hint Resolve js_member_pub_key_law : jlaw.

Lemma js_patch_set_law : jlawful js_patch_set.
Proof.
  intros m H. Transparent js_patch_set. cbn [js_patch_set jwf] in H. Opaque js_patch_set. splitwf.
  assert (W0 : jwf (js_u32) (ps_threshold m) = true) by (assumption || reflexivity).
  assert (L0 : jlawful (js_u32)) by eauto with jlaw. destruct (L0 (ps_threshold m) W0) as [G0 (n0 & N0 & Gn0)].
  assert (W1 : jwf (js_vec js_member_pub_key) (ps_members m) = true) by (assumption || reflexivity).
  assert (L1 : jlawful (js_vec js_member_pub_key)) by eauto with jlaw. destruct (L1 (ps_members m) W1) as [G1 (n1 & N1 & Gn1)].
  destruct (struct_law 3 [bs "threshold"; bs "members"]
    [(bs "threshold", Some (jser (js_u32) (ps_threshold m))); (bs "members", Some (jser (js_vec js_member_pub_key) (ps_members m)))]
    [(bs "threshold", Some n0); (bs "members", Some n1)] eq_refl eq_refl eq_refl) as [S1 (n & N & S2)].
  { cbn [map snd]. apply Forall2_cons; [apply (fok_good _ _ _ _ G0 N0 Gn0); need0|]. apply Forall2_cons; [apply (fok_good _ _ _ _ G1 N1 Gn1); need0|]. constructor. }
  split; [|exists n; split; [exact N|]].
  - destruct S1 as (J & NN & D & _). split; [exact J|split; [exact NN|]].
    intros d Hd. destruct (D d ltac:(needd Hd)) as [D1 D2]. split; [exact D1|]. Transparent js_patch_set. cbn [js_patch_set jdec jser]. Opaque js_patch_set. rewrite D2. cbn [map snd req].
    rewrite (good_dec _ _ _ _ G0) by needd Hd. cbn [obind]. rewrite (good_dec _ _ _ _ G1) by needd Hd. cbn [obind]. now destruct m.
  - destruct S2 as (J & NN & D & _). split; [exact J|split; [exact NN|]].
    intros d Hd. destruct (D d ltac:(needd Hd)) as [D1 D2]. split; [exact D1|]. Transparent js_patch_set. cbn [js_patch_set jdec jser]. Opaque js_patch_set. rewrite D2. cbn [map snd req].
    rewrite (good_dec _ _ _ _ Gn0) by needd Hd. cbn [obind]. rewrite (good_dec _ _ _ _ Gn1) by needd Hd. cbn [obind]. now destruct m.
Qed.
#[export] Hint Resolve js_patch_set_law : jlaw.

Lemma js_namespace_law : jlawful js_namespace.
Proof.
  intros m H. Transparent js_namespace. cbn [js_namespace jwf] in H. Opaque js_namespace. splitwf.
  assert (W0 : jwf (js_string) (ns_name m) = true) by (assumption || reflexivity).
  assert (L0 : jlawful (js_string)) by eauto with jlaw. destruct (L0 (ns_name m) W0) as [G0 (n0 & N0 & Gn0)].
  assert (W1 : jwf (js_u32) (ns_nonce m) = true) by (assumption || reflexivity).
  assert (L1 : jlawful (js_u32)) by eauto with jlaw. destruct (L1 (ns_nonce m) W1) as [G1 (n1 & N1 & Gn1)].
  assert (W2 : jwf (js_hex) (ns_quorum_key m) = true) by (assumption || reflexivity).
  assert (L2 : jlawful (js_hex)) by eauto with jlaw. destruct (L2 (ns_quorum_key m) W2) as [G2 (n2 & N2 & Gn2)].
  destruct (struct_law 0 [bs "name"; bs "nonce"; bs "quorumKey"]
    [(bs "name", Some (jser (js_string) (ns_name m))); (bs "nonce", Some (jser (js_u32) (ns_nonce m))); (bs "quorumKey", Some (jser (js_hex) (ns_quorum_key m)))]
    [(bs "name", Some n0); (bs "nonce", Some n1); (bs "quorumKey", Some n2)] eq_refl eq_refl eq_refl) as [S1 (n & N & S2)].
  { cbn [map snd]. apply Forall2_cons; [apply (fok_good _ _ _ _ G0 N0 Gn0); need0|]. apply Forall2_cons; [apply (fok_good _ _ _ _ G1 N1 Gn1); need0|]. apply Forall2_cons; [apply (fok_good _ _ _ _ G2 N2 Gn2); need0|]. constructor. }
  split; [|exists n; split; [exact N|]].
  - destruct S1 as (J & NN & D & _). split; [exact J|split; [exact NN|]].
    intros d Hd. destruct (D d ltac:(needd Hd)) as [D1 D2]. split; [exact D1|]. Transparent js_namespace. cbn [js_namespace jdec jser]. Opaque js_namespace. rewrite D2. cbn [map snd req].
    rewrite (good_dec _ _ _ _ G0) by needd Hd. cbn [obind]. rewrite (good_dec _ _ _ _ G1) by needd Hd. cbn [obind]. rewrite (good_dec _ _ _ _ G2) by needd Hd. cbn [obind]. now destruct m.
  - destruct S2 as (J & NN & D & _). split; [exact J|split; [exact NN|]].
    intros d Hd. destruct (D d ltac:(needd Hd)) as [D1 D2]. split; [exact D1|]. Transparent js_namespace. cbn [js_namespace jdec jser]. Opaque js_namespace. rewrite D2. cbn [map snd req].
    rewrite (good_dec _ _ _ _ Gn0) by needd Hd. cbn [obind]. rewrite (good_dec _ _ _ _ Gn1) by needd Hd. cbn [obind]. rewrite (good_dec _ _ _ _ Gn2) by needd Hd. cbn [obind]. now destruct m.
Qed.
#[export] Hint Resolve js_namespace_law : jlaw.

Lemma js_manifest_law : jlawful js_manifest.
Proof.
  intros m H. Transparent js_manifest. cbn [js_manifest jwf] in H. Opaque js_manifest. splitwf.
  assert (W0 : jwf (js_namespace) (mf_namespace m) = true) by (assumption || reflexivity).
  assert (L0 : jlawful (js_namespace)) by eauto with jlaw. destruct (L0 (mf_namespace m) W0) as [G0 (n0 & N0 & Gn0)].
  assert (W1 : jwf (js_pivot) (mf_pivot m) = true) by (assumption || reflexivity).
  assert (L1 : jlawful (js_pivot)) by eauto with jlaw. destruct (L1 (mf_pivot m) W1) as [G1 (n1 & N1 & Gn1)].
  assert (W2 : jwf (js_member_set) (mf_manifest_set m) = true) by (assumption || reflexivity).
  assert (L2 : jlawful (js_member_set)) by eauto with jlaw. destruct (L2 (mf_manifest_set m) W2) as [G2 (n2 & N2 & Gn2)].
  assert (W3 : jwf (js_member_set) (mf_share_set m) = true) by (assumption || reflexivity).
  assert (L3 : jlawful (js_member_set)) by eauto with jlaw. destruct (L3 (mf_share_set m) W3) as [G3 (n3 & N3 & Gn3)].
  assert (W4 : jwf (js_nitro) (mf_enclave m) = true) by (assumption || reflexivity).
  assert (L4 : jlawful (js_nitro)) by eauto with jlaw. destruct (L4 (mf_enclave m) W4) as [G4 (n4 & N4 & Gn4)].
  assert (W5 : jwf (js_patch_set) (mf_patch_set m) = true) by (assumption || reflexivity).
  assert (L5 : jlawful (js_patch_set)) by eauto with jlaw. destruct (L5 (mf_patch_set m) W5) as [G5 (n5 & N5 & Gn5)].
  destruct (struct_law 4 [bs "namespace"; bs "pivot"; bs "manifestSet"; bs "shareSet"; bs "enclave"; bs "patchSet"]
    [(bs "namespace", Some (jser (js_namespace) (mf_namespace m))); (bs "pivot", Some (jser (js_pivot) (mf_pivot m))); (bs "manifestSet", Some (jser (js_member_set) (mf_manifest_set m))); (bs "shareSet", Some (jser (js_member_set) (mf_share_set m))); (bs "enclave", Some (jser (js_nitro) (mf_enclave m))); (bs "patchSet", Some (jser (js_patch_set) (mf_patch_set m)))]
    [(bs "namespace", Some n0); (bs "pivot", Some n1); (bs "manifestSet", Some n2); (bs "shareSet", Some n3); (bs "enclave", Some n4); (bs "patchSet", Some n5)] eq_refl eq_refl eq_refl) as [S1 (n & N & S2)].
  { cbn [map snd]. apply Forall2_cons; [apply (fok_good _ _ _ _ G0 N0 Gn0); need0|]. apply Forall2_cons; [apply (fok_good _ _ _ _ G1 N1 Gn1); need0|]. apply Forall2_cons; [apply (fok_good _ _ _ _ G2 N2 Gn2); need0|]. apply Forall2_cons; [apply (fok_good _ _ _ _ G3 N3 Gn3); need0|]. apply Forall2_cons; [apply (fok_good _ _ _ _ G4 N4 Gn4); need0|]. apply Forall2_cons; [apply (fok_good _ _ _ _ G5 N5 Gn5); need0|]. constructor. }
  split; [|exists n; split; [exact N|]].
  - destruct S1 as (J & NN & D & _). split; [exact J|split; [exact NN|]].
    intros d Hd. destruct (D d ltac:(needd Hd)) as [D1 D2]. split; [exact D1|]. Transparent js_manifest. cbn [js_manifest jdec jser]. Opaque js_manifest. rewrite D2. cbn [map snd req].
    rewrite (good_dec _ _ _ _ G0) by needd Hd. cbn [obind]. rewrite (good_dec _ _ _ _ G1) by needd Hd. cbn [obind]. rewrite (good_dec _ _ _ _ G2) by needd Hd. cbn [obind]. rewrite (good_dec _ _ _ _ G3) by needd Hd. cbn [obind]. rewrite (good_dec _ _ _ _ G4) by needd Hd. cbn [obind]. rewrite (good_dec _ _ _ _ G5) by needd Hd. cbn [obind]. now destruct m.
  - destruct S2 as (J & NN & D & _). split; [exact J|split; [exact NN|]].
    intros d Hd. destruct (D d ltac:(needd Hd)) as [D1 D2]. split; [exact D1|]. Transparent js_manifest. cbn [js_manifest jdec jser]. Opaque js_manifest. rewrite D2. cbn [map snd req].
    rewrite (good_dec _ _ _ _ Gn0) by needd Hd. cbn [obind]. rewrite (good_dec _ _ _ _ Gn1) by needd Hd. cbn [obind]. rewrite (good_dec _ _ _ _ Gn2) by needd Hd. cbn [obind]. rewrite (good_dec _ _ _ _ Gn3) by needd Hd. cbn [obind]. rewrite (good_dec _ _ _ _ Gn4) by needd Hd. cbn [obind]. rewrite (good_dec _ _ _ _ Gn5) by needd Hd. cbn [obind]. now destruct m.
Qed.
#[export] Hint Resolve js_manifest_law : jlaw.

Lemma js_manifest_v0_law : jlawful js_manifest_v0.
Proof.
  intros m H. Transparent js_manifest_v0. cbn [js_manifest_v0 jwf] in H. Opaque js_manifest_v0. splitwf.
  assert (W0 : jwf (js_namespace) (mf0_namespace m) = true) by (assumption || reflexivity).
  assert (L0 : jlawful (js_namespace)) by eauto with jlaw. destruct (L0 (mf0_namespace m) W0) as [G0 (n0 & N0 & Gn0)].
  assert (W1 : jwf (js_pivot_v0) (mf0_pivot m) = true) by (assumption || reflexivity).
  assert (L1 : jlawful (js_pivot_v0)) by eauto with jlaw. destruct (L1 (mf0_pivot m) W1) as [G1 (n1 & N1 & Gn1)].
  assert (W2 : jwf (js_member_set) (mf0_manifest_set m) = true) by (assumption || reflexivity).
  assert (L2 : jlawful (js_member_set)) by eauto with jlaw. destruct (L2 (mf0_manifest_set m) W2) as [G2 (n2 & N2 & Gn2)].
  assert (W3 : jwf (js_member_set) (mf0_share_set m) = true) by (assumption || reflexivity).
  assert (L3 : jlawful (js_member_set)) by eauto with jlaw. destruct (L3 (mf0_share_set m) W3) as [G3 (n3 & N3 & Gn3)].
  assert (W4 : jwf (js_nitro) (mf0_enclave m) = true) by (assumption || reflexivity).
  assert (L4 : jlawful (js_nitro)) by eauto with jlaw. destruct (L4 (mf0_enclave m) W4) as [G4 (n4 & N4 & Gn4)].
  assert (W5 : jwf (js_patch_set) (mf0_patch_set m) = true) by (assumption || reflexivity).
  assert (L5 : jlawful (js_patch_set)) by eauto with jlaw. destruct (L5 (mf0_patch_set m) W5) as [G5 (n5 & N5 & Gn5)].
  destruct (struct_law 4 [bs "namespace"; bs "pivot"; bs "manifestSet"; bs "shareSet"; bs "enclave"; bs "patchSet"]
    [(bs "namespace", Some (jser (js_namespace) (mf0_namespace m))); (bs "pivot", Some (jser (js_pivot_v0) (mf0_pivot m))); (bs "manifestSet", Some (jser (js_member_set) (mf0_manifest_set m))); (bs "shareSet", Some (jser (js_member_set) (mf0_share_set m))); (bs "enclave", Some (jser (js_nitro) (mf0_enclave m))); (bs "patchSet", Some (jser (js_patch_set) (mf0_patch_set m)))]
    [(bs "namespace", Some n0); (bs "pivot", Some n1); (bs "manifestSet", Some n2); (bs "shareSet", Some n3); (bs "enclave", Some n4); (bs "patchSet", Some n5)] eq_refl eq_refl eq_refl) as [S1 (n & N & S2)].
  { cbn [map snd]. apply Forall2_cons; [apply (fok_good _ _ _ _ G0 N0 Gn0); need0|]. apply Forall2_cons; [apply (fok_good _ _ _ _ G1 N1 Gn1); need0|]. apply Forall2_cons; [apply (fok_good _ _ _ _ G2 N2 Gn2); need0|]. apply Forall2_cons; [apply (fok_good _ _ _ _ G3 N3 Gn3); need0|]. apply Forall2_cons; [apply (fok_good _ _ _ _ G4 N4 Gn4); need0|]. apply Forall2_cons; [apply (fok_good _ _ _ _ G5 N5 Gn5); need0|]. constructor. }
  split; [|exists n; split; [exact N|]].
  - destruct S1 as (J & NN & D & _). split; [exact J|split; [exact NN|]].
    intros d Hd. destruct (D d ltac:(needd Hd)) as [D1 D2]. split; [exact D1|]. Transparent js_manifest_v0. cbn [js_manifest_v0 jdec jser]. Opaque js_manifest_v0. rewrite D2. cbn [map snd req].
    rewrite (good_dec _ _ _ _ G0) by needd Hd. cbn [obind]. rewrite (good_dec _ _ _ _ G1) by needd Hd. cbn [obind]. rewrite (good_dec _ _ _ _ G2) by needd Hd. cbn [obind]. rewrite (good_dec _ _ _ _ G3) by needd Hd. cbn [obind]. rewrite (good_dec _ _ _ _ G4) by needd Hd. cbn [obind]. rewrite (good_dec _ _ _ _ G5) by needd Hd. cbn [obind]. now destruct m.
  - destruct S2 as (J & NN & D & _). split; [exact J|split; [exact NN|]].
    intros d Hd. destruct (D d ltac:(needd Hd)) as [D1 D2]. split; [exact D1|]. Transparent js_manifest_v0. cbn [js_manifest_v0 jdec jser]. Opaque js_manifest_v0. rewrite D2. cbn [map snd req].
    rewrite (good_dec _ _ _ _ Gn0) by needd Hd. cbn [obind]. rewrite (good_dec _ _ _ _ Gn1) by needd Hd. cbn [obind]. rewrite (good_dec _ _ _ _ Gn2) by needd Hd. cbn [obind]. rewrite (good_dec _ _ _ _ Gn3) by needd Hd. cbn [obind]. rewrite (good_dec _ _ _ _ Gn4) by needd Hd. cbn [obind]. rewrite (good_dec _ _ _ _ Gn5) by needd Hd. cbn [obind]. now destruct m.
Qed.
#[export] Hint Resolve js_manifest_v0_law : jlaw.

Lemma js_approval_law : jlawful js_approval.
Proof.
  intros m H. Transparent js_approval. cbn [js_approval jwf] in H. Opaque js_approval. splitwf.
  assert (W0 : jwf (js_hex) (ap_signature m) = true) by (assumption || reflexivity).
  assert (L0 : jlawful (js_hex)) by eauto with jlaw. destruct (L0 (ap_signature m) W0) as [G0 (n0 & N0 & Gn0)].
  assert (W1 : jwf (js_member) (ap_member m) = true) by (assumption || reflexivity).
  assert (L1 : jlawful (js_member)) by eauto with jlaw. destruct (L1 (ap_member m) W1) as [G1 (n1 & N1 & Gn1)].
  destruct (struct_law 2 [bs "signature"; bs "member"]
    [(bs "signature", Some (jser (js_hex) (ap_signature m))); (bs "member", Some (jser (js_member) (ap_member m)))]
    [(bs "signature", Some n0); (bs "member", Some n1)] eq_refl eq_refl eq_refl) as [S1 (n & N & S2)].
  { cbn [map snd]. apply Forall2_cons; [apply (fok_good _ _ _ _ G0 N0 Gn0); need0|]. apply Forall2_cons; [apply (fok_good _ _ _ _ G1 N1 Gn1); need0|]. constructor. }
  split; [|exists n; split; [exact N|]].
  - destruct S1 as (J & NN & D & _). split; [exact J|split; [exact NN|]].
    intros d Hd. destruct (D d ltac:(needd Hd)) as [D1 D2]. split; [exact D1|]. Transparent js_approval. cbn [js_approval jdec jser]. Opaque js_approval. rewrite D2. cbn [map snd req].
    rewrite (good_dec _ _ _ _ G0) by needd Hd. cbn [obind]. rewrite (good_dec _ _ _ _ G1) by needd Hd. cbn [obind]. now destruct m.
  - destruct S2 as (J & NN & D & _). split; [exact J|split; [exact NN|]].
    intros d Hd. destruct (D d ltac:(needd Hd)) as [D1 D2]. split; [exact D1|]. Transparent js_approval. cbn [js_approval jdec jser]. Opaque js_approval. rewrite D2. cbn [map snd req].
    rewrite (good_dec _ _ _ _ Gn0) by needd Hd. cbn [obind]. rewrite (good_dec _ _ _ _ Gn1) by needd Hd. cbn [obind]. now destruct m.
Qed.
#[export] Hint Resolve js_approval_law : jlaw.

Lemma js_envelope_law : jlawful js_envelope.
Proof.
  intros m H. Transparent js_envelope. cbn [js_envelope jwf] in H. Opaque js_envelope. splitwf.
  assert (W0 : jwf (js_manifest) (e1_manifest m) = true) by (assumption || reflexivity).
  assert (L0 : jlawful (js_manifest)) by eauto with jlaw. destruct (L0 (e1_manifest m) W0) as [G0 (n0 & N0 & Gn0)].
  assert (W1 : jwf (js_vec js_approval) (e1_manifest_approvals m) = true) by (assumption || reflexivity).
  assert (L1 : jlawful (js_vec js_approval)) by eauto with jlaw. destruct (L1 (e1_manifest_approvals m) W1) as [G1 (n1 & N1 & Gn1)].
  assert (W2 : jwf (js_vec js_approval) (e1_share_approvals m) = true) by (assumption || reflexivity).
  assert (L2 : jlawful (js_vec js_approval)) by eauto with jlaw. destruct (L2 (e1_share_approvals m) W2) as [G2 (n2 & N2 & Gn2)].
  destruct (struct_law 5 [bs "manifest"; bs "manifestSetApprovals"; bs "shareSetApprovals"]
    [(bs "manifest", Some (jser (js_manifest) (e1_manifest m))); (bs "manifestSetApprovals", Some (jser (js_vec js_approval) (e1_manifest_approvals m))); (bs "shareSetApprovals", Some (jser (js_vec js_approval) (e1_share_approvals m)))]
    [(bs "manifest", Some n0); (bs "manifestSetApprovals", Some n1); (bs "shareSetApprovals", Some n2)] eq_refl eq_refl eq_refl) as [S1 (n & N & S2)].
  { cbn [map snd]. apply Forall2_cons; [apply (fok_good _ _ _ _ G0 N0 Gn0); need0|]. apply Forall2_cons; [apply (fok_good _ _ _ _ G1 N1 Gn1); need0|]. apply Forall2_cons; [apply (fok_good _ _ _ _ G2 N2 Gn2); need0|]. constructor. }
  split; [|exists n; split; [exact N|]].
  - destruct S1 as (J & NN & D & _). split; [exact J|split; [exact NN|]].
    intros d Hd. destruct (D d ltac:(needd Hd)) as [D1 D2]. split; [exact D1|]. Transparent js_envelope. cbn [js_envelope jdec jser]. Opaque js_envelope. rewrite D2. cbn [map snd req].
    rewrite (good_dec _ _ _ _ G0) by needd Hd. cbn [obind]. rewrite (good_dec _ _ _ _ G1) by needd Hd. cbn [obind]. rewrite (good_dec _ _ _ _ G2) by needd Hd. cbn [obind]. now destruct m.
  - destruct S2 as (J & NN & D & _). split; [exact J|split; [exact NN|]].
    intros d Hd. destruct (D d ltac:(needd Hd)) as [D1 D2]. split; [exact D1|]. Transparent js_envelope. cbn [js_envelope jdec jser]. Opaque js_envelope. rewrite D2. cbn [map snd req].
    rewrite (good_dec _ _ _ _ Gn0) by needd Hd. cbn [obind]. rewrite (good_dec _ _ _ _ Gn1) by needd Hd. cbn [obind]. rewrite (good_dec _ _ _ _ Gn2) by needd Hd. cbn [obind]. now destruct m.
Qed.
#[export] Hint Resolve js_envelope_law : jlaw.

Lemma js_envelope_v0_law : jlawful js_envelope_v0.
Proof.
  intros m H. Transparent js_envelope_v0. cbn [js_envelope_v0 jwf] in H. Opaque js_envelope_v0. splitwf.
  assert (W0 : jwf (js_manifest_v0) (e0_manifest m) = true) by (assumption || reflexivity).
  assert (L0 : jlawful (js_manifest_v0)) by eauto with jlaw. destruct (L0 (e0_manifest m) W0) as [G0 (n0 & N0 & Gn0)].
  assert (W1 : jwf (js_vec js_approval) (e0_manifest_approvals m) = true) by (assumption || reflexivity).
  assert (L1 : jlawful (js_vec js_approval)) by eauto with jlaw. destruct (L1 (e0_manifest_approvals m) W1) as [G1 (n1 & N1 & Gn1)].
  assert (W2 : jwf (js_vec js_approval) (e0_share_approvals m) = true) by (assumption || reflexivity).
  assert (L2 : jlawful (js_vec js_approval)) by eauto with jlaw. destruct (L2 (e0_share_approvals m) W2) as [G2 (n2 & N2 & Gn2)].
  destruct (struct_law 5 [bs "manifest"; bs "manifest_set_approvals"; bs "share_set_approvals"]
    [(bs "manifest", Some (jser (js_manifest_v0) (e0_manifest m))); (bs "manifest_set_approvals", Some (jser (js_vec js_approval) (e0_manifest_approvals m))); (bs "share_set_approvals", Some (jser (js_vec js_approval) (e0_share_approvals m)))]
    [(bs "manifest", Some n0); (bs "manifest_set_approvals", Some n1); (bs "share_set_approvals", Some n2)] eq_refl eq_refl eq_refl) as [S1 (n & N & S2)].
  { cbn [map snd]. apply Forall2_cons; [apply (fok_good _ _ _ _ G0 N0 Gn0); need0|]. apply Forall2_cons; [apply (fok_good _ _ _ _ G1 N1 Gn1); need0|]. apply Forall2_cons; [apply (fok_good _ _ _ _ G2 N2 Gn2); need0|]. constructor. }
  split; [|exists n; split; [exact N|]].
  - destruct S1 as (J & NN & D & _). split; [exact J|split; [exact NN|]].
    intros d Hd. destruct (D d ltac:(needd Hd)) as [D1 D2]. split; [exact D1|]. Transparent js_envelope_v0. cbn [js_envelope_v0 jdec jser]. Opaque js_envelope_v0. rewrite D2. cbn [map snd req].
    rewrite (good_dec _ _ _ _ G0) by needd Hd. cbn [obind]. rewrite (good_dec _ _ _ _ G1) by needd Hd. cbn [obind]. rewrite (good_dec _ _ _ _ G2) by needd Hd. cbn [obind]. now destruct m.
  - destruct S2 as (J & NN & D & _). split; [exact J|split; [exact NN|]].
    intros d Hd. destruct (D d ltac:(needd Hd)) as [D1 D2]. split; [exact D1|]. Transparent js_envelope_v0. cbn [js_envelope_v0 jdec jser]. Opaque js_envelope_v0. rewrite D2. cbn [map snd req].
    rewrite (good_dec _ _ _ _ Gn0) by needd Hd. cbn [obind]. rewrite (good_dec _ _ _ _ Gn1) by needd Hd. cbn [obind]. rewrite (good_dec _ _ _ _ Gn2) by needd Hd. cbn [obind]. now destruct m.
Qed.
#[export] Hint Resolve js_envelope_v0_law : jlaw.

Lemma js_dns_law : jlawful js_dns.
Proof.
  intros m H.
  assert (W0 : jwf (js_vec js_ip) (dns_resolvers m) = true) by (apply forallb_forall; reflexivity).
  assert (L0 : jlawful (js_vec js_ip)) by eauto with jlaw. destruct (L0 (dns_resolvers m) W0) as [G0 (n0 & N0 & Gn0)].
  destruct (struct_law 2 [bs "resolvers"]
    [(bs "resolvers", Some (jser (js_vec js_ip) (dns_resolvers m)))]
    [(bs "resolvers", Some n0)] eq_refl eq_refl eq_refl) as [S1 (n & N & S2)].
  { cbn [map snd]. apply Forall2_cons; [apply (fok_good _ _ _ _ G0 N0 Gn0); need0|]. constructor. }
  split; [|exists n; split; [exact N|]].
  - destruct S1 as (J & NN & D & _). split; [exact J|split; [exact NN|]].
    intros d Hd. destruct (D d ltac:(needd Hd)) as [D1 D2]. split; [exact D1|]. Transparent js_dns. cbn [js_dns jdec jser]. Opaque js_dns. rewrite D2. cbn [map snd req].
    rewrite (good_dec _ _ _ _ G0) by needd Hd. cbn [obind]. now destruct m.
  - destruct S2 as (J & NN & D & _). split; [exact J|split; [exact NN|]].
    intros d Hd. destruct (D d ltac:(needd Hd)) as [D1 D2]. split; [exact D1|]. Transparent js_dns. cbn [js_dns jdec jser]. Opaque js_dns. rewrite D2. cbn [map snd req].
    rewrite (good_dec _ _ _ _ Gn0) by needd Hd. cbn [obind]. now destruct m.
Qed.
#[export] Hint Resolve js_dns_law : jlaw.

(** ** env *)
Transparent js_env_value js_env.
Lemma js_env_value_law : jlawful js_env_value.
Proof.
  apply jlawful_same. intros v H. cbn [js_env_value jwf] in H. apply andb_true_iff in H as [H1 H2].
  apply value_new_id in H1. split; [|reflexivity].
  split; [cbn; now rewrite H2|]. split; [discriminate|]. intros d Hd. rewrite need_js_env_value in Hd.
  destruct d as [|[|[|d]]]; [lia|lia|lia|]. split; [reflexivity|].
  change (jdec js_env_value (S (S (S d))) (jser js_env_value v)) with (value_new v). exact H1.
Qed.

Lemma map_insert_perm {V} k (v : V) m : ~ In k (map fst m) -> Permutation (map_insert k v m) ((k, v) :: m).
Proof.
  induction m as [|[k' v'] m IH]; cbn; intros H; [auto|].
  destruct (bytes_eqb_spec k k'); [subst; tauto|]. destruct (bytes_ltb k k'); [auto|].
  eapply perm_trans; [apply perm_skip, IH; tauto|apply perm_swap].
Qed.

Lemma map_collect_perm {V} (l : list (bytes * V)) : NoDup (map fst l) -> Permutation (map_collect l) l.
Proof.
  unfold map_collect.
  assert (K : forall l acc : list (bytes * V), NoDup (map fst (acc ++ l)) -> Permutation (fold_left (fun m p => map_insert (fst p) (snd p) m) l acc) (acc ++ l)).
  { clear. induction l as [|[k v] l IH]; intros acc ND; cbn [fold_left fst snd]; [now rewrite app_nil_r|].
    rewrite map_app in ND. cbn in ND. pose proof (NoDup_remove_2 _ _ _ ND) as N1.
    assert (P : Permutation (map_insert k v acc) ((k, v) :: acc)).
    { apply map_insert_perm. intros H. apply N1, in_app_iff. auto. }
    eapply perm_trans; [apply IH|].
    - eapply Permutation_NoDup; [|exact ND]. rewrite map_app. eapply perm_trans; [apply Permutation_sym, Permutation_middle|].
      apply (Permutation_app (l := k :: map fst acc)); [|apply Permutation_refl].
      apply Permutation_sym. apply (Permutation_map fst) in P. exact P.
    - eapply perm_trans; [apply Permutation_app_tail, P|]. cbn. apply Permutation_middle. }
  intros ND. apply (K l []). exact ND.
Qed.

Lemma sorted_perm_eq {V} (m : list (bytes * V)) : forall m', sorted_keys m = true -> sorted_keys m' = true -> Permutation m m' -> m = m'.
Proof.
  induction m as [|[k v] m IH]; intros m' S S' P.
  - apply Permutation_nil in P. now subst.
  - destruct m' as [|[k' v'] m']; [apply Permutation_sym, Permutation_nil in P; discriminate|].
    apply sorted_cons in S as [A S], S' as [A' S'].
    assert (E : (k, v) = (k', v')).
    { pose proof (Permutation_in _ P (or_introl eq_refl)) as I1.
      pose proof (Permutation_in _ (Permutation_sym P) (or_introl eq_refl)) as I2.
      destruct I1 as [I1|I1]; [auto|]. destruct I2 as [I2|I2]; [auto|].
      unfold all_lt in *. rewrite Forall_forall in A, A'. specialize (A _ I2). specialize (A' _ I1). cbn in *.
      rewrite (bytes_ltb_asym _ _ A) in A'. discriminate. }
    rewrite E in *. f_equal. apply IH; auto. eapply Permutation_cons_inv; eauto.
Qed.

Lemma sorted_nodup {V} (m : list (bytes * V)) : sorted_keys m = true -> NoDup (map fst m).
Proof.
  induction m as [|[k v] m IH]; intros S; cbn; [constructor|]. apply sorted_cons in S as [A S].
  constructor; auto. intros H. apply in_map_iff in H as ([k' v'] & E & H). cbn in E. subst.
  unfold all_lt in A. rewrite Forall_forall in A. specialize (A _ H). cbn in A. rewrite bytes_ltb_irrefl in A. discriminate.
Qed.

Lemma good_env e (m : list (bytes * bytes)) : env_ok e = true -> Permutation m e ->
  good js_env e (JObj (map (fun p => (Some (fst p), jser js_env_value (snd p))) m)).
Proof.
  intros O P. unfold env_ok in O. apply andb_true_iff in O as [O L]. apply andb_true_iff in O as [S F].
  rewrite forallb_forall in F.
  assert (Fm : forall p, In p m -> is_some (name_new (fst p)) = true /\ jwf js_env_value (snd p) = true).
  { intros p Hp. specialize (F p (Permutation_in _ P Hp)). apply andb_true_iff in F as [F U].
    apply andb_true_iff in F as [F1 F2]. split; auto. cbn [js_env_value jwf]. now rewrite F2, U. }
  split; [|split; [discriminate|]].
  - cbn [jok]. apply forallb_forall. intros q Hq. apply in_map_iff in Hq as (p & <- & Hp).
    destruct (Fm p Hp) as [F1 F2]. destruct (js_env_value_law _ F2) as [(J & _) _]. cbn [fst snd okey].
    rewrite J, (name_utf8 _ F1). reflexivity.
  - intros d Hd. rewrite need_js_env in Hd. destruct d as [|[|d]]; [lia|lia|]. split.
    + cbn [strict]. apply forallb_forall. intros q Hq. apply in_map_iff in Hq as (p & <- & Hp).
      destruct (Fm p Hp) as [F1 F2]. destruct (js_env_value_law _ F2) as [(_ & _ & J) _]. cbn [fst snd is_some andb].
      apply J. rewrite need_js_env_value. lia.
    + unfold js_env. cbn [jdec]. rewrite map_map. cbn [fst snd].
      rewrite (oseq_map_some _ (fun p => p)).
      * cbn [obind]. rewrite map_id.
        assert (NDm : NoDup (map fst m)).
        { eapply Permutation_NoDup; [apply Permutation_map, Permutation_sym, P|]. now apply sorted_nodup. }
        assert (E : map_collect m = e).
        { apply sorted_perm_eq; auto; [apply map_collect_is_sorted|]. eapply perm_trans; [now apply map_collect_perm|exact P]. }
        rewrite E. unfold env_try_from, check_limits. destruct (N.ltb_spec MAX_PIVOT_ENV_VARS (lenN e)); [lia|reflexivity].
      * intros [k v] Hp. destruct (Fm _ Hp) as [F1 F2]. cbn [fst snd] in *. rewrite (name_new_id _ F1). cbn [obind].
        destruct (js_env_value_law _ F2) as [(_ & _ & J) _]. destruct (J (Datatypes.S d)) as [_ J2].
        { rewrite need_js_env_value. lia. } rewrite J2. reflexivity.
Qed.

Lemma js_env_law : jlawful js_env.
Proof.
  intros e H. change (env_ok e = true) in H. split; [apply good_env; auto|].
  set (f := fun p : bytes * bytes => (fst p, jser js_env_value (snd p))).
  exists (JObj (map rekey (sort_keys (map f e)))).
  assert (O := H). unfold env_ok in O. apply andb_true_iff in O as [O _]. apply andb_true_iff in O as [S F].
  split.
  - change (jser js_env e) with (JObj (map (fun p : bytes * bytes => rekey (f p)) e)). rewrite <- map_map.
    apply norm_obj.
    + rewrite map_map. cbn. now apply sorted_nodup.
    + clear. induction e as [|p e IH]; cbn [map]; constructor; auto. repeat split; auto. discriminate.
  - assert (E : exists m, Permutation m e /\ sort_keys (map f e) = map f m).
    { pose proof (sort_keys_perm (map f e)) as P.
      apply Permutation_map_inv in P as (m & E & P). exists m. split; [now apply Permutation_sym|auto]. }
    destruct E as (m & P & ->). rewrite map_map. apply (good_env e m H P).
Qed.
#[export] Hint Resolve js_env_value_law js_env_law : jlaw.
Opaque js_env_value js_env.

Lemma js_pivot_v2_law : jlawful js_pivot_v2.
Proof.
  intros m H. Transparent js_pivot_v2. cbn [js_pivot_v2 jwf] in H. Opaque js_pivot_v2. splitwf.
  assert (W0 : jwf (js_hex_n 32) (pv2_hash m) = true) by (assumption || reflexivity).
  assert (L0 : jlawful (js_hex_n 32)) by eauto with jlaw. destruct (L0 (pv2_hash m) W0) as [G0 (n0 & N0 & Gn0)].
  assert (W1 : jwf (js_restart) (pv2_restart m) = true) by (assumption || reflexivity).
  assert (L1 : jlawful (js_restart)) by eauto with jlaw. destruct (L1 (pv2_restart m) W1) as [G1 (n1 & N1 & Gn1)].
  assert (W2 : jwf (js_vec js_bridge) (pv2_bridge m) = true) by (assumption || reflexivity).
  assert (L2 : jlawful (js_vec js_bridge)) by eauto with jlaw. destruct (L2 (pv2_bridge m) W2) as [G2 (n2 & N2 & Gn2)].
  assert (W3 : jwf (js_bool) (pv2_debug m) = true) by (assumption || reflexivity).
  assert (L3 : jlawful (js_bool)) by eauto with jlaw. destruct (L3 (pv2_debug m) W3) as [G3 (n3 & N3 & Gn3)].
  assert (W4 : jwf (js_vec js_string) (pv2_args m) = true) by (assumption || reflexivity).
  assert (L4 : jlawful (js_vec js_string)) by eauto with jlaw. destruct (L4 (pv2_args m) W4) as [G4 (n4 & N4 & Gn4)].
  assert (OO : exists nopt, fok 4 (match pv2_env m with [] => None | e => Some (jser js_env e) end) nopt /\ (forall d, (S 4 <= d)%nat -> match (match pv2_env m with [] => None | e => Some (jser js_env e) end) with None => Some [] | Some x => jdec js_env (pred d) x end = Some (pv2_env m)) /\ (forall d, (S 4 <= d)%nat -> match nopt with None => Some [] | Some x => jdec js_env (pred d) x end = Some (pv2_env m))).
  { destruct (pv2_env m) as [|p e] eqn:Ee; [exists None; repeat split; auto|]. rewrite <- Ee in *.
    destruct (js_env_law (pv2_env m) ltac:(assumption)) as [G (n & N & Gn)]. exists (Some n).
    split; [apply (fok_good _ _ _ _ G N Gn); need0|]. split; intros d Hd; apply good_dec; auto; clear -Hd; autorewrite with jneed; lia. }
  destruct OO as (nopt & OF & OD & ODn).
  destruct (struct_law 4 [bs "hash"; bs "restart"; bs "bridgeConfig"; bs "debugMode"; bs "args"; bs "env"]
    [(bs "hash", Some (jser (js_hex_n 32) (pv2_hash m))); (bs "restart", Some (jser (js_restart) (pv2_restart m))); (bs "bridgeConfig", Some (jser (js_vec js_bridge) (pv2_bridge m))); (bs "debugMode", Some (jser (js_bool) (pv2_debug m))); (bs "args", Some (jser (js_vec js_string) (pv2_args m))); (bs "env", match pv2_env m with [] => None | e => Some (jser js_env e) end)]
    [(bs "hash", Some n0); (bs "restart", Some n1); (bs "bridgeConfig", Some n2); (bs "debugMode", Some n3); (bs "args", Some n4); (bs "env", nopt)] eq_refl eq_refl eq_refl) as [S1 (n & N & S2)].
  { cbn [map snd].  apply Forall2_cons; [apply (fok_good _ _ _ _ G0 N0 Gn0); need0|]. apply Forall2_cons; [apply (fok_good _ _ _ _ G1 N1 Gn1); need0|]. apply Forall2_cons; [apply (fok_good _ _ _ _ G2 N2 Gn2); need0|]. apply Forall2_cons; [apply (fok_good _ _ _ _ G3 N3 Gn3); need0|]. apply Forall2_cons; [apply (fok_good _ _ _ _ G4 N4 Gn4); need0|]. apply Forall2_cons; [exact OF|constructor]. }
  split; [|exists n; split; [exact N|]].
  - destruct S1 as (J & NN & D & _). split; [exact J|split; [exact NN|]].
    intros d Hd. destruct (D d ltac:(needd Hd)) as [D1 D2]. split; [exact D1|]. Transparent js_pivot_v2. cbn [js_pivot_v2 jdec jser]. Opaque js_pivot_v2. rewrite D2. cbn [map snd req].
    rewrite (good_dec _ _ _ _ G0) by needd Hd. cbn [obind]. rewrite (good_dec _ _ _ _ G1) by needd Hd. cbn [obind]. rewrite (good_dec _ _ _ _ G2) by needd Hd. cbn [obind]. rewrite (good_dec _ _ _ _ G3) by needd Hd. cbn [obind]. rewrite (good_dec _ _ _ _ G4) by needd Hd. cbn [obind]. rewrite OD by needd Hd. cbn [obind]. now destruct m.
  - destruct S2 as (J & NN & D & _). split; [exact J|split; [exact NN|]].
    intros d Hd. destruct (D d ltac:(needd Hd)) as [D1 D2]. split; [exact D1|]. Transparent js_pivot_v2. cbn [js_pivot_v2 jdec jser]. Opaque js_pivot_v2. rewrite D2. cbn [map snd req].
    rewrite (good_dec _ _ _ _ Gn0) by needd Hd. cbn [obind]. rewrite (good_dec _ _ _ _ Gn1) by needd Hd. cbn [obind]. rewrite (good_dec _ _ _ _ Gn2) by needd Hd. cbn [obind]. rewrite (good_dec _ _ _ _ Gn3) by needd Hd. cbn [obind]. rewrite (good_dec _ _ _ _ Gn4) by needd Hd. cbn [obind]. rewrite ODn by needd Hd. cbn [obind]. now destruct m.
Qed.
#[export] Hint Resolve js_pivot_v2_law : jlaw.

Lemma js_manifest_v2_law : jlawful js_manifest_v2.
Proof.
  intros m H. Transparent js_manifest_v2. cbn [js_manifest_v2 jwf] in H. Opaque js_manifest_v2. splitwf.
  assert (W0 : jwf (js_namespace) (mf2_namespace m) = true) by (assumption || reflexivity).
  assert (L0 : jlawful (js_namespace)) by eauto with jlaw. destruct (L0 (mf2_namespace m) W0) as [G0 (n0 & N0 & Gn0)].
  assert (W1 : jwf (js_pivot_v2) (mf2_pivot m) = true) by (assumption || reflexivity).
  assert (L1 : jlawful (js_pivot_v2)) by eauto with jlaw. destruct (L1 (mf2_pivot m) W1) as [G1 (n1 & N1 & Gn1)].
  assert (W2 : jwf (js_member_set) (mf2_manifest_set m) = true) by (assumption || reflexivity).
  assert (L2 : jlawful (js_member_set)) by eauto with jlaw. destruct (L2 (mf2_manifest_set m) W2) as [G2 (n2 & N2 & Gn2)].
  assert (W3 : jwf (js_member_set) (mf2_share_set m) = true) by (assumption || reflexivity).
  assert (L3 : jlawful (js_member_set)) by eauto with jlaw. destruct (L3 (mf2_share_set m) W3) as [G3 (n3 & N3 & Gn3)].
  assert (W4 : jwf (js_nitro) (mf2_enclave m) = true) by (assumption || reflexivity).
  assert (L4 : jlawful (js_nitro)) by eauto with jlaw. destruct (L4 (mf2_enclave m) W4) as [G4 (n4 & N4 & Gn4)].
  assert (OO : exists nopt, fok 5 (match mf2_dns m with Some x => Some (jser js_dns x) | None => None end) nopt /\ (forall d, (S 5 <= d)%nat -> match (match mf2_dns m with Some x => Some (jser js_dns x) | None => None end) with None | Some JNull => Some None | Some x => let? y := jdec js_dns (pred d) x in Some (Some y) end = Some (mf2_dns m)) /\ (forall d, (S 5 <= d)%nat -> match nopt with None | Some JNull => Some None | Some x => let? y := jdec js_dns (pred d) x in Some (Some y) end = Some (mf2_dns m))).
  { destruct (mf2_dns m) as [x|] eqn:Ee; [|exists None; repeat split; auto].
    destruct (js_dns_law x eq_refl) as [G (n & N & Gn)]. exists (Some n).
    split; [apply (fok_good _ _ _ _ G N Gn); need0|]. split; intros d Hd.
    - rewrite (good_dec _ _ _ (pred d) G) by (clear -Hd; autorewrite with jneed; lia). destruct G as (_ & G & _). destruct (jser js_dns x); try reflexivity. congruence.
    - rewrite (good_dec _ _ _ (pred d) Gn) by (clear -Hd; autorewrite with jneed; lia). destruct Gn as (_ & Gn & _). destruct n; try reflexivity. congruence. }
  destruct OO as (nopt & OF & OD & ODn).
  destruct (struct_law 5 [bs "version"; bs "namespace"; bs "pivot"; bs "manifestSet"; bs "shareSet"; bs "enclave"; bs "dns"]
    [(bs "version", Some (str (bs "v2"))); (bs "namespace", Some (jser (js_namespace) (mf2_namespace m))); (bs "pivot", Some (jser (js_pivot_v2) (mf2_pivot m))); (bs "manifestSet", Some (jser (js_member_set) (mf2_manifest_set m))); (bs "shareSet", Some (jser (js_member_set) (mf2_share_set m))); (bs "enclave", Some (jser (js_nitro) (mf2_enclave m))); (bs "dns", match mf2_dns m with Some x => Some (jser js_dns x) | None => None end)]
    [(bs "version", Some (str (bs "v2"))); (bs "namespace", Some n0); (bs "pivot", Some n1); (bs "manifestSet", Some n2); (bs "shareSet", Some n3); (bs "enclave", Some n4); (bs "dns", nopt)] eq_refl eq_refl eq_refl) as [S1 (n & N & S2)].
  { cbn [map snd]. apply Forall2_cons; [repeat split; discriminate || auto|]. apply Forall2_cons; [apply (fok_good _ _ _ _ G0 N0 Gn0); need0|]. apply Forall2_cons; [apply (fok_good _ _ _ _ G1 N1 Gn1); need0|]. apply Forall2_cons; [apply (fok_good _ _ _ _ G2 N2 Gn2); need0|]. apply Forall2_cons; [apply (fok_good _ _ _ _ G3 N3 Gn3); need0|]. apply Forall2_cons; [apply (fok_good _ _ _ _ G4 N4 Gn4); need0|]. apply Forall2_cons; [exact OF|constructor]. }
  split; [|exists n; split; [exact N|]].
  - destruct S1 as (J & NN & D & _). split; [exact J|split; [exact NN|]].
    intros d Hd. destruct (D d ltac:(needd Hd)) as [D1 D2]. split; [exact D1|]. Transparent js_manifest_v2. cbn [js_manifest_v2 jdec jser]. Opaque js_manifest_v2. rewrite D2. cbn [map snd req].
    change (dec_version (pred d) (str (bs "v2"))) with (Some tt). cbn [obind]. rewrite (good_dec _ _ _ _ G0) by needd Hd. cbn [obind]. rewrite (good_dec _ _ _ _ G1) by needd Hd. cbn [obind]. rewrite (good_dec _ _ _ _ G2) by needd Hd. cbn [obind]. rewrite (good_dec _ _ _ _ G3) by needd Hd. cbn [obind]. rewrite (good_dec _ _ _ _ G4) by needd Hd. cbn [obind]. rewrite OD by needd Hd. cbn [obind]. now destruct m.
  - destruct S2 as (J & NN & D & _). split; [exact J|split; [exact NN|]].
    intros d Hd. destruct (D d ltac:(needd Hd)) as [D1 D2]. split; [exact D1|]. Transparent js_manifest_v2. cbn [js_manifest_v2 jdec jser]. Opaque js_manifest_v2. rewrite D2. cbn [map snd req].
    change (dec_version (pred d) (str (bs "v2"))) with (Some tt). cbn [obind]. rewrite (good_dec _ _ _ _ Gn0) by needd Hd. cbn [obind]. rewrite (good_dec _ _ _ _ Gn1) by needd Hd. cbn [obind]. rewrite (good_dec _ _ _ _ Gn2) by needd Hd. cbn [obind]. rewrite (good_dec _ _ _ _ Gn3) by needd Hd. cbn [obind]. rewrite (good_dec _ _ _ _ Gn4) by needd Hd. cbn [obind]. rewrite ODn by needd Hd. cbn [obind]. now destruct m.
Qed.
#[export] Hint Resolve js_manifest_v2_law : jlaw.

Lemma js_envelope_v2_law : jlawful js_envelope_v2.
Proof.
  intros m H. Transparent js_envelope_v2. cbn [js_envelope_v2 jwf] in H. Opaque js_envelope_v2. splitwf.
  assert (W0 : jwf (js_manifest_v2) (e2_manifest m) = true) by (assumption || reflexivity).
  assert (L0 : jlawful (js_manifest_v2)) by eauto with jlaw. destruct (L0 (e2_manifest m) W0) as [G0 (n0 & N0 & Gn0)].
  assert (W1 : jwf (js_vec js_approval) (e2_manifest_approvals m) = true) by (assumption || reflexivity).
  assert (L1 : jlawful (js_vec js_approval)) by eauto with jlaw. destruct (L1 (e2_manifest_approvals m) W1) as [G1 (n1 & N1 & Gn1)].
  assert (W2 : jwf (js_vec js_approval) (e2_share_approvals m) = true) by (assumption || reflexivity).
  assert (L2 : jlawful (js_vec js_approval)) by eauto with jlaw. destruct (L2 (e2_share_approvals m) W2) as [G2 (n2 & N2 & Gn2)].
  destruct (struct_law 6 [bs "manifest"; bs "manifestSetApprovals"; bs "shareSetApprovals"]
    [(bs "manifest", Some (jser (js_manifest_v2) (e2_manifest m))); (bs "manifestSetApprovals", Some (jser (js_vec js_approval) (e2_manifest_approvals m))); (bs "shareSetApprovals", Some (jser (js_vec js_approval) (e2_share_approvals m)))]
    [(bs "manifest", Some n0); (bs "manifestSetApprovals", Some n1); (bs "shareSetApprovals", Some n2)] eq_refl eq_refl eq_refl) as [S1 (n & N & S2)].
  { cbn [map snd]. apply Forall2_cons; [apply (fok_good _ _ _ _ G0 N0 Gn0); need0|]. apply Forall2_cons; [apply (fok_good _ _ _ _ G1 N1 Gn1); need0|]. apply Forall2_cons; [apply (fok_good _ _ _ _ G2 N2 Gn2); need0|]. constructor. }
  split; [|exists n; split; [exact N|]].
  - destruct S1 as (J & NN & D & _). split; [exact J|split; [exact NN|]].
    intros d Hd. destruct (D d ltac:(needd Hd)) as [D1 D2]. split; [exact D1|]. Transparent js_envelope_v2. cbn [js_envelope_v2 jdec jser]. Opaque js_envelope_v2. rewrite D2. cbn [map snd req].
    rewrite (good_dec _ _ _ _ G0) by needd Hd. cbn [obind]. rewrite (good_dec _ _ _ _ G1) by needd Hd. cbn [obind]. rewrite (good_dec _ _ _ _ G2) by needd Hd. cbn [obind]. now destruct m.
  - destruct S2 as (J & NN & D & _). split; [exact J|split; [exact NN|]].
    intros d Hd. destruct (D d ltac:(needd Hd)) as [D1 D2]. split; [exact D1|]. Transparent js_envelope_v2. cbn [js_envelope_v2 jdec jser]. Opaque js_envelope_v2. rewrite D2. cbn [map snd req].
    rewrite (good_dec _ _ _ _ Gn0) by needd Hd. cbn [obind]. rewrite (good_dec _ _ _ _ Gn1) by needd Hd. cbn [obind]. rewrite (good_dec _ _ _ _ Gn2) by needd Hd. cbn [obind]. now destruct m.
Qed.
#[export] Hint Resolve js_envelope_v2_law : jlaw.

