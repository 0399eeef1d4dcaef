(** C91: what an approval is for. *)
From Coq Require Import ZifyBool ZifyN ZifyNat.
From Verif Require Import Base Utf8 Hex HexProofs Borsh BorshProofs Json JsonProofs NormProofs Types TypesBorsh Env EnvProofs TypesJson TypesJsonProofs TypesJsonLaws StorageProofs CodecExamples
  Msg World Run FsProofs Attest Services ServiceProofs BootProofs State SpecProtocol HandleProofs Reach Invariant ProtocolProofs SpecApproval ApprovalProofs
  PropsConvert SpecHistory Toy ToyRuns PropsHistory.
Local Open Scope N_scope.
Local Open Scope m_scope.

(** *** Specification *)
(** A manifest that its format can express: JSON for version 2, Borsh for 0 and 1. *)
Definition expressible (m : versioned_manifest) : Prop :=
  match m with VM2 x => jwf js_manifest_v2 x = true | VM1 x => wf c_manifest x = true | VM0 x => wf c_manifest_v0 x = true end.
(** A version-1 and a version-0 manifest with one encoding. *)
Definition cross_version (m m' : versioned_manifest) : Prop :=
  exists x y, enc c_manifest x = enc c_manifest_v0 y /\ (m = VM1 x /\ m' = VM0 y \/ m = VM0 y /\ m' = VM1 x).
(** SHA-256 gives two texts one hash. *)
Definition collision (Y : sys) : Prop := exists x y, x <> y /\ s_sha256 Y x = s_sha256 Y y.

(** *** Proofs *)
Lemma v2_text m : jwf js_manifest_v2 m = true -> exists t n, canon (jser js_manifest_v2 m) = Some t /\ parse t = Some n.
Proof.
  intros W. destruct (js_manifest_v2_law m W) as [G _]. destruct (canon_parse _ (proj1 G)) as (n & _ & C & P). exists (write n), n. auto.
Qed.
Lemma v2_not_borsh m b : jwf js_manifest_v2 m = true -> borsh_file b -> manifest_preimage (VM2 m) = b -> False.
Proof.
  intros W B E. destruct (v2_text m W) as (t & n & C & P). cbn [manifest_preimage] in E. rewrite C in E. subst b.
  rewrite (c74_borsh_is_never_json _ B) in P. discriminate.
Qed.
Lemma same_text m m' : expressible m -> expressible m' -> manifest_preimage m = manifest_preimage m' -> m = m' \/ cross_version m m'.
Proof.
  destruct m as [a|a|a], m' as [b|b|b]; intros W W' E; cbn [expressible] in *.
  - left. f_equal. destruct (v2_text a W) as (t & n & C & _), (v2_text b W') as (t' & n' & C' & _).
    cbn [manifest_preimage] in E. rewrite C, C' in E. apply manifest_v2_canon_inj; [exact W|exact W'|congruence].
  - destruct (v2_not_borsh a _ W (BF_manifest b) E).
  - destruct (v2_not_borsh a _ W (BF_manifest_v0 b) E).
  - destruct (v2_not_borsh b _ W' (BF_manifest a) (eq_sym E)).
  - left. f_equal. exact (lawful_inj _ c_manifest_lawful a b W W' E).
  - right. exists a, b. split; [exact E|left; auto].
  - destruct (v2_not_borsh b _ W' (BF_manifest_v0 a) (eq_sym E)).
  - right. exists b, a. split; [symmetry; exact E|right; auto].
  - left. f_equal. exact (lawful_inj _ c_manifest_v0_lawful a b W W' E).
Qed.

(** What two such manifests always share. *)
Lemma enc_pair {A B} (ca : codec A) (cb : codec B) a b : enc (c_pair ca cb) (a, b) = enc ca a ++ enc cb b.
Proof. reflexivity. Qed.
Lemma first_field {A} (c : codec A) : lawful c -> forall a b x y, wf c a = true -> wf c b = true -> enc c a ++ x = enc c b ++ y -> a = b /\ x = y.
Proof.
  intros L a b x y Wa Wb E. pose proof (rt L a x Wa) as R. rewrite E, (rt L b y Wb) in R. injection R; auto.
Qed.
Definition v1_rest (m : manifest) : bytes :=
  enc (c_vec c_bridge) (pv_bridge (mf_pivot m)) ++ enc c_bool (pv_debug (mf_pivot m)) ++ enc (c_vec c_string) (pv_args (mf_pivot m))
  ++ enc c_member_set (mf_manifest_set m) ++ enc c_member_set (mf_share_set m) ++ enc c_nitro (mf_enclave m) ++ enc c_patch_set (mf_patch_set m).
Definition v0_rest (m : manifest_v0) : bytes :=
  enc (c_vec c_string) (pv0_args (mf0_pivot m))
  ++ enc c_member_set (mf0_manifest_set m) ++ enc c_member_set (mf0_share_set m) ++ enc c_nitro (mf0_enclave m) ++ enc c_patch_set (mf0_patch_set m).
Lemma v1_layout m : enc c_manifest m =
  enc c_namespace (mf_namespace m) ++ pv_hash (mf_pivot m) ++ enc c_restart (pv_restart (mf_pivot m)) ++ v1_rest m.
Proof. unfold v1_rest. cbn [c_manifest c_iso enc c_pair]. cbn [c_pivot c_iso enc c_pair c_fixed]. now rewrite <- !app_assoc. Qed.
Lemma v0_layout m : enc c_manifest_v0 m =
  enc c_namespace (mf0_namespace m) ++ pv0_hash (mf0_pivot m) ++ enc c_restart (pv0_restart (mf0_pivot m)) ++ v0_rest m.
Proof. unfold v0_rest. cbn [c_manifest_v0 c_iso enc c_pair]. cbn [c_pivot_v0 c_iso enc c_pair c_fixed]. now rewrite <- !app_assoc. Qed.
Lemma cross_shared x y : wf c_manifest x = true -> wf c_manifest_v0 y = true -> enc c_manifest x = enc c_manifest_v0 y ->
  mf_namespace x = mf0_namespace y /\ pv_hash (mf_pivot x) = pv0_hash (mf0_pivot y) /\ pv_restart (mf_pivot x) = pv0_restart (mf0_pivot y)
  /\ v1_rest x = v0_rest y.
Proof.
  intros Wx Wy E. rewrite v1_layout, v0_layout in E.
  cbn [c_manifest c_iso wf c_pair c_pivot c_fixed] in Wx. cbn [c_manifest_v0 c_iso wf c_pair c_pivot_v0 c_fixed] in Wy.
  apply andb_true_iff in Wx as [N1 Wx], Wy as [N0 Wy]. apply andb_true_iff in Wx as [P1 _], Wy as [P0 _].
  apply andb_true_iff in P1 as [H1 P1], P0 as [H0 P0]. apply andb_true_iff in P1 as [R1 _], P0 as [R0 _].
  apply (first_field _ c_namespace_lawful) in E as [-> E]; [|exact N1|exact N0].
  apply (first_field _ (c_fixed_lawful 32)) in E as [-> E]; [|exact H1|exact H0].
  apply (first_field _ c_restart_lawful) in E as [-> E]; [|exact R1|exact R0]. auto.
Qed.

(** ** C91.  An approval is a signature of the manifest's SHA-256 hash.  Unless
    SHA-256 collides, the hash is that of one manifest of its version, and of no
    manifest of another version, with one exception: a version-1 and a version-0
    manifest can have one hash.  Those two always name the same namespace (with
    the quorum key and the nonce), the same pivot binary and restart policy. *)
Theorem c91_a_hash_is_for_one_manifest : forall Y m m', expressible m -> expressible m' ->
  manifest_hash Y m = manifest_hash Y m' ->
  m = m' \/ collision Y \/ cross_version m m'.
Proof.
  intros Y m m' W W' E. unfold manifest_hash in E. destruct (bytes_eqb (manifest_preimage m) (manifest_preimage m')) eqn:X.
  - apply bytes_eqb_eq in X. destruct (same_text m m' W W' X); auto.
  - right. left. exists (manifest_preimage m), (manifest_preimage m'). split; [|exact E]. intros Z. rewrite Z, bytes_eqb_refl in X. discriminate.
Qed.
Print Assumptions c91_a_hash_is_for_one_manifest.

Theorem c91_what_an_approval_always_covers : forall Y m m', expressible m -> expressible m' ->
  manifest_hash Y m = manifest_hash Y m' -> ~ collision Y ->
  vm_namespace m = vm_namespace m' /\ vm_pivot_hash m = vm_pivot_hash m' /\ vm_restart m = vm_restart m'.
Proof.
  intros Y m m' W W' E NC. destruct (c91_a_hash_is_for_one_manifest Y m m' W W' E) as [->|[C|(x & y & X & [[-> ->]|[-> ->]])]]; [auto|contradiction| |];
    cbn [expressible] in W, W'; destruct (cross_shared x y) as (A & B & C & _); auto.
Qed.
Print Assumptions c91_what_an_approval_always_covers.

(** *** Two boots that differ in the manifest only *)
Section Same.
  Context {Y : sys}.
  Local Notation st := (st Y).
  Local Notation M := (M Y).
  Definition manifest_path (p : path) : Prop := p = Main Manif \/ p = Tmp Manif.
  Record alike (s t : st) : Prop := Alike {
    al_phase : st_phase s = st_phase t; al_shares : st_shares s = st_shares t; al_pending : st_pending s = st_pending t;
    al_nsm : st_nsm s = st_nsm t; al_rngc : st_rngc s = st_rngc t; al_ioc : st_ioc s = st_ioc t;
    al_there : forall p, is_some (st_fs s p) = is_some (st_fs t p);
    al_fs : forall p, ~ manifest_path p -> st_fs s p = st_fs t p }.
  Lemma alike_refl s : alike s s. Proof. constructor; reflexivity. Qed.
  Definition together {A} (x y : result perr A * st) : Prop := fst x = fst y /\ alike (snd x) (snd y).
  Lemma together_bind {A B} (m m' : M A) (f f' : A -> M B) s s' :
    together (m s) (m' s') -> (forall a t t', alike t t' -> together (f a t) (f' a t')) -> together (bind m f s) (bind m' f' s').
  Proof.
    intros [E L] H. unfold bind. destruct (m s) as [[a|e] t], (m' s') as [[a'|e'] t']; cbn [fst snd] in *; try discriminate.
    - injection E as <-. apply H, L.
    - injection E as <-. split; [reflexivity|exact L].
  Qed.
  Lemma together_bind_same {A B} (m : M A) (f f' : A -> M B) s :
    (forall a t, together (f a t) (f' a t)) -> together (bind m f s) (bind m f' s).
  Proof. intros H. unfold bind. destruct (m s) as [[a|e] t]; [apply H|]. split; [reflexivity|apply alike_refl]. Qed.
  Lemma together_guard b e s t : alike s t -> together (guard b e s) (guard b e t).
  Proof. intros L. destruct b; split; [reflexivity|exact L|reflexivity|exact L]. Qed.
  Lemma together_exists p s t : alike s t -> together (op_exists Y p s) (op_exists Y p t).
  Proof. intros L. split; [unfold op_exists, gets; cbn [fst]; now rewrite (al_there _ _ L p)|exact L]. Qed.
  Lemma upd_there (f g : fsys) q x y : is_some x = is_some y -> (forall p, is_some (f p) = is_some (g p)) -> forall p, is_some (upd f q x p) = is_some (upd g q y p).
  Proof. intros E H p. unfold upd. destruct (path_eqb q p); [exact E|apply H]. Qed.
  Lemma upd_off (f g : fsys) q x y : manifest_path q -> (forall p, ~ manifest_path p -> f p = g p) -> forall p, ~ manifest_path p -> upd f q x p = upd g q y p.
  Proof. intros Q H p N. unfold upd. destruct (path_eqb_spec q p) as [<-|]; [contradiction|apply H, N]. Qed.
  Lemma alike_eff e e' p x y s t : alike s t -> manifest_path p -> is_some x = is_some y ->
    alike (eff_fs e (upd (st_fs s) p x) s) (eff_fs e' (upd (st_fs t) p y) t).
  Proof. intros L Q E. destruct L. constructor; cbn [eff_fs st_phase st_shares st_pending st_nsm st_rngc st_ioc st_fs]; auto; [now apply upd_there|now apply upd_off]. Qed.
  Lemma steps_left p m d : manifest_path p -> forall k i s t, alike s t -> is_some (st_fs s p) = true -> alike (write_steps Y p m d k i s) t.
  Proof.
    intros Q. induction k as [|k IH]; intros i s t L E; cbn [write_steps].
    - destruct L. constructor; cbn [eff_fs st_phase st_shares st_pending st_nsm st_rngc st_ioc st_fs]; auto.
      + intros q. unfold upd. destruct (path_eqb_spec p q) as [<-|]; [|apply al_there0]. rewrite <- al_there0, E. reflexivity.
      + intros q N. unfold upd. destruct (path_eqb_spec p q) as [<-|]; [contradiction|now apply al_fs0].
    - apply IH.
      + destruct L. constructor; cbn [eff_fs st_phase st_shares st_pending st_nsm st_rngc st_ioc st_fs]; auto.
        * intros q. unfold upd. destruct (path_eqb_spec p q) as [<-|]; [|apply al_there0]. rewrite <- al_there0, E. reflexivity.
        * intros q N. unfold upd. destruct (path_eqb_spec p q) as [<-|]; [contradiction|now apply al_fs0].
      + cbn [eff_fs st_fs]. unfold upd. now destruct (path_eqb_spec p p).
  Qed.
  Lemma alike_sym s t : alike s t -> alike t s. Proof. intros []. constructor; auto. intros p N. symmetry; auto. Qed.
  Lemma steps_alike p m m' d d' k k' i i' s t : manifest_path p -> alike s t -> alike (write_steps Y p m d k i s) (write_steps Y p m' d' k' i' t).
  Proof.
    intros Q L.
    assert (L1 : alike (eff_fs (EvWrite p) (upd (st_fs s) p (Some (firstn i d, m))) s) (eff_fs (EvWrite p) (upd (st_fs t) p (Some (firstn i' d', m'))) t)).
    { now apply alike_eff. }
    assert (S1 : is_some (st_fs (eff_fs (EvWrite p) (upd (st_fs s) p (Some (firstn i d, m))) s) p) = true) by (cbn [eff_fs st_fs]; unfold upd; now destruct (path_eqb_spec p p)).
    assert (S2 : is_some (st_fs (eff_fs (EvWrite p) (upd (st_fs t) p (Some (firstn i' d', m'))) t) p) = true) by (cbn [eff_fs st_fs]; unfold upd; now destruct (path_eqb_spec p p)).
    destruct k, k'; cbn [write_steps]; [exact L1| | |].
    - apply alike_sym. apply steps_left; [exact Q|apply alike_sym, L1|exact S2].
    - apply steps_left; [exact Q|exact L1|exact S1].
    - apply steps_left; [exact Q| |exact S1]. apply alike_sym. apply steps_left; [exact Q|apply alike_sym, L1|exact S2].
  Qed.
  Lemma alike_tick s t : alike s t -> alike (tick_io s) (tick_io t).
  Proof. intros []. constructor; cbn; auto. Qed.
  Lemma together_write p b b' s t : manifest_path p -> alike s t -> together (op_write Y p b s) (op_write Y p b' t).
  Proof.
    intros Q L. unfold op_write. cbv zeta. rewrite (al_ioc _ _ L). pose proof (alike_tick _ _ L) as L1.
    destruct (s_io Y (st_ioc t)); (split; [reflexivity|]); cbn [snd]; [|exact L1|]; now apply steps_alike.
  Qed.
  Lemma together_rename s t : alike s t -> together (op_rename Y (Tmp Manif) (Main Manif) s) (op_rename Y (Tmp Manif) (Main Manif) t).
  Proof.
    intros L. unfold op_rename. cbv zeta. rewrite (al_ioc _ _ L). pose proof (alike_tick _ _ L) as L1. pose proof (al_there _ _ L (Tmp Manif)) as E.
    destruct (s_io Y (st_ioc t)); [|split; [reflexivity|exact L1]..].
    destruct (st_fs s (Tmp Manif)) as [x|], (st_fs t (Tmp Manif)) as [y|]; try discriminate E; (split; [reflexivity|]); cbn [snd]; [|exact L1].
    destruct L. constructor; cbn [eff_fs tick_io st_phase st_shares st_pending st_nsm st_rngc st_ioc st_fs]; auto.
    - apply upd_there; [reflexivity|]. now apply upd_there.
    - apply upd_off; [now right|]. apply upd_off; [now left|exact al_fs0].
  Qed.
  Lemma together_chmod p m s t : manifest_path p -> alike s t -> together (op_chmod Y p m s) (op_chmod Y p m t).
  Proof.
    intros Q L. unfold op_chmod. cbv zeta. rewrite (al_ioc _ _ L). pose proof (alike_tick _ _ L) as L1. pose proof (al_there _ _ L p) as E.
    destruct (s_io Y (st_ioc t)); [|destruct (st_fs s p) as [[? ?]|], (st_fs t p) as [[? ?]|]; split; [reflexivity|exact L1|reflexivity|exact L1|reflexivity|exact L1|reflexivity|exact L1]..].
    destruct (st_fs s p) as [[c x]|], (st_fs t p) as [[c' y]|]; try discriminate E; (split; [reflexivity|]); cbn [snd]; [|exact L1].
    destruct L. constructor; cbn [eff_fs tick_io st_phase st_shares st_pending st_nsm st_rngc st_ioc st_fs]; auto; [now apply upd_there|now apply upd_off].
  Qed.
  Lemma together_put b b' x s t : alike s t -> together (write_as_read_only Y Manif b x s) (write_as_read_only Y Manif b' x t).
  Proof.
    intros L. unfold write_as_read_only.
    apply together_bind; [now apply together_exists|]. intros ex s1 t1 L1.
    apply together_bind; [now apply together_guard|]. intros _ s2 t2 L2.
    apply together_bind; [apply together_write; [now right|exact L2]|]. intros w s3 t3 L3.
    apply together_bind; [now apply together_guard|]. intros _ s4 t4 L4.
    apply together_bind; [now apply together_rename|]. intros r s5 t5 L5.
    apply together_bind; [now apply together_guard|]. intros _ s6 t6 L6.
    apply together_bind; [apply together_chmod; [now left|exact L6]|]. intros c s7 t7 L7. now apply together_guard.
  Qed.
  Lemma together_nsm q s t : alike s t -> together (op_nsm Y q s) (op_nsm Y q t).
  Proof.
    intros L. unfold op_nsm. rewrite (al_nsm _ _ L). destruct (s_nsm_step Y (st_nsm t) q) as [a n]. split; [reflexivity|].
    destruct L. constructor; cbn; auto.
  Qed.

  Lemma together_boot e e' pv s : wf_envelope e = true -> wf_envelope e' = true ->
    check_approvals Y e = check_approvals Y e' -> env_share_approvals e = env_share_approvals e' ->
    vm_pivot_hash (env_manifest e) = vm_pivot_hash (env_manifest e') -> manifest_hash Y (env_manifest e) = manifest_hash Y (env_manifest e') ->
    together (put_manifest_and_pivot Y e pv s) (put_manifest_and_pivot Y e' pv s).
  Proof.
    intros W W' CA SA PH MH. unfold put_manifest_and_pivot. rewrite CA, SA, PH, MH. cbv zeta.
    destruct (envelope_storage e W) as (b & Sb & _), (envelope_storage e' W') as (b' & Sb' & _).
    apply together_bind_same. intros _ s1. apply together_bind_same. intros _ s2. apply together_bind_same. intros _ s3.
    apply together_bind_same. intros [setup k] s4. apply together_bind_same. intros [live lk] s5. apply together_bind_same. intros _ s6.
    apply together_bind_same. intros _ s7. apply together_bind_same. intros _ s8. apply together_bind_same. intros _ s9.
    apply together_bind.
    - unfold put_manifest_envelope. rewrite Sb, Sb'. apply together_put, alike_refl.
    - intros _ t t' L. apply together_nsm, L.
  Qed.
End Same.

(** *** A family of version-1 manifests with a version-0 twin *)
(** The bytes after the bridge configuration of a version-1 manifest, up to the manifest set. *)
Definition swallowed (m : manifest) : bytes := enc c_bool (pv_debug (mf_pivot m)) ++ enc (c_vec c_string) (pv_args (mf_pivot m)).
(** The version-0 manifest whose only argument is those bytes. *)
Definition twin (m : manifest) : manifest_v0 :=
  ManifestV0 (mf_namespace m) (PivotConfigV0 (pv_hash (mf_pivot m)) (pv_restart (mf_pivot m)) [swallowed m])
    (mf_manifest_set m) (mf_share_set m) (mf_enclave m) (mf_patch_set m).
(** One TCP client bridge without a host, whose port is the length of those bytes, less one, divided by 256. *)
Definition has_twin (m : manifest) : Prop :=
  exists p, p < 65536 /\ pv_bridge (mf_pivot m) = [BClient p None] /\ lenN (swallowed m) = 1 + 256 * p /\ utf8_valid (swallowed m) = true.

Lemma n2b_add a b : n2b (a + 256 * b) = n2b a.
Proof. unfold n2b. f_equal. f_equal. rewrite N.mul_comm, N.mod_add; [reflexivity|discriminate]. Qed.
Lemma le4_client p : p < 65536 -> le_enc 4 (1 + 256 * p) = x01 :: le_enc 2 p ++ [x00].
Proof.
  intros L. cbn [le_enc]. rewrite n2b_add. replace ((1 + 256 * p) / 256) with p by (rewrite N.mul_comm, N.div_add by discriminate; reflexivity).
  cbn [app]. replace (p / 256 / 256) with 0 by (rewrite N.div_div by discriminate; symmetry; apply N.div_small; exact L). reflexivity.
Qed.
Lemma twin_enc m : has_twin m -> enc c_manifest m = enc c_manifest_v0 (twin m).
Proof.
  intros (p & L & B & Len & _). rewrite v1_layout, v0_layout. cbn [twin mf0_namespace mf0_pivot pv0_hash pv0_restart].
  do 3 f_equal. unfold v1_rest, v0_rest. cbn [twin mf0_pivot pv0_args mf0_manifest_set mf0_share_set mf0_enclave mf0_patch_set].
  rewrite B. change (enc (c_vec c_bridge) [BClient p None]) with (le_enc 4 1 ++ (x01 :: le_enc 2 p ++ [x00]) ++ []).
  change (enc (c_vec c_string) [swallowed m]) with (le_enc 4 1 ++ (le_enc 4 (lenN (swallowed m)) ++ swallowed m) ++ []).
  rewrite Len, (le4_client p L). unfold swallowed. now rewrite !app_nil_r, <- !app_assoc.
Qed.
Lemma swallowed_long m a : pv_args (mf_pivot m) = [a] -> a <> swallowed m.
Proof.
  intros E H. apply (f_equal (@length byte)) in H. unfold swallowed in H. rewrite E in H.
  cbn [c_vec c_string enc map concat] in H. rewrite !app_length, !le_enc_length in H. lia.
Qed.
Lemma twin_wf m ap : has_twin m -> wf_envelope (VE1 (ManifestEnvelope m ap [])) = true -> wf_envelope (VE0 (ManifestEnvelopeV0 (twin m) ap [])) = true.
Proof.
  intros (p & L & _ & Len & U) W. cbn [wf_envelope js_envelope js_envelope_v0 jwf e1_manifest e0_manifest e1_manifest_approvals e0_manifest_approvals e1_share_approvals e0_share_approvals] in *.
  apply andb_true_iff in W as [W W3]. apply andb_true_iff in W as [W W2]. rewrite W2, W3.
  cbn [js_manifest js_manifest_v0 jwf twin mf0_namespace mf0_pivot mf0_manifest_set mf0_share_set mf0_enclave mf0_patch_set] in *.
  apply andb_true_iff in W as [W P1]. apply andb_true_iff in W as [W P2]. apply andb_true_iff in W as [W P3]. apply andb_true_iff in W as [W P4].
  apply andb_true_iff in W as [W P5]. change (jwf js_namespace (mf_namespace m) = true) in W.
  rewrite W, P1, P2, P3, P4. cbn [js_pivot js_pivot_v0 jwf pv0_hash pv0_args] in *.
  apply andb_true_iff in P5 as [P5 _]. apply andb_true_iff in P5 as [P5 _]. rewrite P5. cbn [js_vec jwf forallb js_string]. now rewrite U.
Qed.

(** ** C91, the exception: the same approvals and the same pivot boot the
    version-1 manifest and its version-0 twin, with the same answer in every
    state, whatever faults occur; what is then stored, and started, differs in
    the arguments, the debug flag and the bridges. *)
Theorem c91_refuted_an_approval_covers_the_arguments : forall Y m ap pv s,
  has_twin m -> wf_envelope (VE1 (ManifestEnvelope m ap [])) = true ->
  let e := VE1 (ManifestEnvelope m ap []) in let e' := VE0 (ManifestEnvelopeV0 (twin m) ap []) in
  let r := BootStandardJsonEnvelopeRequest e pv in let r' := BootStandardJsonEnvelopeRequest e' pv in
  wf_req r = true /\ wf_req r' = true
  /\ manifest_hash Y (env_manifest e) = manifest_hash Y (env_manifest e')
  /\ vm_args (env_manifest e) <> vm_args (env_manifest e') /\ vm_bridge (env_manifest e) <> vm_bridge (env_manifest e')
  /\ fst (handle Y r s) = fst (handle Y r' s)
  /\ (reach Y s -> is_error (fst (handle Y r s)) = false -> stored (st_fs (snd (handle Y r s))) e /\ stored (st_fs (snd (handle Y r' s))) e').
Proof.
  intros Y m ap pv s T W. cbv zeta. pose proof (twin_wf m ap T W) as W'.
  assert (MH : manifest_hash Y (VM1 m) = manifest_hash Y (VM0 (twin m))) by (unfold manifest_hash; cbn [manifest_preimage]; now rewrite (twin_enc m T)).
  split; [exact W|]. split; [exact W'|]. split; [exact MH|].
  split. { cbn [env_manifest e1_manifest e0_manifest vm_args twin mf0_pivot pv0_args]. intros E. exact (swallowed_long m _ E eq_refl). }
  split. { destruct T as (p & _ & B & _). cbn [env_manifest e1_manifest e0_manifest vm_bridge]. rewrite B. discriminate. }
  assert (F : fst (handle Y (BootStandardJsonEnvelopeRequest (VE1 (ManifestEnvelope m ap [])) pv) s)
            = fst (handle Y (BootStandardJsonEnvelopeRequest (VE0 (ManifestEnvelopeV0 (twin m) ap [])) pv) s)).
  { destruct (phase_eqb (st_phase s) WaitingForBootInstruction) eqn:P.
    - apply phase_eqb_eq in P. rewrite (handle_boot (BootStandardJsonEnvelopeRequest (VE1 (ManifestEnvelope m ap [])) pv) _ _ s P eq_refl),
        (handle_boot (BootStandardJsonEnvelopeRequest (VE0 (ManifestEnvelopeV0 (twin m) ap [])) pv) _ _ s P eq_refl).
      destruct (together_boot (VE1 (ManifestEnvelope m ap [])) (VE0 (ManifestEnvelopeV0 (twin m) ap [])) pv s W W') as [F _].
      + unfold check_approvals. cbn [env_manifest e1_manifest e0_manifest vm_manifest_set twin mf0_manifest_set env_manifest_approvals e1_manifest_approvals e0_manifest_approvals].
        now rewrite MH.
      + reflexivity.
      + reflexivity.
      + exact MH.
      + destruct (put_manifest_and_pivot Y (VE1 (ManifestEnvelope m ap [])) pv s) as [[n|x] t], (put_manifest_and_pivot Y (VE0 (ManifestEnvelopeV0 (twin m) ap [])) pv s) as [[n'|x'] t'];
          cbn [fst] in *; try discriminate F; injection F as <-; reflexivity.
    - unfold handle. destruct (st_phase s); try discriminate P; reflexivity. }
  split; [exact F|]. intros R N. pose proof N as N'. rewrite F in N'.
  split.
  - exact (proj1 (proj2 (proj2 (proj2 (c07_accepted_boot Y (BootStandardJsonEnvelopeRequest (VE1 (ManifestEnvelope m ap [])) pv) _ pv s _ _ R W eq_refl (surjective_pairing _) N))))).
  - exact (proj1 (proj2 (proj2 (proj2 (c07_accepted_boot Y (BootStandardJsonEnvelopeRequest (VE0 (ManifestEnvelopeV0 (twin m) ap [])) pv) _ pv s _ _ R W' eq_refl (surjective_pairing _) N'))))).
Qed.
Print Assumptions c91_refuted_an_approval_covers_the_arguments.

(** A Borsh envelope never has such a twin: it would be refused. *)
Theorem c91_a_borsh_envelope_has_no_twin : forall b e r, dec_versioned_envelope b = Some (e, r) ->
  forall m', expressible m' -> ~ cross_version (env_manifest e) m'.
Proof.
  intros b e r D m' X' (x & y & E & H). apply borsh_envelope_exclusive in D as [_ D].
  destruct e as [e|[a ma sa]|[a ma sa]]; cbn [env_manifest e1_manifest e0_manifest] in *; [contradiction| |]; destruct D as [[W ->] D]; apply D.
  - destruct H as [[H1 H2]|[H1 H2]]; [|discriminate H1]. injection H1 as <-. subst m'. exists (ManifestEnvelopeV0 y ma sa).
    cbn [c_envelope c_envelope_v0 c_iso wf enc c_pair e1_manifest e1_manifest_approvals e1_share_approvals e0_manifest e0_manifest_approvals e0_share_approvals fst snd] in *.
    apply andb_true_iff in W as [_ W]. cbn [expressible] in X'. rewrite X', W. split; [reflexivity|]. now rewrite E.
  - destruct H as [[H1 H2]|[H1 H2]]; [discriminate H1|]. injection H1 as <-. subst m'. exists (ManifestEnvelope x ma sa).
    cbn [c_envelope c_envelope_v0 c_iso wf enc c_pair e1_manifest e1_manifest_approvals e1_share_approvals e0_manifest e0_manifest_approvals e0_share_approvals fst snd] in *.
    apply andb_true_iff in W as [_ W]. cbn [expressible] in X'. rewrite X', W. split; [reflexivity|]. now rewrite E.
Qed.
Print Assumptions c91_a_borsh_envelope_has_no_twin.

(** Non-vacuity: a version-1 manifest with port 1 and two arguments of 120 and 124 bytes, booted by carol's and alice's approvals, and its twin. *)
Definition bind_manifest : manifest :=
  Manifest (Namespace (bs "ns") 7 (pub_of seed_q)) (PivotConfig (toy_hash 32 pivot) Always [BClient 1 None] false [repeat "q"%byte 120; repeat "r"%byte 124])
    mset sset ex_nitro (PatchSet 0 []).
Definition bind_hash : bytes := manifest_hash (toy calm 0) (VM1 bind_manifest).
Definition bind_approvals : list approval := [Approval (toy_sign seed_c bind_hash) carol; Approval (toy_sign seed_a bind_hash) alice].
Example c91_nontrivial : has_twin bind_manifest /\ wf_envelope (VE1 (ManifestEnvelope bind_manifest bind_approvals [])) = true
  /\ reach T (start calm 0)
  /\ is_error (fst (handle T (BootStandardJsonEnvelopeRequest (VE1 (ManifestEnvelope bind_manifest bind_approvals [])) pivot) (start calm 0))) = false
  /\ is_error (fst (handle T (BootStandardJsonEnvelopeRequest (VE0 (ManifestEnvelopeV0 (twin bind_manifest) bind_approvals [])) pivot) (start calm 0))) = false
  /\ expressible (VM1 bind_manifest) /\ expressible (VM0 (twin bind_manifest))
  /\ (exists e, dec_versioned_envelope (enc c_envelope ex_envelope) = Some (e, [])).
Proof.
  split. { exists 1. split; [reflexivity|]. split; [reflexivity|]. split; vm_compute; reflexivity. }
  split; [vm_compute; reflexivity|]. split; [apply start_reach|].
  split; [vm_compute; reflexivity|]. split; [vm_compute; reflexivity|]. split; [vm_compute; reflexivity|]. split; [vm_compute; reflexivity|].
  eexists. vm_compute. reflexivity.
Qed.
