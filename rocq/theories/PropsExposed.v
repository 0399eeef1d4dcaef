(** C18: every accepted boot, and every accepted provision request, passes through every prefix of the file it writes in place. *)
From Verif Require Import Base Hex Types TypesJson Msg World Run FsProofs Attest Services ServiceProofs BootProofs State SpecProtocol HandleProofs Reach Invariant ProtocolProofs EffectProofs CalmProofs HistoryProofs
  CodecExamples Toy ToyRuns PropsDocs.
Local Open Scope N_scope.
Section Exposed.
  Context {Y : sys}.
  Local Notation st := (st Y).
  Local Notation entry := (entry Y).
  Ltac keep_tac :=
    repeat first [ match goal with |- forall _, _ => intro end | match goal with |- keeps _ (bind _ _) => apply kp_bind end | apply kp_take
                 | apply kp_quiet, si_quietly, si_get_manifest | apply kp_quiet, si_quietly, si_get_eph
                 | apply kp_quiet, q_lift | apply kp_quiet, q_guard | apply kp_quiet, q_ret | apply kp_quiet, q_err
                 | apply kp_quiet, q_gets
                 | apply kp_war; discriminate | apply kp_rotate; discriminate | apply kp_mutate; discriminate
                 | apply kp_modify; reflexivity
                 | match goal with |- keeps _ (match ?x with _ => _ end) => destruct x end
                 | match goal with |- keeps _ (let x := _ in _) => cbv zeta end ].
  Definition any (x : entry) : Prop := True.
  Definition passes {A} (P : fsys -> Prop) (m : M Y A) : Prop :=
    forall s a s', m s = (Ok a, s') -> exists n2 x n1, st_trace s' = n2 ++ x :: n1 ++ st_trace s /\ P (en_fs x).
  Lemma pa_now {A B} P (m : M Y A) (f : A -> M Y B) : passes P m -> (forall a, emits any (f a)) -> passes P (bind m f).
  Proof.
    intros H K s b s' E. apply bind_ok in E as (a & s1 & E1 & E2). destruct (H _ _ _ E1) as (n2 & x & n1 & T & Px).
    destruct (K a _ _ _ E2) as (l & T2 & _). exists (l ++ n2), x, n1. split; [rewrite T2, T, <- app_assoc; reflexivity|exact Px].
  Qed.
  Lemma pa_later {A B} P (m : M Y A) (f : A -> M Y B) : emits any m -> (forall a, passes P (f a)) -> passes P (bind m f).
  Proof.
    intros H K s b s' E. apply bind_ok in E as (a & s1 & E1 & E2). destruct (H _ _ _ E1) as (l & T & _).
    destruct (K a _ _ _ E2) as (n2 & x & n1 & T2 & Px). exists n2, x, (n1 ++ l). split; [rewrite T2, T, <- app_assoc; reflexivity|exact Px].
  Qed.
  Lemma steps_pass p m d : forall k i (s : st) j, (i <= j <= i + k)%nat ->
    exists n2 x n1, st_trace (write_steps Y p m d k i s) = n2 ++ x :: n1 ++ st_trace s /\ en_fs x p = Some (firstn j d, m).
  Proof.
    assert (U : forall f v, upd f p v p = v) by (intros f v; unfold upd; destruct (path_eqb_spec p p); [reflexivity|contradiction]).
    induction k as [|k IH]; intros i s j L; cbn [write_steps].
    - assert (j = i) as -> by lia. eexists [], _, []. split; [reflexivity|]. cbn [en_fs]. apply U.
    - destruct (Nat.eq_dec j i) as [->|N].
      + destruct (write_steps_other p m d k (S i) (eff_fs (EvWrite p) (upd (st_fs s) p (Some (firstn i d, m))) s)) as (l & T & _).
        eexists l, _, []. split; [exact T|]. cbn [en_fs]. apply U.
      + destruct (IH (S i) (eff_fs (EvWrite p) (upd (st_fs s) p (Some (firstn i d, m))) s) j) as (n2 & x & n1 & T & X); [lia|].
        eexists n2, x, (n1 ++ [_]). split; [rewrite T, <- app_assoc; reflexivity|exact X].
  Qed.
  Lemma pa_write q d i e : (i <= length d)%nat ->
    passes (fun f => content f q = Some (firstn i d)) (bind (op_write Y (Main q) d) (fun w => guard w e)).
  Proof.
    intros L s a s' H. apply bind_ok in H as (w & s1 & E1 & E2). apply guard_inv in E2 as [-> [[-> _]|[_ X]]]; [|discriminate X].
    unfold op_write in E1. cbv zeta in E1. destruct (s_io Y (st_ioc s)); inversion E1; subst.
    destruct (steps_pass (Main q) (file_mode (st_fs s) (Main q)) d (length d) 0 (tick_io s) i) as (n2 & x & n1 & T & X); [lia|].
    exists n2, x, n1. split; [exact T|]. unfold content. now rewrite X.
  Qed.
  Lemma pa_assoc {A B C} P (m : M Y A) (f : A -> M Y B) (g : B -> M Y C) : passes P (bind (bind m f) g) -> passes P (bind m (fun a => bind (f a) g)).
  Proof.
    intros H s c s' E. apply (H s c s'). unfold bind in *. destruct (m s) as [[a|e] s1]; exact E.
  Qed.
  Lemma em_any {A} (m : M Y A) : emits other m -> emits any m.
  Proof. apply em_weaken. intros x _. exact I. Qed.
  Lemma em_modify_any g : (forall s, st_trace (g s) = st_trace s) -> emits any (modify g). Proof. apply em_modify. Qed.
  Lemma em_attest a b : emits any (post_boot_attestation Y a b).
  Proof. unfold post_boot_attestation. apply em_nsm. intros; exact I. Qed.
  Lemma pa_boot e pv i : (i <= length pv)%nat -> passes (fun f => content f Pivot = Some (firstn i pv)) (put_manifest_and_pivot Y e pv).
  Proof.
    intros L. unfold put_manifest_and_pivot.
    apply pa_later; [apply em_lift|intros _]. apply pa_later; [apply em_guard|intros _]. cbv zeta. apply pa_later; [apply em_guard|intros _].
    apply pa_later; [apply em_any, em_generate|intros [setup sk]]. apply pa_later; [apply em_any, em_generate|intros [live lk]].
    apply pa_later; [apply em_any, em_lock|intros _]. apply pa_later; [apply em_modify; reflexivity|intros _].
    apply pa_later; [apply em_any, em_war|intros _].
    apply pa_now.
    - unfold put_pivot. apply pa_later; [apply em_exists|intros ex]. apply pa_later; [apply em_guard|intros _].
      apply pa_assoc. apply pa_now; [now apply pa_write|]. intros _. apply em_bind; [apply em_any, em_chmod|intros c; apply em_guard].
    - intros _. apply em_bind; [apply em_any, em_put_env|intros _; apply em_attest].
  Qed.
  Lemma pa_mutate g s a s' : mutate_manifest_envelope Y g s = (Ok a, s') ->
    exists b, content (st_fs s') Manif = Some b /\ forall i, (i <= length b)%nat ->
      exists n2 x n1, st_trace s' = n2 ++ x :: n1 ++ st_trace s /\ content (en_fs x) Manif = Some (firstn i b).
  Proof.
    intros H. unfold mutate_manifest_envelope in H. apply bind_ok in H as (e & s1 & E1 & H). destruct (em_env _ _ _ E1) as (l1 & T1 & _).
    apply bind_ok in H as (c & s2 & E2 & H). destruct (em_chmod _ _ _ _ _ E2) as (l2 & T2 & _).
    apply bind_ok in H as (u & s3 & E3 & H). apply guard_inv in E3 as [-> _].
    destruct (envelope_to_storage_vec (g e)) as [b|]; [|discriminate H].
    apply bind_ok in H as (w & s4 & E4 & H). apply bind_ok in H as (u' & s5 & E5 & H). pose proof E5 as G. apply guard_inv in G as [-> [[-> _]|[_ X]]]; [|discriminate X].
    apply bind_ok in H as (c' & s6 & E6 & H). apply guard_inv in H as [-> [[-> _]|[_ X]]]; [|discriminate X].
    destruct (em_chmod _ _ _ _ _ E6) as (l6 & T6 & _).
    exists b. split.
    - apply op_write_spec in E4 as (_ & b' & Eb & Fb). injection Eb as <-. specialize (Fb eq_refl).
      unfold op_chmod in E6. cbv zeta in E6. rewrite Fb in E6. destruct (s_io Y (st_ioc s4)); inversion E6; subst.
      unfold content. cbn [eff_fs st_fs]. unfold upd. destruct (path_eqb_spec (Main Manif) (Main Manif)); [reflexivity|contradiction].
    - intros i L. destruct (pa_write Manif b i FailedToPutManifestEnvelope L s2 u' s4) as (n2 & x & n1 & T & X).
      { unfold bind. rewrite E4. exact E5. }
      exists (l6 ++ n2), x, (n1 ++ l2 ++ l1). split; [|exact X]. rewrite T6, T, T2, T1, <- !app_assoc. reflexivity.
  Qed.
  Lemma provision_exposes sh ap (s : st) a s' : provision Y sh ap s = (Ok a, s') ->
    exists b, content (st_fs s') Manif = Some b /\ forall i, (i <= length b)%nat ->
      exists n2 x n1, st_trace s' = n2 ++ x :: n1 ++ st_trace s /\ content (en_fs x) Manif = Some (firstn i b).
  Proof.
    intros H. unfold provision in H. apply bind_ok in H as (e & s1 & E1 & H). destruct (em_env _ _ _ E1) as (l1 & T1 & _). cbv zeta in H.
    apply bind_ok in H as (u & s2 & E2 & H). apply lift_inv in E2 as [_ ->].
    apply bind_ok in H as (u2 & s2' & E3 & H). apply guard_inv in E3 as [-> _].
    apply bind_ok in H as (u3 & s3 & E4 & H). destruct (pa_mutate _ _ _ _ E4) as (b & C & P).
    match type of H with ?m s3 = _ => assert (K : keeps (Main Manif) m); [|assert (EM : emits any m)] end.
    { unfold add_share, build_secret, put_quorum_key. keep_tac. }
    { apply em_any. repeat first [match goal with |- emits _ (bind _ _) => apply em_bind; [|intros ?] end | apply em_ret | apply em_err | apply em_lift | apply em_guard | apply em_gets | apply em_eph | apply em_rotate | apply em_war
        | apply em_modify; intros ?; reflexivity | match goal with |- emits _ (match ?x with _ => _ end) => destruct x end | unfold add_share, build_secret, put_quorum_key ].
      all: try (intros s0 r s0' H0; unfold take_pending in H0; destruct (st_pending s0); inversion H0; subst; exists []; (split; [reflexivity|constructor])). }
    exists b. split; [unfold content in *; rewrite (K _ _ _ H); exact C|]. intros i L. destruct (P i L) as (n2 & x & n1 & T & X).
    destruct (EM _ _ _ H) as (l & Tl & _). exists (l ++ n2), x, (n1 ++ l1). split; [|exact X]. rewrite Tl, T, T1, <- !app_assoc. reflexivity.
  Qed.
End Exposed.

(** Every accepted boot passes through every prefix of the pivot at its final path:
    a crash can leave any of them. *)
Theorem c18_every_boot_exposes_every_prefix : forall Y r e pv (s : st Y) a s' i,
  boot_of r = Some (e, pv) -> handle Y r s = (a, s') -> is_error a = false -> (i <= length pv)%nat ->
  exists newer x between, st_trace s' = newer ++ x :: between ++ st_trace s /\ content (en_fs x) Pivot = Some (firstn i pv).
Proof.
  intros Y r e pv s a s' i B H N L. destruct (boot_accepted r e pv s a s' B H N) as (P & _).
  rewrite (handle_boot r e pv s P B) in H. destruct (put_manifest_and_pivot Y e pv s) as [[n|x] s1] eqn:E; inversion H; subst; [|discriminate N].
  exact (pa_boot e pv i L s n s1 E).
Qed.
Print Assumptions c18_every_boot_exposes_every_prefix.

(** Every accepted provision request passes through every prefix of the new manifest
    file, the empty one among them, which is no manifest. *)
Theorem c18_every_provision_exposes_a_broken_manifest : forall Y sh ap (s : st Y) ok s',
  handle Y (ProvisionRequest sh ap) s = (ProvisionResponse ok, s') ->
  exists b, content (st_fs s') Manif = Some b
    /\ (forall i, (i <= length b)%nat -> exists newer x between, st_trace s' = newer ++ x :: between ++ st_trace s
          /\ content (en_fs x) Manif = Some (firstn i b))
    /\ exists newer x between, st_trace s' = newer ++ x :: between ++ st_trace s /\ forall e, ~ stored (en_fs x) e.
Proof.
  intros Y sh ap s ok s' H.
  destruct (handle_cases (ProvisionRequest sh ap) s) as [[_ H1]|[(W & V & Q)|[(set & dr & X & P)|[(e1 & pv1 & B1 & P)|[(sh' & ap' & X & P)|(c & g & X & P)]]]]]; try discriminate.
  - rewrite H1 in H. discriminate H.
  - rewrite (handle_provision sh ap s P) in H.
    destruct (provision Y sh ap s) as [[[]|x] s1] eqn:E; inversion H; subst; destruct (provision_exposes _ _ _ _ _ E) as (b & C & A); exists b; (split; [exact C|]); (split; [exact A|]);
      destruct (A 0%nat (Nat.le_0_l _)) as (n2 & x & n1 & T & Z); exists n2, x, n1; (split; [exact T|]); intros e (c & C' & D); rewrite Z in C'; injection C' as <-; discriminate D.
Qed.
Print Assumptions c18_every_provision_exposes_a_broken_manifest.

Example c18_nontrivial : is_error (fst (handle T boot_std (start calm 0))) = false /\ boot_of boot_std = Some (te, pivot) /\ length pivot = 7%nat
  /\ fst (handle T (prov1 0) s_booted) = ProvisionResponse false /\ fst (handle T (prov2 0) s_waiting) = ProvisionResponse true.
Proof. split; [vm_compute; reflexivity|]. split; [reflexivity|]. split; [reflexivity|]. split; vm_compute; reflexivity. Qed.

(** ** C17: permission bits *)
(** Every successful publication stands, between its rename and its chmod, at its
    final path with the permission bits of the temporary file: 0644 if that file was
    new.  No published key is ever owner-only. *)
Theorem c17_every_publication_readable : forall Y f buf e (s : st Y) s',
  write_as_read_only Y f buf e s = (Ok tt, s') -> st_fs s (Tmp f) = None ->
  st_fs s' (Main f) = Some (buf, 292)
  /\ exists newer x older, st_trace s' = newer ++ x :: older ++ st_trace s /\ en_fs x (Main f) = Some (buf, 420).
Proof.
  intros Y f buf e s s' H Z.
  assert (U : forall g p v, upd g p v p = v) by (intros g p v; unfold upd; destruct (path_eqb_spec p p); [reflexivity|contradiction]).
  unfold write_as_read_only in H. apply bind_ok in H as (ex & s1 & E1 & H). unfold op_exists in E1.
  apply bind_ok in H as (u & s2 & E2 & H). apply guard_inv in E2 as [-> _].
  assert (Q : st_fs s1 = st_fs s /\ st_trace s1 = st_trace s) by (inversion E1; subst; split; reflexivity). destruct Q as [Q1 Q2].
  apply bind_ok in H as (w & s3 & E3 & H). apply bind_ok in H as (u' & s4 & E4 & H). apply guard_inv in E4 as [-> [[-> _]|[_ X]]]; [|discriminate X].
  unfold op_write in E3. cbv zeta in E3. destruct (s_io Y (st_ioc s1)) eqn:IO; inversion E3; subst. clear E3.
  rewrite Q1 in H. unfold file_mode in H. rewrite Z in H.
  set (sw := write_steps Y (Tmp f) 420 buf (length buf) 0 (tick_io s1)) in *.
  assert (F : st_fs sw (Tmp f) = Some (buf, 420)).
  { subst sw. assert (G : forall k i (t : st Y), st_fs (write_steps Y (Tmp f) 420 buf k i t) (Tmp f) = Some (firstn (i + k) buf, 420)).
    { induction k as [|k IH]; intros i t; cbn [write_steps]; [cbn [eff_fs st_fs]; rewrite U; now rewrite Nat.add_0_r|rewrite IH; do 3 f_equal; lia]. }
    rewrite G. cbn [Nat.add]. now rewrite firstn_all. }
  assert (TW : exists l, st_trace sw = l ++ st_trace s).
  { destruct (write_steps_other (Tmp f) 420 buf (length buf) 0 (tick_io s1)) as (l & T & _). exists l. subst sw. rewrite T. cbn [tick_io st_trace]. now rewrite Q2. }
  destruct TW as (l & TW). clearbody sw.
  apply bind_ok in H as (r & s5 & E5 & H). apply bind_ok in H as (u2 & s6 & E6 & H). apply guard_inv in E6 as [-> [[-> _]|[_ X]]]; [|discriminate X].
  unfold op_rename in E5. cbv zeta in E5. rewrite F in E5. destruct (s_io Y (st_ioc sw)); inversion E5; subst. clear E5.
  apply bind_ok in H as (c & s7 & E7 & H). apply guard_inv in H as [-> [[-> _]|[_ X]]]; [|discriminate X].
  unfold op_chmod in E7. cbv zeta in E7.
  match type of E7 with context [st_fs (eff_fs ?ev ?g ?t)] => set (sr := eff_fs ev g t) in * end.
  assert (R : st_fs sr (Main f) = Some (buf, 420)).
  { subst sr. cbn [eff_fs st_fs]. unfold upd at 1. destruct (path_eqb_spec (Tmp f) (Main f)) as [D|_]; [discriminate D|apply U]. }
  rewrite R in E7. destruct (s_io Y (st_ioc sr)); inversion E7; subst. clear E7. split; [cbn [eff_fs st_fs]; apply U|].
  eexists [_], _, l. split; [cbn [eff_fs st_trace tick_io app]; subst sr; cbn [eff_fs st_trace tick_io]; rewrite TW; reflexivity|]. exact R.
Qed.
Print Assumptions c17_every_publication_readable.

Example c17_publication_nontrivial : let s := start calm 0 in
  fst (write_as_read_only T Quorum (bs "key") IOError s) = Ok tt /\ st_fs s (Tmp Quorum) = None.
Proof. split; vm_compute; reflexivity. Qed.
