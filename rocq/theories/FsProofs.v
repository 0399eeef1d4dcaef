(** What each file-publishing operation can leave behind, at every point. *)
From Verif Require Import Base Utf8 Hex HexProofs Types TypesJson Msg World Run.
Local Open Scope m_scope.

Definition fs_event (ev : event) : bool :=
  match ev with EvWrite _ | EvRename _ _ | EvChmod _ _ | EvRemove _ => true | EvNsm _ _ | EvTime => false end.

Lemma upd_same f p v : upd f p v p = v.
Proof. unfold upd. destruct (path_eqb_spec p p); congruence. Qed.
Lemma upd_other f p v q : q <> p -> upd f p v q = f q.
Proof. unfold upd. intros H. destruct (path_eqb_spec p q); congruence. Qed.

Arguments upd : simpl never.

Section Fs.
  Context {Y : sys}.
  Local Notation st := (st Y).
  Local Notation entry := (entry Y).

  Definition others (ps : list path) (f0 : fsys) (f : fsys) : Prop := forall q, ~ In q ps -> f q = f0 q.
  Lemma others_refl ps f : others ps f f. Proof. intros q _; reflexivity. Qed.
  Lemma others_trans ps f g h : others ps f g -> others ps g h -> others ps f h.
  Proof. intros A B q Hq. now rewrite B, A. Qed.
  Lemma others_weaken ps qs f g : incl ps qs -> others ps f g -> others qs f g.
  Proof. intros I A q Hq. apply A. intros X; auto. Qed.
  Lemma others_upd f p v : others [p] f (upd f p v).
  Proof. intros q Hq. apply upd_other. intros ->. apply Hq. now left. Qed.

  (** A snapshot inside an in-place write of [data] to [p]. *)
  Definition wr (p : path) (data : bytes) (f0 : fsys) (e : entry) : Prop :=
    en_ev e = EvWrite p /\ others [p] f0 (en_fs e) /\ exists i m, en_fs e p = Some (firstn i data, m).

  Lemma write_steps_spec p m data k : forall i (s : st),
    fx (wr p data (st_fs s)) s (write_steps Y p m data k i s)
    /\ st_fs (write_steps Y p m data k i s) p = Some (firstn (i + k) data, m)
    /\ others [p] (st_fs s) (st_fs (write_steps Y p m data k i s)).
  Proof.
    induction k as [|k IH]; intros i s; cbn [write_steps].
    - rewrite Nat.add_0_r. cbn. rewrite upd_same. split; [|split; [reflexivity|apply others_upd]].
      constructor; auto. eexists [_]. split; [reflexivity|]. split; [|reflexivity].
      constructor; [|constructor]. split; [reflexivity|]. split; [apply others_upd|].
      cbn. rewrite upd_same. eauto.
    - set (s1 := eff_fs _ _ s). destruct (IH (S i) s1) as (A & B & C).
      assert (O : others [p] (st_fs s) (st_fs s1)) by apply others_upd.
      split; [|split].
      + eapply fx_trans with (s1 := s1).
        * constructor; auto. eexists [_]. split; [reflexivity|]. split; [|reflexivity].
          constructor; [|constructor]. split; [reflexivity|]. split; [apply others_upd|].
          cbn. rewrite upd_same. eauto.
        * eapply fx_weaken; [|exact A]. intros e (E1 & E2 & E3). split; [auto|]. split; [|auto].
          eapply others_trans; eauto.
      + rewrite B. f_equal. f_equal. f_equal. lia.
      + eapply others_trans; eauto.
  Qed.

  Lemma tick_fx C (s : st) : fx C s (tick_io s).
  Proof. constructor; auto. exists []. auto. Qed.

  Lemma op_write_spec p data (s : st) r s' : op_write Y p data s = (r, s') ->
    fx (wr p data (st_fs s)) s s' /\ exists b, r = Ok b /\
    (b = true -> st_fs s' p = Some (data, file_mode (st_fs s) p)).
  Proof.
    unfold op_write. set (s1 := tick_io s).
    destruct (s_io Y (st_ioc s)); intros H; inversion H; subst; clear H.
    - destruct (write_steps_spec p (file_mode (st_fs s) p) data (length data) 0 s1) as (A & B & _).
      split; [eapply fx_trans; [apply tick_fx|exact A]|]. eexists. split; [reflexivity|]. intros _.
      rewrite B. cbn [Nat.add]. now rewrite firstn_all.
    - split; [apply tick_fx|]. eexists. split; [reflexivity|]. discriminate.
    - destruct (write_steps_spec p (file_mode (st_fs s) p) data (Nat.min k (length data)) 0 s1) as (A & _ & _).
      split; [eapply fx_trans; [apply tick_fx|exact A]|]. eexists. split; [reflexivity|]. discriminate.
  Qed.

  Lemma op_rename_spec a b (s : st) r s' : op_rename Y a b s = (r, s') ->
    (r = Ok false /\ s' = tick_io s) \/
    (exists v, r = Ok true /\ st_fs s a = Some v /\
       s' = eff_fs (EvRename a b) (upd (upd (st_fs s) b (Some v)) a None) (tick_io s)).
  Proof.
    unfold op_rename. destruct (s_io Y (st_ioc s)); destruct (st_fs s a) as [v|]; intros H; inversion H; subst;
      auto. right. eauto.
  Qed.
  Lemma op_chmod_spec p m (s : st) r s' : op_chmod Y p m s = (r, s') ->
    (r = Ok false /\ s' = tick_io s) \/
    (exists c m0, r = Ok true /\ st_fs s p = Some (c, m0) /\
       s' = eff_fs (EvChmod p m) (upd (st_fs s) p (Some (c, m))) (tick_io s)).
  Proof.
    unfold op_chmod. destruct (s_io Y (st_ioc s)); destruct (st_fs s p) as [[c m0]|]; intros H; inversion H; subst;
      auto. right. eauto 6.
  Qed.
  Lemma op_remove_spec p (s : st) r s' : op_remove Y p s = (r, s') ->
    (r = Ok false /\ s' = tick_io s) \/
    (exists v, r = Ok true /\ st_fs s p = Some v /\
       s' = eff_fs (EvRemove p) (upd (st_fs s) p None) (tick_io s)).
  Proof.
    unfold op_remove. destruct (s_io Y (st_ioc s)); destruct (st_fs s p) as [v|]; intros H; inversion H; subst;
      auto. right. eauto.
  Qed.
  Lemma op_read_ok p (s : st) r s' : op_read Y p s = (r, s') ->
    exists o, r = Ok o /\ (o = None \/ o = option_map fst (st_fs s p)).
  Proof. unfold op_read. destruct (s_io Y (st_ioc s)); intros H; inversion H; subst; eauto. Qed.

  Lemma eff_fx (C : entry -> Prop) ev f (s : st) : C (Entry ev f (st_nsm s)) -> fx C s (eff_fs ev f s).
  Proof. intros H. constructor; auto. eexists [_]. split; [reflexivity|]. split; auto. Qed.

  (** write_as_read_only: a snapshot taken while [buf] is being published in an empty slot. *)
  Definition wC (f : slot) (buf : bytes) (f0 : fsys) (e : entry) : Prop :=
    fs_event (en_ev e) = true /\ others [Main f; Tmp f] f0 (en_fs e) /\
    (en_fs e (Main f) = None \/ exists m, en_fs e (Main f) = Some (buf, m)).

  (** Before / after the destination becomes visible. *)
  Definition wC0 (f : slot) (f0 : fsys) (e : entry) : Prop :=
    fs_event (en_ev e) = true /\ others [Main f; Tmp f] f0 (en_fs e) /\ en_fs e (Main f) = None.
  Definition wC1 (f : slot) (buf : bytes) (f0 : fsys) (e : entry) : Prop :=
    fs_event (en_ev e) = true /\ others [Main f; Tmp f] f0 (en_fs e) /\ exists m, en_fs e (Main f) = Some (buf, m).

  Lemma war_split f buf er (s : st) r s' : write_as_read_only Y f buf er s = (r, s') ->
    match st_fs s (Main f) with
    | Some _ => r = Err CannotModifyPostPivotStatic /\ s' = s
    | None => (r = Ok tt -> st_fs s' (Main f) = Some (buf, 292%N))
              /\ exists s1, fx (wC0 f (st_fs s)) s s1 /\ fx (wC1 f buf (st_fs s)) s1 s'
    end.
  Proof.
    intros H. unfold write_as_read_only, op_exists in H.
    mstep H; apply gets_inv in E as [E E']; [|discriminate E]. inversion E; subst; clear E.
    destruct (st_fs s (Main f)) as [v|] eqn:F0; cbn [is_some negb] in H.
    { mstep H; apply guard_inv in E as [-> [[? ?]|[? ?]]]; try discriminate. subst. split; congruence. }
    mstep H; apply guard_inv in E as [-> [[? ?]|[? ?]]]; try discriminate.
    (* the write to the temporary file *)
    mstep H; apply op_write_spec in E as (W & b & Eb & Hb); [|discriminate Eb].
    inversion Eb; subst; clear Eb.
    assert (W' : fx (wC0 f (st_fs s)) s s0).
    { eapply fx_weaken; [|exact W]. intros e (V1 & V2 & V3). split; [now rewrite V1|]. split.
      - eapply others_weaken; [|exact V2]. intros q [<-|[]]; right; now left.
      - rewrite V2; [exact F0|]. intros [Q|[]]; discriminate Q. }
    assert (O1 : others [Main f; Tmp f] (st_fs s) (st_fs s0)).
    { apply (gx_fs (fun g => others [Main f; Tmp f] (st_fs s) g) _ _ _ (fx_gx _ _ _ W')).
      - apply others_refl.
      - intros e (_ & X & _); exact X. }
    mstep H; apply guard_inv in E as [-> [[? ?]|[? ?]]]; try discriminate; subst b.
    2:{ subst. split; [discriminate|]. exists s0. split; [exact W'|apply fx_refl]. }
    specialize (Hb eq_refl).
    (* the rename *)
    mstep H; apply op_rename_spec in E as [(Eb & ->)|(v & Eb & Fa & ->)]; try discriminate Eb;
      inversion Eb; subst; clear Eb.
    { mstep H; apply guard_inv in E as [-> [[? ?]|[? ?]]]; try discriminate. subst.
      split; [discriminate|]. exists s0. split; [exact W'|apply tick_fx]. }
    mstep H; apply guard_inv in E as [-> [[? ?]|[? ?]]]; try discriminate.
    rewrite Hb in Fa. inversion Fa; subst v; clear Fa.
    set (s2 := eff_fs _ _ (tick_io s0)) in *.
    assert (F2 : st_fs s2 (Main f) = Some (buf, file_mode (st_fs s) (Tmp f))).
    { cbn. rewrite upd_other by discriminate. now rewrite upd_same. }
    assert (O2 : others [Main f; Tmp f] (st_fs s) (st_fs s2)).
    { intros q Hq. cbn. rewrite upd_other, upd_other; [now apply O1| |]; intros ->; apply Hq; cbn; auto. }
    assert (W2 : fx (wC1 f buf (st_fs s)) s0 s2).
    { eapply fx_trans; [apply tick_fx|]. apply eff_fx.
      split; [reflexivity|]. split; [exact O2|]. exists (file_mode (st_fs s) (Tmp f)). exact F2. }
    (* the chmod *)
    mstep H; apply op_chmod_spec in E as [(Eb & ->)|(c & m0 & Eb & Fc & ->)]; try discriminate Eb;
      inversion Eb; subst; clear Eb.
    { apply guard_inv in H as [-> [[? ?]|[? ?]]]; try discriminate. subst.
      split; [discriminate|]. exists s0. split; [exact W'|]. eapply fx_trans; [exact W2|apply tick_fx]. }
    apply guard_inv in H as [-> [[_ ->]|[? ?]]]; try discriminate.
    rewrite F2 in Fc. inversion Fc; subst c m0; clear Fc.
    split.
    - intros _. cbn. now rewrite upd_same.
    - exists s0. split; [exact W'|].
      eapply fx_trans; [exact W2|]. eapply fx_trans; [apply tick_fx|]. apply eff_fx.
      split; [reflexivity|]. split.
      + intros q Hq. cbn [en_fs]. rewrite upd_other; [now apply O2|]. intros ->; apply Hq; cbn; auto.
      + eexists. cbn [en_fs]. now rewrite upd_same.
  Qed.

  Lemma war_spec f buf er (s : st) r s' : write_as_read_only Y f buf er s = (r, s') ->
    match st_fs s (Main f) with
    | Some _ => r = Err CannotModifyPostPivotStatic /\ s' = s
    | None => fx (wC f buf (st_fs s)) s s'
              /\ (r = Ok tt -> st_fs s' (Main f) = Some (buf, 292%N))
              /\ others [Main f; Tmp f] (st_fs s) (st_fs s')
              /\ (st_fs s' (Main f) = None \/ exists m, st_fs s' (Main f) = Some (buf, m))
    end.
  Proof.
    intros H. apply war_split in H. destruct (st_fs s (Main f)) as [v|] eqn:F0; [exact H|].
    destruct H as (Hr & s1 & W1 & W2).
    assert (G1 : fx (wC f buf (st_fs s)) s s').
    { eapply fx_trans.
      - eapply fx_weaken; [|exact W1]. intros e (X1 & X2 & X3). split; [auto|]. split; auto.
      - eapply fx_weaken; [|exact W2]. intros e (X1 & X2 & X3). split; [auto|]. split; auto. }
    split; [auto|]. split; [auto|]. split.
    - apply (gx_fs (fun g => others [Main f; Tmp f] (st_fs s) g) _ _ _ (fx_gx _ _ _ G1)).
      + apply others_refl.
      + intros e (_ & X & _); exact X.
    - apply (gx_fs (fun g => g (Main f) = None \/ exists m, g (Main f) = Some (buf, m)) _ _ _ (fx_gx _ _ _ G1)).
      + now left.
      + intros e (_ & _ & X); exact X.
  Qed.

  (** put_pivot writes in place. *)
  Definition pC (pv : bytes) (f0 : fsys) (e : entry) : Prop :=
    fs_event (en_ev e) = true /\ others [Main Pivot] f0 (en_fs e) /\
    (exists i m, en_fs e (Main Pivot) = Some (firstn i pv, m)).

  Lemma put_pivot_spec pv (s : st) r s' : put_pivot Y pv s = (r, s') ->
    match st_fs s (Main Pivot) with
    | Some _ => r = Err CannotModifyPostPivotStatic /\ s' = s
    | None => fx (pC pv (st_fs s)) s s'
              /\ (r = Ok tt -> st_fs s' (Main Pivot) = Some (pv, 73%N))
              /\ others [Main Pivot] (st_fs s) (st_fs s')
    end.
  Proof.
    intros H. unfold put_pivot, op_exists in H.
    mstep H; apply gets_inv in E as [E E']; [|discriminate E]. inversion E; subst; clear E.
    destruct (st_fs s (Main Pivot)) as [v|] eqn:F0; cbn [is_some negb] in H.
    { mstep H; apply guard_inv in E as [-> [[? ?]|[? ?]]]; try discriminate. subst. split; congruence. }
    mstep H; apply guard_inv in E as [-> [[? ?]|[? ?]]]; try discriminate.
    assert (G : fx (pC pv (st_fs s)) s s' /\ (r = Ok tt -> st_fs s' (Main Pivot) = Some (pv, 73%N))).
    2:{ destruct G as [G1 G2]. split; [auto|]. split; [auto|].
        apply (gx_fs (fun g => others [Main Pivot] (st_fs s) g) _ _ _ (fx_gx _ _ _ G1)).
        - apply others_refl.
        - intros e (_ & X & _); exact X. }
    mstep H; apply op_write_spec in E as (W & b & Eb & Hb); [|discriminate Eb].
    inversion Eb; subst; clear Eb.
    assert (W' : fx (pC pv (st_fs s)) s s0).
    { eapply fx_weaken; [|exact W]. intros e (V1 & V2 & V3). split; [now rewrite V1|]. auto. }
    assert (O1 : others [Main Pivot] (st_fs s) (st_fs s0)).
    { apply (gx_fs (fun g => others [Main Pivot] (st_fs s) g) _ _ _ (fx_gx _ _ _ W')).
      - apply others_refl.
      - intros e (_ & X & _); exact X. }
    mstep H; apply guard_inv in E as [-> [[? ?]|[? ?]]]; try discriminate; subst b.
    2:{ subst. split; [exact W'|discriminate]. }
    specialize (Hb eq_refl).
    mstep H; apply op_chmod_spec in E as [(Eb & ->)|(c & m0 & Eb & Fc & ->)]; try discriminate Eb;
      inversion Eb; subst; clear Eb.
    { apply guard_inv in H as [-> [[? ?]|[? ?]]]; try discriminate. subst.
      split; [eapply fx_trans; [exact W'|apply tick_fx]|discriminate]. }
    apply guard_inv in H as [-> [[_ ->]|[? ?]]]; try discriminate.
    rewrite Hb in Fc. inversion Fc; subst c m0; clear Fc.
    split.
    - eapply fx_trans; [exact W'|]. eapply fx_trans; [apply tick_fx|]. apply eff_fx.
      split; [reflexivity|]. split.
      + intros q Hq. cbn [en_fs]. rewrite upd_other; [now apply O1|]. intros ->; apply Hq; cbn; auto.
      + exists (length pv). eexists. cbn [en_fs]. rewrite firstn_all. now rewrite upd_same.
    - intros _. cbn. now rewrite upd_same.
  Qed.

  (** rotate_ephemeral_key *)
  Definition rC (seed : bytes) (f0 : fsys) (e : entry) : Prop :=
    fs_event (en_ev e) = true /\ others [Main Eph; Tmp Eph] f0 (en_fs e) /\
    (en_fs e (Main Eph) = None \/ exists m, en_fs e (Main Eph) = Some (encode seed, m)).

  Lemma rotate_spec seed (s : st) r s' : rotate_ephemeral_key Y seed s = (r, s') ->
    fx (rC seed (st_fs s)) s s'
    /\ (r = Ok tt -> st_fs s' (Main Eph) = Some (encode seed, 292%N))
    /\ others [Main Eph; Tmp Eph] (st_fs s) (st_fs s').
  Proof.
    intros H. unfold rotate_ephemeral_key, op_exists in H.
    mstep H; apply gets_inv in E as [E E']; [|discriminate E]. inversion E; subst; clear E.
    mstep H; apply guard_inv in E as [-> [[? ?]|[? ?]]]; try discriminate.
    2:{ subst. split; [apply fx_refl|]. split; [discriminate|apply others_refl]. }
    mstep H; apply op_remove_spec in E as [(Eb & ->)|(v & Eb & Fa & ->)]; try discriminate Eb;
      inversion Eb; subst; clear Eb.
    { mstep H; apply guard_inv in E as [-> [[? ?]|[? ?]]]; try discriminate. subst.
      split; [apply tick_fx|]. split; [discriminate|apply others_refl]. }
    mstep H; apply guard_inv in E as [-> [[? ?]|[? ?]]]; try discriminate.
    set (s1 := eff_fs _ _ (tick_io s)) in *.
    assert (F1 : st_fs s1 (Main Eph) = None) by (cbn; now rewrite upd_same).
    assert (O1 : others [Main Eph; Tmp Eph] (st_fs s) (st_fs s1)).
    { intros q Hq. cbn. rewrite upd_other; auto. intros ->; apply Hq; cbn; auto. }
    apply war_spec in H. rewrite F1 in H. destruct H as (A & B & C & _).
    split; [|split; [exact B|eapply others_trans; eauto]].
    eapply fx_trans; [apply tick_fx|]. eapply fx_trans with (s1 := s1).
    - apply eff_fx. split; [reflexivity|]. split; [exact O1|]. left. exact F1.
    - eapply fx_weaken; [|exact A]. intros e (V1 & V2 & V3). split; [auto|].
      split; [eapply others_trans; eauto|auto].
  Qed.


  Lemma si_get_manifest : silently (get_manifest_envelope Y).
  Proof. unfold get_manifest_envelope. silent_tac. Qed.
  Lemma si_hex_file p : silently (pair_from_hex_file Y p).
  Proof. unfold pair_from_hex_file. silent_tac. Qed.
  Lemma si_get_eph : silently (get_ephemeral_key Y).
  Proof. unfold get_ephemeral_key. apply si_bind; [apply si_hex_file|]. silent_tac. Qed.
  Lemma si_get_quorum : silently (get_quorum_key Y).
  Proof. unfold get_quorum_key. apply si_bind; [apply si_hex_file|]. silent_tac. Qed.

  Lemma get_manifest_ok (s : st) e s' : get_manifest_envelope Y s = (Ok e, s') ->
    exists c m, st_fs s (Main Manif) = Some (c, m) /\ envelope_try_from_slice_compat c = Some e.
  Proof.
    intros H. unfold get_manifest_envelope in H. apply bind_ok in H as (o & s1 & E & H).
    apply op_read_ok in E as (o' & Eo & Ho). inversion Eo; subst o'; clear Eo.
    destruct o as [c|]; [|discriminate H].
    destruct Ho as [Ho|Ho]; [discriminate Ho|].
    destruct (st_fs s (Main Manif)) as [[c' m]|]; cbn in Ho; [|discriminate Ho]. inversion Ho; subst c'.
    exists c, m. split; [reflexivity|].
    destruct (envelope_try_from_slice_compat c); [|discriminate H]. inversion H; auto.
  Qed.

  Lemma hex_file_ok p (s : st) seed k s' : pair_from_hex_file Y p s = (Ok (Ok (seed, k)), s') ->
    exists c m, st_fs s p = Some (c, m) /\ seed_of_hex c = Some seed /\ s_pair Y seed = Some k.
  Proof.
    intros H. unfold pair_from_hex_file in H. apply bind_ok in H as (o & s1 & E & H).
    apply op_read_ok in E as (o' & Eo & Ho). inversion Eo; subst o'; clear Eo.
    apply ret_inv in H as [H _].
    destruct o as [c|]; [|discriminate H].
    destruct Ho as [Ho|Ho]; [discriminate Ho|].
    destruct (st_fs s p) as [[c' m]|]; cbn in Ho; [|discriminate Ho]. inversion Ho; subst c'.
    exists c, m. split; [reflexivity|].
    destruct (seed_of_hex c) as [sd|]; [|discriminate H]. unfold from_master_seed in H.
    destruct (s_pair Y sd) as [k0|] eqn:E; inversion H; subst. auto.
  Qed.
  Lemma get_eph_ok (s : st) seed k s' : get_ephemeral_key Y s = (Ok (seed, k), s') ->
    exists c m, st_fs s (Main Eph) = Some (c, m) /\ seed_of_hex c = Some seed /\ s_pair Y seed = Some k.
  Proof.
    unfold get_ephemeral_key. intros H. apply bind_ok in H as (x & s1 & E & H).
    apply lift_inv in H as [H _]. destruct x as [[sd k0]|]; cbn in H; inversion H; subst.
    eapply hex_file_ok; eauto.
  Qed.
  Lemma get_quorum_ok (s : st) seed k s' : get_quorum_key Y s = (Ok (seed, k), s') ->
    exists c m, st_fs s (Main Quorum) = Some (c, m) /\ seed_of_hex c = Some seed /\ s_pair Y seed = Some k.
  Proof.
    unfold get_quorum_key. intros H. apply bind_ok in H as (x & s1 & E & H).
    apply lift_inv in H as [H _]. destruct x as [[sd k0]|]; cbn in H; inversion H; subst.
    eapply hex_file_ok; eauto.
  Qed.

  Lemma seed_of_hex_encode seed : length seed = 32%nat -> seed_of_hex (encode seed) = Some seed.
  Proof.
    intros L. unfold seed_of_hex. rewrite utf8_dec_ascii by apply encode_ascii. cbn [obind].
    replace (map b2n (encode seed)) with ([] ++ map b2n (encode seed) ++ []) by (cbn; now rewrite app_nil_r).
    rewrite trim_surround; [|reflexivity|reflexivity|apply encode_not_white].
    rewrite utf8_enc_ascii by apply encode_ascii.
    replace 32%N with (lenN seed) by (rewrite lenN_length, L; reflexivity).
    now rewrite decode_to_buf_encode.
  Qed.

  (** mutate_manifest_envelope *)
  Definition mC (c b : bytes) (f0 : fsys) (e : entry) : Prop :=
    fs_event (en_ev e) = true /\ others [Main Manif] f0 (en_fs e) /\
    exists m, (en_fs e (Main Manif) = Some (c, m) \/ exists i, en_fs e (Main Manif) = Some (firstn i b, m)).

  Lemma mutate_spec g (s : st) r s' : mutate_manifest_envelope Y g s = (r, s') ->
    (r <> Ok tt /\ silent s s')
    \/ exists c m e, st_fs s (Main Manif) = Some (c, m) /\ envelope_try_from_slice_compat c = Some e /\
        match envelope_to_storage_vec (g e) with
        | None => r <> Ok tt /\ fx (fun x => others [Main Manif] (st_fs s) (en_fs x)
                                            /\ exists m', en_fs x (Main Manif) = Some (c, m')) s s'
        | Some b => fx (mC c b (st_fs s)) s s' /\ (r = Ok tt -> st_fs s' (Main Manif) = Some (b, 292%N))
        end.
  Proof.
    intros H. unfold mutate_manifest_envelope in H.
    mstep H.
    2:{ left. subst r. split; [discriminate|]. eapply si_get_manifest; eauto. }
    pose proof (get_manifest_ok _ _ _ E) as (c & m & F0 & D).
    pose proof (si_get_manifest _ _ _ E) as S0.
    pose proof (silent_fs _ _ S0) as Ef. rewrite <- Ef in F0 |- *.
    mstep H; apply op_chmod_spec in E0 as [(Eb & ->)|(c1 & m1 & Eb & Fc & ->)]; try discriminate Eb;
      inversion Eb; subst; clear Eb.
    { mstep H; apply guard_inv in E0 as [-> [[? ?]|[? ?]]]; try discriminate. subst.
      left. split; [discriminate|]. eapply silent_trans; [exact S0|apply tick_fx]. }
    mstep H; apply guard_inv in E0 as [-> [[? ?]|[? ?]]]; try discriminate.
    rewrite F0 in Fc. inversion Fc; subst c1 m1; clear Fc.
    right. exists c, m, a. split; [exact F0|]. split; [exact D|].
    set (s1 := eff_fs _ _ (tick_io s0)) in *.
    assert (F1 : st_fs s1 (Main Manif) = Some (c, 438%N)) by (cbn; now rewrite upd_same).
    assert (O1 : others [Main Manif] (st_fs s0) (st_fs s1)) by apply others_upd.
    assert (W0 : fx (fun x => fs_event (en_ev x) = true /\ others [Main Manif] (st_fs s0) (en_fs x)
                              /\ exists m', en_fs x (Main Manif) = Some (c, m')) s s1).
    { eapply fx_trans; [apply silent_fx, S0|]. eapply fx_trans; [apply tick_fx|]. apply eff_fx.
      split; [reflexivity|]. split; [exact O1|]. exists 438%N. exact F1. }
    assert (W1 : forall b, fx (mC c b (st_fs s0)) s s1).
    { intros b. eapply fx_weaken; [|exact W0]. intros x (X1 & X2 & m' & X3).
      split; [exact X1|]. split; [exact X2|]. exists m'. now left. }
    destruct (envelope_to_storage_vec (g a)) as [b|].
    2:{ apply err_inv in H as [-> ->]. split; [discriminate|].
        eapply fx_weaken; [|exact W0]. intros x (_ & X2 & X3). auto. }
    mstep H; apply op_write_spec in E0 as (W & w & Eb & Hb); [|discriminate Eb].
    inversion Eb; subst; clear Eb.
    assert (W2 : fx (mC c b (st_fs s0)) s s2).
    { eapply fx_trans; [apply W1|]. eapply fx_weaken; [|exact W]. intros e (V1 & V2 & i & m2 & V3).
      split; [now rewrite V1|]. split; [eapply others_trans; eauto|]. eauto. }
    assert (O2 : others [Main Manif] (st_fs s0) (st_fs s2)).
    { apply (gx_fs (fun g0 => others [Main Manif] (st_fs s0) g0) _ _ _ (fx_gx _ _ _ W)).
      - exact O1.
      - intros e (_ & X & _). eapply others_trans; eauto. }
    mstep H; apply guard_inv in E0 as [-> [[? ?]|[? ?]]]; try discriminate; subst w.
    2:{ subst. split; [exact W2|discriminate]. }
    specialize (Hb eq_refl).
    mstep H; apply op_chmod_spec in E0 as [(Eb & ->)|(c2 & m2 & Eb & Fc & ->)]; try discriminate Eb;
      inversion Eb; subst; clear Eb.
    { apply guard_inv in H as [-> [[? ?]|[? ?]]]; try discriminate. subst.
      split; [eapply fx_trans; [exact W2|apply tick_fx]|discriminate]. }
    apply guard_inv in H as [-> [[_ ->]|[? ?]]]; try discriminate.
    rewrite Hb in Fc. inversion Fc; subst c2 m2; clear Fc.
    split.
    - eapply fx_trans; [exact W2|]. eapply fx_trans; [apply tick_fx|]. apply eff_fx.
      split; [reflexivity|]. split.
      + intros q Hq. cbn [en_fs]. rewrite upd_other; [now apply O2|]. intros ->; apply Hq; cbn; auto.
      + eexists. right. exists (length b). cbn [en_fs]. rewrite firstn_all. now rewrite upd_same.
    - intros _. cbn. now rewrite upd_same.
  Qed.
End Fs.
