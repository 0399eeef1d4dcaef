(** The inductive invariant over all histories. *)
From Coq Require Import ZifyBool ZifyN ZifyNat.
From Verif Require Import Base Utf8 Hex HexProofs Types Json TypesJson StorageProofs Msg World Run FsProofs Attest Services
  ServiceProofs BootProofs State SpecProtocol HandleProofs Reach.
Local Open Scope N_scope.

Lemma content_eq f g s : f (Main s) = g (Main s) -> content f s = content g s.
Proof. unfold content. now intros ->. Qed.
Lemma content_some f s c m : f (Main s) = Some (c, m) -> content f s = Some c.
Proof. unfold content. now intros ->. Qed.

Lemma push_manifest a e : env_manifest (push_share_approval a e) = env_manifest e.
Proof. destruct e; reflexivity. Qed.
Lemma push_manifest_approvals a e : env_manifest_approvals (push_share_approval a e) = env_manifest_approvals e.
Proof. destruct e; reflexivity. Qed.
Lemma push_share_approvals a e : env_share_approvals (push_share_approval a e) = env_share_approvals e ++ [a].
Proof. destruct e; reflexivity. Qed.
Lemma push_check Y a e : check_approvals Y (push_share_approval a e) = check_approvals Y e.
Proof. unfold check_approvals. now rewrite push_manifest, push_manifest_approvals. Qed.
Lemma push_wf a e : wf_envelope e = true -> jwf js_approval a = true -> wf_envelope (push_share_approval a e) = true.
Proof.
  intros H Ha.
  assert (V : forall l, jwf (js_vec js_approval) l = true -> jwf (js_vec js_approval) (l ++ [a]) = true).
  { intros l Hl. change (forallb (jwf js_approval) (l ++ [a]) = true). rewrite forallb_app.
    change (forallb (jwf js_approval) l = true) in Hl. rewrite Hl. cbn [forallb]. rewrite Ha. reflexivity. }
  destruct e as [[m ma sa]|[m ma sa]|[m ma sa]]; cbn [push_share_approval wf_envelope] in *.
  - change (jwf js_manifest_v2 m && jwf (js_vec js_approval) ma && jwf (js_vec js_approval) sa = true) in H.
    apply andb_true_iff in H as [H1 H2].
    change (jwf js_manifest_v2 m && jwf (js_vec js_approval) ma && jwf (js_vec js_approval) (sa ++ [a]) = true).
    now rewrite H1, (V _ H2).
  - change (jwf js_manifest m && jwf (js_vec js_approval) ma && jwf (js_vec js_approval) sa = true) in H.
    apply andb_true_iff in H as [H1 H2].
    change (jwf js_manifest m && jwf (js_vec js_approval) ma && jwf (js_vec js_approval) (sa ++ [a]) = true).
    now rewrite H1, (V _ H2).
  - change (jwf js_manifest_v0 m && jwf (js_vec js_approval) ma && jwf (js_vec js_approval) sa = true) in H.
    apply andb_true_iff in H as [H1 H2].
    change (jwf js_manifest_v0 m && jwf (js_vec js_approval) ma && jwf (js_vec js_approval) (sa ++ [a]) = true).
    now rewrite H1, (V _ H2).
Qed.

Section Inv.
  Context {Y : sys} (OK : sys_ok Y).
  Local Notation st := (st Y).
  Local Notation entry := (entry Y).

  (** A recorded share-set approval: by a share-set member, over this manifest. *)
  Definition share_approval_ok (e : versioned_envelope) (a : approval) : Prop :=
    In (ap_member a) (members (vm_share_set (env_manifest e)))
    /\ approval_verify Y a (manifest_hash Y (env_manifest e)) = Ok tt.
  Definition share_approvals_ok (e : versioned_envelope) : Prop :=
    Forall (share_approval_ok e) (env_share_approvals e).
  (** Key forwarding records no share approvals, provisioning at least the threshold. *)
  Definition enough_shares (e : versioned_envelope) : Prop :=
    env_share_approvals e = []
    \/ threshold (vm_share_set (env_manifest e)) <= lenN (env_share_approvals e).

  (** What holds of a file system whenever a quorum key file is present. *)
  Definition snap (tr : list entry) (f : fsys) : Prop :=
    forall c, content f Quorum = Some c ->
    exists seed k e pv live live_k setup_pub,
      c = encode seed /\ length seed = 32%nat /\ s_pair Y seed = Some k
      /\ stored f e /\ check_approvals Y e = Ok tt /\ share_approvals_ok e /\ enough_shares e
      /\ ns_quorum_key (vm_namespace (env_manifest e)) = public_to_bytes k
      /\ content f Pivot = Some pv /\ s_sha256 Y pv = vm_pivot_hash (env_manifest e)
      /\ content f Eph = Some (encode live) /\ length live = 32%nat /\ s_pair Y live = Some live_k
      /\ bank_locked tr (manifest_hash Y (env_manifest e)) setup_pub (public_to_bytes live_k).

  Lemma snap_grow tr new f : snap tr f -> snap (new ++ tr) f.
  Proof.
    intros H c Hc. destruct (H c Hc) as (seed & k & e & pv & live & lk & sp & X).
    exists seed, k, e, pv, live, lk, sp.
    repeat match goal with H : _ /\ _ |- _ => destruct H end.
    repeat match goal with |- _ /\ _ => split end; auto. apply bank_locked_app; auto.
  Qed.
  Lemma snap_none tr f : f (Main Quorum) = None -> snap tr f.
  Proof. intros H c Hc. unfold content in Hc. rewrite H in Hc. discriminate Hc. Qed.
  Lemma snap_content tr f g : (forall s, content f s = content g s) -> snap tr f -> snap tr g.
  Proof.
    intros E H c Hc. rewrite <- E in Hc. destruct (H c Hc) as (seed & k & e & pv & live & lk & sp & X).
    exists seed, k, e, pv, live, lk, sp.
    repeat match goal with H : _ /\ _ |- _ => destruct H end.
    repeat match goal with |- _ /\ _ => split end; auto; try (now rewrite <- E).
    match goal with H : stored f e |- _ => destruct H as (c0 & A & B) end. exists c0. now rewrite <- E.
  Qed.

  (** Booted and waiting for the key. *)
  Definition waiting (s : st) : Prop :=
    exists e b mm pv setup setup_k live live_k,
      st_fs s (Main Manif) = Some (b, mm) /\ envelope_to_storage_vec e = Some b
      /\ wf_envelope e = true /\ check_approvals Y e = Ok tt /\ share_approvals_ok e
      /\ st_fs s (Main Pivot) = Some (pv, 73) /\ s_sha256 Y pv = vm_pivot_hash (env_manifest e)
      /\ st_fs s (Main Eph) = Some (encode setup, 292) /\ length setup = 32%nat /\ s_pair Y setup = Some setup_k
      /\ st_fs s (Main Quorum) = None
      /\ st_pending s = Some live /\ length live = 32%nat /\ s_pair Y live = Some live_k
      /\ bank_locked (st_trace s) (manifest_hash Y (env_manifest e)) (public_to_bytes setup_k) (public_to_bytes live_k).

  (** Every collected share has its approval recorded. *)
  Definition counted (s : st) : Prop :=
    forall e, stored (st_fs s) e -> lenN (st_shares s) = lenN (env_share_approvals e).

  Definition phase_inv (s : st) : Prop :=
    match st_phase s with
    | WaitingForBootInstruction => st_shares s = [] /\ st_pending s = None
    | WaitingForQuorumShards => waiting s /\ counted s
    | WaitingForForwardedKey => waiting s /\ st_shares s = [] /\ counted s
    | QuorumKeyProvisioned => st_fs s (Main Quorum) <> None /\ st_pending s = None
    | _ => True
    end.

  (** Once a key file exists no content changes. *)
  Definition frozen_since (f : fsys) (g : fsys) : Prop :=
    f (Main Quorum) <> None -> forall s, content g s = content f s.

  Record inv (s : st) : Prop := Inv_ {
    i_now : snap (st_trace s) (st_fs s);
    i_past : forall newer x older, st_trace s = newer ++ x :: older -> snap (x :: older) (en_fs x);
    i_frozen_now : forall newer x older, st_trace s = newer ++ x :: older -> frozen_since (en_fs x) (st_fs s);
    i_frozen : forall newer y mid x older, st_trace s = newer ++ y :: mid ++ x :: older -> frozen_since (en_fs x) (en_fs y);
    i_phase : phase_inv s
  }.

  (** Effect of one request on the snapshots: first those with the key file as
      it was (or still absent), then those with a freshly installed key. *)
  Definition early (f0 f : fsys) : Prop := f = f0 \/ (f0 (Main Quorum) = None /\ f (Main Quorum) = None).
  Definition late (tr : list entry) (f0 : fsys) (g : slot -> option bytes) (f : fsys) : Prop :=
    f0 (Main Quorum) = None /\ f (Main Quorum) <> None /\ (forall s, content f s = g s) /\ snap tr f.
  Definition step_ok (s s' : st) : Prop :=
    exists n2 n1 g, st_trace s' = n2 ++ n1 ++ st_trace s
      /\ Forall (fun x => early (st_fs s) (en_fs x)) n1
      /\ Forall (fun x => late (n1 ++ st_trace s) (st_fs s) g (en_fs x)) n2
      /\ st_fs s' = newest (st_fs s) (n2 ++ n1).

  Lemma app_cons_split {A} (a b : list A) newer x older : a ++ b = newer ++ x :: older ->
    (exists mid, a = newer ++ x :: mid /\ older = mid ++ b) \/ (exists mid, newer = a ++ mid /\ b = mid ++ x :: older).
  Proof.
    revert newer; induction a as [|y a IH]; intros newer E; cbn in E.
    - right. exists newer. auto.
    - destruct newer as [|z newer]; cbn in E; inversion E; subst.
      + left. exists a. auto.
      + destruct (IH newer H1) as [(mid & -> & ->)|(mid & -> & ->)]; [left|right]; exists mid; auto.
  Qed.

  Lemma early_snap tr new f0 f : snap tr f0 -> early f0 f -> snap (new ++ tr) f.
  Proof. intros H [->|(_ & H1)]; [now apply snap_grow|now apply snap_none]. Qed.

  (** Classification of a snapshot in the extended trace. *)
  Lemma step_inv s s' : inv s -> step_ok s s' -> phase_inv s' -> inv s'.
  Proof.
    intros I (n2 & n1 & g & T & F1 & F2 & N) Ph.
    assert (EN : n2 = [] -> early (st_fs s) (st_fs s')).
    { intros ->. cbn in N. rewrite N. destruct n1; cbn; [now left|]. now inversion F1. }
    assert (LN : n2 <> [] -> late (n1 ++ st_trace s) (st_fs s) g (st_fs s')).
    { intros H. rewrite N. destruct n2; [congruence|]. cbn. now inversion F2. }
    assert (E1 : forall x, In x n1 -> early (st_fs s) (en_fs x)) by (now apply Forall_forall).
    assert (L2 : forall x, In x n2 -> late (n1 ++ st_trace s) (st_fs s) g (en_fs x)) by (now apply Forall_forall).
    (* frozen relative to something old *)
    assert (FO : forall x, frozen_since x (st_fs s) -> forall f, (early (st_fs s) f \/ late (n1 ++ st_trace s) (st_fs s) g f) -> frozen_since x f).
    { intros x Hx f Hf Q sl. specialize (Hx Q). 
      assert (Q0 : st_fs s (Main Quorum) <> None).
      { specialize (Hx Quorum). unfold content in Hx. destruct (x (Main Quorum)); [|congruence].
        destruct (st_fs s (Main Quorum)); [discriminate|discriminate Hx]. }
      destruct Hf as [[->|(H & _)]|(H & _)]; [apply Hx|congruence|congruence]. }
    (* frozen relative to an early snapshot that holds a key *)
    assert (FE : forall x f, early (st_fs s) x -> (early (st_fs s) f \/ late (n1 ++ st_trace s) (st_fs s) g f) -> frozen_since x f).
    { intros x f [->|(H & H')] Hf Q sl; [|congruence].
      destruct Hf as [[->|(H & _)]|(H & _)]; [reflexivity|congruence|congruence]. }
    assert (FL : forall x f, late (n1 ++ st_trace s) (st_fs s) g x -> late (n1 ++ st_trace s) (st_fs s) g f -> frozen_since x f).
    { intros x f (_ & _ & H & _) (_ & _ & K & _) Q sl. now rewrite H, K. }
    assert (NOW : early (st_fs s) (st_fs s') \/ late (n1 ++ st_trace s) (st_fs s) g (st_fs s')).
    { destruct n2 as [|y n2']; [left; now apply EN|right; apply LN; discriminate]. }
    constructor.
    - rewrite T. destruct NOW as [H|(_ & _ & _ & H)].
      + rewrite app_assoc. apply early_snap with (f0 := st_fs s); [apply I|exact H].
      + now apply snap_grow.
    - intros newer x older E. rewrite T in E.
      apply app_cons_split in E as [(mid & E & ->)|(mid & -> & E)].
      + assert (Hx : In x n2) by (rewrite E; apply in_elt).
        change (x :: mid ++ n1 ++ st_trace s) with ((x :: mid) ++ n1 ++ st_trace s).
        apply snap_grow. now apply L2.
      + apply app_cons_split in E as [(mid2 & E & ->)|(mid2 & -> & E)].
        * assert (Hx : In x n1) by (rewrite E; apply in_elt).
          change (x :: mid2 ++ st_trace s) with ((x :: mid2) ++ st_trace s).
          apply early_snap with (f0 := st_fs s); [apply I|now apply E1].
        * eapply i_past; eauto.
    - rewrite app_assoc in T. intros newer x older E. rewrite T in E.
      apply app_cons_split in E as [(mid & E & ->)|(mid & -> & E)].
      + apply app_cons_split in E as [(mid2 & E & ->)|(mid2 & -> & E)].
        * apply FL; [apply L2; rewrite E; apply in_elt|]. apply LN. rewrite E. now destruct newer.
        * apply FE; [apply E1; rewrite E; apply in_elt|exact NOW].
      + apply FO; [|exact NOW]. eapply i_frozen_now; eauto.
    - rewrite app_assoc in T. intros newer y mid x older E. rewrite T in E.
      assert (HY : forall z, In z (n2 ++ n1) -> early (st_fs s) (en_fs z) \/ late (n1 ++ st_trace s) (st_fs s) g (en_fs z)).
      { intros z Hz. apply in_app_or in Hz as [Hz|Hz]; auto. }
      apply app_cons_split in E as [(mid1 & E & E')|(mid1 & -> & E)].
      + assert (Hy : In y (n2 ++ n1)) by (rewrite E; apply in_elt).
        symmetry in E'. apply app_cons_split in E' as [(mid2 & -> & ->)|(mid2 & -> & E')].
        * (* both new *)
          replace (newer ++ y :: mid ++ x :: mid2) with ((newer ++ y :: mid) ++ x :: mid2) in E
            by now rewrite <- app_assoc.
          apply app_cons_split in E as [(m3 & E & ->)|(m3 & E & E3)].
          -- apply FL; apply L2; rewrite E.
             ++ apply in_elt.
             ++ apply in_or_app. left. apply in_elt.
          -- apply FE; [apply E1; rewrite E3; apply in_elt|now apply HY].
        * apply FO; [|now apply HY]. eapply i_frozen_now; eauto.
      + eapply i_frozen; eauto.
    - exact Ph.
  Qed.

  Lemma gx_quiet_step s s' : gx (fun x => en_fs x = st_fs s) s s' -> step_ok s s'.
  Proof.
    intros (new & T & F & E). exists [], new, (fun _ => None). cbn.
    split; [exact T|]. split; [|split; [constructor|exact E]].
    eapply Forall_impl; [|exact F]. intros x Hx. now left.
  Qed.
  Lemma quiet_step s s' : quiet s s' -> step_ok s s'.
  Proof. intros H. apply gx_quiet_step, fx_gx, H. Qed.
  Lemma gx_early_step (C : entry -> Prop) s s' : (forall x, C x -> early (st_fs s) (en_fs x)) -> gx C s s' -> step_ok s s'.
  Proof.
    intros H (new & T & F & E). exists [], new, (fun _ => None). cbn.
    split; [exact T|]. split; [|split; [constructor|exact E]].
    eapply Forall_impl; eauto.
  Qed.

  Lemma set_phase_step s s' p : step_ok s s' -> step_ok s (set_phase p s').
  Proof. intros H. exact H. Qed.

  (** *** Boot *)
  Lemma boot_step e pv s r s' : snap (st_trace s) (st_fs s) -> put_manifest_and_pivot Y e pv s = (r, s') -> step_ok s s'.
  Proof.
    intros HS H. apply boot_spec in H as (_ & _ & [[[new G] _]|X]).
    - apply quiet_step. eapply grows_quiet; eauto.
    - destruct X as (setup & sk & live & lk & s1 & new & _ & _ & _ & _ & _ & _ & _ & G & _ & _ & B & _).
      pose proof (grows_quiet _ _ _ G) as Q.
      apply gx_early_step with (C := fun x => early (st_fs s) (en_fs x)); [auto|].
      eapply gx_trans.
      + eapply gx_weaken; [|exact (fx_gx _ _ _ Q)]. intros x Hx. now left.
      + eapply gx_weaken; [|exact B]. intros x (V1 & _ & _ & _ & V5).
        destruct (st_fs s (Main Quorum)) as [[c m]|] eqn:FQ.
        * left. apply V5. destruct (HS c) as (? & ? & ? & ? & lv & ? & ? & Z).
          { unfold content. now rewrite FQ. }
          decompose [and] Z. unfold content in *. destruct (st_fs s (Main Eph)); [discriminate|].
          cbn in *. discriminate.
        * right. split; [exact FQ|]. rewrite V1; [exact FQ|]. intros Q1; cbn in Q1; intuition discriminate.
  Qed.

  Lemma boot_waiting e pv s n s' : wf_envelope e = true -> snap (st_trace s) (st_fs s) ->
    put_manifest_and_pivot Y e pv s = (Ok n, s') -> waiting s'.
  Proof.
    intros W HS H. pose proof (boot_spec _ _ _ _ _ H) as (_ & _ & [[_ [x Hx]]|X]); [discriminate Hx|].
    destruct X as (setup & sk & live & lk & s1 & new & A1 & A2 & A3 & A4 & A5 & A6 & A7 & G & B & Pd & Gb & Hf).
    destruct (Hf _ eq_refl) as (P1 & P2 & P3 & P4 & P5 & (b & P6 & P7) & P8).
    assert (Tr : exists more, st_trace s' = more ++ new ++ st_trace s).
    { destruct Gb as (more & T & _). destruct G as (T1 & _). rewrite T1 in T. eauto. }
    destruct Tr as [more Tr].
    exists e, b, 292, pv, setup, sk, live, lk.
    repeat match goal with |- _ /\ _ => split end; auto.
    - unfold share_approvals_ok. rewrite A2. constructor.
    - rewrite A6. apply OK.
    - rewrite P8. destruct (st_fs s (Main Quorum)) as [[c m]|] eqn:FQ; [|reflexivity].
      exfalso. destruct (HS c) as (? & ? & ? & ? & lv & ? & ? & Z).
      { unfold content. now rewrite FQ. }
      decompose [and] Z. unfold content in *. rewrite P1 in *. cbn in *. discriminate.
    - rewrite A7. apply OK.
    - rewrite Tr. apply bank_locked_app. right. apply bank_locked_app. now left.
  Qed.

  Lemma waiting_stored s : waiting s -> exists e, stored (st_fs s) e /\ wf_envelope e = true /\ share_approvals_ok e.
  Proof.
    intros (e & b & mm & pv & setup & sk & live & lk & M1 & M2 & M3 & M4 & M5 & _).
    exists e. split; [|auto]. exists b. split; [now apply content_some with (m := mm)|].
    destruct (envelope_storage e M3) as (b' & X1 & X2). rewrite M2 in X1. inversion X1; subst. exact X2.
  Qed.
  Lemma stored_inj f e1 e2 : stored f e1 -> stored f e2 -> e1 = e2.
  Proof. intros (c & A & B) (c' & A' & B'). rewrite A in A'. inversion A'; subst. congruence. Qed.

  Lemma boot_counted e pv s n s' : wf_envelope e = true -> st_shares s = [] ->
    put_manifest_and_pivot Y e pv s = (Ok n, s') -> st_shares s' = [] /\ counted s'.
  Proof.
    intros W Sh H. pose proof (boot_spec _ _ _ _ _ H) as (_ & Sh' & [[_ [x Hx]]|X]); [discriminate Hx|].
    destruct X as (setup & sk & live & lk & s1 & new & A1 & A2 & A3 & A4 & A5 & A6 & A7 & G & B & Pd & Gb & Hf).
    destruct (Hf _ eq_refl) as (P1 & P2 & P3 & P4 & P5 & (b & P6 & P7) & P8).
    split; [congruence|]. intros e' He'.
    assert (St : stored (st_fs s') e).
    { exists b. split; [now apply content_some with (m := 292)|].
      destruct (envelope_storage e W) as (b' & X1 & X2). rewrite P6 in X1. inversion X1; subst. exact X2. }
    rewrite <- (stored_inj _ _ _ St He'), A2, Sh', Sh. reflexivity.
  Qed.

  (** *** Installing the key *)
  Lemma install_step seed k s r s' : waiting s -> length seed = 32%nat -> s_pair Y seed = Some k ->
    (forall e, stored (st_fs s) e -> ns_quorum_key (vm_namespace (env_manifest e)) = public_to_bytes k /\ enough_shares e) ->
    install seed s = (r, s') ->
    step_ok s s' /\ (r = Ok tt -> st_fs s' (Main Quorum) <> None /\ st_pending s' = None).
  Proof.
    intros (e & b & mm & pv & setup & sk & live & lk & M1 & M2 & M3 & M4 & M5 & P1 & P2 & E1 & E2 & E3 & Q1 & D1 & D2 & D3 & B)
      Ls Ps Hk H.
    apply install_spec in H as (_ & _ & H). rewrite D1 in H. destruct H as (Pd & (s1 & G1 & G2) & Hr).
    assert (St : stored (st_fs s) e).
    { exists b. split; [now apply content_some with (m := mm)|].
      destruct (envelope_storage e M3) as (b' & X1 & X2). rewrite M2 in X1. inversion X1; subst. exact X2. }
    split; [|intros Hx; destruct (Hr Hx) as (_ & X & _); rewrite X; split; [discriminate|exact Pd]].
    set (g := fun sl => match sl with Eph => Some (encode live) | Quorum => Some (encode seed)
                                   | Manif => Some b | Pivot => Some pv end).
    destruct G1 as (n1 & T1 & F1 & N1). destruct G2 as (n2 & T2 & F2 & N2).
    exists n2, n1, g. split; [now rewrite T2, T1|]. split; [|split].
    - eapply Forall_impl; [|exact F1]. intros x (V1 & _). right. split; [exact Q1|].
      rewrite V1; [exact Q1|]. intros Q; cbn in Q; intuition discriminate.
    - eapply Forall_impl; [|exact F2]. intros x (V1 & V2 & (m & V3) & V4).
      assert (Cm : content (en_fs x) Manif = Some b).
      { unfold content. rewrite V1; [now rewrite M1|]. intros Q; cbn in Q; intuition discriminate. }
      assert (Cp : content (en_fs x) Pivot = Some pv).
      { unfold content. rewrite V1; [now rewrite P1|]. intros Q; cbn in Q; intuition discriminate. }
      assert (Ce : content (en_fs x) Eph = Some (encode live)) by (unfold content; now rewrite V4).
      assert (Cq : content (en_fs x) Quorum = Some (encode seed)) by (unfold content; now rewrite V3).
      split; [exact Q1|]. split; [rewrite V3; discriminate|]. split; [intros []; assumption|].
      intros c Hc. rewrite Cq in Hc. inversion Hc; subst c.
      exists seed, k, e, pv, live, lk, (public_to_bytes sk). destruct (Hk e St) as [Hk1 Hk2].
      repeat match goal with |- _ /\ _ => split end; auto.
      + destruct St as (c0 & S1 & S2). exists c0. split; [|exact S2].
        rewrite Cm. rewrite <- S1. unfold content. now rewrite M1.
      + apply bank_locked_app. now right.
    - rewrite N2, N1. destruct n2; [reflexivity|]. reflexivity.
  Qed.

  Lemma step_ok_trans_early s s1 s' :
    gx (fun x => early (st_fs s) (en_fs x) /\ en_fs x (Main Quorum) = None) s s1 -> st_fs s (Main Quorum) = None ->
    step_ok s1 s' -> step_ok s s'.
  Proof.
    intros (n0 & T0 & F0 & N0) Q (n2 & n1 & g & T & F1 & F2 & N).
    assert (Q1 : st_fs s1 (Main Quorum) = None).
    { rewrite N0. destruct n0; cbn; [exact Q|]. inversion F0; subst. tauto. }
    exists n2, (n1 ++ n0), g. split; [|split; [|split]].
    - rewrite T, T0. now rewrite !app_assoc.
    - apply Forall_app. split.
      + eapply Forall_impl; [|exact F1]. intros x [->|(_ & H)]; right; auto.
      + eapply Forall_impl; [|exact F0]. intros x [H _]. exact H.
    - eapply Forall_impl; [|exact F2]. intros x (H1 & H2 & H3 & H4). split; [exact Q|]. split; [auto|]. split; [auto|].
      rewrite <- app_assoc, <- T0. exact H4.
    - rewrite N, N0. destruct n2; cbn; [|reflexivity]. destruct n1; cbn; auto.
  Qed.

  (** *** Provision *)
  Lemma vC_early a f0 (x : entry) : f0 (Main Quorum) = None -> vC a f0 x ->
    early f0 (en_fs x) /\ en_fs x (Main Quorum) = None.
  Proof.
    intros Q (V & _).
    assert (en_fs x (Main Quorum) = None) by (rewrite V; [exact Q|]; intros [X|[]]; discriminate X).
    split; [right|]; auto.
  Qed.

  Lemma waiting_after_push a s s' e b : waiting s -> stored (st_fs s) e -> jwf js_approval a = true ->
    share_approval_ok e a ->
    envelope_to_storage_vec (push_share_approval a e) = Some b ->
    st_fs s' (Main Manif) = Some (b, 292) -> others [Main Manif] (st_fs s) (st_fs s') ->
    st_pending s' = st_pending s -> (exists new, st_trace s' = new ++ st_trace s) ->
    waiting s' /\ stored (st_fs s') (push_share_approval a e).
  Proof.
    intros (e0 & b0 & mm & pv & setup & sk & live & lk & M1 & M2 & M3 & M4 & M5 & P1 & P2 & E1 & E2 & E3 & Q1 & D1 & D2 & D3 & B)
      (c & S1 & S2) Wa SA Sb Fm O Pd (new & T).
    assert (e0 = e) as ->.
    { destruct (envelope_storage e0 M3) as (b' & X1 & X2). rewrite M2 in X1. inversion X1; subst b'.
      unfold content in S1. rewrite M1 in S1. cbn in S1. inversion S1; subst c. congruence. }
    assert (W' : wf_envelope (push_share_approval a e) = true) by now apply push_wf.
    split.
    - exists (push_share_approval a e), b, 292, pv, setup, sk, live, lk.
      rewrite push_check, push_manifest.
      repeat match goal with |- _ /\ _ => split end; auto.
      + unfold share_approvals_ok, share_approval_ok. rewrite push_share_approvals, push_manifest.
        apply Forall_app. split; [exact M5|]. constructor; [exact SA|constructor].
      + rewrite O; [exact P1|]. intros [X|[]]; discriminate X.
      + rewrite O; [exact E1|]. intros [X|[]]; discriminate X.
      + rewrite O; [exact Q1|]. intros [X|[]]; discriminate X.
      + congruence.
      + rewrite T. apply bank_locked_app. now right.
    - exists b. split; [now apply content_some with (m := 292)|].
      destruct (envelope_storage _ W') as (b' & X1 & X2). rewrite Sb in X1. inversion X1; subst. exact X2.
  Qed.

  Lemma share_ok_stored sh a f e p : share_ok (Y := Y) sh a f e p -> stored f e.
  Proof. intros ((c & m & A & B) & _). exists c. split; [now apply content_some with (m := m)|exact B]. Qed.

  Lemma share_ok_approval sh a f e p : share_ok (Y := Y) sh a f e p -> share_approval_ok e a.
  Proof. intros (_ & V & I & _). split; auto. Qed.

  Lemma provision_step sh a s r s' : waiting s -> counted s -> jwf js_approval a = true -> provision Y sh a s = (r, s') ->
    step_ok s s' /\ (r = Ok false -> waiting s' /\ counted s') /\ (r = Ok true -> st_fs s' (Main Quorum) <> None /\ st_pending s' = None).
  Proof.
    intros W Cn Wa H. pose proof W as W0.
    destruct W0 as (e0 & b0 & mm & pv & setup & sk & live & lk & _ & _ & _ & _ & _ & _ & _ & _ & _ & _ & Q1 & _).
    assert (VE : forall t, gx (vC a (st_fs s)) s t ->
              gx (fun x => early (st_fs s) (en_fs x) /\ en_fs x (Main Quorum) = None) s t).
    { intros t. apply gx_weaken. intros x Hx. now apply vC_early with (a := a). }
    assert (VS : forall t, gx (vC a (st_fs s)) s t -> step_ok s t).
    { intros t Ht. apply VE in Ht. eapply gx_early_step; [|exact Ht]. cbn. tauto. }
    apply provision_spec in H as (_ & [([x Hx] & G)|X]).
    - subst r. split; [auto|]. split; discriminate.
    - destruct X as (e & plain & b & SO & Sb & [X|X]).
      + destruct X as (-> & _ & G & Fm & O & Sh & Pd). split; [auto|]. split; [|discriminate]. intros _.
        assert (Tn : exists new, st_trace s' = new ++ st_trace s) by (destruct G as (new & T & _); eauto).
        destruct (waiting_after_push a s s' e b W (share_ok_stored _ _ _ _ _ SO) Wa (share_ok_approval _ _ _ _ _ SO) Sb Fm O Pd Tn) as [W1 St1].
        split; [exact W1|]. intros e' He'. rewrite <- (stored_inj _ _ _ St1 He'), push_share_approvals, Sh, !lenN_app.
        rewrite (Cn e (share_ok_stored _ _ _ _ _ SO)). reflexivity.
      + destruct X as (seed & k & s1 & Th & _ & Ls & Ps & Pq & G & Fm & O & _ & Pd & r1 & HI & Hr).
        assert (Tn : exists new, st_trace s1 = new ++ st_trace s) by (destruct G as (new & T & _); eauto).
        destruct (waiting_after_push a s s1 e b W (share_ok_stored _ _ _ _ _ SO) Wa (share_ok_approval _ _ _ _ _ SO) Sb Fm O Pd Tn) as [W1 St1].
        destruct (install_step seed k s1 r1 s' W1 Ls Ps) as [I1 I2]; [|exact HI|].
        { intros e' He'. rewrite <- (stored_inj _ _ _ St1 He'). unfold enough_shares.
          rewrite push_manifest, push_share_approvals, lenN_app, <- (Cn e (share_ok_stored _ _ _ _ _ SO)).
          split; [now symmetry|]. right. exact Th. }
        split; [eapply step_ok_trans_early; eauto|].
        destruct Hr as [(-> & ->)|(x & -> & ->)]; (split; [discriminate|]); [auto|discriminate].
  Qed.

  (** *** Inject *)
  Lemma waiting_silent s s1 : waiting s -> silent s s1 -> waiting s1.
  Proof.
    intros W S. unfold waiting in *. rewrite (silent_fs _ _ S), (fx_pending _ _ _ S), (silent_trace _ _ S). exact W.
  Qed.

  Lemma inject_step c g s r s' : waiting s -> st_shares s = [] -> counted s -> inject_key Y c g s = (r, s') ->
    step_ok s s' /\ (r = Ok tt -> st_fs s' (Main Quorum) <> None /\ st_pending s' = None).
  Proof.
    intros W Sh Cn H. apply inject_spec in H as (_ & [([x Hx] & S)|X]).
    - subst r. split; [apply quiet_step, silent_quiet, S|discriminate].
    - destruct X as (e & q & eph & ke & seed & s1 & (c0 & m & F & D) & Q & _ & _ & _ & _ & L & P & S & I).
      destruct (install_step seed q s1 r s' (waiting_silent _ _ W S) L P) as [I1 I2]; [|exact I|].
      { intros e' He'. assert (e = e') as <-.
        { apply (stored_inj (st_fs s1)); [|exact He']. rewrite (silent_fs _ _ S).
          exists c0. split; [now apply content_some with (m := m)|exact D]. }
        split; [symmetry; now apply (public_bytes_inv _ _ Q)|]. left.
        rewrite (silent_fs _ _ S) in He'. apply Cn in He'. rewrite Sh in He'.
        destruct (env_share_approvals e); [reflexivity|]. exfalso. rewrite !lenN_length in He'. cbn [length] in He'. clear - He'. lia. }
      split; [|exact I2].
      destruct I1 as (n2 & n1 & h & T & F1 & F2 & N).
      rewrite (silent_fs _ _ S), (silent_trace _ _ S) in *. exists n2, n1, h. auto.
  Qed.

  (** *** One request *)
  Lemma handle_inv r s : inv s -> wf_req r = true -> inv (snd (handle Y r s)).
  Proof.
    intros I W. destruct (handle_cases r s) as [[_ H]|[(_ & _ & Q)|[(set & dr & -> & P)|[(e & pv & B & P)|[(sh & a & -> & P)|(c & g & -> & P)]]]]].
    - rewrite H. exact I.
    - eapply step_inv; [exact I|now apply quiet_step|].
      pose proof (i_phase _ I) as Ph. unfold phase_inv in *. rewrite (fx_phase _ _ _ Q).
      assert (Wq : waiting s -> waiting (snd (handle Y r s))).
      { unfold waiting. rewrite (quiet_fs _ _ Q), (fx_pending _ _ _ Q).
        destruct (fx_new _ _ _ Q) as (new & T & _). rewrite T.
        intros (e & b & mm & pv & setup & sk & live & lk & X).
        exists e, b, mm, pv, setup, sk, live, lk. decompose [and] X.
        repeat match goal with |- _ /\ _ => split end; auto. apply bank_locked_app; auto. }
      assert (Cq : counted s -> counted (snd (handle Y r s))).
      { unfold counted. now rewrite (quiet_fs _ _ Q), (fx_shares _ _ _ Q). }
      destruct (st_phase s); auto; rewrite ?(quiet_fs _ _ Q), ?(fx_pending _ _ _ Q), ?(fx_shares _ _ _ Q) in *; tauto.
    - rewrite (handle_genesis set dr s P). destruct (boot_genesis Y set dr s) as [[p|x] s1] eqn:E;
        apply q_genesis in E; cbn [snd]; (eapply step_inv; [exact I|apply set_phase_step; now apply quiet_step|exact Logic.I]).
    - rewrite (handle_boot r e pv s P B). destruct (put_manifest_and_pivot Y e pv s) as [[n|x] s1] eqn:E; cbn [snd];
        (eapply step_inv; [exact I|apply set_phase_step; eapply boot_step; [apply I|exact E]|]); [|exact Logic.I].
      assert (We : wf_envelope e = true) by (destruct r; try discriminate B; inversion B; subst; exact W).
      pose proof (boot_waiting e pv s n s1 We (i_now _ I) E) as Wt.
      pose proof (i_phase _ I) as Ph. unfold phase_inv in Ph. rewrite P in Ph.
      destruct (boot_counted e pv s n s1 We (proj1 Ph) E) as [Sh Cn].
      unfold phase_inv. cbn [st_phase set_phase]. destruct r; try discriminate B; repeat split; auto.
    - pose proof (i_phase _ I) as Ph. unfold phase_inv in Ph. rewrite P in Ph.
      rewrite (handle_provision sh a s P). destruct (provision Y sh a s) as [r1 s1] eqn:E.
      pose proof (provision_spec _ _ _ _ _ E) as [Pp _].
      destruct (provision_step sh a s r1 s1 (proj1 Ph) (proj2 Ph) W E) as (S1 & S2 & S3).
      destruct r1 as [[]|x]; cbn [snd].
      + eapply step_inv; [exact I|apply set_phase_step, S1|]. exact (S3 eq_refl).
      + eapply step_inv; [exact I|exact S1|]. unfold phase_inv. rewrite Pp, P. exact (S2 eq_refl).
      + eapply step_inv; [exact I|apply set_phase_step, S1|exact Logic.I].
    - pose proof (i_phase _ I) as Ph. unfold phase_inv in Ph. rewrite P in Ph.
      rewrite (handle_inject c g s P). destruct (inject_key Y c g s) as [r1 s1] eqn:E.
      destruct (inject_step c g s r1 s1 (proj1 Ph) (proj1 (proj2 Ph)) (proj2 (proj2 Ph)) E) as (S1 & S2).
      destruct r1 as [[]|x]; cbn [snd]; (eapply step_inv; [exact I|apply set_phase_step, S1|]).
      + exact (S2 eq_refl).
      + exact Logic.I.
  Qed.

  Theorem reach_inv s : reach Y s -> inv s.
  Proof.
    induction 1 as [f n rc ic H|s r _ IH W|s newer x older rc ic _ IH T].
    - constructor; cbn.
      + apply snap_none, H.
      + intros [|] ? ? E; discriminate E.
      + intros [|] ? ? E; discriminate E.
      + intros [|] ? ? ? ? E; discriminate E.
      + split; reflexivity.
    - now apply handle_inv.
    - constructor; cbn.
      + eapply i_past; eauto.
      + intros newer' x' older' E. apply (i_past _ IH (newer ++ newer') x' older'). now rewrite T, E, app_assoc.
      + intros newer' x' older' E. destruct newer' as [|y newer'].
        * inversion E; subst. intros _ sl. reflexivity.
        * inversion E; subst. apply (i_frozen _ IH newer y newer' x' older'). now rewrite T.
      + intros newer' y mid x' older' E. apply (i_frozen _ IH (newer ++ newer') y mid x' older'). now rewrite T, E, app_assoc.
      + split; reflexivity.
  Qed.
End Inv.
