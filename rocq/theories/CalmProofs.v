(** Forward execution when no file-system call fails. *)
From Coq Require Import ZifyBool ZifyN ZifyNat.
From Verif Require Import Base Utf8 Hex HexProofs Types Json TypesJson StorageProofs Msg World Run FsProofs Attest Services
  ServiceProofs BootProofs State SpecProtocol HandleProofs Reach Invariant ProtocolProofs EffectProofs.
Local Open Scope N_scope.
Local Open Scope m_scope.


Section Calm.
  Context {Y : sys} (NF : no_faults Y).
  Local Notation st := (st Y).

  Lemma calm_read p (s : st) : op_read Y p s = (Ok (option_map fst (st_fs s p)), tick_io s).
  Proof. unfold op_read. now rewrite NF. Qed.
  Lemma calm_write p d (s : st) : exists s', op_write Y p d s = (Ok true, s').
  Proof. unfold op_write. rewrite NF. eauto. Qed.
  Lemma calm_rename a b (s : st) : st_fs s a <> None -> exists s', op_rename Y a b s = (Ok true, s').
  Proof. intros H. unfold op_rename. rewrite NF. destruct (st_fs s a); [eauto|congruence]. Qed.
  Lemma calm_chmod p m (s : st) : st_fs s p <> None -> exists s', op_chmod Y p m s = (Ok true, s').
  Proof. intros H. unfold op_chmod. rewrite NF. destruct (st_fs s p) as [[? ?]|]; [eauto|congruence]. Qed.
  Lemma calm_remove p (s : st) : st_fs s p <> None -> exists s', op_remove Y p s = (Ok true, s').
  Proof. intros H. unfold op_remove. rewrite NF. destruct (st_fs s p); [eauto|congruence]. Qed.

  Lemma bind_eq {A B} (m : M Y A) (f : A -> M Y B) s a s' : m s = (Ok a, s') -> bind m f s = f a s'.
  Proof. intros H. unfold bind. now rewrite H. Qed.
  Lemma bind_gets {A B} (g : st -> A) (f : A -> M Y B) s : bind (gets g) f s = f (g s) s.
  Proof. reflexivity. Qed.
  Lemma bind_guard {B} e (f : unit -> M Y B) s : bind (guard true e) f s = f tt s.
  Proof. reflexivity. Qed.
  Lemma write_full p d (s s' : st) : op_write Y p d s = (Ok true, s') -> exists m, st_fs s' p = Some (d, m).
  Proof.
    intros H. apply op_write_spec in H as (_ & b & E & Hb). inversion E; subst. eexists. apply Hb. reflexivity.
  Qed.

  Lemma calm_war f buf e (s : st) : st_fs s (Main f) = None -> exists s', write_as_read_only Y f buf e s = (Ok tt, s').
  Proof.
    intros F0. unfold write_as_read_only, op_exists.
    rewrite bind_gets, F0. cbn [is_some negb]. rewrite bind_guard.
    destruct (calm_write (Tmp f) buf s) as [s1 W]. rewrite (bind_eq _ _ _ _ _ W). rewrite bind_guard.
    destruct (write_full _ _ _ _ W) as [m Fm].
    destruct (calm_rename (Tmp f) (Main f) s1) as [s2 R]; [congruence|]. rewrite (bind_eq _ _ _ _ _ R). rewrite bind_guard.
    assert (F2 : st_fs s2 (Main f) <> None).
    { unfold op_rename in R. rewrite NF, Fm in R. inversion R; subst. cbn.
      rewrite upd_other by discriminate. now rewrite upd_same. }
    destruct (calm_chmod (Main f) 292 s2 F2) as [s3 C]. rewrite (bind_eq _ _ _ _ _ C). eexists; reflexivity.
  Qed.

  Lemma calm_rotate seed (s : st) : st_fs s (Main Eph) <> None -> exists s', rotate_ephemeral_key Y seed s = (Ok tt, s').
  Proof.
    intros F0. unfold rotate_ephemeral_key, op_exists.
    rewrite bind_gets. destruct (st_fs s (Main Eph)) as [v|] eqn:F; [|congruence]. cbn [is_some]. rewrite bind_guard.
    destruct (calm_remove (Main Eph) s) as [s1 R]; [congruence|]. rewrite (bind_eq _ _ _ _ _ R). rewrite bind_guard.
    apply calm_war. unfold op_remove in R. rewrite NF, F in R. inversion R; subst. cbn. now rewrite upd_same.
  Qed.

  Lemma calm_manifest e (s : st) : stored (st_fs s) e -> get_manifest_envelope Y s = (Ok e, tick_io s).
  Proof.
    intros (c & C & D). unfold get_manifest_envelope. unfold bind. rewrite calm_read.
    unfold content in C. rewrite C, D. reflexivity.
  Qed.
  Lemma calm_hex p (s : st) seed k : option_map fst (st_fs s p) = Some (encode seed) -> length seed = 32%nat -> s_pair Y seed = Some k ->
    pair_from_hex_file Y p s = (Ok (Ok (seed, k)), tick_io s).
  Proof.
    intros C L P. unfold pair_from_hex_file. unfold bind. rewrite calm_read, C. cbn.
    rewrite (seed_of_hex_encode seed L). unfold from_master_seed. now rewrite P.
  Qed.
  Lemma calm_eph (s : st) seed k : content (st_fs s) Eph = Some (encode seed) -> length seed = 32%nat -> s_pair Y seed = Some k ->
    get_ephemeral_key Y s = (Ok (seed, k), tick_io s).
  Proof. intros C L P. unfold get_ephemeral_key. unfold bind. now rewrite (calm_hex (Main Eph) s seed k C L P). Qed.
  Lemma calm_quorum (s : st) seed k : content (st_fs s) Quorum = Some (encode seed) -> length seed = 32%nat -> s_pair Y seed = Some k ->
    get_quorum_key Y s = (Ok (seed, k), tick_io s).
  Proof. intros C L P. unfold get_quorum_key. unfold bind. now rewrite (calm_hex (Main Quorum) s seed k C L P). Qed.

  Lemma calm_install seed live (s : st) : st_pending s = Some live -> st_fs s (Main Eph) <> None -> st_fs s (Main Quorum) = None ->
    exists s', install seed s = (Ok tt, s').
  Proof.
    intros P E Q. unfold install, take_pending. unfold bind at 1. rewrite P.
    destruct (calm_rotate live (set_pending None s) E) as [s1 R]. rewrite (bind_eq _ _ _ _ _ R).
    unfold put_quorum_key. apply calm_war.
    apply rotate_spec in R as (_ & _ & O). rewrite O by notin. exact Q.
  Qed.

  Lemma calm_mutate g e b (s : st) : stored (st_fs s) e -> envelope_to_storage_vec (g e) = Some b ->
    exists s', mutate_manifest_envelope Y g s = (Ok tt, s').
  Proof.
    intros St Sb. unfold mutate_manifest_envelope. rewrite (bind_eq _ _ _ _ _ (calm_manifest e s St)).
    assert (Fm : st_fs (tick_io s) (Main Manif) <> None).
    { destruct St as (c & C & _). unfold content in C. cbn. intros X. rewrite X in C. discriminate C. }
    destruct (calm_chmod (Main Manif) 438 (tick_io s) Fm) as [s1 C1]. rewrite (bind_eq _ _ _ _ _ C1). rewrite bind_guard. rewrite Sb.
    destruct (calm_write (Main Manif) b s1) as [s2 W]. rewrite (bind_eq _ _ _ _ _ W). rewrite bind_guard. destruct (write_full _ _ _ _ W) as [m F2].
    destruct (calm_chmod (Main Manif) 292 s2) as [s3 C3]; [congruence|]. rewrite (bind_eq _ _ _ _ _ C3). eexists; reflexivity.
  Qed.

  (** *** Which files a computation leaves alone *)
  Definition keeps (p : path) {A} (m : M Y A) : Prop := forall s r s', m s = (r, s') -> st_fs s' p = st_fs s p.
  Lemma kp_bind p {A B} (m : M Y A) (f : A -> M Y B) : keeps p m -> (forall a, keeps p (f a)) -> keeps p (bind m f).
  Proof.
    intros H K s r s' E. unfold bind in E. destruct (m s) as [[a|e] s1] eqn:Em.
    - rewrite (K _ _ _ _ E). eapply H; eauto.
    - inversion E; subst. eapply H; eauto.
  Qed.
  Lemma kp_quiet p {A} (m : M Y A) : quietly m -> keeps p m.
  Proof. intros H s r s' E. now rewrite (quiet_fs _ _ (H _ _ _ E)). Qed.
  Lemma kp_modify p (f : st -> st) : (forall s, st_fs (f s) p = st_fs s p) -> keeps p (modify f).
  Proof. intros H s r s' E. apply modify_inv in E as [_ ->]. apply H. Qed.
  Lemma kp_take p : keeps p (take_pending Y).
  Proof. intros s r s' E. unfold take_pending in E. destruct (st_pending s); inversion E; subst; reflexivity. Qed.
  Lemma kp_war p f b e : p <> Main f -> p <> Tmp f -> keeps p (write_as_read_only Y f b e).
  Proof.
    intros N1 N2 s r s' E. apply war_spec in E. destruct (st_fs s (Main f)).
    - destruct E as [_ ->]. reflexivity.
    - destruct E as (_ & _ & O & _). apply O. intros [X|[X|[]]]; congruence.
  Qed.
  Lemma kp_rotate p b : p <> Main Eph -> p <> Tmp Eph -> keeps p (rotate_ephemeral_key Y b).
  Proof.
    intros N1 N2 s r s' E. apply rotate_spec in E as (_ & _ & O). apply O. intros [X|[X|[]]]; congruence.
  Qed.
  Lemma kp_mutate p g : p <> Main Manif -> keeps p (mutate_manifest_envelope Y g).
  Proof.
    intros N s r s' E. apply mutate_spec in E as [[_ Q]|(c & m & e & X1 & X2 & X3)].
    - now rewrite (silent_fs _ _ Q).
    - destruct (envelope_to_storage_vec (g e)) as [b|].
      + destruct X3 as [X3 _]. apply (gx_fs (fun f => f p = st_fs s p) _ _ _ (fx_gx _ _ _ X3)); [reflexivity|].
        intros x (_ & O & _). apply O. intros [X|[]]; congruence.
      + destruct X3 as [_ X3]. apply (gx_fs (fun f => f p = st_fs s p) _ _ _ (fx_gx _ _ _ X3)); [reflexivity|].
        intros x (O & _). apply O. intros [X|[]]; congruence.
  Qed.

  Ltac keep_tac :=
    repeat first [ match goal with |- forall _, _ => intro end | match goal with |- keeps _ (bind _ _) => apply kp_bind end | apply kp_take
                 | apply kp_quiet, si_quietly, si_get_manifest | apply kp_quiet, si_quietly, si_get_eph
                 | apply kp_quiet, q_lift | apply kp_quiet, q_guard | apply kp_quiet, q_ret | apply kp_quiet, q_err
                 | apply kp_quiet, q_gets
                 | apply kp_war; discriminate | apply kp_rotate; discriminate | apply kp_mutate; discriminate
                 | apply kp_modify; reflexivity
                 | match goal with |- keeps _ (match ?x with _ => _ end) => destruct x end
                 | match goal with |- keeps _ (let x := _ in _) => cbv zeta end ].

  (** The installation, on an error, leaves the key file as it was. *)
  Lemma calm_war_err f buf e (s : st) x s' : write_as_read_only Y f buf e s = (Err x, s') -> st_fs s' (Main f) = st_fs s (Main f).
  Proof.
    intros H. destruct (st_fs s (Main f)) as [v|] eqn:F.
    - apply war_spec in H. rewrite F in H. destruct H as [_ ->]. exact F.
    - destruct (calm_war f buf e s F) as [s1 H1]. congruence.
  Qed.
  Definition err_keeps (p : path) {A} (m : M Y A) : Prop := forall s x s', m s = (Err x, s') -> st_fs s' p = st_fs s p.
  Lemma ek_bind p {A B} (m : M Y A) (f : A -> M Y B) : keeps p m -> (forall a, err_keeps p (f a)) -> err_keeps p (bind m f).
  Proof.
    intros H K s r s' E. unfold bind in E. destruct (m s) as [[a|e] s1] eqn:Em.
    - rewrite (K _ _ _ _ E). eapply H; eauto.
    - inversion E; subst. eapply H; eauto.
  Qed.
  Lemma ek_seq p {A B} (m : M Y A) (f : A -> M Y B) : err_keeps p m -> (forall a s, exists b, f a s = (Ok b, s)) -> err_keeps p (bind m f).
  Proof.
    intros H K s r s' E. unfold bind in E. destruct (m s) as [[a|e] s1] eqn:Em.
    - destruct (K a s1) as [b Hb]. rewrite Hb in E. discriminate E.
    - inversion E; subst. eapply H; eauto.
  Qed.

  Lemma provision_err_keeps sh a : err_keeps (Main Quorum) (provision Y sh a).
  Proof.
    unfold provision, add_share, build_secret, put_quorum_key.
    apply ek_bind; [keep_tac|intros e]. apply ek_bind; [keep_tac|intros _]. apply ek_bind; [keep_tac|intros _].
    apply ek_bind; [keep_tac|intros _]. apply ek_bind; [keep_tac|intros [eph k]]. apply ek_bind; [keep_tac|intros p].
    apply ek_bind; [keep_tac|intros _]. apply ek_bind; [keep_tac|intros n].
    destruct (n <? _); [intros s x s' H; discriminate H|].
    apply ek_bind; [keep_tac|intros seed]. apply ek_bind; [keep_tac|intros _]. apply ek_bind; [keep_tac|intros _].
    apply ek_bind; [keep_tac|intros kk]. apply ek_bind; [keep_tac|intros _]. apply ek_bind; [keep_tac|intros live].
    apply ek_bind; [keep_tac|intros _].
    apply ek_seq; [|intros; eexists; reflexivity]. intros s x s' H. eapply calm_war_err; eauto.
  Qed.
  Lemma inject_err_keeps c g : err_keeps (Main Quorum) (inject_key Y c g).
  Proof.
    unfold inject_key, put_quorum_key.
    apply ek_bind; [keep_tac|intros e]. cbv zeta. apply ek_bind; [keep_tac|intros q]. apply ek_bind; [keep_tac|intros _].
    apply ek_bind; [keep_tac|intros [eph k]]. apply ek_bind; [keep_tac|intros seed]. apply ek_bind; [keep_tac|intros _].
    apply ek_bind; [keep_tac|intros kk]. apply ek_bind; [keep_tac|intros _]. apply ek_bind; [keep_tac|intros live].
    apply ek_bind; [keep_tac|intros _]. intros s x s' H. eapply calm_war_err; eauto.
  Qed.

  (** An error, without faults, installs no key. *)
  Lemma error_keyless r (s : st) x s' : handle Y r s = (ProtocolErrorResponse x, s') ->
    st_fs s' (Main Quorum) = st_fs s (Main Quorum).
  Proof.
    intros H. destruct (handle_cases r s) as [[W H1]|[(W & _ & Q)|[(set & dr & -> & P)|[(e & pv & B & P)|[(sh & a & -> & P)|(c & g & -> & P)]]]]].
    - rewrite H1 in H. inversion H; subst. reflexivity.
    - rewrite H in Q. cbn in Q. now rewrite (quiet_fs _ _ Q).
    - pose proof (handle_may (BootGenesisRequest set dr) s) as G. rewrite H in G. apply gx_may in G.
      destruct G as (_ & [G|(_ & [(?&?&X&_)|(?&?&X&_)])] & _); [exact G|discriminate X|discriminate X].
    - pose proof (handle_may r s) as G. rewrite H in G. apply gx_may in G.
      destruct G as (_ & [G|(_ & [(?&?&X&_)|(?&?&X&_)])] & _); [exact G|subst; discriminate B|subst; discriminate B].
    - rewrite (handle_provision sh a s P) in H. destruct (provision Y sh a s) as [[[]|y] s1] eqn:E; inversion H; subst.
      apply (provision_err_keeps _ _ _ _ _ E).
    - rewrite (handle_inject c g s P) in H. destruct (inject_key Y c g s) as [[[]|y] s1] eqn:E; inversion H; subst.
      apply (inject_err_keeps _ _ _ _ _ E).
  Qed.

  (** After a provision request the manifest file is whole. *)
  Lemma calm_provision_manifest sh a (s : st) e r s' : stored (st_fs s) e -> wf_envelope e = true -> jwf js_approval a = true ->
    provision Y sh a s = (r, s') ->
    content (st_fs s') Manif = content (st_fs s) Manif
    \/ exists b, envelope_to_storage_vec (push_share_approval a e) = Some b /\ content (st_fs s') Manif = Some b.
  Proof.
    intros St W Wa H. unfold provision in H.
    rewrite (bind_eq _ _ _ _ _ (calm_manifest e s St)) in H. cbv zeta in H.
    mstep H; apply lift_inv in E as [_ ->]; [|left; reflexivity].
    mstep H; apply guard_inv in E as [-> _]; [|left; reflexivity].
    destruct (envelope_storage _ (push_wf a e W Wa)) as (b & Sb & _).
    destruct (calm_mutate (push_share_approval a) e b (tick_io s) St Sb) as [s1 Hm].
    right. exists b. split; [exact Sb|].
    rewrite (bind_eq _ _ _ _ _ Hm) in H.
    assert (K : st_fs s' (Main Manif) = st_fs s1 (Main Manif)).
    { revert H. match goal with |- ?m s1 = _ -> _ => assert (KM : keeps (Main Manif) m) end.
      { unfold add_share, build_secret, put_quorum_key. keep_tac. }
      intros H. eapply KM; eauto. }
    apply mutate_spec in Hm as [[N _]|(c & m & e' & X1 & X2 & X3)]; [congruence|].
    destruct St as (c' & C' & D'). unfold content in C'. cbn in X1. rewrite X1 in C'. inversion C'; subst c'.
    assert (e' = e) as -> by congruence. rewrite Sb in X3. destruct X3 as [_ X3].
    unfold content. rewrite K, (X3 eq_refl). reflexivity.
  Qed.
End Calm.
