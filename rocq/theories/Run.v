(** Reasoning tools for the effectful model: what one operation adds to the
    trace, and inversion of the monad.  No modelled code here. *)
From Verif Require Import Base Types Msg World.
Local Open Scope m_scope.

Section Run.
  Context {Y : sys}.
  Local Notation st := (st Y).
  Local Notation entry := (entry Y).
  Local Notation M := (M Y).

  Definition newest (f : fsys) (l : list entry) : fsys :=
    match l with [] => f | x :: _ => en_fs x end.

  (** [fx C s s']: from [s] to [s'] the trace grew by entries satisfying [C],
      phase, shares and pending key are the same, and the files are those of
      the newest entry. *)
  Record fx (C : entry -> Prop) (s s' : st) : Prop := Fx {
    fx_phase : st_phase s' = st_phase s;
    fx_shares : st_shares s' = st_shares s;
    fx_pending : st_pending s' = st_pending s;
    fx_new : exists new, st_trace s' = new ++ st_trace s /\ Forall C new /\ st_fs s' = newest (st_fs s) new
  }.

  (** The same without the in-memory fields. *)
  Definition gx (C : entry -> Prop) (s s' : st) : Prop :=
    exists new, st_trace s' = new ++ st_trace s /\ Forall C new /\ st_fs s' = newest (st_fs s) new.

  Lemma fx_gx C s s' : fx C s s' -> gx C s s'.
  Proof. intros []; assumption. Qed.
  Lemma gx_refl C s : gx C s s.
  Proof. exists []. auto. Qed.
  Lemma gx_trans C s s1 s2 : gx C s s1 -> gx C s1 s2 -> gx C s s2.
  Proof.
    intros (n1 & T1 & F1 & E1) (n2 & T2 & F2 & E2). exists (n2 ++ n1). split; [|split].
    - now rewrite T2, T1, app_assoc.
    - apply Forall_app. auto.
    - rewrite E2. destruct n2; cbn; auto.
  Qed.
  Lemma gx_weaken (C D : entry -> Prop) s s' : (forall e, C e -> D e) -> gx C s s' -> gx D s s'.
  Proof. intros H (n & T & F & E). exists n. split; [auto|split; auto]. eapply Forall_impl; eauto. Qed.
  Lemma fx_refl C s : fx C s s.
  Proof. constructor; auto. exists []. auto. Qed.
  Lemma fx_trans C s s1 s2 : fx C s s1 -> fx C s1 s2 -> fx C s s2.
  Proof.
    intros A B. constructor.
    - rewrite (fx_phase _ _ _ B). apply (fx_phase _ _ _ A).
    - rewrite (fx_shares _ _ _ B). apply (fx_shares _ _ _ A).
    - rewrite (fx_pending _ _ _ B). apply (fx_pending _ _ _ A).
    - exact (gx_trans C s s1 s2 (fx_new _ _ _ A) (fx_new _ _ _ B)).
  Qed.
  Lemma fx_weaken (C D : entry -> Prop) s s' : (forall e, C e -> D e) -> fx C s s' -> fx D s s'.
  Proof. intros H []. constructor; auto. exact (gx_weaken C D s s' H fx_new0). Qed.

  (** The final files satisfy any fs-predicate that holds of the initial files
      and of every new snapshot. *)
  Lemma gx_fs (P : fsys -> Prop) C s s' : gx C s s' -> P (st_fs s) -> (forall e, C e -> P (en_fs e)) -> P (st_fs s').
  Proof.
    intros (n & T & F & E) H0 HC. rewrite E. destruct n as [|x n]; cbn; auto.
    apply HC. now inversion F.
  Qed.

  (** No file changed. *)
  Definition quiet (s s' : st) : Prop := fx (fun e => en_fs e = st_fs s) s s'.
  Lemma quiet_fs s s' : quiet s s' -> st_fs s' = st_fs s.
  Proof. intros H. apply (gx_fs (fun f => f = st_fs s) _ _ _ (fx_gx _ _ _ H)); auto. Qed.
  Lemma quiet_refl s : quiet s s.
  Proof. apply fx_refl. Qed.
  Lemma quiet_trans s s1 s2 : quiet s s1 -> quiet s1 s2 -> quiet s s2.
  Proof.
    intros A B. eapply fx_trans; [exact A|]. pose proof (quiet_fs _ _ A) as E.
    unfold quiet in B. rewrite E in B. exact B.
  Qed.

  (** Monad inversion *)
  Lemma bind_inv {A B} (m : M A) (f : A -> M B) s r s' : bind m f s = (r, s') ->
    (exists a s1, m s = (Ok a, s1) /\ f a s1 = (r, s')) \/ (exists e, m s = (Err e, s') /\ r = Err e).
  Proof.
    unfold bind. destruct (m s) as [[a|e] s1]; intros H; [left; eauto|right].
    inversion H; subst; eauto.
  Qed.
  Lemma bind_ok {A B} (m : M A) (f : A -> M B) s b s' : bind m f s = (Ok b, s') ->
    exists a s1, m s = (Ok a, s1) /\ f a s1 = (Ok b, s').
  Proof. intros H. apply bind_inv in H as [?|(e & _ & E)]; [assumption|discriminate E]. Qed.
  Lemma guard_inv b (e : perr) (s : st) r s' : guard b e s = (r, s') ->
    s' = s /\ ((b = true /\ r = Ok tt) \/ (b = false /\ r = Err e)).
  Proof. unfold guard, ret, err. destruct b; intros H; inversion H; auto. Qed.
  Lemma lift_inv {A} (x : result perr A) (s : st) r s' : lift x s = (r, s') -> r = x /\ s' = s.
  Proof. unfold lift. intros H; inversion H; auto. Qed.
  Lemma ret_inv {A} (x : A) s r s' : @ret Y A x s = (r, s') -> r = Ok x /\ s' = s.
  Proof. unfold ret. intros H; inversion H; auto. Qed.
  Lemma err_inv {A} (e : perr) s r s' : @err Y A e s = (r, s') -> r = Err e /\ s' = s.
  Proof. unfold err. intros H; inversion H; auto. Qed.
  Lemma gets_inv {A} (f : st -> A) s r s' : gets f s = (r, s') -> r = Ok (f s) /\ s' = s.
  Proof. unfold gets. intros H; inversion H; auto. Qed.
  Lemma modify_inv (f : st -> st) s r s' : modify f s = (r, s') -> r = Ok tt /\ s' = f s.
  Proof. unfold modify. intros H; inversion H; auto. Qed.

  (** Operations that never touch files. *)
  Definition quietly {A} (m : M A) : Prop := forall s r s', m s = (r, s') -> quiet s s'.
  Lemma q_bind {A B} (m : M A) (f : A -> M B) : quietly m -> (forall a, quietly (f a)) -> quietly (bind m f).
  Proof.
    intros Hm Hf s r s' H. apply bind_inv in H as [(a & s1 & E1 & E2)|(e & E & _)].
    - eapply quiet_trans; [eapply Hm; eauto|eapply Hf; eauto].
    - eapply Hm; eauto.
  Qed.
  Lemma q_ret {A} (x : A) : quietly (@ret Y A x).
  Proof. intros s r s' H. apply ret_inv in H as [_ ->]. apply quiet_refl. Qed.
  Lemma q_err {A} e : quietly (@err Y A e).
  Proof. intros s r s' H. apply err_inv in H as [_ ->]. apply quiet_refl. Qed.
  Lemma q_lift {A} (x : result perr A) : quietly (@lift Y A x).
  Proof. intros s r s' H. apply lift_inv in H as [_ ->]. apply quiet_refl. Qed.
  Lemma q_guard b e : quietly (@guard Y b e).
  Proof. intros s r s' H. apply guard_inv in H as [-> _]. apply quiet_refl. Qed.
  Lemma q_gets {A} (f : st -> A) : quietly (gets f).
  Proof. intros s r s' H. apply gets_inv in H as [_ ->]. apply quiet_refl. Qed.

  Lemma q_read p : quietly (op_read Y p).
  Proof.
    intros s r s' H. assert (s' = tick_io s) as ->.
    { unfold op_read in H. destruct (s_io Y (st_ioc s)); inversion H; auto. }
    constructor; auto. exists []. auto.
  Qed.
  Lemma q_nsm q : quietly (op_nsm Y q).
  Proof.
    intros s r s' H. unfold op_nsm in H. destruct (s_nsm_step Y (st_nsm s) q) as [a n].
    inversion H; subst. constructor; auto. exists [Entry (EvNsm q a) (st_fs s) n]. cbn. auto.
  Qed.
  Lemma q_time : quietly (op_time Y).
  Proof.
    intros s r s' H. unfold op_time in H. destruct (s_nsm_time Y (st_nsm s)) as [a n].
    inversion H; subst. constructor; auto. exists [Entry EvTime (st_fs s) n]. cbn. auto.
  Qed.
  Lemma q_rand : quietly (op_rand Y).
  Proof.
    intros s r s' H. unfold op_rand in H. inversion H; subst. constructor; auto. exists []. auto.
  Qed.
  Lemma q_exists p : quietly (op_exists Y p).
  Proof. apply q_gets. Qed.

  (** Nothing observable happened at all (only counters moved). *)
  Definition silent (s s' : st) : Prop := fx (fun _ => False) s s'.
  Lemma silent_fx C s s' : silent s s' -> fx C s s'.
  Proof. apply fx_weaken. intros e []. Qed.
  Lemma silent_quiet s s' : silent s s' -> quiet s s'.
  Proof. apply silent_fx. Qed.
  Lemma silent_fs s s' : silent s s' -> st_fs s' = st_fs s.
  Proof. intros H. now apply quiet_fs, silent_quiet. Qed.
  Lemma silent_refl s : silent s s.
  Proof. apply fx_refl. Qed.
  Lemma silent_trace s s' : silent s s' -> st_trace s' = st_trace s.
  Proof. intros H. destruct (fx_new _ _ _ H) as ([|x n] & T & F & _); [exact T|]. inversion F; tauto. Qed.
  Lemma silent_trans s s1 s2 : silent s s1 -> silent s1 s2 -> silent s s2.
  Proof. apply fx_trans. Qed.
  Definition silently {A} (m : M A) : Prop := forall s r s', m s = (r, s') -> silent s s'.
  Lemma si_quietly {A} (m : M A) : silently m -> quietly m.
  Proof. intros H s r s' E. eapply silent_quiet, H; eauto. Qed.
  Lemma si_bind {A B} (m : M A) (f : A -> M B) : silently m -> (forall a, silently (f a)) -> silently (bind m f).
  Proof.
    intros Hm Hf s r s' H. apply bind_inv in H as [(a & s1 & E1 & E2)|(e & E & _)].
    - eapply silent_trans; [eapply Hm; eauto|eapply Hf; eauto].
    - eapply Hm; eauto.
  Qed.
  Lemma si_ret {A} (x : A) : silently (@ret Y A x).
  Proof. intros s r s' H. apply ret_inv in H as [_ ->]. apply silent_refl. Qed.
  Lemma si_err {A} e : silently (@err Y A e).
  Proof. intros s r s' H. apply err_inv in H as [_ ->]. apply silent_refl. Qed.
  Lemma si_lift {A} (x : result perr A) : silently (@lift Y A x).
  Proof. intros s r s' H. apply lift_inv in H as [_ ->]. apply silent_refl. Qed.
  Lemma si_guard b e : silently (@guard Y b e).
  Proof. intros s r s' H. apply guard_inv in H as [-> _]. apply silent_refl. Qed.
  Lemma si_gets {A} (f : st -> A) : silently (gets f).
  Proof. intros s r s' H. apply gets_inv in H as [_ ->]. apply silent_refl. Qed.
  Lemma si_read p : silently (op_read Y p).
  Proof.
    intros s r s' H. assert (s' = tick_io s) as ->.
    { unfold op_read in H. destruct (s_io Y (st_ioc s)); inversion H; auto. }
    constructor; auto. exists []. auto.
  Qed.
  Lemma si_rand : silently (op_rand Y).
  Proof.
    intros s r s' H. unfold op_rand in H. inversion H; subst. constructor; auto. exists []. auto.
  Qed.
End Run.

(** Prove [silently] of a composed computation. *)
Ltac silent_tac :=
  repeat first
    [ progress intros
    | apply si_ret | apply si_err | apply si_lift | apply si_guard | apply si_gets
    | apply si_read | apply si_rand
    | assumption
    | apply si_bind
    | match goal with |- silently (match ?x with _ => _ end) => destruct x end ].

Create HintDb quiet.
#[export] Hint Resolve q_bind q_ret q_err q_lift q_guard q_gets q_read q_nsm q_time q_rand q_exists : quiet.

(** Prove [quietly] of a composed computation. *)
Ltac quiet_tac :=
  repeat first
    [ progress intros
    | apply q_ret | apply q_err | apply q_lift | apply q_guard | apply q_gets
    | apply q_read | apply q_nsm | apply q_time | apply q_rand | apply q_exists
    | assumption
    | apply q_bind
    | match goal with |- quietly (match ?x with _ => _ end) => destruct x end
    | solve [eauto with quiet] ].

(** Invert one monadic step in hypothesis [H]. *)
Ltac mstep H :=
  let a := fresh "a" in let s := fresh "s" in let E := fresh "E" in let e := fresh "e" in
  apply bind_inv in H; destruct H as [(a & s & E & H)|(e & E & H)].
