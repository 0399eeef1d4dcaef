(** Properties preserved along [later]: requests and restarts. *)
From Verif Require Import Base Types TypesJson Msg World Run Attest Services State SpecProtocol Reach Invariant HandleProofs ProtocolProofs
  EffectProofs SpecHistory HistoryProofs.
Local Open Scope N_scope.

Section LP.
  Context {Y : sys}.
  Local Notation st := (st Y).

  Lemma later_grew (P : fsys -> Prop) (s t : st) :
    (forall r s, P (st_fs s) -> gx (fun x => P (en_fs x)) s (snd (handle Y r s))) ->
    P (st_fs s) -> later Y s t -> grew s t P.
  Proof.
    intros H P0 L. induction L as [|t r L IH W|t newer x mid rc ic L IH T|rc ic].
    - exists []. auto.
    - destruct IH as (n1 & T1 & F1 & E1). destruct (H r t E1) as (n2 & T2 & F2 & E2).
      exists (n2 ++ n1). rewrite T2, T1, app_assoc. split; [auto|]. split; [now apply Forall_app|].
      apply (gx_fs P (fun x => P (en_fs x)) t (snd (handle Y r t))); auto; exists n2; auto.
    - destruct IH as (n1 & T1 & F1 & E1). rewrite T in T1.
      replace (newer ++ x :: mid ++ st_trace s) with ((newer ++ x :: mid) ++ st_trace s) in T1 by (rewrite <- app_assoc; reflexivity).
      apply app_inv_tail in T1. subst n1. apply Forall_app in F1 as [_ F1].
      exists (x :: mid). cbn. split; [reflexivity|]. split; [exact F1|]. now inversion F1.
    - exists []. auto.
  Qed.
  Lemma later_pivot pv (s t : st) : content (st_fs s) Pivot = Some pv -> later Y s t ->
    grew s t (fun f => content f Pivot = Some pv).
  Proof.
    intros C. apply (later_grew (fun f => content f Pivot = Some pv)); [|exact C]. intros r u Hu.
    eapply gx_weaken; [|apply (handle_may r u)]. intros x ([V|(V & _)] & _).
    - rewrite <- Hu. now apply content_eq.
    - unfold content in Hu. rewrite V in Hu. discriminate Hu.
  Qed.
  Lemma later_quorum c (s t : st) : content (st_fs s) Quorum = Some c -> later Y s t ->
    grew s t (fun f => content f Quorum = Some c).
  Proof.
    intros C. apply (later_grew (fun f => content f Quorum = Some c)); [|exact C]. intros r u Hu.
    eapply gx_weaken; [|apply (handle_may r u)]. intros x (_ & [V|(V & _)] & _).
    - rewrite <- Hu. now apply content_eq.
    - unfold content in Hu. rewrite V in Hu. discriminate Hu.
  Qed.

  (** The phase graph has no way back to waiting for shards. *)
  Lemma serve_app a : forall b (s : st), snd (serve Y (a ++ b) s) = snd (serve Y b (snd (serve Y a s))).
  Proof.
    induction a as [|r a IH]; intros b s; [reflexivity|]. cbn [app]. rewrite !serve_cons. cbn [snd]. apply IH.
  Qed.
  Lemma still_waiting a b (s : st) : st_phase s = WaitingForQuorumShards ->
    st_phase (snd (serve Y (a ++ b) s)) = WaitingForQuorumShards -> st_phase (snd (serve Y a s)) = WaitingForQuorumShards.
  Proof.
    rewrite serve_app. set (t := snd (serve Y a s)). intros P Q.
    assert (X : st_phase t = WaitingForQuorumShards \/ terminal (st_phase t)).
    { unfold t. apply (serve_invariant (fun u => st_phase u = WaitingForQuorumShards \/ terminal (st_phase u))); [|now left].
      intros r u [U|U].
      - destruct (handle_edge r u) as [E|E]; [rewrite E; now left|]. rewrite U in E. inversion E; subst; unfold terminal; auto.
      - right. destruct (handle_edge r u) as [E|E]; [now rewrite E|]. exfalso.
        destruct U as [U|[U|U]]; rewrite U in E; inversion E. }
    destruct X as [X|X]; [exact X|]. now rewrite (serve_terminal b t X) in Q.
  Qed.
End LP.
