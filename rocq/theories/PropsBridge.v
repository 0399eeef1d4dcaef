(** C72: the port bridge, from a TCP client of the host to the application in the enclave. *)
From Coq Require Import Permutation ZifyBool ZifyN ZifyNat.
From Verif Require Import Stream PropsStream Proxy PropsProxy Pool PropsPool.
From Verif Require Import Base Utf8 Hex HexProofs Borsh Json JsonProofs Types TypesBorsh TypesJson TypesJsonProofs TypesJsonLaws StorageProofs JsonComb JsonCombLaws
  Msg MsgBorsh MsgJson World FsProofs CalmProofs Attest Services State SpecProtocol SpecApproval SpecAttest SpecHistory HandleProofs Reach Invariant ProtocolProofs HistoryProofs
  PropsMachine PropsHistory Wire SpecWire WireProofs PropsWire NetProofs Client Toy ToyRuns ClientNet SpecClientNet PropsClientNet Host PropsHost
  Reaper SpecReaper ReaperProofs PropsReaper Bridge.
Local Open Scope N_scope.

(** *** Specification *)
(** The reaper's bridges succeed on a port: its application socket exists and the port is below 65534. *)
Definition bridgeable (core : address) (p : N) : bool := match with_port core p with Some (Ok _) => host_bridge_ok p | _ => false end.
(** The bridge's enclave socket and the enclave's own name the same enclave: the same
    path, or any vsock (the cid the bridge was given is the enclave's). *)
Definition meets (sock core : address) : Prop :=
  match sock, core with AUnix p, AUnix p' => p = p' | AVsock _ _ _, AVsock _ _ _ => True | _, _ => False end.
(** Connecting to [a] from the host reaches whoever listens on [b] in the enclave. *)
Definition connects (a b : address) : Prop :=
  match a, b with AUnix p, AUnix p' => p = p' | AVsock _ p _, AVsock _ p' _ => p = p' | _, _ => False end.
(** A TCP client of the host's address [ip]:[q] is relayed to the application's 127.0.0.1:[p]. *)
Definition routed (es : list host_effect) (core : address) (acts : list action) (ip : ipv4) (q p : N) : Prop :=
  exists a b, In (HListen ip q a) es /\ In (ABridge p) acts /\ with_port core p = Some (Ok b) /\ connects a b.
(** The addresses [run_bridges] starts listeners for. *)
Definition listeners (es : list host_effect) : list (ipv4 * N) :=
  flat_map (fun e => match e with HListen ip p _ => [(ip, p)] | HEgress => [] end) es.
Definition host_egresses (es : list host_effect) : nat := length (filter (fun e => match e with HEgress => true | _ => false end) es).

(** The host's port for the application's port [p]: the same, unless one was given on the command line. *)
Definition tcp_port (override : option N) (p : N) : N := match override with Some q => q | None => p end.

(** *** Proofs *)
Lemma host_port_is ov p : host_port ov p = tcp_port ov p.
Proof. reflexivity. Qed.
Lemma with_port_connects sock core p a b q : meets sock core -> with_port sock p = Some (Ok a) -> with_port core q = Some (Ok b) -> connects a b -> p = q.
Proof.
  intros M A B C. destruct sock as [x|c x f], core as [y|c' y f']; try contradiction.
  - cbn in M. subst y. apply (c52_app_sockets_distinct (AUnix x) p q a b A B). pose proof A as A'. pose proof B as B'.
    cbn [with_port] in A', B'. destruct (unix_path x); [|discriminate]. destruct (negb _); [discriminate|].
    destruct (unix_addr_new _) eqn:U in A'; [|discriminate]. apply unix_new_ok in U as [-> _].
    destruct (negb _) in B'; [discriminate|]. destruct (unix_addr_new _) eqn:U in B'; [|discriminate]. apply unix_new_ok in U as [-> _].
    injection A' as <-. injection B' as <-. cbn in C. now f_equal.
  - cbn in A, B. injection A as <-. injection B as <-. exact C.
Qed.
Lemma with_port_meets sock core p b : meets sock core -> with_port core p = Some (Ok b) -> exists a, with_port sock p = Some (Ok a) /\ connects a b.
Proof.
  intros M B. destruct sock as [x|c x f], core as [y|c' y f']; try contradiction.
  - cbn in M. subst y. exists b. split; [exact B|]. cbn [with_port] in B. destruct (unix_path x); [|discriminate]. destruct (negb _); [discriminate|].
    destruct (unix_addr_new _) eqn:U; [|discriminate]. apply unix_new_ok in U as [-> _]. injection B as <-. reflexivity.
  - cbn in B. injection B as <-. eexists. split; reflexivity.
Qed.
Lemma ingress_in sock p q h es : run_ingress sock p q h = Some es ->
  forall ip r a, In (HListen ip r a) es <-> r = q /\ with_port sock p = Some (Ok a) /\ parse_ip h = Some ip.
Proof.
  unfold run_ingress. destruct (with_port sock p) as [[a|x]|] eqn:W; [|intros E; injection E as <-; intros ip r a; split; [intros []|intros (_ & X & _); discriminate]|discriminate].
  change (pool_new a 1) with (@Ok Pool.io_error pool (with_addresses [a])). destruct (parse_ip h) as [i|] eqn:P.
  2:{ intros E; injection E as <-. intros ip r b; split; [intros []|intros (_ & _ & X); discriminate]. }
  destruct (host_bridge_ok q); [|discriminate]. intros E; injection E as <-. intros ip r b. split.
  - intros [E|[]]. injection E as <- <- <-. auto.
  - intros (-> & E & F). injection E as <-. injection F as <-. now left.
Qed.
Lemma ingress_no_egress sock p q h es : run_ingress sock p q h = Some es -> host_egresses es = 0%nat.
Proof.
  unfold run_ingress. destruct (with_port sock p) as [[a|x]|]; try discriminate; [|intros E; now injection E as <-].
  change (pool_new a 1) with (@Ok Pool.io_error pool (with_addresses [a])). destruct (parse_ip h) as [i|]; [|intros E; now injection E as <-].
  destruct (host_bridge_ok q); [|discriminate]. intros E; now injection E as <-.
Qed.
Lemma host_bridges_in sock ov eg : forall l b es, host_bridges sock ov eg b l = (es, true) ->
  forall ip q a, In (HListen ip q a) es <-> exists p h, In (BServer p h) l /\ q = host_port ov p /\ with_port sock p = Some (Ok a) /\ parse_ip h = Some ip.
Proof.
  induction l as [|[p h|p h] l IH]; intros b es E ip q a; cbn [host_bridges] in E.
  - injection E as <-. split; [intros []|intros (p & h & [] & _)].
  - destruct (run_ingress sock p (host_port ov p) h) as [x|] eqn:R; [|discriminate]. destruct (host_bridges sock ov eg b l) as [y z] eqn:H. injection E as <- ->.
    specialize (IH b y H ip q a). rewrite in_app_iff, (ingress_in _ _ _ _ _ R), IH. split.
    + intros [(-> & W & P)|(p' & h' & I & X)]; [exists p, h|exists p', h']; (split; [|tauto]); [now left|now right].
    + intros (p' & h' & [I|I] & X); [|right; eauto]. injection I as <- <-. left. tauto.
  - assert (Y : exists y b', host_bridges sock ov eg b' l = (y, true) /\ forall ip q a, In (HListen ip q a) es <-> In (HListen ip q a) y).
    { destruct b; [exists es, true; split; [exact E|tauto]|]. destruct eg; [|discriminate]. destruct (host_bridges sock ov true true l) as [y z] eqn:H.
      injection E as <- ->. exists y, true. split; [exact H|]. intros. split; [intros [X|X]; [discriminate|exact X]|now right]. }
    destruct Y as (y & b' & H & Q). rewrite Q, (IH b' y H). split.
    + intros (p' & h' & I & X). exists p', h'. split; [now right|exact X].
    + intros (p' & h' & [I|I] & X); [discriminate|eauto].
Qed.
Lemma ports_in acts p : In p (bridge_ports acts) <-> In (ABridge p) acts.
Proof.
  unfold bridge_ports. rewrite in_flat_map. split.
  - intros (a & I & X). destruct a; try destruct X as [<-|[]]; try contradiction. exact I.
  - intros I. exists (ABridge p). split; [exact I|now left].
Qed.
Lemma server_in l p : In p (server_ports l) <-> exists h, In (BServer p h) l.
Proof.
  unfold server_ports. rewrite in_flat_map. split.
  - intros (a & I & X). destruct a; try destruct X as [<-|[]]; try contradiction. eauto.
  - intros (h & I). exists (BServer p h). split; [exact I|now left].
Qed.

(** Host and enclave, given the same entries, join exactly the ports of the entries. *)
Lemma wiring sock core ov eg cfg es acts : meets sock core -> host_bridges sock ov eg false cfg = (es, true) ->
  bridge_ports acts = server_ports cfg -> (forall p, In (ABridge p) acts -> bridgeable core p = true) ->
  forall ip q p, routed es core acts ip q p <-> exists h, In (BServer p h) cfg /\ parse_ip h = Some ip /\ q = tcp_port ov p.
Proof.
  intros M H B OK ip q p. pose proof (host_bridges_in _ _ _ _ _ _ H) as HI. split.
  - intros (a & b & I & A & W & C). apply HI in I as (p' & h & I & Q & W' & P). rewrite (with_port_connects sock core p' a b p M W' W C) in *. eauto.
  - intros (h & I & P & Q). assert (A : In (ABridge p) acts) by (apply ports_in; rewrite B; apply server_in; eauto).
    pose proof (OK p A) as X. unfold bridgeable in X. destruct (with_port core p) as [[b|]|] eqn:W; try discriminate.
    destruct (with_port_meets sock core p b M W) as (a & W' & C). exists a, b. split; [apply HI; exists p, h; auto|auto].
Qed.
Lemma reaper_bridgeable port_ok egress l : forall b p, In (ABridge p) (fst (run_bridges port_ok egress b l)) -> port_ok p = true.
Proof.
  induction l as [|[p h|p h] l IH]; intros b q; cbn [run_bridges].
  - intros [].
  - destruct (port_ok p) eqn:P; [|intros []]. specialize (IH b q). destruct (run_bridges port_ok egress b l) as [x y]. cbn in *. intros [E|I]; [injection E as <-; exact P|auto].
  - destruct b; [apply IH|]. destruct egress; [|intros []]. specialize (IH true q). destruct (run_bridges port_ok true true l) as [x y]. cbn in *. intros [E|I]; [discriminate|auto].
Qed.

Section Serve.
  Context {Y : sys} (OK : sys_ok Y) (NF : no_faults Y).
  Lemma info_keeps n x n' : reach Y (n_st n) -> info_response Y n = (x, n') -> reach Y (n_st n').
  Proof.
    assert (A : forall m (n : net Y) r n1, read_only m = true -> wf_req m = true -> reach Y (n_st n) -> ask Y m n = (r, n1) -> reach Y (n_st n1)).
    { intros m n0 r n1 O W R H. destruct (ask_inv Y m n0 r n1 H) as (l & [[-> _]|[-> _]]); [now apply meanwhile_reach|].
      apply R_step; [now apply meanwhile_reach|exact W]. }
    intros R H. unfold info_response in H. destruct (get_info Y n) as [i n1] eqn:G. assert (n1 = n') as -> by (injection H; auto). clear H.
    unfold get_info in G. destruct (ask Y StatusRequest n) as [r1 m1] eqn:A1. apply A in A1; auto.
    destruct r1 as [[]|]; try (assert (m1 = n') as -> by (injection G; auto); exact A1).
    destruct (ask Y ManifestEnvelopeRequest m1) as [r2 m2] eqn:A2. apply A in A2; auto.
    destruct r2 as [[]|]; try (assert (m2 = n') as -> by (injection G; auto); exact A2).
    destruct (ask Y LiveAttestationDocRequest m2) as [r3 m3] eqn:A3. apply A in A3; auto. assert (m3 = n') as -> by (injection G; auto). exact A3.
  Qed.
  Lemma serve_inv l : forall n res n', reach Y (n_st n) -> bridge_serve Y l n = (res, n') -> reach Y (n_st n') /\
    (res = BWaiting \/ exists m i, reach Y (n_st m) /\ get_info Y m = (Some i, n') /\ exists e, ei_envelope i = Some e /\ res = BRun (vm_bridge (env_manifest e))).
  Proof.
    induction l as [|f l IH]; intros n res n' R H; cbn [bridge_serve] in H.
    - assert (res = BWaiting /\ n = n') as [-> ->] by (injection H; auto). auto.
    - destruct f.
      + exact (IH n res n' R H).
      + destruct (info_response Y n) as [x n1] eqn:I. exact (IH n1 res n' (info_keeps n x n1 R I) H).
      + destruct (info_response Y n) as [[code [body|]] n1] eqn:I; [|exact (IH n1 res n' (info_keeps n _ n1 R I) H)].
        pose proof (info_keeps n _ n1 R I) as R1. destruct (code <? 400); [|exact (IH n1 res n' R1 H)].
        assert (code = 200) as ->. { unfold info_response in I. destruct (get_info Y n) as [[i|] m]; [|discriminate I]. injection I; auto. }
        destruct (c71_info_is_readable Y n n1 body I) as (i & G & J). rewrite J in H. destruct (ei_envelope i) as [e|] eqn:E; [|exact (IH n1 res n' R1 H)].
        assert (res = BRun (vm_bridge (env_manifest e)) /\ n1 = n') as [-> ->] by (injection H; auto). split; [exact R1|]. right. exists n, i. eauto 8.
  Qed.
  Lemma moment_end (s : st Y) tr f : moment Y s tr f -> exists new, st_trace s = new ++ tr.
  Proof. intros M. destruct M as [|newer x older E]; [now exists []|now exists newer]. Qed.
  Lemma stored_once (f : fsys) e e' : stored f e -> stored f e' -> e = e'.
  Proof. intros (c & C & D) (c' & C' & D'). assert (c = c') by congruence. subst. congruence. Qed.
End Serve.

(** *** Theorems *)
(** The bridge never panics on what the info route sends; and when it starts, the
    entries it uses are those of the manifest the enclave holds from then on, and of the
    one it is provisioned with. *)
Theorem c72_bridge_uses_the_enclaves_manifest : forall Y, sys_ok Y -> no_faults Y -> forall attempts n res n', reach Y (n_st n) ->
  bridge_serve Y attempts n = (res, n') ->
  res <> BPanic /\ forall cfg, res = BRun cfg -> forall l,
    (exists e, stored (st_fs (meanwhile Y l (n_st n'))) e /\ vm_bridge (env_manifest e) = cfg)
    /\ forall e, booted_with (meanwhile Y l (n_st n')) e -> vm_bridge (env_manifest e) = cfg.
Proof.
  intros Y OK NF attempts n res n' R H. destruct (serve_inv attempts n res n' R H) as (R' & [->|(m & i & Rm & G & e & E & ->)]); [split; discriminate|].
  split; [discriminate|]. intros cfg C l. injection C as <-.
  destruct (c71_reported_manifest_is_final Y OK NF m i n' Rm G) as [_ F]. destruct (F e E l) as (e1 & S1 & X1 & _).
  split; [exists e1; split; [exact S1|now rewrite X1]|]. intros e2 (tr & f & M & Q & S2).
  set (t := meanwhile Y l (n_st n')) in *. assert (Rt : reach Y t) by (now apply meanwhile_reach). destruct (moment_end t tr f M) as (new & T).
  pose proof (c05_all_files_frozen Y OK t tr f _ _ new Rt M (Mo_now Y t) T Q Manif) as Z.
  assert (S3 : stored (st_fs t) e2) by (exact (stored_content _ _ _ Z S2)). rewrite <- (stored_once _ _ _ S1 S3). now rewrite X1.
Qed.
Print Assumptions c72_bridge_uses_the_enclaves_manifest.

(** It starts at the first undisturbed attempt once the enclave holds a manifest that fits into an answer. *)
Theorem c72_bridge_starts : forall Y, no_faults Y -> forall n rest l e a, n_script n = ([], Through) :: ([], Through) :: ([], Through) :: rest ->
  st_phase (n_st n) <> GenesisBooted -> stored (st_fs (n_st n)) e -> to_wire (ManifestEnvelopeResponse (Some e)) EJson = Ok a -> fits a ->
  fst (bridge_serve Y (Reply :: l) n) = BRun (vm_bridge (env_manifest e)).
Proof.
  intros Y NF n rest l e a S P St T F. destruct (c71_info_answers Y NF n rest S) as [_ H]. destruct (H P (Some e) a St T F) as (k & G). clear H.
  cbn [bridge_serve]. destruct (info_response Y n) as [[code body] n1] eqn:I. pose proof I as I'. unfold info_response in I'.
  destruct (get_info Y n) as [o n2] eqn:GI. cbn [fst] in G. subst o.
  assert (B : exists b, code = 200 /\ body = Some b). { eexists. split; [injection I'; auto|]. symmetry. injection I' as _ X _. exact X. }
  destruct B as (b & -> & ->). clear I'. destruct (c71_info_is_readable Y n n1 b I) as (i & G & J). rewrite GI in G.
  assert (i = EnclaveInfo (st_phase (n_st n)) (Some e) k) as -> by (injection G; auto). change (200 <? 400) with true. cbv iota. rewrite J. reflexivity.
Qed.
Print Assumptions c72_bridge_starts.

(** End to end: once the bridge has run to the end and the enclave has started its
    application, the host's clients are relayed exactly as the manifest says, to the application's port of the entry. *)
Theorem c72_clients_reach_exactly_the_configured_ports : forall Y, sys_ok Y -> no_faults Y ->
  forall attempts n cfg n' l sock core override egress egress' es obs, reach Y (n_st n) ->
  bridge_serve Y attempts n = (BRun cfg, n') -> meets sock core ->
  host_bridges sock override egress false cfg = (es, true) ->
  observed Y (meanwhile Y l (n_st n')) [] obs ->
  let acts := fst (reaper (bridgeable core) egress' obs) in
  spawns acts <> [] ->
  forall ip q p, routed es core acts ip q p <-> exists h, In (BServer p h) cfg /\ parse_ip h = Some ip /\ q = tcp_port override p.
Proof.
  intros Y OK NF attempts n cfg n' l sock core ov eg eg' es obs R H M HB O acts Sp.
  destruct (c72_bridge_uses_the_enclaves_manifest Y OK NF attempts n _ n' R H) as [_ X]. destruct (X cfg eq_refl l) as [_ B]. clear X.
  destruct (serve_inv attempts n _ n' R H) as [R' _]. set (t := meanwhile Y l (n_st n')) in *. assert (Rt : reach Y t) by (now apply meanwhile_reach).
  destruct (c47_bridges_as_configured Y OK (bridgeable core) eg' t obs Rt O Sp) as (e & pre & post & BW & Eq & _ & PP & BP & _).
  apply (wiring sock core ov eg cfg es acts M HB).
  - fold acts in Eq. rewrite Eq. unfold bridge_ports in *. rewrite flat_map_app, BP, (B e BW).
    assert (Z : flat_map (fun a => match a with ABridge p => [p] | _ => [] end) post = []).
    { unfold spawns in PP. rewrite <- PP. clear. induction post as [|a post IH]; [reflexivity|]. cbn [filter]. destruct a; cbn; auto. }
    rewrite Z. apply app_nil_r.
  - intros p I. unfold acts in I. destruct (reaper_shape OK (bridgeable core) eg' t obs Rt O) as [E|(tr & f & e0 & rest & _ & _ & _ & _ & _ & _ & E)]; [rewrite E in I; destruct I|].
    specialize (E []). rewrite !app_nil_r in E. rewrite E in I. unfold launch in I.
    pose proof (reaper_bridgeable (bridgeable core) eg' (vm_bridge (env_manifest e0)) false p) as RB.
    pose proof (spawn_loop_all (env_manifest e0) rest (ABridge p)) as SL.
    destruct (run_bridges (bridgeable core) eg' false (vm_bridge (env_manifest e0))) as [br okb]. cbn [fst] in RB.
    assert (J : In (ABridge p) br).
    { destruct okb; [destruct (spawn_loop (env_manifest e0) rest) as [sp x]|]; cbn [fst] in I, SL; rewrite !in_app_iff in I;
        (destruct I as [I|I]; [destruct (vm_dns (env_manifest e0)); [destruct I as [I|[]]; discriminate|destruct I]|]).
      - destruct I as [I|I]; [exact I|]. destruct (SL I). discriminate.
      - exact I. }
    exact (RB J).
Qed.
Print Assumptions c72_clients_reach_exactly_the_configured_ports.

(** One egress program, exactly if there is a Client entry. *)
Theorem c72_at_most_one_egress : forall sock override egress cfg es, host_bridges sock override egress false cfg = (es, true) ->
  host_egresses es = (if has_client cfg then 1 else 0)%nat.
Proof.
  intros sock ov eg cfg es.
  assert (G : forall l b es, host_bridges sock ov eg b l = (es, true) -> host_egresses es = (if b then 0 else if has_client l then 1 else 0)%nat).
  { clear. induction l as [|[p h|p h] l IH]; intros b es E; cbn [host_bridges] in E.
    - injection E as <-. destruct b; reflexivity.
    - destruct (run_ingress sock p (host_port ov p) h) as [x|] eqn:R; [|discriminate]. destruct (host_bridges sock ov eg b l) as [y z] eqn:H. injection E as <- ->.
      apply ingress_no_egress in R. specialize (IH b y H). unfold host_egresses in *. rewrite filter_app, app_length, R, IH. reflexivity.
    - destruct b; [exact (IH true es E)|]. destruct eg; [|discriminate]. destruct (host_bridges sock ov true true l) as [y z] eqn:H. injection E as <- ->.
      specialize (IH true y H). unfold host_egresses in *. cbn. now rewrite IH. }
  apply (G cfg false es).
Qed.
Print Assumptions c72_at_most_one_egress.

(** One connection, either direction, whatever the kernel does and wherever it is cut:
    the far end receives a prefix of what was sent, and all of it if both copies end normally. *)
Theorem c72_relay_is_transparent : forall a b sent,
  PropsStream.prefix (snd (relay a b sent)) sent /\ (fst (relay a b sent) = (Stream.Finished (Ok tt), Stream.Finished (Ok tt)) -> snd (relay a b sent) = sent).
Proof.
  intros a b sent. unfold relay. destruct (copy (l_fuel a) _ 0 _ 0 sent) as [o1 t1] eqn:C1. destruct (copy (l_fuel b) _ 0 _ 0 (on_wire t1)) as [o2 t2] eqn:C2.
  destruct (copy_spec _ _ _ _ _ _ _ _ C1) as ((x & P1) & F1). destruct (copy_spec _ _ _ _ _ _ _ _ C2) as ((y & P2) & F2). cbn [fst snd]. split.
  - exists (y ++ x). rewrite P1, P2, <- app_assoc. reflexivity.
  - intros E. injection E as -> ->. now rewrite (F2 eq_refl), (F1 eq_refl).
Qed.
Print Assumptions c72_relay_is_transparent.

(** Binding: whatever the order in which the listeners' tasks run, all of them bind if no two
    addresses conflict; ... *)
Lemma byte_eqb_eq a b : byte_eqb a b = true <-> a = b.
Proof. destruct (byte_eqb_spec a b); split; congruence. Qed.
Lemma ipv4_eqb_eq a b : ipv4_eqb a b = true <-> a = b.
Proof.
  destruct a as [a1 a2 a3 a4], b as [b1 b2 b3 b4]. unfold ipv4_eqb. cbn. rewrite !andb_true_iff, !byte_eqb_eq. split; [intros (((-> & ->) & ->) & ->); reflexivity|intros E; now injection E].
Qed.
Lemma bind_all_keeps l : forall bound x, In x bound -> In x (bind_all bound l).
Proof.
  induction l as [|a l IH]; intros bound x I; cbn [bind_all]; [exact I|]. destruct (existsb (taken a) bound); apply IH; [exact I|]. apply in_or_app; now left.
Qed.
Lemma bind_all_only l : forall bound x, In x (bind_all bound l) -> In x bound \/ In x l.
Proof.
  induction l as [|a l IH]; intros bound x I; cbn [bind_all] in I; [now left|]. destruct (existsb (taken a) bound).
  - destruct (IH _ _ I); [now left|right; now right].
  - destruct (IH _ _ I) as [J|J]; [apply in_app_or in J as [J|[<-|[]]]; [now left|right; now left]|right; now right].
Qed.
Definition no_conflict (l : list (ipv4 * N)) : Prop := ForallOrdPairs (fun x y => taken x y = false /\ taken y x = false) l.
Lemma bind_all_disjoint l : forall bound, no_conflict (bound ++ l) -> bind_all bound l = bound ++ l.
Proof.
  induction l as [|a l IH]; intros bound NC; cbn [bind_all]; [now rewrite app_nil_r|].
  assert (X : existsb (taken a) bound = false).
  { clear IH. induction bound as [|b bound IH]; [reflexivity|]. inversion NC as [|? ? F NC']; subst. cbn [existsb]. rewrite (IH NC'), orb_false_r.
    rewrite Forall_forall in F. destruct (F a); [apply in_or_app; right; now left|]. assumption. }
  rewrite X, IH, <- app_assoc by (now rewrite <- app_assoc). reflexivity.
Qed.
Lemma taken_sym x y : taken x y = taken y x.
Proof.
  unfold taken. rewrite (N.eqb_sym (snd x)). destruct (snd y =? snd x); [|reflexivity]. cbn [andb].
  assert (E : ipv4_eqb (fst x) (fst y) = ipv4_eqb (fst y) (fst x)).
  { destruct (ipv4_eqb (fst x) (fst y)) eqn:A; symmetry.
    - apply ipv4_eqb_eq in A. rewrite A. now apply ipv4_eqb_eq.
    - destruct (ipv4_eqb (fst y) (fst x)) eqn:B; [|reflexivity]. apply ipv4_eqb_eq in B. rewrite B in A. rewrite <- A. symmetry. now apply ipv4_eqb_eq. }
  rewrite E. destruct (ipv4_eqb (fst y) (fst x)), (ipv4_eqb (fst x) wildcard), (ipv4_eqb (fst y) wildcard); reflexivity.
Qed.
Lemma no_conflict_perm l l' : Permutation l l' -> no_conflict l -> no_conflict l'.
Proof.
  unfold no_conflict. induction 1 as [|x l l' P IH|x y l|l l' l'' P1 IH1 P2 IH2]; intros NC; auto.
  - inversion NC as [|? ? F NC']; subst. constructor; [|auto]. rewrite Forall_forall in *. intros z I. apply F. now apply (Permutation_in z (Permutation_sym P)).
  - inversion NC as [|? ? F NC']; subst. inversion NC' as [|? ? F' NC'']; subst. inversion F as [|? ? F1 F2]; subst. constructor.
    + constructor; [tauto|exact F'].
    + constructor; [exact F2|exact NC''].
Qed.
Theorem c72_every_listener_binds : forall es order, no_conflict (listeners es) -> Permutation (listeners es) order -> bind_all [] order = order.
Proof. intros es order NC P. apply (bind_all_disjoint order []). cbn. exact (no_conflict_perm _ _ P NC). Qed.
Print Assumptions c72_every_listener_binds.

(** ... and an address once bound excludes the ones it conflicts with. *)
Lemma bind_all_conflict l : forall bound, no_conflict bound -> no_conflict (bind_all bound l).
Proof.
  induction l as [|a l IH]; intros bound NC; cbn [bind_all]; [exact NC|]. destruct (existsb (taken a) bound) eqn:X; [now apply IH|]. apply IH.
  apply (no_conflict_perm (a :: bound)); [apply Permutation_cons_append|]. constructor; [|exact NC]. apply Forall_forall. intros b I.
  assert (taken a b = false).
  { destruct (taken a b) eqn:T; [|reflexivity]. assert (existsb (taken a) bound = true) by (apply existsb_exists; eauto). congruence. }
  split; [assumption|now rewrite taken_sym].
Qed.

(** Finding: the host-port override maps every Server entry to one port; so with two
    entries on one address the second listener never binds, and its port is unreachable
    although the manifest configures it and the bridge reports no failure. *)
Theorem c72_refuted_override_serves_every_entry : ~ (forall sock override egress cfg es order,
  host_bridges sock override egress false cfg = (es, true) -> NoDup (server_ports cfg) -> Permutation (listeners es) order -> bind_all [] order = order).
Proof.
  intros H. specialize (H (AVsock 3 3001 0) (Some 8080) true [BServer 80 (bs "0.0.0.0"); BServer 81 (bs "0.0.0.0")] _ [(wildcard, 8080); (wildcard, 8080)] eq_refl).
  assert (X : bind_all [] [(wildcard, 8080); (wildcard, 8080)] = [(wildcard, 8080); (wildcard, 8080)]).
  { apply H; [|apply Permutation_refl]. cbn. constructor; [intros [E|[]]; discriminate|]. constructor; [intros []|constructor]. }
  discriminate X.
Qed.
Print Assumptions c72_refuted_override_serves_every_entry.

(** When the bridge panics: exactly on a Server entry with a valid host on port 65534
    or 65535 (or a socket path too long), or a Client entry without egress support. *)
Definition startable (sock : address) (override : option N) (egress : bool) (b : bridge_config) : Prop :=
  match b with
  | BServer p h => with_port sock p <> None /\ ((exists a ip, with_port sock p = Some (Ok a) /\ parse_ip h = Some ip) -> tcp_port override p < 65534)
  | BClient _ _ => egress = true
  end.
Theorem c72_bridge_runs_to_the_end : forall sock override egress cfg,
  snd (host_bridges sock override egress false cfg) = true <-> Forall (startable sock override egress) cfg.
Proof.
  intros sock ov eg cfg.
  assert (I : forall p h, run_ingress sock p (host_port ov p) h <> None <-> startable sock ov eg (BServer p h)).
  { intros p h. cbn [startable]. unfold run_ingress. destruct (with_port sock p) as [[a|x]|].
    - change (pool_new a 1) with (@Ok Pool.io_error pool (with_addresses [a])). destruct (parse_ip h) as [i|].
      + unfold host_bridge_ok. rewrite host_port_is. destruct (N.ltb_spec (1 + tcp_port ov p) 65535); (split; [intros A|intros [_ A]]).
        * split; [discriminate|intros; lia].
        * discriminate.
        * congruence.
        * exfalso. enough (tcp_port ov p < 65534) by lia. apply A. eauto.
      + split; [intros _; split; [discriminate|intros (b & ip & _ & X); discriminate]|discriminate].
    - split; [intros _; split; [discriminate|intros (b & ip & X & _); discriminate]|discriminate].
    - split; [intros A; congruence|intros [A _]; congruence]. }
  assert (G : forall l b, (b = true -> eg = true) -> (snd (host_bridges sock ov eg b l) = true <-> Forall (startable sock ov eg) l)).
  { induction l as [|[p h|p h] l IH]; intros b HB; cbn [host_bridges].
    - split; [constructor|reflexivity].
    - rewrite Forall_cons_iff, <- I. specialize (IH b HB). destruct (run_ingress sock p (host_port ov p) h) as [x|].
      + destruct (host_bridges sock ov eg b l) as [y z]. cbn [snd] in *. rewrite IH. split; [intros; split; [discriminate|auto]|tauto].
      + cbn. split; [discriminate|intros [A _]; congruence].
    - rewrite Forall_cons_iff. cbn [startable]. destruct b.
      + rewrite (IH true HB). split; [intros; split; auto|tauto].
      + destruct eg; [|cbn; split; [discriminate|intros [A _]; congruence]]. specialize (IH true (fun _ => eq_refl)).
        destruct (host_bridges sock ov true true l) as [y z]. cbn [snd] in *. rewrite IH. tauto. }
  apply G. discriminate.
Qed.
Print Assumptions c72_bridge_runs_to_the_end.
Theorem c72_refuted_every_port_can_be_bridged : ~ (forall sock cfg, (forall p h, In (BServer p h) cfg -> p < 65536 /\ with_port sock p <> None) ->
  snd (host_bridges sock None true false cfg) = true).
Proof.
  intros H. specialize (H (AVsock 3 3001 0) [BServer 65534 (bs "0.0.0.0")]). assert (X : snd (host_bridges (AVsock 3 3001 0) None true false [BServer 65534 (bs "0.0.0.0")]) = true).
  { apply H. intros p h [E|[]]. injection E as <- <-. split; [reflexivity|discriminate]. }
  discriminate X.
Qed.
Print Assumptions c72_refuted_every_port_can_be_bridged.

(** The control socket of the enclave (the one the protocol server listens on) is never
    the target of the bridge with unix sockets; finding: with vsock it is, for a Server
    entry on the control port, since an application socket then differs from it in nothing but the port. *)
Theorem c72_unix_control_socket_is_not_exposed : forall path override egress cfg es ip q a,
  host_bridges (AUnix path) override egress false cfg = (es, true) -> In (HListen ip q a) es -> ~ connects a (AUnix path).
Proof.
  intros path ov eg cfg es ip q a H I C. apply (host_bridges_in _ _ _ _ _ _ H) in I as (p & h & _ & _ & W & _).
  apply (c52_app_socket_is_not_the_base path p a W). destruct a; [|contradiction]. cbn in C. now f_equal.
Qed.
Print Assumptions c72_unix_control_socket_is_not_exposed.
Theorem c72_refuted_control_socket_is_not_exposed : ~ (forall sock control override egress cfg es ip q a, meets sock control ->
  host_bridges sock override egress false cfg = (es, true) -> In (HListen ip q a) es -> ~ connects a control).
Proof.
  intros H. apply (H (AVsock 16 3001 1) (AVsock 16 3000 1) None true [BServer 3000 (bs "0.0.0.0")] _ wildcard 3000 (AVsock 16 3000 1) I eq_refl); [now left|reflexivity].
Qed.
Print Assumptions c72_refuted_control_socket_is_not_exposed.

(** Non-vacuity. *)
Definition cfg4 : list bridge_config := [BServer 80 (bs "0.0.0.0"); BClient 443 None; BServer 81 (bs "10.0.0.1"); BClient 1 None; BServer 82 (bs "localhost")].
Example c72_nontrivial :
  host_bridges (AVsock 16 3001 1) None true false cfg4
    = ([HListen wildcard 80 (AVsock 16 80 1); HEgress; HListen (Ipv4 x0a x00 x00 x01) 81 (AVsock 16 81 1)], true)
  /\ no_conflict (listeners (fst (host_bridges (AVsock 16 3001 1) None true false cfg4)))
  /\ routed (fst (host_bridges (AUnix (bs "/tmp/e.sock")) (Some 9000) true false cfg4)) (AUnix (bs "/tmp/e.sock"))
       (fst (run_bridges (bridgeable (AUnix (bs "/tmp/e.sock"))) true false cfg4)) wildcard 9000 80.
Proof.
  split; [vm_compute; reflexivity|]. split.
  - vm_compute. constructor; [constructor; [split; reflexivity|constructor]|constructor; [constructor|constructor]].
  - exists (AUnix (bs "/tmp/e.sock.80.appsock")), (AUnix (bs "/tmp/e.sock.80.appsock")). vm_compute. auto 10.
Qed.
