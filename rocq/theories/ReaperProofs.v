From Coq Require Import ZifyBool ZifyN ZifyNat.
From Verif Require Import Base Utf8 Hex HexProofs Types Json TypesJson StorageProofs Msg World Run FsProofs Attest Services
  ServiceProofs BootProofs State SpecProtocol HandleProofs Reach Invariant ProtocolProofs EffectProofs
  SpecApproval ApprovalProofs SpecAttest AttestProofs SpecHistory HistoryProofs Reaper SpecReaper.
Local Open Scope N_scope.

Section RP.
  Context {Y : sys} (OK : sys_ok Y) (port_ok : N -> bool) (egress : bool).
  Local Notation st := (st Y).

  (** Once the key file has been seen, every later observation agrees with it. *)
  Lemma seen_later (s : st) tr0 f l : reach Y s -> moment Y s tr0 f -> f (Main Quorum) <> None -> observed Y s tr0 l ->
    Forall (fun g => forall p, content g p = content f p) l.
  Proof.
    intros R M Q O. revert M. generalize dependent f. induction O as [tr|tr0 new g l H O IH]; intros f Q M; [constructor|].
    assert (E : forall p, content g p = content f p).
    { destruct H as [Mg|(-> & -> & Z)].
      - eapply (later_frozen OK s tr0 f (new ++ tr0) g new R M Mg eq_refl Q).
      - exfalso. pose proof (reach_empty s R) as RE. inversion M; subst.
        + apply Q. now apply RE. }
    constructor; [exact E|].
    destruct H as [Mg|(-> & -> & Z)].
    - assert (Qg : g (Main Quorum) <> None).
      { specialize (E Quorum). unfold content in E. intros X. rewrite X in E. cbn in E. apply Q. destruct (f (Main Quorum)); [discriminate E|reflexivity]. }
      eapply Forall_impl; [|apply (IH g Qg Mg)]. intros h Hh p. rewrite Hh. apply E.
    - exfalso. pose proof (reach_empty s R) as RE. inversion M; subst. apply Q. now apply RE.
  Qed.

  Lemma poll_found (s : st) l rest tr0 : reach Y s -> observed Y s tr0 l -> poll l = Some rest ->
    exists tr f, moment Y s tr f /\ f (Main Quorum) <> None /\ Forall (fun g => forall p, content g p = content f p) rest
      /\ f (Main Pivot) <> None /\ f (Main Manif) <> None.
  Proof.
    intros R. remember (length l) as n eqn:L. assert (Ln : (length l <= n)%nat) by lia. clear L. revert l tr0 Ln.
    induction n as [|n IH]; intros l tr0 Ln O H.
    - destruct l; [discriminate H|cbn in Ln; lia].
    - destruct l as [|f1 l1]; [discriminate H|]. cbn [poll] in H. inversion O as [|? new ? ? M O1]; subst.
      cbn [length] in Ln. destruct (present f1 Quorum) eqn:P1; [|eapply (IH l1); [lia|exact O1|exact H]].
      destruct l1 as [|f2 l2]; [discriminate H|]. inversion O1 as [|? new2 ? ? M2 O2]; subst. cbn [length] in Ln.
      destruct (present f2 Pivot) eqn:P2; [|eapply (IH l2); [lia|exact O2|exact H]].
      destruct l2 as [|f3 l3]; [discriminate H|]. inversion O2 as [|? new3 ? ? M3 O3]; subst. cbn [length] in Ln.
      destruct (present f3 Manif) eqn:P3; [|eapply (IH l3); [lia|exact O3|exact H]].
      inversion H; subst rest.
      assert (Q1 : f1 (Main Quorum) <> None) by (unfold present in P1; intros X; rewrite X in P1; discriminate P1).
      destruct M as [M|(_ & _ & Z)]; [|exfalso; apply Q1, Z].
      pose proof (seen_later s _ f1 _ R M Q1 O1) as F. inversion F as [|? ? E2 F2]; subst. inversion F2 as [|? ? E3 F3]; subst.
      exists (new ++ tr0), f1. split; [exact M|]. split; [exact Q1|]. split; [exact F3|].
      unfold present in P2, P3. split.
      + specialize (E2 Pivot). unfold content in E2. destruct (f2 (Main Pivot)); [|discriminate]. intros X. rewrite X in E2. discriminate E2.
      + specialize (E3 Manif). unfold content in E3. destruct (f3 (Main Manif)); [|discriminate]. intros X. rewrite X in E3. discriminate E3.
  Qed.

  Lemma spawn_loop_in m l c args env piped : In (ASpawn c args env piped) (fst (spawn_loop m l)) ->
    args = vm_args m /\ env = [] /\ piped = vm_debug m /\ exists f, In f l /\ content f Pivot = Some c.
  Proof.
    induction l as [|f l IH]; cbn; [intros []|]. destruct (f (Main Pivot)) as [[c' mm]|] eqn:F; [|intros []].
    assert (C : content f Pivot = Some c') by (unfold content; now rewrite F).
    destruct (spawnable (vm_args m)); cbn [negb]; [|intros []].
    destruct (vm_restart m).
    - cbn. intros [E|[]]. inversion E; subst. eauto 8.
    - destruct (spawn_loop m l) as [acts e]. cbn in *. intros [E|I].
      + inversion E; subst. eauto 8.
      + destruct (IH I) as (A & B & D & g & Ig & Cg). eauto 9.
  Qed.
  Lemma bridges_no_spawn l : forall b a, In a (fst (run_bridges port_ok egress b l)) -> is_bridge a = true /\ is_spawn a = false.
  Proof.
    induction l as [|[p h|p h] l IH]; intros b a; cbn; [intros []| |].
    - destruct (port_ok p); [|intros []]. specialize (IH b a). destruct (run_bridges port_ok egress b l) as [x y]. cbn in *.
      intros [<-|I]; auto.
    - destruct b; [apply IH|]. destruct egress; [|intros []]. specialize (IH true a). destruct (run_bridges port_ok true true l) as [x y].
      cbn in *. intros [<-|I]; auto.
  Qed.

  Lemma launch_spawn m l c args env piped : In (ASpawn c args env piped) (fst (launch port_ok egress m l)) ->
    In (ASpawn c args env piped) (fst (spawn_loop m l)).
  Proof.
    unfold launch. pose proof (bridges_no_spawn (vm_bridge m) false (ASpawn c args env piped)) as NB.
    destruct (run_bridges port_ok egress false (vm_bridge m)) as [br ok]. cbn in NB.
    assert (D : In (ASpawn c args env piped) (match vm_dns m with Some d => [AResolv (resolv_conf d)] | None => [] end) -> False).
    { destruct (vm_dns m); cbn; [intros [X|[]]; discriminate X|intros []]. }
    destruct ok.
    - destruct (spawn_loop m l) as [sp e]. cbn. rewrite !in_app_iff. intros [X|[X|X]]; [exfalso; auto| |exact X].
      destruct (NB X) as [_ X']. discriminate X'.
    - cbn. rewrite in_app_iff. intros [X|X]; [exfalso; auto|]. destruct (NB X) as [_ X']. discriminate X'.
  Qed.

  Lemma spawn_sound (s : st) l c args env piped : reach Y s -> observed Y s [] l ->
    In (ASpawn c args env piped) (fst (reaper port_ok egress l)) ->
    exists tr f e seed k, moment Y s tr f /\ content f Quorum = Some (encode seed) /\ length seed = 32%nat /\ s_pair Y seed = Some k
      /\ stored f e /\ check_approvals Y e = Ok tt
      /\ ns_quorum_key (vm_namespace (env_manifest e)) = public_to_bytes k
      /\ s_sha256 Y c = vm_pivot_hash (env_manifest e) /\ args = vm_args (env_manifest e)
      /\ piped = vm_debug (env_manifest e).
  Proof.
    intros R O I. unfold reaper in I. destruct (poll l) as [rest|] eqn:P; [|destruct I].
    destruct (poll_found s l rest [] R O P) as (tr & f & M & Q & F & Pp & Pm).
    destruct rest as [|g rest]; [destruct I|].
    inversion F as [|? ? Eg Fr]; subst.
    destruct (content f Quorum) as [qc|] eqn:Cq.
    2:{ exfalso. apply Q. unfold content in Cq. destruct (f (Main Quorum)); [discriminate|reflexivity]. }
    destruct (moment_snap OK s tr f R M qc Cq) as (seed & k & e & pv & live & lk & sp & -> & L & Pk & St & Ca & _ & _ & Qk & Cp & Hp & _).
    assert (Rm : read_manifest g = Some e).
    { destruct St as (mc & Mc & D). unfold read_manifest. specialize (Eg Manif). rewrite Mc in Eg. unfold content in Eg.
      destruct (g (Main Manif)) as [[? ?]|]; [|discriminate]. cbn in Eg. inversion Eg; subst. exact D. }
    rewrite Rm in I. apply launch_spawn, spawn_loop_in in I as (-> & -> & -> & h & Ih & Ch).
    rewrite Forall_forall in Fr. rewrite (Fr h Ih), Cp in Ch. inversion Ch; subst.
    exists tr, f, e, seed, k. auto 12.
  Qed.

  Lemma bridges_ok l : (forall p, In p (server_ports l) -> port_ok p = true) -> egress = true ->
    forall b, snd (run_bridges port_ok egress b l) = true.
  Proof.
    intros H E. induction l as [|[p h|p h] l IH]; intros b; cbn; [reflexivity| |].
    - rewrite (H p) by (cbn; auto). specialize (IH (fun q Hq => H q (or_intror Hq)) b). destruct (run_bridges port_ok egress b l). exact IH.
    - specialize (IH H). destruct b; [apply IH|]. rewrite E in *. specialize (IH true). destruct (run_bridges port_ok true true l). exact IH.
  Qed.
  Lemma spawnable_iff args : spawnable args = true <-> forall a, In a args -> ~ In x00 a.
  Proof.
    unfold spawnable. rewrite forallb_forall. split; intros H a I.
    - intros Z. specialize (H a I). apply negb_true_iff in H. assert (X : existsb (byte_eqb x00) a = true) by (apply existsb_exists; exists x00; split; [exact Z|apply byte_eqb_refl]). congruence.
    - apply negb_true_iff. destruct (existsb (byte_eqb x00) a) eqn:E; [|reflexivity]. apply existsb_exists in E as (z & Iz & Ez).
      exfalso. apply (H a I). unfold byte_eqb in Ez. apply Byte.byte_dec_bl in Ez. now subst.
  Qed.
  Lemma unspawnable m l : spawnable (vm_args m) = false -> fst (spawn_loop m l) = [] /\ (snd (spawn_loop m l) = Running /\ l = [] \/ snd (spawn_loop m l) = Panicked).
  Proof. intros H. destruct l as [|f l]; cbn; [auto|]. destruct (f (Main Pivot)) as [[c mm]|]; cbn; [|auto]. rewrite H. cbn. auto. Qed.
  Lemma spawn_loop_no_panic m l : spawnable (vm_args m) = true -> Forall (fun f => content f Pivot <> None) l -> snd (spawn_loop m l) <> Panicked.
  Proof.
    intros SP. induction 1 as [|f l H F IH]; cbn; [discriminate|]. unfold content in H. destruct (f (Main Pivot)) as [[c mm]|]; [|exfalso; apply H; reflexivity].
    rewrite SP. cbn [negb]. destruct (vm_restart m); [discriminate|]. destruct (spawn_loop m l). exact IH.
  Qed.

  Lemma reaper_no_panic (s : st) l : reach Y s -> observed Y s [] l -> (forall p, port_ok p = true) ->
    (forall e, booted_with s e -> spawnable (vm_args (env_manifest e)) = true) -> egress = true ->
    snd (reaper port_ok egress l) <> Panicked.
  Proof.
    intros R O PO SP. unfold reaper. destruct (poll l) as [rest|] eqn:P; [|discriminate].
    destruct (poll_found s l rest [] R O P) as (tr & f & M & Q & F & Pp & Pm).
    destruct rest as [|g rest]; [discriminate|].
    inversion F as [|? ? Eg Fr]; subst.
    destruct (content f Quorum) as [qc|] eqn:Cq.
    2:{ exfalso. apply Q. unfold content in Cq. destruct (f (Main Quorum)); [discriminate|reflexivity]. }
    destruct (moment_snap OK s tr f R M qc Cq) as (seed & k & e & pv & live & lk & sp & -> & L & Pk & St & Ca & _ & _ & Qk & Cp & Hp & _).
    assert (Rm : read_manifest g = Some e).
    { destruct St as (mc & Mc & D). unfold read_manifest. specialize (Eg Manif). rewrite Mc in Eg. unfold content in Eg.
      destruct (g (Main Manif)) as [[? ?]|]; [|discriminate]. cbn in Eg. inversion Eg; subst. exact D. }
    rewrite Rm. unfold launch. intros EG.
    pose proof (bridges_ok (vm_bridge (env_manifest e)) (fun p _ => PO p) EG false) as B.
    destruct (run_bridges port_ok egress false (vm_bridge (env_manifest e))) as [br ok]. cbn in B. subst ok.
    pose proof (spawn_loop_no_panic (env_manifest e) rest) as N. destruct (spawn_loop (env_manifest e) rest) as [sp' en]. cbn in *.
    apply N; [apply SP; exists tr, f; split; [exact M|]; split; [congruence|exact St]|].
    eapply Forall_impl; [|exact Fr]. intros h Hh. cbn. rewrite Hh, Cp. discriminate.
  Qed.

  (** *** restart policy *)
  Lemma filter_none {A} (p : A -> bool) l : (forall x, In x l -> p x = false) -> filter p l = [].
  Proof.
    induction l as [|x l IH]; intros H; [reflexivity|]. cbn. rewrite (H x) by (now left). apply IH. intros y Hy. apply H. now right.
  Qed.
  Lemma filter_all {A} (p : A -> bool) l : (forall x, In x l -> p x = true) -> filter p l = l.
  Proof.
    induction l as [|x l IH]; intros H; [reflexivity|]. cbn. rewrite (H x) by (now left). f_equal. apply IH. intros y Hy. apply H. now right.
  Qed.
  Lemma spawn_loop_all m l : forall a, In a (fst (spawn_loop m l)) -> is_spawn a = true /\ is_bridge a = false.
  Proof.
    induction l as [|f l IH]; intros a; cbn; [intros []|]. destruct (f (Main Pivot)) as [[c mm]|]; [|intros []].
    destruct (spawnable (vm_args m)); cbn [negb]; [|intros []].
    destruct (vm_restart m); cbn; [intros [<-|[]]; auto|]. specialize (IH a). destruct (spawn_loop m l). cbn in *. intros [<-|I]; auto.
  Qed.
  Lemma launch_spawns m l : snd (run_bridges port_ok egress false (vm_bridge m)) = true ->
    spawns (fst (launch port_ok egress m l)) = fst (spawn_loop m l) /\ snd (launch port_ok egress m l) = snd (spawn_loop m l).
  Proof.
    intros B. unfold launch. pose proof (bridges_no_spawn (vm_bridge m) false) as NB.
    destruct (run_bridges port_ok egress false (vm_bridge m)) as [br ok]. cbn in NB, B. subst ok.
    pose proof (spawn_loop_all m l) as SA. destruct (spawn_loop m l) as [sp e]. cbn in *.
    split; [|reflexivity]. unfold spawns. rewrite !filter_app.
    rewrite (filter_none is_spawn br) by (intros x Hx; apply NB, Hx).
    rewrite (filter_all is_spawn sp) by (intros x Hx; apply SA, Hx).
    destruct (vm_dns m); reflexivity.
  Qed.
  Lemma launch_dead m l : snd (run_bridges port_ok egress false (vm_bridge m)) = false ->
    spawns (fst (launch port_ok egress m l)) = [] /\ snd (launch port_ok egress m l) = Panicked.
  Proof.
    intros B. unfold launch. pose proof (bridges_no_spawn (vm_bridge m) false) as NB.
    destruct (run_bridges port_ok egress false (vm_bridge m)) as [br ok]. cbn in NB, B. subst ok. cbn.
    split; [|reflexivity]. unfold spawns. rewrite filter_app.
    rewrite (filter_none is_spawn br) by (intros x Hx; apply NB, Hx). destruct (vm_dns m); reflexivity.
  Qed.
  Lemma never_once m l : vm_restart m = Never -> (length (fst (spawn_loop m l)) <= 1)%nat.
  Proof. intros H. destruct l as [|f l]; cbn; [lia|]. destruct (f (Main Pivot)) as [[? ?]|]; cbn; [|lia]. destruct (spawnable (vm_args m)); cbn; [|lia]. rewrite H. cbn. lia. Qed.
  Lemma always_on m l f c : spawnable (vm_args m) = true -> vm_restart m = Always -> content f Pivot = Some c -> snd (spawn_loop m l) <> Panicked ->
    fst (spawn_loop m (l ++ [f])) = fst (spawn_loop m l) ++ [ASpawn c (vm_args m) [] (vm_debug m)]
    /\ snd (spawn_loop m (l ++ [f])) = Running.
  Proof.
    intros SP A C. unfold content in C. destruct (f (Main Pivot)) as [[c' mm]|] eqn:F; [|discriminate]. inversion C; subst c'.
    induction l as [|g l IH]; cbn.
    - rewrite F, SP, A. auto.
    - destruct (g (Main Pivot)) as [[c2 m2]|]; [|intros N; exfalso; apply N; reflexivity]. rewrite SP, A. cbn [negb].
      destruct (spawn_loop m l) as [x y], (spawn_loop m (l ++ [f])) as [x' y']. cbn in *. intros N. destruct (IH N) as [-> ->]. auto.
  Qed.
  Lemma always_never_finishes m l : vm_restart m = Always -> snd (spawn_loop m l) <> Finished.
  Proof.
    intros A. induction l as [|g l IH]; cbn; [discriminate|]. destruct (g (Main Pivot)) as [[c2 m2]|]; [|discriminate]. destruct (spawnable (vm_args m)); [|discriminate]. cbn [negb]. rewrite A.
    destruct (spawn_loop m l). exact IH.
  Qed.
  Lemma poll_app l rest x : poll l = Some rest -> poll (l ++ x) = Some (rest ++ x).
  Proof.
    remember (length l) as n eqn:L. assert (Ln : (length l <= n)%nat) by lia. clear L. revert l Ln.
    induction n as [|n IH]; intros l Ln H.
    - destruct l; [discriminate H|cbn in Ln; lia].
    - destruct l as [|f1 l1]; [discriminate H|]. cbn [poll app length] in *.
      destruct (present f1 Quorum); [|apply IH; [lia|exact H]].
      destruct l1 as [|f2 l2]; [discriminate H|]. cbn [app length] in *. destruct (present f2 Pivot); [|apply IH; [lia|exact H]].
      destruct l2 as [|f3 l3]; [discriminate H|]. cbn [app length] in *. destruct (present f3 Manif); [|apply IH; [lia|exact H]].
      inversion H; subst. reflexivity.
  Qed.

  (** *** The whole run in one view *)
  Lemma reaper_shape (s : st) l : reach Y s -> observed Y s [] l ->
    reaper port_ok egress l = ([], Waiting)
    \/ exists tr f e rest, moment Y s tr f /\ content f Quorum <> None /\ stored f e
        /\ Forall (fun g => forall p, content g p = content f p) rest
        /\ (exists pv, content f Pivot = Some pv)
        /\ (forall x, observed Y s [] (l ++ x) -> Forall (fun g => forall p, content g p = content f p) x)
        /\ forall x, reaper port_ok egress (l ++ x) = launch port_ok egress (env_manifest e) (rest ++ x).
  Proof.
    intros R O. unfold reaper. destruct (poll l) as [rest|] eqn:P; [|now left].
    destruct (poll_found s l rest [] R O P) as (tr & f & M & Q & F & Pp & Pm).
    destruct rest as [|g rest]; [now left|]. right.
    inversion F as [|? ? Eg Fr]; subst.
    destruct (content f Quorum) as [qc|] eqn:Cq.
    2:{ exfalso. apply Q. unfold content in Cq. destruct (f (Main Quorum)); [discriminate|reflexivity]. }
    destruct (moment_snap OK s tr f R M qc Cq) as (seed & k & e & pv & live & lk & sp & -> & L & Pk & St & Ca & _ & _ & Qk & Cp & Hp & _).
    assert (Rm : read_manifest g = Some e).
    { destruct St as (mc & Mc & D). unfold read_manifest. specialize (Eg Manif). rewrite Mc in Eg. unfold content in Eg.
      destruct (g (Main Manif)) as [[? ?]|]; [|discriminate]. cbn in Eg. inversion Eg; subst. exact D. }
    exists tr, f, e, rest. split; [exact M|]. split; [congruence|]. split; [exact St|]. split; [exact Fr|]. split; [eauto|]. split.
    { intros x Ox. destruct (poll_found s (l ++ x) _ [] R Ox (poll_app l _ x P)) as (tr' & f' & _ & _ & F' & _).
      apply Forall_app in F' as [F1 F2]. inversion F1 as [|? ? Eg' _]; subst.
      eapply Forall_impl; [|exact F2]. intros h Hh p. rewrite Hh, <- Eg'. apply Eg. }
    intros x. rewrite (poll_app l _ x P). cbn [app]. now rewrite Rm.
  Qed.

  Lemma bridges_exact l : forall b, snd (run_bridges port_ok egress b l) = true ->
    bridge_ports (fst (run_bridges port_ok egress b l)) = server_ports l
    /\ egresses (fst (run_bridges port_ok egress b l)) = (if b then 0 else if has_client l then 1 else 0)%nat.
  Proof.
    induction l as [|[p h|p h] l IH]; intros b; cbn [run_bridges].
    - intros _. destruct b; auto.
    - destruct (port_ok p); [|discriminate]. specialize (IH b). destruct (run_bridges port_ok egress b l) as [x y]. cbn in *.
      intros H. destruct (IH H) as [A B]. split; [now rewrite A|exact B].
    - destruct b.
      + intros H. destruct (IH true H) as [A B]. split; [exact A|exact B].
      + destruct egress eqn:G; [|discriminate]. specialize (IH true). destruct (run_bridges port_ok true true l) as [x y]. cbn in *.
        intros H. destruct (IH H) as [A B]. split; [exact A|]. unfold egresses in *. cbn. now rewrite B.
  Qed.
  Lemma ports_none l : (forall a, In a l -> is_bridge a = false) -> bridge_ports l = [] /\ egresses l = 0%nat.
  Proof.
    induction l as [|a l IH]; intros H; [auto|]. destruct IH as [A B]; [intros; apply H; now right|].
    pose proof (H a (or_introl eq_refl)) as Ha. unfold egresses, bridge_ports in *. destruct a; cbn in *; try discriminate Ha; auto.
  Qed.
  (** The action list of a successful launch. *)
  Lemma launch_parts m l : snd (run_bridges port_ok egress false (vm_bridge m)) = true ->
    exists br, fst (launch port_ok egress m l)
      = match vm_dns m with Some d => [AResolv (resolv_conf d)] | None => [] end ++ br ++ fst (spawn_loop m l)
      /\ (forall a, In a br -> is_bridge a = true)
      /\ bridge_ports br = server_ports (vm_bridge m) /\ egresses br = (if has_client (vm_bridge m) then 1 else 0)%nat.
  Proof.
    intros B. unfold launch. pose proof (bridges_exact (vm_bridge m) false B) as X.
    pose proof (bridges_no_spawn (vm_bridge m) false) as NB.
    destruct (run_bridges port_ok egress false (vm_bridge m)) as [br ok]. cbn in B, X, NB. subst ok.
    destruct (spawn_loop m l) as [sp e]. exists br. split; [reflexivity|]. split; [intros a Ha; now apply NB|]. exact X.
  Qed.
End RP.
