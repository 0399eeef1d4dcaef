(** C16, C45-C48: the process that starts the pivot.  [l] are the file systems
    the reaper observes, one per call, in time order, anywhere in any history. *)
From Coq Require Import ZifyBool ZifyN ZifyNat.
From Verif Require Import Base Hex Types Json JsonProofs TypesJson TypesJsonProofs Msg World Attest Services State SpecProtocol Reach SpecApproval ApprovalProofs SpecHistory
  HistoryProofs Reaper SpecReaper ReaperProofs CodecExamples Toy ToyRuns.
Local Open Scope N_scope.

(** ** C16 *)
Theorem c16_pivot_started_only_on_consistent_boot : forall Y, sys_ok Y -> forall port_ok egress (s : st Y) l binary args env piped,
  reach Y s -> observed Y s [] l -> In (ASpawn binary args env piped) (fst (reaper port_ok egress l)) ->
  exists tr f e seed, moment Y s tr f
    /\ content f Quorum = Some (encode seed) /\ seed_for Y seed (ns_quorum_key (vm_namespace (env_manifest e)))
    /\ stored f e
    /\ approved Y (vm_manifest_set (env_manifest e)) (manifest_hash Y (env_manifest e)) (env_manifest_approvals e)
    /\ s_sha256 Y binary = vm_pivot_hash (env_manifest e)
    /\ args = vm_args (env_manifest e) /\ piped = vm_debug (env_manifest e).
Proof.
  intros Y OK port_ok egress s l c args env piped R O I.
  destruct (spawn_sound OK port_ok egress s l c args env piped R O I) as (tr & f & e & seed & k & M & C & L & P & St & A & K & H & -> & ->).
  exists tr, f, e, seed. split; [exact M|]. split; [exact C|]. split; [rewrite K; now apply pair_seed|].
  split; [exact St|]. split; [now apply check_sound|]. auto.
Qed.
Print Assumptions c16_pivot_started_only_on_consistent_boot.

(** When the ports, the egress build and the arguments allow it the reaper never panics. *)
Theorem c16_reaper_never_panics : forall Y, sys_ok Y -> forall port_ok egress (s : st Y) l,
  reach Y s -> observed Y s [] l -> (forall p, port_ok p = true) -> egress = true ->
  (forall e a, booted_with s e -> In a (vm_args (env_manifest e)) -> ~ In x00 a) ->
  snd (reaper port_ok egress l) <> Panicked.
Proof.
  intros Y OK port_ok egress s l R O PO EG NZ. apply (reaper_no_panic OK port_ok egress s l R O PO); [|exact EG].
  intros e B. apply spawnable_iff. intros a I. exact (NZ e a B I).
Qed.
Print Assumptions c16_reaper_never_panics.

(** Limit: nothing on the way refuses an argument with a NUL byte, and the pivot of
    such a manifest is never started: the reaper waits or panics. *)
Theorem c16_nul_argument_is_never_started : forall Y, sys_ok Y -> forall port_ok egress (s : st Y) l,
  reach Y s -> observed Y s [] l ->
  (forall e, booted_with s e -> exists a, In a (vm_args (env_manifest e)) /\ In x00 a) ->
  spawns (fst (reaper port_ok egress l)) = [].
Proof.
  intros Y OK port_ok egress s l R O H.
  destruct (reaper_shape OK port_ok egress s l R O) as [->|(tr & f & e & rest & M & Q & St & F & _ & _ & E)]; [reflexivity|].
  specialize (E []). rewrite !app_nil_r in E. rewrite E.
  assert (U : spawnable (vm_args (env_manifest e)) = false).
  { destruct (H e) as (a & I & Z); [exists tr, f; auto|]. destruct (spawnable (vm_args (env_manifest e))) eqn:X; [|reflexivity].
    exfalso. exact (proj1 (spawnable_iff _) X a I Z). }
  destruct (snd (run_bridges port_ok egress false (vm_bridge (env_manifest e)))) eqn:B.
  - destruct (launch_spawns port_ok egress (env_manifest e) rest B) as [-> _]. apply (unspawnable _ rest U).
  - apply (launch_dead port_ok egress (env_manifest e) rest B).
Qed.
Print Assumptions c16_nul_argument_is_never_started.

Definition all_ports : N -> bool := fun _ => true.
Definition sees_of (s : st T) (n : nat) : list fsys := no_files :: repeat (st_fs s) n.
Definition sees : nat -> list fsys := sees_of s_done.
Lemma sees_of_observed (s : st T) n : observed T s [] (sees_of s n).
Proof.
  apply (Ob_cons T s [] [] no_files); [right; auto|].
  assert (H : forall k, observed T s (st_trace s) (repeat (st_fs s) k)).
  { induction k as [|k IH]; [constructor|]. apply (Ob_cons T s (st_trace s) []); [left; constructor|exact IH]. }
  destruct n as [|n]; [constructor|]. cbn [repeat].
  apply (Ob_cons T s [] (st_trace s)); rewrite app_nil_r; [left; constructor|apply H].
Qed.
Lemma sees_observed n : observed T s_done [] (sees n). Proof. apply sees_of_observed. Qed.
Example c16_nontrivial : reach T s_done /\ observed T s_done [] (sees 6)
  /\ fst (reaper all_ports true (sees 6)) = [ABridge 3000; ASpawn pivot [bs "q"] [] false; ASpawn pivot [bs "q"] [] false].
Proof. split; [exact done_reach|]. split; [apply sees_observed|]. vm_compute. reflexivity. Qed.
(** A manifest whose argument is a NUL byte is approved, booted and provisioned; its pivot is not started. *)
Definition nul_manifest : manifest_v2 :=
  ManifestV2 (mf2_namespace tm) (PivotConfigV2 (toy_hash 32 pivot) Always [] false [[x00]] []) mset sset ex_nitro None.
Definition nul_run : list msg := [BootStandardJsonEnvelopeRequest (toy_env nul_manifest) pivot;
  ProvisionRequest (share1 0) (approve seed_a alice nul_manifest); ProvisionRequest (share2 0) (approve seed_b bob nul_manifest)].
Definition s_nul : st T := snd (serve T nul_run (start calm 0)).
Example c16_nul_nontrivial : reach T s_nul /\ st_phase s_nul = QuorumKeyProvisioned /\ observed T s_nul [] (sees_of s_nul 6)
  /\ reaper all_ports true (sees_of s_nul 6) = ([], Panicked)
  /\ reaper all_ports true (sees 6) = ([ABridge 3000; ASpawn pivot [bs "q"] [] false; ASpawn pivot [bs "q"] [] false], Running).
Proof.
  split; [apply run_reach; vm_compute; reflexivity|]. split; [vm_compute; reflexivity|]. split; [apply sees_of_observed|]. split; vm_compute; reflexivity.
Qed.

(** ** C45 *)
Theorem c45_never_at_most_once : forall Y, sys_ok Y -> forall port_ok egress (s : st Y) l,
  reach Y s -> observed Y s [] l -> (forall e, booted_with s e -> vm_restart (env_manifest e) = Never) ->
  (length (spawns (fst (reaper port_ok egress l))) <= 1)%nat.
Proof.
  intros Y OK port_ok egress s l R O H.
  destruct (reaper_shape OK port_ok egress s l R O) as [->|(tr & f & e & rest & M & Q & St & F & _ & _ & E)]; [cbn; lia|].
  specialize (E []). rewrite !app_nil_r in E. rewrite E.
  destruct (snd (run_bridges port_ok egress false (vm_bridge (env_manifest e)))) eqn:B.
  - destruct (launch_spawns port_ok egress (env_manifest e) rest B) as [-> _]. apply never_once; [exact port_ok|].
    apply H. exists tr, f. auto.
  - destruct (launch_dead port_ok egress (env_manifest e) rest B) as [-> _]. cbn. lia.
Qed.
Print Assumptions c45_never_at_most_once.

(** With Always, once started, every further turn of the loop starts the same pivot again, and the reaper never finishes. *)
Theorem c45_always_restarts : forall Y, sys_ok Y -> forall port_ok egress (s : st Y) l f,
  reach Y s -> observed Y s [] (l ++ [f]) -> (forall e, booted_with s e -> vm_restart (env_manifest e) = Always) ->
  spawns (fst (reaper port_ok egress l)) <> [] ->
  exists a, spawns (fst (reaper port_ok egress (l ++ [f]))) = spawns (fst (reaper port_ok egress l)) ++ [a]
    /\ In a (spawns (fst (reaper port_ok egress l)))
    /\ snd (reaper port_ok egress (l ++ [f])) = Running.
Proof.
  intros Y OK port_ok egress s l f R O H N.
  assert (O1 : observed Y s [] l).
  { clear - O. revert O. generalize (@nil (entry Y)). induction l as [|g l IH]; intros tr O; [constructor|].
    cbn in O. inversion O; subst. econstructor; eauto. }
  destruct (reaper_shape OK port_ok egress s l R O1) as [X|(tr & f0 & e & rest & M & Q & St & F & (pv & Pv) & Fx & E)].
  { rewrite X in N. now contradict N. }
  pose proof (E []) as E0. rewrite !app_nil_r in E0. rewrite E, E0 in *. clear E E0.
  assert (A : vm_restart (env_manifest e) = Always) by (apply H; exists tr, f0; auto).
  destruct (snd (run_bridges port_ok egress false (vm_bridge (env_manifest e)))) eqn:B.
  2:{ destruct (launch_dead port_ok egress (env_manifest e) rest B) as [X _]. rewrite X in N. now contradict N. }
  destruct (launch_spawns port_ok egress (env_manifest e) rest B) as [S1 S2]. rewrite S1 in *.
  destruct (launch_spawns port_ok egress (env_manifest e) (rest ++ [f]) B) as [S3 S4]. rewrite S3, S4.
  specialize (Fx [f] O). inversion Fx as [|? ? Ff _]; subst.
  assert (SP : spawnable (vm_args (env_manifest e)) = true).
  { destruct (spawnable (vm_args (env_manifest e))) eqn:SP; [reflexivity|]. exfalso. apply N. apply (unspawnable _ rest SP). }
  destruct (always_on (env_manifest e) rest f pv SP A) as [X1 X2].
  { now rewrite Ff. }
  { apply spawn_loop_no_panic; [exact SP|]. eapply Forall_impl; [|exact F]. intros h Hh. cbn. rewrite Hh, Pv. discriminate. }
  exists (ASpawn pv (vm_args (env_manifest e)) [] (vm_debug (env_manifest e))). split; [exact X1|]. split; [|exact X2].
  destruct rest as [|g rest]; [now contradict N|]. inversion F as [|? ? Fg _]; subst. cbn.
  specialize (Fg Pivot). rewrite Pv in Fg. unfold content in Fg. destruct (g (Main Pivot)) as [[c mm]|]; [|discriminate Fg].
  cbn in Fg. injection Fg as ->. rewrite SP, A. cbn [negb]. destruct (spawn_loop (env_manifest e) rest). now left.
Qed.
Print Assumptions c45_always_restarts.

Theorem c45_always_never_finishes : forall Y, sys_ok Y -> forall port_ok egress (s : st Y) l,
  reach Y s -> observed Y s [] l -> (forall e, booted_with s e -> vm_restart (env_manifest e) = Always) ->
  snd (reaper port_ok egress l) <> Finished.
Proof.
  intros Y OK port_ok egress s l R O H.
  destruct (reaper_shape OK port_ok egress s l R O) as [->|(tr & f & e & rest & M & Q & St & F & _ & _ & E)]; [discriminate|].
  specialize (E []). rewrite !app_nil_r in E. rewrite E.
  assert (A : vm_restart (env_manifest e) = Always) by (apply H; exists tr, f; auto).
  destruct (snd (run_bridges port_ok egress false (vm_bridge (env_manifest e)))) eqn:B.
  - destruct (launch_spawns port_ok egress (env_manifest e) rest B) as [_ ->]. now apply always_never_finishes.
  - destruct (launch_dead port_ok egress (env_manifest e) rest B) as [_ ->]. discriminate.
Qed.
Print Assumptions c45_always_never_finishes.

Example c45_nontrivial : spawns (fst (reaper all_ports true (sees 6))) <> []
  /\ vm_restart (env_manifest te) = Always /\ length (spawns (fst (reaper all_ports true (sees 7)))) = 3%nat.
Proof. vm_compute. repeat split. discriminate. Qed.

(** ** C46: refuted *)
(** The manifest's environment never reaches the pivot: in every history every
    start has an empty environment, although manifests with one are accepted. *)
Theorem c46_pivot_environment_delivered_refuted :
  ~ (forall Y, sys_ok Y -> forall port_ok egress (s : st Y) l e binary args env piped,
       reach Y s -> observed Y s [] l -> booted_with s e ->
       In (ASpawn binary args env piped) (fst (reaper port_ok egress l)) -> env = vm_env (env_manifest e)).
Proof.
  intros H.
  assert (B : booted_with s_done te_done).
  { exists (st_trace s_done), (st_fs s_done). split; [constructor|]. split; [vm_compute; discriminate|apply stored_by; vm_compute; reflexivity]. }
  assert (X : [] = vm_env (env_manifest te_done)).
  { apply (H T T_ok all_ports true s_done (sees 6) te_done pivot [bs "q"] [] false).
    - exact done_reach.
    - apply sees_observed.
    - exact B.
    - rewrite (proj2 (proj2 c16_nontrivial)). right. now left. }
  discriminate X.
Qed.
Print Assumptions c46_pivot_environment_delivered_refuted.

Theorem c46_environment_always_empty : forall Y, sys_ok Y -> forall port_ok egress (s : st Y) l binary args env piped,
  reach Y s -> observed Y s [] l -> In (ASpawn binary args env piped) (fst (reaper port_ok egress l)) -> env = [].
Proof.
  intros Y OK port_ok egress s l c args env piped R O I.
  destruct (reaper_shape OK port_ok egress s l R O) as [X|(tr & f & e & rest & M & Q & St & F & _ & _ & E)]; [rewrite X in I; destruct I|].
  specialize (E []). rewrite !app_nil_r in E. rewrite E in I. apply launch_spawn, spawn_loop_in in I. tauto.
Qed.
Print Assumptions c46_environment_always_empty.

(** ** C47 *)
(** In every history in which the pivot was started, before it the bridges of
    the booted manifest were started: one per Server entry, in order, and one
    egress exactly if there is a Client entry; none later. *)
Theorem c47_bridges_as_configured : forall Y, sys_ok Y -> forall port_ok egress (s : st Y) l,
  reach Y s -> observed Y s [] l -> spawns (fst (reaper port_ok egress l)) <> [] ->
  exists e pre post, booted_with s e
    /\ fst (reaper port_ok egress l) = pre ++ post /\ spawns pre = [] /\ spawns post = post
    /\ bridge_ports pre = server_ports (vm_bridge (env_manifest e))
    /\ egresses pre = (if has_client (vm_bridge (env_manifest e)) then 1 else 0)%nat.
Proof.
  intros Y OK port_ok egress s l R O N.
  destruct (reaper_shape OK port_ok egress s l R O) as [X|(tr & f & e & rest & M & Q & St & F & _ & _ & E)].
  { rewrite X in N. now contradict N. }
  specialize (E []). rewrite !app_nil_r in E. rewrite E in *. clear E.
  destruct (snd (run_bridges port_ok egress false (vm_bridge (env_manifest e)))) eqn:B.
  2:{ destruct (launch_dead port_ok egress (env_manifest e) rest B) as [X _]. rewrite X in N. now contradict N. }
  destruct (launch_parts port_ok egress (env_manifest e) rest B) as (br & Eq & Br & P1 & P2).
  set (dns := match vm_dns (env_manifest e) with Some d => [AResolv (resolv_conf d)] | None => [] end) in *.
  exists e, (dns ++ br), (fst (spawn_loop (env_manifest e) rest)).
  split; [exists tr, f; auto|]. split; [now rewrite <- app_assoc|].
  assert (D : spawns dns = [] /\ bridge_ports dns = [] /\ egresses dns = 0%nat) by (unfold dns; destruct (vm_dns (env_manifest e)); auto).
  destruct D as (D1 & D2 & D3).
  split.
  { unfold spawns in *. rewrite filter_app, D1. cbn. apply filter_none. intros a Ha. specialize (Br a Ha). destruct a; try discriminate Br; reflexivity. }
  split; [apply filter_all; intros a Ha; now apply (spawn_loop_all (env_manifest e) rest)|].
  split.
  - unfold bridge_ports in *. now rewrite flat_map_app, D2.
  - unfold egresses in *. rewrite filter_app, app_length, D3. exact P2.
Qed.
Print Assumptions c47_bridges_as_configured.

(** ** C48 *)
(** If the pivot was started, resolv.conf was written before it exactly when
    the booted manifest configures DNS: one "nameserver <address>" line per
    resolver, in order. *)
Theorem c48_resolv_conf_as_configured : forall Y, sys_ok Y -> forall port_ok egress (s : st Y) l,
  reach Y s -> observed Y s [] l -> spawns (fst (reaper port_ok egress l)) <> [] ->
  exists e rest, booted_with s e
    /\ match vm_dns (env_manifest e) with
       | Some d => fst (reaper port_ok egress l)
           = AResolv (concat (map (fun r => bs "nameserver " ++ print_ip_addr r ++ [x0a]) (dns_resolvers d))) :: rest
       | None => fst (reaper port_ok egress l) = rest
       end
    /\ resolv_texts rest = [].
Proof.
  intros Y OK port_ok egress s l R O N.
  destruct (reaper_shape OK port_ok egress s l R O) as [X|(tr & f & e & rest & M & Q & St & F & _ & _ & E)].
  { rewrite X in N. now contradict N. }
  specialize (E []). rewrite !app_nil_r in E. rewrite E in *. clear E.
  destruct (snd (run_bridges port_ok egress false (vm_bridge (env_manifest e)))) eqn:B.
  2:{ destruct (launch_dead port_ok egress (env_manifest e) rest B) as [X _]. rewrite X in N. now contradict N. }
  destruct (launch_parts port_ok egress (env_manifest e) rest B) as (br & Eq & Br & _ & _).
  exists e, (br ++ fst (spawn_loop (env_manifest e) rest)). split; [exists tr, f; auto|]. split.
  - rewrite Eq. destruct (vm_dns (env_manifest e)); reflexivity.
  - assert (Z : forall a, In a (br ++ fst (spawn_loop (env_manifest e) rest)) -> is_bridge a = true \/ is_spawn a = true).
    { intros a Ha. apply in_app_or in Ha as [Ha|Ha]; [left; now apply Br|right; now apply (spawn_loop_all (env_manifest e) rest)]. }
    clear - Z. induction (br ++ fst (spawn_loop (env_manifest e) rest)) as [|a q IH]; [reflexivity|].
    unfold resolv_texts in *. cbn. rewrite IH by (intros b Hb; apply Z; now right).
    destruct (Z a (or_introl eq_refl)); destruct a; try discriminate; reflexivity.
Qed.
Print Assumptions c48_resolv_conf_as_configured.

(** A manifest with two servers around two clients, and two resolvers, at launch. *)
Definition m_net : versioned_manifest := VM2 (ManifestV2 (mf2_namespace tm)
  (PivotConfigV2 (toy_hash 32 pivot) Always [BServer 80 (bs "a"); BClient 1 (Some (bs "b")); BServer 81 (bs "c"); BClient 2 None] false [] [])
  mset sset (mf2_enclave tm) (mf2_dns ex_manifest_v2)).
Example c47_nontrivial : vm_dns m_net <> None
  /\ map (fun a => match a with AResolv t => ABridge 0 | a => a end) (fst (launch all_ports true m_net [st_fs s_done]))
     = [ABridge 0; ABridge 80; AEgress; ABridge 81; ASpawn pivot [] [] false].
Proof. vm_compute. split; [discriminate|reflexivity]. Qed.
(** A reader of resolv.conf that knows nothing of the writer: split at
    newlines, drop the keyword, read the address as std does. *)
Fixpoint conf_lines (l : bytes) : list bytes :=
  match l with
  | [] => []
  | c :: r => if byte_eqb c x0a then [] :: conf_lines r
              else match conf_lines r with w :: ws => (c :: w) :: ws | [] => [[c]] end
  end.
Definition nameserver (l : bytes) : option ip_addr :=
  match lit (bs "nameserver ") l with Some a => parse_ip_addr a | None => None end.
Lemma conf_lines_app w r : forallb (fun b => negb (byte_eqb b x0a)) w = true -> conf_lines (w ++ x0a :: r) = w :: conf_lines r.
Proof.
  induction w as [|c w IH]; intros H; cbn [app conf_lines]; [now rewrite byte_eqb_refl|].
  cbn [forallb] in H. apply andb_prop in H as [C H]. destruct (byte_eqb c x0a); [discriminate|]. now rewrite (IH H).
Qed.
Lemma print_N_clean n : forallb (fun b => negb (byte_eqb b x0a)) (print_N n) = true.
Proof.
  apply forallb_forall. intros b Hb. pose proof (print_N_digits n) as D. rewrite forallb_forall in D. specialize (D b Hb).
  destruct (byte_eqb_spec b x0a) as [->|]; [discriminate|reflexivity].
Qed.
Lemma print_ip_clean i : forallb (fun b => negb (byte_eqb b x0a)) (print_ip i) = true.
Proof.
  unfold print_ip. rewrite !forallb_app. cbn [forallb]. rewrite !forallb_app. cbn [forallb]. rewrite !forallb_app. cbn [forallb].
  rewrite !print_N_clean. reflexivity.
Qed.
Lemma print_group_clean g : forallb (fun b => negb (byte_eqb b x0a)) (print_group g) = true.
Proof.
  apply forallb_forall. intros b Hb. pose proof (print_group_hex g) as D. rewrite forallb_forall in D. specialize (D b Hb).
  destruct (byte_eqb_spec b x0a) as [->|]; [discriminate|reflexivity].
Qed.
Lemma print_groups_clean l : forallb (fun b => negb (byte_eqb b x0a)) (print_groups l) = true.
Proof.
  assert (M : forall l, forallb (fun b => negb (byte_eqb b x0a)) (print_more l) = true).
  { clear l. induction l as [|g l IH]; [reflexivity|]. cbn [print_more forallb]. rewrite forallb_app, IH, print_group_clean. reflexivity. }
  destruct l as [|g l]; [reflexivity|]. cbn [print_groups]. rewrite forallb_app, M, print_group_clean. reflexivity.
Qed.
Lemma print_ip_addr_clean i : forallb (fun b => negb (byte_eqb b x0a)) (print_ip_addr i) = true.
Proof.
  destruct i as [i|i]; cbn [print_ip_addr]; [apply print_ip_clean|]. unfold print_ipv6. destruct (_ && _).
  - rewrite forallb_app, print_ip_clean. reflexivity.
  - cbv zeta. destruct (1 <? _)%nat; rewrite ?forallb_app, !print_groups_clean; reflexivity.
Qed.
Theorem c48_resolv_conf_reads_back : forall d, map nameserver (conf_lines (resolv_conf d)) = map Some (dns_resolvers d).
Proof.
  intros [l]. unfold resolv_conf. cbn [dns_resolvers]. induction l as [|i l IH]; [reflexivity|].
  cbn [map concat]. rewrite <- !app_assoc. cbn [app]. rewrite app_assoc.
  rewrite conf_lines_app by (rewrite forallb_app, print_ip_addr_clean; reflexivity).
  cbn [map]. rewrite IH. f_equal. unfold nameserver.
  change (lit (bs "nameserver ") (bs "nameserver " ++ print_ip_addr i)) with (Some (print_ip_addr i)). apply parse_ip_addr_print.
Qed.
Print Assumptions c48_resolv_conf_reads_back.
Definition ex_v6 : ip_addr := IpV6 (Ipv6 (x20, x01) (x0d, xb8) (x00, x00) (x00, x01) (x00, x00) (x00, x00) (x00, x00) (x00, x53)).
Definition ex_mapped : ip_addr := IpV6 (Ipv6 (x00, x00) (x00, x00) (x00, x00) (x00, x00) (x00, x00) (xff, xff) (x7f, x00) (x00, x01)).
Example c48_nontrivial :
  resolv_conf (DnsConfig [IpV4 (Ipv4 x08 x08 x08 x08); ex_v6; ex_mapped])
  = bs "nameserver 8.8.8.8" ++ [x0a] ++ bs "nameserver 2001:db8:0:1::53" ++ [x0a] ++ bs "nameserver ::ffff:127.0.0.1" ++ [x0a]
  /\ parse_ip_addr (bs "::") = Some (IpV6 (Ipv6 zero_group zero_group zero_group zero_group zero_group zero_group zero_group zero_group))
  /\ parse_ip_addr (bs "1:2:3:4:5:6:7:8:9") = None /\ parse_ip_addr (bs "1::2::3") = None /\ parse_ip_addr (bs "::12345") = None
  /\ parse_ip_addr (bs "01.2.3.4") = None /\ parse_ip_addr (bs "2001:DB8:0:1:0:0:0:53") = Some ex_v6.
Proof. repeat split; vm_compute; reflexivity. Qed.
