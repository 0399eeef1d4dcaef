(** C99: with the egress feature, the enclave serves only behind a fully set up
    tunnel interface, which is the one its egress program opens. *)
From Coq Require Import ZifyBool ZifyN ZifyNat.
From Verif Require Import Base Utf8 Hex Pool EnclaveCli Client SpecClient ClientProofs Init PropsInit EgressInit.
Local Open Scope N_scope.

(** *** Specification *)
(** The set-up of the interface, in the words given to the [ip] program. *)
Definition ip (words : list string) : list bytes := map bs ("/lib/ld-musl-x86" :: "/usr/sbin/ip" :: words)%string.
Definition setup : list (list bytes) :=
  [ ip ["tuntap"; "add"; "enclave_egress"; "mode"; "tun"];
    ip ["link"; "set"; "lo"; "up"];
    ip ["address"; "add"; "169.254.0.1/32"; "dev"; "lo"];
    ip ["link"; "set"; "mtu"; "1320"; "dev"; "enclave_egress"];
    ip ["link"; "set"; "enclave_egress"; "up"];
    ip ["route"; "replace"; "default"; "dev"; "enclave_egress"] ]%string.
Definition well (o : list bytes -> ip_run) (c : list bytes) : Prop := o c = Ended true.
Definition serving (r : run) : Prop := exists e, In (Did e) (fst r) /\ is_serving e.

Lemma setup_lines : map ip_argv tun_lines = setup.
Proof. vm_compute. reflexivity. Qed.

Lemma ips_all o l rest : (forall c, In c l -> well o (ip_argv c)) -> run_ips o l rest = (map Ran (map ip_argv l) ++ fst rest, snd rest).
Proof.
  induction l as [|c l IH]; intros H; [destruct rest; reflexivity|]. cbn [run_ips map app]. rewrite (H c (or_introl eq_refl) : o (ip_argv c) = _).
  rewrite IH by (intros x I; apply H; now right). reflexivity.
Qed.
Lemma ips_stop o l c r rest : (forall x, In x l -> well o (ip_argv x)) -> ~ well o (ip_argv c) ->
  run_ips o (l ++ c :: r) rest = (map Ran (map ip_argv l) ++ (match o (ip_argv c) with NoProcess => [] | _ => [Ran (ip_argv c)] end), Some Panicked).
Proof.
  induction l as [|x l IH]; intros H N.
  - cbn [app run_ips map]. unfold well in N. destruct (o (ip_argv c)) as [| |[]]; try reflexivity. contradiction.
  - cbn [app run_ips map]. rewrite (H x (or_introl eq_refl) : o (ip_argv x) = _). rewrite IH; [reflexivity| |exact N]. intros y I. apply H. now right.
Qed.
Lemma first_bad o l : (forall c, In c l -> well o c) \/ exists a c b, l = a ++ c :: b /\ (forall x, In x a -> well o x) /\ ~ well o c.
Proof.
  induction l as [|c l IH]; [left; intros c []|]. assert (D : well o c \/ ~ well o c) by (unfold well; destruct (o c) as [| |[]]; (left; reflexivity) || (right; discriminate)).
  destruct D as [D|D]; [|right; exists [], c, l; repeat split; [intros x []|exact D]].
  destruct IH as [H|(a & x & b & -> & H & N)]; [left; intros x [<-|I]; auto|]. right. exists (c :: a), x, b. repeat split; [|exact N]. intros y [<-|I]; auto.
Qed.
Lemma main_boot k : init_main k = match boot k with (t, Some e) => (t, Some e) | (t, None) => match k_cid k with
  | None => (t, Some Panicked)
  | Some cid => (t ++ [Serves (AVsock cid START_PORT 0) EPHEMERAL_KEY_FILE QUORUM_FILE MANIFEST_FILE PIVOT_FILE; Rebooted], Some Restarted) end end.
Proof. unfold init_main, andthen. destruct (boot k) as [t [e|]]; [reflexivity|]. destruct (k_cid k); [reflexivity|now rewrite app_nil_r]. Qed.
(** nothing serves in the boot itself *)
Lemma boot_quiet k t e : boot k = (t, e) -> forall x, In x t -> ~ is_serving x.
Proof.
  intros E x I S.
  (* another device answers no cid: then only the boot is left of the whole *)
  pose (k' := Kernel (k_mount k) (k_console k) (k_heartbeat k) (k_module k) (k_insmod k) (k_rng k) (k_poweroff k) (k_dgram k) (k_flags k) (k_setflags k) (k_setaddr k) None).
  assert (B : boot k' = (t, e)) by (rewrite <- E; reflexivity).
  assert (V : serves k'). { exists x. rewrite main_boot, B. destruct e; split; assumption. }
  apply c83_serves_exactly_when in V. destruct V as (_ & _ & _ & _ & _ & V). now apply V.
Qed.

(** It serves exactly when it would without the feature (C83) and every command
    of the set-up ends well. *)
Theorem c99_serves_exactly_when : forall k o, serving (main_egress k o) <-> serves k /\ forall c, In c setup -> well o c.
Proof.
  intros k o. unfold serving, serves. rewrite main_boot. unfold main_egress. destruct (boot k) as [t e] eqn:B. pose proof (boot_quiet k t e B) as Q.
  destruct e as [e|].
  { cbn [fst]. split.
    - intros (x & I & S). apply in_map_iff in I as (y & Y & I). injection Y as ->. destruct (Q x I S).
    - intros ((x & I & S) & _). destruct (Q x I S). }
  rewrite <- setup_lines. destruct (first_bad o (map ip_argv tun_lines)) as [H|(a & c & b & El & H & N)].
  - rewrite ips_all by (intros c I; apply H, in_map, I). cbn [fst snd]. split.
    + intros (x & I & S). split; [|exact H]. apply in_app_iff in I as [I|I]; [apply in_map_iff in I as (y & Y & I); injection Y as ->; destruct (Q x I S)|].
      apply in_app_iff in I as [I|I]; [apply in_map_iff in I as (y & Y & _); discriminate|]. destruct (k_cid k) as [cid|]; [|destruct I].
      cbn [fst] in I. apply in_map_iff in I as (y & Y & I). injection Y as ->. exists x. split; [apply in_app_iff; now right|exact S].
    + intros ((x & I & S) & _). destruct (k_cid k) as [cid|]; [|destruct (Q x I S)]. cbn [fst] in *. apply in_app_iff in I as [I|I]; [destruct (Q x I S)|].
      exists x. split; [|exact S]. rewrite !in_app_iff. right. right. now apply in_map.
  - apply map_eq_app in El as (la & lb & El & Ea & Eb). destruct lb as [|lc lb]; [discriminate|]. injection Eb as Ec Eb. rewrite El.
    rewrite ips_stop; [|intros x I; apply H; rewrite <- Ea; now apply in_map|now rewrite Ec]. cbn [fst]. split.
    + intros (x & I & S). exfalso. apply in_app_iff in I as [I|I]; [apply in_map_iff in I as (y & Y & I); injection Y as ->; destruct (Q x I S)|].
      apply in_app_iff in I as [I|I]; [apply in_map_iff in I as (y & Y & _); discriminate|]. destruct (o (ip_argv lc)); destruct I as [I|[]] || destruct I; discriminate.
    + intros (_ & W). destruct N. apply W. rewrite map_app. apply in_app_iff. right. left. exact Ec.
Qed.
Print Assumptions c99_serves_exactly_when.

(** When it serves, everything the boot of C83 did came first, then the whole set-up
    in its order, then what C83 says is served. *)
Theorem c99_set_up_before_serving : forall k o, serving (main_egress k o) ->
  exists before served, fst (init_main k) = before ++ served :: [Rebooted] /\ is_serving served /\ (forall e, In e before -> ~ is_serving e)
    /\ main_egress k o = (map Did before ++ map Ran setup ++ [Did served; Did Rebooted], Some Restarted).
Proof.
  intros k o V. apply c99_serves_exactly_when in V as (V & W). unfold serves in V. rewrite main_boot in *. unfold main_egress. destruct (boot k) as [t e] eqn:B. pose proof (boot_quiet k t e B) as Q.
  destruct e as [e|]; [destruct V as (x & I & S); destruct (Q x I S)|]. destruct (k_cid k) as [cid|]; [|destruct V as (x & I & S); destruct (Q x I S)].
  eexists t, _. split; [reflexivity|]. split; [exact I|]. split; [exact Q|]. rewrite <- setup_lines in *.
  rewrite ips_all by (intros c I; apply W, in_map, I). reflexivity.
Qed.
Print Assumptions c99_set_up_before_serving.

(** The first command that does not end well stops the machine: none after it is
    run, nothing is served. *)
Theorem c99_stops_at_the_first_failure : forall k o a c b, setup = a ++ c :: b -> (forall x, In x a -> well o x) -> ~ well o c ->
  forall t, boot k = (t, None) ->
  main_egress k o = (map Did t ++ map Ran a ++ (match o c with NoProcess => [] | _ => [Ran c] end), Some Panicked).
Proof.
  intros k o a c b El H N t B. unfold main_egress. rewrite B. rewrite <- setup_lines in El.
  apply map_eq_app in El as (la & lb & El & <- & Eb). destruct lb as [|lc lb]; [discriminate|]. injection Eb as <- _. rewrite El.
  rewrite ips_stop; [reflexivity| |exact N]. intros x I. apply H. now apply in_map.
Qed.
Print Assumptions c99_stops_at_the_first_failure.

(** Nothing else of what the init process does (C83) changes: what it did but for
    the commands is a beginning of that, all of it and with the same end if every
    command ends well. *)
Definition dids (l : list event) : list init_event := flat_map (fun e => match e with Did x => [x] | Ran _ => [] end) l.
Lemma dids_did t : dids (map Did t) = t.
Proof. induction t as [|x t IH]; [reflexivity|]. unfold dids in *. cbn [map flat_map app]. now rewrite IH. Qed.
Lemma dids_ran l : dids (map Ran l) = [].
Proof. induction l as [|x l IH]; [reflexivity|exact IH]. Qed.
Lemma dids_app a b : dids (a ++ b) = dids a ++ dids b.
Proof. apply flat_map_app. Qed.
Theorem c99_nothing_else_changes : forall k o, exists rest,
  fst (init_main k) = dids (fst (main_egress k o)) ++ rest
  /\ ((forall c, In c setup -> well o c) -> rest = [] /\ snd (main_egress k o) = snd (init_main k))
  /\ (snd (main_egress k o) = snd (init_main k) \/ snd (main_egress k o) = Some Panicked).
Proof.
  intros k o. rewrite main_boot. unfold main_egress. destruct (boot k) as [t [e|]].
  { exists []. cbn [fst snd]. rewrite dids_did, app_nil_r. auto. }
  rewrite <- setup_lines. destruct (first_bad o (map ip_argv tun_lines)) as [H|(a & c & b & El & H & N)].
  - rewrite ips_all by (intros c I; apply H, in_map, I). exists []. cbn [fst snd]. rewrite app_nil_r, !dids_app, dids_did, dids_ran. cbn [app].
    destruct (k_cid k) as [cid|]; cbn [fst snd]; [rewrite dids_did|cbn; rewrite app_nil_r]; auto.
  - pose proof El as El'. apply map_eq_app in El as (la & lb & El & Ea & Eb). destruct lb as [|lc lb]; [discriminate|]. injection Eb as Ec Eb.
    assert (D : forall rest, run_ips o tun_lines rest = (map Ran (map ip_argv la) ++ (match o (ip_argv lc) with NoProcess => [] | _ => [Ran (ip_argv lc)] end), Some Panicked)).
    { intros rest. rewrite El. apply ips_stop; [intros x I; apply H; rewrite <- Ea; now apply in_map|now rewrite Ec]. }
    rewrite D. cbn [fst snd]. rewrite !dids_app, dids_did, dids_ran.
    assert (Z : dids (match o (ip_argv lc) with NoProcess => [] | _ => [Ran (ip_argv lc)] end) = []) by (destruct (o (ip_argv lc)); reflexivity).
    rewrite Z. cbn [app]. rewrite app_nil_r.
    assert (W : ~ forall c, In c (map ip_argv tun_lines) -> well o c) by (intros W; apply N, W; rewrite El'; apply in_app_iff; right; now left).
    destruct (k_cid k); cbn [fst snd]; [eexists|exists []]; (split; [first [reflexivity|rewrite app_nil_r; reflexivity]|split; [contradiction|auto]]).
Qed.
Print Assumptions c99_nothing_else_changes.

(** The kernel is asked for an interface by a name of at most 15 bytes: two names
    ask for the same one exactly if they agree so far. *)
Theorem c99_names_of_interfaces : forall a b x y, ifr_name a = Some x -> ifr_name b = Some y ->
  length x = 16%nat /\ (x = y <-> firstn 15 a = firstn 15 b).
Proof.
  assert (F : forall n (l : bytes), firstn (Nat.min (length l) n) l = firstn n l).
  { intros n l. destruct (Nat.leb_spec (length l) n); [rewrite Nat.min_l, !firstn_all2 by lia; reflexivity|now rewrite Nat.min_r by lia]. }
  assert (X : forall a x, ifr_name a = Some x -> x = firstn 15 a ++ repeat x00 (16 - length (firstn 15 a)) /\ ~ In x00 (firstn 15 a)).
  { intros a x. unfold ifr_name. destruct (existsb _ a) eqn:Z; [discriminate|]. cbv zeta. rewrite F. intros E. injection E as <-. rewrite firstn_length. rewrite (Nat.min_comm 15). split; [reflexivity|].
    intros I. assert (J : In x00 a) by (rewrite <- (firstn_skipn 15 a); apply in_app_iff; now left).
    assert (K : existsb (fun b => b2n b =? 0) a = true) by (apply existsb_exists; exists x00; split; [exact J|reflexivity]). congruence. }
  assert (Y : forall p q m n, p ++ repeat x00 m = q ++ repeat x00 n -> ~ In x00 p -> ~ In x00 q -> p = q).
  { induction p as [|c p IH]; intros [|d q] m n E NP NQ; [reflexivity|..].
    - exfalso. apply NQ. assert (I : In d (repeat x00 m)) by (cbn [app] in E; rewrite E; now left). apply repeat_spec in I. left. exact I.
    - exfalso. apply NP. assert (I : In c (repeat x00 n)) by (cbn [app] in E; rewrite <- E; now left). apply repeat_spec in I. left. exact I.
    - cbn [app] in E. injection E as <- E. f_equal. apply (IH q m n E); intros I; [apply NP|apply NQ]; now right. }
  intros a b x y Ha Hb. apply X in Ha as (-> & Na). apply X in Hb as (-> & Nb). split.
  - rewrite app_length, repeat_length. pose proof (firstn_le_length 15 a). rewrite firstn_length. lia.
  - split; [intros E; exact (Y _ _ _ _ E Na Nb)|intros ->; reflexivity].
Qed.
Print Assumptions c99_names_of_interfaces.

(** The egress program of the enclave opens the very interface that was set up,
    the host's another one. *)
Theorem c99_the_program_opens_it :
  ifr_name (program_tun false) = Some (bs "enclave_egress" ++ [x00; x00]) /\ In (bs "enclave_egress") (nth 0 setup [])
  /\ ifr_name (program_tun true) <> ifr_name (program_tun false).
Proof. repeat split; [vm_compute; tauto|vm_compute; congruence]. Qed.
Print Assumptions c99_the_program_opens_it.

Definition c99_kernel : kernel := Kernel (fun _ => true) (fun _ => true) true true true (Some (bs "nsm-hwrng")) true true (Some false) true true (Some 16).
Example c99_nontrivial :
  serving (main_egress c99_kernel (fun _ => Ended true)) /\ ~ serving (main_egress c99_kernel (fun c => if existsb (bytes_eqb (bs "mtu")) c then NoEnd else Ended true))
  /\ exists t, boot c99_kernel = (t, None).
Proof.
  assert (B : exists t, boot c99_kernel = (t, None)) by (eexists; vm_compute; reflexivity).
  assert (S : serves c99_kernel). { apply c83_serves_exactly_when. cbn. repeat split; try congruence; [left|right; auto]. apply hwrng_iff. vm_compute. reflexivity. }
  split; [|split; [|exact B]].
  - apply c99_serves_exactly_when. split; [exact S|]. intros; reflexivity.
  - rewrite c99_serves_exactly_when. intros (_ & W). specialize (W (nth 3 setup []) ltac:(do 3 right; now left)). vm_compute in W. discriminate.
Qed.
