(** C83: the enclave's init process (Init.v). *)
From Verif Require Import Base Utf8 Hex Pool EnclaveCli Client SpecClient ClientProofs Init.
Local Open Scope N_scope.

(** ** Specification *)
Definition is_serving (e : init_event) : Prop := match e with Serves _ _ _ _ _ => True | _ => False end.
Definition serves (k : kernel) : Prop := exists e, In e (fst (init_main k)) /\ is_serving e.
(** The file names [nsm-hwrng], but for white space around ([says]). *)
Definition hardware_entropy (k : kernel) : Prop := exists raw, k_rng k = Some raw /\ says raw (bs "nsm-hwrng").
Definition under (dir file : bytes) : Prop := exists r, file = dir ++ bs "/" ++ r.

Lemma hwrng_iff k : check_hwrng (bs "nsm-hwrng") k = true <-> hardware_entropy k.
Proof.
  unfold check_hwrng, hardware_entropy. destruct (k_rng k) as [raw|]; [|split; [discriminate|intros (r & H & _); discriminate]].
  assert (T : trim_text raw = Some (bs "nsm-hwrng") <-> match utf8_dec raw with Some cs => bytes_eqb (bs "nsm-hwrng") (utf8_enc (trim cs)) | None => false end = true).
  { unfold trim_text. destruct (utf8_dec raw) as [cs|]; cbn [obind]; [|split; discriminate].
    destruct (bytes_eqb_spec (bs "nsm-hwrng") (utf8_enc (trim cs))) as [<-|N]; split; try reflexivity; try discriminate. intros H. injection H as H. congruence. }
  rewrite <- T, trim_text_iff. split; [eauto|]. intros (r & H & S). injection H as <-. exact S.
Qed.
(** What a boot does in full: nothing but the module file, the entropy check,
    the loopback interface and the vsock device can stop it. *)
Definition early (k : kernel) : list init_event :=
  flat_map (fun m => when (k_mount k m) (Mounted m)) rootfs_mounts ++ flat_map (fun fd => when (k_console k fd) (Console fd)) [0%nat; 1%nat; 2%nat]
  ++ when (k_heartbeat k) Heartbeat.
Lemma early_not k e : In e (early k) -> match e with Mounted _ | Console _ | Heartbeat => True | _ => False end.
Proof.
  unfold early, when. intros H. apply in_app_or in H as [H|H]; [|apply in_app_or in H as [H|H]].
  - apply in_flat_map in H as (m & _ & H). destruct (k_mount k m); [destruct H as [<-|[]]; exact I|destruct H].
  - apply in_flat_map in H as (m & _ & H). destruct (k_console k m); [destruct H as [<-|[]]; exact I|destruct H].
  - destruct (k_heartbeat k); [destruct H as [<-|[]]; exact I|destruct H].
Qed.
Lemma main_shape k : init_main k = let pre := early k in
  if negb (k_module k) then (pre, Some Panicked) else
  let pre := pre ++ when (k_insmod k) ModuleLoaded in
  let e := check_hwrng (bs "nsm-hwrng") k in
  let pre := pre ++ [if e then EntropyChecked else PowerOffCalled] in
  if negb e && k_poweroff k then (pre, Some Off) else
  if negb (k_dgram k) then (pre, Some Panicked) else
  match k_flags k with
  | None => (pre, Some Panicked)
  | Some up => if negb (up || k_setflags k) then (pre, Some Panicked)
    else if negb (k_setaddr k) then (pre ++ [LoUp], Some Panicked)
    else match k_cid k with
      | None => (pre ++ [LoUp; LoAddress 127 0 0 1], Some Panicked)
      | Some cid => (pre ++ [LoUp; LoAddress 127 0 0 1] ++ [Serves (AVsock cid 3 0) (bs "/qos.ephemeral.key") (bs "/qos.quorum.key") (bs "/qos.manifest") (bs "/qos.pivot.bin"); Rebooted], Some Restarted)
      end
  end.
Proof.
  unfold init_main, boot, init_rootfs, init_console, init_platform, init_localhost, andthen, early. cbv zeta.
  set (A := flat_map _ rootfs_mounts). set (B := flat_map _ _). set (C := when (k_heartbeat k) Heartbeat). set (D := when (k_insmod k) ModuleLoaded).
  assert (F : forall (x y : step), fst x = fst y -> snd x = snd y -> x = y) by (intros [? ?] [? ?]; cbn; congruence).
  change 2130706433 with (127 * 16777216 + 1).
  destruct (k_module k); cbn [negb]; [|rewrite <- ?app_assoc, ?app_nil_r; reflexivity].
  destruct (check_hwrng (bs "nsm-hwrng") k), (k_poweroff k); cbn [negb andb]; try (rewrite <- ?app_assoc, ?app_nil_r; reflexivity);
  (destruct (k_dgram k); cbn [negb]; [|rewrite <- ?app_assoc, ?app_nil_r; reflexivity]);
  (destruct (k_flags k) as [[]|]; [| |rewrite <- ?app_assoc, ?app_nil_r; reflexivity]);
  destruct (k_setflags k); cbn [orb negb]; try (rewrite <- ?app_assoc, ?app_nil_r; reflexivity);
  (destruct (k_setaddr k); cbn [negb]; [|rewrite <- ?app_assoc, ?app_nil_r; reflexivity]);
  destruct (k_cid k); cbn [app]; rewrite <- ?app_assoc, ?app_nil_r; cbn [app]; reflexivity.
Qed.

(** The enclave starts serving exactly when the kernel module can be read, the
    entropy source is the hardware one (or the machine cannot be switched off),
    the loopback interface can be set up, and the vsock device tells a cid. *)
Theorem c83_serves_exactly_when : forall k, serves k <->
  k_module k = true /\ (hardware_entropy k \/ k_poweroff k = false) /\
  k_dgram k = true /\ (k_flags k = Some true \/ k_flags k = Some false /\ k_setflags k = true) /\ k_setaddr k = true /\ k_cid k <> None.
Proof.
  intros k. rewrite <- hwrng_iff. unfold serves. rewrite main_shape. cbv zeta. pose proof (early_not k) as EN. generalize dependent (early k). intros pre EN.
  assert (W : forall e, In e (when (k_insmod k) ModuleLoaded) -> e = ModuleLoaded) by (unfold when; destruct (k_insmod k); intros e []; [auto|contradiction]).
  assert (NS : forall l, (forall e, In e l -> ~ is_serving e) -> ~ exists e, In e l /\ is_serving e) by (intros l H (e & I & S); exact (H e I S)).
  assert (P0 : forall e, In e pre -> ~ is_serving e) by (intros e H S; apply EN in H; destruct e; cbn in S; contradiction).
  assert (P1 : forall b e, In e ((pre ++ when (k_insmod k) ModuleLoaded) ++ [if b : bool then EntropyChecked else PowerOffCalled]) -> ~ is_serving e).
  { intros b e H S. apply in_app_or in H as [H|H]; [apply in_app_or in H as [H|H]; [exact (P0 e H S)|rewrite (W e H) in S; exact S]|].
    destruct H as [<-|[]]. destruct b; exact S. }
  assert (P2 : forall b l, (forall e, In e l -> ~ is_serving e) -> forall e, In e (((pre ++ when (k_insmod k) ModuleLoaded) ++ [if b : bool then EntropyChecked else PowerOffCalled]) ++ l) -> ~ is_serving e).
  { intros b l H e I. apply in_app_or in I as [I|I]; [exact (P1 b e I)|exact (H e I)]. }
  destruct (k_module k); cbn [negb]; [|split; [intros H; destruct (NS _ P0 H)|intros (H & _); discriminate]].
  set (c := check_hwrng (bs "nsm-hwrng") k) in *.
  destruct (negb c && k_poweroff k) eqn:X.
  { apply andb_true_iff in X as [X1 X2]. cbn [fst]. split; [intros H; destruct (NS _ (P1 c) H)|]. rewrite X2. destruct c; [discriminate|]. intros (_ & [H|H] & _); discriminate. }
  assert (OKE : c = true \/ k_poweroff k = false) by (destruct c, (k_poweroff k); cbn in X; auto; discriminate).
  destruct (k_dgram k); cbn [negb fst]; [|split; [intros H; destruct (NS _ (P1 c) H)|intros (_ & _ & H & _); discriminate]].
  destruct (k_flags k) as [up|]; [|cbn [fst]; split; [intros H; destruct (NS _ (P1 c) H)|intros (_ & _ & _ & [H|[H _]] & _); discriminate]].
  destruct (up || k_setflags k) eqn:U; cbn [negb fst].
  2:{ split; [intros H; destruct (NS _ (P1 c) H)|]. apply orb_false_iff in U as [-> U]. rewrite U. intros (_ & _ & _ & [H|[_ H]] & _); discriminate. }
  assert (OKU : Some up = Some true \/ Some up = Some false /\ k_setflags k = true) by (destruct up; [now left|right; split; [reflexivity|exact U]]).
  destruct (k_setaddr k); cbn [negb fst].
  2:{ split; [intros H; refine (match NS _ (P2 c [LoUp] _) H with end); intros e [<-|[]] S; exact S|intros (_ & _ & _ & _ & H & _); discriminate]. }
  destruct (k_cid k) as [cid|]; cbn [fst].
  - split; [|intros _; eexists; split; [apply in_or_app; right; right; right; now left|exact I]]. intros _. split; [reflexivity|]. split; [exact OKE|]. split; [reflexivity|]. split; [exact OKU|]. split; [reflexivity|discriminate].
  - split; [intros H; refine (match NS _ (P2 c [LoUp; LoAddress 127 0 0 1] _) H with end); intros e [<-|[<-|[]]] S; exact S|intros (_ & _ & _ & _ & _ & H); congruence].
Qed.
Print Assumptions c83_serves_exactly_when.

(** So an enclave serves only with the hardware entropy source, as long as
    switching the machine off works. *)
Theorem c83_serves_only_with_hardware_entropy : forall k, k_poweroff k = true -> serves k -> hardware_entropy k.
Proof. intros k P S. apply c83_serves_exactly_when in S as (_ & [H|H] & _); [exact H|congruence]. Qed.
Print Assumptions c83_serves_only_with_hardware_entropy.

Lemma app_serves l s e b : (forall x, In x l -> ~ is_serving x) -> is_serving e -> forall a t, l ++ s :: t = a ++ e :: b -> (forall x, In x t -> ~ is_serving x) -> a = l /\ e = s /\ b = t.
Proof.
  induction l as [|x l IH]; intros L Se a t E T.
  - destruct a as [|y a]; cbn [app] in E; [injection E as -> ->; auto|]. injection E as -> E. exfalso. apply (T e); [rewrite E; apply in_or_app; right; now left|exact Se].
  - destruct a as [|y a]; cbn [app] in E.
    + injection E as -> _. exfalso. apply (L e); [now left|exact Se].
    + injection E as -> E. destruct (IH (fun x I => L x (or_intror I)) Se a t E T) as (-> & -> & ->). auto.
Qed.
(** When it serves, it serves on port 3 of its own cid with the default files
    and nothing else, after the loopback interface came up as 127.0.0.1, and
    when serving ends the machine restarts: nothing survives. *)
Theorem c83_what_it_serves : forall k a b e, fst (init_main k) = a ++ e :: b -> is_serving e ->
  (exists cid, k_cid k = Some cid /\ e = Serves (AVsock cid 3 0) (bs "/qos.ephemeral.key") (bs "/qos.quorum.key") (bs "/qos.manifest") (bs "/qos.pivot.bin")) /\
  In LoUp a /\ In (LoAddress 127 0 0 1) a /\ In (if check_hwrng (bs "nsm-hwrng") k then EntropyChecked else PowerOffCalled) a /\
  b = [Rebooted] /\ snd (init_main k) = Some Restarted.
Proof.
  intros k a b e E S. assert (SV : serves k) by (exists e; split; [rewrite E; apply in_or_app; right; now left|exact S]).
  apply c83_serves_exactly_when in SV as (H1 & H2 & H3 & H4 & H5 & H6). rewrite <- hwrng_iff in H2.
  rewrite main_shape in E |- *. cbv zeta in *. rewrite H1, H3, H5 in *. cbn [negb] in *.
  set (c := check_hwrng (bs "nsm-hwrng") k) in *.
  assert (X : negb c && k_poweroff k = false) by (destruct H2 as [->|H2]; [reflexivity|rewrite H2; apply andb_false_r]). rewrite X in *.
  destruct (k_flags k) as [up|]; [|destruct H4 as [H4|[H4 _]]; discriminate].
  assert (U : up || k_setflags k = true) by (destruct H4 as [H4|[_ H4]]; [injection H4 as ->; reflexivity|rewrite H4; apply orb_true_r]). rewrite U in *. cbn [negb] in *.
  destruct (k_cid k) as [cid|]; [|congruence]. cbn [fst snd] in *.
  pose proof (early_not k) as EN. set (pre := early k) in *. clearbody pre.
  set (P := (pre ++ when (k_insmod k) ModuleLoaded) ++ [if c then EntropyChecked else PowerOffCalled]) in *.
  assert (NP : forall x, In x (P ++ [LoUp; LoAddress 127 0 0 1]) -> ~ is_serving x).
  { intros x I Sx. apply in_app_or in I as [I|[<-|[<-|[]]]]; [|exact Sx|exact Sx]. unfold P in I. apply in_app_or in I as [I|[<-|[]]]; [|destruct c; exact Sx].
    apply in_app_or in I as [I|I]; [apply EN in I; destruct x; cbn in Sx; contradiction|]. unfold when in I. destruct (k_insmod k); [destruct I as [<-|[]]; exact Sx|destruct I]. }
  rewrite app_assoc in E. apply app_serves in E as (-> & -> & ->); [|exact NP|exact S|intros x [<-|[]] Sx; exact Sx].
  split; [eauto|]. split; [apply in_or_app; right; now left|]. split; [apply in_or_app; right; right; now left|].
  split; [apply in_or_app; left; unfold P; apply in_or_app; right; now left|]. split; reflexivity.
Qed.
Print Assumptions c83_what_it_serves.
(** None of the enclave's own files lies on one of the file systems mounted at
    boot, all of which refuse to run programs. *)
Theorem c83_files_are_on_the_root : forall m f, In m rootfs_mounts ->
  In f [bs "/qos.ephemeral.key"; bs "/qos.quorum.key"; bs "/qos.manifest"; bs "/qos.pivot.bin"] -> ~ under (m_target m) f /\ f <> m_target m /\ N.testbit (m_flags m) 3 = true /\ N.testbit (m_flags m) 1 = true.
Proof.
  intros m f M F. cbn [rootfs_mounts In] in M, F.
  destruct M as [<-|[<-|[<-|[<-|[<-|[<-|[<-|[<-|[]]]]]]]]]; (split; [|split; [|split; reflexivity]]);
    destruct F as [<-|[<-|[<-|[<-|[]]]]]; try (intros [r H]; cbn in H; discriminate H); cbn; discriminate.
Qed.
Print Assumptions c83_files_are_on_the_root.
(** Device files are honoured only on the device file systems; set-user-ID
    bits and programs nowhere; processes of others are hidden. *)
Theorem c83_mounts_are_restricted :
  (forall m, In m rootfs_mounts -> N.testbit (m_flags m) 1 = true /\ N.testbit (m_flags m) 3 = true /\
     (N.testbit (m_flags m) 2 = true \/ (m_type m = bs "devtmpfs" /\ m_target m = bs "/dev") \/ (m_type m = bs "devpts" /\ m_target m = bs "/dev/pts")))
  /\ (forall m, In m rootfs_mounts -> m_type m = bs "proc" -> m_data m = bs "hidepid=2" /\ m_target m = bs "/proc")
  /\ map m_target rootfs_mounts = [bs "/dev"; bs "/dev/pts"; bs "/dev/shm"; bs "/proc"; bs "/run"; bs "/tmp"; bs "/sys"; bs "/sys/fs/cgroup"].
Proof.
  split; [|split].
  - intros m M. cbn [rootfs_mounts In] in M.
    destruct M as [<-|[<-|[<-|[<-|[<-|[<-|[<-|[<-|[]]]]]]]]]; (split; [reflexivity|split; [reflexivity|]]); auto.
  - intros m M. cbn [rootfs_mounts In] in M.
    destruct M as [<-|[<-|[<-|[<-|[<-|[<-|[<-|[<-|[]]]]]]]]]; intros H; try discriminate H; split; reflexivity.
  - reflexivity.
Qed.
Print Assumptions c83_mounts_are_restricted.
(** "No enclave serves without the hardware entropy source" fails if the call
    that switches the machine off fails: the boot then goes on. *)
Theorem c83_refuted_entropy_failure_stops_the_boot : exists k, k_rng k = None /\ serves k.
Proof.
  exists (Kernel (fun _ => true) (fun _ => true) true true true None false true (Some false) true true (Some 16)). split; [reflexivity|].
  apply c83_serves_exactly_when. cbn. split; [reflexivity|]. split; [now right|]. split; [reflexivity|]. split; [right; now split|]. split; [reflexivity|discriminate].
Qed.
Print Assumptions c83_refuted_entropy_failure_stops_the_boot.
Example c83_nontrivial :
  let k := Kernel (fun _ => false) (fun _ => false) false true false (Some (bs "nsm-hwrng" ++ [x0a])) true true (Some false) true true (Some 16) in
  serves k /\ fst (init_main k) = [EntropyChecked; LoUp; LoAddress 127 0 0 1; Serves (AVsock 16 3 0) (bs "/qos.ephemeral.key") (bs "/qos.quorum.key") (bs "/qos.manifest") (bs "/qos.pivot.bin"); Rebooted] /\
  init_main (Kernel (fun _ => false) (fun _ => false) false true false (Some (bs "virtio_rng.0")) true true (Some false) true true (Some 16)) = ([PowerOffCalled], Some Off).
Proof.
  cbv zeta. split; [|split; vm_compute; reflexivity].
  eexists. split; [vm_compute; right; right; right; left; reflexivity|exact I].
Qed.
