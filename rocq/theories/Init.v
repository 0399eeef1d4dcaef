(** The enclave's init process: /repo/src/init/init.rs, /repo/src/init/setip.rs,
    /repo/src/qos_aws/src/lib.rs and the wrappers of /repo/src/qos_system/src/lib.rs.

    The kernel is the environment: every system call may fail.  A panic of
    process 1 stops the machine.  What the egress
    feature adds is EgressInit.v.  Log lines are not modelled. *)
From Verif Require Import Base Utf8 Hex Pool EnclaveCli.
Local Open Scope N_scope.

(** init.rs:18-37 *)
Definition MS_NOSUID : N := 2.  Definition MS_NODEV : N := 4.  Definition MS_NOEXEC : N := 8.
Definition no_dse : N := MS_NODEV + MS_NOSUID + MS_NOEXEC.
Definition no_se : N := MS_NOSUID + MS_NOEXEC.
Record mount_entry := Mount { m_src : bytes; m_target : bytes; m_type : bytes; m_flags : N; m_data : bytes }.
Definition rootfs_mounts : list mount_entry :=
  [ Mount (bs "devtmpfs") (bs "/dev") (bs "devtmpfs") no_se (bs "mode=0755");
    Mount (bs "devpts") (bs "/dev/pts") (bs "devpts") no_se (bs "");
    Mount (bs "shm") (bs "/dev/shm") (bs "tmpfs") no_dse (bs "mode=0755");
    Mount (bs "proc") (bs "/proc") (bs "proc") no_dse (bs "hidepid=2");
    Mount (bs "tmpfs") (bs "/run") (bs "tmpfs") no_dse (bs "mode=0755");
    Mount (bs "tmpfs") (bs "/tmp") (bs "tmpfs") no_dse (bs "");
    Mount (bs "sysfs") (bs "/sys") (bs "sysfs") no_dse (bs "");
    Mount (bs "cgroup_root") (bs "/sys/fs/cgroup") (bs "tmpfs") no_dse (bs "mode=0755") ].

(** What the kernel does. *)
Record kernel := Kernel {
  k_mount : mount_entry -> bool;                 (* the mount succeeds *)
  k_console : nat -> bool;                       (* freopen of descriptor n succeeds *)
  k_heartbeat : bool;                            (* the hypervisor's heartbeat port accepts *)
  k_module : bool; k_insmod : bool;              (* /nsm.ko can be opened; is accepted *)
  k_rng : option bytes;                          (* contents of rng_current *)
  k_poweroff : bool;                             (* the power-off call takes effect *)
  k_dgram : bool; k_flags : option bool; k_setflags : bool; k_setaddr : bool;  (* socket; lo's flags: up?; set them; set the address *)
  k_cid : option N }.                            (* /dev/vsock and its ioctl *)

Inductive init_event :=
| Mounted (m : mount_entry) | Console (fd : nat) | Heartbeat | ModuleLoaded | EntropyChecked | PowerOffCalled
| LoUp | LoAddress (a b c d : N) | Serves (socket : address) (ephemeral quorum manifest pivot : bytes) | Rebooted.
Inductive init_end := Off | Panicked | Restarted.
(** A step: what it did, and how the machine stopped if it did. *)
Definition step := (list init_event * option init_end)%type.
Definition andthen (a b : step) : step := match a with (t, Some e) => (t, Some e) | (t, None) => let (t', e) := b in (t ++ t', e) end.

Definition when (c : bool) (e : init_event) : list init_event := if c then [e] else [].
(** init.rs:18-37 *)
Definition init_rootfs (k : kernel) : step := (flat_map (fun m => when (k_mount k m) (Mounted m)) rootfs_mounts, None).
(** init.rs:39-52 *)
Definition init_console (k : kernel) : step := (flat_map (fun fd => when (k_console k fd) (Console fd)) [0%nat; 1%nat; 2%nat], None).
(** qos_system lib.rs:149-167 check_hwrng; an unreadable or non-UTF-8 file is an error *)
Definition check_hwrng (expected : bytes) (k : kernel) : bool :=
  match k_rng k with
  | None => false
  | Some raw => match utf8_dec raw with Some cs => bytes_eqb expected (utf8_enc (trim cs)) | None => false end
  end.
(** qos_aws lib.rs:4-41; insmod's [File::open(path).unwrap()] panics *)
Definition init_platform (k : kernel) : step :=
  andthen (when (k_heartbeat k) Heartbeat, None)
  (if negb (k_module k) then ([], Some Panicked)
   else andthen (when (k_insmod k) ModuleLoaded, None)
   (if check_hwrng (bs "nsm-hwrng") k then ([EntropyChecked], None)
    else ([PowerOffCalled], if k_poweroff k then Some Off else None))).
(** setip.rs:11-84: 2130706433 is 127.0.0.1 *)
Definition init_localhost (k : kernel) : step :=
  if negb (k_dgram k) then ([], Some Panicked)
  else match k_flags k with
  | None => ([], Some Panicked)
  | Some up =>
    andthen (if up then ([LoUp], None) else if k_setflags k then ([LoUp], None) else ([], Some Panicked))
    (if k_setaddr k then ([LoAddress (2130706433 / 16777216) (2130706433 / 65536 mod 256) (2130706433 / 256 mod 256) (2130706433 mod 256)], None) else ([], Some Panicked))
  end.
(** init.rs:54-64 *)
Definition boot (k : kernel) : step := andthen (init_rootfs k) (andthen (init_console k) (andthen (init_platform k) (init_localhost k))).
(** init.rs:66-89; Reaper::execute is Reaper.v *)
Definition START_PORT : N := 3.
Definition init_main (k : kernel) : step :=
  andthen (boot k)
  (match k_cid k with
   | None => ([], Some Panicked)
   | Some cid => ([Serves (AVsock cid START_PORT 0) EPHEMERAL_KEY_FILE QUORUM_FILE MANIFEST_FILE PIVOT_FILE; Rebooted], Some Restarted)
   end).
