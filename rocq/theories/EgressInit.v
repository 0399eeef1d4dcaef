(** The init process built with the egress feature: src/init/init.rs:54-64 with
    src/qos_core/src/egress.rs:72-84 (init_egress_tun), 265-278 (run_ip), 303-312
    (run_with_ld), and the tun interface the egress program opens, 96-133
    (create_tun_socket).  What the [ip] program does is the environment; log lines
    are not modelled. *)
From Verif Require Import Base Pool EnclaveCli Client Init.
Local Open Scope N_scope.

(** How a run of [ip] went: no process, no end of it learned, ended well or not. *)
Inductive ip_run := NoProcess | NoEnd | Ended (well : bool).
(** egress.rs:306-312: the loader is the program, [ip]'s path its first argument *)
Definition ip_argv (line : bytes) : list bytes := bs "/lib/ld-musl-x86" :: bs "/usr/sbin/ip" :: split_on " "%byte line.
(** egress.rs:77-84 *)
Definition tun_lines : list bytes :=
  [ bs "tuntap add enclave_egress mode tun"; bs "link set lo up"; bs "address add 169.254.0.1/32 dev lo";
    bs "link set mtu 1320 dev enclave_egress"; bs "link set enclave_egress up"; bs "route replace default dev enclave_egress" ].
Inductive event := Did (e : init_event) | Ran (argv : list bytes).
Definition run := (list event * option init_end)%type.
(** egress.rs:271-278: each [expect] and the [assert!] panics *)
Fixpoint run_ips (ip : list bytes -> ip_run) (l : list bytes) (rest : run) : run :=
  match l with
  | [] => rest
  | c :: r => match ip (ip_argv c) with
              | Ended true => let (t, e) := run_ips ip r rest in (Ran (ip_argv c) :: t, e)
              | Ended false | NoEnd => ([Ran (ip_argv c)], Some Panicked)
              | NoProcess => ([], Some Panicked)
              end
  end.
(** init.rs:54-89 *)
Definition main_egress (k : kernel) (ip : list bytes -> ip_run) : run :=
  match boot k with
  | (t, Some e) => (map Did t, Some e)
  | (t, None) =>
    let (t', e) := run_ips ip tun_lines
      (match k_cid k with
       | None => ([], Some Panicked)
       | Some cid => (map Did [Serves (AVsock cid START_PORT 0) EPHEMERAL_KEY_FILE QUORUM_FILE MANIFEST_FILE PIVOT_FILE; Rebooted], Some Restarted)
       end) in (map Did t ++ t', e)
  end.

(** egress.rs:102-121: the 16 bytes of [ifr_name] the kernel is asked for; [None]
    is CString's error *)
Definition ifr_name (name : bytes) : option bytes :=
  if existsb (fun b => b2n b =? 0) name then None
  else let n := Nat.min (length name) 15 in Some (firstn n name ++ repeat x00 (16 - n)).
(** egress.rs:45, 71 *)
Definition program_tun (on_host : bool) : bytes := if on_host then bs "host_egress" else bs "enclave_egress".
