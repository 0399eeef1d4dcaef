(** Model of /repo/src/qos_core/src/reaper.rs:186-289 (Reaper::execute) and its
    helpers.  The reaper runs concurrently with the protocol server and sees
    the file system only at the instants of its own calls.  The model takes the
    list of file systems it observes, one per call, in time order.  Not
    modelled: sleeping, the ctrl-C path, piping of output, operating-system
    failures of spawn/wait/read on files that exist (they panic).  One failure of
    spawn does not depend on the operating system and is modelled: std's Command
    refuses an argument with a NUL byte inside (spawn returns InvalidInput). *)
From Verif Require Import Base Types TypesJson World.
Local Open Scope N_scope.

Inductive action :=
| AResolv (text : bytes)          (* write_resolv_conf *)
| ABridge (port : N)              (* HostBridge::vsock_to_tcp for a server bridge *)
| AEgress                         (* run_egress_bridge *)
| ASpawn (binary : bytes) (args : list bytes) (env : pivot_env) (piped : bool).
Inductive ending := Waiting | Panicked | Running | Finished.

Definition present (f : fsys) (s : slot) : bool := is_some (f (Main s)).

(** reaper.rs:206-226: quorum key, then pivot, then manifest, with short-circuit. *)
Fixpoint poll (l : list fsys) : option (list fsys) :=
  match l with
  | [] => None
  | f1 :: l1 =>
    if present f1 Quorum then
      match l1 with
      | [] => None
      | f2 :: l2 =>
        if present f2 Pivot then
          match l2 with
          | [] => None
          | f3 :: l3 => if present f3 Manif then Some l3 else poll l3
          end
        else poll l2
      end
    else poll l1
  end.

(** reaper.rs:157-165 resolv_conf_with_nameservers *)
Definition resolv_conf (d : dns_config) : bytes :=
  concat (map (fun r => bs "nameserver " ++ print_ip_addr r ++ [x0a]) (dns_resolvers d)).

(** std::process::Command::args, as used in reaper.rs:244-257: a NUL byte in any
    argument makes spawn fail *)
Definition spawnable (args : list bytes) : bool := forallb (fun a => negb (existsb (byte_eqb x00) a)) args.

Section Reaper.
  Context (port_ok : N -> bool)  (* SocketAddress::with_port and StreamPool::single succeed *)
          (egress : bool).       (* the build has the egress feature *)

  (** reaper.rs:76-108 run_bridges; [false] means an error or panic *)
  Fixpoint run_bridges (enabled : bool) (l : list bridge_config) : list action * bool :=
    match l with
    | [] => ([], true)
    | BServer p _ :: r =>
      if port_ok p then let '(a, b) := run_bridges enabled r in (ABridge p :: a, b) else ([], false)
    | BClient _ _ :: r =>
      if enabled then run_bridges enabled r
      else if egress then let '(a, b) := run_bridges true r in (AEgress :: a, b) else ([], false)
    end.

  (** reaper.rs:250-279: the spawn loop; each observation is one spawn *)
  Fixpoint spawn_loop (m : versioned_manifest) (l : list fsys) : list action * ending :=
    match l with
    | [] => ([], Running)
    | f :: r =>
      match f (Main Pivot) with
      | None => ([], Panicked)
      | Some (c, _) =>
        if negb (spawnable (vm_args m)) then ([], Panicked) else (* expect("Failed to spawn pivot"): reaper.rs:257 *)
        let a := ASpawn c (vm_args m) [] (vm_debug m) in (* env_clear, no env call: reaper.rs:252-253 *)
        match vm_restart m with
        | Never => ([a], Finished)
        | Always => let '(acts, e) := spawn_loop m r in (a :: acts, e)
        end
      end
    end.

  Definition read_manifest (f : fsys) : option versioned_envelope :=
    match f (Main Manif) with Some (c, _) => envelope_try_from_slice_compat c | None => None end.

  (** reaper.rs:228-289 *)
  Definition launch (m : versioned_manifest) (l : list fsys) : list action * ending :=
    let dns := match vm_dns m with Some d => [AResolv (resolv_conf d)] | None => [] end in
    let '(br, ok) := run_bridges false (vm_bridge m) in
    if ok then let '(sp, e) := spawn_loop m l in (dns ++ br ++ sp, e) else (dns ++ br, Panicked).
  Definition reaper (l : list fsys) : list action * ending :=
    match poll l with
    | None | Some [] => ([], Waiting)
    | Some (f :: r) =>
      match read_manifest f with
      | None => ([], Panicked)
      | Some e => launch (env_manifest e) r
      end
    end.
End Reaper.
