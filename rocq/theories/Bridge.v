(** The host side of the port bridge: /repo/src/qos_bridge/src/host.rs, and the
    relaying of connections on both sides: /repo/src/qos_core/src/io/host_bridge.rs.
    The enclave side (which bridges are started) is [run_bridges] in Reaper.v, the
    socket names are [with_port] in Pool.v, the info route is Host.v.  Not modelled:
    printing, the waiting times, the egress program itself (Egress.v). *)
From Verif Require Import Stream Proxy Pool Base Types TypesJson JsonComb Msg World Attest Services State Wire ClientNet Host Reaper.
Local Open Scope N_scope.

(** What [BridgeServer::run_bridges] starts: a TCP listener on [ip]:[port] whose
    connections are relayed to the socket [app], or the egress program. *)
Inductive host_effect := HListen (ip : ipv4) (port : N) (app : address) | HEgress.

(** io/host_bridge.rs:19-30 HostBridge::new: [false] is the failed assertion.  The pools here have one stream. *)
Definition host_bridge_ok (port : N) : bool := 1 + port <? 65535.
(** host.rs:124-158 run_ingress_bridge: [None] is a panic ([with_port] on a too long path, or
    the assertion of HostBridge::new); otherwise the listener started, if any. *)
Definition run_ingress (sock : address) (core_port host_port : N) (host : bytes) : option (list host_effect) :=
  match with_port sock core_port with
  | None => None
  | Some (Err _) => Some []
  | Some (Ok app) =>
    match pool_new app 1 with                (* StreamPool::single, io/pool.rs:64-68 *)
    | Err _ => Some []
    | Ok _ =>
      match parse_ip host with
      | None => Some []
      | Some ip => if host_bridge_ok host_port then Some [HListen ip host_port app] else None
      end
    end
  end.
(** host.rs:68-71 host_port *)
Definition host_port (override : option N) (port : N) : N := match override with Some q => q | None => port end.
(** host.rs:73-98 run_bridges; [egress] says that the build has the egress feature; [false] is a panic *)
Fixpoint host_bridges (sock : address) (override : option N) (egress : bool) (enabled : bool) (l : list bridge_config) : list host_effect * bool :=
  match l with
  | [] => ([], true)
  | BClient _ _ :: r =>
    if enabled then host_bridges sock override egress enabled r
    else if egress then let '(a, b) := host_bridges sock override egress true r in (HEgress :: a, b) else ([], false)
  | BServer p h :: r =>
    match run_ingress sock p (host_port override p) h with
    | None => ([], false)
    | Some es => let '(a, b) := host_bridges sock override egress enabled r in (es ++ a, b)
    end
  end.

(** What becomes of one HTTP request of the bridge: it, or its reply, may be lost. *)
Inductive http_fate := NoRequest | NoReply | Reply.
Inductive bridge_result := BWaiting | BPanic | BRun (cfg : list bridge_config).
(** host.rs:43-66 serve: one entry of the list per attempt *)
Fixpoint bridge_serve (Y : sys) (l : list http_fate) (n : net Y) : bridge_result * net Y :=
  match l with
  | [] => (BWaiting, n)
  | NoRequest :: r => bridge_serve Y r n
  | NoReply :: r => bridge_serve Y r (snd (info_response Y n))
  | Reply :: r =>
    match info_response Y n with
    | ((code, Some body), n1) =>
      if code <? 400 then                    (* ureq: a status from 400 on is an error *)
        match json_from_slice js_enclave_info body with
        | None => (BPanic, n1)
        | Some i => match ei_envelope i with
                    | Some e => (BRun (vm_bridge (env_manifest e)), n1)
                    | None => bridge_serve Y r n1
                    end
        end
      else bridge_serve Y r n1
    | ((_, None), n1) => bridge_serve Y r n1
    end
  end.

(** *** Binding: io/host_bridge.rs:112-121.  The tasks run in some order; a task whose address is taken panics and is gone. *)
Definition wildcard : ipv4 := Ipv4 x00 x00 x00 x00.
Definition ipv4_eqb (a b : ipv4) : bool :=
  byte_eqb (ip_a a) (ip_a b) && byte_eqb (ip_b a) (ip_b b) && byte_eqb (ip_c a) (ip_c b) && byte_eqb (ip_d a) (ip_d b).
(** The kernel's rule for listening TCP sockets (port 0 asks for any free port and is not modelled). *)
Definition taken (x y : ipv4 * N) : bool :=
  (snd x =? snd y) && (ipv4_eqb (fst x) (fst y) || ipv4_eqb (fst x) wildcard || ipv4_eqb (fst y) wildcard).
Fixpoint bind_all (bound : list (ipv4 * N)) (l : list (ipv4 * N)) : list (ipv4 * N) :=
  match l with
  | [] => bound
  | a :: r => if existsb (taken a) bound then bind_all bound r else bind_all (bound ++ [a]) r
  end.

(** *** One relayed connection *)
(** io/host_bridge.rs:112-160 tcp_to_vsock on the host and 162-196 vsock_to_tcp in the
    enclave, one direction of one connection: two copies in a row (each side reads what
    the other wrote).  How each copy ended, and what came out. *)
Record leg := Leg { l_fuel : nat; l_read : nat -> rres; l_write : nat -> wres }.
Definition relay (a b : leg) (sent : bytes) : (running (result unit unit) * running (result unit unit)) * bytes :=
  let (o1, t1) := copy (l_fuel a) (l_read a) 0 (l_write a) 0 sent in
  let (o2, t2) := copy (l_fuel b) (l_read b) 0 (l_write b) 0 (on_wire t1) in
  ((o1, o2), on_wire t2).
