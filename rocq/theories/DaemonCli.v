(** The command lines of the programs around the enclave: src/qos_host/src/cli.rs,
    src/qos_net/src/cli.rs, src/qos_bridge/src/cli.rs (with the "egress" feature).
    Not modelled: the help texts.  A panic while the options are evaluated is
    [Crash], whichever option it is about. *)
From Verif Require Import Base Env Json Types TypesJson CliParser Pool ClientCli.
Local Open Scope N_scope.

Inductive daemon (A : Type) := Crash | ShowVersion | ShowHelp | Starts (a : A).
Arguments Crash {A}. Arguments ShowVersion {A}. Arguments ShowHelp {A}. Arguments Starts {A} _.
(** qos_host/src/cli.rs:192-214, qos_net/src/cli.rs:92-121, qos_bridge/src/cli.rs:155-224 *)
Definition execute {A} (ts : list token) (conf : token_map -> option A) (args : list bytes) : daemon A :=
  match options_parse ts args with
  | Panic | Done (Err _) => Crash
  | Done (Ok m) => if p_version m then ShowVersion else if p_help m then ShowHelp else match conf m with Some a => Starts a | None => Crash end
  end.
(** io/mod.rs:93-110 SocketAddress::new_unix *)
Definition new_unix (u : bytes) : option address := match unix_addr_new u with Ok a => Some a | Err _ => None end.
(** [--vsock-to-host]; io/mod.rs:87-89: 1 is VMADDR_FLAG_TO_HOST.  [d] is the
    value when the option is absent: false for the host (qos_host/src/cli.rs:166-185,
    is_some_and), true for the bridge (qos_bridge/src/cli.rs:131-150, is_none_or) *)
Definition to_host_flag (d : bool) (m : token_map) : option N :=
  let? b := match get_single m (bs "vsock-to-host") with Some v => bool_from v | None => Some d end in Some (if b then 1 else 0).

(** *** qos_host *)
(** qos_host/src/cli.rs:23-70 *)
Definition host_tokens : list token :=
  [ tk_requires (bs "port") (tk_forbids [bs "usock"] (tk_takes_value true (token_new (bs "cid"))));
    tk_requires (bs "cid") (tk_forbids [bs "usock"] (tk_takes_value true (token_new (bs "port"))));
    tk_forbids [bs "port"; bs "cid"] (tk_takes_value true (token_new (bs "usock")));
    tk_required true (tk_takes_value true (token_new (bs "host-ip")));
    tk_required true (tk_takes_value true (token_new (bs "host-port")));
    tk_takes_value true (token_new (bs "endpoint-base-path"));
    tk_default_value (bs "20000") (tk_takes_value true (token_new (bs "socket-timeout")));
    tk_forbids [bs "usock"] (tk_required false (tk_takes_value true (token_new (bs "vsock-to-host")))) ].
Record host_config := HostConfig { hc_enclave : address; hc_timeout_ms : N; hc_ip : ipv4; hc_port : N; hc_base : option bytes }.
(** qos_host/src/cli.rs:107-148, 203-209 *)
Definition host_conf (m : token_map) : option host_config :=
  let? sock := match get_single m (bs "cid"), get_single m (bs "port"), get_single m (bs "usock") with
               | Some c, Some p, None => let? c := parse_unsigned U32 c in let? p := parse_unsigned U32 p in let? f := to_host_flag false m in Some (AVsock c p f)
               | None, None, Some u => new_unix u
               | _, _, _ => None
               end in
  let? t := parse_unsigned (2 ^ 64) match get_single m (bs "socket-timeout") with Some v => v | None => bs "20000" end in
  let? i := get_single m (bs "host-ip") in let? ip := parse_ip i in
  let? p := get_single m (bs "host-port") in let? port := parse_unsigned (2 ^ 16) p in
  Some (HostConfig sock t ip port (get_single m (bs "endpoint-base-path"))).
Definition host_execute : list bytes -> daemon host_config := execute host_tokens host_conf.
(** qos_host/src/host.rs:70-76 *)
Definition route (base : option bytes) (endpoint : bytes) : bytes := bs "/" ++ match base with Some b => b | None => bs "qos" end ++ endpoint.

(** *** qos_net *)
(** qos_net/src/cli.rs:125-169 *)
Definition proxy_tokens : list token :=
  [ tk_requires (bs "port") (tk_forbids [bs "usock"] (tk_takes_value true (token_new (bs "cid"))));
    tk_requires (bs "cid") (tk_forbids [bs "usock"] (tk_takes_value true (token_new (bs "port"))));
    tk_forbids [bs "port"; bs "cid"] (tk_takes_value true (token_new (bs "usock")));
    tk_default_value (bs "256") (tk_takes_value true (token_new (bs "max-connections")));
    tk_default_value (bs "1") (tk_forbids [bs "port"; bs "cid"] (tk_takes_value true (token_new (bs "pool-size")))) ].
Record proxy_config := ProxyConfig { pc_listens : list address; pc_max_connections : N }.
(** qos_net/src/cli.rs:42-80, 104-111 *)
Definition proxy_conf (m : token_map) : option proxy_config :=
  let? v := get_single m (bs "pool-size") in let? n := parse_unsigned 256 v in
  let? a := match get_single m (bs "cid"), get_single m (bs "port"), get_single m (bs "usock") with
            | Some c, Some p, None => let? c := parse_unsigned U32 c in let? p := parse_unsigned U32 p in Some (AVsock c p 0)
            | None, None, Some u => new_unix u
            | _, _, _ => None
            end in
  let? p := match pool_new a (N.to_nat n) with Ok p => Some p | Err _ => None end in
  let? x := parse_unsigned (2 ^ 64) match get_single m (bs "max-connections") with Some v => v | None => bs "256" end in
  Some (ProxyConfig (p_addresses p) x).
Definition proxy_execute : list bytes -> daemon proxy_config := execute proxy_tokens proxy_conf.

(** *** qos_bridge *)
(** qos_bridge/src/cli.rs:17-57 *)
Definition bridge_tokens : list token :=
  [ tk_required false (tk_takes_value true (token_new (bs "control-url")));
    tk_forbids [bs "usock"] (tk_takes_value true (token_new (bs "cid")));
    tk_forbids [bs "cid"] (tk_takes_value true (token_new (bs "usock")));
    tk_takes_value true (token_new (bs "host-port-override"));
    tk_forbids [bs "usock"] (tk_required false (tk_takes_value true (token_new (bs "vsock-to-host"))));
    tk_takes_value false (token_new (bs "egress-host"));
    tk_takes_value true (token_new (bs "egress-bin-path")) ].
Record ingress_config := IngressConfig { ic_enclave : address; ic_control_url : bytes; ic_override : option N; ic_egress_bin : option bytes }.
(** qos_bridge/src/cli.rs:74-121, 203-224: an override that is no 16-bit number is dropped (line 101, [ok()]) *)
Definition ingress_conf (m : token_map) : option ingress_config :=
  let? a := match get_single m (bs "cid"), get_single m (bs "usock") with
            | Some c, None => let? c := parse_unsigned U32 c in let? f := to_host_flag true m in Some (AVsock c 3001 f)
            | None, Some u => new_unix u
            | _, _ => None
            end in
  let? u := get_single m (bs "control-url") in
  Some (IngressConfig a u (match get_single m (bs "host-port-override") with Some v => parse_unsigned (2 ^ 16) v | None => None end) (get_single m (bs "egress-bin-path"))).
Definition ingress_execute : list bytes -> daemon ingress_config := execute bridge_tokens ingress_conf.
(** qos_bridge/src/cli.rs:155-196; lib.rs:17: the egress port is 1000 *)
Record egress_config := EgressConfig { ec_on_host : bool; ec_cid : N; ec_port : N; ec_flags : N }.
Definition egress_conf (m : token_map) : option egress_config :=
  let? v := get_single m (bs "cid") in let? c := parse_unsigned U32 v in let? f := to_host_flag true m in
  Some (EgressConfig (match get_flag m (bs "egress-host") with Some b => b | None => false end) c 1000 f).
Definition egress_execute : list bytes -> daemon egress_config := execute bridge_tokens egress_conf.
