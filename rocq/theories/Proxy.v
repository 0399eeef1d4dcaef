(** The remote-connection proxy: src/qos_net/src/proxy.rs, proxy_msg.rs,
    proxy_connection.rs, proxy_stream.rs, error.rs.  Not modelled: printing, the ten
    second limit on a session as a number (a session can be cut anywhere: see [copy]), TLS. *)
From Verif Require Import Base Utf8 Borsh Stream.
Local Open Scope N_scope.

(** error.rs:10-31 *)
Inductive net_error :=
| QOSIOError (s : bytes) | OversizeMsg | OversizedPayloadN | InvalidMsgN | ParseError (s : bytes)
| DNSResolutionError (s : bytes) | ReadOverflow (got room : N) | TooManyConnections (n : N).
(** proxy_msg.rs:5-41 *)
Inductive proxy_msg :=
| PError (e : net_error)
| StatusRequestP
| StatusResponseP (n : N)
| ConnectByName (hostname : bytes) (port : N) (dns_resolvers : list bytes) (dns_port : N)
| ConnectByIp (ip : bytes) (port : N)
| ConnectResponse (remote_ip : bytes).

(** The derived Borsh codecs (usize as u64). *)
Definition net_error_sum : Type := bytes + (unit + (unit + (unit + (bytes + (bytes + ((N * N) + (N + Empty_set))))))).
Definition net_error_of (s : net_error_sum) : net_error :=
  match s with
  | inl m => QOSIOError m
  | inr (inl _) => OversizeMsg
  | inr (inr (inl _)) => OversizedPayloadN
  | inr (inr (inr (inl _))) => InvalidMsgN
  | inr (inr (inr (inr (inl m)))) => ParseError m
  | inr (inr (inr (inr (inr (inl m))))) => DNSResolutionError m
  | inr (inr (inr (inr (inr (inr (inl (a, b))))))) => ReadOverflow a b
  | inr (inr (inr (inr (inr (inr (inr (inl n))))))) => TooManyConnections n
  | inr (inr (inr (inr (inr (inr (inr (inr e))))))) => match e return net_error with end
  end.
Definition net_error_to (e : net_error) : net_error_sum :=
  match e with
  | QOSIOError m => inl m
  | OversizeMsg => inr (inl tt)
  | OversizedPayloadN => inr (inr (inl tt))
  | InvalidMsgN => inr (inr (inr (inl tt)))
  | ParseError m => inr (inr (inr (inr (inl m))))
  | DNSResolutionError m => inr (inr (inr (inr (inr (inl m)))))
  | ReadOverflow a b => inr (inr (inr (inr (inr (inr (inl (a, b)))))))
  | TooManyConnections n => inr (inr (inr (inr (inr (inr (inr (inl n)))))))
  end.
Definition c_net_error : codec net_error :=
  c_iso net_error_of net_error_to
    (c_enum (t_cons c_string (t_cons c_unit (t_cons c_unit (t_cons c_unit (t_cons c_string (t_cons c_string
      (t_cons (c_pair c_u64 c_u64) (t_cons c_u64 t_nil))))))))).
Definition proxy_msg_sum : Type := net_error + (unit + (N + ((bytes * (N * (list bytes * N))) + ((bytes * N) + (bytes + Empty_set))))).
Definition proxy_msg_of (s : proxy_msg_sum) : proxy_msg :=
  match s with
  | inl e => PError e
  | inr (inl _) => StatusRequestP
  | inr (inr (inl n)) => StatusResponseP n
  | inr (inr (inr (inl (h, (p, (rs, d)))))) => ConnectByName h p rs d
  | inr (inr (inr (inr (inl (i, p))))) => ConnectByIp i p
  | inr (inr (inr (inr (inr (inl i))))) => ConnectResponse i
  | inr (inr (inr (inr (inr (inr e))))) => match e return proxy_msg with end
  end.
Definition proxy_msg_to (m : proxy_msg) : proxy_msg_sum :=
  match m with
  | PError e => inl e
  | StatusRequestP => inr (inl tt)
  | StatusResponseP n => inr (inr (inl n))
  | ConnectByName h p rs d => inr (inr (inr (inl (h, (p, (rs, d))))))
  | ConnectByIp i p => inr (inr (inr (inr (inl (i, p)))))
  | ConnectResponse i => inr (inr (inr (inr (inr (inl i)))))
  end.
Definition c_proxy_msg : codec proxy_msg :=
  c_iso proxy_msg_of proxy_msg_to
    (c_enum (t_cons c_net_error (t_cons c_unit (t_cons c_u64
      (t_cons (c_pair c_string (c_pair c_u16 (c_pair (c_vec c_string) c_u16)))
        (t_cons (c_pair c_string c_u16) (t_cons c_string t_nil))))))).

(** *** The world outside *)
Inductive ip := V4 (a : N) | V6 (a : N).
(** What the proxy asks of the operating system and the DNS resolver library; an error carries its text. *)
Record net := Net {
  parse_ip : bytes -> result bytes ip;                          (* str::parse::<IpAddr> *)
  show_ip : ip -> bytes;                                        (* IpAddr::to_string *)
  lookup : bytes -> list ip -> N -> result bytes (list ip);     (* TokioResolver::lookup_ip, built for these servers *)
  dial : ip -> N -> result bytes unit                           (* TcpStream::connect *)
}.
Inductive action := Looked (hostname : bytes) (servers : list ip) (dns_port : N) | Dialed (a : ip) (port : N).

(** proxy_connection.rs:118-125: [collect] into a Result: the first error *)
Fixpoint parse_all (n : net) (l : list bytes) : result bytes (list ip) :=
  match l with
  | [] => Ok []
  | s :: rest => match parse_ip n s with
                 | Err e => Err e
                 | Ok a => match parse_all n rest with Ok r => Ok (a :: r) | Err e => Err e end
                 end
  end.
Definition empty_answer (hostname : bytes) : bytes := bs "Empty response when querying for host " ++ hostname.
(** proxy_connection.rs:113-135 resolve_hostname *)
Definition resolve_hostname (n : net) (hostname : bytes) (resolvers : list bytes) (port : N) : result net_error ip * list action :=
  match parse_all n resolvers with
  | Err e => (Err (ParseError e), [])
  | Ok servers =>
    (match lookup n hostname servers port with
     | Err e => Err (DNSResolutionError e)
     | Ok [] => Err (DNSResolutionError (empty_answer hostname))
     | Ok (a :: _) => Ok a
     end, [Looked hostname servers port])
  end.
(** proxy_connection.rs:45-57 new_from_name, proxy.rs:36-61 connect_by_name: the
    answer, the connection if one is open, and what was done. *)
Definition connect_by_name (n : net) (hostname : bytes) (port : N) (resolvers : list bytes) (dns_port : N) : proxy_msg * option (ip * N) * list action :=
  let (res, acts) := resolve_hostname n hostname resolvers dns_port in
  match res with
  | Err e => (PError e, None, acts)
  | Ok a => match dial n a port with
            | Err e => (PError (QOSIOError e), None, acts ++ [Dialed a port])
            | Ok _ => (ConnectResponse (show_ip n a), Some (a, port), acts ++ [Dialed a port])
            end
  end.
(** proxy_connection.rs:66-75 new_from_ip, proxy.rs:63-78 connect_by_ip *)
Definition connect_by_ip (n : net) (s : bytes) (port : N) : proxy_msg * option (ip * N) * list action :=
  match parse_ip n s with
  | Err e => (PError (ParseError e), None, [])
  | Ok a => match dial n a port with
            | Err e => (PError (QOSIOError e), None, [Dialed a port])
            | Ok _ => (ConnectResponse s, Some (a, port), [Dialed a port])
            end
  end.
(** proxy.rs:80-117 process_req (MAX_ENCODED_MSG_LEN: proxy.rs:19-20) *)
Definition process_req (n : net) (req : bytes) : proxy_msg * option (ip * N) * list action :=
  if 128 * (1024 * 1024) <? lenN req then (PError OversizedPayloadN, None, [])
  else match from_slice c_proxy_msg req with
       | Some StatusRequestP => (StatusResponseP 0, None, [])
       | Some (ConnectByName h p rs d) => connect_by_name n h p rs d
       | Some (ConnectByIp s p) => connect_by_ip n s p
       | Some (PError e) => (PError e, None, [])
       | Some _ => (PError InvalidMsgN, None, [])
       | None => (PError InvalidMsgN, None, [])
       end.

(** *** One session *)
(** One direction of tokio's copy_bidirectional (external crate): read what there is into a
    buffer of 8 KiB, write it all, until the end of the input.  [fuel] is how many reads were
    made when the session ended; a failing write stands for a cut in the middle. *)
Fixpoint copy (fuel : nat) (r : nat -> rres) (i : nat) (w : nat -> wres) (j : nat) (stream : bytes) : running (result unit unit) * list call :=
  match fuel with
  | O => (Running, [])
  | S f =>
    match read_once (r i) (N.to_nat 8192) stream with
    | None => (Finished (Err tt), [])
    | Some ([], _) => (Finished (Ok tt), [])
    | Some (got, rest) =>
      let '(res, j', tr) := write_all (length got) w j got in
      match res with
      | Err _ => (Finished (Err tt), tr)
      | Ok _ => let (o, tr') := copy f r (S i) w j' rest in (o, tr ++ tr')
      end
    end
  end.
(** The kernel's behaviour during a session: reads from and writes to the enclave's
    socket before and after the connection is open, reads from and writes to the remote, and how far each part got. *)
Record kernel := Kernel {
  k_read : nat -> rres; k_send : nat -> wres; k_send_fuel : nat;
  k_up : nat; k_up_write : nat -> wres;                          (* towards the remote *)
  k_down : nat; k_down_read : nat -> rres; k_down_write : nat -> wres  (* towards the enclave *)
}.
Inductive session_end := EIo (e : io_error) | EMissingProxyConnection | ECopy.
Record session := Session {
  s_answer : option proxy_msg;
  s_opened : option (ip * N);
  s_actions : list action;
  s_to_enclave : bytes;
  s_to_remote : bytes;
  s_end : running (result session_end unit)
}.
(** proxy.rs:123-176 run, connect_and_stream: [from_enclave] is everything the enclave
    sends on the socket, [from_remote] everything the remote sends. *)
Definition connect_and_stream (n : net) (k : kernel) (from_enclave from_remote : bytes) : session :=
  let '(req, i, rest) := recv (k_read k) 0 from_enclave in
  match req with
  | Err e => Session None None [] [] [] (Finished (Err (EIo e)))
  | Ok req =>
    let '(resp, conn, acts) := process_req n req in
    let (sent, tr) := send (k_send_fuel k) (k_send k) (enc c_proxy_msg resp) in
    match sent with
    | Running => Session (Some resp) conn acts (on_wire tr) [] Running
    | Finished (Err e) => Session (Some resp) conn acts (on_wire tr) [] (Finished (Err (EIo e)))
    | Finished (Ok _) =>
      match conn with
      | None => Session (Some resp) None acts (on_wire tr) [] (Finished (Err EMissingProxyConnection))
      | Some c =>
        let (up, tru) := copy (k_up k) (k_read k) i (k_up_write k) 0 rest in
        let (down, trd) := copy (k_down k) (k_down_read k) 0 (k_down_write k) 0 from_remote in
        Session (Some resp) (Some c) acts (on_wire tr ++ on_wire trd) (on_wire tru)
          (match up, down with
           | Finished (Err _), _ | _, Finished (Err _) => Finished (Err ECopy)
           | Finished (Ok _), Finished (Ok _) => Finished (Ok tt)
           | _, _ => Running
           end)
      end
    end
  end.

(** *** The enclave's side *)
(** proxy_stream.rs:44-79, 95-116 connect_by_name, connect_by_ip: the request to send *)
Definition ask (m : proxy_msg) : bytes := enc c_proxy_msg m.
(** ... and what comes of the received answer: the remote's IP. *)
Definition answer_of (b : bytes) : result net_error bytes :=
  match from_slice c_proxy_msg b with
  | Some (ConnectResponse i) => Ok i
  | Some (PError e) => Err e
  | Some _ => Err InvalidMsgN
  | None => Err InvalidMsgN
  end.
(** [stream.call(&req).await?] then the match: the result and what is left to read on the stream. *)
Definition app_receive (r : nat -> rres) (b : bytes) : result net_error bytes * bytes :=
  let '(res, _, rest) := recv r 0 b in
  match res with
  | Ok p => (answer_of p, rest)
  | Err _ => (Err (QOSIOError (bs "io")), rest)   (* the text of the error is not modelled *)
  end.

(** *** The resolver cache *)
(** proxy_connection.rs:143-169 cached_resolver, threads at lock granularity: a thread
    looks the key up under the lock; on a miss it builds a resolver without the lock and
    then inserts it, unless the key is there by now, under the lock.  A resolver is
    identified by its allocation; [rk] is the configuration it was built for. *)
Definition rkey := (list ip * N)%type.
Record resolver := Resolver { rid : N; rk : rkey }.
Inductive tstate := TStart (key : rkey) | TBuilding (key : rkey) | TInsert (key : rkey) (r : resolver) | TDone (key : rkey) (r : resolver) | TFailed (key : rkey).
Record cache := Cache { entries : list (rkey * resolver); next_id : N; threads : list tstate }.
Definition ip_eqb (a b : ip) : bool := match a, b with V4 x, V4 y | V6 x, V6 y => N.eqb x y | _, _ => false end.
Definition rkey_eqb (a b : rkey) : bool := list_eqb ip_eqb (fst a) (fst b) && N.eqb (snd a) (snd b).
Fixpoint find_entry (k : rkey) (l : list (rkey * resolver)) : option resolver :=
  match l with [] => None | (k', r) :: rest => if rkey_eqb k' k then Some r else find_entry k rest end.
Fixpoint set_thread (t : nat) (s : tstate) (l : list tstate) : list tstate :=
  match l, t with [], _ => [] | _ :: rest, O => s :: rest | x :: rest, S t' => x :: set_thread t' s rest end.
(** One step of thread [t]; [ok] is whether building succeeds. *)
Definition cache_step (t : nat) (ok : bool) (c : cache) : cache :=
  match nth_error (threads c) t with
  | Some (TStart k) =>
    match find_entry k (entries c) with
    | Some r => Cache (entries c) (next_id c) (set_thread t (TDone k r) (threads c))
    | None => Cache (entries c) (next_id c) (set_thread t (TBuilding k) (threads c))
    end
  | Some (TBuilding k) =>
    if ok then Cache (entries c) (next_id c + 1) (set_thread t (TInsert k (Resolver (next_id c) k)) (threads c))
    else Cache (entries c) (next_id c) (set_thread t (TFailed k) (threads c))
  | Some (TInsert k r) =>
    match find_entry k (entries c) with
    | Some r' => Cache (entries c) (next_id c) (set_thread t (TDone k r') (threads c))
    | None => Cache ((k, r) :: entries c) (next_id c) (set_thread t (TDone k r) (threads c))
    end
  | _ => c
  end.
(** A new call of cached_resolver. *)
Definition cache_call (k : rkey) (c : cache) : cache := Cache (entries c) (next_id c) (threads c ++ [TStart k]).
Inductive cache_run : cache -> Prop :=
| cache_empty : cache_run (Cache [] 0 [])
| cache_calls c k : cache_run c -> cache_run (cache_call k c)
| cache_steps c t ok : cache_run c -> cache_run (cache_step t ok c).
