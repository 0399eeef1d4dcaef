(** The program that runs the enclave on the host:
    /repo/src/qos_enclave/src/main.rs.

    nitro-cli (not in the repository) is the environment: each of its calls may
    fail, and the enclave may be started even if the reply is lost.  Logging
    through the subscriber is not modelled beyond the text of console events. *)
From Verif Require Import Base Utf8 Json Pool.
Local Open Scope N_scope.

(** ** Console output *)
(** [String::from_utf8_lossy] (std): each maximal prefix of a character that
    cannot be continued becomes one U+FFFD. *)
Definition REPLACEMENT : bytes := [xef; xbf; xbd].
Definition within (lo hi : N) (b : byte) : bool := (lo <=? b2n b) && (b2n b <=? hi).
(** length of the invalid sequence at the start of a non-empty string *)
Definition bad_len (l : bytes) : nat :=
  match l with
  | b0 :: b1 :: r =>
    let n0 := b2n b0 in
    let second := if (224 =? n0) then within 160 191 b1 else if (237 =? n0) then within 128 159 b1
                  else if (240 =? n0) then within 144 191 b1 else if (244 =? n0) then within 128 143 b1 else within 128 191 b1 in
    if (224 <=? n0) && (n0 <? 240) then (if second then 2 else 1)%nat
    else if (240 <=? n0) && (n0 <? 245) then
      (if second then match r with b2 :: _ => if is_cont b2 then 3 else 2 | [] => 2 end else 1)%nat
    else 1%nat
  | _ => 1%nat
  end.
Fixpoint lossy_fuel (fuel : nat) (l : bytes) : bytes :=
  match fuel, l with
  | Datatypes.S fuel, _ :: _ =>
    match utf8_next l with
    | Some (c, r) => utf8_char c ++ lossy_fuel fuel r
    | None => REPLACEMENT ++ lossy_fuel fuel (skipn (bad_len l) l)
    end
  | _, _ => []
  end.
Definition from_utf8_lossy (l : bytes) : bytes := lossy_fuel (length l) l.

(** [str::trim_end_matches('\r')] *)
Fixpoint trim_cr (l : bytes) : bytes :=
  match l with
  | [] => []
  | c :: r => match trim_cr r with [] => if byte_eqb c x0d then [] else [c] | r' => c :: r' end
  end.
(** main.rs:71-77 emit_line: the events emitted *)
Definition emit_line (line : bytes) : list bytes :=
  match trim_cr (from_utf8_lossy line) with [] => [] | t => [t] end.
(** main.rs:85-92: the loop, on the part of the buffer not yet consumed *)
Fixpoint take_line (l : bytes) : option (bytes * bytes) :=
  match l with
  | [] => None
  | c :: r => if byte_eqb c x0a then Some ([], r)
              else match take_line r with Some (a, b) => Some (c :: a, b) | None => None end
  end.
Fixpoint emit_lines (fuel : nat) (l : bytes) : list bytes * bytes :=
  match fuel with
  | O => ([], l)
  | Datatypes.S fuel =>
    match take_line l with
    | None => ([], l)
    | Some (a, b) => let (o, rest) := emit_lines fuel b in (emit_line a ++ o, rest)
    end
  end.
(** main.rs:81-99 write: events and new buffer *)
Definition console_write (buffer chunk : bytes) : list bytes * bytes :=
  let l := buffer ++ chunk in emit_lines (length l) l.
(** main.rs:101-107 flush *)
Definition console_flush (buffer : bytes) : list bytes := match buffer with [] => [] | _ => emit_line buffer end.
Fixpoint console_writes (buffer : bytes) (chunks : list bytes) : list bytes * bytes :=
  match chunks with
  | [] => ([], buffer)
  | c :: r => let (o, b) := console_write buffer c in let (o', b') := console_writes b r in (o ++ o', b')
  end.
(** main.rs:312-318 read_logs: all chunks, then the rest *)
Definition read_logs (chunks : list bytes) : list bytes := let (o, b) := console_writes [] chunks in o ++ console_flush b.

(** ** Starting the enclave *)
(** Environment variables; [None]: not set, or not unicode (std::env::var). *)
Record host_env := HostEnv {
  v_eif : option bytes; v_cid : option bytes; v_mem : option bytes; v_cpu : option bytes;
  v_debug : option bytes; v_logs : option bytes; v_name : option bytes }.
Record run_args := RunArgs { r_eif : bytes; r_cid : N; r_mem : N; r_cpu : N; r_debug : bool; r_console : bool; r_name : bytes }.
Definition or (o : option bytes) (d : bytes) : bytes := match o with Some x => x | None => d end.
(** [str::parse::<bool>] *)
Definition parse_bool (s : bytes) : option bool :=
  if bytes_eqb s (bs "true") then Some true else if bytes_eqb s (bs "false") then Some false else None.
(** main.rs:146-170; [None] is a panic *)
Definition launch_args (e : host_env) : option run_args :=
  let? cid := parse_unsigned U32 (or (v_cid e) (bs "16")) in
  let? mem := parse_unsigned U64_LIMIT (or (v_mem e) (bs "1024")) in
  let? dbg := parse_bool (or (v_debug e) (bs "false")) in
  let? logs := parse_bool (or (v_logs e) (bs "false")) in
  let? cpu := parse_unsigned U32 (or (v_cpu e) (bs "2")) in
  Some (RunArgs (or (v_eif e) (bs "/aws-x86_64.eif")) cid mem cpu dbg logs (or (v_name e) (bs "nitro"))).
Definition CID_TO_CONSOLE_PORT_OFFSET : N := 10000.

(** What nitro-cli and the system do. *)
Record nitro := Nitro {
  n_dir : bool; n_logger : bool; n_spawn : bool; n_send : bool;   (* create_dir_all; init_logger and update; spawn; send Run *)
  n_starts : bool; n_reply : bool;                                (* the enclave starts; the reply arrives *)
  n_console : bool; n_id : bool;                                  (* the console is reachable; the name is found *)
  n_signal : bool;                                                (* a SIGINT or SIGTERM arrives *)
  n_connect : bool }.                                             (* the enclave process is still reachable then *)
Inductive host_event := Started (a : run_args) | Attached (port : N) | Serving | Terminated.
Inductive ending := Failed | Succeeded | StillRunning.
(** main.rs:137-235 boot, 320-345 main; additions of u32 wrap (release build) *)
Definition host_main (e : host_env) (n : nitro) : list host_event * ending :=
  match launch_args e with
  | None => ([], Failed)
  | Some a =>
    if n_dir n && n_logger n && n_spawn n && n_send n then
      let started := if n_starts n then [Started a] else [] in
      if n_starts n && n_reply n then
        let port := (r_cid a + CID_TO_CONSOLE_PORT_OFFSET) mod U32 in
        if negb (r_console a) || n_console n then
          let attached := if r_console a then [Attached port] else [] in
          if n_id n then
            if n_signal n
            then (started ++ attached ++ [Serving] ++ (if n_connect n then [Terminated] else []), Succeeded)
            else (started ++ attached ++ [Serving], StillRunning)
          else (started ++ attached, Failed)
        else (started, Failed)
      else (started, Failed)
    else ([], Failed)
  end.

(** ** Health *)
(** main.rs:110-135; [None]: the command or its replies failed; else the states
    of the enclaves described *)
Definition healthy (states : option (list bytes)) : bool :=
  match states with Some (s :: _) => bytes_eqb s (bs "RUNNING") | _ => false end.
(** main.rs:271-293: what a client that connects to port 8080 is sent *)
Definition health_response (states : option (list bytes)) : bytes :=
  if healthy states then bs "HTTP/1.1 200 OK" ++ [x0d; x0a; x0d; x0a] else bs "HTTP/1.1 503 Service Unavailable" ++ [x0d; x0a; x0d; x0a].
