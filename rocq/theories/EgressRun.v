(** How the transparent egress program is launched at both ends, and what it
    does when one of its two directions fails: src/qos_core/src/reaper.rs:115-127,
    src/qos_bridge/src/host.rs:104-123, src/qos_core/src/egress.rs:140-180, 280-301.
    Not modelled: the waits of 200 ms, what is printed, the sockets (what the
    directions carry is Egress.v). *)
From Verif Require Import Base Json CliParser DaemonCli.
Local Open Scope N_scope.

(** str::split_whitespace, on ASCII text: the only bytes of the two lines below. *)
Definition is_space (b : byte) : bool := existsb (N.eqb (b2n b)) [32; 9; 10; 11; 12; 13].
Fixpoint words_from (w : bytes) (l : bytes) : list bytes :=
  match l with
  | [] => match w with [] => [] | _ => [w] end
  | b :: r => if is_space b then match w with [] => words_from [] r | _ => w :: words_from [] r end else words_from (w ++ [b]) r
  end.
Definition split_whitespace : bytes -> list bytes := words_from [].

(** reaper.rs:122-125 *)
Definition enclave_program : bytes := bs "/egress".
Definition enclave_line (cid : N) : bytes := bs "--cid " ++ print_N cid ++ bs " --vsock-to-host false".
(** host.rs:108-118; the flags are compared with VMADDR_FLAG_TO_HOST = 1 *)
Definition host_program (custom : option bytes) : bytes := match custom with Some p => p | None => bs "/qos_egress" end.
Definition host_line (cid flags : N) : bytes :=
  bs "--egress-host --cid " ++ print_N cid ++ bs " --vsock-to-host " ++ (if flags =? 1 then bs "true" else bs "false").

(** egress.rs:280-301 run_looping: [ends] says how the attempts so far ended
    (false: no process could be made of the path; true: it ran and is gone). The
    result is every attempt made by then: the path and its arguments. *)
Definition launch (path line : bytes) : bytes * list bytes := (path, split_whitespace line).
Fixpoint run_looping (path line : bytes) (ends : list bool) : list (bytes * list bytes) :=
  launch path line :: match ends with [] => [] | _ :: r => run_looping path line r end.
(** what the process is given: its own path first *)
Definition argv (l : bytes * list bytes) : list bytes := fst l :: snd l.

(** *** egress.rs:140-180 copy_bidirectional *)
(** pipe_all from the tun interface and pipe_frames to it: neither returns but by
    an error or a panic. *)
Inductive direction := RawToVsock | VsockToRaw.
Inductive main_thread := Looking | Panicking | Gone.
Record copying := Copying { cp_raw : bool; cp_vsock : bool; cp_main : main_thread }.   (* the directions still running *)
Inductive moment := Fails (d : direction) | Looks.
(** The scope of the threads is left only when all of them are finished, a panic
    of its closure included (std::thread::scope); [abort] is panic = "abort" of the
    profile release-panic-abort, Cargo.toml:124-127. *)
Definition leave (c : copying) : copying :=
  match cp_main c with Panicking => if cp_raw c || cp_vsock c then c else Copying false false Gone | _ => c end.
Definition copy_step (abort : bool) (c : copying) (m : moment) : copying :=
  match cp_main c, m with
  | Gone, _ => c
  | _, Fails d =>
      if match d with RawToVsock => cp_raw c | VsockToRaw => cp_vsock c end then
        if abort then Copying false false Gone
        else leave (match d with RawToVsock => Copying false (cp_vsock c) (cp_main c) | VsockToRaw => Copying (cp_raw c) false (cp_main c) end)
      else c
  | Looking, Looks => if cp_raw c && cp_vsock c then c else leave (Copying (cp_raw c) (cp_vsock c) Panicking)
  | Panicking, Looks => c
  end.
Definition copy_run (abort : bool) (ms : list moment) : copying := fold_left (copy_step abort) ms (Copying true true Looking).
