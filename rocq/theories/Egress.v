(** Transparent egress: src/qos_core/src/egress.rs:181-273 (pipe_all,
    next_frame, pipe_frames), the two halves of copy_bidirectional.  The kernel
    is as arbitrary as in Stream.v.  Arithmetic wraps (release profile).
    Not modelled: creating the sockets and the tun interface. *)
From Verif Require Import Base Stream.
Local Open Scope N_scope.

(** egress.rs:188, 240 *)
Definition BUF : nat := N.to_nat 32000.

(** How a loop that never returns can stop. *)
Inductive stop := Panicked | NixError.

(** *** From the tun interface to the socket *)
(** egress.rs:194-197, 256-258: [while sent < n { sent += write(..)? }]; [buf] is what
    is left to write.  Nothing bounds the number of writes: [fuel]. *)
Fixpoint write_loop (fuel : nat) (w : nat -> wres) (i : nat) (buf : bytes) : running (result stop unit) * nat * list call :=
  match fuel with
  | O => (Running, i, [])
  | S f =>
    match buf with
    | [] => (Finished (Ok tt), i, [])
    | _ => match w i with
           | WFail => (Finished (Err NixError), S i, [(buf, 0)])
           | Accept n =>
             let a := accept n buf in
             let '(r, j, tr) := write_loop f w (S i) (skipn (N.to_nat a) buf) in (r, j, (buf, a) :: tr)
           end
    end
  end.
(** egress.rs:184-199 pipe_all, reading the byte strings [reads] (what each read
    of at most [BUF] bytes returns; the empty one is the end). *)
Fixpoint pipe_all (fuel : nat) (w : nat -> wres) (i : nat) (reads : list bytes) : running stop * list call :=
  match reads with
  | [] | [] :: _ => (Finished Panicked, [])
  | p :: rest =>
    let '(r, j, tr) := write_loop fuel w i p in
    match r with
    | Running => (Running, tr)
    | Finished (Err e) => (Finished e, tr)
    | Finished (Ok _) => let (r', tr') := pipe_all fuel w j rest in (r', tr ++ tr')
    end
  end.

(** *** From the socket to the tun interface *)
Definition byte_at (i : nat) (b : bytes) : N := match nth_error b i with Some x => b2n x | None => 0 end.
Definition be16 (i : nat) (b : bytes) : N := byte_at i b * 256 + byte_at (S i) b.
(** etherparse::LaxIpSlice::from_slice (external crate, from its documentation) with
    egress.rs:206-213: the length the IP header at the start of [buf]
    declares; [None] if there is no such header.  The IPv6 length is computed in u16. *)
Definition ip_size (buf : bytes) : option N :=
  match buf with
  | [] => None
  | b0 :: _ =>
    let version := b2n b0 / 16 in
    let ihl := b2n b0 mod 16 in
    if version =? 4 then
      if (lenN buf <? 20) || (ihl <? 5) || (lenN buf <? 4 * ihl) then None else Some (be16 2 buf)
    else if version =? 6 then
      if lenN buf <? 40 then None else Some ((be16 4 buf + 40) mod 65536)
    else None
  end.
(** egress.rs:201-218 next_frame *)
Definition next_frame (buf : bytes) : option nat :=
  match ip_size buf with
  | Some size => if lenN buf <? size then None else Some (N.to_nat size)
  | None => None
  end.

(** egress.rs:254-272: [rest] is [buf[sent..received]], [size] is [frame_size - sent];
    the assertion cannot fail since the frame lies within the buffer.  The
    result carries [buf[sent..received]] once no frame is complete.  [F] bounds the
    writes of one frame, [fuel] the frames. *)
Fixpoint drain (F fuel : nat) (w : nat -> wres) (i : nat) (size : nat) (rest : bytes) : running (result stop bytes) * nat * list call :=
  match fuel with
  | O => (Running, i, [])
  | S f =>
    let '(r, j, tr) := write_loop F w i (firstn size rest) in
    match r with
    | Running => (Running, j, tr)
    | Finished (Err e) => (Finished (Err e), j, tr)
    | Finished (Ok _) =>
      let rest' := skipn size rest in
      match next_frame rest' with
      | Some size' => let '(r', j', tr') := drain F f w j size' rest' in (r', j', tr ++ tr')
      | None => (Finished (Ok rest'), j, tr)
      end
    end
  end.
(** egress.rs:235-273 pipe_frames: [tail] is [buf[..received]], [stream] the bytes to
    come; [fuel] bounds the reads, [F] the inner loops.  A read into an empty slice (full buffer) returns 0, like the end of
    the stream: the assertion of egress.rs:247 fails. *)
Fixpoint pipe_frames (F fuel : nat) (r : nat -> rres) (i : nat) (w : nat -> wres) (j : nat) (tail stream : bytes) : running stop * list call :=
  match fuel with
  | O => (Running, [])
  | S f =>
    let room := (BUF - length tail)%nat in
    match (if Nat.eqb room 0 then Some ([], stream) else read_once (r i) room stream) with
    | None => (Finished NixError, [])
    | Some ([], _) => (Finished Panicked, [])
    | Some (got, stream') =>
      let buf := tail ++ got in
      match next_frame buf with
      | None => pipe_frames F f r (S i) w j buf stream'
      | Some size =>
        let '(d, j', tr) := drain F F w j size buf in
        match d with
        | Running => (Running, tr)
        | Finished (Err e) => (Finished e, tr)
        | Finished (Ok tail') => let (o, tr') := pipe_frames F f r (S i) w j' tail' stream' in (o, tr ++ tr')
        end
      end
    end
  end.
