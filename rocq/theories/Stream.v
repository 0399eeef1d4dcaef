(** Length-delimited framing over a stream socket:
    /repo/src/qos_core/src/io/stream.rs:182-245 (send, recv).
    The kernel is arbitrary: the [i]-th write accepts any number of the bytes
    offered to it, or fails; the [i]-th read returns any non-zero number of the
    available bytes (0 only at the end of the stream), or fails.  Not modelled:
    connecting, waiting, cancellation. *)
From Verif Require Import Base.
Local Open Scope N_scope.

(** stream.rs:14-18 *)
Definition MAX_PAYLOAD_SIZE : N := 128 * (1024 * 1024).
(** stream.rs:187-189 *)
Definition MAX_WRITE_SIZE : N := 31234.

(** The errors of io/mod.rs that send and recv return. *)
Inductive io_error := OversizedPayload (n : N) | RecvConnectionClosed | StdIoError.

(** *** Writing *)
Inductive wres := Accept (n : N) | WFail.
(** A write call: what was offered and how many bytes were accepted. *)
Definition call := (bytes * N)%type.
Definition call_accepted (c : call) : bytes := firstn (N.to_nat (snd c)) (fst c).
(** The bytes that reached the socket. *)
Definition on_wire (tr : list call) : bytes := concat (map call_accepted tr).
Inductive running (A : Type) := Finished (a : A) | Running.
Arguments Finished {A}. Arguments Running {A}.

Definition accept (n : N) (offered : bytes) : N := N.min n (lenN offered).
(** tokio [write_all]: a write of 0 bytes is an error. *)
Fixpoint write_all (fuel : nat) (w : nat -> wres) (i : nat) (buf : bytes) : result io_error unit * nat * list call :=
  match fuel with
  | O => (Ok tt, i, [])
  | S f =>
    match buf with
    | [] => (Ok tt, i, [])
    | _ => match w i with
           | WFail => (Err StdIoError, S i, [(buf, 0)])
           | Accept n =>
             let a := accept n buf in
             if a =? 0 then (Err StdIoError, S i, [(buf, 0)])
             else let '(r, j, tr) := write_all f w (S i) (skipn (N.to_nat a) buf) in (r, j, (buf, a) :: tr)
           end
    end
  end.
(** stream.rs:207-214: the [while total < length] loop; [buf] is [buf[total..]]. *)
Fixpoint send_loop (fuel : nat) (w : nat -> wres) (i : nat) (buf : bytes) : running (result io_error unit) * list call :=
  match fuel with
  | O => (Running, [])
  | S f =>
    match buf with
    | [] => (Finished (Ok tt), [])
    | _ =>
      let offered := firstn (N.to_nat MAX_WRITE_SIZE) buf in
      match w i with
      | WFail => (Finished (Err StdIoError), [(offered, 0)])
      | Accept n =>
        let a := accept n offered in
        let '(r, tr) := send_loop f w (S i) (skipn (N.to_nat a) buf) in (r, (offered, a) :: tr)
      end
    end
  end.
(** stream.rs:182-217 send; [fuel] bounds the iterations of the loop only. *)
Definition send (fuel : nat) (w : nat -> wres) (buf : bytes) : running (result io_error unit) * list call :=
  if MAX_PAYLOAD_SIZE <? lenN buf then (Finished (Err (OversizedPayload (lenN buf))), [])
  else
    let '(r, i, tr) := write_all 8 w 0 (le_enc 8 (lenN buf)) in
    match r with
    | Err e => (Finished (Err e), tr)
    | Ok _ => let '(r', tr') := send_loop fuel w i buf in (r', tr ++ tr')
    end.

(** *** Reading *)
Inductive rres := Give (n : N) | RFail.
(** One read of at most [k] bytes from the bytes still to come. *)
Definition read_once (r : rres) (k : nat) (stream : bytes) : option (bytes * bytes) :=
  match r with
  | RFail => None
  | Give n =>
    let m := Nat.max 1 (Nat.min (N.to_nat n) (Nat.min k (length stream))) in
    Some (firstn m stream, skipn m stream)
  end.
(** tokio [read_exact]: end of stream before [k] bytes is [UnexpectedEof].  The
    result carries the number of reads made and the unread rest. *)
Fixpoint read_exact (k : nat) (fuel : nat) (r : nat -> rres) (i : nat) (stream : bytes) : result io_error bytes * nat * bytes :=
  match k, fuel with
  | O, _ | _, O => (Ok [], i, stream)
  | _, S f =>
    match read_once (r i) k stream with
    | None => (Err StdIoError, S i, stream)
    | Some ([], rest) => (Err RecvConnectionClosed, S i, rest)
    | Some (got, rest) =>
      let '(res, j, rest') := read_exact (k - length got) f r (S i) rest in
      match res with Ok more => (Ok (got ++ more), j, rest') | Err e => (Err e, j, rest') end
    end
  end.
(** stream.rs:219-245 recv *)
Definition recv (r : nat -> rres) (i : nat) (stream : bytes) : result io_error bytes * nat * bytes :=
  let '(h, j, rest) := read_exact 8 8 r i stream in
  match h with
  | Err e => (Err e, j, rest)
  | Ok hdr =>
    let len := le_dec hdr in
    if MAX_PAYLOAD_SIZE <? len then (Err (OversizedPayload len), j, rest)
    else read_exact (N.to_nat len) (N.to_nat len) r j rest
  end.
(** The peer's loop: receive until the first error (server.rs:206-232). *)
Fixpoint recv_all (fuel : nat) (r : nat -> rres) (i : nat) (stream : bytes) : list bytes * io_error :=
  match fuel with
  | O => ([], StdIoError)
  | S f => let '(res, j, rest) := recv r i stream in
           match res with
           | Ok p => let (ps, e) := recv_all f r j rest in (p :: ps, e)
           | Err e => ([], e)
           end
  end.
