(** Calls through a pool of streams: src/qos_core/src/client.rs:66-106
    (SocketClient::call, expand_to), src/qos_core/src/io/pool.rs:17-62, 153-172,
    196-212 (PoolGuard, get, expand_to), src/qos_core/src/io/stream.rs:60-170,
    182-245 (Stream: connect, call, reset; send, recv), with the connection task of
    src/qos_core/src/server.rs:220-245 at the other end.
    Everything is a transition system at byte granularity: every await point
    is a step, steps are taken in any order, any call may be cut off (timeout,
    I/O error, cancellation of the task) at any point, the server may close a
    connection or die while processing at any point, and other clients may be
    served in between.  The server's processor is any relation on a state.
    Simplified: [tokio::sync::RwLock] around the pool is not modelled (the pool may
    also grow while calls run, which the lock forbids); select_all over the
    mutexes takes any free stream. *)
From Verif Require Import Base Stream.
Local Open Scope nat_scope.

(** *** Frames in progress *)
(** stream.rs:193-205: what send puts on the wire *)
Definition framed (p : bytes) : bytes := le_enc 8 (lenN p) ++ p.
Definition declared (got : bytes) : N := le_dec (firstn 8 got).
(** stream.rs:222-243: how many more bytes recv asks for, having read [got] *)
Definition need (got : bytes) : nat :=
  if length got <? 8 then 8 - length got
  else if (MAX_PAYLOAD_SIZE <? declared got)%N then 0
  else N.to_nat (declared got) + 8 - length got.
(** stream.rs:244: the payload, when everything has been read *)
Definition complete (got : bytes) : option bytes :=
  if (8 <=? length got) && negb (MAX_PAYLOAD_SIZE <? declared got)%N && (length got =? N.to_nat (declared got) + 8)
  then Some (skipn 8 got) else None.

(** *** State *)
(** server.rs:220-245: the connection task *)
Inductive task : Type :=
| TRecv (got : bytes)            (* in stream.recv().await, having read [got] *)
| TProcess (req : bytes)         (* in processor.process(..).await *)
| TSend (rest : bytes)           (* in stream.send(..).await, [rest] still to write *)
| TClosed.                       (* the task ended *)

(** A connection: all bytes ever written in each direction, how many of them
    the other side has read, the server's task; [w_by] (ghost) is the call
    that opened it. *)
Record wire : Type := Wire { w_by : nat; w_up : bytes; w_taken : nat; w_down : bytes; w_seen : nat; w_task : task }.
Definition new_wire (i : nat) : wire := Wire i [] 0 [] 0 (TRecv []).

(** stream.rs:48-58 Stream in its Mutex: is the mutex held, and [inner] *)
Record slot : Type := Slot { s_held : bool; s_inner : option nat }.
Definition new_slot : slot := Slot false None.

(** client.rs:72-92 call: where it is; [h] is the stream whose guard it holds *)
Inductive cstage : Type :=
| CWaiting                               (* pool.read().await, pool.get().await *)
| COpen (h : nat)                        (* stream.call: connecting if necessary *)
| CSending (h : nat) (rest : bytes)      (* in send, [rest] still to write *)
| CReceiving (h : nat) (got : bytes)     (* in recv *)
| CEnded.                                (* returned or dropped *)
Record pcall : Type := PCall { p_req : bytes; p_stage : cstage }.

(** What an observer of the client's callers and of the server's processor
    sees.  [Serve]: the processor takes a request that came over the pool and
    answers ([None]: it dies); [by] (ghost) is the call that opened the
    connection. *)
Inductive event : Type :=
| Invoke (i : nat) (q : bytes)
| Serve (by_ : nat) (q : bytes) (a : option bytes)
| ServeOther (q : bytes) (a : option bytes)
| Return (i : nat) (a : bytes)
| Fail (i : nat).

Fixpoint upd {A} (i : nat) (x : A) (l : list A) : list A :=
  match l, i with
  | [], _ => []
  | _ :: r, O => x :: r
  | y :: r, S i' => y :: upd i' x r
  end.

Section Calls.
  Context {S : Type} (proc : bytes -> S -> option bytes -> S -> Prop).
  Record cstate : Type := CState { calls : list pcall; slots : list slot; wires : list wire; srv : S; hist : list event }.

  (** pool.rs:35-40 Drop for PoolGuard, with stream.rs:165-167 reset; then the
      MutexGuard inside is dropped *)
  Definition guard_drop (h : nat) (l : list slot) : list slot := upd h (Slot false None) l.
  (** the guard a call holds *)
  Definition guard_of (c : cstage) : option nat :=
    match c with CWaiting | CEnded => None | COpen h | CSending h _ | CReceiving h _ => Some h end.
  Definition release (c : cstage) (l : list slot) : list slot :=
    match guard_of c with Some h => guard_drop h l | None => l end.

  Inductive cstep : cstate -> cstate -> Prop :=
  (* client.rs:72 *)
  | K_invoke cs sl ws s hi q :
      cstep (CState cs sl ws s hi) (CState (cs ++ [PCall q CWaiting]) sl ws s (hi ++ [Invoke (length cs) q]))
  (* pool.rs:153-172 get: a free mutex is locked *)
  | K_get cs sl ws s hi i q h inner :
      nth_error cs i = Some (PCall q CWaiting) -> nth_error sl h = Some (Slot false inner) ->
      cstep (CState cs sl ws s hi) (CState (upd i (PCall q (COpen h)) cs) (upd h (Slot true inner) sl) ws s hi)
  (* stream.rs:138-140: not connected yet, connect *)
  | K_connect cs sl ws s hi i q h :
      nth_error cs i = Some (PCall q (COpen h)) -> nth_error sl h = Some (Slot true None) ->
      cstep (CState cs sl ws s hi) (CState cs (upd h (Slot true (Some (length ws))) sl) (ws ++ [new_wire i]) s hi)
  (* stream.rs:149, 193-199: connected; an oversized request is refused (K_fail) *)
  | K_begin cs sl ws s hi i q h k :
      nth_error cs i = Some (PCall q (COpen h)) -> nth_error sl h = Some (Slot true (Some k)) ->
      (MAX_PAYLOAD_SIZE <? lenN q)%N = false ->
      cstep (CState cs sl ws s hi) (CState (upd i (PCall q (CSending h (framed q))) cs) sl ws s hi)
  (* stream.rs:202-214: a write accepts some of the bytes *)
  | K_write cs sl ws s hi i q h rest k w n :
      nth_error cs i = Some (PCall q (CSending h rest)) -> nth_error sl h = Some (Slot true (Some k)) ->
      nth_error ws k = Some w ->
      cstep (CState cs sl ws s hi)
            (CState (upd i (PCall q (CSending h (skipn n rest))) cs) sl
                    (upd k (Wire (w_by w) (w_up w ++ firstn n rest) (w_taken w) (w_down w) (w_seen w) (w_task w)) ws) s hi)
  (* stream.rs:150, 216 *)
  | K_sent cs sl ws s hi i q h :
      nth_error cs i = Some (PCall q (CSending h [])) ->
      cstep (CState cs sl ws s hi) (CState (upd i (PCall q (CReceiving h [])) cs) sl ws s hi)
  (* stream.rs:222-242: a read returns some of the bytes that arrived *)
  | K_read cs sl ws s hi i q h got k w n :
      nth_error cs i = Some (PCall q (CReceiving h got)) -> nth_error sl h = Some (Slot true (Some k)) ->
      nth_error ws k = Some w -> n <= need got -> n <= length (w_down w) - w_seen w ->
      cstep (CState cs sl ws s hi)
            (CState (upd i (PCall q (CReceiving h (got ++ firstn n (skipn (w_seen w) (w_down w))))) cs) sl
                    (upd k (Wire (w_by w) (w_up w) (w_taken w) (w_down w) (w_seen w + n) (w_task w)) ws) s hi)
  (* stream.rs:244, client.rs:75-91 *)
  | K_return cs sl ws s hi i q h got a :
      nth_error cs i = Some (PCall q (CReceiving h got)) -> complete got = Some a ->
      cstep (CState cs sl ws s hi) (CState (upd i (PCall q CEnded) cs) (guard_drop h sl) ws s (hi ++ [Return i a]))
  (* client.rs:83-89 an error or the timeout; or the caller drops the future *)
  | K_fail cs sl ws s hi i q c :
      nth_error cs i = Some (PCall q c) -> c <> CEnded ->
      cstep (CState cs sl ws s hi) (CState (upd i (PCall q CEnded) cs) (release c sl) ws s (hi ++ [Fail i]))
  (* client.rs:98-106, pool.rs:196-212 expand_to *)
  | K_expand cs sl ws s hi n :
      cstep (CState cs sl ws s hi) (CState cs (sl ++ repeat new_slot n) ws s hi)
  (* server.rs:222, stream.rs:222-242 *)
  | T_read cs sl ws s hi k w got n :
      nth_error ws k = Some w -> w_task w = TRecv got -> n <= need got -> n <= length (w_up w) - w_taken w ->
      cstep (CState cs sl ws s hi)
            (CState cs sl (upd k (Wire (w_by w) (w_up w) (w_taken w + n) (w_down w) (w_seen w) (TRecv (got ++ firstn n (skipn (w_taken w) (w_up w))))) ws) s hi)
  (* server.rs:223 *)
  | T_request cs sl ws s hi k w got p :
      nth_error ws k = Some w -> w_task w = TRecv got -> complete got = Some p ->
      cstep (CState cs sl ws s hi)
            (CState cs sl (upd k (Wire (w_by w) (w_up w) (w_taken w) (w_down w) (w_seen w) (TProcess p)) ws) s hi)
  (* server.rs:224-226; an oversized answer is refused by send (server.rs:228-233) *)
  | T_process cs sl ws s hi k w p a s' :
      nth_error ws k = Some w -> w_task w = TProcess p -> proc p s (Some a) s' ->
      cstep (CState cs sl ws s hi)
            (CState cs sl (upd k (Wire (w_by w) (w_up w) (w_taken w) (w_down w) (w_seen w)
                                    (if (MAX_PAYLOAD_SIZE <? lenN a)%N then TClosed else TSend (framed a))) ws) s'
                    (hi ++ [Serve (w_by w) p (Some a)]))
  (* the processor panics: the task unwinds *)
  | T_die cs sl ws s hi k w p s' :
      nth_error ws k = Some w -> w_task w = TProcess p -> proc p s None s' ->
      cstep (CState cs sl ws s hi)
            (CState cs sl (upd k (Wire (w_by w) (w_up w) (w_taken w) (w_down w) (w_seen w) TClosed) ws) s'
                    (hi ++ [Serve (w_by w) p None]))
  (* server.rs:226, stream.rs:202-214 *)
  | T_write cs sl ws s hi k w rest n :
      nth_error ws k = Some w -> w_task w = TSend rest ->
      cstep (CState cs sl ws s hi)
            (CState cs sl (upd k (Wire (w_by w) (w_up w) (w_taken w) (w_down w ++ firstn n rest) (w_seen w) (TSend (skipn n rest))) ws) s hi)
  (* server.rs:227, round the loop *)
  | T_sent cs sl ws s hi k w :
      nth_error ws k = Some w -> w_task w = TSend [] ->
      cstep (CState cs sl ws s hi)
            (CState cs sl (upd k (Wire (w_by w) (w_up w) (w_taken w) (w_down w) (w_seen w) (TRecv [])) ws) s hi)
  (* server.rs:228-242: an error, or the client closed; or the enclave goes away *)
  | T_close cs sl ws s hi k w :
      nth_error ws k = Some w ->
      cstep (CState cs sl ws s hi)
            (CState cs sl (upd k (Wire (w_by w) (w_up w) (w_taken w) (w_down w) (w_seen w) TClosed) ws) s hi)
  (* the server serves a connection that is not of this pool *)
  | T_other cs sl ws s hi q a s' :
      proc q s a s' ->
      cstep (CState cs sl ws s hi) (CState cs sl ws s' (hi ++ [ServeOther q a])).

  (** a client with [n] streams, a server in state [s] *)
  Definition cinit (n : nat) (s : S) : cstate := CState [] (repeat new_slot n) [] s [].
  Inductive creach (n : nat) (s0 : S) : cstate -> Prop :=
  | CR_init : creach n s0 (cinit n s0)
  | CR_step x y : creach n s0 x -> cstep x y -> creach n s0 y.

  (** pool.rs:142-150 busy *)
  Definition busy (x : cstate) : bool := forallb s_held (slots x).
  (** stream.rs:172-174 is_connected *)
  Definition is_connected (s : slot) : bool := is_some (s_inner s).
End Calls.
Arguments cstate S : clear implicits.
