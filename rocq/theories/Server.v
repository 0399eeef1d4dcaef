(** The socket server: src/qos_core/src/server.rs:54-247.
    A listener is a transition system: every await point of the accept loop
    and of the connection tasks is a step, taken in any order (any tokio
    schedule).  The transport (Stream::recv / send, modelled in Stream.v) may
    succeed or fail at each step; the processor is any relation from request
    to response.  tokio's Semaphore (external) is a permit counter. *)
From Verif Require Import Base.

(** server.rs:220-245: where the connection task is *)
Inductive stage : Type :=
| Receiving                    (* in stream.recv().await *)
| Processing (req : bytes)     (* in processor.process(&payload).await *)
| Replying (resp : bytes)      (* in stream.send(&response).await *)
| Closed.                      (* task ended: stream and permit dropped *)

(** A connection with everything it received and sent, oldest first. *)
Record conn : Type := { c_in : list bytes; c_out : list bytes; c_stage : stage }.

(** server.rs:207-216: where the accept loop is *)
Inductive acceptor : Type :=
| Waiting                      (* in acquire_owned().await, server.rs:164-167 *)
| Holding                      (* permit held, in listener.accept().await, server.rs:169 *)
| Aborted.                     (* task aborted by Drop for SocketServer *)

(** One listener: free permits, its accept loop, all connections it ever
    accepted. *)
Record listener : Type := { l_permits : nat; l_acceptor : acceptor; l_conns : list conn }.

(** server.rs:206: Semaphore::const_new(max_connections) *)
Definition listener_new (max : nat) : listener := {| l_permits := max; l_acceptor := Waiting; l_conns := [] |}.

Definition fresh : conn := {| c_in := []; c_out := []; c_stage := Receiving |}.

(** replace the [i]-th connection *)
Fixpoint set_nth (i : nat) (c : conn) (l : list conn) : list conn :=
  match l, i with
  | [], _ => []
  | _ :: r, O => c :: r
  | x :: r, S i' => x :: set_nth i' c r
  end.

(** One step of a connection task; the boolean says that the task ends, which
    drops the stream and returns its permit (server.rs:146-150, PermittedStream). *)
Inductive conn_step (processor : bytes -> bytes -> Prop) : conn -> conn -> bool -> Prop :=
| CS_recv i o p :                                      (* server.rs:222-223 *)
    conn_step processor {| c_in := i; c_out := o; c_stage := Receiving |}
                        {| c_in := i ++ [p]; c_out := o; c_stage := Processing p |} false
| CS_recv_end i o :                                    (* server.rs:236-242: closed or error *)
    conn_step processor {| c_in := i; c_out := o; c_stage := Receiving |}
                        {| c_in := i; c_out := o; c_stage := Closed |} true
| CS_process i o p r :                                 (* server.rs:224 *)
    processor p r ->
    conn_step processor {| c_in := i; c_out := o; c_stage := Processing p |}
                        {| c_in := i; c_out := o; c_stage := Replying r |} false
| CS_process_panic i o p :                             (* the task unwinds *)
    conn_step processor {| c_in := i; c_out := o; c_stage := Processing p |}
                        {| c_in := i; c_out := o; c_stage := Closed |} true
| CS_send i o r :                                      (* server.rs:226-227 *)
    conn_step processor {| c_in := i; c_out := o; c_stage := Replying r |}
                        {| c_in := i; c_out := o ++ [r]; c_stage := Receiving |} false
| CS_send_err i o r :                                  (* server.rs:228-233 *)
    conn_step processor {| c_in := i; c_out := o; c_stage := Replying r |}
                        {| c_in := i; c_out := o; c_stage := Closed |} true.

(** One step of a listener. *)
Inductive lstep (processor : bytes -> bytes -> Prop) : listener -> listener -> Prop :=
| L_acquire n cs :                                     (* server.rs:164-167 *)
    lstep processor {| l_permits := S n; l_acceptor := Waiting; l_conns := cs |}
                    {| l_permits := n; l_acceptor := Holding; l_conns := cs |}
| L_accept n cs :                                      (* server.rs:169-171, 208-220 *)
    lstep processor {| l_permits := n; l_acceptor := Holding; l_conns := cs |}
                    {| l_permits := n; l_acceptor := Waiting; l_conns := cs ++ [fresh] |}
| L_accept_err n cs :                                  (* server.rs:169, 212-215: the permit is dropped *)
    lstep processor {| l_permits := n; l_acceptor := Holding; l_conns := cs |}
                    {| l_permits := S n; l_acceptor := Waiting; l_conns := cs |}
| L_conn n a cs i c c' ends :
    nth_error cs i = Some c -> conn_step processor c c' ends ->
    lstep processor {| l_permits := n; l_acceptor := a; l_conns := cs |}
                    {| l_permits := (if ends then S n else n); l_acceptor := a; l_conns := set_nth i c' cs |}.

(** server.rs:138-144 Drop for SocketServer: aborts the accept loops only.  A
    permit held by an aborted accept loop is dropped with it. *)
Definition drop_listener (l : listener) : listener :=
  {| l_permits := match l_acceptor l with Holding => S (l_permits l) | _ => l_permits l end;
     l_acceptor := Aborted; l_conns := l_conns l |}.

(** Histories of a listener: any sequence of steps, and possibly a drop. *)
Inductive lruns (processor : bytes -> bytes -> Prop) : listener -> listener -> Prop :=
| LR_refl l : lruns processor l l
| LR_step l l' l'' : lruns processor l l' -> lstep processor l' l'' -> lruns processor l l''
| LR_drop l l' : lruns processor l l' -> lruns processor l (drop_listener l').

(** A server: one listener per address (server.rs:71-90 listen_all, 96-114
    listen_to, 116-135 spawn_tasks_for_listeners), each with its own permits;
    listeners run independently, new ones may be added. *)
Inductive sruns (processor : bytes -> bytes -> Prop) (max : nat) : list listener -> Prop :=
| SR_init n : sruns processor max (repeat (listener_new max) n)
| SR_step a l l' b : sruns processor max (a ++ l :: b) -> lstep processor l l' -> sruns processor max (a ++ l' :: b)
| SR_more ls n : sruns processor max ls -> sruns processor max (ls ++ repeat (listener_new max) n)
| SR_drop ls : sruns processor max ls -> sruns processor max (map drop_listener ls).

Definition open (c : conn) : bool := match c_stage c with Closed => false | _ => true end.
(** connections being served *)
Definition served (l : listener) : nat := length (filter open (l_conns l)).
