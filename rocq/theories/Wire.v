(** The byte-level request processor: msg.rs:266-385 (from_wire / to_wire) and
    processor.rs:24-52 (process), and its concurrent use by the connection
    tasks of server.rs. *)
From Verif Require Import Base Utf8 Hex Borsh Json Types TypesBorsh TypesJson JsonComb Msg MsgBorsh MsgJson World Attest Services State.
Local Open Scope N_scope.

(** msg.rs:76-83 ProtocolMsgEncoding *)
Inductive encoding := EJson | EBorsh.

(** msg.rs:266-273 is_genesis *)
Definition is_genesis (m : msg) : bool :=
  match m with BootGenesisRequest _ _ | BootGenesisResponse _ _ => true | _ => false end.

(** msg.rs:290-305 from_wire: qos_json::from_slice is serde_json::from_slice
    (qos_json/src/lib.rs:40-46). *)
Definition from_wire (b : bytes) : result perr (msg * encoding) :=
  match json_from_slice js_msg b with
  | Some m => Ok (m, EJson)
  | None =>
    match from_slice c_msg b with
    | None => Err ProtocolMsgDeserialization
    | Some m => if is_genesis m then Err LegacyGenesisNotSupported else Ok (m, EBorsh)
    end
  end.

(** msg.rs:330-347 to_wire.  The #[serde(skip)] variant is a serialisation
    error; values the Rust types cannot hold (non-UTF-8 text, wrong array
    lengths: those that fail [jwf] or [wf]) are errors here. *)
Definition to_wire (m : msg) (e : encoding) : result perr bytes :=
  match e with
  | EJson =>
    match m with
    | BootStandardJsonEnvelopeRequest _ _ => Err InvalidMsg
    | _ => if jwf js_msg m then match canon (jser js_msg m) with Some b => Ok b | None => Err InvalidMsg end
           else Err InvalidMsg
    end
  | EBorsh =>
    if is_genesis m then Err LegacyGenesisNotSupported
    else match to_vec c_msg m with Some b => Ok b | None => Err InvalidMsg end
  end.

(** protocol/mod.rs:20-21 *)
Definition MAX_ENCODED_MSG_LEN : N := 134217728.

(** [.to_json_wire().expect(..)]: [None] is a panic of the request task. *)
Definition json_error (e : perr) : option bytes :=
  match to_wire (ProtocolErrorResponse e) EJson with Ok b => Some b | Err _ => None end.

Section Process.
  Context (Y : sys).
  Notation st := (st Y).

  (** processor.rs:25-51, the answer to a decoded request *)
  Definition answer (e : encoding) (r : msg) : option bytes :=
    match to_wire r e with Ok b => Some b | Err _ => json_error InvalidMsg end.
  (** processor.rs:25-40: what happens before the state is locked *)
  Definition intake (b : bytes) : (option bytes) + (msg * encoding) :=
    if MAX_ENCODED_MSG_LEN <? lenN b then inl (json_error OversizedPayload)
    else match from_wire b with
         | Err e => inl (json_error e)
         | Ok d => inr d
         end.
  Definition process (b : bytes) (s : st) : option bytes * st :=
    match intake b with
    | inl r => (r, s)
    | inr (m, e) => let '(r, s') := handle Y m s in (answer e r, s')
    end.
  Fixpoint process_all (bs : list bytes) (s : st) : list (option bytes) * st :=
    match bs with
    | [] => ([], s)
    | b :: rest => let '(a, s1) := process b s in let '(l, s2) := process_all rest s1 in (a :: l, s2)
    end.

  (** ** Concurrent requests.  Each accepted connection runs [process] in its
      own task; the state sits behind one RwLock of which [process] takes the
      write half (processor.rs:42) until it returns.  A task can be dropped at
      an await point (server shutdown); [block_in_place] has none inside.
      Handling a request is not atomic here: it works on the state read when
      the lock was taken and commits its result in a later step, so that
      without the lock updates could be lost. *)
  Inductive task :=
  | Received (b : bytes)                      (* request read from the socket *)
  | Waiting (b : bytes) (m : msg) (e : encoding)   (* decoded, awaiting the lock *)
  | Holding (b : bytes) (m : msg) (e : encoding) (s : st)  (* lock held; [s] is the state as read under the lock *)
  | Handled (b : bytes) (r : option bytes)         (* response built, lock still held *)
  | Replied (b : bytes) (r : option bytes)         (* returned *)
  | Dropped.

  Record conf := Conf {
    c_tasks : list task;
    c_lock : option nat;
    c_state : st
  }.
  Definition set_task (i : nat) (t : task) (l : list task) : list task := firstn i l ++ t :: skipn (S i) l.

  Inductive cstep : conf -> conf -> Prop :=
  | S_arrive c b : cstep c (Conf (c_tasks c ++ [Received b]) (c_lock c) (c_state c))
  | S_refuse c i b r : nth_error (c_tasks c) i = Some (Received b) -> intake b = inl r ->
      cstep c (Conf (set_task i (Replied b r) (c_tasks c)) (c_lock c) (c_state c))
  | S_decode c i b m e : nth_error (c_tasks c) i = Some (Received b) -> intake b = inr (m, e) ->
      cstep c (Conf (set_task i (Waiting b m e) (c_tasks c)) (c_lock c) (c_state c))
  | S_lock c i b m e : nth_error (c_tasks c) i = Some (Waiting b m e) -> c_lock c = None ->
      cstep c (Conf (set_task i (Holding b m e (c_state c)) (c_tasks c)) (Some i) (c_state c))
  | S_handle c i b m e s : nth_error (c_tasks c) i = Some (Holding b m e s) ->
      cstep c (Conf (set_task i (Handled b (answer e (fst (handle Y m s)))) (c_tasks c)) (c_lock c)
                    (snd (handle Y m s)))
  | S_unlock c i b r : nth_error (c_tasks c) i = Some (Handled b r) ->
      cstep c (Conf (set_task i (Replied b r) (c_tasks c)) None (c_state c))
  | S_drop_received c i b : nth_error (c_tasks c) i = Some (Received b) ->
      cstep c (Conf (set_task i Dropped (c_tasks c)) (c_lock c) (c_state c))
  | S_drop_waiting c i b m e : nth_error (c_tasks c) i = Some (Waiting b m e) ->
      cstep c (Conf (set_task i Dropped (c_tasks c)) (c_lock c) (c_state c)).

  Inductive csteps : conf -> conf -> Prop :=
  | CS_refl c : csteps c c
  | CS_step a b c : csteps a b -> cstep b c -> csteps a c.
End Process.
