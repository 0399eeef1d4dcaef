(** Unix listeners and their socket files: src/qos_core/src/io/stream.rs:318-346
    (Listener::listen), 375-391 (its Drop), 394-402 (unix_connect); pool.rs listen
    opens one per address.  Paths are compared as they are written: links and
    other spellings of one path are not modelled.  Vsock listeners have no file. *)
From Verif Require Import Base.
Local Open Scope nat_scope.

Definition path := bytes.
Inductive entry := Nothing | Directory | OtherFile | SocketOf (listener : nat).
(** [held]: the listeners not yet dropped, with the path each was bound to *)
Record world := World { files : path -> entry; held : list (nat * path); next : nat }.
Definition set_file (f : path -> entry) (p : path) (e : entry) : path -> entry := fun q => if bytes_eqb q p then e else f q.
(** std::fs::remove_file: not a directory, and only if the system allows it *)
Definition remove_file (may : bool) (f : path -> entry) (p : path) : path -> entry :=
  match f p with Nothing | Directory => f | _ => if may then set_file f p Nothing else f end.
(** stream.rs:326-346; [may_bind] is false if the system refuses for another reason *)
Definition listen (may_remove may_bind : bool) (p : path) (w : world) : world * option nat :=
  let f := remove_file may_remove (files w) p in          (* path.exists(): removing nothing changes nothing *)
  match f p, may_bind with
  | Nothing, true => (World (set_file f p (SocketOf (next w))) ((next w, p) :: held w) (S (next w)), Some (next w))
  | _, _ => (World f (held w) (next w), None)
  end.
(** stream.rs:376-391 *)
Definition drop (may_remove : bool) (n : nat) (w : world) : world :=
  match find (fun x => Nat.eqb (fst x) n) (held w) with
  | Some (_, p) => World (remove_file may_remove (files w) p) (filter (fun x => negb (Nat.eqb (fst x) n)) (held w)) (next w)
  | None => w
  end.
(** What happens; [Others]: another program puts something at a path or takes it away. *)
Inductive happening := Listens (may_remove may_bind : bool) (p : path) | Drops (may_remove : bool) (n : nat) | Others (p : path) (e : entry).
Definition happen (w : world) (h : happening) : world :=
  match h with
  | Listens a b p => fst (listen a b p w)
  | Drops a n => drop a n w
  | Others p e => World (set_file (files w) p (match e with SocketOf _ => OtherFile | _ => e end)) (held w) (next w)
  end.
Definition history (w : world) (hs : list happening) : world := fold_left happen hs w.
(** stream.rs:394-402: who takes the connection *)
Definition connect (w : world) (p : path) : option nat :=
  match files w p with SocketOf n => if existsb (fun x => Nat.eqb (fst x) n) (held w) then Some n else None | _ => None end.
Definition world0 (f : path -> entry) : world := World (fun p => match f p with SocketOf _ => OtherFile | e => e end) [] 0.
