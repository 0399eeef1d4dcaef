(** Socket addresses and the stream pool: src/qos_core/src/io/mod.rs:78-230,
    src/qos_core/src/io/pool.rs.  Arithmetic wraps (release profile, no
    overflow-checks: Cargo.toml:124-138); usize is 64 bits. *)
From Verif Require Import Base Utf8 Json.

(** io/mod.rs:78-85 SocketAddress.  A unix address is its path; a vsock
    address its cid, port and flags. *)
Inductive address : Type :=
| AUnix (path : bytes)
| AVsock (cid port flags : N).

Inductive io_error : Type :=
| ConnectAddressInvalid | NixError | NoAddressesSpecified | InvalidSourceAddress | BindFailed.

Definition U32 : N := 4294967296.
Definition USIZE : N := 18446744073709551616.

(** nix::sys::socket::UnixAddr::new (external crate, from its documentation):
    refuses a path holding NUL and one that does not fit [sun_path] (108
    bytes, including the terminator). *)
Definition SUN_PATH : N := 108.
Definition unix_addr_new (path : bytes) : result io_error address :=
  if (lenN path <? SUN_PATH)%N && negb (memb byte_eqb x00 path) then Ok (AUnix path) else Err NixError.
(** UnixAddr::path (external crate): None for the unnamed address *)
Definition unix_path (path : bytes) : option bytes := match path with [] => None | _ => Some path end.

(** str::rfind('_'): the text before and after the last underscore *)
Fixpoint rsplit_underscore (p : bytes) : option (bytes * bytes) :=
  match p with
  | [] => None
  | c :: r => match rsplit_underscore r with
              | Some (a, b) => Some (c :: a, b)
              | None => if byte_eqb c "_" then Some ([], r) else None
              end
  end.

(** io/pool.rs:249-268 next_usock_path *)
Definition next_usock_path (path : bytes) : result io_error bytes :=
  if negb (utf8_valid path) then Err ConnectAddressInvalid
  else
    match rsplit_underscore path with
    | Some (pre, num_str) =>
      match parse_unsigned USIZE num_str with
      | Some index => Ok (pre ++ bs "_" ++ print_N ((index + 1) mod USIZE)%N)
      | None => Ok (path ++ bs "_0")
      end
    | None => Ok (path ++ bs "_0")
    end.

(** io/pool.rs:273-294 next_address *)
Definition next_address (a : address) : result io_error address :=
  match a with
  | AUnix p =>
    match unix_path p with
    | Some path =>
      match next_usock_path path with
      | Ok path' => unix_addr_new path'
      | Err e => Err e
      end
    | None => Err InvalidSourceAddress
    end
  | AVsock cid port flags => Ok (AVsock cid ((port + 1) mod U32)%N flags)
  end.

(** io/mod.rs:205-229 with_port: [None] is a panic ([new_unix] unwraps) *)
Definition with_port (a : address) (port : N) : option (result io_error address) :=
  match a with
  | AVsock cid _ flags => Some (Ok (AVsock cid port flags))
  | AUnix p =>
    match unix_path p with
    | None => Some (Err ConnectAddressInvalid)
    | Some path =>
      let path' := path ++ bs "." ++ print_N port ++ bs ".appsock" in
      if negb (utf8_valid path') then Some (Err ConnectAddressInvalid)
      else match unix_addr_new path' with
           | Ok a' => Some (Ok a')
           | Err _ => None
           end
    end
  end.

(** io/pool.rs:25-29 StreamPool: the addresses, and for each handle the
    address its stream connects to. *)
Record pool : Type := { p_addresses : list address; p_handles : list address }.

(** io/pool.rs:108-118 with_addresses *)
Definition with_addresses (l : list address) : pool := {| p_addresses := l; p_handles := l |}.

(** io/pool.rs:84-92: the loop of [new]; [count] > 0 *)
Fixpoint gather (addr : address) (count : nat) (acc : list address) : result io_error (list address) :=
  match count with
  | O => Ok acc
  | S O => Ok (acc ++ [addr])
  | S c => match next_address addr with
           | Ok a => gather a c (acc ++ [addr])
           | Err e => Err e
           end
  end.
(** io/pool.rs:72-95 StreamPool::new; [count] is a u8 *)
Definition pool_new (start : address) (count : nat) : result io_error pool :=
  match count with
  | O => Err NoAddressesSpecified
  | _ => match gather start count [] with
         | Ok l => Ok (with_addresses l)
         | Err e => Err e
         end
  end.
(** io/pool.rs:126-130 len *)
Definition pool_len (p : pool) : nat := length (p_addresses p).

Definition last_address (p : pool) : option address := hd_error (rev (p_addresses p)).

(** io/pool.rs:203-208: the loop of expand_to; the pool is changed even when
    it fails half way *)
Fixpoint expand_loop (n : nat) (next : address) (p : pool) : pool * result io_error unit :=
  match n with
  | O => (p, Ok tt)
  | S n' => match next_address next with
            | Err e => (p, Err e)
            | Ok a => expand_loop n' a {| p_addresses := p_addresses p ++ [a]; p_handles := p_handles p ++ [a] |}
            end
  end.
(** io/pool.rs:196-212 expand_to *)
Definition expand_to (size : nat) (p : pool) : pool * result io_error unit :=
  match last_address p with
  | Some a => expand_loop (size - length (p_addresses p)) a p
  | None => (p, Ok tt)
  end.

(** io/pool.rs:229-236: the loop of listen_to.  [bind] says which addresses
    can be bound (Listener::listen).  Result: the pool, the listeners bound
    by this call that the caller gets (dropped, hence closed, on error). *)
Fixpoint listen_loop (bind : address -> bool) (n : nat) (next : address) (p : pool) (ls : list address)
  : pool * result io_error (list address) :=
  match n with
  | O => (p, Ok ls)
  | S n' => match next_address next with
            | Err e => (p, Err e)
            | Ok a =>
              let p' := {| p_addresses := p_addresses p ++ [a]; p_handles := p_handles p |} in
              if bind a then listen_loop bind n' a p' (ls ++ [a]) else (p', Err BindFailed)
            end
  end.
(** io/pool.rs:221-240 listen_to *)
Definition listen_to (bind : address -> bool) (size : nat) (p : pool) : pool * result io_error (list address) :=
  match last_address p with
  | Some a => listen_loop bind (size - length (p_addresses p)) a p []
  | None => (p, Ok [])
  end.
(** io/pool.rs:178-188 listen *)
Fixpoint listen_all (bind : address -> bool) (l : list address) : result io_error (list address) :=
  match l with
  | [] => Ok []
  | a :: r => if bind a then match listen_all bind r with Ok ls => Ok (a :: ls) | Err e => Err e end else Err BindFailed
  end.
