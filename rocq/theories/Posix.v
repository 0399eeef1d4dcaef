(** Writing a secret to a file while other users of the machine are active:
    /repo/src/qos_p256/src/lib.rs:121-136 (write_owner_only, used by
    P256Pair::to_hex_file:284-297) and
    /repo/src/qos_client/src/cli/services.rs:2661-2680 (write_secret_with_msg);
    the two make the same system calls in the same order:
    open(O_WRONLY|O_CREAT|O_TRUNC, 0600), fchmod(0600), write until all is written.

    The file system has names, inodes with an owner, a group, permission bits and
    contents, and descriptors.  Every byte carries a label saying whether the
    writing program put it there ([Secret]) or not ([Public]); the label is a
    ghost, nobody can see it.  Any number of other users run at the same time, in
    any interleaving; the writing program may fail or be killed at any call.

    Simplified: one directory whose entries may be created by others or not
    ([open_dir]) and in which one may only remove or rename files one owns; no hard
    or symbolic links; the writer's bytes go to the end of the file. *)
From Verif Require Import Base.
From Coq Require Import ZifyBool ZifyN ZifyNat.
Local Open Scope N_scope.

Definition uid := N.
Definition gid := N.
Definition ROOT : uid := 0.
Inductive label := Secret | Public.
Definition data := list (label * byte).
Record inode := Inode { i_owner : uid; i_group : gid; i_mode : N; i_data : data }.

(** what the writing program has done so far *)
Inductive phase :=
| Start                                  (* nothing *)
| Opened (i : nat)                       (* holds the file open, truncated *)
| Writing (i : nat) (rest : bytes)       (* has set the mode; [rest] is left to write *)
| Done (i : nat)                         (* returned success *)
| Failed.                                (* returned an error, or was killed *)

Record machine := Machine {
  names : bytes -> option nat;
  inodes : nat -> option inode;
  next : nat;
  readers : list (uid * nat);            (* descriptors others hold open for reading *)
  writers : list (uid * nat);            (* and for writing *)
  ph : phase;
  seen : list (uid * data) }.            (* what others have read *)

Section Posix.
  (** [me], [my_group]: the user running the program; [member]: group membership;
      [mask]: the bits the umask clears in 0600; [open_dir]: others may create
      files in the directory; [path], [secret]: the arguments. *)
  Context (member : uid -> gid -> bool) (me : uid) (my_group : gid) (mask : N -> N) (open_dir : bool)
          (path : bytes) (secret : bytes).

  (** POSIX permission check; [bit] 2 = read, 1 = write *)
  Definition may (bit : N) (u : uid) (n : inode) : bool :=
    if u =? ROOT then true
    else if u =? i_owner n then N.testbit (i_mode n) (bit + 6)
    else if member u (i_group n) then N.testbit (i_mode n) (bit + 3)
    else N.testbit (i_mode n) bit.

  Definition set_inode (s : machine) (i : nat) (n : inode) (p : phase) : machine :=
    Machine (names s) (fun j => if Nat.eqb i j then Some n else inodes s j) (next s) (readers s) (writers s) p (seen s).
  Definition set_phase (s : machine) (p : phase) : machine :=
    Machine (names s) (inodes s) (next s) (readers s) (writers s) p (seen s).
  Definition with_data (n : inode) (d : data) : inode := Inode (i_owner n) (i_group n) (i_mode n) d.
  Definition with_mode (n : inode) (m : N) : inode := Inode (i_owner n) (i_group n) m (i_data n).
  Definition set_name (s : machine) (p : bytes) (v : option nat) : machine :=
    Machine (fun q => if bytes_eqb p q then v else names s q) (inodes s) (next s) (readers s) (writers s) (ph s) (seen s).

  (** lib.rs:131 .mode(0o600), lib.rs:133 from_mode(0o600) *)
  Definition SECRET_BITS : N := 384.

  (** The program's own steps. *)
  Inductive mine : machine -> machine -> Prop :=
  | m_create s : ph s = Start -> names s path = None ->          (* lib.rs:127-132, the file is new *)
      mine s (Machine (fun q => if bytes_eqb path q then Some (next s) else names s q)
                      (fun j => if Nat.eqb (next s) j then Some (Inode me my_group (mask SECRET_BITS) []) else inodes s j)
                      (Datatypes.S (next s)) (readers s) (writers s) (Opened (next s)) (seen s))
  | m_truncate s i n : ph s = Start -> names s path = Some i -> inodes s i = Some n -> may 1 me n = true ->
      mine s (set_inode s i (with_data n []) (Opened i))         (* lib.rs:127-132, it exists *)
  | m_chmod s i n : ph s = Opened i -> inodes s i = Some n -> me = ROOT \/ me = i_owner n ->
      mine s (set_inode s i (with_mode n SECRET_BITS) (Writing i secret))   (* lib.rs:133 *)
  | m_write s i n a b : ph s = Writing i (a ++ b) -> inodes s i = Some n ->
      mine s (set_inode s i (with_data n (i_data n ++ map (pair Secret) a)) (Writing i b))  (* lib.rs:134 *)
  | m_done s i : ph s = Writing i [] -> mine s (set_phase s (Done i))
  | m_fail s : mine s (set_phase s Failed).                      (* any call may fail; killed *)

  (** Steps of another user [u]. *)
  Inductive theirs (u : uid) : machine -> machine -> Prop :=
  | t_open s p i n : names s p = Some i -> inodes s i = Some n -> may 2 u n = true ->
      theirs u s (Machine (names s) (inodes s) (next s) ((u, i) :: readers s) (writers s) (ph s) (seen s))
  | t_open_write s p i n : names s p = Some i -> inodes s i = Some n -> may 1 u n = true ->
      theirs u s (Machine (names s) (inodes s) (next s) (readers s) ((u, i) :: writers s) (ph s) (seen s))
  | t_read s i n : In (u, i) (readers s) -> inodes s i = Some n ->
      theirs u s (Machine (names s) (inodes s) (next s) (readers s) (writers s) (ph s) ((u, i_data n) :: seen s))
  | t_write s i n b : In (u, i) (writers s) -> inodes s i = Some n ->
      theirs u s (set_inode s i (with_data n (i_data n ++ map (pair Public) b)) (ph s))
  | t_truncate s i n : In (u, i) (writers s) -> inodes s i = Some n ->
      theirs u s (set_inode s i (with_data n []) (ph s))
  | t_create s p g m : open_dir = true -> names s p = None ->
      theirs u s (Machine (fun q => if bytes_eqb p q then Some (next s) else names s q)
                          (fun j => if Nat.eqb (next s) j then Some (Inode u g m []) else inodes s j)
                          (Datatypes.S (next s)) ((u, next s) :: readers s) ((u, next s) :: writers s) (ph s) (seen s))
  | t_chmod s i n m : inodes s i = Some n -> i_owner n = u ->
      theirs u s (set_inode s i (with_mode n m) (ph s))
  | t_unlink s p i n : open_dir = true -> names s p = Some i -> inodes s i = Some n -> i_owner n = u ->
      theirs u s (set_name s p None)
  | t_rename s p q i n : open_dir = true -> names s p = Some i -> inodes s i = Some n -> i_owner n = u -> names s q = None ->
      theirs u s (set_name (set_name s p None) q (Some i)).

  (** one step of anybody but the super-user *)
  Inductive step : machine -> machine -> Prop :=
  | s_mine s s' : mine s s' -> step s s'
  | s_theirs u s s' : u <> me -> u <> ROOT -> theirs u s s' -> step s s'.
  Inductive steps : machine -> machine -> Prop :=
  | st_refl s : steps s s
  | st_step s1 s2 s3 : steps s1 s2 -> step s2 s3 -> steps s1 s3.
  (** the program alone *)
  Inductive alone : machine -> machine -> Prop :=
  | al_refl s : alone s s
  | al_step s1 s2 s3 : alone s1 s2 -> mine s2 s3 -> alone s1 s3.

  Definition labels (d : data) : list label := map fst d.
  (** a machine on which the program has not started *)
  Record at_start (s : machine) : Prop := {
    a_phase : ph s = Start;
    a_clean : forall i n, inodes s i = Some n -> ~ In Secret (labels (i_data n));
    a_seen : seen s = [];
    a_names : forall p i, names s p = Some i -> exists n, inodes s i = Some n;
    a_next : forall i n, inodes s i = Some n -> (i < next s)%nat;
    a_fds : forall u i, In (u, i) (readers s ++ writers s) -> exists n, inodes s i = Some n }.
End Posix.
