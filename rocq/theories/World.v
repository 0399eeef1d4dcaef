(** The enclave process as a state machine over a file system with faults, an
    NSM device and a source of randomness.  [sys] collects everything the model
    does not open up (device, hash functions, P-256, COSE/X.509 parsing,
    fault schedule).  All theorems quantify over every [sys]; those that need a
    law (e.g. "signatures made by a pair verify") say so in a hypothesis. *)
From Verif Require Import Base Utf8 Hex Types Borsh TypesBorsh Json TypesJson Msg.
Local Open Scope N_scope.

(** Outcome chosen by the environment for one file-system call. *)
Inductive fault :=
| NoFault               (* the call succeeds *)
| FailNow               (* the call fails and changes nothing *)
| FailAfter (k : nat).  (* a write fails after the file was truncated and k bytes were written *)

Record sys := Sys {
  s_nsm : Type;                                              (* NSM device state *)
  s_nsm_step : s_nsm -> nsm_request -> nsm_response * s_nsm; (* NsmProvider::nsm_process_request *)
  s_nsm_time : s_nsm -> option N * s_nsm;                    (* NsmProvider::timestamp_ms *)
  s_root : bytes;                                            (* NsmProvider::attestation_root_ca_der *)
  s_sha256 : bytes -> bytes;
  s_sha384 : bytes -> bytes;
  s_sha512 : bytes -> bytes;
  s_point_ok : bytes -> bool;             (* 65 bytes are a valid uncompressed SEC1 point *)
  s_pair : bytes -> option (bytes * bytes); (* master seed -> (encryption, signing) public keys *)
  s_sign : bytes -> bytes -> bytes;       (* seed, message (RFC 6979: deterministic) *)
  s_verify : bytes -> bytes -> bytes -> bool; (* signing key, message, signature *)
  s_encrypt : bytes -> bytes -> bytes -> result p256_error bytes; (* encryption key, randomness, message *)
  s_decrypt : bytes -> bytes -> result p256_error bytes;          (* seed, envelope *)
  s_combine : list bytes -> option bytes;                         (* shamir::shares_reconstruct *)
  s_split : bytes -> bytes -> N -> N -> option (list bytes);      (* randomness, secret, count, threshold *)
  s_doc : bytes -> option att_doc;        (* nitro::unsafe_attestation_doc_from_der *)
  s_chain_ok : list bytes -> bytes -> bytes -> N -> bool; (* webpki: intermediates, root, leaf, seconds *)
  s_cose_sig_ok : bytes -> bytes -> bool; (* nitro::verify_cose_sign1_sig: leaf certificate, COSE bytes *)
  s_rng : nat -> bytes;                   (* OS randomness, drawn in order *)
  s_io : nat -> fault;                    (* file-system faults, drawn in order *)
  s_version : bytes; s_commit : bytes     (* compile-time version and commit *)
}.

(** Laws of the standard primitives: output lengths. *)
Record sys_ok (Y : sys) : Prop := SysOk {
  ok_sha256 : forall x, length (s_sha256 Y x) = 32%nat;
  ok_sha384 : forall x, length (s_sha384 Y x) = 48%nat;
  ok_sha512 : forall x, length (s_sha512 Y x) = 64%nat;
  ok_rng : forall n, length (s_rng Y n) = 32%nat;
  ok_pair : forall seed e s, s_pair Y seed = Some (e, s) ->
    length e = 65%nat /\ length s = 65%nat /\ s_point_ok Y e = true /\ s_point_ok Y s = true
}.

(** ** Files.  handles.rs:72-82 names four files; write_as_read_only adds a
    temporary sibling for three of them (handles.rs:317).  PropsEnclaveCli.v (c51) shows that
    the default path strings are pairwise distinct. *)
Inductive slot := Eph | Quorum | Manif | Pivot.
Inductive path := Main (s : slot) | Tmp (s : slot).
Definition slot_eqb (a b : slot) : bool :=
  match a, b with Eph, Eph | Quorum, Quorum | Manif, Manif | Pivot, Pivot => true | _, _ => false end.
Definition path_eqb (a b : path) : bool :=
  match a, b with Main x, Main y | Tmp x, Tmp y => slot_eqb x y | _, _ => false end.
Lemma path_eqb_spec a b : reflect (a = b) (path_eqb a b).
Proof. destruct a as [[]|[]], b as [[]|[]]; cbn; constructor; congruence. Qed.

(** A file system maps a path to its contents and permission bits. *)
Definition fsys := path -> option (bytes * N).
Definition upd (f : fsys) (p : path) (v : option (bytes * N)) : fsys :=
  fun q => if path_eqb p q then v else f q.

(** What happened, newest first.  A crash may strike after any entry. *)
Inductive event :=
| EvWrite (p : path) | EvRename (a b : path) | EvChmod (p : path) (mode : N) | EvRemove (p : path)
| EvNsm (r : nsm_request) (a : nsm_response) | EvTime.

Section World.
  Context (Y : sys).

  Record entry := Entry { en_ev : event; en_fs : fsys; en_nsm : s_nsm Y }.

  (** ProtocolState (state.rs:187-194) plus the world it acts on. *)
  Record st := St {
    st_phase : phase;
    st_shares : list bytes;        (* provisioner.shares *)
    st_pending : option bytes;     (* pending_live_ephemeral_key, as its master seed *)
    st_fs : fsys;
    st_nsm : s_nsm Y;
    st_rngc : nat;                 (* randomness drawn so far *)
    st_ioc : nat;                  (* file-system calls made so far *)
    st_trace : list entry
  }.

  Definition set_phase (p : phase) (s : st) : st :=
    St p (st_shares s) (st_pending s) (st_fs s) (st_nsm s) (st_rngc s) (st_ioc s) (st_trace s).
  Definition set_shares (l : list bytes) (s : st) : st :=
    St (st_phase s) l (st_pending s) (st_fs s) (st_nsm s) (st_rngc s) (st_ioc s) (st_trace s).
  Definition set_pending (k : option bytes) (s : st) : st :=
    St (st_phase s) (st_shares s) k (st_fs s) (st_nsm s) (st_rngc s) (st_ioc s) (st_trace s).
  Definition tick_io (s : st) : st :=
    St (st_phase s) (st_shares s) (st_pending s) (st_fs s) (st_nsm s) (st_rngc s) (S (st_ioc s)) (st_trace s).
  Definition tick_rng (s : st) : st :=
    St (st_phase s) (st_shares s) (st_pending s) (st_fs s) (st_nsm s) (S (st_rngc s)) (st_ioc s) (st_trace s).
  (** A file-system effect: new contents, one trace entry. *)
  Definition eff_fs (e : event) (f : fsys) (s : st) : st :=
    St (st_phase s) (st_shares s) (st_pending s) f (st_nsm s) (st_rngc s) (st_ioc s)
       (Entry e f (st_nsm s) :: st_trace s).
  Definition eff_nsm (e : event) (n : s_nsm Y) (s : st) : st :=
    St (st_phase s) (st_shares s) (st_pending s) (st_fs s) n (st_rngc s) (st_ioc s)
       (Entry e (st_fs s) n :: st_trace s).

  (** Fallible, state-changing computations: [Result<A, ProtocolError>] with
      effects; effects made before an error persist. *)
  Definition M (A : Type) := st -> result perr A * st.
  Definition ret {A} (a : A) : M A := fun s => (Ok a, s).
  Definition err {A} (e : perr) : M A := fun s => (Err e, s).
  Definition bind {A B} (m : M A) (f : A -> M B) : M B :=
    fun s => match m s with (Ok a, s') => f a s' | (Err e, s') => (Err e, s') end.
  Definition lift {A} (r : result perr A) : M A := fun s => (r, s).
  Definition guard (b : bool) (e : perr) : M unit := if b then ret tt else err e.
  Definition gets {A} (f : st -> A) : M A := fun s => (Ok (f s), s).
  Definition modify (f : st -> st) : M unit := fun s => (Ok tt, f s).
End World.
Arguments Entry {Y} _ _ _.
Arguments en_ev {Y} _. Arguments en_fs {Y} _. Arguments en_nsm {Y} _.
Arguments St {Y} _ _ _ _ _ _ _ _.
Arguments st_phase {Y} _. Arguments st_shares {Y} _. Arguments st_pending {Y} _. Arguments st_fs {Y} _.
Arguments st_nsm {Y} _. Arguments st_rngc {Y} _. Arguments st_ioc {Y} _. Arguments st_trace {Y} _.
Arguments set_phase {Y} _ _. Arguments set_shares {Y} _ _. Arguments set_pending {Y} _ _.
Arguments tick_io {Y} _. Arguments tick_rng {Y} _. Arguments eff_fs {Y} _ _ _. Arguments eff_nsm {Y} _ _ _.
Arguments ret {Y A} _ _. Arguments err {Y A} _ _. Arguments bind {Y A B} _ _ _. Arguments lift {Y A} _ _.
Arguments guard {Y} _ _ _. Arguments gets {Y A} _ _. Arguments modify {Y} _ _.

Declare Scope m_scope.
Delimit Scope m_scope with m.
Notation "'do' x <- a ; b" := (bind a (fun x => b))
  (at level 200, x pattern, a at level 100, b at level 200, right associativity) : m_scope.
Notation "a ;; b" := (bind a (fun _ => b)) (at level 100, b at level 200, right associativity) : m_scope.
Local Open Scope m_scope.

Section Ops.
  Context (Y : sys).
  Local Notation M := (M Y).

  (** ** File-system calls (std::fs).  Each draws one outcome from [s_io]. *)
  Definition op_read (p : path) : M (option bytes) := fun s =>
    let s' := tick_io s in
    match s_io Y (st_ioc s) with
    | NoFault => (Ok (option_map fst (st_fs s p)), s')
    | _ => (Ok None, s')
    end.

  (** [Path::exists]; faithful (its own metadata error is not modelled). *)
  Definition op_exists (p : path) : M bool := gets (fun s => is_some (st_fs s p)).

  (** Writing [data] passes through every prefix of it; a created file gets mode 0o644. *)
  Definition file_mode (f : fsys) (p : path) : N := match f p with Some (_, m) => m | None => 420 end.
  Fixpoint write_steps (p : path) (m : N) (data : bytes) (k i : nat) (s : st Y) : st Y :=
    let s' := eff_fs (EvWrite p) (upd (st_fs s) p (Some (firstn i data, m))) s in
    match k with
    | O => s'
    | S k' => write_steps p m data k' (S i) s'
    end.
  (** [fs::write]: open with create+truncate, then write everything.  [true] = success. *)
  Definition op_write (p : path) (data : bytes) : M bool := fun s =>
    let s1 := tick_io s in
    let m := file_mode (st_fs s) p in
    match s_io Y (st_ioc s) with
    | NoFault => (Ok true, write_steps p m data (length data) 0 s1)
    | FailNow => (Ok false, s1)
    | FailAfter k => (Ok false, write_steps p m data (Nat.min k (length data)) 0 s1)
    end.

  Definition op_rename (a b : path) : M bool := fun s =>
    let s1 := tick_io s in
    match s_io Y (st_ioc s), st_fs s a with
    | NoFault, Some v => (Ok true, eff_fs (EvRename a b) (upd (upd (st_fs s) b (Some v)) a None) s1)
    | _, _ => (Ok false, s1)
    end.

  Definition op_chmod (p : path) (mode : N) : M bool := fun s =>
    let s1 := tick_io s in
    match s_io Y (st_ioc s), st_fs s p with
    | NoFault, Some (c, _) => (Ok true, eff_fs (EvChmod p mode) (upd (st_fs s) p (Some (c, mode))) s1)
    | _, _ => (Ok false, s1)
    end.

  Definition op_remove (p : path) : M bool := fun s =>
    let s1 := tick_io s in
    match s_io Y (st_ioc s), st_fs s p with
    | NoFault, Some _ => (Ok true, eff_fs (EvRemove p) (upd (st_fs s) p None) s1)
    | _, _ => (Ok false, s1)
    end.

  (** ** Device and randomness *)
  Definition op_nsm (r : nsm_request) : M nsm_response := fun s =>
    let '(a, n) := s_nsm_step Y (st_nsm s) r in (Ok a, eff_nsm (EvNsm r a) n s).
  Definition op_time : M (option N) := fun s =>
    let '(a, n) := s_nsm_time Y (st_nsm s) in (Ok a, eff_nsm EvTime n s).
  Definition op_rand : M bytes := fun s => (Ok (s_rng Y (st_rngc s)), tick_rng s).

  (** ** Keys (qos_p256/src/lib.rs) *)
  (** A parsed public key: encryption point and signing point.
      lib.rs:412-430 P256Public::from_bytes *)
  Definition public_from_bytes (b : bytes) : result p256_error (bytes * bytes) :=
    if 130 <? lenN b then Err EncodedPublicKeyTooLong
    else if lenN b <? 130 then Err EncodedPublicKeyTooShort
    else let e := firstn 65 b in let g := skipn 65 b in
      if s_point_ok Y e then (if s_point_ok Y g then Ok (e, g) else Err FailedToReadPublicKey)
      else Err FailedToReadPublicKey.
  (** lib.rs:384-391 P256Public::to_bytes *)
  Definition public_to_bytes (k : bytes * bytes) : bytes := fst k ++ snd k.
  (** lib.rs:243-263 P256Pair::from_master_seed; the pair is represented by its seed. *)
  Definition from_master_seed (seed : bytes) : result p256_error (bytes * bytes) :=
    match s_pair Y seed with Some k => Ok k | None => Err FailedToReadSecret end.
  (** lib.rs:163-183 P256Pair::generate: the seed and its public key *)
  Definition pair_generate : M (bytes * (bytes * bytes)) :=
    do seed <- op_rand; do k <- lift (rmap_err P256Error (from_master_seed seed)); ret (seed, k).
  (** lib.rs:303-318 P256Pair::from_hex_file applied to file contents *)
  Definition seed_of_hex (c : bytes) : option bytes :=
    let? cs := utf8_dec c in
    ok_opt (decode_to_buf (utf8_enc (trim cs)) 32).
  Definition pair_from_hex_file (p : path) : M (result p256_error (bytes * (bytes * bytes))) :=
    do c <- op_read p;
    ret (match c with
         | None => Err (PIOError (bs "failed to read master seed"))
         | Some c => match seed_of_hex c with
                     | None => Err InvalidMasterSeed
                     | Some seed => match from_master_seed seed with
                                    | Ok k => Ok (seed, k) | Err e => Err e end
                     end
         end).

  (** ** Handles (handles.rs) *)
  (** handles.rs:302-329 write_as_read_only; creation of a missing parent
      directory is folded into the write. *)
  Definition write_as_read_only (f : slot) (buf : bytes) (e : perr) : M unit :=
    do ex <- op_exists (Main f);
    guard (negb ex) CannotModifyPostPivotStatic ;;
    do w <- op_write (Tmp f) buf; guard w e ;;
    do r <- op_rename (Tmp f) (Main f); guard r IOError ;;
    do c <- op_chmod (Main f) 292; guard c e.

  (** handles.rs:106-108, 61-65 *)
  Definition get_ephemeral_key : M (bytes * (bytes * bytes)) :=
    do r <- pair_from_hex_file (Main Eph); lift (rmap_err FailedToGetEphemeralKey r).
  (** handles.rs:115-124 *)
  Definition put_ephemeral_key (seed : bytes) : M unit :=
    write_as_read_only Eph (encode seed) FailedToPutEphemeralKey.
  (** handles.rs:132-150 *)
  Definition rotate_ephemeral_key (seed : bytes) : M unit :=
    do ex <- op_exists (Main Eph); guard ex CannotRotateNonExistentEphemeralKey ;;
    do r <- op_remove (Main Eph); guard r (CannotDeleteEphemeralKey (bs "io error")) ;;
    write_as_read_only Eph (encode seed) FailedToPutEphemeralKey.
  (** handles.rs:157-159, 33-37 *)
  Definition get_quorum_key : M (bytes * (bytes * bytes)) :=
    do r <- pair_from_hex_file (Main Quorum); lift (rmap_err FailedToGetQuorumKey r).
  (** handles.rs:166-172 *)
  Definition put_quorum_key (seed : bytes) : M unit :=
    write_as_read_only Quorum (encode seed) FailedToPutQuorumKey.
  (** handles.rs:185-195 *)
  Definition get_manifest_envelope : M versioned_envelope :=
    do c <- op_read (Main Manif);
    match c with
    | None => err FailedToGetManifestEnvelope
    | Some c => match envelope_try_from_slice_compat c with
                | None => err FailedToGetManifestEnvelope
                | Some e => ret e
                end
    end.
  (** handles.rs:202-217 *)
  Definition put_manifest_envelope (e : versioned_envelope) : M unit :=
    match envelope_to_storage_vec e with
    | None => err FailedToPutManifestEnvelope
    | Some b => write_as_read_only Manif b FailedToPutManifestEnvelope
    end.
  (** handles.rs:223-254 *)
  Definition mutate_manifest_envelope (f : versioned_envelope -> versioned_envelope) : M unit :=
    do e <- get_manifest_envelope;
    do c <- op_chmod (Main Manif) 438; guard c IOError ;;
    match envelope_to_storage_vec (f e) with
    | None => err FailedToPutManifestEnvelope
    | Some b =>
      do w <- op_write (Main Manif) b; guard w FailedToPutManifestEnvelope ;;
      do c <- op_chmod (Main Manif) 292; guard c IOError
    end.
  (** handles.rs:273-294 *)
  Definition put_pivot (pivot : bytes) : M unit :=
    do ex <- op_exists (Main Pivot); guard (negb ex) CannotModifyPostPivotStatic ;;
    do w <- op_write (Main Pivot) pivot; guard w FailedToPutPivot ;;
    do c <- op_chmod (Main Pivot) 73; guard c FailedToPutPivot.
End Ops.
