(** The operator's file tools: /repo/src/qos_client/src/cli/services.rs:343-366
    (generate_file_key), 1852-1947 (p256_verify, p256_sign, p256_asymmetric_encrypt,
    p256_asymmetric_decrypt), 1985-2020 (json_to_borsh), 2175-2220 (shamir_split,
    shamir_reconstruct), 2650-2680 (write_with_msg, write_secret_with_msg).

    The disk maps a path to contents and permission bits.  A command reads its
    inputs first and then makes a list of system calls; a crash may strike between
    any two, or in the middle of a write.  [None] is an error or panic before the
    first of them.  Not modelled: links, directories, failing writes, owners. *)
From Verif Require Import Base Utf8 Hex Borsh Json Types TypesBorsh TypesJson Msg World Attest Services CliParser Client Shamir.
Local Open Scope N_scope.

Definition disk := bytes -> option (bytes * N).
Definition put (d : disk) (p : bytes) (v : option (bytes * N)) : disk := fun q => if bytes_eqb p q then v else d q.
Definition contents (d : disk) (p : bytes) : file := match d p with Some (c, _) => Some c | None => None end.

Inductive call :=
| Open (p : bytes) (mode : N)     (* create with these bits if absent, truncate *)
| Chmod (p : bytes) (mode : N)
| Write (p : bytes) (c : bytes).  (* to the just truncated file *)
Definition after (d : disk) (c : call) : disk :=
  match c with
  | Open p m => put d p (Some ([], match d p with Some (_, m') => m' | None => m end))
  | Chmod p m => match d p with Some (c, _) => put d p (Some (c, m)) | None => d end
  | Write p b => match d p with Some (_, m) => put d p (Some (b, m)) | None => d end
  end.
Definition done (d : disk) (l : list call) : disk := fold_left after l d.

Section FileTools.
  Context (Y : sys) (umask_mode : N).   (* the bits of a file created by fs::write: 0666 without the umask *)
  Definition SECRET_MODE : N := 384.    (* 0o600 *)

  (** services.rs:2653-2659 write_with_msg *)
  Definition write_with_msg (p c : bytes) : list call := [Open p umask_mode; Write p c].
  (** services.rs:2661-2680 write_secret_with_msg *)
  Definition write_secret (p c : bytes) : list call := [Open p SECRET_MODE; Chmod p SECRET_MODE; Write p c].

  (** services.rs:343-366 generate_file_key; [seed] is fresh randomness *)
  Definition generate_file_key (seed secret_path pub_path : bytes) : option (list call) :=
    let? k := ok_opt (from_master_seed Y seed) in
    Some (write_secret secret_path (encode seed) ++ write_with_msg pub_path (encode (public_to_bytes k))).

  (** services.rs:1852-1873 p256_verify: does the command succeed *)
  Definition p256_verify (d : disk) (payload_path signature_path pub_path : bytes) : bool :=
    is_some (let? m := contents d payload_path in
             let? k := public_from_hex_file Y (contents d pub_path) in
             let? t := contents d signature_path in let? h := trim_text t in
             let? s := ok_opt (decode h) in
             if s_verify Y (snd k) m s then Some tt else None).
  (** services.rs:1875-1894 p256_sign *)
  Definition p256_sign (d : disk) (payload_path signature_path seed_path : bytes) : option (list call) :=
    let? m := contents d payload_path in
    let? p := read_pair Y (contents d seed_path) in
    Some (write_with_msg signature_path (encode (s_sign Y (fst p) m))).
  (** services.rs:1896-1909 p256_asymmetric_encrypt *)
  Definition p256_encrypt (d : disk) (rnd plain_path cipher_path pub_path : bytes) : option (list call) :=
    let? k := public_from_hex_file Y (contents d pub_path) in
    let? m := contents d plain_path in
    let? c := ok_opt (s_encrypt Y (fst k) rnd m) in
    Some (write_with_msg cipher_path c).
  (** services.rs:1911-1930 p256_asymmetric_decrypt *)
  Definition p256_decrypt (d : disk) (plain_path cipher_path seed_path : bytes) (hex : bool) : option (list call) :=
    let? p := read_pair Y (contents d seed_path) in
    let? c := contents d cipher_path in
    let? m := ok_opt (s_decrypt Y (fst p) c) in
    Some (write_secret plain_path (if hex then encode m else m)).

  (** [PathBuf::join] of a relative file name *)
  Definition join (dir name : bytes) : bytes :=
    match rev dir with [] => name | c :: _ => if byte_eqb c "/" then dir ++ name else dir ++ "/"%byte :: name end.
  Definition share_path (dir : bytes) (i : nat) : bytes := join dir (print_N (N.of_nat i) ++ bs ".share").
  (** services.rs:2175-2195 shamir_split *)
  Definition shamir_split (d : disk) (rnd : list bytes) (secret_path : bytes) (total threshold : N) (dir : bytes) : option (list call) :=
    let? s := contents d secret_path in
    let? shares := shares_generate rnd s total threshold in
    Some (concat (map (fun p => write_secret (share_path dir (fst p)) (snd p)) (combine (seq 1 (length shares)) shares))).
  (** services.rs:2197-2220 shamir_reconstruct *)
  Definition shamir_reconstruct (d : disk) (paths : list bytes) (out : bytes) : option (list call) :=
    let? shares := mapM (contents d) paths in
    let? s := shares_reconstruct shares in
    Some (write_secret out s).

  (** services.rs:2453-2462 read_manifest_v1_compat, 2487-2501 read_manifest_envelope_v1_compat *)
  Definition read_manifest_v1_compat (f : file) : option manifest :=
    match read_manifest_compat f with
    | Some (VM1 m) => Some m
    | Some (VM0 m) => Some (manifest_of_v0 m)
    | _ => None
    end.
  Definition read_envelope_v1_compat (f : file) : option manifest_envelope :=
    match read_manifest_envelope_compat f with
    | Some (VE1 e) => Some e
    | Some (VE0 e) => Some (ManifestEnvelope (manifest_of_v0 (e0_manifest e)) (e0_manifest_approvals e) (e0_share_approvals e))
    | _ => None
    end.
  Inductive display_type := DManifest | DManifestEnvelope | DGenesisOutput.
  (** services.rs:1985-2020 json_to_borsh *)
  Definition json_to_borsh (d : disk) (t : display_type) (input output : bytes) : option (list call) :=
    match t with
    | DManifest => let? m := read_manifest_v1_compat (contents d input) in let? b := to_vec c_manifest m in Some [Open output umask_mode; Write output b]
    | DManifestEnvelope => let? e := read_envelope_v1_compat (contents d input) in let? b := to_vec c_envelope e in Some [Open output umask_mode; Write output b]
    | DGenesisOutput => None
    end.
  (** services.rs:1952-1972 display with --json: what is printed (without the newline); the
      enums are untagged (manifest.rs:70-81, 291-301) *)
  Definition manifest_json (m : versioned_manifest) : bytes :=
    match m with VM2 x => write (jser js_manifest_v2 x) | VM1 x => write (jser js_manifest x) | VM0 x => write (jser js_manifest_v0 x) end.
  Definition envelope_json (e : versioned_envelope) : bytes :=
    match e with VE2 x => write (jser js_envelope_v2 x) | VE1 x => write (jser js_envelope x) | VE0 x => write (jser js_envelope_v0 x) end.
  Definition display_json (d : disk) (t : display_type) (input : bytes) : option bytes :=
    match t with
    | DManifest => let? m := read_manifest_compat (contents d input) in Some (manifest_json m)
    | DManifestEnvelope => let? e := read_manifest_envelope_compat (contents d input) in Some (envelope_json e)
    | DGenesisOutput => None    (* only the Debug form is printed *)
    end.
End FileTools.
