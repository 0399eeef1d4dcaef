(** The enclave binary's command line: src/qos_core/src/cli.rs (production
    build, without the "mock" feature), and the file names it selects. *)
From Verif Require Import Base Env Json CliParser Pool.

(** lib.rs:20-32 *)
Definition QUORUM_FILE : bytes := bs "/qos.quorum.key".
Definition PIVOT_FILE : bytes := bs "/qos.pivot.bin".
Definition EPHEMERAL_KEY_FILE : bytes := bs "/qos.ephemeral.key".
Definition MANIFEST_FILE : bytes := bs "/qos.manifest".

(** cli.rs:17-36 *)
Definition CID := bs "cid".
Definition PORT := bs "port".
Definition USOCK := bs "usock".
Definition MOCK := bs "mock".
Definition QUORUM_FILE_OPT := bs "quorum-file".
Definition PIVOT_FILE_OPT := bs "pivot-file".
Definition EPHEMERAL_FILE_OPT := bs "ephemeral-file".
Definition MANIFEST_FILE_OPT := bs "manifest-file".

(** cli.rs:215-257 EnclaveParser::parser *)
Definition enclave_tokens : list token :=
  [ tk_requires PORT (tk_forbids [USOCK] (tk_takes_value true (token_new CID)));
    tk_requires CID (tk_forbids [USOCK] (tk_takes_value true (token_new PORT)));
    tk_forbids [bs "port"; bs "cid"] (tk_takes_value true (token_new USOCK));
    token_new MOCK;
    tk_default_value QUORUM_FILE (tk_takes_value true (token_new QUORUM_FILE_OPT));
    tk_default_value PIVOT_FILE (tk_takes_value true (token_new PIVOT_FILE_OPT));
    tk_default_value EPHEMERAL_KEY_FILE (tk_takes_value true (token_new EPHEMERAL_FILE_OPT));
    tk_default_value MANIFEST_FILE (tk_takes_value true (token_new MANIFEST_FILE_OPT)) ].

(** cli.rs:53-71 enclave_socket: [None] is a panic *)
Definition enclave_socket (m : token_map) : option (result io_error address) :=
  match get_single m CID, get_single m PORT, get_single m USOCK with
  | Some c, Some p, None =>
    match parse_unsigned U32 c, parse_unsigned U32 p with
    | Some c', Some p' => Some (Ok (AVsock c' p' 0))
    | _, _ => Some (Err ConnectAddressInvalid)
    end
  | None, None, Some u => match unix_addr_new u with Ok a => Some (Ok a) | Err _ => None end
  | _, _, _ => None
  end.

(** What [CLI::execute] (cli.rs:177-211) does with its arguments. *)
Record config : Type := { e_ephemeral : bytes; e_quorum : bytes; e_manifest : bytes; e_pivot : bytes; e_socket : address }.
Inductive action : Type :=
| Crash                 (* the process panics: invalid arguments (cli.rs:45-47) *)
| ShowVersion | ShowHelp
| TaskPanics            (* the spawned task panics, the process goes on waiting for ctrl+c *)
| RunReaper (c : config).

(** cli.rs:93-122: the [expect]s; then cli.rs:183-204 *)
Definition enclave_execute (args : list bytes) : action :=
  match options_parse enclave_tokens args with
  | Panic | Done (Err _) => Crash
  | Done (Ok m) =>
    if p_version m then ShowVersion
    else if p_help m then ShowHelp
    else
      match get_single m EPHEMERAL_FILE_OPT, get_single m QUORUM_FILE_OPT, get_single m MANIFEST_FILE_OPT, get_single m PIVOT_FILE_OPT with
      | Some e, Some q, Some f, Some p =>
        (* cli.rs:74-91 nsm(): without the feature, --mock panics *)
        if match get_flag m MOCK with Some b => b | None => false end then TaskPanics
        else match enclave_socket m with
             | Some (Ok a) => RunReaper {| e_ephemeral := e; e_quorum := q; e_manifest := f; e_pivot := p; e_socket := a |}
             | _ => TaskPanics
             end
      | _, _, _, _ => TaskPanics
      end
  end.

(** ** Temporary files *)
(** split after the last '/' *)
Fixpoint split_dir (p : bytes) : bytes * bytes :=
  match p with
  | [] => ([], [])
  | c :: r => let d := split_dir r in
              match fst d with
              | [] => if byte_eqb c "/" then ([c], snd d) else ([], c :: snd d)
              | _ => (c :: fst d, snd d)
              end
  end.
(** split before the last '.' *)
Fixpoint split_ext (n : bytes) : option (bytes * bytes) :=
  match n with
  | [] => None
  | c :: r => match split_ext r with
              | Some (a, e) => Some (c :: a, e)
              | None => if byte_eqb c "." then Some ([], r) else None
              end
  end.
(** [PathBuf::with_extension("tmp")] (std), used at handles.rs:317.
    Simplification: for paths whose last component is an ordinary name. *)
Definition tmp_path (p : bytes) : bytes :=
  let (d, n) := split_dir p in
  match split_ext n with
  | Some ([], _) | None => d ++ n ++ bs ".tmp"
  | Some (stem, _) => d ++ stem ++ bs ".tmp"
  end.
