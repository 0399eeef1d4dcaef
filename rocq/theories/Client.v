(** The operator's command line client, off-line part: reading key sets and
    release files, asking the operator, writing and approving manifests,
    collecting approvals, re-encrypting shares, checking a genesis ceremony.
    Models /repo/src/qos_client/src/cli/services.rs.

    Simplifications, all over this file:
    - a file argument is its contents, [None] when it cannot be read; a
      directory argument is the list of its entries in the order the operating
      system returns them (names that are not UTF-8 are not modelled);
    - [None] as a result means the command ends in an error, a panic or
      exit(1); the files a command writes are part of its result and are written
      only after all checks (in the code, too, every write comes last), so [None]
      writes nothing; failures of the writes themselves are not modelled;
    - keys come from a secret file ([PairOrYubi::Pair]); YubiKeys are in Yubi.v;
    - the text of a question to the operator is the structured value [question]
      (the Rust code prints it through [Display]/[Debug] formatting). *)
From Verif Require Import Base Utf8 Hex Borsh Json Types TypesBorsh TypesJson Msg World Attest Services Builder CliParser.
Local Open Scope N_scope.

Definition file := option bytes.
Definition dir := list (bytes * file).

(** ** Text *)
(** [str::split] on one ASCII character *)
Fixpoint split_on (c : byte) (l : bytes) : list bytes :=
  match l with
  | [] => [[]]
  | x :: r => if byte_eqb x c then [] :: split_on c r
              else match split_on c r with w :: ws => (x :: w) :: ws | [] => [[x]] end
  end.
(** [BufRead::read_line]: up to and including the next newline, and the rest *)
Fixpoint cut_line (l : bytes) : bytes * bytes :=
  match l with
  | [] => ([], [])
  | x :: r => if byte_eqb x x0a then ([x], r) else let '(a, b) := cut_line r in (x :: a, b)
  end.
(** [BufRead::lines] removes a final "\n" or "\r\n" from each line *)
Definition chomp (l : bytes) : bytes :=
  match rev l with
  | x :: y :: r => if byte_eqb x x0a then (if byte_eqb y x0d then rev r else rev (y :: r)) else l
  | [x] => if byte_eqb x x0a then [] else l
  | [] => []
  end.
Fixpoint raw_lines (fuel : nat) (l : bytes) : list bytes :=
  match fuel, l with
  | S f, _ :: _ => let '(a, b) := cut_line l in chomp a :: raw_lines f b
  | _, _ => []
  end.
(** All lines of a file; [None] when one of them is not UTF-8 *)
Definition lines_of (l : bytes) : option (list bytes) :=
  let ls := raw_lines (length l) l in
  if forallb utf8_valid ls then Some ls else None.
(** The first line alone (later lines are not read) *)
Definition first_line (l : bytes) : option bytes :=
  match l with [] => None | _ => let a := chomp (fst (cut_line l)) in if utf8_valid a then Some a else None end.
(** [str::trim] on bytes holding UTF-8 *)
Definition trim_text (l : bytes) : option bytes := let? cs := utf8_dec l in Some (utf8_enc (trim cs)).

Fixpoint mapM {A B} (f : A -> option B) (l : list A) : option (list B) :=
  match l with [] => Some [] | a :: r => let? b := f a in let? bs := mapM f r in Some (b :: bs) end.

(** ** Directories *)
(** services.rs:2221-2242 find_file_paths *)
Definition find_file_paths (d : dir) : dir := filter (fun e => negb (starts_with (bs "._") (fst e))) d.
(** services.rs:2642-2647 split_file_name *)
Definition split_file_name (n : bytes) : list bytes := split_on "."%byte n.
Definition last_is (ext : bytes) (ws : list bytes) : bool := bytes_eqb (last ws []) ext.
Definition PUB_EXT : bytes := bs "pub".
Definition APPROVAL_EXT : bytes := bs "approval".
Definition QUORUM_THRESHOLD_FILE : bytes := bs "quorum_threshold".
Definition with_ext (ext : bytes) (d : dir) : dir :=
  filter (fun e => last_is ext (split_file_name (fst e))) (find_file_paths d).

(** services.rs:2244-2284 find_threshold *)
Definition read_threshold (f : file) : option N :=
  let? c := f in let? l := first_line c in let? t := trim_text l in parse_unsigned 4294967296 t.
Definition find_threshold (d : dir) : option N :=
  let? ts := mapM (fun e => read_threshold (snd e))
               (filter (fun e => match split_file_name (fst e) with [w] => bytes_eqb w QUORUM_THRESHOLD_FILE | _ => false end)
                  (find_file_paths d)) in
  match ts with [t] => Some t | _ => None end.

(** MemberPubKey's derived [Ord]: byte-lexicographic on the key *)
Definition key_leb (a b : bytes) : bool := match bytes_cmp a b with Gt => false | _ => true end.
Fixpoint insert_key (m : bytes) (l : list bytes) : list bytes :=
  match l with [] => [m] | x :: r => if key_leb m x then m :: l else x :: insert_key m r end.
Fixpoint sort_keys (l : list bytes) : list bytes :=
  match l with [] => [] | m :: r => insert_key m (sort_keys r) end.

(** ** Questions to the operator *)
Inductive question :=
| QVersion (label : bytes) | QName (n : bytes) | QNonce (n : N) | QRestart (r : restart_policy)
| QArgs (l : list bytes) | QDebug (b : bool) | QBridge (l : list bridge_config) | QDns (d : option dns_config)
| QRole (pcr3_preimage : bytes) | QApprovers (aliases : list bytes).

(** services.rs:2691-2696 Prompter::prompt: one line of input, trimmed.  At the
    end of the input the answer is empty. *)
Definition prompt (inp : bytes) : option (bytes * bytes) :=
  let '(l, rest) := cut_line inp in let? t := trim_text l in Some (t, rest).
Definition YES : list bytes := map bs ["yes"; "Yes"; "YES"; "Y"; "y"]%string.
Definition NO : list bytes := map bs ["no"; "No"; "NO"; "N"; "n"]%string.
(** services.rs:2698-2720 prompt_is_yes *)
Fixpoint prompt_loop (attempts : nat) (inp : bytes) : option (bool * bytes) :=
  match attempts with
  | O => Some (false, inp)
  | S n =>
    let? p := prompt inp in
    let '(a, rest) := p in
    if memb bytes_eqb a YES then Some (true, rest)
    else if memb bytes_eqb a NO then Some (false, rest)
    else prompt_loop n rest
  end.
Definition prompt_is_yes (inp : bytes) : option (bool * bytes) := prompt_loop 3 inp.
(** A sequence of questions, stopping at the first that is not confirmed.  The
    result is the list of questions put to the operator, and whether all were confirmed. *)
Fixpoint ask_all (qs : list question) (inp : bytes) : list question * bool :=
  match qs with
  | [] => ([], true)
  | q :: r => match prompt_is_yes inp with
              | Some (true, rest) => let '(asked, ok) := ask_all r rest in (q :: asked, ok)
              | _ => ([q], false)
              end
  end.

(** services.rs:1148-1258 approve_manifest_human_verifications.  V0 and V1
    manifests have no DNS configuration. *)
Definition version_label (m : versioned_manifest) : bytes :=
  match m with VM2 _ => bs "v2" | VM1 _ => bs "v1" | VM0 _ => bs "v0" end.
Definition approve_questions (m : versioned_manifest) : list question :=
  [QVersion (version_label m); QName (ns_name (vm_namespace m)); QNonce (ns_nonce (vm_namespace m));
   QRestart (vm_restart m); QArgs (vm_args m); QDebug (vm_debug m); QBridge (vm_bridge m)]
  ++ match m with VM2 x => [QDns (mf2_dns x)] | _ => [] end.

(** ** Release files *)
(** services.rs:2537-2553 lines_to_entries *)
Definition lines_to_entries (f : file) : option (list (bytes * bytes)) :=
  let? c := f in let? ls := lines_of c in
  mapM (fun l => match split_on " "%byte l with [a; b] => Some (a, b) | _ => None end) ls.
(** services.rs:2561-2570 get_entry *)
Definition get_entry (es : list (bytes * bytes)) (i : nat) (label : bytes) : option bytes :=
  let? e := nth_error es i in if bytes_eqb (snd e) label then ok_opt (decode (fst e)) else None.
(** services.rs:2572-2581 extract_qos_pcrs *)
Definition extract_qos_pcrs (pcrs : file) : option (bytes * bytes * bytes) :=
  let? es := lines_to_entries pcrs in
  let? p0 := get_entry es 0 (bs "PCR0") in let? p1 := get_entry es 1 (bs "PCR1") in
  let? p2 := get_entry es 2 (bs "PCR2") in Some (p0, p1, p2).
(** services.rs:2583-2591 find_pcr3 *)
Definition find_pcr3 (f : file) : option bytes :=
  let? c := f in let? ls := lines_of c in nth_error ls 0.
(** services.rs:2623-2632 extract_pivot_hash *)
Definition extract_pivot_hash (f : file) : option bytes :=
  let? c := f in let? ls := lines_of c in let? l := nth_error ls 0 in ok_opt (decode l).
(** services.rs:2439-2444, 2480-2488 *)
Definition read_manifest_compat (f : file) : option versioned_manifest :=
  let? c := f in manifest_try_from_slice_compat c.
Definition read_manifest_envelope_compat (f : file) : option versioned_envelope :=
  let? c := f in envelope_try_from_slice_compat c.

Section Client.
  Context (Y : sys).

  (** qos_p256/src/lib.rs:461-473 P256Public::from_hex_file *)
  Definition public_from_hex_file (f : file) : option (bytes * bytes) :=
    let? c := f in let? b := ok_opt (decode_from_vec c) in ok_opt (public_from_bytes Y b).
  (** services.rs:249-252 and qos_p256/src/lib.rs:303-318: the personal key, as its seed and public keys *)
  Definition read_pair (f : file) : option (bytes * (bytes * bytes)) :=
    let? c := f in let? seed := seed_of_hex c in let? k := ok_opt (from_master_seed Y seed) in Some (seed, k).

  (** services.rs:2286-2313 get_share_set, :2315-2342 get_manifest_set, :2369-2398 get_genesis_set *)
  Definition read_member (e : bytes * file) : option quorum_member :=
    let? k := public_from_hex_file (snd e) in
    Some (QuorumMember (hd [] (split_file_name (fst e))) (public_to_bytes k)).
  Definition get_members (d : dir) : option (list quorum_member) :=
    let? ms := mapM read_member (with_ext PUB_EXT d) in Some (sort_members ms).
  Definition get_set (d : dir) : option member_set :=
    let? ms := get_members d in let? t := find_threshold d in Some (MemberSet t ms).
  Definition get_genesis_set (d : dir) : option genesis_set :=
    let? ms := get_members d in let? t := find_threshold d in Some (GenesisSet ms t).
  (** services.rs:2344-2367 get_patch_set *)
  Definition get_patch_set (d : dir) : option patch_set :=
    let? ms := mapM (fun e => let? k := public_from_hex_file (snd e) in Some (public_to_bytes k)) (with_ext PUB_EXT d) in
    let? t := find_threshold d in Some (PatchSet t (sort_keys ms)).

  (** services.rs:2593-2602 pcr3_from_preimage, :2604-2606 extract_pcr3 *)
  Definition pcr3_from_preimage (role : bytes) : bytes := s_sha384 Y (repeat x00 48 ++ role).
  Definition extract_pcr3 (f : file) : option bytes := let? r := find_pcr3 f in Some (pcr3_from_preimage r).
  (** services.rs:943-963 extract_nitro_config.  The root certificate is the one
      compiled in (the same constant as the enclave's). *)
  Definition extract_nitro_config (pcrs pcr3_preimage : file) : option nitro_config :=
    let? p3 := extract_pcr3 pcr3_preimage in
    let? p := extract_qos_pcrs pcrs in
    let '(p0, p1, p2) := p in Some (NitroConfig p0 p1 p2 p3 (s_root Y) []).

  (** ** Writing a manifest *)
  Record generate_args := GenerateArgs {
    ga_nonce : N; ga_namespace : bytes; ga_restart : restart_policy; ga_args : list bytes;
    ga_bridge : list bridge_config; ga_dns : option (list ip_addr); ga_debug : bool;
    ga_pivot_hash : file; ga_pcrs : file; ga_pcr3 : file; ga_quorum_key : file;
    ga_manifest_set : dir; ga_share_set : dir; ga_patch_set : option dir }.

  Definition setters_common (a : generate_args) (v : manifest_version) (h k : bytes) (ms ss : member_set) : list setter :=
    [SVersion v; SNamespace (Namespace (ga_namespace a) (ga_nonce a) k); SHash h; SRestart (ga_restart a);
     SArgs (ga_args a); SBridge (ga_bridge a); SDebug (ga_debug a); SManifestSet ms; SShareSet ss].

  (** services.rs:810-877 generate_manifest *)
  Definition generate_manifest (a : generate_args) : option bytes :=
    match ga_dns a with
    | Some _ => None
    | None =>
      let? nc := extract_nitro_config (ga_pcrs a) (ga_pcr3 a) in
      let? h := extract_pivot_hash (ga_pivot_hash a) in
      let? ms := get_set (ga_manifest_set a) in
      let? ss := get_set (ga_share_set a) in
      let? pd := ga_patch_set a in
      let? ps := get_patch_set pd in
      let? k := public_from_hex_file (ga_quorum_key a) in
      if negb (lenN h =? 32) then None
      else let? m := ok_opt (build (fold_left apply_setter
                       (setters_common a MV1 h (public_to_bytes k) ms ss ++ [SPatchSet ps; SEnclave nc]) builder_new)) in
           manifest_to_storage_vec m
    end.

  (** services.rs:879-941 generate_manifest_v2.  [qos_json::to_vec] of the untagged
      VersionedManifest: canonical JSON of whichever schema was built. *)
  Definition manifest_canonical (m : versioned_manifest) : option bytes :=
    match m with
    | VM2 x => Json.canon (jser js_manifest_v2 x)
    | VM1 x => Json.canon (jser js_manifest x)
    | VM0 x => Json.canon (jser js_manifest_v0 x) end.
  Definition generate_manifest_v2 (a : generate_args) : option bytes :=
    match ga_patch_set a with
    | Some _ => None
    | None =>
      let? nc := extract_nitro_config (ga_pcrs a) (ga_pcr3 a) in
      let? h := extract_pivot_hash (ga_pivot_hash a) in
      let? ms := get_set (ga_manifest_set a) in
      let? ss := get_set (ga_share_set a) in
      let? k := public_from_hex_file (ga_quorum_key a) in
      if negb (lenN h =? 32) then None
      else let? m := ok_opt (build (fold_left apply_setter
                       (setters_common a MV2 h (public_to_bytes k) ms ss ++ [SEnclave nc]
                        ++ match ga_dns a with Some r => [SDns (DnsConfig r)] | None => [] end) builder_new)) in
           manifest_canonical m
    end.

  (** ** Approving a manifest *)
  (** derived [PartialEq] *)
  Definition members_eqb : list quorum_member -> list quorum_member -> bool := list_eqb member_eqb.
  Definition set_eqb (a b : member_set) : bool := N.eqb (threshold a) (threshold b) && members_eqb (members a) (members b).
  Definition patch_eqb (a b : patch_set) : bool :=
    N.eqb (ps_threshold a) (ps_threshold b) && list_eqb bytes_eqb (ps_members a) (ps_members b).
  Definition patch_matches (p : patch_set) (o : option patch_set) : bool :=
    match o with Some q => patch_eqb p q | None => false end.

  (** services.rs:1076-1146 approve_manifest_programmatic_verifications *)
  Definition approve_checks (m : versioned_manifest) (ms ss : member_set) (ps : option patch_set) (nc : nitro_config)
    (h : bytes) (k : bytes * bytes) : bool :=
    set_eqb (vm_manifest_set m) ms && set_eqb (vm_share_set m) ss
    && match m with
       | VM2 _ => true
       | VM1 x => patch_matches (mf_patch_set x) ps
       | VM0 x => patch_matches (mf0_patch_set x) ps
       end
    && nitro_eqb (vm_enclave m) nc && bytes_eqb (vm_pivot_hash m) h
    && bytes_eqb (ns_quorum_key (vm_namespace m)) (public_to_bytes k).

  Record approve_args := ApproveArgs {
    aa_secret : file; aa_manifest : file; aa_pcrs : file; aa_pcr3 : file; aa_pivot_hash : file; aa_quorum_key : file;
    aa_manifest_set : dir; aa_share_set : dir; aa_patch_set : option dir; aa_alias : bytes;
    aa_auto : bool; aa_stdin : bytes }.

  (** [str::replace('/', "-")] *)
  Definition dashed (n : bytes) : bytes := map (fun b => if byte_eqb b "/" then "-"%byte else b) n.
  (** services.rs:1056-1062 *)
  Definition approval_name (alias : bytes) (m : versioned_manifest) : bytes :=
    alias ++ "-"%byte :: dashed (ns_name (vm_namespace m)) ++ "-"%byte :: print_N (ns_nonce (vm_namespace m))
    ++ "."%byte :: APPROVAL_EXT.

  (** services.rs:980-1074 approve_manifest: the questions put to the operator
      and the file written (name within the approvals directory, contents). *)
  Definition approve_manifest (a : approve_args) : list question * option (bytes * bytes) :=
    match
      (let? kp := read_pair (aa_secret a) in
       let? m := read_manifest_compat (aa_manifest a) in
       let? k := public_from_hex_file (aa_quorum_key a) in
       let? ps := match m, aa_patch_set a with
                  | VM2 _, Some _ => None
                  | VM2 _, None => Some None
                  | _, Some d => let? p := get_patch_set d in Some (Some p)
                  | _, None => None
                  end in
       let? ms := get_set (aa_manifest_set a) in
       let? ss := get_set (aa_share_set a) in
       let? nc := extract_nitro_config (aa_pcrs a) (aa_pcr3 a) in
       let? h := extract_pivot_hash (aa_pivot_hash a) in
       if approve_checks m ms ss ps nc h k then Some (kp, m) else None)
    with
    | None => ([], None)
    | Some (kp, m) =>
      let '(asked, ok) := if aa_auto a then ([], true) else ask_all (approve_questions m) (aa_stdin a) in
      if negb ok then (asked, None)
      else let ap := Approval (s_sign Y (fst kp) (manifest_hash Y m))
                       (QuorumMember (aa_alias a) (public_to_bytes (snd kp))) in
           (asked, Some (approval_name (aa_alias a) m, write (jser js_approval ap)))
    end.

  (** ** Collecting approvals *)
  (** services.rs:2400-2437 find_approvals *)
  Definition read_approval (m : versioned_manifest) (e : bytes * file) : option approval :=
    let? c := snd e in let? a := json_from_slice js_approval c in
    if memb member_eqb (ap_member a) (members (vm_manifest_set m)) then
      let? k := ok_opt (public_from_bytes Y (m_pub_key (ap_member a))) in
      if s_verify Y (snd k) (manifest_hash Y m) (ap_signature a) then Some a else None
    else None.
  Definition find_approvals (d : dir) (m : versioned_manifest) : option (list approval) :=
    let? l := mapM (read_approval m) (with_ext APPROVAL_EXT d) in
    if threshold (vm_manifest_set m) <=? lenN l then Some l else None.
  Definition envelope_of (m : versioned_manifest) (l : list approval) : versioned_envelope :=
    match m with
    | VM2 x => VE2 (ManifestEnvelopeV2 x l [])
    | VM1 x => VE1 (ManifestEnvelope x l [])
    | VM0 x => VE0 (ManifestEnvelopeV0 x l []) end.
  (** services.rs:1260-1310 generate_manifest_envelope *)
  Definition generate_manifest_envelope (approvals : dir) (manifest : file) : option bytes :=
    let? m := read_manifest_compat manifest in
    let? l := find_approvals approvals m in
    let e := envelope_of m l in
    if is_ok (check_approvals Y e) then envelope_to_storage_vec e else None.

  (** ** Attestation documents *)
  (** services.rs:2640-2668 extract_attestation_doc; [now] is the validation time in seconds *)
  Definition extract_attestation_doc (cose : bytes) (skip : bool) (now : N) : option att_doc :=
    if skip then s_doc Y cose else ok_opt (attestation_doc_from_der Y cose (s_root Y) now).
  (** services.rs:2608-2621 check_pcr3_preimage_against_manifest *)
  Definition pcr3_preimage_ok (role : bytes) (m : versioned_manifest) : bool :=
    bytes_eqb (pcr3_from_preimage role) (pcr3 (vm_enclave m)).
  (** nitro/mod.rs:263-275 verify_attestation_doc_against_manifest_setup, called with the manifest's own values *)
  Definition doc_is_setup_of (d : att_doc) (m : versioned_manifest) : bool :=
    is_ok (verify_against_manifest Y Setup d (manifest_hash Y m) (pcr0 (vm_enclave m)) (pcr1 (vm_enclave m))
             (pcr2 (vm_enclave m)) (pcr3 (vm_enclave m))).

  (** ** Re-encrypting a share to an enclave *)
  Record proxy_args := ProxyArgs {
    pa_secret : file; pa_share : file; pa_doc : file; pa_pcr3 : file; pa_envelope : file; pa_manifest_set : dir;
    pa_alias : bytes; pa_skip : bool; pa_eph_override : option file; pa_auto : bool; pa_stdin : bytes; pa_now : N;
    pa_rng : bytes (* randomness of the encryption *) }.

  (** services.rs:1704-1733 proxy_re_encrypt_share_programmatic_verifications *)
  Definition proxy_checks (e : versioned_envelope) (ms : member_set) (mem : quorum_member) : bool :=
    is_ok (check_approvals Y e) && set_eqb (vm_manifest_set (env_manifest e)) ms
    && memb member_eqb mem (members (vm_share_set (env_manifest e))).

  (** services.rs:1735-1797 proxy_re_encrypt_share_human_verifications; the code sorts the
      texts "\talias: <alias>", whose order is that of the aliases. *)
  Definition proxy_questions (e : versioned_envelope) (role : bytes) : list question :=
    [QName (ns_name (vm_namespace (env_manifest e))); QNonce (ns_nonce (vm_namespace (env_manifest e))); QRole role;
     QApprovers (sort_keys (map (fun a => m_alias (ap_member a)) (env_manifest_approvals e)))].

  (** services.rs:1588-1702 proxy_re_encrypt_share: the questions asked, and the
      two files written (approval, re-encrypted share). *)
  Definition proxy_re_encrypt_share (a : proxy_args) : list question * option (bytes * bytes) :=
    match
      (let? kp := read_pair (pa_secret a) in
       let? e := read_manifest_envelope_compat (pa_envelope a) in
       let? cose := pa_doc a in
       let? d := extract_attestation_doc cose (pa_skip a) (pa_now a) in
       let? share := pa_share a in
       let? role := find_pcr3 (pa_pcr3 a) in
       let m := env_manifest e in
       if pa_skip a || (pcr3_preimage_ok role m && doc_is_setup_of d m) then
         let? eph := match pa_eph_override a with
                     | Some f => let? p := read_pair f in Some (snd p)
                     | None => let? pk := ad_public_key d in ok_opt (public_from_bytes Y pk)
                     end in
         let mem := QuorumMember (pa_alias a) (public_to_bytes (snd kp)) in
         let? ms := get_set (pa_manifest_set a) in
         if proxy_checks e ms mem then Some (kp, e, share, role, eph, mem) else None
       else None)
    with
    | None => ([], None)
    | Some (kp, e, share, role, eph, mem) =>
      let '(asked, ok) := if pa_auto a then ([], true) else ask_all (proxy_questions e role) (pa_stdin a) in
      (asked,
       if negb ok then None
       else let? plain := ok_opt (s_decrypt Y (fst kp) share) in
            let? c := ok_opt (s_encrypt Y (fst eph) (pa_rng a) plain) in
            Some (write (jser js_approval (Approval (s_sign Y (fst kp) (manifest_hash Y (env_manifest e))) mem)), c))
    end.

  (** services.rs:1799-1822 post_share: the request that is sent *)
  Definition share_request (share approval : file) : option msg :=
    let? s := share in let? c := approval in let? a := json_from_slice js_approval c in Some (ProvisionRequest s a).

  (** ** Genesis *)
  Definition gset_eqb (a b : genesis_set) : bool :=
    members_eqb (gs_members a) (gs_members b) && N.eqb (gs_threshold a) (gs_threshold b).
  Definition genesis_hash (o : genesis_output) : bytes := s_sha256 Y (enc c_genesis_output o).
  (** services.rs:491-611 boot_genesis, first half: the request *)
  Definition genesis_request (share_set : dir) (dr_key : option file) : option msg :=
    let? set := get_genesis_set share_set in
    let? dr := match dr_key with Some f => let? k := public_from_hex_file f in Some (Some (public_to_bytes k)) | None => Some None end in
    Some (BootGenesisRequest set dr).
  (** services.rs:527-611, second half: checks of the response; the genesis
      output and the COSE document are what the command writes. *)
  Definition genesis_accept (set : genesis_set) (dr : option bytes) (resp : msg) (pcrs pcr3_preimage : file)
    (skip : bool) (now : N) : option (genesis_output * bytes) :=
    match resp with
    | BootGenesisResponse (RAttestation cose) o =>
      if negb (gset_eqb (go_set o) set && option_eqb bytes_eqb (go_dr_key o) dr) then None
      else let? k := ok_opt (public_from_bytes Y (go_quorum_key o)) in
      let? d := extract_attestation_doc cose skip now in
      let? p := extract_qos_pcrs pcrs in
      let '(p0, p1, p2) := p in
      if negb (lenN (gs_members set) =? lenN (go_member_outputs o)) then None
      else if negb (forallb (fun mo => memb member_eqb (gm_member mo) (gs_members set)) (go_member_outputs o)) then None
      else if skip then Some (o, cose)
      else let? p3 := extract_pcr3 pcr3_preimage in
           if is_ok (verify_user_input d (genesis_hash o) p0 p1 p2 p3) then Some (o, cose) else None
    | _ => None
    end.

  (** services.rs:697-783 after_genesis: the encrypted share that is stored *)
  Definition after_genesis (secret : file) (alias : bytes) (output doc pcrs pcr3_preimage : file) (skip : bool) (now : N)
    : option bytes :=
    let? kp := read_pair secret in
    let? p := extract_qos_pcrs pcrs in
    let '(p0, p1, p2) := p in
    let? cose := doc in
    let? d := extract_attestation_doc cose skip now in
    let? c := output in
    let? o := from_slice c_genesis_output c in
    let ok := if skip then Some tt
              else let? p3 := extract_pcr3 pcr3_preimage in
                   if is_ok (verify_user_input d (genesis_hash o) p0 p1 p2 p3) then Some tt else None in
    let? _ := ok in
    let? mo := find (fun mo => bytes_eqb (m_pub_key (gm_member mo)) (public_to_bytes (snd kp))
                               && bytes_eqb (m_alias (gm_member mo)) alias) (go_member_outputs o) in
    let? plain := ok_opt (s_decrypt Y (fst kp) (gm_share mo)) in
    if bytes_eqb (s_sha512 Y plain) (gm_share_hash mo) then Some (gm_share mo) else None.

  (** services.rs:613-683 verify_genesis: [Some tt] = successful *)
  Definition verify_genesis (output seed_file : file) : option unit :=
    let? c := output in
    let? o := from_slice c_genesis_output c in
    let? hex := seed_file in
    if negb (utf8_valid hex) then None else
    let? kp := read_pair (Some hex) in
    if negb (bytes_eqb (encode (fst kp)) hex) then None
    else if negb (bytes_eqb (s_sha512 Y hex) (go_quorum_key_hash o)) then None
    else if negb (s_verify Y (snd (snd kp)) (go_test_message o) (go_test_signature o)) then None
    else if negb (bytes_eqb (s_sign Y (fst kp) (go_test_message o)) (go_test_signature o)) then None
    else let? plain := ok_opt (s_decrypt Y (fst kp) (go_test_ciphertext o)) in
         if bytes_eqb plain (go_test_message o) then Some tt else None.
End Client.
