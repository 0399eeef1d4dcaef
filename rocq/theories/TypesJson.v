(** serde_json codecs of the manifest types (derive macros in boot.rs,
    boot/manifest/v2.rs, boot/env.rs) and the storage encoding
    (manifest.rs:52-67, 237-291, 472-512).

    A decoder receives the remaining recursion budget [d] and the lenient parse
    of its part of the document (Json.v).  serde behaviour modelled: structs
    from objects (known fields at most once, unknown fields skipped or refused,
    missing fields an error or the default) and from positional arrays; unit
    enum variants as a string or a one-member object holding null; the
    internally tagged [BridgeConfig] through serde's buffered content (hence
    strict). *)
From Verif Require Import Base Utf8 Hex Json Types TypesBorsh Env.
Local Open Scope N_scope.

Record jcodec (A : Type) := JCodec {
  jser : A -> json;
  jdec : nat -> json -> option A;
  jwf : A -> bool;
  jneed : nat
}.
Arguments JCodec {A}.
Arguments jser {A}.
Arguments jdec {A}.
Arguments jwf {A}.
Arguments jneed {A}.

(** ** Leaves *)
(** String *)
Definition js_string : jcodec bytes :=
  JCodec str (fun _ j => match j with JStr (Some s) => Some s | _ => None end) utf8_valid 0.

(** #[serde(with = "qos_hex::serde")] on Vec<u8>: qos_hex/src/lib.rs:238-330 *)
Definition ok_opt {E A} (r : result E A) : option A := match r with Ok a => Some a | Err _ => None end.
Definition js_hex : jcodec bytes :=
  JCodec (fun b => str (encode b))
         (fun _ j => match j with JStr (Some s) => ok_opt (decode s) | _ => None end)
         (fun b => 2 * lenN b <? STR_MAX_LENGTH) 0.

(** #[serde(with = "qos_hex::serde")] on [u8; n] *)
Definition js_hex_n (n : N) : jcodec bytes :=
  JCodec (fun b => str (encode b))
         (fun _ j => match j with JStr (Some s) => ok_opt (decode_to_buf s n) | _ => None end)
         (fun b => lenN b =? n) 0.

(** #[serde(with = "qos_json::string_or_numeric")] on an unsigned type:
    qos_json/src/lib.rs:283-316.  A float prints with '.' or 'e', which
    [FromStr] refuses; other kinds of value are refused outright. *)
Definition js_uint (limit : N) : jcodec N :=
  JCodec (fun n => JInt (Z.of_N n))
         (fun _ j => match j with
                     | JStr (Some s) => parse_unsigned limit s
                     | JInt z => parse_unsigned limit (print_Z z)
                     | _ => None end)
         (fun n => (n <? limit) && (limit <=? U64_LIMIT)) 0.
Definition js_u16 := js_uint 65536.
Definition js_u32 := js_uint 4294967296.

Definition js_bool : jcodec bool :=
  JCodec JBool (fun _ j => match j with JBool b => Some b | _ => None end) (fun _ => true) 0.

(** ** Vec<T> *)
Definition js_vec {A} (c : jcodec A) : jcodec (list A) :=
  JCodec (fun l => JArr (map (jser c) l))
         (fun d j => match d with
                     | S (S d' as d1) =>
                       match j with JArr l => oseq (map (jdec c d1) l) | _ => None end
                     | _ => None end)
         (forallb (jwf c)) (Nat.max 2 (S (jneed c))).

(** ** Structs *)
Definition okey_in (names : list bytes) (o : option bytes) : bool :=
  match o with Some k => existsb (bytes_eqb k) names | None => false end.
Definition count_key {A} (k : bytes) (m : list (option bytes * A)) : nat :=
  length (filter (fun p => okey_eqb k (fst p)) m).

(** The values of the named fields, in the order of [names]. *)
Definition dec_struct (names : list bytes) (deny : bool) (d : nat) (j : json) : option (list (option json)) :=
  match d with
  | S (S _) =>
    match j with
    | JObj m =>
      if forallb (fun p => is_some (fst p)) m
         && forallb (fun n => (count_key n m <=? 1)%nat) names
         && (negb deny || forallb (fun p => okey_in names (fst p)) m)
      then Some (map (fun n => find_last n m) names)
      else None
    | JArr l =>
      if (length l <=? length names)%nat
      then Some (map Some l ++ repeat None (length names - length l))
      else None
    | _ => None
    end
  | _ => None
  end.

Definition ser_struct (fields : list (bytes * option json)) : json :=
  JObj (flat_map (fun f => match snd f with Some v => [(Some (fst f), v)] | None => [] end) fields).

Definition req {A} (c : jcodec A) (d : nat) (o : option json) : option A :=
  match o with Some j => jdec c (pred d) j | None => None end.

(** ** Unit enum variants *)
Definition enum_text (j : json) (d : nat) : option bytes :=
  match j with
  | JStr (Some s) => Some s
  | JObj [(Some k, JNull)] => match d with S (S _) => Some k | _ => None end
  | _ => None
  end.

(** boot.rs:91-109: no rename, so "Never" / "Always" *)
Definition js_restart : jcodec restart_policy :=
  JCodec (fun r => match r with Never => str (bs "Never") | Always => str (bs "Always") end)
         (fun d j => match enum_text j d with
                     | Some s => if bytes_eqb s (bs "Never") then Some Never
                                 else if bytes_eqb s (bs "Always") then Some Always else None
                     | None => None end)
         (fun _ => true) 0.

(** boot.rs:131-166: #[serde(tag = "type", rename_all = "camelCase")].
    Buffered through serde's Content: the whole value must be strict. *)
Definition K_type := bs "type".
Definition K_port := bs "port".
Definition K_host := bs "host".
Definition dec_bridge_fields (tag : bytes) (fs : option (list (option json))) : option bridge_config :=
  match fs with
  | Some [p; h] =>
    let? port := req js_u16 0 p in
    if bytes_eqb tag (bs "server") then
      let? host := req js_string 0 h in Some (BServer port host)
    else if bytes_eqb tag (bs "client") then
      match h with
      | None | Some JNull => Some (BClient port None)
      | Some hj => let? host := jdec js_string 0 hj in Some (BClient port (Some host))
      end
    else None
  | _ => None
  end.
Definition js_bridge : jcodec bridge_config :=
  JCodec (fun b => match b with
                   | BServer p h => ser_struct [(K_type, Some (str (bs "server"))); (K_port, Some (jser js_u16 p)); (K_host, Some (jser js_string h))]
                   | BClient p h => ser_struct [(K_type, Some (str (bs "client"))); (K_port, Some (jser js_u16 p));
                                                (K_host, match h with Some x => Some (jser js_string x) | None => None end)]
                   end)
         (fun d j =>
            if strict d j then
              match j with
              | JObj m =>
                if (count_key K_type m =? 1)%nat then
                  match find_last K_type m with
                  | Some (JStr (Some tag)) =>
                    dec_bridge_fields tag
                      (dec_struct [K_port; K_host] false 2
                         (JObj (filter (fun p => negb (okey_eqb K_type (fst p))) m)))
                  | _ => None
                  end
                else None
              | JArr (JStr (Some tag) :: l) => dec_bridge_fields tag (dec_struct [K_port; K_host] false 2 (JArr l))
              | _ => None
              end
            else None)
         (fun b => match b with
                   | BServer p h => jwf js_u16 p && utf8_valid h
                   | BClient p h => jwf js_u16 p && match h with Some x => utf8_valid x | None => true end end)
         2.

(** ** The structs of boot.rs (rename_all = "camelCase") *)
Definition js_nitro : jcodec nitro_config :=
  JCodec (fun n => ser_struct [(bs "pcr0", Some (jser js_hex (pcr0 n))); (bs "pcr1", Some (jser js_hex (pcr1 n)));
                               (bs "pcr2", Some (jser js_hex (pcr2 n))); (bs "pcr3", Some (jser js_hex (pcr3 n)));
                               (bs "awsRootCertificate", Some (jser js_hex (aws_root_certificate n)));
                               (bs "qosCommit", Some (jser js_string (qos_commit n)))])
         (fun d j =>
            match dec_struct [bs "pcr0"; bs "pcr1"; bs "pcr2"; bs "pcr3"; bs "awsRootCertificate"; bs "qosCommit"] false d j with
            | Some [a; b; c; e; f; g] =>
              let? a := req js_hex d a in let? b := req js_hex d b in let? c := req js_hex d c in
              let? e := req js_hex d e in let? f := req js_hex d f in let? g := req js_string d g in
              Some (NitroConfig a b c e f g)
            | _ => None end)
         (fun n => jwf js_hex (pcr0 n) && jwf js_hex (pcr1 n) && jwf js_hex (pcr2 n) && jwf js_hex (pcr3 n)
                   && jwf js_hex (aws_root_certificate n) && jwf js_string (qos_commit n)) 2.

Definition js_pivot : jcodec pivot_config :=
  JCodec (fun p => ser_struct [(bs "hash", Some (jser (js_hex_n 32) (pv_hash p))); (bs "restart", Some (jser js_restart (pv_restart p)));
                               (bs "bridgeConfig", Some (jser (js_vec js_bridge) (pv_bridge p)));
                               (bs "debugMode", Some (jser js_bool (pv_debug p)));
                               (bs "args", Some (jser (js_vec js_string) (pv_args p)))])
         (fun d j =>
            match dec_struct [bs "hash"; bs "restart"; bs "bridgeConfig"; bs "debugMode"; bs "args"] false d j with
            | Some [a; b; c; e; f] =>
              let? a := req (js_hex_n 32) d a in let? b := req js_restart d b in
              let? c := req (js_vec js_bridge) d c in let? e := req js_bool d e in
              let? f := req (js_vec js_string) d f in
              Some (PivotConfig a b c e f)
            | _ => None end)
         (fun p => jwf (js_hex_n 32) (pv_hash p) && jwf (js_vec js_bridge) (pv_bridge p) && jwf (js_vec js_string) (pv_args p)) 4.

Definition js_pivot_v0 : jcodec pivot_config_v0 :=
  JCodec (fun p => ser_struct [(bs "hash", Some (jser (js_hex_n 32) (pv0_hash p))); (bs "restart", Some (jser js_restart (pv0_restart p)));
                               (bs "args", Some (jser (js_vec js_string) (pv0_args p)))])
         (fun d j =>
            match dec_struct [bs "hash"; bs "restart"; bs "args"] false d j with
            | Some [a; b; f] =>
              let? a := req (js_hex_n 32) d a in let? b := req js_restart d b in
              let? f := req (js_vec js_string) d f in
              Some (PivotConfigV0 a b f)
            | _ => None end)
         (fun p => jwf (js_hex_n 32) (pv0_hash p) && jwf (js_vec js_string) (pv0_args p)) 4.

Definition js_member : jcodec quorum_member :=
  JCodec (fun m => ser_struct [(bs "alias", Some (jser js_string (m_alias m))); (bs "pubKey", Some (jser js_hex (m_pub_key m)))])
         (fun d j =>
            match dec_struct [bs "alias"; bs "pubKey"] false d j with
            | Some [a; b] => let? a := req js_string d a in let? b := req js_hex d b in Some (QuorumMember a b)
            | _ => None end)
         (fun m => jwf js_string (m_alias m) && jwf js_hex (m_pub_key m)) 2.

Definition js_member_set : jcodec member_set :=
  JCodec (fun m => ser_struct [(bs "threshold", Some (jser js_u32 (threshold m))); (bs "members", Some (jser (js_vec js_member) (members m)))])
         (fun d j =>
            match dec_struct [bs "threshold"; bs "members"] false d j with
            | Some [a; b] => let? a := req js_u32 d a in let? b := req (js_vec js_member) d b in Some (MemberSet a b)
            | _ => None end)
         (fun m => jwf js_u32 (threshold m) && jwf (js_vec js_member) (members m)) 4.

(** MemberPubKey { pub_key } *)
Definition js_member_pub_key : jcodec bytes :=
  JCodec (fun k => ser_struct [(bs "pubKey", Some (jser js_hex k))])
         (fun d j => match dec_struct [bs "pubKey"] false d j with
                     | Some [a] => req js_hex d a
                     | _ => None end)
         (jwf js_hex) 2.

Definition js_patch_set : jcodec patch_set :=
  JCodec (fun m => ser_struct [(bs "threshold", Some (jser js_u32 (ps_threshold m))); (bs "members", Some (jser (js_vec js_member_pub_key) (ps_members m)))])
         (fun d j =>
            match dec_struct [bs "threshold"; bs "members"] false d j with
            | Some [a; b] => let? a := req js_u32 d a in let? b := req (js_vec js_member_pub_key) d b in Some (PatchSet a b)
            | _ => None end)
         (fun m => jwf js_u32 (ps_threshold m) && jwf (js_vec js_member_pub_key) (ps_members m)) 4.

Definition js_namespace : jcodec namespace :=
  JCodec (fun n => ser_struct [(bs "name", Some (jser js_string (ns_name n))); (bs "nonce", Some (jser js_u32 (ns_nonce n)));
                               (bs "quorumKey", Some (jser js_hex (ns_quorum_key n)))])
         (fun d j =>
            match dec_struct [bs "name"; bs "nonce"; bs "quorumKey"] false d j with
            | Some [a; b; c] => let? a := req js_string d a in let? b := req js_u32 d b in
                                let? c := req js_hex d c in Some (Namespace a b c)
            | _ => None end)
         (fun n => jwf js_string (ns_name n) && jwf js_u32 (ns_nonce n) && jwf js_hex (ns_quorum_key n)) 2.

Definition js_manifest : jcodec manifest :=
  JCodec (fun m => ser_struct [(bs "namespace", Some (jser js_namespace (mf_namespace m))); (bs "pivot", Some (jser js_pivot (mf_pivot m)));
                               (bs "manifestSet", Some (jser js_member_set (mf_manifest_set m)));
                               (bs "shareSet", Some (jser js_member_set (mf_share_set m)));
                               (bs "enclave", Some (jser js_nitro (mf_enclave m)));
                               (bs "patchSet", Some (jser js_patch_set (mf_patch_set m)))])
         (fun d j =>
            match dec_struct [bs "namespace"; bs "pivot"; bs "manifestSet"; bs "shareSet"; bs "enclave"; bs "patchSet"] false d j with
            | Some [a; b; c; e; f; g] =>
              let? a := req js_namespace d a in let? b := req js_pivot d b in let? c := req js_member_set d c in
              let? e := req js_member_set d e in let? f := req js_nitro d f in let? g := req js_patch_set d g in
              Some (Manifest a b c e f g)
            | _ => None end)
         (fun m => jwf js_namespace (mf_namespace m) && jwf js_pivot (mf_pivot m) && jwf js_member_set (mf_manifest_set m)
                   && jwf js_member_set (mf_share_set m) && jwf js_nitro (mf_enclave m) && jwf js_patch_set (mf_patch_set m)) 5.

Definition js_manifest_v0 : jcodec manifest_v0 :=
  JCodec (fun m => ser_struct [(bs "namespace", Some (jser js_namespace (mf0_namespace m))); (bs "pivot", Some (jser js_pivot_v0 (mf0_pivot m)));
                               (bs "manifestSet", Some (jser js_member_set (mf0_manifest_set m)));
                               (bs "shareSet", Some (jser js_member_set (mf0_share_set m)));
                               (bs "enclave", Some (jser js_nitro (mf0_enclave m)));
                               (bs "patchSet", Some (jser js_patch_set (mf0_patch_set m)))])
         (fun d j =>
            match dec_struct [bs "namespace"; bs "pivot"; bs "manifestSet"; bs "shareSet"; bs "enclave"; bs "patchSet"] false d j with
            | Some [a; b; c; e; f; g] =>
              let? a := req js_namespace d a in let? b := req js_pivot_v0 d b in let? c := req js_member_set d c in
              let? e := req js_member_set d e in let? f := req js_nitro d f in let? g := req js_patch_set d g in
              Some (ManifestV0 a b c e f g)
            | _ => None end)
         (fun m => jwf js_namespace (mf0_namespace m) && jwf js_pivot_v0 (mf0_pivot m) && jwf js_member_set (mf0_manifest_set m)
                   && jwf js_member_set (mf0_share_set m) && jwf js_nitro (mf0_enclave m) && jwf js_patch_set (mf0_patch_set m)) 5.

Definition js_approval : jcodec approval :=
  JCodec (fun a => ser_struct [(bs "signature", Some (jser js_hex (ap_signature a))); (bs "member", Some (jser js_member (ap_member a)))])
         (fun d j =>
            match dec_struct [bs "signature"; bs "member"] false d j with
            | Some [a; b] => let? a := req js_hex d a in let? b := req js_member d b in Some (Approval a b)
            | _ => None end)
         (fun a => jwf js_hex (ap_signature a) && jwf js_member (ap_member a)) 3.

Definition js_envelope : jcodec manifest_envelope :=
  JCodec (fun e => ser_struct [(bs "manifest", Some (jser js_manifest (e1_manifest e)));
                               (bs "manifestSetApprovals", Some (jser (js_vec js_approval) (e1_manifest_approvals e)));
                               (bs "shareSetApprovals", Some (jser (js_vec js_approval) (e1_share_approvals e)))])
         (fun d j =>
            match dec_struct [bs "manifest"; bs "manifestSetApprovals"; bs "shareSetApprovals"] false d j with
            | Some [a; b; c] => let? a := req js_manifest d a in let? b := req (js_vec js_approval) d b in
                                let? c := req (js_vec js_approval) d c in Some (ManifestEnvelope a b c)
            | _ => None end)
         (fun e => jwf js_manifest (e1_manifest e) && jwf (js_vec js_approval) (e1_manifest_approvals e)
                   && jwf (js_vec js_approval) (e1_share_approvals e)) 6.

(** boot.rs:629-650: ManifestEnvelopeV0 has no rename_all: snake_case keys *)
Definition js_envelope_v0 : jcodec manifest_envelope_v0 :=
  JCodec (fun e => ser_struct [(bs "manifest", Some (jser js_manifest_v0 (e0_manifest e)));
                               (bs "manifest_set_approvals", Some (jser (js_vec js_approval) (e0_manifest_approvals e)));
                               (bs "share_set_approvals", Some (jser (js_vec js_approval) (e0_share_approvals e)))])
         (fun d j =>
            match dec_struct [bs "manifest"; bs "manifest_set_approvals"; bs "share_set_approvals"] false d j with
            | Some [a; b; c] => let? a := req js_manifest_v0 d a in let? b := req (js_vec js_approval) d b in
                                let? c := req (js_vec js_approval) d c in Some (ManifestEnvelopeV0 a b c)
            | _ => None end)
         (fun e => jwf js_manifest_v0 (e0_manifest e) && jwf (js_vec js_approval) (e0_manifest_approvals e)
                   && jwf (js_vec js_approval) (e0_share_approvals e)) 6.

(** ** v2 (manifest/v2.rs, deny_unknown_fields) *)
(** Ipv4Addr: Display / FromStr of std::net (dotted decimal) *)
Definition print_ip (i : ipv4) : bytes :=
  print_N (b2n (ip_a i)) ++ "."%byte :: print_N (b2n (ip_b i)) ++ "."%byte ::
  print_N (b2n (ip_c i)) ++ "."%byte :: print_N (b2n (ip_d i)).
Definition parse_octet (l : bytes) : option (byte * bytes) :=
  let p := span_digits l in
  match fst p with
  | [] => None
  | c :: r =>
    if byte_eqb c "0" && negb (match r with [] => true | _ => false end) then None
    else if (3 <? length (c :: r))%nat then None
    else match dec_val (c :: r) with
         | Some n => if n <? 256 then Some (n2b n, snd p) else None
         | None => None end
  end.
Definition parse_dot (l : bytes) : option bytes := lit ["."%byte] l.
(** std::net::parser read_ipv4_addr: an address at the front of the text *)
Definition read_ipv4 (l : bytes) : option (ipv4 * bytes) :=
  let? (a, l) := parse_octet l in let? l := parse_dot l in
  let? (b, l) := parse_octet l in let? l := parse_dot l in
  let? (c, l) := parse_octet l in let? l := parse_dot l in
  let? (d, l) := parse_octet l in Some (Ipv4 a b c d, l).
Definition parse_ip (l : bytes) : option ipv4 :=
  match read_ipv4 l with Some (i, []) => Some i | _ => None end.

(** Ipv6Addr: Display of std::net.  {:x} of one group *)
Fixpoint strip_zeros (l : bytes) : bytes :=
  match l with c :: ((_ :: _) as r) => if byte_eqb c "0" then strip_zeros r else l | _ => l end.
Definition print_group (g : group) : bytes := strip_zeros (hex_pair (fst g) ++ hex_pair (snd g)).
Definition zero_group : group := (x00, x00).
Definition group_eqb (a b : group) : bool := byte_eqb (fst a) (fst b) && byte_eqb (snd a) (snd b).
Definition groups (i : ipv6) : list group := [g0 i; g1 i; g2 i; g3 i; g4 i; g5 i; g6 i; g7 i].
(** The longest run of zero groups, the first such: (start, length).  [i] is
    the index of the next group, [cs cl] the current run, [ls ll] the longest. *)
Fixpoint longest_run (l : list group) (i cs cl ls ll : nat) : nat * nat :=
  match l with
  | [] => (ls, ll)
  | g :: r =>
    if group_eqb g zero_group then
      let cs := if (cl =? 0)%nat then i else cs in
      let cl := S cl in
      if (ll <? cl)%nat then longest_run r (S i) cs cl cs cl else longest_run r (S i) cs cl ls ll
    else longest_run r (S i) 0 0 ls ll
  end.
(** fmt_subslice *)
Fixpoint print_more (l : list group) : bytes :=
  match l with [] => [] | g :: r => ":"%byte :: print_group g ++ print_more r end.
Definition print_groups (l : list group) : bytes :=
  match l with [] => [] | g :: r => print_group g ++ print_more r end.
Definition print_ipv6 (i : ipv6) : bytes :=
  let l := groups i in
  if forallb (group_eqb zero_group) (firstn 5 l) && group_eqb (g5 i) (xff, xff)
  then (* to_ipv4_mapped *)
    bs "::ffff:" ++ print_ip (Ipv4 (fst (g6 i)) (snd (g6 i)) (fst (g7 i)) (snd (g7 i)))
  else
    let z := longest_run l 0 0 0 0 0 in
    if (1 <? snd z)%nat then print_groups (firstn (fst z) l) ++ bs "::" ++ print_groups (skipn (fst z + snd z) l)
    else print_groups l.

(** std::net::parser read_number(16, Some(4), true) *)
Fixpoint span_hex (l : bytes) : list N * bytes :=
  match l with
  | c :: r => match digit16 c with Some d => let p := span_hex r in (d :: fst p, snd p) | None => ([], l) end
  | [] => ([], [])
  end.
Definition read_group (l : bytes) : option (group * bytes) :=
  let p := span_hex l in
  match fst p with
  | [] => None
  | ds => if (4 <? length ds)%nat then None
          else let n := fold_left (fun n d => 16 * n + d) ds 0 in Some ((n2b (n / 256), n2b (n mod 256)), snd p)
  end.
(** read_separator(':', index, inner) *)
Definition after_colon {A} (first : bool) (f : bytes -> option (A * bytes)) (l : bytes) : option (A * bytes) :=
  if first then f l else match l with c :: r => if byte_eqb c ":" then f r else None | [] => None end.
(** read_groups: at most [k] groups; the last two may be a dotted IPv4 address *)
Fixpoint read_groups (k : nat) (first : bool) (l : bytes) : list group * bool * bytes :=
  match k with
  | O => ([], false, l)
  | S k' =>
    match (match k' with O => None | _ => after_colon first read_ipv4 l end) with
    | Some (i, r) => ([(ip_a i, ip_b i); (ip_c i, ip_d i)], true, r)
    | None =>
      match after_colon first read_group l with
      | Some (g, r) => let '(gs, v4, r) := read_groups k' false r in (g :: gs, v4, r)
      | None => ([], false, l)
      end
    end
  end.
Definition ipv6_of (l : list group) : option ipv6 :=
  match l with [a; b; c; d; e; f; g; h] => Some (Ipv6 a b c d e f g h) | _ => None end.
(** read_ipv6_addr *)
Definition read_ipv6 (l : bytes) : option (ipv6 * bytes) :=
  let '(head, v4, r) := read_groups 8 true l in
  if (length head =? 8)%nat then let? i := ipv6_of head in Some (i, r)
  else if v4 then None
  else let? r := lit (bs "::") r in
       let '(tail, _, r) := read_groups (8 - (length head + 1)) true r in
       let? i := ipv6_of (head ++ repeat zero_group (8 - length head - length tail) ++ tail) in Some (i, r).
(** IpAddr: Display, and FromStr (read_ip_addr, then end of text) *)
Definition print_ip_addr (i : ip_addr) : bytes := match i with IpV4 x => print_ip x | IpV6 x => print_ipv6 x end.
Definition parse_ip_addr (l : bytes) : option ip_addr :=
  let o := match read_ipv4 l with Some (i, r) => Some (IpV4 i, r)
           | None => match read_ipv6 l with Some (i, r) => Some (IpV6 i, r) | None => None end end in
  match o with Some (i, []) => Some i | _ => None end.
Definition js_ip : jcodec ip_addr :=
  JCodec (fun i => str (print_ip_addr i))
         (fun _ j => match j with JStr (Some s) => parse_ip_addr s | _ => None end) (fun _ => true) 0.

Definition js_dns : jcodec dns_config :=
  JCodec (fun c => ser_struct [(bs "resolvers", Some (jser (js_vec js_ip) (dns_resolvers c)))])
         (fun d j => match dec_struct [bs "resolvers"] true d j with
                     | Some [a] => let? a := req (js_vec js_ip) d a in Some (DnsConfig a)
                     | _ => None end)
         (fun _ => true) 3.

(** env.rs: PivotEnvValue {"plain":{"value":text}} (externally tagged struct
    variant), PivotEnv as a map with validated names; duplicates: last wins. *)
Definition js_env_value : jcodec bytes :=
  JCodec (fun v => ser_struct [(bs "plain", Some (ser_struct [(bs "value", Some (str v))]))])
         (fun d j =>
            match d with
            | S (S _ as d1) =>
              match j with
              | JObj [(Some k, x)] =>
                if bytes_eqb k (bs "plain") then
                  match dec_struct [bs "value"] false d1 x with
                  | Some [Some (JStr (Some v))] => value_new v
                  | _ => None end
                else None
              | _ => None
              end
            | _ => None end)
         (fun v => is_some (value_new v) && utf8_valid v) 3.
Definition js_env : jcodec pivot_env :=
  JCodec (fun e => JObj (map (fun p => (Some (fst p), jser js_env_value (snd p))) e))
         (fun d j =>
            match d with
            | S (S _ as d1) =>
              match j with
              | JObj m =>
                let? l := oseq (map (fun p => match fst p with
                                              | Some k => let? n := name_new k in
                                                          let? v := jdec js_env_value d1 (snd p) in Some (n, v)
                                              | None => None end) m) in
                env_try_from (map_collect l)
              | _ => None
              end
            | _ => None end)
         env_ok 4.

Definition js_pivot_v2 : jcodec pivot_config_v2 :=
  JCodec (fun p => ser_struct [(bs "hash", Some (jser (js_hex_n 32) (pv2_hash p))); (bs "restart", Some (jser js_restart (pv2_restart p)));
                               (bs "bridgeConfig", Some (jser (js_vec js_bridge) (pv2_bridge p)));
                               (bs "debugMode", Some (jser js_bool (pv2_debug p)));
                               (bs "args", Some (jser (js_vec js_string) (pv2_args p)));
                               (bs "env", match pv2_env p with [] => None | e => Some (jser js_env e) end)])
         (fun d j =>
            match dec_struct [bs "hash"; bs "restart"; bs "bridgeConfig"; bs "debugMode"; bs "args"; bs "env"] true d j with
            | Some [a; b; c; e; f; g] =>
              let? a := req (js_hex_n 32) d a in let? b := req js_restart d b in
              let? c := req (js_vec js_bridge) d c in let? e := req js_bool d e in
              let? f := req (js_vec js_string) d f in
              let? g := match g with None => Some [] | Some x => jdec js_env (pred d) x end in
              Some (PivotConfigV2 a b c e f g)
            | _ => None end)
         (fun p => jwf (js_hex_n 32) (pv2_hash p) && jwf (js_vec js_bridge) (pv2_bridge p)
                   && jwf (js_vec js_string) (pv2_args p) && jwf js_env (pv2_env p)) 5.

(** ManifestVersion ("v1"/"v2") restricted to V2: v2.rs:70-84 *)
Definition dec_version (d : nat) (j : json) : option unit :=
  match enum_text j d with
  | Some s => if bytes_eqb s (bs "v2") then Some tt else None
  | None => None end.

Definition js_manifest_v2 : jcodec manifest_v2 :=
  JCodec (fun m => ser_struct [(bs "version", Some (str (bs "v2")));
                               (bs "namespace", Some (jser js_namespace (mf2_namespace m))); (bs "pivot", Some (jser js_pivot_v2 (mf2_pivot m)));
                               (bs "manifestSet", Some (jser js_member_set (mf2_manifest_set m)));
                               (bs "shareSet", Some (jser js_member_set (mf2_share_set m)));
                               (bs "enclave", Some (jser js_nitro (mf2_enclave m)));
                               (bs "dns", match mf2_dns m with Some x => Some (jser js_dns x) | None => None end)])
         (fun d j =>
            match dec_struct [bs "version"; bs "namespace"; bs "pivot"; bs "manifestSet"; bs "shareSet"; bs "enclave"; bs "dns"] true d j with
            | Some [v; a; b; c; e; f; g] =>
              let? _ := match v with Some x => dec_version (pred d) x | None => None end in
              let? a := req js_namespace d a in let? b := req js_pivot_v2 d b in let? c := req js_member_set d c in
              let? e := req js_member_set d e in let? f := req js_nitro d f in
              let? g := match g with
                        | None | Some JNull => Some None
                        | Some x => let? y := jdec js_dns (pred d) x in Some (Some y) end in
              Some (ManifestV2 a b c e f g)
            | _ => None end)
         (fun m => jwf js_namespace (mf2_namespace m) && jwf js_pivot_v2 (mf2_pivot m) && jwf js_member_set (mf2_manifest_set m)
                   && jwf js_member_set (mf2_share_set m) && jwf js_nitro (mf2_enclave m)) 6.

Definition js_envelope_v2 : jcodec manifest_envelope_v2 :=
  JCodec (fun e => ser_struct [(bs "manifest", Some (jser js_manifest_v2 (e2_manifest e)));
                               (bs "manifestSetApprovals", Some (jser (js_vec js_approval) (e2_manifest_approvals e)));
                               (bs "shareSetApprovals", Some (jser (js_vec js_approval) (e2_share_approvals e)))])
         (fun d j =>
            match dec_struct [bs "manifest"; bs "manifestSetApprovals"; bs "shareSetApprovals"] true d j with
            | Some [a; b; c] => let? a := req js_manifest_v2 d a in let? b := req (js_vec js_approval) d b in
                                let? c := req (js_vec js_approval) d c in Some (ManifestEnvelopeV2 a b c)
            | _ => None end)
         (fun e => jwf js_manifest_v2 (e2_manifest e) && jwf (js_vec js_approval) (e2_manifest_approvals e)
                   && jwf (js_vec js_approval) (e2_share_approvals e)) 7.

(** serde_json::from_slice::<T> *)
Definition json_from_slice {A} (c : jcodec A) (b : bytes) : option A :=
  match parse b with Some j => jdec c MAX_DEPTH j | None => None end.

(** ** Storage: manifest.rs *)
(** manifest.rs:52-58 *)
Definition declares_a_version (b : bytes) : bool :=
  match parse_strict b with Some j => is_some (jget (bs "version") j) | None => false end.
(** manifest.rs:60-67 *)
Definition enveloped_manifest_declares_a_version (b : bytes) : bool :=
  match parse_strict b with
  | Some j => match jget (bs "manifest") j with Some x => is_some (jget (bs "version") x) | None => false end
  | None => false end.

(** manifest.rs:264-276 *)
Definition manifest_try_from_slice_compat (b : bytes) : option versioned_manifest :=
  if declares_a_version b then let? m := json_from_slice js_manifest_v2 b in Some (VM2 m)
  else match json_from_slice js_manifest b with
       | Some m => Some (VM1 m)
       | None => match json_from_slice js_manifest_v0 b with
                 | Some m => Some (VM0 m)
                 | None => decode_borsh c_manifest c_manifest_v0 VM1 VM0 b end end.

(** manifest.rs:283-290 *)
Definition manifest_to_storage_vec (m : versioned_manifest) : option bytes :=
  match m with
  | VM2 x => Json.canon (jser js_manifest_v2 x)
  | VM1 x => Some (write (jser js_manifest x))
  | VM0 x => Some (write (jser js_manifest_v0 x)) end.

(** manifest.rs:484-497 *)
Definition envelope_try_from_slice_compat (b : bytes) : option versioned_envelope :=
  if enveloped_manifest_declares_a_version b then let? e := json_from_slice js_envelope_v2 b in Some (VE2 e)
  else match json_from_slice js_envelope b with
       | Some e => Some (VE1 e)
       | None => match json_from_slice js_envelope_v0 b with
                 | Some e => Some (VE0 e)
                 | None => decode_borsh c_envelope c_envelope_v0 VE1 VE0 b end end.

(** manifest.rs:504-511 *)
Definition envelope_to_storage_vec (e : versioned_envelope) : option bytes :=
  match e with
  | VE2 x => Json.canon (jser js_envelope_v2 x)
  | VE1 x => Some (write (jser js_envelope x))
  | VE0 x => Some (write (jser js_envelope_v0 x)) end.

(** Values the Rust types can hold and JSON can carry back (hex fields below
    the 256 MiB cap of qos_hex). *)
Definition wf_envelope (e : versioned_envelope) : bool :=
  match e with VE2 x => jwf js_envelope_v2 x | VE1 x => jwf js_envelope x | VE0 x => jwf js_envelope_v0 x end.
Definition wf_manifest (m : versioned_manifest) : bool :=
  match m with VM2 x => jwf js_manifest_v2 x | VM1 x => jwf js_manifest x | VM0 x => jwf js_manifest_v0 x end.

(** boot.rs:543-567 Manifest::try_from_slice_compat (V0 JSON first, then Borsh) *)
Definition manifest_of_v0 (m : manifest_v0) : manifest :=
  Manifest (mf0_namespace m)
    (PivotConfig (pv0_hash (mf0_pivot m)) (pv0_restart (mf0_pivot m)) [] false (pv0_args (mf0_pivot m)))
    (mf0_manifest_set m) (mf0_share_set m) (mf0_enclave m) (mf0_patch_set m).
Definition manifest_v1_compat (b : bytes) : option manifest :=
  match json_from_slice js_manifest_v0 b with
  | Some m => Some (manifest_of_v0 m)
  | None => decode_borsh c_manifest c_manifest_v0 (fun m => m) manifest_of_v0 b end.
