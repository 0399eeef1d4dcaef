(** What a manifest or envelope JSON document says (C95): a declarative reading
    of the parsed document, member by member, independent of the decoders. *)
From Verif Require Import Base Utf8 Hex Json Types Env TypesJson SpecEnv SpecCanon PropsNumbers.
From Verif Require SpecIp PropsHex.
From Coq Require Import Sorted.
Local Open Scope N_scope.

(** ** Members *)
(** No two members are called [n]. *)
Definition once (m : list (option bytes * json)) (n : bytes) : Prop :=
  forall m1 x m2 y m3, m <> m1 ++ (Some n, x) :: m2 ++ (Some n, y) :: m3.
Definition member (m : list (option bytes * json)) (n : bytes) (v : option json) : Prop :=
  match v with Some x => In (Some n, x) m | None => forall x, ~ In (Some n, x) m end.
(** [j] gives the fields [names] the values [vs] ([None]: not given).  As an
    object: none of them twice; other members only if not [closed].  As an
    array: by position, trailing fields may be left out. *)
Definition fields (names : list bytes) (closed : bool) (j : json) (vs : list (option json)) : Prop :=
  (exists m, j = JObj m
     /\ (forall v, ~ In (None, v) m)                    (* member names are texts *)
     /\ Forall (once m) names
     /\ (closed = true -> forall k v, In (Some k, v) m -> In k names)
     /\ Forall2 (member m) names vs)
  \/ (exists l t, j = JArr l /\ vs = map Some l ++ t /\ Forall (fun v => v = None) t /\ length vs = length names).

(** ** Values *)
Definition says_text (j : json) (s : bytes) : Prop := j = JStr (Some s).
(** two hex digits (or '+' and one, see C33) a byte, after an optional 0x *)
Definition hex_spelled (s b : bytes) : Prop :=
  exists t, (s = t \/ s = "0" :: "x" :: t)%byte /\ PropsHex.signed_hex_text t b /\ N.of_nat (length t) < 256 * 1024 * 1024.
Definition says_hex (j : json) (b : bytes) : Prop := exists s, says_text j s /\ hex_spelled s b.
Definition says_hash (j : json) (b : bytes) : Prop := says_hex j b /\ length b = 32%nat.
Definition says_number (limit : N) (j : json) (n : N) : Prop :=
  n < limit /\ (j = JInt (Z.of_N n) \/ exists s, says_text j s /\ numeral s n).
Definition says_bool (j : json) (b : bool) : Prop := j = JBool b.
Definition says_list {A} (P : json -> A -> Prop) (j : json) (l : list A) : Prop := exists js, j = JArr js /\ Forall2 P js l.
(** a variant without data: its name, or {name: null} *)
Definition says_variant (j : json) (name : bytes) : Prop := says_text j name \/ j = JObj [(Some name, JNull)].
Definition says_restart (j : json) (r : restart_policy) : Prop :=
  says_variant j (match r with Never => bs "Never" | Always => bs "Always" end).
Definition says_address (j : json) (i : ip_addr) : Prop := exists s, says_text j s /\ SpecIp.ip_text s i.

(** ** Parts of a manifest.  [d]: how deep a bridge entry may nest. *)
Definition says_bridge (d : nat) (j : json) (b : bridge_config) : Prop :=
  strict d j = true /\
  match b with
  | BServer port host => exists p h, fields [bs "type"; bs "port"; bs "host"] false j [Some (str (bs "server")); Some p; Some h]
      /\ says_number 65536 p port /\ says_text h host
  | BClient port host => exists p h, fields [bs "type"; bs "port"; bs "host"] false j [Some (str (bs "client")); Some p; h]
      /\ says_number 65536 p port
      /\ match host with Some s => exists x, h = Some x /\ says_text x s | None => h = None \/ h = Some JNull end
  end.
Definition says_enclave (j : json) (n : nitro_config) : Prop :=
  exists a b c d e f, fields [bs "pcr0"; bs "pcr1"; bs "pcr2"; bs "pcr3"; bs "awsRootCertificate"; bs "qosCommit"] false j
      [Some a; Some b; Some c; Some d; Some e; Some f]
    /\ says_hex a (pcr0 n) /\ says_hex b (pcr1 n) /\ says_hex c (pcr2 n) /\ says_hex d (pcr3 n)
    /\ says_hex e (aws_root_certificate n) /\ says_text f (qos_commit n).
Definition says_member (j : json) (m : quorum_member) : Prop :=
  exists a k, fields [bs "alias"; bs "pubKey"] false j [Some a; Some k] /\ says_text a (m_alias m) /\ says_hex k (m_pub_key m).
Definition says_set (j : json) (s : member_set) : Prop :=
  exists t l, fields [bs "threshold"; bs "members"] false j [Some t; Some l]
    /\ says_number 4294967296 t (threshold s) /\ says_list says_member l (members s).
Definition says_pub_key (j : json) (k : bytes) : Prop := exists x, fields [bs "pubKey"] false j [Some x] /\ says_hex x k.
Definition says_patch_set (j : json) (s : patch_set) : Prop :=
  exists t l, fields [bs "threshold"; bs "members"] false j [Some t; Some l]
    /\ says_number 4294967296 t (ps_threshold s) /\ says_list says_pub_key l (ps_members s).
Definition says_namespace (j : json) (n : namespace) : Prop :=
  exists a b c, fields [bs "name"; bs "nonce"; bs "quorumKey"] false j [Some a; Some b; Some c]
    /\ says_text a (ns_name n) /\ says_number 4294967296 b (ns_nonce n) /\ says_hex c (ns_quorum_key n).
Definition says_dns (j : json) (c : dns_config) : Prop :=
  exists l, fields [bs "resolvers"] true j [Some l] /\ says_list says_address l (dns_resolvers c).
Definition says_env_value (j : json) (v : bytes) : Prop :=
  exists x y, j = JObj [(Some (bs "plain"), x)] /\ fields [bs "value"] false x [Some y] /\ says_text y v /\ good_value v.
(** Of several entries for a name the last counts; the result is in order of names. *)
Definition last_entry (l : list (bytes * bytes)) (n v : bytes) : Prop :=
  exists l1 l2, l = l1 ++ (n, v) :: l2 /\ ~ In n (map fst l2).
Definition says_env (j : json) (e : pivot_env) : Prop :=
  exists m l, j = JObj m
    /\ Forall2 (fun p q => fst p = Some (fst q) /\ good_name (fst q) /\ says_env_value (snd p) (snd q)) m l
    /\ (forall n v, In (n, v) e <-> last_entry l n v)
    /\ StronglySorted (fun p q => lex_before (map b2n (fst p)) (map b2n (fst q))) e
    /\ (length e <= 512)%nat.
Definition says_pivot_v0 (j : json) (p : pivot_config_v0) : Prop :=
  exists a b c, fields [bs "hash"; bs "restart"; bs "args"] false j [Some a; Some b; Some c]
    /\ says_hash a (pv0_hash p) /\ says_restart b (pv0_restart p) /\ says_list says_text c (pv0_args p).
Definition says_pivot (d : nat) (j : json) (p : pivot_config) : Prop :=
  exists a b c e f, fields [bs "hash"; bs "restart"; bs "bridgeConfig"; bs "debugMode"; bs "args"] false j
      [Some a; Some b; Some c; Some e; Some f]
    /\ says_hash a (pv_hash p) /\ says_restart b (pv_restart p) /\ says_list (says_bridge d) c (pv_bridge p)
    /\ says_bool e (pv_debug p) /\ says_list says_text f (pv_args p).
Definition says_pivot_v2 (d : nat) (j : json) (p : pivot_config_v2) : Prop :=
  exists a b c e f g, fields [bs "hash"; bs "restart"; bs "bridgeConfig"; bs "debugMode"; bs "args"; bs "env"] true j
      [Some a; Some b; Some c; Some e; Some f; g]
    /\ says_hash a (pv2_hash p) /\ says_restart b (pv2_restart p) /\ says_list (says_bridge d) c (pv2_bridge p)
    /\ says_bool e (pv2_debug p) /\ says_list says_text f (pv2_args p)
    /\ match g with None => pv2_env p = [] | Some x => says_env x (pv2_env p) end.

(** ** Manifests *)
Definition says_manifest_v0 (j : json) (m : manifest_v0) : Prop :=
  exists a b c e f g, fields [bs "namespace"; bs "pivot"; bs "manifestSet"; bs "shareSet"; bs "enclave"; bs "patchSet"] false j
      [Some a; Some b; Some c; Some e; Some f; Some g]
    /\ says_namespace a (mf0_namespace m) /\ says_pivot_v0 b (mf0_pivot m) /\ says_set c (mf0_manifest_set m)
    /\ says_set e (mf0_share_set m) /\ says_enclave f (mf0_enclave m) /\ says_patch_set g (mf0_patch_set m).
Definition says_manifest_v1 (d : nat) (j : json) (m : manifest) : Prop :=
  exists a b c e f g, fields [bs "namespace"; bs "pivot"; bs "manifestSet"; bs "shareSet"; bs "enclave"; bs "patchSet"] false j
      [Some a; Some b; Some c; Some e; Some f; Some g]
    /\ says_namespace a (mf_namespace m) /\ says_pivot d b (mf_pivot m) /\ says_set c (mf_manifest_set m)
    /\ says_set e (mf_share_set m) /\ says_enclave f (mf_enclave m) /\ says_patch_set g (mf_patch_set m).
Definition says_manifest_v2 (d : nat) (j : json) (m : manifest_v2) : Prop :=
  exists v a b c e f g, fields [bs "version"; bs "namespace"; bs "pivot"; bs "manifestSet"; bs "shareSet"; bs "enclave"; bs "dns"] true j
      [Some v; Some a; Some b; Some c; Some e; Some f; g]
    /\ says_variant v (bs "v2")
    /\ says_namespace a (mf2_namespace m) /\ says_pivot_v2 d b (mf2_pivot m) /\ says_set c (mf2_manifest_set m)
    /\ says_set e (mf2_share_set m) /\ says_enclave f (mf2_enclave m)
    /\ match mf2_dns m with Some x => exists y, g = Some y /\ says_dns y x | None => g = None \/ g = Some JNull end.

(** ** Envelopes *)
Definition says_approval (j : json) (a : approval) : Prop :=
  exists s m, fields [bs "signature"; bs "member"] false j [Some s; Some m] /\ says_hex s (ap_signature a) /\ says_member m (ap_member a).
Definition says_envelope_v0 (j : json) (e : manifest_envelope_v0) : Prop :=
  exists a b c, fields [bs "manifest"; bs "manifest_set_approvals"; bs "share_set_approvals"] false j [Some a; Some b; Some c]
    /\ says_manifest_v0 a (e0_manifest e) /\ says_list says_approval b (e0_manifest_approvals e) /\ says_list says_approval c (e0_share_approvals e).
Definition says_envelope_v1 (d : nat) (j : json) (e : manifest_envelope) : Prop :=
  exists a b c, fields [bs "manifest"; bs "manifestSetApprovals"; bs "shareSetApprovals"] false j [Some a; Some b; Some c]
    /\ says_manifest_v1 d a (e1_manifest e) /\ says_list says_approval b (e1_manifest_approvals e) /\ says_list says_approval c (e1_share_approvals e).
Definition says_envelope_v2 (d : nat) (j : json) (e : manifest_envelope_v2) : Prop :=
  exists a b c, fields [bs "manifest"; bs "manifestSetApprovals"; bs "shareSetApprovals"] true j [Some a; Some b; Some c]
    /\ says_manifest_v2 d a (e2_manifest e) /\ says_list says_approval b (e2_manifest_approvals e) /\ says_list says_approval c (e2_share_approvals e).
