(** Specification of the operator's client (C56-C63). *)
From Coq Require Import Permutation Sorting.Sorted.
From Verif Require Import Base Utf8 Hex Types World SpecApproval.
Local Open Scope N_scope.

(** ** Terminal input *)
(** [l] is the next line of [inp] (with its newline, if it has one). *)
Definition next_line (inp l rest : bytes) : Prop :=
  inp = l ++ rest /\
  ((exists t, l = t ++ [x0a] /\ ~ In x0a t) \/ (~ In x0a l /\ rest = [])).
(** The line [l] is the text [w] with white space (in the sense of Unicode) around it. *)
Definition says (l w : bytes) : Prop :=
  exists before cs after, l = utf8_enc (before ++ cs ++ after) /\ w = utf8_enc cs
    /\ Forall (fun c => is_scalar c = true) (before ++ cs ++ after)
    /\ Forall (fun c => is_white c = true) before /\ Forall (fun c => is_white c = true) after
    /\ (forall c r, cs = c :: r -> is_white c = false) /\ (forall c r, cs = r ++ [c] -> is_white c = false).
(** The operator's next answers are [ws]; [rest] is input not yet read. *)
Inductive answers : list bytes -> bytes -> bytes -> Prop :=
| A_none inp : answers [] inp inp
| A_one l w ws inp mid rest : next_line inp l mid -> says l w -> answers ws mid rest -> answers (w :: ws) inp rest.
Definition affirmative (w : bytes) : Prop := In w (map bs ["yes"; "Yes"; "YES"; "Y"; "y"]%string).
Definition negative (w : bytes) : Prop := In w (map bs ["no"; "No"; "NO"; "N"; "n"]%string).
Definition unrecognised (w : bytes) : Prop := ~ affirmative w /\ ~ negative w.
(** One question was answered with yes: after at most two answers that are
    neither yes nor no. *)
Definition confirmed (inp rest : bytes) : Prop :=
  exists ws w, answers (ws ++ [w]) inp rest /\ (length ws <= 2)%nat /\ Forall unrecognised ws /\ affirmative w.
(** [n] questions in a row were. *)
Inductive all_confirmed : nat -> bytes -> Prop :=
| AC_none inp : all_confirmed 0 inp
| AC_more n inp rest : confirmed inp rest -> all_confirmed n rest -> all_confirmed (S n) inp.

(** ** Key sets kept in a directory *)
(** The part of a file name before the first dot, and after the last. *)
Definition stem (name a : bytes) : Prop := ~ In "."%byte a /\ (name = a \/ exists r, name = a ++ "."%byte :: r).
Definition extension (name e : bytes) : Prop := ~ In "."%byte e /\ (name = e \/ exists r, name = r ++ "."%byte :: e).
Definition hidden (name : bytes) : Prop := exists r, name = bs "._" ++ r.
(** The first line of [c] is, up to white space, the decimal number [n < 2^32]
    (Rust's [parse]; it allows a leading '+'). *)
Definition decimal (w : bytes) (n : N) : Prop :=
  exists ds, (w = ds \/ w = "+"%byte :: ds) /\ ds <> [] /\ n < 4294967296 /\
    Forall (fun c => 48 <= b2n c <= 57) ds /\ n = fold_left (fun v c => 10 * v + (b2n c - 48)) ds 0.
Definition first_line_number (c : bytes) (n : N) : Prop :=
  c <> [] /\ exists l rest w, next_line c l rest /\ says l w /\ decimal w n.
(** Byte-wise dictionary order. *)
Definition text_le (a b : bytes) : Prop :=
  exists p, (a = p /\ exists r, b = p ++ r)
         \/ (exists x y r s, a = p ++ x :: r /\ b = p ++ y :: s /\ b2n x < b2n y).
Definition member_le (a b : quorum_member) : Prop :=
  (m_alias a = m_alias b /\ text_le (m_pub_key a) (m_pub_key b)) \/ (m_alias a <> m_alias b /\ text_le (m_alias a) (m_alias b)).

Section SpecSets.
  Context (Y : sys).
  Definition key_name (e : bytes * option bytes) : Prop := ~ hidden (fst e) /\ extension (fst e) (bs "pub").
  Definition threshold_name (e : bytes * option bytes) : Prop := fst e = bs "quorum_threshold".
  (** Entry [e] holds a valid public key in hex, under its alias. *)
  Definition key_in (e : bytes * option bytes) (m : quorum_member) : Prop :=
    stem (fst e) (m_alias m) /\ exists c eg sg, snd e = Some c /\ decode_from_vec c = Ok (m_pub_key m) /\ has_keys Y m eg sg.
  (** [keys] are the keys, in alias order, of the key files of the directory
      and [t] is the number in its threshold file; nothing else matters. *)
  Definition directory_set (d : list (bytes * option bytes)) (t : N) (keys : list quorum_member) : Prop :=
    (exists files others, Permutation d (files ++ others) /\ Forall key_name files /\ Forall (fun e => ~ key_name e) others
       /\ exists ms, Forall2 key_in files ms /\ Permutation keys ms /\ StronglySorted member_le keys)
    /\ (exists c others, Permutation d ((bs "quorum_threshold", Some c) :: others) /\ Forall (fun e => ~ threshold_name e) others
       /\ first_line_number c t).
End SpecSets.

(** ** Text files *)
(** A line without its line ending ("\n" or "\r\n"). *)
Definition line_text (l t : bytes) : Prop :=
  l = t ++ [x0d; x0a] \/ (l = t ++ [x0a] /\ (forall r, t <> r ++ [x0d])) \/ (l = t /\ ~ In x0a l).
Inductive text_lines : bytes -> list bytes -> Prop :=
| TL_end : text_lines [] []
| TL_line c l rest t ls : c <> [] -> next_line c l rest -> line_text l t -> utf8_valid t = true ->
    text_lines rest ls -> text_lines c (t :: ls).
(** The release file of QuorumOS: one "<hex> <label>" per line, the first three
    for PCR0, PCR1 and PCR2. *)
Definition release_pcrs (f : option bytes) (p0 p1 p2 : bytes) : Prop :=
  exists c ls h0 h1 h2 more, f = Some c /\ text_lines c ls
    /\ ls = (h0 ++ bs " PCR0") :: (h1 ++ bs " PCR1") :: (h2 ++ bs " PCR2") :: more
    /\ Forall (fun l => exists a b, l = a ++ " "%byte :: b /\ ~ In " "%byte a /\ ~ In " "%byte b) ls
    /\ decode h0 = Ok p0 /\ decode h1 = Ok p1 /\ decode h2 = Ok p2.
Definition first_line_is (f : option bytes) (l : bytes) : Prop := exists c ls, f = Some c /\ text_lines c (l :: ls).

Section SpecApprove.
  Context (Y : sys).
  (** The patch set in a directory: the keys without aliases. *)
  Definition directory_patch_set (d : list (bytes * option bytes)) (p : patch_set) : Prop :=
    (exists files others, Permutation d (files ++ others) /\ Forall key_name files /\ Forall (fun e => ~ key_name e) others
       /\ exists ms, Forall2 (key_in Y) files ms /\ Permutation (ps_members p) (map m_pub_key ms)
                     /\ StronglySorted text_le (ps_members p))
    /\ (exists c others, Permutation d ((bs "quorum_threshold", Some c) :: others) /\ Forall (fun e => ~ threshold_name e) others
       /\ first_line_number c (ps_threshold p)).
  Definition public_key_file (f : option bytes) (k : bytes) : Prop :=
    exists c eg sg, f = Some c /\ decode_from_vec c = Ok k /\ has_keys Y (QuorumMember [] k) eg sg.
  Definition personal_key (f : option bytes) (seed ek sk : bytes) : Prop :=
    exists c, f = Some c /\ seed_of_hex c = Some seed /\ s_pair Y seed = Some (ek, sk).
  (** The Nitro configuration of the release files, with PCR3 for the IAM role. *)
  Definition release_config (pcrs role_file : option bytes) (n : nitro_config) : Prop :=
    release_pcrs pcrs (pcr0 n) (pcr1 n) (pcr2 n)
    /\ (exists role, first_line_is role_file role /\ pcr3 n = s_sha384 Y (repeat x00 48 ++ role))
    /\ aws_root_certificate n = s_root Y /\ qos_commit n = [].
  (** Everything in the manifest that the operator's own files determine is as they say. *)
  Record agrees (m : versioned_manifest) (mset sset : list (bytes * option bytes)) (pset : option (list (bytes * option bytes)))
    (pcrs role_file pivot_hash quorum_key : option bytes) : Prop := Agrees {
    ag_mset : directory_set Y mset (threshold (vm_manifest_set m)) (members (vm_manifest_set m));
    ag_sset : directory_set Y sset (threshold (vm_share_set m)) (members (vm_share_set m));
    ag_pset : match m with
              | VM2 _ => pset = None
              | VM1 x => exists d, pset = Some d /\ directory_patch_set d (mf_patch_set x)
              | VM0 x => exists d, pset = Some d /\ directory_patch_set d (mf0_patch_set x) end;
    ag_enclave : release_config pcrs role_file (vm_enclave m);
    ag_pivot : exists l, first_line_is pivot_hash l /\ decode l = Ok (vm_pivot_hash m);
    ag_key : public_key_file quorum_key (ns_quorum_key (vm_namespace m))
  }.
End SpecApprove.

(** Two manifests that differ at most in the pivot's environment variables. *)
Definition without_env (m : versioned_manifest) : versioned_manifest :=
  match m with
  | VM2 x => VM2 (ManifestV2 (mf2_namespace x)
      (let p := mf2_pivot x in PivotConfigV2 (pv2_hash p) (pv2_restart p) (pv2_bridge p) (pv2_debug p) (pv2_args p) [])
      (mf2_manifest_set x) (mf2_share_set x) (mf2_enclave x) (mf2_dns x))
  | _ => m end.
