(** Concrete files of a toy operator, used only in examples. *)
From Verif Require Import Base Utf8 Hex Json Types TypesJson Msg World Attest Services Builder Client CodecExamples Toy.
Local Open Scope N_scope.
Definition nl : bytes := [x0a].
Definition T : sys := toy calm 0.
Definition key_file (alias : string) (seed : bytes) : bytes * option bytes := (bs alias ++ bs ".pub", Some (encode (pub_of seed))).
Definition threshold_file (t : string) : bytes * option bytes := (bs "quorum_threshold", Some (bs t ++ nl)).
Definition op_mset : list (bytes * option bytes) := [key_file "bob" seed_b; threshold_file "2"; key_file "alice" seed_a; key_file "carol" seed_c].
Definition op_sset : list (bytes * option bytes) := [threshold_file "2"; key_file "bob" seed_b; key_file "alice" seed_a].
Definition op_pset : list (bytes * option bytes) := [threshold_file "1"; key_file "carol" seed_c].
(** The toy hash of 48 zero bytes and this role is the PCR3 of [ex_nitro]. *)
Definition op_role : option bytes := Some (repeat x06 48 ++ nl).
Definition op_pcrs : option bytes :=
  Some (encode (pcr0 ex_nitro) ++ bs " PCR0" ++ nl ++ encode (pcr1 ex_nitro) ++ bs " PCR1" ++ [x0d] ++ nl ++ encode (pcr2 ex_nitro) ++ bs " PCR2").
Definition op_pivot : option bytes := Some (encode (toy_hash 32 pivot) ++ nl).
Definition op_key : option bytes := Some (encode (pub_of seed_q)).
Definition op_nitro : nitro_config := NitroConfig (pcr0 ex_nitro) (pcr1 ex_nitro) (pcr2 ex_nitro) (pcr3 ex_nitro) (bs "root") [].
Definition op_manifest (env : pivot_env) : manifest_v2 :=
  ManifestV2 (Namespace (bs "a/b") 7 (pub_of seed_q))
    (PivotConfigV2 (toy_hash 32 pivot) Always [BServer 3000 (bs "0.0.0.0")] false [bs "q"] env) mset sset op_nitro (Some (DnsConfig [IpV4 (Ipv4 x08 x08 x04 x04)])).
Definition op_v1 : manifest :=
  Manifest (Namespace (bs "a/b") 7 (pub_of seed_q))
    (PivotConfig (toy_hash 32 pivot) Never [BServer 3000 (bs "0.0.0.0")] true [bs "q"]) mset sset op_nitro (PatchSet 1 [pub_of seed_c]).
Definition stored_text (m : versioned_manifest) : option bytes := manifest_to_storage_vec m.
Definition yes_yes (n : nat) : bytes := concat (repeat (bs "yes" ++ nl) n).
Definition op_approve (m : versioned_manifest) (pset : option dir) (answers : bytes) : approve_args :=
  ApproveArgs (Some (encode seed_a)) (stored_text m) op_pcrs op_role op_pivot op_key op_mset op_sset pset (bs "alice") false answers.
