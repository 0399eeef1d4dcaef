(** ManifestBuilder: /repo/src/qos_core/src/protocol/services/boot/manifest/builder.rs *)
From Verif Require Import Base Types.

(** manifest.rs:22-41 *)
Inductive manifest_version := MV1 | MV2.

(** builder.rs:13-44 *)
Inductive builder_error :=
| MissingNamespace | MissingPivotHash | MissingManifestSet | MissingShareSet | MissingEnclave
| MissingPatchSet | V1DoesNotSupportPivotEnv | V1DoesNotSupportDns | V2DoesNotSupportPatchSet.

(** builder.rs:46-67 *)
Record builder := Builder {
  b_version : option manifest_version; b_namespace : option namespace; b_hash : option bytes;
  b_restart : option restart_policy; b_bridge : option (list bridge_config); b_debug : option bool;
  b_args : option (list bytes); b_env : option pivot_env; b_manifest_set : option member_set;
  b_share_set : option member_set; b_enclave : option nitro_config; b_patch_set : option patch_set;
  b_dns : option dns_config }.

(** builder.rs:76-94 *)
Definition builder_new : builder :=
  Builder None None None None None None None None None None None None None.

(** builder.rs:108-197: the setters *)
Inductive setter :=
| SVersion (v : manifest_version) | SNamespace (n : namespace) | SHash (h : bytes) | SRestart (r : restart_policy)
| SBridge (l : list bridge_config) | SDebug (b : bool) | SArgs (l : list bytes) | SEnv (e : pivot_env)
| SManifestSet (s : member_set) | SShareSet (s : member_set) | SEnclave (n : nitro_config)
| SPatchSet (p : patch_set) | SDns (d : dns_config).

Definition apply_setter (b : builder) (s : setter) : builder :=
  let '(Builder v n h r br db a e ms ss en ps d) := b in
  match s with
  | SVersion x => Builder (Some x) n h r br db a e ms ss en ps d
  | SNamespace x => Builder v (Some x) h r br db a e ms ss en ps d
  | SHash x => Builder v n (Some x) r br db a e ms ss en ps d
  | SRestart x => Builder v n h (Some x) br db a e ms ss en ps d
  | SBridge x => Builder v n h r (Some x) db a e ms ss en ps d
  | SDebug x => Builder v n h r br (Some x) a e ms ss en ps d
  | SArgs x => Builder v n h r br db (Some x) e ms ss en ps d
  | SEnv x => Builder v n h r br db a (Some x) ms ss en ps d
  | SManifestSet x => Builder v n h r br db a e (Some x) ss en ps d
  | SShareSet x => Builder v n h r br db a e ms (Some x) en ps d
  | SEnclave x => Builder v n h r br db a e ms ss (Some x) ps d
  | SPatchSet x => Builder v n h r br db a e ms ss en (Some x) d
  | SDns x => Builder v n h r br db a e ms ss en ps (Some x)
  end.

Definition ok_or {A E} (o : option A) (e : E) : result E A := match o with Some a => Ok a | None => Err e end.
Definition unwrap_or {A} (o : option A) (d : A) : A := match o with Some a => a | None => d end.

(** builder.rs:199-275 *)
Definition build (b : builder) : result builder_error versioned_manifest :=
  rbind (ok_or (b_namespace b) MissingNamespace) (fun ns =>
  rbind (ok_or (b_hash b) MissingPivotHash) (fun h =>
  rbind (ok_or (b_manifest_set b) MissingManifestSet) (fun ms =>
  rbind (ok_or (b_share_set b) MissingShareSet) (fun ss =>
  rbind (ok_or (b_enclave b) MissingEnclave) (fun en =>
  let restart := unwrap_or (b_restart b) Never in
  let bridge := unwrap_or (b_bridge b) [] in
  let debug := unwrap_or (b_debug b) false in
  let args := unwrap_or (b_args b) [] in
  match unwrap_or (b_version b) MV2 with
  | MV1 =>
    match b_env b with
    | Some _ => Err V1DoesNotSupportPivotEnv
    | None =>
      match b_dns b with
      | Some _ => Err V1DoesNotSupportDns
      | None =>
        rbind (ok_or (b_patch_set b) MissingPatchSet) (fun ps =>
        Ok (VM1 (Manifest ns (PivotConfig h restart bridge debug args) ms ss en ps)))
      end
    end
  | MV2 =>
    match b_patch_set b with
    | Some _ => Err V2DoesNotSupportPatchSet
    | None => Ok (VM2 (ManifestV2 ns (PivotConfigV2 h restart bridge debug args (unwrap_or (b_env b) [])) ms ss en (b_dns b)))
    end
  end))))).
