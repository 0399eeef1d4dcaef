(** Specification of the manifest builder: what a user who made the calls
    [ops] (in order, starting from an empty builder) should get. *)
From Verif Require Import Base Types Builder.

(** the argument of the last call of one kind *)
Fixpoint last_of {A} (f : setter -> option A) (ops : list setter) : option A :=
  match ops with
  | [] => None
  | s :: r => match last_of f r with Some x => Some x | None => f s end
  end.
Definition the_version s := match s with SVersion x => Some x | _ => None end.
Definition the_namespace s := match s with SNamespace x => Some x | _ => None end.
Definition the_hash s := match s with SHash x => Some x | _ => None end.
Definition the_restart s := match s with SRestart x => Some x | _ => None end.
Definition the_bridge s := match s with SBridge x => Some x | _ => None end.
Definition the_debug s := match s with SDebug x => Some x | _ => None end.
Definition the_args s := match s with SArgs x => Some x | _ => None end.
Definition the_env s := match s with SEnv x => Some x | _ => None end.
Definition the_manifest_set s := match s with SManifestSet x => Some x | _ => None end.
Definition the_share_set s := match s with SShareSet x => Some x | _ => None end.
Definition the_enclave s := match s with SEnclave x => Some x | _ => None end.
Definition the_patch_set s := match s with SPatchSet x => Some x | _ => None end.
Definition the_dns s := match s with SDns x => Some x | _ => None end.

(** the value, or the documented default *)
Definition given {A} (f : setter -> option A) (ops : list setter) (d : A) (x : A) : Prop :=
  last_of f ops = Some x \/ (last_of f ops = None /\ x = d).

(** [m] is the manifest described by the calls *)
Definition described (ops : list setter) (m : versioned_manifest) : Prop :=
  last_of the_namespace ops = Some (vm_namespace m) /\
  last_of the_hash ops = Some (vm_pivot_hash m) /\
  last_of the_manifest_set ops = Some (vm_manifest_set m) /\
  last_of the_share_set ops = Some (vm_share_set m) /\
  last_of the_enclave ops = Some (vm_enclave m) /\
  given the_restart ops Never (vm_restart m) /\
  given the_bridge ops [] (vm_bridge m) /\
  given the_debug ops false (vm_debug m) /\
  given the_args ops [] (vm_args m) /\
  match m with
  | VM1 x => last_of the_version ops = Some MV1 /\ last_of the_patch_set ops = Some (mf_patch_set x) /\
             last_of the_env ops = None /\ last_of the_dns ops = None
  | VM2 x => given the_version ops MV2 MV2 /\ last_of the_patch_set ops = None /\
             given the_env ops [] (pv2_env (mf2_pivot x)) /\ last_of the_dns ops = mf2_dns x
  | VM0 _ => False
  end.

(** the calls are complete for, and only use fields of, the chosen version *)
Definition complete (ops : list setter) : Prop :=
  last_of the_namespace ops <> None /\ last_of the_hash ops <> None /\
  last_of the_manifest_set ops <> None /\ last_of the_share_set ops <> None /\ last_of the_enclave ops <> None /\
  (last_of the_version ops = Some MV1 ->
     last_of the_patch_set ops <> None /\ last_of the_env ops = None /\ last_of the_dns ops = None) /\
  (last_of the_version ops <> Some MV1 -> last_of the_patch_set ops = None).
