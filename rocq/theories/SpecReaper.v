(** Specification vocabulary for the reaper (C16, C45, C46, C47). *)
From Verif Require Import Base Types TypesJson Msg World SpecProtocol Reach Reaper State.
Local Open Scope N_scope.

Section SpecReaper.
  Context (Y : sys).
  (** [l] are file systems that existed in the history of [s], in time order
      (each with the trace up to it); an observation before the first file
      event sees no boot file. *)
  Inductive observed (s : st Y) : list (entry Y) -> list fsys -> Prop :=
  | Ob_nil tr : observed s tr []
  | Ob_cons tr0 new f l : (moment Y s (new ++ tr0) f \/ (new = [] /\ tr0 = [] /\ forall p, f (Main p) = None)) ->
      observed s (new ++ tr0) l -> observed s tr0 (f :: l).
End SpecReaper.

Definition is_spawn (a : action) : bool := match a with ASpawn _ _ _ _ => true | _ => false end.
Definition spawns (l : list action) : list action := filter is_spawn l.
Definition is_bridge (a : action) : bool := match a with ABridge _ | AEgress => true | _ => false end.
Definition server_ports (l : list bridge_config) : list N :=
  flat_map (fun b => match b with BServer p _ => [p] | BClient _ _ => [] end) l.
Definition has_client (l : list bridge_config) : bool := existsb (fun b => match b with BClient _ _ => true | _ => false end) l.

(** The manifest of record: [e] is stored at some moment at which a quorum key exists. *)
Definition booted_with {Y : sys} (s : st Y) (e : versioned_envelope) : Prop :=
  exists tr f, moment Y s tr f /\ content f Quorum <> None /\ stored f e.

(** The ports bridged, in order; how often the egress was started; the texts written to resolv.conf. *)
Definition bridge_ports (l : list action) : list N := flat_map (fun a => match a with ABridge p => [p] | _ => [] end) l.
Definition egresses (l : list action) : nat := length (filter (fun a => match a with AEgress => true | _ => false end) l).
Definition resolv_texts (l : list action) : list bytes := flat_map (fun a => match a with AResolv t => [t] | _ => [] end) l.

(** The environment a manifest asks for (only V2 manifests have one). *)
Definition vm_env (m : versioned_manifest) : pivot_env :=
  match m with VM2 x => pv2_env (mf2_pivot x) | _ => [] end.
