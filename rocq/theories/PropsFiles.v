(** C17, C18: how files appear. *)
From Verif Require Import Base Hex Types TypesJson Msg World Run FsProofs Attest Services State SpecProtocol Reach EffectProofs BootProofs HistoryProofs
  CodecExamples Toy ToyRuns.
Local Open Scope N_scope.

(** ** C17 *)
(** Publishing [buf] read-only at [f] ([e] is the error reported): at every
    step — every prefix of the write, the rename, the chmod, under every fault —
    an observer of the destination sees either no file or all of [buf]; no other
    file but the temporary one is touched; an existing file is left alone. *)
Theorem c17_all_or_nothing : forall Y f buf e (s : st Y) r s',
  write_as_read_only Y f buf e s = (r, s') ->
  (content (st_fs s) f <> None -> r = Err CannotModifyPostPivotStatic /\ s' = s)
  /\ (content (st_fs s) f = None ->
      (exists new, st_trace s' = new ++ st_trace s /\ forall x, In x new ->
         (content (en_fs x) f = None \/ content (en_fs x) f = Some buf)
         /\ forall p, p <> Main f -> p <> Tmp f -> en_fs x p = st_fs s p)
      /\ (content (st_fs s') f = None \/ content (st_fs s') f = Some buf)
      /\ (r = Ok tt -> st_fs s' (Main f) = Some (buf, 292)))
  /\ forall p, p <> Main f -> p <> Tmp f -> st_fs s' p = st_fs s p.
Proof.
  intros Y f buf e s r s' H. apply war_spec in H. unfold content at 1 2.
  destruct (st_fs s (Main f)) as [v|] eqn:F.
  - destruct H as [-> ->]. repeat split; auto; discriminate.
  - destruct H as (X & Hok & Ho & Hf). split; [now intros []|]. split; [intros _; split|].
    + destruct (fx_new _ _ _ X) as (new & T & Fn & _). exists new. split; [exact T|]. intros x I.
      rewrite Forall_forall in Fn. destruct (Fn x I) as (_ & O & D). split.
      * unfold content. destruct D as [->|[m ->]]; auto.
      * intros p N1 N2. apply O. cbn. intros [A|[A|[]]]; congruence.
    + split; [|exact Hok]. unfold content. destruct Hf as [->|[m ->]]; auto.
    + intros p N1 N2. apply Ho. cbn. intros [A|[A|[]]]; congruence.
Qed.
Print Assumptions c17_all_or_nothing.

(** The three publications are such writes. *)
Theorem c17_publications : forall Y seed e,
  put_ephemeral_key Y seed = write_as_read_only Y Eph (encode seed) FailedToPutEphemeralKey
  /\ put_quorum_key Y seed = write_as_read_only Y Quorum (encode seed) FailedToPutQuorumKey
  /\ (forall b, envelope_to_storage_vec e = Some b ->
        put_manifest_envelope Y e = write_as_read_only Y Manif b FailedToPutManifestEnvelope).
Proof. intros Y seed e. repeat split. intros b H. unfold put_manifest_envelope. now rewrite H. Qed.
Print Assumptions c17_publications.

Example c17_nontrivial : let s := start calm 0 in
  fst (write_as_read_only T Quorum (bs "key") IOError s) = Ok tt
  /\ length (st_trace (snd (write_as_read_only T Quorum (bs "key") IOError s))) = 6%nat
  /\ map (fun x => content (en_fs x) Quorum) (st_trace (snd (write_as_read_only T Quorum (bs "key") IOError s)))
     = [Some (bs "key"); Some (bs "key"); None; None; None; None].
Proof. vm_compute. auto. Qed.

(** Permission bits: a published key is readable by everyone from the rename
    until the chmod (0644), then read-only (0444); it is never owner-only. *)
Theorem c17_key_world_readable : exists tr f, moment T s_done tr f /\ f (Main Quorum) = Some (encode seed_q, 420).
Proof.
  assert (H : exists x, In x (st_trace s_done) /\ en_fs x (Main Quorum) = Some (encode seed_q, 420)).
  { exists (nth 1 (st_trace s_done) (@Entry T EvTime no_files toy_nsm0)). split; [|vm_compute; reflexivity].
    apply nth_In. apply Nat.ltb_lt. vm_compute. reflexivity. }
  destruct H as (x & I & C). apply in_split in I as (l1 & l2 & E). exists (x :: l2), (en_fs x). split; [|exact C].
  econstructor. exact E.
Qed.
Print Assumptions c17_key_world_readable.

(** ** C18: negative *)

(** A crash during an accepted boot can leave a truncated pivot at its final path. *)
Theorem c18_pivot_not_atomic : exists s tr f, reach T s /\ moment T s tr f
  /\ content f Pivot = Some (firstn 3 pivot) /\ (3 < length pivot)%nat.
Proof.
  exists s_booted.
  assert (H : existsb (fun x => match content (en_fs x) Pivot with Some c => bytes_eqb c (firstn 3 pivot) | None => false end)
    (st_trace s_booted) = true) by (vm_compute; reflexivity).
  apply existsb_exists in H as (x & I & C). apply in_split in I as (l1 & l2 & E). exists (x :: l2), (en_fs x).
  split; [exact booted_reach|]. split; [econstructor; exact E|]. split; [|vm_compute; repeat constructor].
  destruct (content (en_fs x) Pivot) as [c|]; [|discriminate]. apply bytes_eqb_eq in C. now subst.
Qed.
Print Assumptions c18_pivot_not_atomic.

(** A crash during an accepted provision can leave a manifest file that no longer decodes. *)
Theorem c18_manifest_not_atomic : exists s tr f, reach T s /\ moment T s tr f
  /\ content f Manif = Some [] /\ forall e, ~ stored f e.
Proof.
  exists s_waiting.
  assert (H : existsb (fun x => match content (en_fs x) Manif with Some [] => true | _ => false end) (st_trace s_waiting) = true)
    by (vm_compute; reflexivity).
  apply existsb_exists in H as (x & I & C). apply in_split in I as (l1 & l2 & E). exists (x :: l2), (en_fs x).
  assert (C' : content (en_fs x) Manif = Some []) by (destruct (content (en_fs x) Manif) as [[|? ?]|]; [reflexivity|discriminate C|discriminate C]).
  split; [exact waiting_reach|]. split; [econstructor; exact E|]. split; [exact C'|].
  intros e (c & Hc & D). rewrite C' in Hc. inversion Hc; subst. vm_compute in D. discriminate.
Qed.
Print Assumptions c18_manifest_not_atomic.
