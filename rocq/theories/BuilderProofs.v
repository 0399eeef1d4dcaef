From Verif Require Import Base Types Builder SpecBuilder.

Definition pick {A} (f : setter -> option A) (ops : list setter) (o : option A) : option A :=
  match last_of f ops with Some x => Some x | None => o end.
Lemma pick_cons {A} (f : setter -> option A) s ops o :
  pick f (s :: ops) o = pick f ops (match f s with Some x => Some x | None => o end).
Proof. unfold pick. cbn. destruct (last_of f ops); auto. Qed.
Lemma pick_nil {A} (f : setter -> option A) o : pick f [] o = o.
Proof. reflexivity. Qed.
Lemma pick_none {A} (f : setter -> option A) ops : pick f ops None = last_of f ops.
Proof. unfold pick. destruct (last_of f ops); auto. Qed.

Definition bview (b : builder) (ops : list setter) : builder :=
  Builder (pick the_version ops (b_version b)) (pick the_namespace ops (b_namespace b)) (pick the_hash ops (b_hash b))
    (pick the_restart ops (b_restart b)) (pick the_bridge ops (b_bridge b)) (pick the_debug ops (b_debug b)) (pick the_args ops (b_args b))
    (pick the_env ops (b_env b)) (pick the_manifest_set ops (b_manifest_set b)) (pick the_share_set ops (b_share_set b))
    (pick the_enclave ops (b_enclave b)) (pick the_patch_set ops (b_patch_set b)) (pick the_dns ops (b_dns b)).

Lemma fold_view ops : forall b, fold_left apply_setter ops b = bview b ops.
Proof.
  induction ops as [|s ops IH]; intros b; cbn [fold_left]; [destruct b; reflexivity|].
  rewrite IH. unfold bview. rewrite !pick_cons. destruct b, s; reflexivity.
Qed.

Lemma new_view ops : fold_left apply_setter ops builder_new =
  Builder (last_of the_version ops) (last_of the_namespace ops) (last_of the_hash ops)
    (last_of the_restart ops) (last_of the_bridge ops) (last_of the_debug ops) (last_of the_args ops)
    (last_of the_env ops) (last_of the_manifest_set ops) (last_of the_share_set ops)
    (last_of the_enclave ops) (last_of the_patch_set ops) (last_of the_dns ops).
Proof.
  rewrite fold_view. unfold bview, builder_new. cbn [b_version b_namespace b_hash b_restart b_bridge b_debug b_args b_env b_manifest_set b_share_set b_enclave b_patch_set b_dns]. now rewrite !pick_none.
Qed.

Lemma given_unwrap {A} (f : setter -> option A) ops d x : given f ops d x <-> unwrap_or (last_of f ops) d = x.
Proof. unfold given. destruct (last_of f ops); cbn; intuition congruence. Qed.

Lemma given_version ops : given the_version ops MV2 MV2 <-> last_of the_version ops <> Some MV1.
Proof. rewrite given_unwrap. destruct (last_of the_version ops) as [[|]|]; cbn; intuition congruence. Qed.

Lemma builder_described ops m : build (fold_left apply_setter ops builder_new) = Ok m <-> described ops m.
Proof.
  rewrite new_view. unfold build, described.
  rewrite !given_unwrap.
  cbn [b_version b_namespace b_hash b_restart b_bridge b_debug b_args b_env b_manifest_set b_share_set b_enclave b_patch_set b_dns].
  destruct m as [m|m|m];
    [rewrite (given_version ops), (given_unwrap the_env ops)| | ];
    generalize (last_of the_version ops), (last_of the_namespace ops), (last_of the_hash ops),
    (last_of the_restart ops), (last_of the_bridge ops), (last_of the_debug ops), (last_of the_args ops),
    (last_of the_env ops), (last_of the_manifest_set ops), (last_of the_share_set ops),
    (last_of the_enclave ops), (last_of the_patch_set ops), (last_of the_dns ops); clear ops;
  intros v n h r b d a e ms ss en ps dn.
  - destruct n; [|split; [discriminate|intros (X & _); discriminate X]].
    destruct h; [|split; [discriminate|intros (_ & X & _); discriminate X]].
    destruct ms; [|split; [discriminate|intros (_ & _ & X & _); discriminate X]].
    destruct ss; [|split; [discriminate|intros (_ & _ & _ & X & _); discriminate X]].
    destruct en; [|split; [discriminate|intros (_ & _ & _ & _ & X & _); discriminate X]].
    destruct m as [n' [h' r' br' d' a' ev'] ms' ss' e' ps'].
    unfold vm_namespace, vm_pivot_hash, vm_manifest_set, vm_share_set, vm_enclave, vm_restart, vm_bridge, vm_debug, vm_args;
    cbn [mf2_namespace mf2_pivot mf2_manifest_set mf2_share_set mf2_enclave mf2_dns pv2_hash pv2_restart pv2_bridge pv2_debug pv2_args pv2_env ok_or rbind].
    assert (V : v = Some MV1 \/ (v <> Some MV1 /\ unwrap_or v MV2 = MV2)) by (destruct v as [[|]|]; [left|right|right]; auto; split; [discriminate|auto|discriminate|auto]).
    destruct V as [->|[V ->]].
    + cbn [unwrap_or]. split; [|intros (_ & _ & _ & _ & _ & _ & _ & _ & _ & X & _); congruence].
      destruct e, dn, ps; discriminate.
    + destruct ps; [split; [discriminate|intros (_ & _ & _ & _ & _ & _ & _ & _ & _ & _ & X & _); discriminate X]|].
      split.
      * intros X. injection X as -> -> -> -> -> -> -> -> -> -> ->. repeat split; auto.
      * intros (A1 & A2 & A3 & A4 & A5 & A6 & A7 & A8 & A9 & _ & _ & A10 & A11). congruence.
  - destruct n; [|split; [discriminate|intros (X & _); discriminate X]].
    destruct h; [|split; [discriminate|intros (_ & X & _); discriminate X]].
    destruct ms; [|split; [discriminate|intros (_ & _ & X & _); discriminate X]].
    destruct ss; [|split; [discriminate|intros (_ & _ & _ & X & _); discriminate X]].
    destruct en; [|split; [discriminate|intros (_ & _ & _ & _ & X & _); discriminate X]].
    destruct m as [n' [h' r' br' d' a'] ms' ss' e' ps'].
    unfold vm_namespace, vm_pivot_hash, vm_manifest_set, vm_share_set, vm_enclave, vm_restart, vm_bridge, vm_debug, vm_args;
    cbn [mf_namespace mf_pivot mf_manifest_set mf_share_set mf_enclave mf_patch_set pv_hash pv_restart pv_bridge pv_debug pv_args ok_or rbind].
    assert (V : v = Some MV1 \/ (v <> Some MV1 /\ unwrap_or v MV2 = MV2)) by (destruct v as [[|]|]; [left|right|right]; auto; split; [discriminate|auto|discriminate|auto]).
    destruct V as [->|[V ->]].
    + cbn [unwrap_or].
      destruct e; [split; [discriminate|intros (_ & _ & _ & _ & _ & _ & _ & _ & _ & _ & _ & X & _); discriminate X]|].
      destruct dn; [split; [discriminate|intros (_ & _ & _ & _ & _ & _ & _ & _ & _ & _ & _ & _ & X); discriminate X]|].
      destruct ps; cbn [ok_or rbind]; [|split; [discriminate|intros (_ & _ & _ & _ & _ & _ & _ & _ & _ & _ & X & _); discriminate X]].
      split.
      * intros X. injection X as -> -> -> -> -> -> -> -> -> ->. repeat split; auto.
      * intros (A1 & A2 & A3 & A4 & A5 & A6 & A7 & A8 & A9 & _ & A10 & _). congruence.
    + split; [|intros (_ & _ & _ & _ & _ & _ & _ & _ & _ & X & _); congruence].
      destruct ps; discriminate.
  - split; [|intros (_ & _ & _ & _ & _ & _ & _ & _ & _ & [])].
    destruct n, h, ms, ss, en; try discriminate.
    cbn [ok_or rbind]. destruct (unwrap_or v MV2); [destruct e, dn, ps|destruct ps]; discriminate.
Qed.

Lemma builder_complete ops : is_ok (build (fold_left apply_setter ops builder_new)) = true <-> complete ops.
Proof.
  rewrite new_view. unfold build, complete.
  cbn [b_version b_namespace b_hash b_restart b_bridge b_debug b_args b_env b_manifest_set b_share_set b_enclave b_patch_set b_dns].
    generalize (last_of the_version ops), (last_of the_namespace ops), (last_of the_hash ops),
    (last_of the_restart ops), (last_of the_bridge ops), (last_of the_debug ops), (last_of the_args ops),
    (last_of the_env ops), (last_of the_manifest_set ops), (last_of the_share_set ops),
    (last_of the_enclave ops), (last_of the_patch_set ops), (last_of the_dns ops); clear ops;
  intros v n h r b d a e ms ss en ps dn.
  destruct n; [|split; [discriminate|intros (X & _); congruence]].
  destruct h; [|split; [discriminate|intros (_ & X & _); congruence]].
  destruct ms; [|split; [discriminate|intros (_ & _ & X & _); congruence]].
  destruct ss; [|split; [discriminate|intros (_ & _ & _ & X & _); congruence]].
  destruct en; [|split; [discriminate|intros (_ & _ & _ & _ & X & _); congruence]].
  cbn [ok_or rbind].
  assert (V : v = Some MV1 \/ (v <> Some MV1 /\ unwrap_or v MV2 = MV2)) by (destruct v as [[|]|]; [left|right|right]; auto; split; [discriminate|auto|discriminate|auto]).
  destruct V as [->|[V ->]].
  - cbn [unwrap_or]. split.
    + intros X. destruct e; [discriminate X|]. destruct dn; [discriminate X|]. destruct ps; [|discriminate X].
      repeat split; congruence.
    + intros (_ & _ & _ & _ & _ & X & _). destruct (X eq_refl) as (A & B & C). rewrite B, C. destruct ps; [reflexivity|congruence].
  - split.
    + intros X. destruct ps; [discriminate X|]. repeat split; congruence.
    + intros (_ & _ & _ & _ & _ & _ & X). now rewrite (X V).
Qed.
