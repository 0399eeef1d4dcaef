(** The serde decoders do not see the order of object members (C93). *)
From Verif Require Import Base Utf8 Hex Json JsonProofs SpecLayout LayoutProofs Types TypesJson Env EnvProofs JsonComb Msg MsgBorsh MsgJson.
From Coq Require Import Permutation ZifyBool ZifyN ZifyNat.
Local Open Scope N_scope.

Definition mem_rel (p q : option bytes * json) : Prop := fst p = fst q /\ reordered (snd p) (snd q).
Definition orel (o o' : option json) : Prop :=
  match o, o' with Some x, Some y => reordered x y | None, None => True | _, _ => False end.
Definition respects {A} (c : jcodec A) : Prop := forall d j j', reordered j j' -> jdec c d j = jdec c d j'.

Lemma F2_length {A B} (R : A -> B -> Prop) l l' : Forall2 R l l' -> length l = length l'.
Proof. induction 1; cbn; congruence. Qed.
Lemma ro_refl_list l : Forall2 reordered l l.
Proof. induction l; constructor; auto using ro_same. Qed.
Lemma mem_refl m : Forall2 mem_rel m m.
Proof. induction m; constructor; [split; [reflexivity|apply ro_same]|assumption]. Qed.
Lemma orel_refl o : orel o o.
Proof. destruct o; cbn; [apply ro_same|exact I]. Qed.

(** Scalars are only reordered to themselves. *)
Lemma ro_scalar j j' : reordered j j' -> (forall l, j <> JArr l) -> (forall m, j <> JObj m) -> j' = j.
Proof. intros [x|l l' _|m m1 m2 _ _ _] A O; [reflexivity|now destruct (A l)|now destruct (O m)]. Qed.
Lemma ro_arr_inv l j' : reordered (JArr l) j' -> exists l', j' = JArr l' /\ Forall2 reordered l l'.
Proof. inversion 1; subst; eauto using ro_refl_list. Qed.
Definition obj_rel (m m' : list (option bytes * json)) : Prop :=
  m' = m \/ NoDup (map fst m) /\ exists m1, Forall2 mem_rel m m1 /\ Permutation m1 m'.
Lemma ro_obj_inv m j' : reordered (JObj m) j' -> exists m', j' = JObj m' /\ obj_rel m m'.
Proof.
  inversion 1; subst; [eexists; split; [reflexivity|now left]|].
  eexists. split; [reflexivity|]. right. split; [assumption|]. eauto.
Qed.
Ltac ro_cases R :=
  match type of R with
  | reordered ?j ?j' =>
    destruct j as [| | | | |?l|?m];
    [apply ro_scalar in R as ->; [|discriminate..]..
    |let l' := fresh "l'" in let F := fresh "F" in apply ro_arr_inv in R as (l' & -> & F)
    |let m' := fresh "m'" in let O := fresh "O" in apply ro_obj_inv in R as (m' & -> & O)]
  end.

Lemma mem_rel_fst m m1 : Forall2 mem_rel m m1 -> map fst m = map fst m1.
Proof. induction 1 as [|p q m m1 (E & _) _ IH]; [reflexivity|]. cbn. now rewrite E, IH. Qed.
Lemma forallb_perm {A} (f : A -> bool) l l' : Permutation l l' -> forallb f l = forallb f l'.
Proof. induction 1; cbn; try congruence. destruct (f x), (f y); reflexivity. Qed.
Lemma forallb_F2 {A} (f : A -> bool) (R : A -> A -> Prop) l l' : (forall x y, R x y -> f x = f y) -> Forall2 R l l' -> forallb f l = forallb f l'.
Proof. intros H. induction 1; cbn; [reflexivity|]. now rewrite (H x y), IHForall2. Qed.
Lemma obj_forallb_fst (f : option bytes -> bool) m m' : obj_rel m m' -> forallb (fun p => f (fst p)) m = forallb (fun p => f (fst p)) m'.
Proof.
  intros [-> |(_ & m1 & F & P)]; [reflexivity|]. rewrite (forallb_F2 _ mem_rel m m1); [now apply forallb_perm| |exact F].
  intros x y (-> & _). reflexivity.
Qed.
Lemma filter_len_perm {A} (f : A -> bool) l l' : Permutation l l' -> length (filter f l) = length (filter f l').
Proof. induction 1; cbn; try congruence; repeat (destruct (f _)); cbn; congruence. Qed.
Lemma count_key_F2 k m m1 : Forall2 mem_rel m m1 -> count_key k m = count_key k m1.
Proof.
  unfold count_key. induction 1 as [|p q m m1 (E & _) _ IH]; [reflexivity|]. cbn [filter]. rewrite E.
  destruct (okey_eqb k (fst q)); cbn [length]; congruence.
Qed.
Lemma obj_count k m m' : obj_rel m m' -> count_key k m = count_key k m'.
Proof.
  intros [-> |(_ & m1 & F & P)]; [reflexivity|]. rewrite (count_key_F2 k m m1 F). unfold count_key. now apply filter_len_perm.
Qed.
Lemma find_last_F2 k m m1 : Forall2 mem_rel m m1 -> orel (find_last k m) (find_last k m1).
Proof.
  induction 1 as [|[o x] [o' y] m m1 (E & R) _ IH]; [exact I|]. cbn [fst snd] in E, R. subst o'. cbn [find_last].
  destruct (find_last k m), (find_last k m1); cbn [orel] in IH; try contradiction; [exact IH|].
  destruct (okey_eqb k o); [exact R|exact I].
Qed.
Lemma find_last_none {A} k (m : list (option bytes * A)) : ~ In (Some k) (map fst m) -> find_last k m = None.
Proof.
  induction m as [|[o x] m IH]; intros N; [reflexivity|]. cbn [find_last]. rewrite IH by (intros I; apply N; now right).
  destruct o as [k'|]; [|reflexivity]. cbn [okey_eqb]. destruct (bytes_eqb_spec k k') as [-> |]; [|reflexivity]. exfalso. apply N. now left.
Qed.
Lemma find_last_in {A} k (m : list (option bytes * A)) x : NoDup (map fst m) -> (find_last k m = Some x <-> In (Some k, x) m).
Proof.
  induction m as [|[o y] m IH]; intros N.
  - split; [discriminate|intros []].
  - cbn [map fst] in N. inversion N as [|? ? N1 N2]; subst. cbn [find_last In].
    destruct (find_last k m) as [z|] eqn:F.
    + specialize (IH N2). split.
      * intros [= ->]. right. now apply IH.
      * intros [[= -> ->]|I]; [|now apply IH]. exfalso. apply N1.
        assert (Some z = Some z) as Z by reflexivity.
        destruct (in_dec (fun a b : option bytes => ltac:(decide equality; apply (list_eq_dec Byte.byte_eq_dec))) (Some k) (map fst m)) as [I|I]; [exact I|].
        apply find_last_none in I. congruence.
    + destruct o as [k'|]; cbn [okey_eqb].
      * destruct (bytes_eqb_spec k k') as [-> |NE].
        -- split; [intros [= ->]; now left|]. intros [[= ->]|I]; [reflexivity|]. exfalso. apply N1. apply (in_map fst) in I. exact I.
        -- split; [discriminate|]. intros [[= -> ->]|I]; [congruence|]. apply IH in I; [discriminate|exact N2].
      * split; [discriminate|]. intros [[=]|I]. apply IH in I; [discriminate|exact N2].
Qed.
Lemma find_last_perm {A} k (m m' : list (option bytes * A)) : NoDup (map fst m) -> Permutation m m' -> find_last k m = find_last k m'.
Proof.
  intros N P. assert (N' : NoDup (map fst m')) by (eapply Permutation_NoDup; [apply Permutation_map; exact P|exact N]).
  destruct (find_last k m) as [x|] eqn:E.
  - symmetry. apply find_last_in; [exact N'|]. eapply Permutation_in; [exact P|]. now apply find_last_in.
  - destruct (find_last k m') as [x|] eqn:E'; [|reflexivity]. apply find_last_in in E'; [|exact N'].
    eapply Permutation_in in E'; [|apply Permutation_sym; exact P]. apply find_last_in in E'; [congruence|exact N].
Qed.
Lemma obj_find k m m' : obj_rel m m' -> orel (find_last k m) (find_last k m').
Proof.
  intros [-> |(N & m1 & F & P)]; [apply orel_refl|]. rewrite <- (find_last_perm k m1 m').
  - now apply find_last_F2.
  - rewrite <- (mem_rel_fst m m1 F). exact N.
  - exact P.
Qed.

Definition fields_rel (o o' : option (list (option json))) : Prop :=
  match o, o' with Some l, Some l' => Forall2 orel l l' | None, None => True | _, _ => False end.
Lemma dec_struct_rel names deny d j j' : reordered j j' -> fields_rel (dec_struct names deny d j) (dec_struct names deny d j').
Proof.
  intros R. unfold dec_struct. destruct d as [|[|d]]; [exact I..|].
  ro_cases R; try exact I.
  - assert (L : length l' = length l) by (symmetry; exact (F2_length _ _ _ F)). rewrite L.
    destruct (_ <=? _)%nat; [|exact I]. cbn [fields_rel]. apply Forall2_app.
    + clear L. induction F; constructor; auto.
    + induction (length names - length l)%nat; constructor; auto. exact I.
  - rewrite (obj_forallb_fst is_some m m' O), (obj_forallb_fst (okey_in names) m m' O).
    replace (forallb (fun n => (count_key n m <=? 1)%nat) names) with (forallb (fun n => (count_key n m' <=? 1)%nat) names).
    2:{ clear - O. induction names as [|n names IH]; [reflexivity|]. cbn [forallb]. now rewrite IH, (obj_count n m m' O). }
    destruct (_ && _); [|exact I]. cbn [fields_rel]. induction names; constructor; auto. now apply obj_find.
Qed.

(** ** Leaves *)
Ltac leaf := intros d j j' R; ro_cases R; reflexivity.
Lemma re_string : respects js_string. Proof. leaf. Qed.
Lemma re_hex : respects js_hex. Proof. leaf. Qed.
Lemma re_hex_n n : respects (js_hex_n n). Proof. leaf. Qed.
Lemma re_uint n : respects (js_uint n). Proof. leaf. Qed.
Lemma re_bool : respects js_bool. Proof. leaf. Qed.
Lemma re_ip : respects js_ip. Proof. leaf. Qed.
Lemma re_vec {A} (c : jcodec A) : respects c -> respects (js_vec c).
Proof.
  intros C d j j' R. cbn [js_vec jdec]. destruct d as [|[|d]]; [reflexivity..|].
  ro_cases R; try reflexivity. replace (map (jdec c (S d)) l') with (map (jdec c (S d)) l); [reflexivity|].
  induction F as [|x y l l' R F IH]; [reflexivity|]. cbn [map]. now rewrite (C _ _ _ R), IH.
Qed.
Lemma obj_one m m' p : obj_rel m m' -> m = [p] -> exists q, m' = [q] /\ mem_rel p q.
Proof.
  intros [-> |(_ & m1 & F & P)] ->; [exists p; split; [reflexivity|split; [reflexivity|apply ro_same]]|].
  inversion F as [|? q ? ? R F']; subst. inversion F'; subst. apply Permutation_length_1_inv in P. eauto.
Qed.
Lemma obj_len m m' : obj_rel m m' -> length m = length m'.
Proof. intros [-> |(_ & m1 & F & P)]; [reflexivity|]. rewrite (F2_length _ _ _ F). now apply Permutation_length. Qed.
Lemma enum_text_re j j' d : reordered j j' -> enum_text j d = enum_text j' d.
Proof.
  intros R. ro_cases R; try reflexivity.
  destruct m as [|p [|p' m]].
  - apply obj_len in O. destruct m'; [reflexivity|discriminate].
  - destruct (obj_one _ m' p O eq_refl) as (q & -> & E & R). destruct p as [o x], q as [o' y]. cbn [fst snd] in E, R. subst o'.
    destruct o as [k|]; [|reflexivity]. cbn [enum_text]. ro_cases R; reflexivity.
  - apply obj_len in O. destruct m' as [|q [|q' m']]; try discriminate. destruct p as [[k|] []], q as [[k'|] []]; reflexivity.
Qed.
Lemma re_restart : respects js_restart.
Proof. intros d j j' R. cbn [js_restart jdec]. now rewrite (enum_text_re j j' d R). Qed.
Lemma re_phase : respects js_phase.
Proof. intros d j j' R. cbn [js_phase jdec]. now rewrite (enum_text_re j j' d R). Qed.
Lemma dec_version_re d j j' : reordered j j' -> dec_version d j = dec_version d j'.
Proof. intros R. unfold dec_version. now rewrite (enum_text_re j j' d R). Qed.

Lemma strict_re : forall j d j', reordered j j' -> strict d j = strict d j'.
Proof.
  induction j as [| |z|raw|s|l IH|m IH] using json_ind'; intros d j' R;
    try (apply ro_scalar in R as ->; [reflexivity|discriminate..]).
  - apply ro_arr_inv in R as (l' & -> & F). cbn [strict]. destruct d as [|[|d]]; [reflexivity..|].
    revert IH. induction F as [|x y l l' R F IHF]; intros IH; [reflexivity|]. inversion IH; subst. cbn [forallb].
    rewrite IHF by assumption. f_equal. auto.
  - apply ro_obj_inv in R as (m' & -> & O). cbn [strict]. destruct d as [|[|d]]; [reflexivity..|].
    destruct O as [-> |(_ & m1 & F & P)]; [reflexivity|]. rewrite <- (forallb_perm _ m1 m' P).
    clear P. revert IH. induction F as [|x y m m1 (E & R) F IHF]; intros IH; [reflexivity|]. inversion IH; subst. cbn [forallb].
    rewrite IHF by assumption. rewrite E. f_equal. f_equal. auto.
Qed.

Lemma req_re {A} (c : jcodec A) d o o' : respects c -> orel o o' -> req c d o = req c d o'.
Proof. intros C R. destruct o, o'; cbn [orel] in R; try contradiction; [apply C; exact R|reflexivity]. Qed.
Create HintDb re discriminated.
#[local] Hint Resolve re_string re_hex re_hex_n re_uint re_bool re_ip re_vec re_restart re_phase : re.
#[local] Hint Extern 1 (respects js_u16) => exact (re_uint 65536) : re.
#[local] Hint Extern 1 (respects js_u32) => exact (re_uint 4294967296) : re.

(** The parts of a struct are read one by one. *)
Lemma obind_re {A B} (x y : option A) (f g : A -> option B) : x = y -> (forall a, f a = g a) -> obind x f = obind y g.
Proof. intros -> H. destruct y; [apply H|reflexivity]. Qed.
Lemma F2_nil {A B} (R : A -> B -> Prop) l' : Forall2 R [] l' -> l' = [].
Proof. now inversion 1. Qed.
Lemma F2_cons {A B} (R : A -> B -> Prop) x l l' : Forall2 R (x :: l) l' -> exists y r, l' = y :: r /\ R x y /\ Forall2 R l r.
Proof. inversion 1; subst; eauto. Qed.
Ltac fields F :=
  lazymatch type of F with
  | Forall2 orel ?l ?l' =>
    destruct l as [|?o ?l];
    [apply F2_nil in F; subst l'; try reflexivity
    |let F' := fresh "F" in apply F2_cons in F as (?o & ?l & -> & ?R & F'); try reflexivity; fields F']
  end.
Ltac struct_re :=
  let d := fresh "d" in let j := fresh "j" in let j' := fresh "j'" in let R := fresh "R" in
  intros d j j' R;
  match goal with |- jdec ?c _ _ = _ => unfold c; cbn [jdec] end;
  match goal with |- context [dec_struct ?n ?deny d j] =>
    let F := fresh "F" in pose proof (dec_struct_rel n deny d j j' R) as F;
    destruct (dec_struct n deny d j) as [?l|], (dec_struct n deny d j') as [?l'|]; cbn [fields_rel] in F; try contradiction; [|reflexivity]
  end;
  match goal with F : Forall2 orel _ _ |- _ => fields F end;
  repeat (apply obind_re; [apply req_re; [auto 6 with re|assumption]|intros ?]); try reflexivity.

Lemma re_nitro : respects js_nitro. Proof. struct_re. Qed.
Lemma re_member : respects js_member. Proof. struct_re. Qed.
#[local] Hint Resolve re_nitro re_member : re.
Lemma re_member_set : respects js_member_set. Proof. struct_re. Qed.
Lemma re_member_pub_key : respects js_member_pub_key. Proof. struct_re. apply req_re; auto with re. Qed.
#[local] Hint Resolve re_member_set re_member_pub_key : re.
Lemma re_patch_set : respects js_patch_set. Proof. struct_re. Qed.
Lemma re_namespace : respects js_namespace. Proof. struct_re. Qed.
Lemma re_pivot_v0 : respects js_pivot_v0. Proof. struct_re. Qed.
Lemma re_dns : respects js_dns. Proof. struct_re. Qed.
Lemma re_approval : respects js_approval. Proof. struct_re. Qed.
#[local] Hint Resolve re_patch_set re_namespace re_pivot_v0 re_dns re_approval : re.

Lemma F2_filter (f : option bytes -> bool) m m1 : Forall2 mem_rel m m1 ->
  Forall2 mem_rel (filter (fun p => f (fst p)) m) (filter (fun p => f (fst p)) m1).
Proof.
  induction 1 as [|p q m m1 (E & R) F IH]; [constructor|]. cbn [filter]. rewrite E. destruct (f (fst q)); [|exact IH].
  constructor; [split; assumption|exact IH].
Qed.
Lemma perm_filter {A} (f : A -> bool) l l' : Permutation l l' -> Permutation (filter f l) (filter f l').
Proof.
  induction 1 as [|x l l' _ IH|x y l|l l1 l2 _ IH1 _ IH2]; cbn [filter].
  - constructor.
  - destruct (f x); [now constructor|exact IH].
  - destruct (f x), (f y); try apply Permutation_refl. apply perm_swap.
  - now apply (Permutation_trans IH1).
Qed.
Lemma nodup_filter (f : option bytes -> bool) (m : list (option bytes * json)) : NoDup (map fst m) -> NoDup (map fst (filter (fun p => f (fst p)) m)).
Proof.
  induction m as [|p m IH]; intros N; [constructor|]. cbn [map] in N. inversion N as [|? ? N1 N2]; subst. cbn [filter].
  destruct (f (fst p)); [|now apply IH]. cbn [map]. constructor; [|now apply IH].
  intros I. apply N1. apply in_map_iff in I as (q & <- & I). apply filter_In in I as (I & _). now apply in_map.
Qed.
Lemma obj_filter (f : option bytes -> bool) m m' : obj_rel m m' ->
  reordered (JObj (filter (fun p => f (fst p)) m)) (JObj (filter (fun p => f (fst p)) m')).
Proof.
  intros [-> |(N & m1 & F & P)]; [apply ro_same|]. 
  apply (ro_obj _ (filter (fun p => f (fst p)) m1)); [now apply F2_filter|now apply nodup_filter|now apply perm_filter].
Qed.
Lemma bridge_fields_re tag o o' : fields_rel o o' -> dec_bridge_fields tag o = dec_bridge_fields tag o'.
Proof.
  intros F. destruct o as [l|], o' as [l'|]; cbn [fields_rel] in F; try contradiction; [|reflexivity]. unfold dec_bridge_fields.
  fields F. apply obind_re; [apply req_re; [exact (re_uint 65536)|assumption]|]. intros p.
  destruct (bytes_eqb tag _); [apply obind_re; [apply req_re; [exact re_string|assumption]|reflexivity]|].
  destruct (bytes_eqb tag _); [|reflexivity].
  match goal with R : orel ?a ?b |- context [match ?a with _ => _ end] =>
    destruct a as [x|], b as [y|]; cbn [orel] in R; try contradiction; [|reflexivity]; rename R into RR end.
  ro_cases RR; try reflexivity.
Qed.
Lemma re_bridge : respects js_bridge.
Proof.
  intros d j j' R. cbn [js_bridge jdec]. rewrite (strict_re j d j' R). destruct (strict d j'); [|reflexivity].
  ro_cases R; try reflexivity.
  - destruct F as [|x y l l' R F]; [reflexivity|]. 
    destruct x as [| | | |s| |]; try (apply ro_scalar in R as ->; [|discriminate..]; try reflexivity).
    + destruct s as [tag|]; [|reflexivity]. apply bridge_fields_re, dec_struct_rel. now constructor.
    + apply ro_arr_inv in R as (? & -> & _). reflexivity.
    + apply ro_obj_inv in R as (? & -> & _). reflexivity.
  - rewrite (obj_count K_type m m' O). destruct (_ =? 1)%nat; [|reflexivity].
    pose proof (obj_find K_type m m' O) as E. destruct (find_last K_type m) as [x|], (find_last K_type m') as [y|]; cbn [orel] in E; try contradiction; [|reflexivity].
    ro_cases E; try reflexivity. destruct s as [tag|]; [|reflexivity]. apply bridge_fields_re, dec_struct_rel.
    exact (obj_filter (fun k => negb (okey_eqb K_type k)) m m' O).
Qed.
#[local] Hint Resolve re_bridge : re.
Lemma re_pivot : respects js_pivot. Proof. struct_re. Qed.
#[local] Hint Resolve re_pivot : re.
Lemma re_manifest : respects js_manifest. Proof. struct_re. Qed.
Lemma re_manifest_v0 : respects js_manifest_v0. Proof. struct_re. Qed.
#[local] Hint Resolve re_manifest re_manifest_v0 : re.
Lemma re_envelope : respects js_envelope. Proof. struct_re. Qed.
Lemma re_envelope_v0 : respects js_envelope_v0. Proof. struct_re. Qed.

(** ** The environment: a map with distinct names *)
Lemma re_env_value : respects js_env_value.
Proof.
  intros d j j' R. cbn [js_env_value jdec]. destruct d as [|[|d]]; [reflexivity..|]. ro_cases R; try reflexivity.
  destruct m as [|p [|p' m]].
  - apply obj_len in O. destruct m'; [reflexivity|discriminate].
  - destruct (obj_one _ m' p O eq_refl) as (q & -> & E & R). destruct p as [o x], q as [o' y]. cbn [fst snd] in E, R. subst o'.
    destruct o as [k|]; [|reflexivity]. destruct (bytes_eqb k _); [|reflexivity].
    pose proof (dec_struct_rel [bs "value"] false (S d) x y R) as F.
    destruct (dec_struct [bs "value"] false (S d) x) as [l|], (dec_struct [bs "value"] false (S d) y) as [l'|]; cbn [fields_rel] in F; try contradiction; [|reflexivity].
    destruct l as [|a [|a' l]].
    { apply F2_nil in F as ->. reflexivity. }
    2:{ apply F2_cons in F as (b & r & -> & _ & F). apply F2_cons in F as (b' & r' & -> & _ & _).
        destruct a as [[| | | |[]| |]|], b as [[| | | |[]| |]|]; reflexivity. }
    apply F2_cons in F as (b & r & -> & RR & F). apply F2_nil in F as ->.
    destruct a as [u|], b as [v|]; cbn [orel] in RR; try contradiction; [|reflexivity].
    ro_cases RR; reflexivity.
  - apply obj_len in O. destruct m' as [|q [|q' m']]; try discriminate. destruct p as [[k|] v], q as [[k'|] v']; reflexivity.
Qed.
Lemma map_get_collect {V} k (l : list (bytes * V)) : NoDup (map fst l) -> forall acc, 
  map_get k (fold_left (fun m p => map_insert (fst p) (snd p) m) l acc)
  = match map_get k l with Some v => Some v | None => map_get k acc end.
Proof.
  induction l as [|[k' v] l IH]; intros N acc; [reflexivity|]. inversion N as [|? ? N1 N2]; subst. cbn [fold_left fst snd map_get].
  rewrite (IH N2), map_get_insert. destruct (bytes_eqb_spec k k') as [-> |]; [|reflexivity].
  assert (G : map_get k' l = None).
  { clear - N1. induction l as [|[a b] l IH]; [reflexivity|]. cbn [map_get]. destruct (bytes_eqb_spec k' a) as [-> |]; [exfalso; apply N1; now left|].
    apply IH. intros I. apply N1. now right. }
  now rewrite G.
Qed.
Lemma get_lt {V} a k v (m : list (bytes * V)) : all_lt a m -> map_get k m = Some v -> bytes_ltb a k = true.
Proof.
  induction 1 as [|[k' v'] m L _ IH]; [discriminate|]. cbn [map_get fst] in *. destruct (bytes_eqb_spec k k') as [-> |]; [intros _; exact L|exact IH].
Qed.
Lemma sorted_ext {V} (m : list (bytes * V)) : forall m', sorted_keys m = true -> sorted_keys m' = true ->
  (forall k, map_get k m = map_get k m') -> m = m'.
Proof.
  induction m as [|[k v] m IH]; intros m' S S' E.
  - destruct m' as [|[k' v'] m']; [reflexivity|]. specialize (E k'). cbn [map_get] in E. rewrite bytes_eqb_refl in E. discriminate.
  - destruct m' as [|[k' v'] m'].
    { specialize (E k). cbn [map_get] in E. rewrite bytes_eqb_refl in E. discriminate. }
    apply sorted_cons in S as [S1 S2]. apply sorted_cons in S' as [S1' S2'].
    assert (K : k = k').
    { destruct (bytes_eqb_spec k k') as [|NE]; [assumption|]. exfalso.
      pose proof (E k) as E1. pose proof (E k') as E2. cbn [map_get] in E1, E2. rewrite bytes_eqb_refl in E1, E2.
      destruct (bytes_eqb_spec k k'); [contradiction|]. destruct (bytes_eqb_spec k' k); [congruence|].
      symmetry in E1. pose proof (get_lt _ _ _ _ S1' E1) as A. pose proof (get_lt _ _ _ _ S1 E2) as B.
      rewrite (bytes_ltb_asym _ _ A) in B. discriminate. }
    subst k'. f_equal.
    + specialize (E k). cbn [map_get] in E. rewrite bytes_eqb_refl in E. congruence.
    + apply IH; [assumption..|]. intros x. specialize (E x). cbn [map_get] in E.
      destruct (bytes_eqb_spec x k) as [e|]; [|exact E]. rewrite e. rewrite (all_lt_get k m S1), (all_lt_get k m' S1'). reflexivity.
Qed.
Lemma map_get_in {V} k v (l : list (bytes * V)) : NoDup (map fst l) -> (map_get k l = Some v <-> In (k, v) l).
Proof.
  induction l as [|[k' v'] l IH]; intros N; [split; [discriminate|intros []]|]. inversion N as [|? ? N1 N2]; subst. cbn [map_get In].
  destruct (bytes_eqb_spec k k') as [-> |NE].
  - split; [intros [= ->]; now left|]. intros [[= ->]|I]; [reflexivity|]. exfalso. apply N1. apply (in_map fst) in I. exact I.
  - rewrite (IH N2). split; [now right|]. intros [[= -> ->]|I]; [congruence|exact I].
Qed.
Lemma map_get_perm {V} k (l l' : list (bytes * V)) : NoDup (map fst l) -> Permutation l l' -> map_get k l = map_get k l'.
Proof.
  intros N P. assert (N' : NoDup (map fst l')) by (eapply Permutation_NoDup; [apply Permutation_map; exact P|exact N]).
  destruct (map_get k l) as [x|] eqn:E.
  - symmetry. apply map_get_in; [exact N'|]. eapply Permutation_in; [exact P|]. now apply map_get_in.
  - destruct (map_get k l') as [x|] eqn:E'; [|reflexivity]. apply map_get_in in E'; [|exact N'].
    eapply Permutation_in in E'; [|apply Permutation_sym; exact P]. apply map_get_in in E'; [congruence|exact N].
Qed.
Lemma map_collect_perm {V} (l l' : list (bytes * V)) : NoDup (map fst l) -> Permutation l l' -> map_collect l = map_collect l'.
Proof.
  intros N P. assert (N' : NoDup (map fst l')) by (eapply Permutation_NoDup; [apply Permutation_map; exact P|exact N]).
  apply sorted_ext; [apply map_collect_is_sorted..|]. intros k. unfold map_collect.
  rewrite (map_get_collect k l N), (map_get_collect k l' N'), (map_get_perm k l l' N P). reflexivity.
Qed.
Lemma oseq_perm {A} (l l' : list (option A)) : Permutation l l' ->
  match oseq l, oseq l' with Some a, Some b => Permutation a b | None, None => True | _, _ => False end.
Proof.
  induction 1 as [|x l l' _ IH|x y l|l l1 l2 _ IH1 _ IH2].
  - constructor.
  - destruct x as [x|]; [|exact I]. cbn [oseq]. destruct (oseq l), (oseq l'); cbn [obind] in *; try contradiction; [now constructor|exact I].
  - destruct x as [x|], y as [y|]; cbn [oseq]; try exact I; destruct (oseq l); cbn [obind]; try exact I. apply perm_swap.
  - destruct (oseq l), (oseq l1), (oseq l2); try contradiction; try exact I. now apply (Permutation_trans IH1).
Qed.
Definition env_entry (d1 : nat) (p : option bytes * json) : option (bytes * bytes) :=
  match fst p with
  | Some k => let? n := name_new k in let? v := jdec js_env_value d1 (snd p) in Some (n, v)
  | None => None end.
Lemma env_entry_name d1 p n v : env_entry d1 p = Some (n, v) -> fst p = Some n.
Proof.
  unfold env_entry. destruct p as [[k|] x]; [|discriminate]. cbn [fst snd]. destruct (name_new k) as [n'|] eqn:E; [|discriminate]. cbn [obind].
  destruct (jdec js_env_value d1 x); [|discriminate]. cbn [obind]. intros H. assert (n' = n) by congruence. subst.
  unfold name_new in E. destruct (_ <? _); [discriminate|]. destruct k; [discriminate|]. destruct (negb _); [discriminate|]. destruct (existsb _ _); [discriminate|]. now rewrite E.
Qed.
Lemma env_entries_names d1 m l : oseq (map (env_entry d1) m) = Some l -> map fst m = map (fun p => Some (fst p)) l.
Proof.
  revert l. induction m as [|p m IH]; intros l; cbn [map oseq]; [intros [= <-]; reflexivity|].
  destruct (env_entry d1 p) as [[n v]|] eqn:E; [|discriminate]. destruct (oseq (map (env_entry d1) m)) as [r|] eqn:F; [|discriminate].
  cbn [obind]. intros [= <-]. cbn [map fst]. now rewrite (env_entry_name d1 p n v E), (IH r eq_refl).
Qed.
Lemma re_env : respects js_env.
Proof.
  intros d j j' R. cbn [js_env jdec]. destruct d as [|[|d]]; [reflexivity..|]. ro_cases R; try reflexivity.
  change (obind (oseq (map (env_entry (S d)) m)) (fun l => env_try_from (map_collect l))
          = obind (oseq (map (env_entry (S d)) m')) (fun l => env_try_from (map_collect l))).
  destruct O as [-> |(N & m1 & F & P)]; [reflexivity|].
  replace (map (env_entry (S d)) m) with (map (env_entry (S d)) m1).
  2:{ clear - F. induction F as [|p q m m1 (E & R) _ IH]; [reflexivity|]. cbn [map]. rewrite IH. f_equal.
      unfold env_entry. rewrite E, (re_env_value (S d) _ _ R). reflexivity. }
  rewrite (mem_rel_fst m m1 F) in N. clear m F.
  pose proof (oseq_perm _ _ (Permutation_map (env_entry (S d)) P)) as Q.
  destruct (oseq (map (env_entry (S d)) m1)) as [a|] eqn:E, (oseq (map (env_entry (S d)) m')) as [b|]; try contradiction; [|reflexivity].
  cbn [obind]. rewrite (map_collect_perm a b); [reflexivity| |exact Q].
  rewrite (env_entries_names _ _ _ E) in N. clear - N. rewrite <- (map_map fst Some) in N.
  eapply NoDup_map_inv. exact N.
Qed.

Lemma re_pivot_v2 : respects js_pivot_v2.
Proof.
  struct_re. apply obind_re; [|reflexivity].
  match goal with R : orel ?a ?b |- match ?a with _ => _ end = _ => destruct a as [x|], b as [y|]; cbn [orel] in R; try contradiction; [|reflexivity]; exact (re_env _ _ _ R) end.
Qed.
#[local] Hint Resolve re_pivot_v2 : re.
Lemma opt_re {A} (c : jcodec A) d o o' : respects c -> orel o o' -> opt_dec c d o = opt_dec c d o'.
Proof.
  intros C R. destruct o as [x|], o' as [y|]; cbn [orel] in R; try contradiction; [|reflexivity]. unfold opt_dec.
  pose proof (C (pred d) x y R) as E. ro_cases R; try reflexivity; now rewrite E.
Qed.
Lemma re_manifest_v2 : respects js_manifest_v2.
Proof.
  struct_re. apply obind_re.
  { match goal with R : orel ?a ?b |- match ?a with _ => _ end = _ => destruct a as [x|], b as [y|]; cbn [orel] in R; try contradiction; [|reflexivity]; exact (dec_version_re _ _ _ R) end. }
  intros _. repeat (apply obind_re; [apply req_re; [auto 6 with re|assumption]|intros ?]).
  apply obind_re; [|reflexivity].
  match goal with R : orel ?a ?b |- match ?a with _ => _ end = _ => exact (opt_re js_dns d a b re_dns R) end.
Qed.
#[local] Hint Resolve re_manifest_v2 : re.
Lemma re_envelope_v2 : respects js_envelope_v2. Proof. struct_re. Qed.
Lemma re_versioned_envelope : respects js_versioned_envelope.
Proof.
  intros d j j' R. cbn [js_versioned_envelope jdec].
  now rewrite (strict_re j d j' R), (re_envelope_v2 d j j' R), (re_envelope d j j' R), (re_envelope_v0 d j j' R).
Qed.
Lemma re_versioned_manifest : respects js_versioned_manifest.
Proof.
  intros d j j' R. cbn [js_versioned_manifest jdec].
  now rewrite (strict_re j d j' R), (re_manifest_v2 d j j' R), (re_manifest d j j' R), (re_manifest_v0 d j j' R).
Qed.

(** ** The combinators of JsonComb.v *)
Definition frespects {A} (f : jfields A) : Prop := forall d l l', Forall2 orel l l' -> fd f d l = fd f d l'.
Definition vrespects {A} (v : jvariants A) : Prop := forall k d o o', orel o o' -> vdec v k d o = vdec v k d o'.
Lemma f_one_re {A} n (c : jcodec A) : respects c -> frespects (f_one n c).
Proof.
  intros C d l l' F. cbn [f_one fd]. destruct F as [|o o' l l' R F]; [reflexivity|]. destruct F; [|reflexivity]. now apply req_re.
Qed.
Lemma f_opt1_re {A} n (c : jcodec A) : respects c -> frespects (f_opt1 n c).
Proof.
  intros C d l l' F. cbn [f_opt1 fd]. destruct F as [|o o' l l' R F]; [reflexivity|]. destruct F; [|reflexivity]. now apply opt_re.
Qed.
Lemma f_cons_re {A B} n (c : jcodec A) (f : jfields B) : respects c -> frespects f -> frespects (f_cons n c f).
Proof.
  intros C H d l l' F. cbn [f_cons fd]. destruct F as [|o o' l l' R F]; [reflexivity|]. now rewrite (req_re c d o o' C R), (H d l l' F).
Qed.
Lemma f_opt_re {A B} n (c : jcodec A) (f : jfields B) : respects c -> frespects f -> frespects (f_opt n c f).
Proof.
  intros C H d l l' F. cbn [f_opt fd]. destruct F as [|o o' l l' R F]; [reflexivity|]. now rewrite (opt_re c d o o' C R), (H d l l' F).
Qed.
Lemma js_struct_re {A} deny (f : jfields A) : frespects f -> respects (js_struct deny f).
Proof.
  intros H d j j' R. cbn [js_struct jdec]. pose proof (dec_struct_rel (fn f) deny d j j' R) as F.
  destruct (dec_struct (fn f) deny d j), (dec_struct (fn f) deny d j'); cbn [fields_rel] in F; try contradiction; [now apply H|reflexivity].
Qed.
Lemma js_iso_re {A B} (f : A -> B) (g : B -> A) (c : jcodec A) : respects c -> respects (js_iso f g c).
Proof. intros C d j j' R. cbn [js_iso jdec]. now rewrite (C d j j' R). Qed.
Lemma js_tuple2_re {A B} (a : jcodec A) (b : jcodec B) : respects a -> respects b -> respects (js_tuple2 a b).
Proof.
  intros HA HB d j j' R. cbn [js_tuple2 jdec]. destruct d as [|[|d]]; [reflexivity..|]. ro_cases R; try reflexivity.
  destruct F as [|x x' l l' RX F]; [reflexivity|]. destruct F as [|y y' l l' RY F]; [reflexivity|]. destruct F; [|reflexivity].
  now rewrite (HA _ _ _ RX), (HB _ _ _ RY).
Qed.
Lemma v_nil_re : vrespects v_nil. Proof. intros k d o o' R. reflexivity. Qed.
Lemma v_unit_re {B} n (v : jvariants B) : vrespects v -> vrespects (v_unit n v).
Proof.
  intros H k d o o' R. cbn [v_unit vdec]. destruct (bytes_eqb k n); [|now rewrite (H k d o o' R)].
  destruct o as [x|], o' as [y|]; cbn [orel] in R; try contradiction; [|reflexivity]. ro_cases R; reflexivity.
Qed.
Lemma v_new_re {A B} n (c : jcodec A) (v : jvariants B) : respects c -> vrespects v -> vrespects (v_new n c v).
Proof.
  intros C H k d o o' R. cbn [v_new vdec]. destruct (bytes_eqb k n); [|now rewrite (H k d o o' R)].
  destruct o as [x|], o' as [y|]; cbn [orel] in R; try contradiction; [|reflexivity]. now rewrite (C d x y R).
Qed.
Lemma v_skip_re {A B} (v : jvariants B) : vrespects v -> vrespects (@v_skip A B v).
Proof. intros H k d o o' R. cbn [v_skip vdec]. now rewrite (H k d o o' R). Qed.
Lemma js_enum_re {A} (v : jvariants A) : vrespects v -> respects (js_enum v).
Proof.
  intros H d j j' R. cbn [js_enum jdec]. ro_cases R; try reflexivity.
  destruct m as [|p [|p' m]].
  - apply obj_len in O. destruct m'; [reflexivity|discriminate].
  - destruct (obj_one _ m' p O eq_refl) as (q & -> & E & R). destruct p as [o x], q as [o' y]. cbn [fst snd] in E, R. subst o'.
    destruct o as [k|]; [|reflexivity]. destruct d as [|[|d]]; [reflexivity..|]. now apply H.
  - apply obj_len in O. destruct m' as [|q [|q' m']]; try discriminate. destruct p as [[k|] v1], q as [[k'|] v2]; reflexivity.
Qed.
Lemma re_set_u16 : respects js_set_u16.
Proof. intros d j j' R. cbn [js_set_u16 jdec]. now rewrite (re_vec js_u16 (re_uint 65536) d j j' R). Qed.
#[local] Hint Resolve re_set_u16 re_envelope re_envelope_v0 re_envelope_v2 re_versioned_envelope re_approval re_phase : re.

Ltac rcomb := repeat first
  [ apply js_iso_re | apply js_enum_re | apply js_struct_re | apply js_tuple2_re
  | apply v_unit_re | apply v_new_re | apply v_skip_re | apply v_nil_re
  | apply f_cons_re | apply f_opt_re | apply f_one_re | apply f_opt1_re | apply re_vec | solve [auto with re nocore] ].
Lemma re_nsm_code : respects js_nsm_code. Proof. unfold js_nsm_code, v_nsm_error_code. rcomb. Qed.
Lemma re_digest : respects js_digest. Proof. unfold js_digest, v_nsm_digest. rcomb. Qed.
#[local] Hint Resolve re_nsm_code re_digest : re.
Lemma re_nsm_response : respects js_nsm_response. Proof. unfold js_nsm_response, v_nsm_response. rcomb. Qed.
Lemma re_p256_error : respects js_p256_error. Proof. unfold js_p256_error, v_p256_error. rcomb. Qed.
#[local] Hint Resolve re_nsm_response re_p256_error : re.
Lemma re_perr : respects js_perr. Proof. unfold js_perr, v_perr. rcomb. Qed.
Lemma re_genesis_set : respects js_genesis_set. Proof. unfold js_genesis_set. rcomb. Qed.
Lemma re_member_shard : respects js_member_shard. Proof. unfold js_member_shard. rcomb. Qed.
Lemma re_member_output : respects js_member_output. Proof. unfold js_member_output. rcomb. Qed.
#[local] Hint Resolve re_perr re_genesis_set re_member_shard re_member_output : re.
Lemma re_genesis_output : respects js_genesis_output. Proof. unfold js_genesis_output. rcomb. Qed.
#[local] Hint Resolve re_genesis_output : re.
Lemma re_msg : respects js_msg. Proof. unfold js_msg, v_msg. rcomb. Qed.
