(** The model's codecs write exactly the layout of SpecBorsh.v. *)
From Coq Require Import Sorting.Sorted.
From Verif Require Import Base Utf8 Borsh BorshProofs Json Types TypesBorsh TypesJson JsonComb Msg MsgBorsh SpecBorsh Wire.
From Verif Require Proxy Services.
Require Import ZifyBool ZifyN ZifyNat.
Local Open Scope N_scope.

Definition Lays {A} (c : codec A) (lay : A -> bytes) (fit : A -> Prop) : Prop :=
  (forall a, enc c a = lay a) /\ (forall a, wf c a = true <-> fit a).

Lemma n2b_mod n : n2b (n mod 256) = n2b n.
Proof. unfold n2b. rewrite N.mod_mod by lia. reflexivity. Qed.

Lemma lays_u16 : Lays c_u16 lay_u16 (fun n => n < 2 ^ 16).
Proof.
  split; intros n.
  - cbn [enc c_u16 c_uint le_enc]. unfold lay_u16. rewrite !n2b_mod. reflexivity.
  - cbn [wf c_u16 c_uint]. change (pow256 2) with 65536. change (2 ^ 16) with 65536. lia.
Qed.
Lemma le4 n : le_enc 4 n = lay_u32 n.
Proof.
  cbn [le_enc]. unfold lay_u32. rewrite !n2b_mod, !N.div_div by lia. reflexivity.
Qed.
Lemma lays_u32 : Lays c_u32 lay_u32 (fun n => n < 2 ^ 32).
Proof.
  split; intros n.
  - apply le4.
  - cbn [wf c_u32 c_uint]. change (pow256 4) with 4294967296. change (2 ^ 32) with 4294967296. lia.
Qed.
Lemma lays_u64 : Lays c_u64 lay_u64 (fun n => n < 2 ^ 64).
Proof.
  split; intros n.
  - unfold lay_u64. rewrite <- !le4. cbn [enc c_u64 c_uint le_enc app]. change (2 ^ 32) with 4294967296.
    assert (M : forall k, k * (4294967296 / k / 256) * 256 = 4294967296 -> k <> 0 -> n2b (n mod 4294967296 / k) = n2b (n / k)).
    { intros k K K0. rewrite <- (n2b_mod (n mod 4294967296 / k)), <- (n2b_mod (n / k)). f_equal.
      set (q := 4294967296 / k / 256) in *. pose proof (N.div_mod n 4294967296 ltac:(lia)) as D.
      rewrite D at 2. rewrite <- K. replace (k * q * 256 * (n / (k * q * 256)) + n mod (k * q * 256)) with (n mod (k * q * 256) + (q * 256 * (n / (k * q * 256))) * k) by ring.
      rewrite N.div_add by exact K0. replace (q * 256 * (n / (k * q * 256))) with ((q * (n / (k * q * 256))) * 256) by ring.
      rewrite N.mod_add by lia. reflexivity. }
    rewrite !N.div_div by lia.
    assert (M1 : n2b (n mod 4294967296) = n2b n).
    { pose proof (M 1 eq_refl ltac:(lia)) as X. rewrite !N.div_1_r in X. exact X. }
    rewrite M1. change (256 * 256) with 65536. change (65536 * 256) with 16777216.
    rewrite (M 256 eq_refl), (M 65536 eq_refl), (M 16777216 eq_refl) by lia. reflexivity.
  - cbn [wf c_u64 c_uint]. change (pow256 8) with (2 ^ 64). lia.
Qed.
Lemma lenN_count {A} (l : list A) : lenN l = count l.
Proof. unfold count. rewrite lenN_length. reflexivity. Qed.
Lemma lays_bytes : Lays c_bytes lay_bytes fit_bytes.
Proof.
  split; intros s; cbn [enc wf c_bytes].
  - rewrite le4, lenN_count. reflexivity.
  - rewrite lenN_count. unfold fit_bytes, U32_LIMIT. change (2 ^ 32) with 4294967296. lia.
Qed.
Lemma text_valid s : utf8_valid s = true <->
  exists cs, s = utf8_enc cs /\ Forall (fun c => c < 55296 \/ 57344 <= c < 1114112) cs.
Proof.
  rewrite utf8_valid_iff. split; intros (cs & A & B); exists cs; split; auto.
  - unfold scalars in A. rewrite forallb_forall in A. apply Forall_forall. intros c I. specialize (A c I).
    unfold is_scalar in A. lia.
  - unfold scalars. rewrite forallb_forall. rewrite Forall_forall in B. intros c I. specialize (B c I).
    unfold is_scalar. lia.
Qed.
Lemma lays_text : Lays c_string lay_bytes fit_text.
Proof.
  split; intros s; cbn [enc wf c_string].
  - rewrite le4, lenN_count. reflexivity.
  - rewrite andb_true_iff, lenN_count, text_valid. unfold fit_text, U32_LIMIT.
    change (2 ^ 32) with 4294967296. rewrite N.ltb_lt. reflexivity.
Qed.
Lemma lays_bool : Lays c_bool lay_bool (fun _ => True).
Proof. split; intros b; [reflexivity|split; auto]. Qed.
Lemma lays_unit : Lays c_unit (fun _ => []) (fun _ => True).
Proof. split; intros b; [reflexivity|split; auto]. Qed.
Lemma lays_fixed n : Lays (c_fixed n) (fun x => x) (fun x => length x = n).
Proof. split; intros b; [reflexivity|]. cbn [wf c_fixed]. apply Nat.eqb_eq. Qed.
Lemma lays_pair {A B} (ca : codec A) (cb : codec B) la lb fa fb : Lays ca la fa -> Lays cb lb fb ->
  Lays (c_pair ca cb) (fun p => la (fst p) ++ lb (snd p)) (fun p => fa (fst p) /\ fb (snd p)).
Proof.
  intros [E1 W1] [E2 W2]. split; intros p; cbn [enc wf c_pair].
  - rewrite E1, E2. reflexivity.
  - rewrite andb_true_iff, W1, W2. reflexivity.
Qed.
Lemma lays_list {A} (ca : codec A) la fa : Lays ca la fa -> Lays (c_vec ca) (lay_list la) (fit_list fa).
Proof.
  intros [E W]. split; intros l; cbn [enc wf c_vec].
  - rewrite le4, lenN_count. unfold lay_list. rewrite (map_ext (enc ca) la E). reflexivity.
  - rewrite andb_true_iff, lenN_count. unfold fit_list, U32_LIMIT. change (2 ^ 32) with 4294967296.
    rewrite N.ltb_lt, forallb_forall, Forall_forall.
    split; intros [X Y]; (split; [exact X|]); intros x I; apply W, Y, I.
Qed.
Lemma lays_opt {A} (ca : codec A) la fa : Lays ca la fa -> Lays (c_option ca) (lay_opt la) (fit_opt fa).
Proof.
  intros [E W]. split; intros [a|]; cbn [enc wf c_option].
  - rewrite E. reflexivity.
  - reflexivity.
  - unfold fit_opt. rewrite W. split; [intros H x X; inversion X; subst; exact H|intros H; apply H; reflexivity].
  - unfold fit_opt. split; [intros _ x X; discriminate|auto].
Qed.
Lemma lays_iso {A B} (f : A -> B) (g : B -> A) (ca : codec A) la fa lb fb : Lays ca la fa ->
  (forall b, la (g b) = lb b) -> (forall b, fa (g b) <-> fb b) -> Lays (c_iso f g ca) lb fb.
Proof.
  intros [E W] L F. split; intros b; cbn [enc wf c_iso].
  - rewrite E. apply L.
  - rewrite W. apply F.
Qed.
Lemma lays_ext {A} (c : codec A) la fa lb fb : Lays c la fa ->
  (forall b, la b = lb b) -> (forall b, fa b <-> fb b) -> Lays c lb fb.
Proof. intros [E W] L F. split; intros b; [rewrite E; apply L|rewrite W; apply F]. Qed.

(** The alternatives of an enum, numbered from [k]. *)
Definition TLays {B} (t : tcodec B) (k : N) (lay : B -> bytes) (fit : B -> Prop) : Prop :=
  (forall b, n2b (k + fst (tenc t b)) :: snd (tenc t b) = lay b) /\ (forall b, twf t b = true <-> fit b).
Lemma tlays_nil k : TLays t_nil k (fun e => match e return bytes with end) (fun e => match e return Prop with end).
Proof. split; intros []. Qed.
Lemma tlays_cons {A B} (ca : codec A) (tb : tcodec B) k la fa lb fb : Lays ca la fa -> TLays tb (N.succ k) lb fb ->
  TLays (t_cons ca tb) k (fun s => match s with inl a => tag k (la a) | inr b => lb b end)
        (fun s => match s with inl a => fa a | inr b => fb b end).
Proof.
  intros [E W] [E2 W2]. split; intros [a|b]; cbn [tenc twf t_cons fst snd].
  - rewrite E, N.add_0_r. reflexivity.
  - rewrite <- E2. f_equal. f_equal. lia.
  - apply W.
  - apply W2.
Qed.
Lemma lays_enum {B} (t : tcodec B) lay fit : TLays t 0 lay fit -> (forall b, fst (tenc t b) < 256) ->
  Lays (c_enum t) lay fit.
Proof.
  intros [E W] S. split; intros b; cbn [enc wf c_enum].
  - rewrite <- E. reflexivity.
  - rewrite andb_true_iff, W, N.ltb_lt. split; [intros [H _]; exact H|auto].
Qed.

(** ** The types *)
Ltac lays_fields :=
  repeat first [ apply lays_pair | apply lays_u16 | apply lays_u32 | apply lays_bytes | apply lays_text | apply lays_bool
               | apply lays_fixed | apply lays_list | apply lays_opt | apply lays_unit | eassumption
               | match goal with L : Lays ?c _ _ |- Lays ?c _ _ => exact L end ].

Lemma lays_restart : Lays c_restart lay_restart (fun _ => True).
Proof.
  unfold c_restart. eapply lays_iso.
  - apply lays_enum; [|intros [[]|[[]|[]]]; reflexivity].
    repeat (apply tlays_cons; [apply lays_unit|]). apply tlays_nil.
  - intros []; reflexivity.
  - intros []; reflexivity.
Qed.
Lemma lays_bridge : Lays c_bridge lay_bridge fit_bridge.
Proof.
  unfold c_bridge. eapply lays_iso.
  - apply lays_enum; [|intros [[]|[[]|[]]]; reflexivity].
    apply tlays_cons; [lays_fields|]. apply tlays_cons; [lays_fields|]. apply tlays_nil.
  - intros []; reflexivity.
  - intros []; reflexivity.
Qed.
Lemma lays_member : Lays c_member lay_member fit_member.
Proof. unfold c_member. eapply lays_iso; [lays_fields|intros []; reflexivity|intros []; reflexivity]. Qed.
Lemma lays_set : Lays c_member_set lay_set fit_set.
Proof. unfold c_member_set. pose proof lays_member. eapply lays_iso; [lays_fields|intros []; reflexivity|intros []; reflexivity]. Qed.
Lemma lays_patch : Lays c_patch_set lay_patch fit_patch.
Proof. unfold c_patch_set. eapply lays_iso; [lays_fields|intros []; reflexivity|intros []; reflexivity]. Qed.
Lemma lays_namespace : Lays c_namespace lay_namespace fit_namespace.
Proof. unfold c_namespace. eapply lays_iso; [lays_fields|intros []; reflexivity|intros []; reflexivity]. Qed.
Lemma lays_enclave : Lays c_nitro lay_enclave fit_enclave.
Proof. unfold c_nitro. eapply lays_iso; [lays_fields|intros []; reflexivity|intros []; reflexivity]. Qed.
Lemma lays_pivot : Lays c_pivot lay_pivot fit_pivot.
Proof.
  unfold c_pivot. pose proof lays_restart. pose proof lays_bridge.
  eapply lays_iso; [lays_fields|intros []; reflexivity|].
  intros []. unfold fit_pivot. cbn. tauto.
Qed.
Lemma lays_pivot_v0 : Lays c_pivot_v0 lay_pivot_v0 fit_pivot_v0.
Proof.
  unfold c_pivot_v0. pose proof lays_restart. eapply lays_iso; [lays_fields|intros []; reflexivity|].
  intros []. unfold fit_pivot_v0. cbn. tauto.
Qed.
Lemma lays_manifest : Lays c_manifest lay_manifest fit_manifest.
Proof.
  unfold c_manifest. pose proof lays_namespace. pose proof lays_pivot. pose proof lays_set. pose proof lays_enclave. pose proof lays_patch.
  eapply lays_iso; [lays_fields|intros []; reflexivity|intros []; reflexivity].
Qed.
Lemma lays_manifest_v0 : Lays c_manifest_v0 lay_manifest_v0 fit_manifest_v0.
Proof.
  unfold c_manifest_v0. pose proof lays_namespace. pose proof lays_pivot_v0. pose proof lays_set. pose proof lays_enclave. pose proof lays_patch.
  eapply lays_iso; [lays_fields|intros []; reflexivity|intros []; reflexivity].
Qed.
Lemma lays_approval : Lays c_approval lay_approval fit_approval.
Proof. unfold c_approval. pose proof lays_member. eapply lays_iso; [lays_fields|intros []; reflexivity|intros []; reflexivity]. Qed.
Lemma lays_envelope : Lays c_envelope lay_envelope fit_envelope.
Proof.
  unfold c_envelope. pose proof lays_manifest. pose proof lays_approval.
  eapply lays_iso; [lays_fields|intros []; reflexivity|intros []; reflexivity].
Qed.
Lemma lays_envelope_v0 : Lays c_envelope_v0 lay_envelope_v0 fit_envelope_v0.
Proof.
  unfold c_envelope_v0. pose proof lays_manifest_v0. pose proof lays_approval.
  eapply lays_iso; [lays_fields|intros []; reflexivity|intros []; reflexivity].
Qed.
Lemma lays_versioned : Lays c_versioned_envelope lay_versioned fit_versioned.
Proof.
  split; intros [x|x|x]; cbn [enc wf c_versioned_envelope lay_versioned fit_versioned].
  - reflexivity.
  - apply lays_envelope.
  - apply lays_envelope_v0.
  - split; [discriminate|intros []].
  - apply lays_envelope.
  - apply lays_envelope_v0.
Qed.

(** ** The messages *)
Ltac lays_alternatives :=
  repeat (apply tlays_cons; [lays_fields|]); apply tlays_nil.
Ltac small := cbv [phase_sum nsm_error_code_sum nsm_digest_sum nsm_response_sum p256_error_sum perr_sum msg_sum];
  let s := fresh in intros s;
  repeat (destruct s as [s|s]; [reflexivity|]); destruct s.

Lemma lays_phase : Lays c_phase lay_phase (fun _ => True).
Proof.
  unfold c_phase. eapply lays_iso; [apply lays_enum; [unfold t_phase; lays_alternatives|small]| |]; intros []; reflexivity.
Qed.
Lemma lays_code : Lays c_nsm_code lay_code (fun _ => True).
Proof.
  unfold c_nsm_code. eapply lays_iso; [apply lays_enum; [unfold t_nsm_error_code; lays_alternatives|small]| |]; intros []; reflexivity.
Qed.
Lemma lays_digest : Lays c_digest lay_digest (fun _ => True).
Proof.
  unfold c_digest. eapply lays_iso; [apply lays_enum; [unfold t_nsm_digest; lays_alternatives|small]| |]; intros []; reflexivity.
Qed.
Lemma lays_p256 : Lays c_p256_error lay_p256 fit_p256.
Proof.
  unfold c_p256_error. eapply lays_iso; [apply lays_enum; [unfold t_p256_error; lays_alternatives|small]| |]; intros []; reflexivity.
Qed.
Lemma lays_perr : Lays c_perr lay_perr fit_perr.
Proof.
  unfold c_perr. pose proof lays_p256. pose proof lays_approval. pose proof lays_phase.
  eapply lays_iso; [apply lays_enum; [unfold t_perr; lays_alternatives|small]| |]; intros []; try reflexivity.
  all: cbn; tauto.
Qed.
Lemma ascending_sorted l : ascending l = true <-> StronglySorted N.lt l.
Proof.
  induction l as [|x r IH]; [split; [constructor|reflexivity]|]. cbn [ascending]. rewrite andb_true_iff, IH.
  destruct r as [|y r].
  - split; [intros _; repeat constructor|intros H; split; [reflexivity|constructor]].
  - rewrite N.ltb_lt. split.
    + intros [A B]. constructor; [exact B|]. inversion B as [|? ? C D]; subst.
      constructor; [exact A|]. eapply Forall_impl; [|exact D]. cbn. intros z Z. lia.
    + intros H. inversion H as [|? ? C D]; subst. inversion D; subst. split; auto.
Qed.
Lemma lays_set_u16 : Lays c_set_u16 (lay_list lay_u16) (fun l => fit_list (fun x => x < 2 ^ 16) l /\ StronglySorted N.lt l).
Proof.
  pose proof (lays_list _ _ _ lays_u16) as [E W]. split; intros l; cbn [enc wf c_set_u16].
  - apply E.
  - rewrite andb_true_iff, W, ascending_sorted. reflexivity.
Qed.
Lemma lays_nsm : Lays c_nsm_response lay_nsm fit_nsm.
Proof.
  unfold c_nsm_response. pose proof lays_code. pose proof lays_digest. pose proof lays_set_u16.
  eapply lays_iso; [apply lays_enum; [unfold t_nsm_response; lays_alternatives|small]| |]; intros []; try reflexivity.
  all: unfold fit_nsm; cbn [nsm_response_to fst snd]; tauto.
Qed.
Lemma lays_self {A} (c : codec A) : Lays c (enc c) (fun a => wf c a = true).
Proof. split; intros a; reflexivity. Qed.
Lemma lays_json_envelope : Lays c_json_envelope (fun e => lay_bytes (json_text e)) (fun e => wf_envelope e = true /\ fit_bytes (json_text e)).
Proof.
  split; intros e; cbn [enc wf c_json_envelope].
  - apply lays_bytes.
  - rewrite andb_true_iff. change (lenN (write (jser js_versioned_envelope e)) <? U32_LIMIT) with (wf c_bytes (json_text e)).
    rewrite (proj2 lays_bytes). reflexivity.
Qed.
(** The genesis messages, which the wire refuses, are left as they are. *)
Definition lay_any (m : msg) : bytes :=
  match m with
  | BootGenesisRequest s k => tag 5 (enc (c_pair c_genesis_set (c_option c_bytes)) (s, k))
  | BootGenesisResponse n o => tag 6 (enc (c_pair c_nsm_response c_genesis_output) (n, o))
  | _ => lay_msg m end.
Definition fit_any (m : msg) : Prop :=
  match m with
  | BootGenesisRequest s k => wf (c_pair c_genesis_set (c_option c_bytes)) (s, k) = true
  | BootGenesisResponse n o => wf (c_pair c_nsm_response c_genesis_output) (n, o) = true
  | _ => fit_msg m end.
Lemma lays_msg : Lays c_msg lay_any fit_any.
Proof.
  unfold c_msg. pose proof lays_perr. pose proof lays_phase. pose proof lays_nsm. pose proof lays_versioned.
  pose proof lays_approval. pose proof lays_json_envelope.
  pose proof (lays_self (c_pair c_genesis_set (c_option c_bytes))). pose proof (lays_self (c_pair c_nsm_response c_genesis_output)).
  eapply lays_iso; [apply lays_enum; [unfold t_msg|small]| |].
  - do 5 (apply tlays_cons; [lays_fields|]).
    do 2 (apply tlays_cons; [match goal with L : Lays ?c _ _ |- Lays ?c _ _ => exact L end|]).
    lays_alternatives.
  - intros []; reflexivity.
  - intros []; try reflexivity; unfold fit_any, fit_msg; cbn [msg_to fst snd]; tauto.
Qed.

(** genesis.rs, as hashed by the services *)
Lemma lays_genesis_set : Lays Services.c_genesis_set lay_genesis_set fit_genesis_set.
Proof. unfold Services.c_genesis_set. pose proof lays_member. eapply lays_iso; [lays_fields|intros []; reflexivity|intros []; reflexivity]. Qed.
Lemma lays_shard : Lays Services.c_member_shard lay_shard fit_shard.
Proof. unfold Services.c_member_shard. pose proof lays_member. eapply lays_iso; [lays_fields|intros []; reflexivity|intros []; reflexivity]. Qed.
Lemma lays_member_output : Lays Services.c_genesis_member_output lay_member_output fit_member_output.
Proof. unfold Services.c_genesis_member_output. pose proof lays_member. eapply lays_iso; [lays_fields|intros []; reflexivity|intros []; reflexivity]. Qed.
Lemma lays_genesis : Lays Services.c_genesis_output lay_genesis fit_genesis.
Proof.
  unfold Services.c_genesis_output. pose proof lays_genesis_set. pose proof lays_shard. pose proof lays_member_output.
  eapply lays_iso; [lays_fields|intros []; reflexivity|intros []; reflexivity].
Qed.

(** proxy_msg.rs *)
Lemma lays_net_error : Lays Proxy.c_net_error lay_net_error fit_net_error.
Proof.
  unfold Proxy.c_net_error. pose proof lays_u64.
  eapply lays_iso; [apply lays_enum; [lays_alternatives|cbv [Proxy.net_error_sum]; small]| |]; intros []; try reflexivity.
Qed.
Lemma lays_proxy : Lays Proxy.c_proxy_msg lay_proxy fit_proxy.
Proof.
  unfold Proxy.c_proxy_msg. pose proof lays_u64. pose proof lays_net_error.
  eapply lays_iso; [apply lays_enum; [lays_alternatives|cbv [Proxy.proxy_msg_sum]; small]| |]; intros []; try reflexivity.
Qed.

(** ** Decoding is exact alternative by alternative *)
Definition exact_at {B} (t : tcodec B) (b : B) : Prop := forall n l r, tdec t n l = Some (b, r) ->
  twf t b = true /\ n = fst (tenc t b) /\ l = snd (tenc t b) ++ r.
Lemma exact_inl {A B} (ca : codec A) (tb : tcodec B) a : lawful ca -> exact_at (t_cons ca tb) (inl a).
Proof.
  intros L n l r. cbn [tdec tenc twf t_cons fst snd]. destruct (N.eqb_spec n 0) as [->|].
  - destruct (dec ca l) as [[x y]|] eqn:E; [|discriminate]. intros H; inversion H; subst.
    apply (BorshProofs.canon L) in E as [W ->]. auto.
  - destruct (tdec tb (n - 1) l) as [[x y]|]; discriminate.
Qed.
Lemma exact_inr {A B} (ca : codec A) (tb : tcodec B) b : exact_at tb b -> exact_at (t_cons ca tb) (inr b).
Proof.
  intros X n l r. cbn [tdec tenc twf t_cons fst snd]. destruct (N.eqb_spec n 0) as [->|].
  - destruct (dec ca l) as [[x y]|]; discriminate.
  - destruct (tdec tb (n - 1) l) as [[x y]|] eqn:E; [|discriminate]. intros H; inversion H; subst.
    apply X in E as (W & E & ->). split; [exact W|]. split; [lia|reflexivity].
Qed.
Ltac lawful_enum of_to to_of := apply c_iso_lawful; [exact of_to|exact to_of|]; apply c_enum_lawful;
  repeat (apply t_cons_lawful; [auto with law|]); apply t_nil_lawful.
Lemma c_phase_lawful : lawful c_phase.
Proof. unfold c_phase, t_phase. lawful_enum phase_of_to phase_to_of. Qed.
Lemma c_p256_error_lawful : lawful c_p256_error.
Proof. unfold c_p256_error, t_p256_error. lawful_enum p256_error_of_to p256_error_to_of. Qed.
#[local] Hint Resolve c_phase_lawful c_p256_error_lawful : law.
Lemma c_perr_lawful : lawful c_perr.
Proof. unfold c_perr, t_perr. lawful_enum perr_of_to perr_to_of. Qed.
#[local] Hint Resolve c_perr_lawful : law.

Lemma plain_exact m : plain m -> is_genesis m = false -> exact_at t_msg (msg_to m).
Proof.
  intros P G. destruct m; try destruct P; try discriminate G; unfold t_msg; cbn [msg_to];
    repeat apply exact_inr; apply exact_inl; auto with law.
Qed.
Lemma plain_slice b m : plain m -> is_genesis m = false -> from_slice c_msg b = Some m -> fit_msg m /\ b = lay_msg m.
Proof.
  intros P G. unfold from_slice. destruct b as [|x l]; [discriminate|].
  change (dec c_msg (x :: l)) with (match tdec t_msg (b2n x) l with Some (a, r) => Some (msg_of a, r) | None => None end).
  destruct (tdec t_msg (b2n x) l) as [[s r]|] eqn:E; [|discriminate]. destruct r as [|y r]; [|discriminate].
  intros H. assert (S : s = msg_to m). { rewrite <- (msg_to_of s). f_equal. inversion H. reflexivity. }
  subst s. clear H. pose proof (plain_exact m P G _ _ _ E) as (W & T & L). rewrite app_nil_r in L.
  assert (Wm : wf c_msg m = true).
  { change (wf c_msg m) with (twf t_msg (msg_to m) && (fst (tenc t_msg (msg_to m)) <? 256)). rewrite W, <- T.
    pose proof (b2n_lt x). cbn. lia. }
  assert (Eb : x :: l = enc c_msg m).
  { change (enc c_msg m) with (n2b (fst (tenc t_msg (msg_to m))) :: snd (tenc t_msg (msg_to m))).
    rewrite <- T, <- L, n2b_b2n. reflexivity. }
  rewrite Eb, (proj1 lays_msg). rewrite (proj2 lays_msg) in Wm.
  destruct m; try discriminate G; auto.
Qed.
