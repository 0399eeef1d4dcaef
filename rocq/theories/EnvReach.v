From Verif Require Import Base Utf8 Borsh Json Types TypesBorsh Env EnvProofs TypesJson TypesJsonLaws SpecEnv.
From Coq Require Import Permutation.
Require Import ZifyBool ZifyN ZifyNat.
Local Open Scope N_scope.

Definition pair_ok (p : bytes * bytes) : Prop := is_some (name_new (fst p)) = true /\ is_some (value_new (snd p)) = true.
Definition env_ok2 (e : pivot_env) : Prop :=
  sorted_keys e = true /\ Forall pair_ok e /\ lenN e <= MAX_PIVOT_ENV_VARS.

Lemma name_new_some n0 n : name_new n0 = Some n -> n0 = n /\ is_some (name_new n) = true.
Proof.
  intros H. assert (is_some (name_new n0) = true) as X by now rewrite H. apply name_new_id in X as Y.
  rewrite H in Y. inversion Y; subst. auto.
Qed.
Lemma value_new_some n0 n : value_new n0 = Some n -> n0 = n /\ is_some (value_new n) = true.
Proof.
  intros H. assert (is_some (value_new n0) = true) as X by now rewrite H. apply value_new_id in X as Y.
  rewrite H in Y. inversion Y; subst. auto.
Qed.

Lemma insert_ok2 n v e : env_ok2 e -> is_some (name_new n) = true -> is_some (value_new v) = true ->
  env_ok2 (fst (env_insert n v e)).
Proof.
  intros (S & F & L) Hn Hv. unfold env_insert.
  destruct (check_limits (map_insert n v e)) eqn:C; cbn [fst].
  - repeat split; [now apply map_insert_sorted|apply map_insert_Forall; [split; auto|auto]|unfold check_limits in C; lia].
  - destruct (map_get n e) as [p|] eqn:G; cbn [fst].
    + rewrite map_insert_insert; auto. repeat split; auto.
    + rewrite map_remove_insert; auto. repeat split; auto.
Qed.

Lemma made_ok2 e : env_made e -> env_ok2 e.
Proof.
  induction 1 as [|e n0 v0 n v H IH Hn Hv|l e F T|b r e D|j d e D].
  - repeat split; [constructor|unfold MAX_PIVOT_ENV_VARS, lenN; cbn; lia].
  - apply name_new_some in Hn as [_ Hn]. apply value_new_some in Hv as [_ Hv]. now apply insert_ok2.
  - unfold env_try_from in T. destruct (check_limits (map_collect l)) eqn:C; [|discriminate]. inversion T; subst.
    repeat split; [apply map_collect_is_sorted| |unfold check_limits in C; lia].
    apply map_collect_Forall. eapply Forall_impl; [|exact F]. intros p (n0 & v0 & Hn & Hv).
    apply name_new_some in Hn as [_ Hn]. apply value_new_some in Hv as [_ Hv]. split; auto.
  - apply env_dec_ok in D. unfold env_ok in D. apply andb_true_iff in D as [D L]. apply andb_true_iff in D as [S F].
    repeat split; auto; [|lia]. apply Forall_forall. intros p Hp. rewrite forallb_forall in F. specialize (F p Hp).
    apply andb_true_iff in F as [F _]. apply andb_true_iff in F as [F1 F2]. split; auto.
  - unfold js_env in D. cbn [jdec] in D. destruct d as [|[|d]]; try discriminate D. destruct j as [| | | | | |m]; try discriminate D.
    match type of D with (let? l := ?o in _) = _ => destruct o as [l|] eqn:E; [|discriminate] end. cbn [obind] in D.
    unfold env_try_from in D. destruct (check_limits (map_collect l)) eqn:C; [|discriminate]. inversion D; subst.
    repeat split; [apply map_collect_is_sorted| |unfold check_limits in C; lia].
    apply map_collect_Forall. clear C D. apply NormProofs.oseq_inv in E. revert l E.
    induction m as [|[k x] m IH]; intros [|[n v] l] E; cbn [map] in E; try discriminate; constructor.
    + assert (E1 := f_equal (hd None) E). cbn [hd fst snd] in E1. destruct k as [k|]; [|discriminate E1].
      destruct (name_new k) eqn:Hn; [|discriminate E1]. cbn [obind] in E1.
      destruct (jdec js_env_value (S d) x) eqn:Hv; [|discriminate E1]. cbn [obind] in E1. inversion E1; subst.
      split; cbn [fst snd]; [now apply name_new_some in Hn|].
      unfold js_env_value in Hv. cbn [jdec] in Hv. destruct d as [|d]; [discriminate|].
      destruct x as [| | | | | |[|[[q|] y] [|]]]; try discriminate.
      destruct (bytes_eqb q (bs "plain")); [|discriminate].
      destruct (dec_struct [bs "value"] false (S d) y) as [[|[[| | | |[s|]| |]|] [|]]|]; try discriminate.
      now apply value_new_some in Hv.
    + apply IH. now inversion E.
Qed.

Lemma name_good n : is_some (name_new n) = true -> good_name n.
Proof.
  unfold name_new. unfold MAX_PIVOT_ENV_NAME_LEN. destruct (N.ltb_spec 1024 (lenN n)); [discriminate|].
  destruct n as [|c r]; [discriminate|]. destruct (negb _) eqn:E1; [discriminate|].
  destruct (existsb _ r) eqn:E2; [discriminate|]. intros _. split.
  - exists c, r. split; auto. apply negb_false_iff in E1.
    assert (U : forall x, is_underscore x = true -> b2n x = 95).
    { intros x Hx. unfold is_underscore in Hx. destruct (byte_eqb_spec x "_"); [subst; reflexivity|discriminate]. }
    split.
    + unfold letter. apply orb_true_iff in E1 as [E1|E1]; [unfold is_ascii_alpha in E1; lia|right; right; auto].
    + apply Forall_forall. intros d Hd. assert (X : negb (is_ascii_alpha d || is_ascii_digit d || is_underscore d) = false).
      { destruct (negb _) eqn:E; auto. rewrite <- E2. symmetry. apply existsb_exists. eauto. }
      apply negb_false_iff in X. unfold letter, digit.
      apply orb_true_iff in X as [X|X]; [|left; right; right; auto].
      apply orb_true_iff in X as [X|X]; [unfold is_ascii_alpha in X; lia|unfold is_ascii_digit in X; lia].
  - rewrite lenN_length in *. lia.
Qed.

Lemma value_good v : is_some (value_new v) = true -> good_value v.
Proof.
  unfold value_new. destruct (existsb (byte_eqb x00) v) eqn:E; [discriminate|].
  unfold MAX_PIVOT_ENV_VALUE_LEN. destruct (N.ltb_spec 65536 (lenN v)); [discriminate|]. intros _. split; [|lia].
  intros I. rewrite <- not_true_iff_false in E. apply E. apply existsb_exists. exists x00. split; auto.
Qed.

Lemma made_limits e : env_made e -> env_limits e.
Proof.
  intros H. apply made_ok2 in H as (S & F & L). repeat split.
  - rewrite lenN_length in L. unfold MAX_PIVOT_ENV_VARS in L. lia.
  - now apply sorted_nodup.
  - eapply Forall_impl; [|exact F]. intros p [A B]. split; [now apply name_good|now apply value_good].
Qed.

(** insert: behaviour as a finite map *)
Lemma insert_spec n v e : env_made e -> name_new n = Some n -> value_new v = Some v ->
  (snd (env_insert n v e) = Err tt /\ fst (env_insert n v e) = e /\ map_get n e = None /\ length e = 512%nat) \/
  (snd (env_insert n v e) = Ok (map_get n e) /\
   (forall k, map_get k (fst (env_insert n v e)) = if bytes_eqb k n then Some v else map_get k e) /\
   (map_get n e <> None \/ (length e < 512)%nat)).
Proof.
  intros H Hn Hv. apply made_ok2 in H as (S & F & L). unfold env_insert.
  pose proof (map_insert_len_get n v e S) as LG.
  destruct (check_limits (map_insert n v e)) eqn:C; cbn [fst snd].
  - right. split; auto. split; [intros k; apply map_get_insert|].
    destruct (map_get n e); [left; discriminate|right].
    unfold check_limits, MAX_PIVOT_ENV_VARS in C. rewrite lenN_length in C. lia.
  - left. unfold check_limits, MAX_PIVOT_ENV_VARS in *. rewrite lenN_length in *.
    destruct (map_get n e) as [p|] eqn:G; cbn [fst snd]; [exfalso; lia|]. rewrite map_remove_insert by auto.
    repeat split; auto. lia.
Qed.
