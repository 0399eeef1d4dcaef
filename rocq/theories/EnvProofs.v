From Verif Require Import Base Utf8 Borsh BorshProofs Types TypesBorsh Env.
Require Import ZifyBool ZifyN ZifyNat.
Local Open Scope N_scope.

Lemma bytes_ltb_irrefl a : bytes_ltb a a = false.
Proof. induction a as [|x a IH]; cbn; auto. rewrite !N.ltb_irrefl. auto. Qed.

Lemma bytes_ltb_trans a : forall b c, bytes_ltb a b = true -> bytes_ltb b c = true -> bytes_ltb a c = true.
Proof.
  induction a as [|x a IH]; intros [|y b] [|z c]; cbn [bytes_ltb]; try discriminate; auto.
  destruct (N.ltb_spec (b2n x) (b2n y)), (N.ltb_spec (b2n y) (b2n x)), (N.ltb_spec (b2n y) (b2n z)),
    (N.ltb_spec (b2n z) (b2n y)), (N.ltb_spec (b2n x) (b2n z)), (N.ltb_spec (b2n z) (b2n x));
    try lia; try discriminate; auto. apply IH.
Qed.

Lemma bytes_ltb_total a : forall b, bytes_ltb a b = false -> bytes_ltb b a = false -> a = b.
Proof.
  induction a as [|x a IH]; intros [|y b]; cbn [bytes_ltb]; try discriminate; auto.
  destruct (N.ltb_spec (b2n x) (b2n y)), (N.ltb_spec (b2n y) (b2n x)); try lia; try discriminate.
  intros H1 H2. f_equal; [apply b2n_inj; lia|now apply IH].
Qed.

Lemma bytes_ltb_asym a b : bytes_ltb a b = true -> bytes_ltb b a = false.
Proof.
  intros H. destruct (bytes_ltb b a) eqn:E; auto.
  pose proof (bytes_ltb_trans _ _ _ H E) as X. rewrite bytes_ltb_irrefl in X. discriminate.
Qed.

Section Map.
Context {V : Type}.
Implicit Types m : list (bytes * V).

Definition all_lt (k : bytes) m : Prop := Forall (fun p => bytes_ltb k (fst p) = true) m.

Lemma sorted_cons k v m : sorted_keys ((k, v) :: m) = true <-> all_lt k m /\ sorted_keys m = true.
Proof.
  revert k v; induction m as [|[k' v'] m IH]; intros k v.
  - cbn. split; [split; [constructor|auto]|auto].
  - change (sorted_keys ((k, v) :: (k', v') :: m)) with (bytes_ltb k k' && sorted_keys ((k', v') :: m)).
    rewrite andb_true_iff. split.
    + intros [H1 H2]. split; [|exact H2]. apply IH in H2 as [H2 _].
      constructor; [exact H1|]. eapply Forall_impl; [|exact H2]. intros p Hp.
      exact (bytes_ltb_trans _ _ _ H1 Hp).
    + intros [H1 H2]. split; [|exact H2]. inversion H1; subst. assumption.
Qed.

Lemma all_lt_insert k k' v m : all_lt k m -> bytes_ltb k k' = true -> all_lt k (map_insert k' v m).
Proof.
  intros H Hk. induction m as [|[k2 v2] m IH]; cbn.
  - constructor; auto. 
  - inversion H; subst. destruct (bytes_eqb_spec k' k2) as [->|].
    + constructor; auto.
    + destruct (bytes_ltb k' k2); constructor; auto. now apply IH.
Qed.

Lemma map_insert_sorted k v m : sorted_keys m = true -> sorted_keys (map_insert k v m) = true.
Proof.
  induction m as [|[k' v'] m IH]; intros H; [reflexivity|].
  cbn [map_insert]. apply sorted_cons in H as [H1 H2].
  destruct (bytes_eqb_spec k k') as [->|Hne].
  - apply sorted_cons; auto.
  - destruct (bytes_ltb k k') eqn:E.
    + apply sorted_cons. split; [|apply sorted_cons; auto].
      constructor; [exact E|]. eapply Forall_impl; [|exact H1]. intros p Hp. eapply bytes_ltb_trans; eauto.
    + apply sorted_cons. split; [|auto]. apply all_lt_insert; auto.
      destruct (bytes_ltb k' k) eqn:E2; auto. exfalso. apply Hne, bytes_ltb_total; auto.
Qed.

Lemma map_get_insert k v m k' : map_get k' (map_insert k v m) = if bytes_eqb k' k then Some v else map_get k' m.
Proof.
  induction m as [|[k2 v2] m IH]; cbn; [reflexivity|].
  destruct (bytes_eqb_spec k k2) as [->|Hne]; cbn.
  - destruct (bytes_eqb_spec k' k2); reflexivity.
  - destruct (bytes_ltb k k2); cbn.
    + destruct (bytes_eqb k' k); reflexivity.
    + rewrite IH. destruct (bytes_eqb_spec k' k2) as [->|]; [|reflexivity].
      destruct (bytes_eqb_spec k2 k) as [E|]; [|reflexivity]. congruence.
Qed.

Lemma all_lt_get k m : all_lt k m -> map_get k m = None.
Proof.
  induction 1 as [|[k' v'] m H _ IH]; cbn; auto. cbn in H.
  destruct (bytes_eqb_spec k k') as [->|]; auto. rewrite bytes_ltb_irrefl in H. discriminate.
Qed.

Lemma map_remove_insert k v m : sorted_keys m = true -> map_get k m = None -> map_remove k (map_insert k v m) = m.
Proof.
  induction m as [|[k' v'] m IH]; intros H G; cbn [map_insert map_get map_remove] in *.
  - now rewrite bytes_eqb_refl.
  - destruct (bytes_eqb_spec k k') as [->|Hne]; [discriminate|].
    destruct (bytes_ltb k k'); cbn [map_remove].
    + now rewrite bytes_eqb_refl.
    + apply sorted_cons in H as [_ H]. destruct (bytes_eqb_spec k k'); [congruence|]. now rewrite IH.
Qed.

Lemma map_insert_insert k v p m : sorted_keys m = true -> map_get k m = Some p ->
  map_insert k p (map_insert k v m) = m.
Proof.
  induction m as [|[k' v'] m IH]; intros H G; cbn [map_insert map_get] in *; [discriminate|].
  destruct (bytes_eqb_spec k k') as [->|Hne].
  - cbn [map_insert]. rewrite bytes_eqb_refl. congruence.
  - destruct (bytes_ltb k k') eqn:E.
    + exfalso. apply sorted_cons in H as [H _].
      assert (map_get k m = None) as X.
      { apply all_lt_get. eapply Forall_impl; [|exact H]. intros q Hq. eapply bytes_ltb_trans; eauto. }
      congruence.
    + cbn [map_insert]. destruct (bytes_eqb_spec k k'); [congruence|]. rewrite E.
      apply sorted_cons in H as [_ H]. now rewrite IH.
Qed.

Lemma map_insert_Forall (P : bytes * V -> Prop) k v m : P (k, v) -> Forall P m -> Forall P (map_insert k v m).
Proof.
  intros Hk H. induction H as [|[k' v'] m Hp Hm IH]; cbn; [auto|].
  destruct (bytes_eqb k k'); [auto|]. destruct (bytes_ltb k k'); auto.
Qed.

Lemma map_insert_length k v m : (length (map_insert k v m) <= S (length m))%nat.
Proof. induction m as [|[k' v'] m IH]; cbn; [lia|]. destruct (bytes_eqb k k'), (bytes_ltb k k'); cbn; lia. Qed.

Lemma map_insert_snoc k v m : Forall (fun p => bytes_ltb (fst p) k = true) m ->
  map_insert k v m = m ++ [(k, v)].
Proof.
  induction 1 as [|[k' v'] m H Hm IH]; cbn; [reflexivity|]. cbn in H.
  destruct (bytes_eqb_spec k k') as [->|]; [rewrite bytes_ltb_irrefl in H; discriminate|].
  rewrite (bytes_ltb_asym _ _ H). now rewrite IH.
Qed.

Lemma map_collect_sorted_gen (l : list (bytes * V)) : forall acc, sorted_keys l = true ->
  (forall p q, In p acc -> In q l -> bytes_ltb (fst p) (fst q) = true) ->
  fold_left (fun m p => map_insert (fst p) (snd p) m) l acc = acc ++ l.
Proof.
  induction l as [|[k v] l IH]; intros acc H A; cbn [fold_left]; [now rewrite app_nil_r|].
  apply sorted_cons in H as [H1 H2]. cbn [fst snd].
  rewrite map_insert_snoc by (apply Forall_forall; intros p Hp; apply (A p (k, v) Hp); now left).
  rewrite IH; auto.
  - now rewrite <- app_assoc.
  - intros p q Hp Hq. apply in_app_iff in Hp as [Hp|[<-|[]]].
    + apply A; auto. now right.
    + cbn. eapply Forall_forall in H1; eauto.
Qed.

Lemma map_collect_sorted (l : list (bytes * V)) : sorted_keys l = true -> map_collect l = l.
Proof. intros H. unfold map_collect. rewrite map_collect_sorted_gen; [reflexivity|exact H|intros p q []]. Qed.

Lemma map_collect_is_sorted (l : list (bytes * V)) : sorted_keys (map_collect l) = true.
Proof.
  unfold map_collect. assert (H : sorted_keys ([] : list (bytes * V)) = true) by reflexivity.
  revert H. generalize (@nil (bytes * V)).
  induction l as [|[k v] l IH]; intros acc H; cbn; auto. apply IH. now apply map_insert_sorted.
Qed.

Lemma map_collect_Forall (P : bytes * V -> Prop) (l : list (bytes * V)) : Forall P l -> Forall P (map_collect l).
Proof.
  unfold map_collect. assert (H : Forall P []) by constructor.
  revert H. generalize (@nil (bytes * V)).
  induction l as [|[k v] l IH]; intros acc H Hl; cbn; auto. inversion Hl; subst.
  apply IH; auto. now apply map_insert_Forall.
Qed.
End Map.

(** ** PivotEnv *)
Lemma env_insert_ok n v e : env_ok e = true -> name_new n = Some n -> value_new v = Some v -> utf8_valid v = true ->
  env_ok (fst (env_insert n v e)) = true.
Proof.
  unfold env_ok. intros H Hn Hv Hu. apply andb_true_iff in H as [H H3]. apply andb_true_iff in H as [H1 H2].
  unfold env_insert. destruct (check_limits (map_insert n v e)) eqn:C; cbn [fst].
  - rewrite map_insert_sorted by auto. cbn [andb].
    assert (X : forallb (fun p => is_some (name_new (fst p)) && is_some (value_new (snd p)) && utf8_valid (snd p))
                  (map_insert n v e) = true).
    { apply forallb_forall. intros p Hp. rewrite forallb_forall in H2.
      assert (F : Forall (fun p => is_some (name_new (fst p)) && is_some (value_new (snd p)) && utf8_valid (snd p) = true)
                    (map_insert n v e)).
      { apply map_insert_Forall; [cbn; now rewrite Hn, Hv, Hu|]. apply Forall_forall; auto. }
      rewrite Forall_forall in F. auto. }
    rewrite X. cbn. unfold check_limits in C. lia.
  - destruct (map_get n e) as [p|] eqn:G; cbn [fst].
    + rewrite map_insert_insert by auto. rewrite H1, H2, H3. reflexivity.
    + rewrite map_remove_insert by auto. rewrite H1, H2, H3. reflexivity.
Qed.

Lemma env_insert_err n v e : env_ok e = true -> snd (env_insert n v e) = Err tt -> fst (env_insert n v e) = e.
Proof.
  unfold env_ok. intros H. apply andb_true_iff in H as [H H3]. apply andb_true_iff in H as [H1 H2].
  unfold env_insert. destruct (check_limits (map_insert n v e)) eqn:C; cbn; [discriminate|].
  destruct (map_get n e) as [p|] eqn:G; cbn; intros _.
  - now rewrite map_insert_insert.
  - now rewrite map_remove_insert.
Qed.

Lemma env_insert_get n v e p : snd (env_insert n v e) = Ok p ->
  p = map_get n e /\
  forall k, map_get k (fst (env_insert n v e)) = if bytes_eqb k n then Some v else map_get k e.
Proof.
  unfold env_insert. destruct (check_limits (map_insert n v e)) eqn:C; cbn.
  - intros E; inversion E; subst. split; [reflexivity|]. intros k. apply map_get_insert.
  - destruct (map_get n e); discriminate.
Qed.

Lemma map_insert_len_get {V} (n : bytes) (v : V) m : sorted_keys m = true ->
  length (map_insert n v m) = match map_get n m with Some _ => length m | None => S (length m) end.
Proof.
  induction m as [|[k' v'] m IH]; intros H; [reflexivity|].
  apply sorted_cons in H as [H1 H2]. cbn [map_insert map_get].
  destruct (bytes_eqb_spec n k') as [->|Hne]; [reflexivity|].
  destruct (bytes_ltb n k') eqn:E; cbn [length].
  - rewrite (all_lt_get n m); [reflexivity|]. eapply Forall_impl; [|exact H1].
    intros q Hq. eapply bytes_ltb_trans; eauto.
  - rewrite (IH H2). destruct (map_get n m); reflexivity.
Qed.

(** the insert is refused exactly when a new name would be the 513th *)
Lemma env_insert_err_iff n v e : env_ok e = true ->
  (snd (env_insert n v e) = Err tt <-> map_get n e = None /\ lenN e = MAX_PIVOT_ENV_VARS).
Proof.
  unfold env_ok. intros H. apply andb_true_iff in H as [H H3]. apply andb_true_iff in H as [H1 H2].
  unfold env_insert, check_limits. rewrite lenN_length, (map_insert_len_get _ _ _ H1). rewrite lenN_length in *.
  destruct (map_get n e) as [p|] eqn:G.
  - destruct (MAX_PIVOT_ENV_VARS <? N.of_nat (length e)) eqn:C; cbn; [lia|]. split; [discriminate|intros [? _]; discriminate].
  - destruct (MAX_PIVOT_ENV_VARS <? N.of_nat (S (length e))) eqn:C; cbn.
    + split; [intros _; split; [auto|lia]|auto].
    + split; [discriminate|intros [_ ?]; lia].
Qed.

Lemma c_env_name_lawful : lawful c_env_name.
Proof. apply c_check_lawful. auto with law. Qed.
Lemma c_env_value_lawful : lawful c_env_value.
Proof.
  apply c_iso_lawful; [reflexivity|intros [v|[]]; reflexivity|].
  apply c_enum_lawful, t_cons_lawful; [apply c_check_lawful; auto with law|apply t_nil_lawful].
Qed.
Lemma env_vec_lawful : lawful (c_vec (c_pair c_env_name c_env_value)).
Proof.
  apply c_vec_lawful; [apply c_pair_lawful; [apply c_env_name_lawful|apply c_env_value_lawful]|].
  apply c_pair_nonempty_l. intros a Ha. cbn [wf c_env_name c_check] in Ha.
  apply andb_true_iff in Ha as [Ha _]. apply (c_string_nonempty a Ha).
Qed.

Lemma name_new_id n : is_some (name_new n) = true -> name_new n = Some n.
Proof.
  unfold name_new. repeat (match goal with |- context [if ?c then _ else _] => destruct c
    | |- context [match ?x with [] => _ | _ => _ end] => destruct x end); cbn; congruence.
Qed.
Lemma value_new_id v : is_some (value_new v) = true -> value_new v = Some v.
Proof. unfold value_new. destruct (existsb _ _); [discriminate|]. destruct (_ <? _); cbn; congruence. Qed.

Lemma name_ascii n : is_some (name_new n) = true -> forallb (fun b => b2n b <? 128) n = true.
Proof.
  unfold name_new. destruct (_ <? _); [discriminate|]. destruct n as [|c r]; [discriminate|].
  destruct (negb _) eqn:E1; [discriminate|]. destruct (existsb _ r) eqn:E2; [discriminate|]. intros _.
  cbn [forallb]. apply andb_true_iff. split.
  - unfold is_ascii_alpha, is_underscore in E1. destruct (byte_eqb_spec c "_") as [->|]; [reflexivity|]. lia.
  - apply forallb_forall. intros b Hb.
    assert (X : negb (is_ascii_alpha b || is_ascii_digit b || is_underscore b) = false).
    { match goal with |- ?x = false => destruct x eqn:Nb end; auto. assert (existsb (fun c0 => negb (is_ascii_alpha c0 || is_ascii_digit c0 || is_underscore c0)) r = true)
        by (apply existsb_exists; exists b; split; [exact Hb|exact Nb]). congruence. }
    unfold is_ascii_alpha, is_ascii_digit, is_underscore in X. destruct (byte_eqb_spec b "_") as [->|]; [reflexivity|]. lia.
Qed.

Lemma name_utf8 n : is_some (name_new n) = true -> utf8_valid n = true.
Proof. intros H. now apply ascii_valid, name_ascii. Qed.

Lemma name_len n : is_some (name_new n) = true -> lenN n <= MAX_PIVOT_ENV_NAME_LEN.
Proof. unfold name_new. destruct (N.ltb_spec MAX_PIVOT_ENV_NAME_LEN (lenN n)); [discriminate|]. auto. Qed.
Lemma value_len v : is_some (value_new v) = true -> lenN v <= MAX_PIVOT_ENV_VALUE_LEN.
Proof. unfold value_new. destruct (existsb _ _); [discriminate|]. destruct (N.ltb_spec MAX_PIVOT_ENV_VALUE_LEN (lenN v)); [discriminate|]. auto. Qed.

Lemma env_ok_wf e : env_ok e = true -> wf (c_vec (c_pair c_env_name c_env_value)) e = true.
Proof.
  unfold env_ok. intros H. apply andb_true_iff in H as [H H3]. apply andb_true_iff in H as [H1 H2].
  cbn [wf c_vec]. apply andb_true_iff. split.
  - unfold U32_LIMIT, MAX_PIVOT_ENV_VARS in *. lia.
  - apply forallb_forall. intros [n v] Hp. rewrite forallb_forall in H2. specialize (H2 _ Hp). cbn [fst snd] in H2.
    apply andb_true_iff in H2 as [H2 Hu]. apply andb_true_iff in H2 as [Hn Hv].
    pose proof (name_len n Hn). pose proof (value_len v Hv). pose proof (name_utf8 n Hn) as Hnu.
    cbn [wf c_pair c_env_name c_env_value c_check c_iso c_enum t_cons twf tenc fst snd c_string].
    rewrite Hn, Hv, Hu, Hnu. unfold MAX_PIVOT_ENV_NAME_LEN, MAX_PIVOT_ENV_VALUE_LEN, U32_LIMIT in *. lia.
Qed.

Lemma env_dec_enc e r : env_ok e = true -> env_dec (env_enc e ++ r) = Some (e, r).
Proof.
  intros H. unfold env_dec, env_enc. rewrite (rt env_vec_lawful) by now apply env_ok_wf.
  unfold env_ok in H. apply andb_true_iff in H as [H H3]. apply andb_true_iff in H as [H1 H2].
  rewrite map_collect_sorted by auto. unfold env_try_from, check_limits.
  destruct (N.ltb_spec MAX_PIVOT_ENV_VARS (lenN e)); [lia|reflexivity].
Qed.

Lemma env_dec_ok b e r : env_dec b = Some (e, r) -> env_ok e = true.
Proof.
  unfold env_dec. destruct (dec _ b) as [[l r']|] eqn:E; [|discriminate].
  unfold env_try_from. destruct (check_limits (map_collect l)) eqn:C; [|discriminate].
  intros X; inversion X; subst. apply (canon env_vec_lawful) in E as [W _].
  unfold env_ok. rewrite map_collect_is_sorted. unfold check_limits in C.
  replace (lenN (map_collect l) <=? MAX_PIVOT_ENV_VARS) with true by lia.
  rewrite andb_true_r. cbn [andb]. apply forallb_forall.
  assert (F : Forall (fun p : bytes * bytes => is_some (name_new (fst p)) && is_some (value_new (snd p)) && utf8_valid (snd p) = true) (map_collect l)).
  { apply map_collect_Forall. apply Forall_forall. intros [n v] Hp.
    cbn [wf c_vec] in W. apply andb_true_iff in W as [_ W]. rewrite forallb_forall in W. specialize (W _ Hp).
    cbn [wf c_pair c_env_name c_env_value c_check c_iso c_enum t_cons twf tenc fst snd c_string] in *. lia. }
  intros p Hp. rewrite Forall_forall in F. auto.
Qed.
