(** check_approvals decides exactly the specification. *)
From Coq Require Import ZifyBool ZifyN ZifyNat Permutation.
From Verif Require Import Base Types Borsh TypesBorsh BorshProofs TypesJson Msg World Run FsProofs Attest Services ServiceProofs BootProofs SpecApproval.
Local Open Scope N_scope.

Section AP.
  Context (Y : sys).

  Lemma public_keys m e g : public_from_bytes Y (m_pub_key m) = Ok (e, g) <-> has_keys Y m e g.
  Proof.
    split.
    - intros H. pose proof (public_bytes_inv _ _ H) as (A & B & C & D). cbn [fst snd] in *.
      unfold public_to_bytes in A. cbn [fst snd] in A.
      unfold public_from_bytes in H.
      destruct (130 <? lenN (m_pub_key m)); [discriminate|]. destruct (lenN (m_pub_key m) <? 130); [discriminate|].
      destruct (s_point_ok Y (firstn 65 (m_pub_key m))); [|discriminate].
      destruct (s_point_ok Y (skipn 65 (m_pub_key m))); [|discriminate].
      assert (Ee : e = firstn 65 (m_pub_key m)) by congruence.
      assert (Eg : g = skipn 65 (m_pub_key m)) by congruence.
      split; [now symmetry|]. split; [|split; [|auto]].
      + rewrite Ee, firstn_length, B. reflexivity.
      + rewrite Eg, skipn_length, B. reflexivity.
    - intros (A & B & C & D & E). unfold public_from_bytes.
      assert (L : lenN (m_pub_key m) = 130) by (rewrite lenN_length, A, app_length; clear - B C; lia).
      rewrite L. change (130 <? 130) with false. cbv iota.
      assert (F : firstn 65 (e ++ g) = e) by (rewrite <- B, firstn_app, Nat.sub_diag, firstn_all; cbn; apply app_nil_r).
      assert (K : skipn 65 (e ++ g) = g) by (rewrite <- B, skipn_app, Nat.sub_diag, skipn_all; reflexivity).
      rewrite A, F, K, D, E. reflexivity.
  Qed.

  Definition keys_of (ms : list quorum_member) (ks : list (bytes * bytes)) : Prop :=
    Forall2 (fun m k => public_from_bytes Y (m_pub_key m) = Ok k) ms ks.
  Definition apart {A} (l seen : list A) : Prop := NoDup l /\ forall x, In x l -> ~ In x seen.
  Lemma apart_cons {A} (x : A) l seen : apart (x :: l) seen <-> ~ In x seen /\ apart l (x :: seen).
  Proof.
    unfold apart. rewrite NoDup_cons_iff. cbn [In]. split.
    - intros ((A1 & A2) & B). split; [apply B; now left|]. split; [exact A2|].
      intros y Hy [->|H]; [auto|]. apply (B y); auto.
    - intros (A1 & A2 & B). split; [split; [|exact A2]|].
      + intros H. apply (B x H). now left.
      + intros y [->|Hy]; [exact A1|]. intros H. apply (B y Hy). now right.
  Qed.
  Lemma apart_nil {A} (l : list A) : apart l [] <-> NoDup l.
  Proof. unfold apart. cbn. intuition. Qed.

  Lemma unique_iff ms : forall al sg en, unique_members Y al sg en ms = Ok tt <->
    exists ks, keys_of ms ks /\ apart (map m_alias ms) al /\ apart (map snd ks) sg /\ apart (map fst ks) en.
  Proof.
    induction ms as [|m ms IH]; intros al sg en; cbn [unique_members map].
    - split; [|reflexivity]. intros _. exists []. split; [constructor|].
      repeat split; try constructor; intros x [].
    - destruct (public_from_bytes Y (m_pub_key m)) as [[e g]|x] eqn:K.
      + destruct (memb bytes_eqb (m_alias m) al) eqn:M1; [|destruct (memb bytes_eqb g sg) eqn:M2;
          [|destruct (memb bytes_eqb e en) eqn:M3]]; cbn [orb].
        4:{ rewrite IH. split.
            - intros (ks & A & B & C & D). exists ((e, g) :: ks). cbn [map fst snd].
              split; [constructor; auto|]. rewrite !apart_cons.
              repeat match goal with |- _ /\ _ => split end; auto; intros Hn;
                apply (memb_In bytes_eqb bytes_eqb_eq) in Hn; congruence.
            - intros (ks & A & B & C & D). inversion A as [|? k ? ks' Hk Hr]; subst.
              assert (k = (e, g)) as -> by congruence. cbn [map fst snd] in *.
              rewrite apart_cons in B, C, D. exists ks'. tauto. }
        all: split; [discriminate|]; intros (ks & A & B & C & D); exfalso;
          inversion A as [|? k ? ks' Hk Hr]; subst; assert (k = (e, g)) as -> by congruence; cbn [map fst snd] in *;
          rewrite apart_cons in B, C, D.
        * apply (memb_In bytes_eqb bytes_eqb_eq) in M1. tauto.
        * apply (memb_In bytes_eqb bytes_eqb_eq) in M2. tauto.
        * apply (memb_In bytes_eqb bytes_eqb_eq) in M3. tauto.
      + split; [discriminate|]. intros (ks & A & _). inversion A as [|? k ? ks' Hk Hr]; subst. congruence.
  Qed.

  Lemma keys_nth ms ks : keys_of ms ks -> length ks = length ms /\
    forall i m, nth_error ms i = Some m -> exists k, nth_error ks i = Some k /\ public_from_bytes Y (m_pub_key m) = Ok k.
  Proof.
    induction 1 as [|m k ms ks H _ [L IH]]; [split; [reflexivity|]; intros []; discriminate|].
    split; [cbn; congruence|]. intros [|i] m' Hm; cbn in *; [inversion Hm; subst; eauto|auto].
  Qed.

  Lemma proper_iff ms : ensure_unique_members Y ms = Ok tt <-> proper_members Y ms.
  Proof.
    unfold ensure_unique_members. rewrite unique_iff. unfold proper_members. split.
    - intros (ks & A & B & C & D). rewrite apart_nil in B, C, D. split; [exact B|].
      destruct (keys_nth _ _ A) as [L Hn]. exists (map fst ks), (map snd ks). rewrite !map_length.
      repeat split; auto. intros i m Hm. destruct (Hn i m Hm) as ([e g] & Hk & P).
      exists e, g. rewrite !nth_error_map, Hk. split; [reflexivity|]. split; [reflexivity|now apply public_keys].
    - intros (B & encs & signs & L1 & L2 & Hn & D & C).
      exists (combine encs signs).
      assert (Mf : map fst (combine encs signs) = encs /\ map snd (combine encs signs) = signs).
      { clear - L1 L2. assert (L : length encs = length signs) by congruence. clear L1 L2. revert signs L.
        induction encs as [|x encs IH]; intros [|y signs] L; try discriminate L; [auto|].
        destruct (IH signs) as [A B]; [cbn in L; congruence|]. cbn. now rewrite A, B. }
      destruct Mf as [-> ->]. rewrite !apart_nil. repeat split; auto.
      clear - L1 L2 Hn. revert encs signs L1 L2 Hn. induction ms as [|m ms IH]; intros [|e encs] [|g signs] L1 L2 Hn;
        try discriminate; [constructor|]. cbn [combine]. constructor.
      + destruct (Hn 0%nat m eq_refl) as (e' & g' & E1 & E2 & K). cbn in E1, E2. inversion E1; inversion E2; subst.
        now apply public_keys.
      + apply IH; [cbn in *; congruence|cbn in *; congruence|]. intros i m' Hm. exact (Hn (S i) m' Hm).
  Qed.

  (** *** The approval loop *)
  Lemma check_each_iff ms mh l : forall seen out, check_each Y ms mh seen l = Ok out <->
    (forall a, In a l -> In (ap_member a) ms /\ signed Y mh a)
    /\ apart (map (fun a => member_hash Y (ap_member a)) l) seen
    /\ out = rev (map (fun a => member_hash Y (ap_member a)) l) ++ seen.
  Proof.
    induction l as [|a l IH]; intros seen out; cbn [check_each map rev].
    - split.
      + intros H. inversion H; subst. split; [intros ? []|]. split; [split; [constructor|intros ? []]|reflexivity].
      + intros (_ & _ & ->). reflexivity.
    - rewrite apart_cons.
      destruct (public_from_bytes Y (m_pub_key (ap_member a))) as [[e g]|x] eqn:K.
      + destruct (s_verify Y g mh (ap_signature a)) eqn:V; cbn [negb].
        * destruct (memb member_eqb (ap_member a) ms) eqn:M; cbn [negb].
          -- destruct (memb bytes_eqb (member_hash Y (ap_member a)) seen) eqn:S.
             ++ split; [discriminate|]. intros (_ & (N & _) & _). apply (memb_In bytes_eqb bytes_eqb_eq) in S. tauto.
             ++ rewrite IH. cbn [In]. rewrite <- app_assoc. cbn [app]. split.
                ** intros (A & B & C). split; [|split; [|exact C]].
                   --- intros a' [<-|Ha]; [|auto]. split; [now apply (memb_In member_eqb member_eqb_eq) in M|].
                       exists e, g. split; [now apply public_keys|exact V].
                   --- split; [|exact B]. intros Hn. apply (memb_In bytes_eqb bytes_eqb_eq) in Hn. congruence.
                ** intros (A & B & C). split; [auto|]. tauto.
          -- split; [discriminate|]. intros (A & _). exfalso. destruct (A a (or_introl eq_refl)) as [I _].
             apply (memb_In member_eqb member_eqb_eq) in I. congruence.
        * split; [discriminate|]. intros (A & _). exfalso. destruct (A a (or_introl eq_refl)) as [_ (e' & g' & P & V')].
          apply public_keys in P. congruence.
      + split; [discriminate|]. intros (A & _). exfalso. destruct (A a (or_introl eq_refl)) as [_ (e' & g' & P & V')].
        apply public_keys in P. congruence.
  Qed.

  Definition hashes (l : list approval) : list bytes := map (fun a => member_hash Y (ap_member a)) l.

  Lemma check_iff e : check_approvals Y e = Ok tt <->
    let set := vm_manifest_set (env_manifest e) in
    let l := env_manifest_approvals e in
    proper_members Y (members set)
    /\ (forall a, In a l -> In (ap_member a) (members set) /\ signed Y (manifest_hash Y (env_manifest e)) a)
    /\ NoDup (hashes l) /\ threshold set <= N.of_nat (length l).
  Proof.
    cbv zeta. unfold check_approvals.
    set (set := vm_manifest_set (env_manifest e)). set (l := env_manifest_approvals e).
    set (mh := manifest_hash Y (env_manifest e)).
    rewrite <- proper_iff.
    destruct (ensure_unique_members Y (members set)) as [[]|x] eqn:U; cbn [rbind].
    2:{ split; [discriminate|]. intros (A & _). discriminate A. }
    pose proof (check_each_iff (members set) mh l []) as CE.
    destruct (check_each Y (members set) mh [] l) as [out|x] eqn:C; cbn [rbind].
    - destruct (proj1 (CE out) eq_refl) as (A & B & ->). rewrite apart_nil in B.
      rewrite lenN_length, app_nil_r, rev_length, map_length.
      destruct (N.of_nat (length l) <? threshold set) eqn:T.
      + split; [discriminate|]. intros (_ & _ & _ & D). clear - T D. lia.
      + split; [|reflexivity]. intros _. split; [reflexivity|]. split; [exact A|]. split; [exact B|]. clear - T. lia.
    - split; [discriminate|]. intros (_ & A & B & _). exfalso.
      assert (E : Err x = Ok (rev (map (fun a => member_hash Y (ap_member a)) l) ++ [])).
      { apply CE. split; [exact A|]. split; [now apply apart_nil|reflexivity]. }
      discriminate E.
  Qed.

  Lemma hashes_members l : NoDup (hashes l) -> NoDup (map ap_member l).
  Proof.
    unfold hashes. rewrite <- (map_map ap_member (member_hash Y)). apply NoDup_map_inv.
  Qed.

  Lemma members_hashes ms l : (forall a, In a l -> In (ap_member a) ms) ->
    (forall m1 m2, In m1 ms -> In m2 ms -> member_hash Y m1 = member_hash Y m2 -> m1 = m2) ->
    NoDup (map ap_member l) -> NoDup (hashes l).
  Proof.
    intros I C. induction l as [|a l IH]; cbn; [constructor|].
    rewrite !NoDup_cons_iff. intros [H1 H2]. split.
    - intros H. apply H1. apply in_map_iff in H as (a' & E & Ha). apply in_map_iff. exists a'. split; [|exact Ha].
      apply C; auto; apply I; [now right|now left].
    - apply IH; auto. intros a' Ha. apply I. now right.
  Qed.

  Lemma check_sound e : check_approvals Y e = Ok tt ->
    approved Y (vm_manifest_set (env_manifest e)) (manifest_hash Y (env_manifest e)) (env_manifest_approvals e).
  Proof.
    intros H. apply check_iff in H as (A & B & C & D). split; [exact A|]. split; [exact B|].
    split; [now apply hashes_members|exact D].
  Qed.

  Lemma check_complete e :
    (forall m1 m2, In m1 (members (vm_manifest_set (env_manifest e))) -> In m2 (members (vm_manifest_set (env_manifest e))) ->
                   member_hash Y m1 = member_hash Y m2 -> m1 = m2) ->
    approved Y (vm_manifest_set (env_manifest e)) (manifest_hash Y (env_manifest e)) (env_manifest_approvals e) ->
    check_approvals Y e = Ok tt.
  Proof.
    intros H (A & B & C & D). apply check_iff. split; [exact A|]. split; [exact B|].
    split; [|exact D]. eapply members_hashes; eauto. intros a Ha. now apply B.
  Qed.

  Lemma check_perm e1 e2 : env_manifest e1 = env_manifest e2 ->
    Permutation (env_manifest_approvals e1) (env_manifest_approvals e2) ->
    check_approvals Y e1 = Ok tt -> check_approvals Y e2 = Ok tt.
  Proof.
    intros M P H. apply check_iff in H as (A & B & C & D). apply check_iff. cbv zeta. rewrite <- M.
    split; [exact A|]. split.
    - intros a Ha. apply B. eapply Permutation_in; [apply Permutation_sym; exact P|exact Ha].
    - split; [|now rewrite <- (Permutation_length P)].
      eapply Permutation_NoDup; [|exact C]. now apply Permutation_map.
  Qed.
End AP.
