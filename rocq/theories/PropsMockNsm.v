(** C84, C85: the mock Nitro Secure Module and its seed file (MockNsm.v). *)
From Verif Require Import Base Utf8 Hex HexProofs Json TypesJson Types Msg World Attest Services MockNsm SpecHex SpecClient ClientSets PropsSignedEcho Toy.
From Coq Require Import ZifyBool ZifyN ZifyNat.
Local Open Scope N_scope.

(** ** Specification of C84 *)
(** Which requests make register [i] read-only. *)
Definition covers (i : N) (r : nsm_request) : bool :=
  match r with LockPCR j => j =? i | LockPCRs n => (i <? n) && (n <=? 32) | _ => false end.
(** The requests before the first of these. *)
Fixpoint before_lock (i : N) (rs : list nsm_request) : list nsm_request :=
  match rs with [] => [] | r :: rest => if covers i r then [] else r :: before_lock i rest end.
Definition extensions (i : N) (rs : list nsm_request) : list bytes :=
  flat_map (fun r => match r with ExtendPCR j d => if j =? i then [d] else [] | _ => [] end) rs.
(** A register's value: its seed, hashed together with each piece of data it was
    extended with before it was locked. *)
Definition grown (sha384 : bytes -> bytes) (i : N) (seed : bytes) (rs : list nsm_request) : bytes :=
  fold_left (fun v d => sha384 (v ++ d)) (extensions i (before_lock i rs)) seed.
(** A new module given seeds in order; the last seed of a register counts, and
    registers are zero without one. *)
Inductive bank : list (N * bytes) -> mock -> Prop :=
| Bank_new : bank [] new_mock
| Bank_seed seeds m i v m' : bank seeds m -> with_pcr i v m = Some m' -> bank (seeds ++ [(i, v)]) m'.
Definition seed_of (seeds : list (N * bytes)) (i : N) : bytes :=
  fold_left (fun v s => if fst s =? i then snd s else v) seeds (repeat x00 48).
Definition whole (seeds : list (N * bytes)) : Prop := Forall (fun s => length (snd s) = 48%nat) seeds.

  Lemma reg_cons i v p l b j : mock_register (Mock ((i, v) :: p) l b) j = if j =? i then v else mock_register (Mock p l b) j.
  Proof. unfold mock_register. cbn [mk_pcrs alookup]. destruct (j =? i); reflexivity. Qed.
  Lemma reg_locks p l b l' b' j : mock_register (Mock p l b) j = mock_register (Mock p l' b') j.
  Proof. reflexivity. Qed.
  Lemma mem_indices i n : memb N.eqb i (indices n) = (i <? n).
  Proof.
    apply Bool.eq_iff_eq_true. rewrite (memb_In N.eqb N.eqb_eq). unfold indices. rewrite in_map_iff, N.ltb_lt. split.
    - intros (x & <- & H). apply in_seq in H. lia.
    - intros H. exists (N.to_nat i). split; [lia|]. apply in_seq. lia.
  Qed.
  Lemma mem_app i (a b : list N) : memb N.eqb i (a ++ b) = memb N.eqb i a || memb N.eqb i b.
  Proof. unfold memb. apply existsb_app. Qed.

  Lemma bank_state seeds m : bank seeds m -> mk_poisoned m = false /\ mk_locked m = [] /\ (forall i, mock_register m i = seed_of seeds i) /\
    Forall (fun s => fst s < 32 /\ In (length (snd s)) [32; 48; 64]%nat) seeds.
  Proof.
    induction 1 as [|seeds m i v m' B (P & L & R & F) W].
    - split; [reflexivity|]. split; [reflexivity|]. split; [|constructor]. intros i. unfold mock_register, new_mock. cbn [mk_pcrs alookup].
      destruct (i =? 16), (i =? 17); reflexivity.
    - unfold with_pcr, ATTESTABLE_PCR_COUNT in W. rewrite lenN_length in W. destruct (i <? 32) eqn:I; cbn [negb] in W; [|discriminate].
      destruct ((N.of_nat (length v) =? 32) || (N.of_nat (length v) =? 48) || (N.of_nat (length v) =? 64)) eqn:V; cbn [negb] in W; [|discriminate].
      injection W as <-. cbn [mk_poisoned mk_locked]. split; [exact P|]. split; [exact L|]. split.
      + intros j. rewrite reg_cons. unfold seed_of. rewrite fold_left_app. cbn [fold_left fst snd]. rewrite (N.eqb_sym i j).
        destruct (j =? i); [reflexivity|]. transitivity (mock_register m j); [destruct m; reflexivity|apply R].
      + apply Forall_app. split; [exact F|]. constructor; [|constructor]. cbn [fst snd In]. lia.
  Qed.
  Lemma seed_len seeds i : whole seeds -> length (seed_of seeds i) = 48%nat.
  Proof.
    unfold seed_of. assert (H : forall v : bytes, length v = 48%nat -> whole seeds -> length (fold_left (fun v s => if fst s =? i then snd s else v) seeds v) = 48%nat).
    { intros v V W. revert v V. induction W as [|s ss S W IH]; intros v V; [exact V|]. cbn [fold_left]. apply IH. match goal with |- context [if ?c then _ else _] => destruct c end; [exact S|exact V]. }
    intros W. apply H; [reflexivity|exact W].
  Qed.
Section C84.
  Context (sha384 : bytes -> bytes) (sign_doc : att_doc -> bytes) (LEAF ROOT INTERMEDIATE : bytes).
  Hypothesis sha384_len : forall x, length (sha384 x) = 48%nat.
  Local Notation step := (mock_step sha384 sign_doc LEAF ROOT INTERMEDIATE).
  (** The module after some requests, whatever it answered. *)
  Definition after (m : mock) (rs : list nsm_request) : mock := fold_left (fun m r => snd (step m r)) rs m.
  Definition answer_to (m : mock) (r : nsm_request) : option nsm_response := fst (step m r).

  (** ** Proofs *)
  Record good (m : mock) : Prop := Good { g_poison : mk_poisoned m = false; g_len : forall i, length (mock_register m i) = 48%nat }.
  Definition locked (m : mock) (i : N) : bool := memb N.eqb i (mk_locked m).

  (** One request: nothing panics, an accepted extension changes one register,
      a lock only adds to the locked ones. *)
  Lemma step_good m r : good m -> good (snd (step m r)) /\ answer_to m r <> None /\
    (forall i, i < 32 -> locked (snd (step m r)) i = locked m i || covers i r) /\
    (forall i, i < 32 -> mock_register (snd (step m r)) i = match r with ExtendPCR j d => if (j =? i) && negb (locked m i) then sha384 (mock_register m i ++ d) else mock_register m i | _ => mock_register m i end).
  Proof.
    intros [P L]. destruct m as [p l b]. cbn [mk_poisoned] in P. subst b. unfold answer_to, locked. cbn [mk_locked].
    assert (Same : forall i, i < 32 -> memb N.eqb i l = memb N.eqb i l || false) by (intros; now rewrite orb_false_r).
    assert (G0 : good (Mock p l false)) by (now constructor).
    destruct r as [j|j d|j|n| |u n k|]; unfold mock_step; cbn [mk_poisoned mk_locked mk_pcrs covers]; unfold max_pcrs, ATTESTABLE_PCR_COUNT.
    - destruct (32 <=? j) eqn:J; cbn [fst snd mk_locked]; (split; [|split; [discriminate|split; [exact Same|]]]); try exact G0; try reflexivity.
      + constructor; [reflexivity|]. intros i. rewrite reg_cons. destruct (i =? j); apply L.
      + intros i _. rewrite reg_cons. destruct (N.eqb_spec i j) as [->|]; reflexivity.
    - destruct (32 <=? j) eqn:J; cbn [fst snd mk_locked].
      { split; [exact G0|]. split; [discriminate|]. split; [exact Same|]. intros i I. destruct (N.eqb_spec j i) as [->|]; [lia|reflexivity]. }
      destruct (memb N.eqb j l) eqn:M; cbn [fst snd mk_locked].
      { split; [exact G0|]. split; [discriminate|]. split; [exact Same|]. intros i I. destruct (N.eqb_spec j i) as [<-|]; [rewrite M|]; reflexivity. }
      rewrite lenN_length, (L j). change (N.of_nat 48 =? 48) with true. cbv iota zeta. cbn [fst snd mk_locked].
      split; [|split; [discriminate|split; [exact Same|]]].
      + constructor; [reflexivity|]. intros i. rewrite reg_cons. destruct (i =? j); [apply sha384_len|apply L].
      + intros i I. rewrite reg_cons, (N.eqb_sym i j). destruct (N.eqb_spec j i) as [->|]; [rewrite M|]; reflexivity.
    - destruct (32 <=? j) eqn:J; cbn [fst snd mk_locked]; (split; [|split; [discriminate|split; [|]]]); try exact G0; try reflexivity.
      + intros i I. destruct (N.eqb_spec j i); [lia|now rewrite orb_false_r].
      + constructor; [reflexivity|exact L].
      + intros i I. unfold memb. cbn [existsb]. rewrite (N.eqb_sym i j). apply orb_comm.
    - destruct (32 <? n) eqn:J; cbn [fst snd mk_locked]; (split; [|split; [discriminate|split; [|]]]); try exact G0; try reflexivity.
      + intros i I. replace (n <=? 32) with false by lia. rewrite andb_false_r. now apply Same.
      + constructor; [reflexivity|exact L].
      + intros i I. rewrite mem_app, mem_indices. replace (n <=? 32) with true by lia. rewrite andb_true_r. apply orb_comm.
    - cbn [fst snd]. split; [exact G0|]. split; [discriminate|]. split; [exact Same|reflexivity].
    - cbn [fst snd]. split; [exact G0|]. split; [discriminate|]. split; [exact Same|reflexivity].
    - cbn [fst snd]. split; [exact G0|]. split; [discriminate|]. split; [exact Same|reflexivity].
  Qed.
  Lemma after_good rs : forall m, good m -> good (after m rs) /\ forall i, i < 32 ->
    locked (after m rs) i = locked m i || existsb (covers i) rs /\
    mock_register (after m rs) i = if locked m i then mock_register m i else grown sha384 i (mock_register m i) rs.
  Proof.
    induction rs as [|r rs IH]; intros m G; unfold after; cbn [fold_left].
    - split; [exact G|]. intros i I. cbn. rewrite orb_false_r. split; [reflexivity|]. now destruct (locked m i).
    - destruct (step_good m r G) as (G1 & _ & L1 & R1). fold (after (snd (step m r)) rs). destruct (IH _ G1) as [G2 H]. split; [exact G2|].
      intros i I. destruct (H i I) as [HL HR]. rewrite HL, HR, (L1 i I), (R1 i I). cbn [existsb]. split; [now rewrite orb_assoc|].
      unfold grown. cbn [before_lock].
      destruct (locked m i) eqn:LM; cbn [orb].
      + destruct r; try reflexivity. now rewrite andb_false_r.
      + destruct (covers i r) eqn:C; cbn [extensions flat_map fold_left].
        * destruct r; try reflexivity; discriminate C.
        * destruct r as [j|j d|j|n| |u n k|]; try reflexivity. cbn [negb]. rewrite andb_true_r. destruct (j =? i); reflexivity.
  Qed.
  Lemma bank_good seeds m : bank seeds m -> whole seeds -> good m.
  Proof. intros B W. destruct (bank_state _ _ B) as (P & _ & R & _). constructor; [exact P|]. intros i. rewrite R. now apply seed_len. Qed.
  Lemma bank_after seeds m rs : bank seeds m -> whole seeds -> good (after m rs) /\ forall i, i < 32 ->
    locked (after m rs) i = existsb (covers i) rs /\ mock_register (after m rs) i = grown sha384 i (seed_of seeds i) rs.
  Proof.
    intros B W. destruct (after_good rs m (bank_good _ _ B W)) as [G H]. split; [exact G|]. intros i I. destruct (H i I) as [HL HR].
    destruct (bank_state _ _ B) as (_ & L & R & _). unfold locked at 2 in HL. unfold locked in HR. rewrite L in HL, HR. cbn in HL, HR. now rewrite HL, HR, R.
  Qed.

  (** *** Theorems *)
  (** A register always tells its history. *)
  Theorem c84_registers_tell_their_history : forall seeds m rs i, bank seeds m -> whole seeds -> i < 32 ->
    answer_to (after m rs) (DescribePCR i) = Some (RDescribePCR (existsb (covers i) rs) (grown sha384 i (seed_of seeds i) rs)).
  Proof.
    intros seeds m rs i B W I. destruct (bank_after seeds m rs B W) as [[P _] H]. destruct (H i I) as [HL HR].
    unfold answer_to, mock_step. rewrite P. unfold max_pcrs, ATTESTABLE_PCR_COUNT. replace (32 <=? i) with false by lia. cbn [fst]. unfold locked in HL. now rewrite HL, HR.
  Qed.
  (** What every request is answered, whatever was asked before. *)
  Theorem c84_answers : forall seeds m rs, bank seeds m -> whole seeds ->
    (forall i d, answer_to (after m rs) (ExtendPCR i d) = Some (if 32 <=? i then RError NsmInvalidIndex else if existsb (covers i) rs then RError NsmReadOnlyIndex else RExtendPCR (sha384 (grown sha384 i (seed_of seeds i) rs ++ d)))) /\
    (forall i, answer_to (after m rs) (LockPCR i) = Some (if 32 <=? i then RError NsmInvalidIndex else RLockPCR)) /\
    (forall n, answer_to (after m rs) (LockPCRs n) = Some (if 32 <? n then RError NsmInvalidIndex else RLockPCRs)) /\
    (forall i, 32 <= i -> answer_to (after m rs) (DescribePCR i) = Some (RError NsmInvalidIndex)) /\
    (exists ls, answer_to (after m rs) DescribeNSM = Some (RDescribeNSM 1 2 14 (bs "mock_module_id") 32 ls SHA384) /\ forall i, In i ls <-> i < 32 /\ existsb (covers i) rs = true) /\
    (forall r, answer_to (after m rs) r <> None).
  Proof.
    intros seeds m rs B W. destruct (bank_after seeds m rs B W) as [G H]. set (a := after m rs) in *. pose proof G as [P L].
    unfold answer_to, mock_step. rewrite P. unfold max_pcrs, ATTESTABLE_PCR_COUNT.
    split; [|split; [|split; [|split; [|split]]]].
    - intros i d. destruct (32 <=? i) eqn:I; [reflexivity|]. destruct (H i ltac:(lia)) as [HL HR]. unfold locked in HL. rewrite HL.
      destruct (existsb (covers i) rs); [reflexivity|]. rewrite lenN_length, L. change (N.of_nat 48 =? 48) with true. cbv iota zeta. cbn [fst]. now rewrite HR.
    - intros i. now destruct (32 <=? i).
    - intros n. now destruct (32 <? n).
    - intros i I. now replace (32 <=? i) with true by lia.
    - eexists. split; [reflexivity|]. intros i. rewrite filter_In, <- (memb_In N.eqb N.eqb_eq), mem_indices, N.ltb_lt. split.
      + intros [I M]. split; [exact I|]. destruct (H i I) as [HL _]. unfold locked in HL. congruence.
      + intros [I M]. split; [exact I|]. destruct (H i I) as [HL _]. unfold locked in HL. congruence.
    - intros r. pose proof (step_good a r G) as (_ & N & _). unfold answer_to, mock_step in N. rewrite P in N. exact N.
  Qed.
  (** A document shows all 32 registers as they are, and what was asked for. *)
  Theorem c84_documents_show_the_registers : forall seeds m rs u n k, bank seeds m -> whole seeds ->
    exists d, answer_to (after m rs) (Attestation u n k) = Some (RAttestation (sign_doc d)) /\
      (forall i, alookup i (ad_pcrs d) = if i <? 32 then Some (grown sha384 i (seed_of seeds i) rs) else None) /\
      ad_user_data d = u /\ ad_nonce d = n /\ ad_public_key d = k /\ ad_certificate d = LEAF /\ ad_cabundle d = [ROOT; INTERMEDIATE] /\
      (In (length LEAF) (seq 1 1024) -> In (length ROOT) (seq 1 1024) -> In (length INTERMEDIATE) (seq 1 1024) ->
       (validate_attestation_doc d = Ok tt <-> (forall x, k = Some x -> (1 <= length x <= 1024)%nat) /\ (forall x, u = Some x -> (length x <= 512)%nat) /\ (forall x, n = Some x -> (length x <= 512)%nat))).
  Proof.
    intros seeds m rs u n k B W. destruct (bank_after seeds m rs B W) as [[P L] H]. set (a := after m rs) in *.
    exists (mock_doc LEAF ROOT INTERMEDIATE a u n k). unfold answer_to, mock_step. rewrite P. split; [reflexivity|].
    split; [|do 5 (split; [reflexivity|])].
    - intros i. cbn [mock_doc ad_pcrs]. unfold ATTESTABLE_PCR_COUNT.
      assert (A : forall l, alookup i (map (fun j => (j, mock_register a j)) l) = if memb N.eqb i l then Some (mock_register a i) else None).
      { induction l as [|x l IH]; [reflexivity|]. cbn [map alookup]. unfold memb. cbn [existsb]. destruct (N.eqb_spec i x) as [->|]; [reflexivity|exact IH]. }
      rewrite A, mem_indices. destruct (i <? 32) eqn:I; [|reflexivity]. now rewrite (proj2 (H i ltac:(lia))).
    - intros CL CR CI. apply in_seq in CL, CR, CI.
      assert (VP : validate_pcrs (map (fun i => (i, mock_register a i)) (indices ATTESTABLE_PCR_COUNT)) = Ok tt).
      { unfold validate_pcrs. replace (forallb _ _) with true.
        - reflexivity.
        - symmetry. apply forallb_forall. intros [i v] I. apply in_map_iff in I as (j & E & I). injection E as <- <-.
          apply (memb_In N.eqb N.eqb_eq) in I. rewrite mem_indices in I. unfold ATTESTABLE_PCR_COUNT in I. rewrite lenN_length, L. change (N.of_nat 48 =? 48) with true. rewrite orb_true_r, orb_true_l, andb_true_r. lia. }
      unfold validate_attestation_doc, mock_doc. cbn [ad_module_id ad_digest ad_pcrs ad_cabundle ad_timestamp ad_public_key ad_user_data ad_nonce].
      rewrite VP. unfold validate_module_id, MOCK_MODULE_ID, validate_digest, validate_cabundle, validate_timestamp, MOCK_TIMESTAMP. cbn [bs list_byte_of_string rbind forallb digest_eqb]. rewrite !lenN_length.
      replace (1 <=? N.of_nat (length ROOT)) with true by lia. replace (N.of_nat (length ROOT) <=? 1024) with true by lia.
      replace (1 <=? N.of_nat (length INTERMEDIATE)) with true by lia. replace (N.of_nat (length INTERMEDIATE) <=? 1024) with true by lia.
      cbn [length andb negb orb rbind N.eqb]. change (1 <=? N.of_nat 2) with true. cbn [negb orb rbind].
      unfold validate_public_key, validate_bytes_512. split.
      + intros E. split; [|split].
        * intros x ->. rewrite lenN_length in E. destruct ((1 <=? N.of_nat (length x)) && (N.of_nat (length x) <=? 1024)) eqn:C; [lia|discriminate E].
        * intros x ->. destruct (match k with Some _ => _ | None => _ end) as [?|?]; cbn [rbind] in E; [|discriminate E]. rewrite lenN_length in E. destruct (512 <? N.of_nat (length x)) eqn:C; [discriminate E|lia].
        * intros x ->. destruct (match k with Some _ => _ | None => _ end) as [?|?]; cbn [rbind] in E; [|discriminate E]. destruct (match u with Some _ => _ | None => _ end) as [?|?]; cbn [rbind] in E; [|discriminate E].
          rewrite lenN_length in E. destruct (512 <? N.of_nat (length x)) eqn:C; [discriminate E|lia].
      + intros (K & U & Nn).
        assert (E1 : match k with Some k0 => if (1 <=? lenN k0) && (lenN k0 <=? 1024) then Ok tt else Err AInvalidPubKey | None => Ok tt end = Ok tt).
        { destruct k as [x|]; [|reflexivity]. rewrite lenN_length. specialize (K x eq_refl). now replace ((1 <=? N.of_nat (length x)) && (N.of_nat (length x) <=? 1024)) with true by lia. }
        assert (E2 : forall o : option bytes, (forall x, o = Some x -> (length x <= 512)%nat) -> match o with Some v => if 512 <? lenN v then Err AInvalidBytes else Ok tt | None => Ok tt end = Ok tt).
        { intros [x|] Hx; [|reflexivity]. rewrite lenN_length. specialize (Hx x eq_refl). now replace (512 <? N.of_nat (length x)) with false by lia. }
        rewrite E1. cbn [rbind]. rewrite (E2 u U). cbn [rbind]. exact (E2 n Nn).
  Qed.
End C84.
Print Assumptions c84_registers_tell_their_history.
Print Assumptions c84_answers.
Print Assumptions c84_documents_show_the_registers.

(** *** A boot over the mock module *)
Section C84_boot.
  Context (Y : sys) (view : s_nsm Y -> mock) (sign_doc : att_doc -> bytes) (LEAF ROOT INTERMEDIATE : bytes).
  Local Notation step := (mock_step (s_sha384 Y) sign_doc LEAF ROOT INTERMEDIATE).
  Local Notation after := (after (s_sha384 Y) sign_doc LEAF ROOT INTERMEDIATE).
  (** The enclave's module is the mock: it answers as the mock does. *)
  Definition mocked : Prop := forall n r a m', step (view n) r = (Some a, m') -> fst (s_nsm_step Y n r) = a /\ view (snd (s_nsm_step Y n r)) = m'.
  (** What a boot asks of the module to commit to a manifest. *)
  Definition commitment_requests (mh setup live : bytes) : list nsm_request :=
    [DescribeNSM; DescribePCR 16; ExtendPCR 16 (manifest_pcr_commitment Y Setup mh setup); DescribePCR 17; ExtendPCR 17 (manifest_pcr_commitment Y Live mh live);
     LockPCRs 32; DescribeNSM; DescribePCR 16; DescribePCR 17].
  Definition untouched (seeds : list (N * bytes)) (rs : list nsm_request) (i : N) : Prop :=
    existsb (covers i) rs = false /\ grown (s_sha384 Y) i (seed_of seeds i) rs = repeat x00 48.

  Lemma after_snoc m rs r : after m (rs ++ [r]) = snd (step (after m rs) r).
  Proof. unfold PropsMockNsm.after. now rewrite fold_left_app. Qed.
  Lemma op_mocked (MK : mocked) s m rs r a : view (st_nsm s) = after m rs -> fst (step (after m rs) r) = Some a ->
    exists s', op_nsm Y r s = (Ok a, s') /\ view (st_nsm s') = after m (rs ++ [r]).
  Proof.
    intros V A. destruct (step (after m rs) r) as [x m'] eqn:E. cbn [fst] in A. subst x. pose proof E as E'. rewrite <- V in E.
    destruct (MK _ _ _ _ E) as [E1 E2]. unfold op_nsm. destruct (s_nsm_step Y (st_nsm s) r) as [x n]. cbn [fst snd] in E1, E2. subst x.
    eexists. split; [reflexivity|]. cbn. now rewrite after_snoc, E', E2.
  Qed.
  Lemma covers_app i a b : existsb (covers i) (a ++ b) = existsb (covers i) a || existsb (covers i) b.
  Proof. apply existsb_app. Qed.
  Lemma before_app i a b : before_lock i (a ++ b) = if existsb (covers i) a then before_lock i a else a ++ before_lock i b.
  Proof. induction a as [|r a IH]; [reflexivity|]. cbn [app before_lock existsb]. destruct (covers i r); [reflexivity|]. cbn [orb]. rewrite IH. now destruct (existsb (covers i) a). Qed.
  Lemma grown_app i v a b : grown (s_sha384 Y) i v (a ++ b) = if existsb (covers i) a then grown (s_sha384 Y) i v a else grown (s_sha384 Y) i (grown (s_sha384 Y) i v a) b.
  Proof.
    unfold grown. rewrite before_app. destruct (existsb (covers i) a) eqn:E; [reflexivity|]. unfold extensions. rewrite flat_map_app, fold_left_app. f_equal.
    rewrite <- (app_nil_r a) at 2. rewrite before_app, E. cbn [before_lock]. now rewrite app_nil_r.
  Qed.

  Lemma bind_ret {A C} (a : A) (f : A -> M Y C) s : bind (ret a) f s = f a s. Proof. reflexivity. Qed.
  Lemma bind_ok {A C} (a : A) (f : A -> M Y C) s : bind (lift (Ok a)) f s = f a s. Proof. reflexivity. Qed.
  Lemma bind_err {A C} e (f : A -> M Y C) s : bind (err e) f s = (Err e, s). Proof. reflexivity. Qed.
  Lemma run_ok {A C} (x : M Y A) (f : A -> M Y C) s a s' : x s = (Ok a, s') -> bind x f s = f a s'.
  Proof. intros E. unfold bind. now rewrite E. Qed.
  Lemma run_err {A C} (x : M Y A) (f : A -> M Y C) s e s' : x s = (Err e, s') -> bind x f s = (Err e, s').
  Proof. intros E. unfold bind. now rewrite E. Qed.
  Section Boot.
    Context (seeds : list (N * bytes)) (m : mock) (OK : sys_ok Y) (MK : mocked) (B : bank seeds m) (W : whole seeds).
    Local Notation value i rs := (grown (s_sha384 Y) i (seed_of seeds i) rs).
    Lemma sha_len : forall x, length (s_sha384 Y x) = 48%nat.
    Proof. apply (ok_sha384 _ OK). Qed.
    Lemma ask s rs r a : view (st_nsm s) = after m rs -> fst (step (after m rs) r) = Some a ->
      exists s', view (st_nsm s') = after m (rs ++ [r]) /\ forall A (f : nsm_response -> M Y A), bind (op_nsm Y r) f s = f a s'.
    Proof. intros V A. destruct (op_mocked MK s m rs r a V A) as (s' & E & V'). exists s'. split; [exact V'|]. intros T f. unfold bind. now rewrite E. Qed.
    Lemma describe_run s rs i : i < 32 -> view (st_nsm s) = after m rs ->
      exists s', view (st_nsm s') = after m (rs ++ [DescribePCR i]) /\ forall A (f : bool * bytes -> M Y A), bind (describe_pcr Y i) f s = f (existsb (covers i) rs, value i rs) s'.
    Proof.
      intros I V. destruct (ask s rs (DescribePCR i) _ V (c84_registers_tell_their_history _ sign_doc LEAF ROOT INTERMEDIATE sha_len seeds m rs i B W I)) as (s' & V' & R).
      exists s'. split; [exact V'|]. intros A f. unfold describe_pcr. unfold bind at 1. rewrite R. reflexivity.
    Qed.
    Lemma commitment_run k s rs locked mh e : view (st_nsm s) = after m rs -> memb N.eqb (pcr_index k) locked = existsb (covers (pcr_index k)) rs ->
      (untouched seeds rs (pcr_index k) -> exists s', extend_commitment Y k 32 locked mh e s = (Ok (s_sha384 Y (repeat x00 48 ++ manifest_pcr_commitment Y k mh e)), s') /\
         view (st_nsm s') = after m (rs ++ [DescribePCR (pcr_index k); ExtendPCR (pcr_index k) (manifest_pcr_commitment Y k mh e)])) /\
      ((exists v s', extend_commitment Y k 32 locked mh e s = (Ok v, s')) -> untouched seeds rs (pcr_index k)).
    Proof.
      intros V L. assert (I : pcr_index k < 32) by (destruct k; reflexivity). unfold extend_commitment, untouched. cbv zeta. rewrite L. set (i := pcr_index k) in *.
      replace (32 <=? i) with false by lia. unfold guard. cbn [negb]. rewrite bind_ret.
      destruct (existsb (covers i) rs) eqn:C; cbn [negb].
      { rewrite bind_err. split; [intros [X _]; discriminate|]. intros (v & s' & X). discriminate X. }
      rewrite bind_ret. destruct (describe_run s rs i I V) as (s1 & V1 & R). rewrite R, C. cbn [negb]. rewrite bind_ret.
      destruct (bytes_eqb_spec (value i rs) INITIAL_PCR) as [E|NE].
      2:{ rewrite bind_err. split; [intros [_ X]; contradiction|]. intros (v & s' & X). discriminate X. }
      split; [|intros _; split; [reflexivity|exact E]]. intros _. rewrite bind_ret, E.
      unfold pcr_extend_sha384. change (lenN INITIAL_PCR =? 48) with true. cbv iota. cbn [rmap_err]. rewrite bind_ok.
      destruct (c84_answers _ sign_doc LEAF ROOT INTERMEDIATE sha_len seeds m (rs ++ [DescribePCR i]) B W) as (X & _).
      specialize (X i (manifest_pcr_commitment Y k mh e)). replace (32 <=? i) with false in X by lia. rewrite covers_app, C, grown_app, C in X. cbn [existsb covers orb] in X.
      change (grown (s_sha384 Y) i ?v [DescribePCR i]) with v in X. rewrite E in X.
      destruct (ask s1 _ _ _ V1 X) as (s2 & V2 & R2). rewrite R2, bytes_eqb_refl, bind_ret.
      eexists. split; [reflexivity|]. rewrite V2, <- app_assoc. reflexivity.
    Qed.
  End Boot.

  Theorem c84_boot_commits : forall seeds m rs s mh setup live, sys_ok Y -> mocked -> bank seeds m -> whole seeds -> view (st_nsm s) = after m rs ->
    ((exists s', lock_manifest_commitment_pcr_bank Y mh setup live s = (Ok tt, s')) <-> untouched seeds rs 16 /\ untouched seeds rs 17) /\
    (forall s', lock_manifest_commitment_pcr_bank Y mh setup live s = (Ok tt, s') -> view (st_nsm s') = after m (rs ++ commitment_requests mh setup live)).
  Proof.
    intros seeds m rs s mh setup live OK MK B W V. pose proof (sha_len OK) as LEN.
    unfold lock_manifest_commitment_pcr_bank.
    destruct (c84_answers _ sign_doc LEAF ROOT INTERMEDIATE LEN seeds m rs B W) as (_ & _ & _ & _ & (ls & A0 & LS) & _).
    destruct (ask m MK s rs _ _ V A0) as (s1 & V1 & R1). assert (D1 : describe_nsm Y s = (Ok (32, ls, SHA384), s1)) by (unfold describe_nsm; rewrite R1; reflexivity). rewrite (run_ok _ _ _ _ _ D1).
    unfold guard. cbn [digest_eqb]. rewrite bind_ret. change (negb (32 <? ATTESTABLE_PCR_COUNT)) with true. cbv iota. rewrite bind_ret.
    assert (ML : forall i, i < 32 -> memb N.eqb i ls = existsb (covers i) rs).
    { intros i I. apply Bool.eq_iff_eq_true. rewrite (memb_In N.eqb N.eqb_eq), LS. tauto. }
    assert (U : forall i l, existsb (covers i) l = false -> extensions i l = [] -> untouched seeds (rs ++ l) i <-> untouched seeds rs i).
    { intros i l C X. unfold untouched. rewrite covers_app, grown_app, C, orb_false_r. destruct (existsb (covers i) rs) eqn:D; [split; intros [H _]; discriminate|].
      assert (G : forall v, grown (s_sha384 Y) i v l = v).
      { intros v. unfold grown. pose proof (before_app i l []) as BA. rewrite app_nil_r, C in BA. cbn [before_lock] in BA. rewrite app_nil_r in BA. now rewrite BA, X. }
      now rewrite G. }
    destruct (commitment_run seeds m OK MK B W Setup s1 (rs ++ [DescribeNSM]) ls mh setup V1) as [P1 Q1].
    { rewrite covers_app. cbn. rewrite orb_false_r. apply ML. reflexivity. }
    cbn [pcr_index] in P1, Q1. rewrite U in P1, Q1 by reflexivity.
    destruct (extend_commitment Y Setup 32 ls mh setup s1) as [[e1|er] t1] eqn:E1.
    2:{ rewrite (run_err _ _ _ _ _ E1). split; [|intros s' X; discriminate X]. split; [intros (s' & X); discriminate X|]. intros [U1 _]. destruct (P1 U1) as (s' & X & _). discriminate X. }
    assert (U1 : untouched seeds rs 16) by (apply Q1; eauto). destruct (P1 U1) as (t1' & X1 & VT1). injection X1 as -> <-. clear P1 Q1.
    rewrite (run_ok _ _ _ _ _ E1).
    set (c1 := manifest_pcr_commitment Y Setup mh setup) in *. rewrite <- app_assoc in VT1. cbn [app] in VT1.
    destruct (commitment_run seeds m OK MK B W Live t1 (rs ++ [DescribeNSM; DescribePCR 16; ExtendPCR 16 c1]) ls mh live VT1) as [P2 Q2].
    { rewrite covers_app. cbn. rewrite orb_false_r. apply ML. reflexivity. }
    cbn [pcr_index] in P2, Q2. rewrite U in P2, Q2 by reflexivity.
    destruct (extend_commitment Y Live 32 ls mh live t1) as [[e2|er] t2] eqn:E2.
    2:{ rewrite (run_err _ _ _ _ _ E2). split; [|intros s' X; discriminate X]. split; [intros (s' & X); discriminate X|]. intros [_ U2]. destruct (P2 U2) as (s' & X & _). discriminate X. }
    assert (U2 : untouched seeds rs 17) by (apply Q2; eauto). destruct (P2 U2) as (t2' & X2 & VT2). injection X2 as -> <-. clear P2 Q2.
    rewrite (run_ok _ _ _ _ _ E2).
    set (c2 := manifest_pcr_commitment Y Live mh live) in *. rewrite <- app_assoc in VT2. cbn [app] in VT2.
    set (rs2 := rs ++ [DescribeNSM; DescribePCR 16; ExtendPCR 16 c1; DescribePCR 17; ExtendPCR 17 c2]) in *.
    destruct (c84_answers _ sign_doc LEAF ROOT INTERMEDIATE LEN seeds m rs2 B W) as (_ & _ & AL & _). specialize (AL 32).
    destruct (ask m MK t2 rs2 _ _ VT2 AL) as (t3 & VT3 & R3). rewrite R3. change (32 <? 32) with false. cbv iota. rewrite bind_ret.
    destruct (c84_answers _ sign_doc LEAF ROOT INTERMEDIATE LEN seeds m (rs2 ++ [LockPCRs 32]) B W) as (_ & _ & _ & _ & (ls' & A1 & LS') & _).
    destruct (ask m MK t3 _ _ _ VT3 A1) as (t4 & VT4 & R4). assert (D4 : describe_nsm Y t3 = (Ok (32, ls', SHA384), t4)) by (unfold describe_nsm; rewrite R4; reflexivity). rewrite (run_ok _ _ _ _ _ D4).
    change (32 =? 32) with true. cbv iota. rewrite bind_ret.
    assert (AL32 : all_locked 32 ls' = true).
    { unfold all_locked. apply forallb_forall. intros i I. change (map N.of_nat (seq 0 (N.to_nat 32))) with (indices 32) in I. apply (memb_In N.eqb N.eqb_eq) in I. rewrite mem_indices in I.
      apply (memb_In N.eqb N.eqb_eq). apply LS'. split; [lia|]. rewrite covers_app. cbn [existsb covers]. rewrite I. cbn. now rewrite orb_true_r. }
    rewrite AL32, bind_ret.
    assert (VAL : forall i v c, i < 32 -> untouched seeds rs i -> (forall w, grown (s_sha384 Y) i w [DescribeNSM; DescribePCR 16; ExtendPCR 16 c1; DescribePCR 17; ExtendPCR 17 c2; LockPCRs 32; DescribeNSM] = s_sha384 Y (w ++ c)) -> v = s_sha384 Y (repeat x00 48 ++ c) ->
      forall l, existsb (covers i) l = existsb (covers i) l -> existsb (covers i) (((rs2 ++ [LockPCRs 32]) ++ [DescribeNSM]) ++ l) = true /\ grown (s_sha384 Y) i (seed_of seeds i) (((rs2 ++ [LockPCRs 32]) ++ [DescribeNSM]) ++ l) = v).
    { intros i v c I [C0 G0] G -> l _. assert (C1 : existsb (covers i) ((rs2 ++ [LockPCRs 32]) ++ [DescribeNSM]) = true).
      { rewrite !covers_app. cbn [existsb covers]. replace (i <? 32) with true by lia. cbn. now rewrite orb_true_r. }
      split; [rewrite covers_app, C1; reflexivity|]. rewrite grown_app, C1. unfold rs2. rewrite <- !app_assoc. cbn [app]. rewrite grown_app, C0, G0. apply G. }
    unfold verify_locked.
    assert (I16 : pcr_index Setup < 32) by reflexivity. assert (I17 : pcr_index Live < 32) by reflexivity.
    destruct (describe_run seeds m OK MK B W t4 _ _ I16 VT4) as (t5 & VT5 & R5).
    destruct (VAL 16 _ c1 I16 U1 (fun w => eq_refl) eq_refl [] eq_refl) as [K1 K2]. rewrite app_nil_r in K1, K2. cbn [pcr_index] in *. rewrite K1, K2 in R5.
    assert (D5 : (do (lock, data) <- describe_pcr Y 16; guard lock (attest_err "PCR not read-only after LockPCRs") ;; guard (bytes_eqb data (s_sha384 Y (repeat x00 48 ++ c1))) (attest_err "PCR post-lock value mismatch"))%m t4 = (Ok tt, t5)).
    { rewrite R5. unfold guard. rewrite bind_ret, bytes_eqb_refl. reflexivity. }
    unfold guard in D5. rewrite (run_ok _ _ _ _ _ D5).
    destruct (describe_run seeds m OK MK B W t5 _ _ I17 VT5) as (t6 & VT6 & R6). cbn [pcr_index] in *.
    destruct (VAL 17 _ c2 I17 U2 (fun w => eq_refl) eq_refl [DescribePCR 16] eq_refl) as [K3 K4]. rewrite R6, K3, K4. cbv beta iota. unfold guard. rewrite bind_ret, bytes_eqb_refl.
    split; [split; [intros _; now split|intros _; eexists; reflexivity]|]. intros s' X. injection X as <-. rewrite VT6. unfold commitment_requests, rs2. fold c1 c2. rewrite <- !app_assoc. reflexivity.
  Qed.
End C84_boot.
Print Assumptions c84_boot_commits.
(** A bank commits to one boot: nothing done to the module later lets another
    boot commit. *)
Theorem c84_commits_once : forall Y view sign_doc LEAF ROOT INTERMEDIATE seeds m rs mh setup live later s mh' setup' live',
  sys_ok Y -> mocked Y view sign_doc LEAF ROOT INTERMEDIATE -> bank seeds m -> whole seeds ->
  view (st_nsm s) = after (s_sha384 Y) sign_doc LEAF ROOT INTERMEDIATE m (rs ++ commitment_requests Y mh setup live ++ later) ->
  fst (lock_manifest_commitment_pcr_bank Y mh' setup' live' s) <> Ok tt.
Proof.
  intros Y view sd LE RO IN seeds m rs mh a b later s mh' a' b' OK MK B W V X.
  destruct (c84_boot_commits Y view sd LE RO IN seeds m _ s mh' a' b' OK MK B W V) as [[H _] _].
  destruct (lock_manifest_commitment_pcr_bank Y mh' a' b' s) as [[[]|e] s'] eqn:E; [|discriminate X].
  destruct (H (ex_intro _ s' eq_refl)) as [[C _] _]. rewrite !covers_app in C. cbn in C. rewrite orb_true_r in C. discriminate.
Qed.
Print Assumptions c84_commits_once.
(** After a boot's commitment the documents it asks for verify, for the key and
    the manifest committed to, and whatever is asked of the module later; a
    document for another key or manifest would need a hash collision. *)
Theorem c84_documents_verify : forall Y sign_doc LEAF ROOT INTERMEDIATE seeds m rs mh setup live later user pk k secs,
  sys_ok Y -> bank seeds m -> whole seeds -> untouched Y seeds rs 16 -> untouched Y seeds rs 17 ->
  (forall d, s_doc Y (sign_doc d) = Some d) -> (forall d, ad_certificate d = LEAF -> s_cose_sig_ok Y LEAF (sign_doc d) = true) -> s_chain_ok Y [INTERMEDIATE] ROOT LEAF secs = true ->
  In (length LEAF) (seq 1 1024) -> In (length ROOT) (seq 1 1024) -> In (length INTERMEDIATE) (seq 1 1024) ->
  (length user <= 512)%nat -> (1 <= length pk <= 1024)%nat ->
  exists cose d, answer_to (s_sha384 Y) sign_doc LEAF ROOT INTERMEDIATE (after (s_sha384 Y) sign_doc LEAF ROOT INTERMEDIATE m (rs ++ commitment_requests Y mh setup live ++ later)) (Attestation (Some user) None (Some pk)) = Some (RAttestation cose) /\
    attestation_doc_from_der Y cose ROOT secs = Ok d /\
    (forall mh', verify_commitment Y d k mh' = Ok tt <->
       s_sha384 Y (repeat x00 48 ++ manifest_pcr_commitment Y k mh' pk) = s_sha384 Y (repeat x00 48 ++ manifest_pcr_commitment Y k mh (match k with Setup => setup | Live => live end))) /\
    (forall p0 p1 p2 p3, verify_user_input d user p0 p1 p2 p3 = Ok tt <-> forall i p, In (i, p) [(0, p0); (1, p1); (2, p2); (3, p3)] -> p = grown (s_sha384 Y) i (seed_of seeds i) rs).
Proof.
  intros Y sd LE RO IN seeds m rs mh a b later user pk k secs OK B W U1 U2 DOC SIG CH L1 L2 L3 LU LP.
  set (all := rs ++ commitment_requests Y mh a b ++ later).
  destruct (c84_documents_show_the_registers (s_sha384 Y) sd LE RO IN (ok_sha384 _ OK) seeds m all (Some user) None (Some pk) B W) as (d & A & P & Du & Dn & Dk & Dc & Db & V).
  exists (sd d), d. split; [exact A|]. split; [|split].
  - unfold attestation_doc_from_der. rewrite DOC, (proj2 (V L1 L2 L3)); [cbn [rbind]|].
    + rewrite Db, Dc. cbn [tl]. now rewrite CH, (SIG d Dc).
    + split; [intros x [= <-]; exact LP|]. split; [intros x [= <-]; exact LU|discriminate].
  - intros mh'. unfold verify_commitment.
    assert (AA : all_attestable (ad_pcrs d) = None).
    { unfold all_attestable. destruct (find _ _) as [i|] eqn:F; [|reflexivity]. exfalso. apply find_some in F as [I F]. rewrite P in F.
      apply in_map_iff in I as (j & <- & I). apply in_seq in I. replace (N.of_nat j <? 32) with true in F by lia. discriminate F. }
    rewrite AA, Dk. unfold expected_commitment_pcr, pcr_extend_sha384. change (lenN INITIAL_PCR =? 48) with true. cbv iota. cbn [rbind]. rewrite P.
    replace (pcr_index k <? 32) with true by (destruct k; reflexivity).
    assert (G : grown (s_sha384 Y) (pcr_index k) (seed_of seeds (pcr_index k)) all = s_sha384 Y (repeat x00 48 ++ manifest_pcr_commitment Y k mh (match k with Setup => a | Live => b end))).
    { unfold all. rewrite grown_app. destruct k; cbn [pcr_index]; [destruct U1 as [-> ->]|destruct U2 as [-> ->]]; reflexivity. }
    rewrite G. destruct (bytes_eqb_spec (s_sha384 Y (repeat x00 48 ++ manifest_pcr_commitment Y k mh (match k with Setup => a | Live => b end))) (s_sha384 Y (INITIAL_PCR ++ manifest_pcr_commitment Y k mh' pk))) as [E|NE].
    + split; [intros _; symmetry; exact E|reflexivity].
    + split; [discriminate|]. intros E. exfalso. apply NE. symmetry. exact E.
  - intros p0 p1 p2 p3. unfold verify_user_input. rewrite Du, Dn, bytes_eqb_refl. cbn [negb is_some].
    assert (G : forall i, i < 16 -> alookup i (ad_pcrs d) = Some (grown (s_sha384 Y) i (seed_of seeds i) rs)).
    { intros i I. rewrite P. replace (i <? 32) with true by lia. f_equal. unfold all. rewrite grown_app. destruct (existsb (covers i) rs); [reflexivity|].
      unfold grown at 1, commitment_requests. cbn [app before_lock covers]. replace (i <? 32) with true by lia. cbn [andb N.leb N.compare]. change (32 <=? 32) with true. cbv iota. cbn [extensions flat_map].
      replace (16 =? i) with false by lia. replace (17 =? i) with false by lia. reflexivity. }
    unfold check_pcr. rewrite !G by lia.
    assert (Q : forall i p (c : result attest_error unit), rbind (if bytes_eqb p (grown (s_sha384 Y) i (seed_of seeds i) rs) then Ok tt else Err (ADifferentPcr i (encode p) (encode (grown (s_sha384 Y) i (seed_of seeds i) rs)))) (fun _ => c) = Ok tt <-> p = grown (s_sha384 Y) i (seed_of seeds i) rs /\ c = Ok tt).
    { intros i p c. destruct (bytes_eqb_spec p (grown (s_sha384 Y) i (seed_of seeds i) rs)) as [E|NE]; cbn [rbind]; [tauto|]. split; [discriminate|intros [X _]; contradiction]. }
    rewrite !Q. destruct (bytes_eqb_spec p3 (grown (s_sha384 Y) 3 (seed_of seeds 3) rs)) as [E3|N3].
    + split.
      * intros (E0 & E1 & E2 & _) i p [X|[X|[X|[X|[]]]]]; injection X as <- <-; assumption.
      * intros H. split; [|split; [|split; [|reflexivity]]]; apply H; cbn; auto.
    + split; [intros (_ & _ & _ & X); discriminate X|]. intros H. exfalso. apply N3. apply H. cbn; auto.
Qed.
Print Assumptions c84_documents_verify.
(** A seed that is not 48 bytes long, though accepted, makes the first extension
    panic, and from then on every request that needs the registers. *)
Theorem c84_refuted_any_accepted_seed_will_do : forall sha384 sign_doc LEAF ROOT INTERMEDIATE seeds m i d rs r,
  bank seeds m -> i < 32 -> length (seed_of seeds i) <> 48%nat -> r <> GetRandom ->
  answer_to sha384 sign_doc LEAF ROOT INTERMEDIATE m (ExtendPCR i d) = None /\
  answer_to sha384 sign_doc LEAF ROOT INTERMEDIATE (after sha384 sign_doc LEAF ROOT INTERMEDIATE m (ExtendPCR i d :: rs)) r = None.
Proof.
  intros sha sd LE RO IN seeds m i d rs r B I L NR. destruct (bank_state _ _ B) as (P & Lk & R & _).
  assert (S : mock_step sha sd LE RO IN m (ExtendPCR i d) = (None, Mock ((i, mock_register m i) :: mk_pcrs m) (mk_locked m) true)).
  { unfold mock_step. rewrite P, Lk. unfold max_pcrs, ATTESTABLE_PCR_COUNT. replace (32 <=? i) with false by lia. cbn [memb existsb].
    rewrite lenN_length, R. replace (N.of_nat (length (seed_of seeds i)) =? 48) with false by lia. reflexivity. }
  unfold answer_to, after. cbn [fold_left]. rewrite S. cbn [fst snd]. split; [reflexivity|].
  assert (PO : forall rs m, mk_poisoned m = true -> mk_poisoned (fold_left (fun m r => snd (mock_step sha sd LE RO IN m r)) rs m) = true).
  { induction rs0 as [|x l IH]; intros m0 Pm; [exact Pm|]. cbn [fold_left]. apply IH. unfold mock_step. rewrite Pm. destruct x; exact Pm. }
  specialize (PO rs (Mock ((i, mock_register m i) :: mk_pcrs m) (mk_locked m) true) eq_refl). unfold mock_step at 1. rewrite PO. destruct r; reflexivity || contradiction.
Qed.
Print Assumptions c84_refuted_any_accepted_seed_will_do.
Example c84_nontrivial : exists m m', bank [(0, repeat x2a 48)] m /\ whole [(0, repeat x2a 48)] /\ bank [(5, repeat x00 32)] m' /\ length (seed_of [(5, repeat x00 32)] 5) = 32%nat.
Proof.
  eexists. eexists. split; [apply (Bank_seed [] new_mock 0); [constructor|reflexivity]|]. split; [constructor; [reflexivity|constructor]|].
  split; [apply (Bank_seed [] new_mock 5); [constructor|reflexivity]|reflexivity].
Qed.

(** ** Specification of C85 *)
Definition spaces (cs : list N) : Prop := Forall (fun c => is_white c = true) cs.
Definition solid (cs : list N) : Prop := cs <> [] /\ Forall (fun c => is_white c = false) cs.
(** A line is blank, or a value in hexadecimal and a label [PCR<number>] with
    white space between and around them. *)
Inductive seed_entry : list N -> list (N * bytes) -> Prop :=
| SE_blank line : spaces line -> seed_entry line []
| SE_seed a value b label c num i v : spaces a -> solid value -> spaces b -> b <> [] -> solid label -> spaces c ->
    utf8_enc label = bs "PCR" ++ num -> decimal num i -> i < 32 ->
    decode (utf8_enc value) = Ok v -> In (length v) [32; 48; 64]%nat ->
    seed_entry (a ++ value ++ b ++ label ++ c) [(i, v)].
Fixpoint lines_joined (ls : list (list N)) : list N :=
  match ls with [] => [] | [l] => l | l :: r => l ++ 10 :: lines_joined r end.
Definition seed_file (contents : bytes) (seeds : list (N * bytes)) : Prop :=
  exists lines entries, contents = utf8_enc (lines_joined lines) /\ Forall (fun c => is_scalar c = true) (lines_joined lines) /\ lines <> [] /\
    Forall (fun l => ~ In 10 l) lines /\ Forall2 seed_entry lines entries /\ seeds = concat entries.

(** ** Proofs *)
Lemma words_spaces a r : spaces a -> words [] (a ++ r) = words [] r.
Proof. induction 1 as [|c a W _ IH]; [reflexivity|]. cbn [app words]. now rewrite W. Qed.
Lemma words_solid v : Forall (fun c => is_white c = false) v -> forall cur r, words cur (v ++ r) = words (rev v ++ cur) r.
Proof. induction 1 as [|c v W _ IH]; intros cur r; [reflexivity|]. cbn [app words rev]. rewrite W, IH, <- app_assoc. reflexivity. Qed.
Lemma words_end cur b r : cur <> [] -> spaces b -> b <> [] -> words cur (b ++ r) = rev cur :: words [] r.
Proof. intros NC S NB. destruct b as [|c b]; [congruence|]. inversion_clear S as [|? ? W S']. cbn [app words]. rewrite W. destruct cur; [congruence|]. now rewrite words_spaces. Qed.
Lemma words_run cs : forall cur w ws, cur <> [] -> words cur cs = w :: ws ->
  exists v r, cs = v ++ r /\ Forall (fun c => is_white c = false) v /\ w = rev cur ++ v /\ (r = [] /\ ws = [] \/ exists c r', r = c :: r' /\ is_white c = true /\ words [] r' = ws).
Proof.
  induction cs as [|c cs IH]; intros cur w ws NC E; cbn [words] in E.
  - destruct cur; [congruence|]. injection E as <- <-. exists [], []. split; [reflexivity|]. split; [constructor|]. split; [now rewrite app_nil_r|now left].
  - destruct (is_white c) eqn:Wc.
    + destruct cur as [|x cur]; [congruence|]. injection E as <- <-. exists [], (c :: cs). rewrite app_nil_r. split; [reflexivity|]. split; [constructor|]. split; [reflexivity|]. right. eauto.
    + destruct (IH (c :: cur) w ws ltac:(discriminate) E) as (v & r & -> & S & -> & T). exists (c :: v), r. split; [reflexivity|]. split; [now constructor|]. split; [cbn [rev]; now rewrite <- app_assoc|exact T].
Qed.
Lemma words_none cs : forall cur, words cur cs = [] -> cur = [] /\ spaces cs.
Proof.
  induction cs as [|c cs IH]; intros cur E; cbn [words] in E.
  - destruct cur; [split; [reflexivity|constructor]|discriminate].
  - destruct (is_white c) eqn:Wc; [destruct cur; [|discriminate]; apply IH in E as [_ S]; split; [reflexivity|now constructor]|]. apply IH in E as [X _]. discriminate.
Qed.
Lemma words_first cs : forall w ws, words [] cs = w :: ws ->
  exists a r, cs = a ++ w ++ r /\ spaces a /\ solid w /\ (r = [] /\ ws = [] \/ exists c r', r = c :: r' /\ is_white c = true /\ words [] r' = ws).
Proof.
  induction cs as [|c cs IH]; intros w ws E; cbn [words] in E; [discriminate|].
  destruct (is_white c) eqn:Wc.
  - destruct (IH w ws E) as (a & r & -> & S & T). exists (c :: a), r. split; [reflexivity|]. split; [now constructor|exact T].
  - destruct (words_run cs [c] w ws ltac:(discriminate) E) as (v & r & -> & S & -> & T). exists [], r. cbn [rev app]. split; [reflexivity|]. split; [constructor|]. split; [|exact T]. split; [discriminate|now constructor].
Qed.
Lemma words_pair line v l : words [] line = [v; l] <-> exists a b c, line = a ++ v ++ b ++ l ++ c /\ spaces a /\ solid v /\ spaces b /\ b <> [] /\ solid l /\ spaces c.
Proof.
  split.
  - intros E. destruct (words_first _ _ _ E) as (a & r & -> & Sa & Sv & [[_ X]|(c & r' & -> & Wc & E2)]); [discriminate|].
    destruct (words_first _ _ _ E2) as (b & r2 & -> & Sb & Sl & T).
    assert (S2 : spaces r2) by (destruct T as [[-> _]|(c2 & r3 & -> & Wc2 & E3)]; [constructor|apply words_none in E3 as [_ E3]; now constructor]).
    exists a, (c :: b), r2. split; [reflexivity|]. split; [exact Sa|]. split; [exact Sv|]. split; [now constructor|]. split; [discriminate|]. split; [exact Sl|exact S2].
  - intros (a & b & c & -> & Sa & [Nv Sv] & Sb & Nb & [Nl Sl] & Sc). rewrite words_spaces by exact Sa. rewrite words_solid by exact Sv. rewrite app_nil_r.
    assert (Rv : forall x : list N, x <> [] -> rev x <> []) by (intros x H X; apply H; rewrite <- (rev_involutive x), X; reflexivity).
    rewrite words_end by auto. rewrite rev_involutive. f_equal. rewrite words_solid by exact Sl. rewrite app_nil_r.
    destruct c as [|x c]; [cbn [words]; destruct (rev l) eqn:E; [apply Rv in Nl; contradiction|rewrite <- E; now rewrite rev_involutive]|].
    rewrite <- (app_nil_r (x :: c)), words_end by (auto; discriminate). now rewrite rev_involutive.
Qed.
Lemma cut_prefix_iff p : forall s r, cut_prefix p s = Some r <-> s = p ++ r.
Proof.
  induction p as [|x p IH]; intros s r; [cbn; split; congruence|]. destruct s as [|y s]; [cbn; split; discriminate|]. cbn [cut_prefix app].
  destruct (byte_eqb_spec x y) as [->|N]; [rewrite IH; split; [intros ->; reflexivity|intros H; injection H; auto]|]. split; [discriminate|]. intros H. injection H as H _. congruence.
Qed.
Lemma with_pcr_iff i v m m' : with_pcr i v m = Some m' <-> i < 32 /\ In (length v) [32; 48; 64]%nat /\ m' = Mock ((i, v) :: mk_pcrs m) (mk_locked m) (mk_poisoned m).
Proof.
  unfold with_pcr, ATTESTABLE_PCR_COUNT. rewrite lenN_length. destruct (i <? 32) eqn:I; cbn [negb]; [|split; [discriminate|lia]].
  destruct ((N.of_nat (length v) =? 32) || (N.of_nat (length v) =? 48) || (N.of_nat (length v) =? 64)) eqn:L; cbn [negb].
  - split; [intros H; injection H as <-; cbn; repeat split; lia|intros (_ & _ & ->); reflexivity].
  - split; [discriminate|]. cbn [In]. lia.
Qed.
Lemma line_sound m seeds line m' : bank seeds m -> seed_line m line = Some m' -> exists e, seed_entry line e /\ bank (seeds ++ e) m'.
Proof.
  intros B E. unfold seed_line in E. destruct (words [] line) as [|v [|l [|]]] eqn:Wd; try discriminate.
  - injection E as <-. exists []. rewrite app_nil_r. split; [|exact B]. apply words_none in Wd as [_ S]. now constructor.
  - apply words_pair in Wd as (a & b & c & -> & Sa & Sv & Sb & Nb & Sl & Sc).
    destruct (cut_prefix (bs "PCR") (utf8_enc l)) as [num|] eqn:C; cbn [obind] in E; [|discriminate]. apply cut_prefix_iff in C.
    destruct (parse_unsigned 65536 num) as [i|] eqn:Pn; cbn [obind] in E; [|discriminate]. apply u16_iff in Pn as [Pn _].
    destruct (decode (utf8_enc v)) as [x|] eqn:D; cbn [ok_opt obind] in E; [|discriminate]. pose proof E as E'. apply with_pcr_iff in E as (I & L & _).
    exists [(i, x)]. split; [eapply SE_seed; eauto|]. eapply Bank_seed; eauto.
Qed.
Lemma line_complete m seeds line e : bank seeds m -> seed_entry line e -> exists m', seed_line m line = Some m' /\ bank (seeds ++ e) m'.
Proof.
  intros B [l S|a value b label c num i v Sa Sv Sb Nb Sl Sc U D I V L].
  - exists m. rewrite app_nil_r. split; [|exact B]. unfold seed_line. rewrite <- (app_nil_r l), words_spaces by exact S. reflexivity.
  - assert (Wd : words [] (a ++ value ++ b ++ label ++ c) = [value; label]) by (apply words_pair; exists a, b, c; auto 10).
    unfold seed_line. rewrite Wd, U. rewrite (proj2 (cut_prefix_iff _ _ _) eq_refl). cbn [obind].
    rewrite (proj2 (u16_iff num i)) by (split; [exact D|lia]). cbn [obind]. rewrite V. cbn [ok_opt obind].
    eexists. assert (Wp := proj2 (with_pcr_iff i v m _) (conj I (conj L eq_refl))). split; [exact Wp|]. eapply Bank_seed; eauto.
Qed.
Lemma split_nonempty cs : split_lines cs <> [].
Proof. destruct cs as [|c cs]; cbn; [discriminate|]. destruct (c =? 10); [discriminate|]. destruct (split_lines cs); discriminate. Qed.
Lemma split_joined cs : lines_joined (split_lines cs) = cs /\ Forall (fun l => ~ In 10 l) (split_lines cs).
Proof.
  induction cs as [|c cs [IH F]]; [split; [reflexivity|constructor; [intros []|constructor]]|]. cbn [split_lines].
  destruct (N.eqb_spec c 10) as [->|NE].
  - split; [|constructor; [intros []|exact F]]. pose proof (split_nonempty cs). destruct (split_lines cs) as [|l ls] eqn:E; [congruence|]. cbn [lines_joined app] in *. now rewrite IH.
  - pose proof (split_nonempty cs). destruct (split_lines cs) as [|l ls] eqn:E; [congruence|]. split.
    + destruct ls; cbn [lines_joined app] in *; now rewrite IH.
    + inversion_clear F as [|? ? N F']. constructor; [intros [X|X]; [congruence|exact (N X)]|exact F'].
Qed.
Lemma split_of_joined ls : ls <> [] -> Forall (fun l => ~ In 10 l) ls -> split_lines (lines_joined ls) = ls.
Proof.
  assert (H : forall l rest, ~ In 10 l -> split_lines (l ++ rest) = match split_lines rest with x :: xs => (l ++ x) :: xs | [] => [l] end).
  { induction l as [|c l IH]; intros rest N; cbn [app split_lines]; [destruct (split_lines rest) eqn:E; [now apply split_nonempty in E|reflexivity]|].
    destruct (N.eqb_spec c 10) as [->|_]; [exfalso; apply N; now left|]. rewrite IH by (intros X; apply N; now right). destruct (split_lines rest) eqn:E; [now apply split_nonempty in E|reflexivity]. }
  intros NE F. induction F as [|l ls N F IH]; [congruence|]. destruct ls as [|l2 ls].
  - cbn [lines_joined]. rewrite <- (app_nil_r l) at 1. rewrite H by exact N. cbn [split_lines]. now rewrite app_nil_r.
  - change (lines_joined (l :: l2 :: ls)) with (l ++ 10 :: lines_joined (l2 :: ls)). rewrite H by exact N. cbn [split_lines]. change (10 =? 10) with true. cbv iota. rewrite IH by discriminate. now rewrite app_nil_r.
Qed.
Lemma lines_sound ls : forall m seeds m', bank seeds m -> seed_lines m ls = Some m' -> exists es, Forall2 seed_entry ls es /\ bank (seeds ++ concat es) m'.
Proof.
  induction ls as [|l ls IH]; intros m seeds m' B E; cbn [seed_lines] in E.
  - injection E as <-. exists []. cbn. rewrite app_nil_r. split; [constructor|exact B].
  - destruct (seed_line m l) as [m1|] eqn:E1; cbn [obind] in E; [|discriminate]. destruct (line_sound _ _ _ _ B E1) as (e & S1 & B1).
    destruct (IH _ _ _ B1 E) as (es & S2 & B2). exists (e :: es). split; [now constructor|]. cbn [concat]. now rewrite app_assoc.
Qed.
Lemma lines_complete ls : forall m seeds es, bank seeds m -> Forall2 seed_entry ls es -> exists m', seed_lines m ls = Some m' /\ bank (seeds ++ concat es) m'.
Proof.
  induction ls as [|l ls IH]; intros m seeds es B F; inversion F; subst; cbn [seed_lines concat].
  - exists m. rewrite app_nil_r. auto.
  - match goal with S : seed_entry l ?e, F' : Forall2 _ ls _ |- _ => destruct (line_complete m seeds l e B S) as (m1 & E1 & B1); destruct (IH _ _ _ B1 F') as (m' & E' & B') end.
    exists m'. rewrite E1. cbn [obind]. split; [exact E'|]. now rewrite app_assoc.
Qed.

(** A seed file is accepted exactly when it is well formed, and seeds the bank
    with its entries in order. *)
Theorem c85_seed_file : forall contents,
  (forall m, seed_mock_pcrs new_mock (Some contents) = Some m -> exists seeds, seed_file contents seeds /\ bank seeds m) /\
  (forall seeds, seed_file contents seeds -> exists m, seed_mock_pcrs new_mock (Some contents) = Some m /\ bank seeds m) /\
  seed_mock_pcrs new_mock None = None.
Proof.
  intros contents. split; [|split; [|reflexivity]].
  - intros m E. unfold seed_mock_pcrs in E. cbn [obind] in E. destruct (utf8_dec contents) as [cs|] eqn:D; cbn [obind] in E; [|discriminate].
    apply utf8_dec_inv in D as [Sc ->]. destruct (lines_sound _ _ [] _ Bank_new E) as (es & F & B). exists (concat es). split; [|exact B].
    destruct (split_joined cs) as [J N]. exists (split_lines cs), es. rewrite J. split; [reflexivity|].
    split; [apply Forall_forall; intros c I; unfold scalars in Sc; rewrite forallb_forall in Sc; now apply Sc|]. split; [apply split_nonempty|]. now split.
  - intros seeds (ls & es & -> & Sc & NE & N & F & ->). destruct (lines_complete ls _ [] es Bank_new F) as (m & E & B). exists m. split; [|exact B].
    unfold seed_mock_pcrs. cbn [obind]. rewrite utf8_dec_enc; [|unfold scalars; apply forallb_forall; rewrite Forall_forall in Sc; exact Sc]. cbn [obind]. rewrite split_of_joined by assumption. exact E.
Qed.
Print Assumptions c85_seed_file.
Example c85_nontrivial : seed_mock_pcrs new_mock (Some (bs "  " ++ encode (repeat x2a 48) ++ bs " PCR0" ++ [x0d; x0a; x0a] ++ encode (repeat x2b 32) ++ [x09] ++ bs "PCR+7")) =
    Some (Mock [(7, repeat x2b 32); (0, repeat x2a 48); (16, repeat x00 48); (17, repeat x00 48)] [] false)
  /\ seed_mock_pcrs new_mock (Some (encode (repeat x2a 48) ++ bs " PCR32")) = None /\ seed_mock_pcrs new_mock (Some (bs "aa PCR0")) = None.
Proof. vm_compute. auto. Qed.
(** *** A system with the mock module, to show that the hypotheses are met: its
    documents are written in a simple reversible code. *)
Definition enc1 (b : bytes) : bytes := flat_map (fun c => [x01; c]) b ++ [x00].
Fixpoint dec1 (l : bytes) : option (bytes * bytes) :=
  match l with x00 :: r => Some ([], r) | x01 :: c :: r => let? x := dec1 r in Some (c :: fst x, snd x) | _ => None end.
Lemma dec1_enc b r : dec1 (enc1 b ++ r) = Some (b, r).
Proof. unfold enc1. induction b as [|c b IH]; [reflexivity|]. cbn [flat_map app dec1]. now rewrite IH. Qed.
Definition encs (l : list bytes) : bytes := flat_map enc1 l.
Fixpoint decs (fuel : nat) (l : bytes) : option (list bytes) :=
  match l, fuel with
  | [], _ => Some []
  | _, Datatypes.S f => let? x := dec1 l in let? r := decs f (snd x) in Some (fst x :: r)
  | _, O => None
  end.
Lemma decs_encs l : forall fuel, (length (encs l) <= fuel)%nat -> decs fuel (encs l) = Some l.
Proof.
  induction l as [|b l IH]; intros fuel F; [destruct fuel; reflexivity|]. cbn [encs flat_map] in *. rewrite app_length in F.
  assert (L : (1 <= length (enc1 b))%nat) by (unfold enc1; rewrite app_length; cbn; lia).
  destruct fuel as [|f]; [lia|]. specialize (IH f ltac:(unfold encs; lia)). unfold encs in IH.
  destruct (enc1 b ++ flat_map enc1 l) as [|x xs] eqn:E; [destruct (enc1 b); [cbn in L; lia|discriminate]|].
  cbn [decs]. rewrite <- E, dec1_enc. cbn [obind fst snd]. now rewrite IH.
Qed.
Definition unary (n : N) : bytes := repeat x00 (N.to_nat n).
Definition enc_opt (o : option bytes) : bytes := match o with Some b => x00 :: b | None => [] end.
Definition dec_opt (b : bytes) : option bytes := match b with [] => None | _ :: r => Some r end.
Definition enc_digest (d : nsm_digest) : bytes := match d with SHA256 => [] | SHA384 => [x00] | SHA512 => [x00; x00] end.
Definition dec_digest (b : bytes) : nsm_digest := match b with [] => SHA256 | [_] => SHA384 | _ => SHA512 end.
Fixpoint pairs (l : list bytes) : list (N * bytes) := match l with a :: b :: r => (lenN a, b) :: pairs r | _ => [] end.
Definition code_doc (d : att_doc) : bytes :=
  encs [ad_module_id d; enc_digest (ad_digest d); unary (ad_timestamp d); encs (flat_map (fun p => [unary (fst p); snd p]) (ad_pcrs d));
        ad_certificate d; encs (ad_cabundle d); enc_opt (ad_public_key d); enc_opt (ad_user_data d); enc_opt (ad_nonce d)].
Definition decode_doc (c : bytes) : option att_doc :=
  match decs (length c) c with
  | Some [m; g; t; p; ce; ca; k; u; n] =>
    let? p := decs (length p) p in let? ca := decs (length ca) ca in
    Some (AttDoc m (dec_digest g) (lenN t) (pairs p) ce ca (dec_opt k) (dec_opt u) (dec_opt n))
  | _ => None
  end.
Lemma unary_len n : lenN (unary n) = n.
Proof. unfold unary. rewrite lenN_length, repeat_length. lia. Qed.
Lemma code_doc_ok d : decode_doc (code_doc d) = Some d.
Proof.
  unfold decode_doc, code_doc. rewrite decs_encs by lia. rewrite !decs_encs by lia. cbn [obind].
  assert (P : forall l, pairs (flat_map (fun p => [unary (fst p); snd p]) l) = l) by (induction l as [|[i v] l IH]; [reflexivity|]; cbn [flat_map app pairs fst snd]; now rewrite unary_len, IH).
  assert (O : forall o, dec_opt (enc_opt o) = o) by (intros [b|]; reflexivity).
  rewrite unary_len, P, !O. destruct d as [? [] ? ? ? ? ? ? ?]; reflexivity.
Qed.
Definition mock_toy : sys := {|
  s_nsm := mock;
  s_nsm_step := fun m r => match mock_step (toy_hash 48) code_doc (bs "leaf") (bs "root") (bs "mid") m r with (Some a, m') => (a, m') | (None, m') => (RError NsmInternalError, m') end;
  s_nsm_time := fun n => (Some MOCK_TIMESTAMP, n);
  s_root := bs "root";
  s_sha256 := toy_hash 32; s_sha384 := toy_hash 48; s_sha512 := toy_hash 64;
  s_point_ok := toy_point; s_pair := toy_pair; s_sign := toy_sign; s_verify := toy_verify;
  s_encrypt := toy_encrypt; s_decrypt := toy_decrypt; s_combine := toy_combine; s_split := toy_split;
  s_doc := decode_doc; s_chain_ok := fun _ r _ _ => bytes_eqb r (bs "root"); s_cose_sig_ok := fun _ _ => true;
  s_rng := fun n => toy_hash 32 (le_enc 8 (N.of_nat n));
  s_io := calm;
  s_version := bs "1"; s_commit := bs "c"
|}.
Example c84_boot_nontrivial :
  sys_ok mock_toy /\ mocked mock_toy (fun m => m) code_doc (bs "leaf") (bs "root") (bs "mid") /\
  (forall d, s_doc mock_toy (code_doc d) = Some d) /\ s_chain_ok mock_toy [bs "mid"] (bs "root") (bs "leaf") 0 = true /\
  untouched mock_toy [(0, repeat x2a 48)] [LockPCR 5; ExtendPCR 6 [x01]] 16 /\ untouched mock_toy [(0, repeat x2a 48)] [LockPCR 5; ExtendPCR 6 [x01]] 17 /\
  ~ untouched mock_toy [(0, repeat x2a 48)] [LockPCRs 17] 16 /\ ~ untouched mock_toy [] [ExtendPCR 17 [x01]] 17.
Proof.
  split. { pose proof (toy_ok calm 0) as [A1 A2 A3 A4 A5]. constructor; [exact A1|exact A2|exact A3|intros; apply toy_hash_length|exact A5]. }
  split. { intros n r a m' E. cbn [mock_toy s_nsm_step s_sha384] in *. rewrite E. split; reflexivity. }
  split; [exact code_doc_ok|]. split; [reflexivity|]. split; [split; vm_compute; reflexivity|]. split; [split; vm_compute; reflexivity|].
  split; intros [H1 H2]; [discriminate H1|]. vm_compute in H2. discriminate H2.
Qed.
