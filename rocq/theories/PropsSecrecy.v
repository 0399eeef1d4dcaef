(** C90: what the answers of an enclave reveal about the shares it was given and
    the quorum key it holds.  Statements about pairs of runs: two enclaves in
    the same environment (device, randomness, faults, crash points), sent the
    same requests, that differ in nothing but those secrets. *)
From Coq Require Import ZifyBool ZifyN ZifyNat.
From Verif Require Import Base Utf8 Hex HexProofs Types Json TypesJson Msg World Run FsProofs Attest Services
  ServiceProofs State SpecProtocol HandleProofs SpecHistory Reach CalmProofs CodecExamples Toy ToyRuns.
Local Open Scope N_scope.

(** *** Specification *)
Section SpecSecrecy.
  Context (Y : sys).

  (** The secret of a quorum key pair. *)
  Definition key_seed (q : bytes) : Prop := length q = 32%nat /\ s_pair Y q <> None.
  (** Two file systems that differ at most in the contents of the quorum key's
      file, where each has some key, and of the temporary file it is written to. *)
  Definition same_files (f g : fsys) : Prop :=
    (forall p, p <> Main Quorum -> p <> Tmp Quorum -> f p = g p)
    /\ option_map snd (f (Tmp Quorum)) = option_map snd (g (Tmp Quorum))
    /\ (f (Main Quorum) = None /\ g (Main Quorum) = None
        \/ exists q q' mode, key_seed q /\ key_seed q'
             /\ f (Main Quorum) = Some (encode q, mode) /\ g (Main Quorum) = Some (encode q', mode)).
  Definition same_entry (x y : entry Y) : Prop :=
    en_ev x = en_ev y /\ same_files (en_fs x) (en_fs y) /\ en_nsm x = en_nsm y.
  (** Two enclaves that differ at most in that, and in the shares collected (not in their number). *)
  Record same_but_secrets (s t : st Y) : Prop := Same {
    sm_phase : st_phase s = st_phase t;
    sm_shares : length (st_shares s) = length (st_shares t);
    sm_pending : st_pending s = st_pending t;
    sm_files : same_files (st_fs s) (st_fs t);
    sm_device : st_nsm s = st_nsm t;
    sm_random : st_rngc s = st_rngc t;
    sm_faults : st_ioc s = st_ioc t;
    sm_trace : Forall2 same_entry (st_trace s) (st_trace t)
  }.

  (** The requests that carry a secret to the enclave, and those about one. *)
  Definition brings_secret (r : msg) : bool :=
    match r with ProvisionRequest _ _ | InjectKeyRequest _ _ => true | _ => false end.
  Definition about_secret (r : msg) : bool :=
    match r with ProvisionRequest _ _ | InjectKeyRequest _ _ | ExportKeyRequest _ _ => true | _ => false end.
  (** The same request, but for the secret it carries. *)
  Inductive alike : msg -> msg -> Prop :=
  | alike_same r : alike r r
  | alike_share c c' a : alike (ProvisionRequest c a) (ProvisionRequest c' a)
  | alike_key c g c' g' : alike (InjectKeyRequest c g) (InjectKeyRequest c' g').

  (** Two runs side by side, of any length, with crashes at any point, as long
      as the answers to the requests that bring secrets do not tell them apart. *)
  Inductive twins : st Y -> st Y -> Prop :=
  | twins_start s t : same_but_secrets s t -> twins s t
  | twins_step s t r r' : twins s t -> alike r r' ->
      (brings_secret r = true -> fst (handle Y r s) = fst (handle Y r' t)) ->
      twins (snd (handle Y r s)) (snd (handle Y r' t))
  | twins_crash s t newer x older newer' x' older' rc ic : twins s t ->
      st_trace s = newer ++ x :: older -> st_trace t = newer' ++ x' :: older' -> length older = length older' ->
      twins (fresh Y (en_fs x) (en_nsm x) rc ic (x :: older)) (fresh Y (en_fs x') (en_nsm x') rc ic (x' :: older')).

  (** The private half of the setup key in a file system. *)
  Definition setup_key (f : fsys) (eph : bytes) : Prop := exists c, content f Eph = Some c /\ seed_of_hex c = Some eph.

  (** What can become of a share: one of nine fates. *)
  Inductive fate := Unopened | Empty | Counted | NoSecret | EmptySecret | BadLength | NoKey | OtherKey | RightKey.
  Definition fate_of_share (eph : bytes) (m : versioned_manifest) (collected : list bytes) (c : bytes) : fate :=
    match s_decrypt Y eph c with
    | Err _ => Unopened
    | Ok [] => Empty
    | Ok share =>
      if N.of_nat (length collected) + 1 <? threshold (vm_share_set m) then Counted
      else match s_combine Y (collected ++ [share]) with
           | None => NoSecret
           | Some [] => EmptySecret
           | Some q => if Nat.eqb (length q) 32 then
                         match s_pair Y q with
                         | None => NoKey
                         | Some (ek, sk) => if list_eq_dec Byte.byte_eq_dec (ek ++ sk) (ns_quorum_key (vm_namespace m)) then RightKey else OtherKey
                         end
                       else BadLength
           end
    end.
  (** What can become of a forwarded key. *)
  Inductive sealed_fate := Unsigned | Sealed (e : p256_error) | Opened (f : fate).
  Definition fate_of_key (eph : bytes) (m : versioned_manifest) (c g : bytes) : sealed_fate :=
    let quorum := ns_quorum_key (vm_namespace m) in
    if s_verify Y (skipn 65 quorum) c g then
      match s_decrypt Y eph c with
      | Err e => Sealed e
      | Ok q => Opened (if Nat.eqb (length q) 32 then
                          match s_pair Y q with
                          | None => NoKey
                          | Some (ek, sk) => if list_eq_dec Byte.byte_eq_dec (ek ++ sk) quorum then RightKey else OtherKey
                          end
                        else BadLength)
      end
    else Unsigned.
End SpecSecrecy.

(** *** Proofs *)
Section Proofs.
  Context {Y : sys} (OK : sys_ok Y).
  Local Notation st := (st Y).
  Local Open Scope m_scope.
  Notation same := (same_but_secrets Y).
  Notation samef := (same_files Y).

  Definition rel {A B} (R : A -> B -> Prop) (x : result perr A * st) (y : result perr B * st) : Prop :=
    same (snd x) (snd y) /\ match fst x, fst y with Ok a, Ok b => R a b | Err e, Err e' => e = e' | _, _ => False end.
  Definition pub {A} (m : M Y A) : Prop := forall s t, same s t -> rel eq (m s) (m t).

  Lemma same_push e f g n n' (s t s' t' : st) : same s t -> samef f g -> n = n' ->
    s' = St (st_phase s) (st_shares s) (st_pending s) f n (st_rngc s) (st_ioc s) (Entry e f n :: st_trace s) ->
    t' = St (st_phase t) (st_shares t) (st_pending t) g n' (st_rngc t) (st_ioc t) (Entry e g n' :: st_trace t) -> same s' t'.
  Proof.
    intros [H1 H2 H3 H4 H5 H6 H7 H8] F <- -> ->. constructor; cbn [st_phase st_shares st_pending st_fs st_nsm st_rngc st_ioc st_trace]; try assumption; try reflexivity.
    constructor; [|exact H8]. repeat split; try apply F; reflexivity.
  Qed.
  Lemma same_eff e f g (s t : st) : same s t -> samef f g -> same (eff_fs e f s) (eff_fs e g t).
  Proof. intros S F. eapply same_push; [exact S|exact F| |reflexivity|reflexivity]. apply (sm_device _ _ _ S). Qed.
  Lemma same_dev e n (s t : st) : same s t -> same (eff_nsm e n s) (eff_nsm e n t).
  Proof. intros S. eapply same_push; [exact S|apply (sm_files _ _ _ S)| |reflexivity|reflexivity]. reflexivity. Qed.
  Lemma same_io (s t : st) : same s t -> same (tick_io s) (tick_io t).
  Proof. intros []. constructor; cbn [tick_io st_phase st_shares st_pending st_fs st_nsm st_rngc st_ioc st_trace]; auto. Qed.
  Lemma same_rng (s t : st) : same s t -> same (tick_rng s) (tick_rng t).
  Proof. intros []. constructor; cbn [tick_rng st_phase st_shares st_pending st_fs st_nsm st_rngc st_ioc st_trace]; auto. Qed.
  Lemma same_phase_set p (s t : st) : same s t -> same (set_phase p s) (set_phase p t).
  Proof. intros []. constructor; cbn [set_phase st_phase st_shares st_pending st_fs st_nsm st_rngc st_ioc st_trace]; auto. Qed.
  Lemma same_pending_set p (s t : st) : same s t -> same (set_pending p s) (set_pending p t).
  Proof. intros []. constructor; cbn [set_pending st_phase st_shares st_pending st_fs st_nsm st_rngc st_ioc st_trace]; auto. Qed.
  Lemma same_shares_set a b (s t : st) : length a = length b -> same s t -> same (set_shares a s) (set_shares b t).
  Proof. intros L []. constructor; cbn [set_shares st_phase st_shares st_pending st_fs st_nsm st_rngc st_ioc st_trace]; auto. Qed.

  Lemma samef_at f g p : samef f g -> p <> Main Quorum -> p <> Tmp Quorum -> f p = g p.
  Proof. intros (F & _). apply F. Qed.
  Lemma samef_some f g p : samef f g -> is_some (f p) = is_some (g p).
  Proof.
    intros (F & G & H). destruct (path_eqb_spec p (Main Quorum)) as [->|N].
    - destruct H as [(-> & ->)|(q & q' & m & _ & _ & -> & ->)]; reflexivity.
    - destruct (path_eqb_spec p (Tmp Quorum)) as [->|N']; [|now rewrite F].
      destruct (f (Tmp Quorum)), (g (Tmp Quorum)); try discriminate G; reflexivity.
  Qed.
  Lemma samef_mode f g p : samef f g -> option_map snd (f p) = option_map snd (g p).
  Proof.
    intros (F & G & H). destruct (path_eqb_spec p (Main Quorum)) as [->|N].
    - destruct H as [(-> & ->)|(q & q' & m & _ & _ & -> & ->)]; reflexivity.
    - destruct (path_eqb_spec p (Tmp Quorum)) as [->|N']; [exact G|now rewrite F].
  Qed.
  Lemma samef_file_mode f g p : samef f g -> file_mode f p = file_mode g p.
  Proof.
    intros F. apply (samef_mode _ _ p) in F. unfold file_mode. destruct (f p) as [[a b]|], (g p) as [[c d]|]; try discriminate F; [|reflexivity].
    now injection F.
  Qed.
  Lemma samef_upd f g p v : samef f g -> p <> Main Quorum -> samef (upd f p v) (upd g p v).
  Proof.
    intros (F & G & H) N. split; [|split].
    - intros x H1 H2. unfold upd. destruct (path_eqb p x); [reflexivity|now apply F].
    - unfold upd. destruct (path_eqb p (Tmp Quorum)); [reflexivity|exact G].
    - unfold upd. destruct (path_eqb_spec p (Main Quorum)) as [E|_]; [contradiction|exact H].
  Qed.
  Lemma samef_tmp f g v w : samef f g -> option_map snd v = option_map snd w -> samef (upd f (Tmp Quorum) v) (upd g (Tmp Quorum) w).
  Proof.
    intros (F & G & H) E. split; [|split].
    - intros x H1 H2. unfold upd. destruct (path_eqb_spec (Tmp Quorum) x) as [<-|_]; [contradiction|now apply F].
    - exact E.
    - exact H.
  Qed.
  Lemma samef_none f g : samef f g -> samef (upd f (Main Quorum) None) (upd g (Main Quorum) None).
  Proof.
    intros (F & G & H). split; [|split].
    - intros x H1 H2. unfold upd. destruct (path_eqb_spec (Main Quorum) x) as [<-|_]; [contradiction|now apply F].
    - exact G.
    - left. split; reflexivity.
  Qed.
  Lemma samef_key f g q q' m : samef f g -> key_seed Y q -> key_seed Y q' ->
    samef (upd f (Main Quorum) (Some (encode q, m))) (upd g (Main Quorum) (Some (encode q', m))).
  Proof.
    intros (F & G & H) K K'. split; [|split].
    - intros x H1 H2. unfold upd. destruct (path_eqb_spec (Main Quorum) x) as [<-|_]; [contradiction|now apply F].
    - exact G.
    - right. exists q, q', m. repeat split; try apply K; try apply K'; reflexivity.
  Qed.

  (** computations that do not depend on the secrets *)
  Lemma b_bind {A B} (m : M Y A) (f : A -> M Y B) : pub m -> (forall a, pub (f a)) -> pub (bind m f).
  Proof.
    intros Hm Hf s t S. specialize (Hm s t S). unfold bind. destruct Hm as (S1 & E). destruct (m s) as [[a|e] s1], (m t) as [[b|e'] t1]; cbn [fst snd] in *; try contradiction.
    - subst b. now apply Hf.
    - split; [exact S1|exact E].
  Qed.
  Lemma b_ret {A} (a : A) : pub (ret a). Proof. intros s t S. now split. Qed.
  Lemma b_err {A} e : pub (@err Y A e). Proof. intros s t S. now split. Qed.
  Lemma b_lift {A} (x : result perr A) : pub (lift x). Proof. intros s t S. split; [exact S|]. cbn. destruct x; reflexivity. Qed.
  Lemma b_guard b e : pub (guard b e). Proof. intros s t S. unfold guard. destruct b; now split. Qed.
  Lemma b_read p : p <> Main Quorum -> p <> Tmp Quorum -> pub (op_read Y p).
  Proof.
    intros N N' s t S. unfold op_read. rewrite (sm_faults _ _ _ S). rewrite (samef_at _ _ p (sm_files _ _ _ S) N N').
    destruct (s_io Y (st_ioc t)); (split; [now apply same_io|reflexivity]).
  Qed.
  Lemma b_exists p : pub (op_exists Y p).
  Proof. intros s t S. split; [exact S|]. cbn. apply samef_some, (sm_files _ _ _ S). Qed.
  Lemma b_rand : pub (op_rand Y).
  Proof. intros s t S. split; [now apply same_rng|]. cbn. now rewrite (sm_random _ _ _ S). Qed.
  Lemma b_nsm q : pub (op_nsm Y q).
  Proof.
    intros s t S. unfold op_nsm. rewrite (sm_device _ _ _ S). destruct (s_nsm_step Y (st_nsm t) q) as [a n].
    split; [now apply same_dev|reflexivity].
  Qed.
  Lemma b_time : pub (op_time Y).
  Proof.
    intros s t S. unfold op_time. rewrite (sm_device _ _ _ S). destruct (s_nsm_time Y (st_nsm t)) as [a n].
    split; [now apply same_dev|reflexivity].
  Qed.
  Lemma steps_same p m data data' : p <> Main Quorum -> (p = Tmp Quorum \/ data = data') ->
    forall k i (s t : st), same s t -> same (write_steps Y p m data k i s) (write_steps Y p m data' k i t).
  Proof.
    intros N D. assert (E : forall i (s t : st), same s t ->
      same (eff_fs (EvWrite p) (upd (st_fs s) p (Some (firstn i data, m))) s) (eff_fs (EvWrite p) (upd (st_fs t) p (Some (firstn i data', m))) t)).
    { intros i s t S. apply same_eff; [exact S|]. destruct D as [-> | ->]; [apply samef_tmp; [apply (sm_files _ _ _ S)|reflexivity]|].
      apply samef_upd; [apply (sm_files _ _ _ S)|exact N]. }
    induction k as [|k IH]; intros i s t S; cbn [write_steps]; [now apply E|]. apply IH. now apply E.
  Qed.
  Lemma b_write p data : p <> Main Quorum -> pub (op_write Y p data).
  Proof.
    intros N s t S. unfold op_write. rewrite (sm_faults _ _ _ S), (samef_file_mode _ _ p (sm_files _ _ _ S)).
    destruct (s_io Y (st_ioc t)); (split; [|reflexivity]); cbn [fst snd];
      [apply steps_same; [exact N|now right|]|idtac|apply steps_same; [exact N|now right|]]; now apply same_io.
  Qed.
  Lemma b_rename a b : a <> Main Quorum -> a <> Tmp Quorum -> b <> Main Quorum -> pub (op_rename Y a b).
  Proof.
    intros N N' N2 s t S. unfold op_rename. rewrite (sm_faults _ _ _ S), (samef_at _ _ a (sm_files _ _ _ S) N N').
    destruct (s_io Y (st_ioc t)), (st_fs t a) as [v|]; (split; [|reflexivity]); cbn [fst snd]; try now apply same_io.
    apply same_eff; [now apply same_io|]. apply samef_upd; [|exact N]. apply samef_upd; [|exact N2]. apply (sm_files _ _ _ S).
  Qed.
  Lemma b_chmod p m : p <> Main Quorum -> p <> Tmp Quorum -> pub (op_chmod Y p m).
  Proof.
    intros N N' s t S. unfold op_chmod. rewrite (sm_faults _ _ _ S), (samef_at _ _ p (sm_files _ _ _ S) N N').
    destruct (s_io Y (st_ioc t)), (st_fs t p) as [[c m0]|]; (split; [|reflexivity]); cbn [fst snd]; try now apply same_io.
    apply same_eff; [now apply same_io|]. apply samef_upd; [|exact N]. apply (sm_files _ _ _ S).
  Qed.
  Lemma b_remove p : p <> Main Quorum -> p <> Tmp Quorum -> pub (op_remove Y p).
  Proof.
    intros N N' s t S. unfold op_remove. rewrite (sm_faults _ _ _ S), (samef_at _ _ p (sm_files _ _ _ S) N N').
    destruct (s_io Y (st_ioc t)), (st_fs t p) as [v|]; (split; [|reflexivity]); cbn [fst snd]; try now apply same_io.
    apply same_eff; [now apply same_io|]. apply samef_upd; [|exact N]. apply (sm_files _ _ _ S).
  Qed.
  Lemma b_take : pub (take_pending Y).
  Proof.
    intros s t S. unfold take_pending. rewrite (sm_pending _ _ _ S). destruct (st_pending t); (split; [|reflexivity]); [now apply same_pending_set|exact S].
  Qed.
  Lemma b_setp k : pub (modify (set_pending k)).
  Proof. intros s t S. split; [now apply same_pending_set|reflexivity]. Qed.
  Lemma b_catch {A} (m : M Y A) : pub m -> pub (catch Y m).
  Proof.
    intros H s t S. destruct (H s t S) as (S1 & E). unfold catch. destruct (m s) as [r s1], (m t) as [r' t1]. cbn [fst snd] in *. split; [exact S1|].
    cbn. destruct r, r'; try contradiction; now subst.
  Qed.
  Lemma b_ok_of {A} (m : M Y A) : pub m -> pub (ok_of Y m).
  Proof.
    intros H s t S. destruct (H s t S) as (S1 & E). unfold ok_of. destruct (m s) as [[r|r] s1], (m t) as [[r'|r'] t1]; cbn [fst snd] in *; try contradiction; (split; [exact S1|]); cbn; now subst.
  Qed.

  Ltac b_tac :=
    repeat first
      [ progress intros
      | apply b_ret | apply b_err | apply b_lift | apply b_guard | (apply b_read; discriminate) | apply b_exists | apply b_rand
      | apply b_nsm | apply b_time | (apply b_write; discriminate) | (apply b_chmod; discriminate) | apply b_take | apply b_catch | apply b_ok_of
      | (apply b_rename; discriminate) | (apply b_remove; discriminate) | apply b_setp
      | assumption | apply b_bind
      | match goal with |- pub (match ?x with _ => _ end) => destruct x end ].
  Lemma b_war f b e : f <> Quorum -> pub (write_as_read_only Y f b e).
  Proof.
    intros N. unfold write_as_read_only. assert (N1 : Main f <> Main Quorum) by congruence. assert (N2 : Tmp f <> Tmp Quorum) by congruence.
    assert (N3 : Main f <> Tmp Quorum) by discriminate. assert (N4 : Tmp f <> Main Quorum) by discriminate.
    apply b_bind; [apply b_exists|intros]. apply b_bind; [apply b_guard|intros]. apply b_bind; [now apply b_write|intros]. apply b_bind; [apply b_guard|intros].
    apply b_bind; [now apply b_rename|intros]. apply b_bind; [apply b_guard|intros]. apply b_bind; [now apply b_chmod|intros]. apply b_guard.
  Qed.
  Lemma b_env : pub (get_manifest_envelope Y). Proof. unfold get_manifest_envelope. b_tac. Qed.
  Lemma b_geteph : pub (get_ephemeral_key Y). Proof. unfold get_ephemeral_key, pair_from_hex_file. b_tac. Qed.
  Lemma b_rotate k : pub (rotate_ephemeral_key Y k).
  Proof. unfold rotate_ephemeral_key. b_tac. Qed.
  Lemma b_mutate g : pub (mutate_manifest_envelope Y g).
  Proof. unfold mutate_manifest_envelope. apply b_bind; [apply b_env|]. b_tac. Qed.
  Lemma b_gen : pub (pair_generate Y). Proof. unfold pair_generate. b_tac. Qed.
  Lemma b_lock a b c : pub (lock_manifest_commitment_pcr_bank Y a b c).
  Proof. unfold lock_manifest_commitment_pcr_bank, describe_nsm, extend_commitment, verify_locked, describe_pcr. b_tac. Qed.
  Lemma b_boot e pv : pub (put_manifest_and_pivot Y e pv).
  Proof.
    unfold put_manifest_and_pivot, put_ephemeral_key, put_pivot, put_manifest_envelope, post_boot_attestation.
    b_tac; first [apply b_gen|apply b_lock|apply b_war; discriminate].
  Qed.
  Lemma b_shares l : pub (encrypt_shares Y l).
  Proof. induction l as [|[sh m] l IH]; cbn [encrypt_shares]; b_tac. Qed.
  Lemma b_genesis set dr : pub (boot_genesis Y set dr).
  Proof. unfold boot_genesis. b_tac; first [apply b_gen|apply b_shares]. Qed.
  Lemma b_live : pub (live_attestation_doc Y).
  Proof. unfold live_attestation_doc, post_boot_attestation. b_tac; first [apply b_env|apply b_geteph]. Qed.

  (** installing the key *)
  Lemma bstep {A B} (m : M Y A) (f : A -> M Y B) s a s1 : m s = (Ok a, s1) -> bind m f s = f a s1.
  Proof. intros E. unfold bind. now rewrite E. Qed.
  Lemma bfail {A B} (m : M Y A) (f : A -> M Y B) s e s1 : m s = (Err e, s1) -> bind m f s = (Err e, s1).
  Proof. intros E. unfold bind. now rewrite E. Qed.
  Lemma key_chmod q q' m (s t : st) : key_seed Y q -> key_seed Y q' -> same s t ->
    st_fs s (Main Quorum) = Some (encode q, m) -> st_fs t (Main Quorum) = Some (encode q', m) ->
    rel eq ((ret tt ;; do c <- op_chmod Y (Main Quorum) 292; guard c FailedToPutQuorumKey) s)
           ((ret tt ;; do c <- op_chmod Y (Main Quorum) 292; guard c FailedToPutQuorumKey) t).
  Proof.
    intros K K' S D D'. rewrite (bstep _ _ s tt s) by reflexivity. rewrite (bstep _ _ t tt t) by reflexivity.
    unfold bind. unfold op_chmod. rewrite (sm_faults _ _ _ S), D, D'.
    pose proof (same_io _ _ S) as S1.
    destruct (s_io Y (st_ioc t)); (split; [|reflexivity]); cbn [guard snd ret err]; try exact S1.
    apply same_eff; [exact S1|]. apply samef_key; [apply (sm_files _ _ _ S)|exact K|exact K'].
  Qed.
  Lemma key_put q q' (s t : st) : key_seed Y q -> key_seed Y q' -> same s t -> rel eq (put_quorum_key Y q s) (put_quorum_key Y q' t).
  Proof.
    intros K K' S. unfold put_quorum_key, write_as_read_only.
    assert (L : length (encode q') = length (encode q)) by (rewrite !encode_length, (proj1 K), (proj1 K'); reflexivity).
    rewrite (bstep _ _ s (is_some (st_fs t (Main Quorum))) s) by (unfold op_exists, gets; now rewrite (samef_some _ _ (Main Quorum) (sm_files _ _ _ S))).
    rewrite (bstep _ _ t (is_some (st_fs t (Main Quorum))) t) by reflexivity.
    destruct (is_some (st_fs t (Main Quorum))); cbn [negb guard]; [split; [exact S|reflexivity]|].
    rewrite (bstep _ _ s tt s) by reflexivity. rewrite (bstep _ _ t tt t) by reflexivity.
    pose proof (same_io _ _ S) as S1.
    pose proof (eq_refl (op_write Y (Tmp Quorum) (encode q) s)) as W. unfold op_write in W at 2.
    pose proof (eq_refl (op_write Y (Tmp Quorum) (encode q') t)) as W'. unfold op_write in W' at 2.
    rewrite (sm_faults _ _ _ S), (samef_file_mode _ _ (Tmp Quorum) (sm_files _ _ _ S)) in W. rewrite L in W'.
    revert W W'. set (m := file_mode (st_fs t) (Tmp Quorum)).
    destruct (s_io Y (st_ioc t)) as [| |k]; intros W W';
      rewrite (bstep _ _ _ _ _ W), (bstep _ _ _ _ _ W'); cbn [guard];
      [|split; [exact S1|reflexivity]|split; [|reflexivity]; apply steps_same; [discriminate|now left|exact S1]].
    pose proof (steps_same (Tmp Quorum) m (encode q) (encode q') ltac:(discriminate) (or_introl eq_refl) (length (encode q)) 0 _ _ S1) as S2.
    destruct (write_steps_spec (Tmp Quorum) m (encode q) (length (encode q)) 0 (tick_io s)) as (_ & C & _).
    destruct (write_steps_spec (Tmp Quorum) m (encode q') (length (encode q)) 0 (tick_io t)) as (_ & C' & _).
    rewrite Nat.add_0_l, firstn_all in C. rewrite Nat.add_0_l, <- L, firstn_all in C'. rewrite L in C'.
    revert S2 C C'. generalize (write_steps Y (Tmp Quorum) m (encode q) (length (encode q)) 0 (tick_io s)).
    generalize (write_steps Y (Tmp Quorum) m (encode q') (length (encode q)) 0 (tick_io t)). clear S S1 W W'. intros t2 s2 S C C'.
    rewrite (bstep _ _ s2 tt s2) by reflexivity. rewrite (bstep _ _ t2 tt t2) by reflexivity.
    pose proof (eq_refl (op_rename Y (Tmp Quorum) (Main Quorum) s2)) as W. unfold op_rename in W at 2.
    pose proof (eq_refl (op_rename Y (Tmp Quorum) (Main Quorum) t2)) as W'. unfold op_rename in W' at 2.
    rewrite (sm_faults _ _ _ S), C in W. rewrite C' in W'.
    pose proof (same_io _ _ S) as S1.
    destruct (s_io Y (st_ioc t2)); rewrite (bstep _ _ _ _ _ W), (bstep _ _ _ _ _ W'); cbn [guard]; [|split; [exact S1|reflexivity]..].
    assert (S3 : same (eff_fs (EvRename (Tmp Quorum) (Main Quorum)) (upd (upd (st_fs s2) (Main Quorum) (Some (encode q, m))) (Tmp Quorum) None) (tick_io s2))
                      (eff_fs (EvRename (Tmp Quorum) (Main Quorum)) (upd (upd (st_fs t2) (Main Quorum) (Some (encode q', m))) (Tmp Quorum) None) (tick_io t2))).
    { apply same_eff; [exact S1|]. apply samef_tmp; [|reflexivity]. apply samef_key; [apply (sm_files _ _ _ S)|exact K|exact K']. }
    eapply (key_chmod q q' m); [exact K|exact K'|exact S3|reflexivity|reflexivity].
  Qed.
  Lemma rel_bind {A B C D} (R : A -> B -> Prop) (Q : C -> D -> Prop) m m' (f : A -> M Y C) (g : B -> M Y D) (s t : st) :
    rel R (m s) (m' t) -> (forall a b s1 t1, R a b -> same s1 t1 -> rel Q (f a s1) (g b t1)) -> rel Q (bind m f s) (bind m' g t).
  Proof.
    intros (S & E) H. unfold bind. destruct (m s) as [[a|e] s1], (m' t) as [[b|e'] t1]; cbn [fst snd] in *; try contradiction; [now apply H|now split].
  Qed.
  Definition finish (q : bytes) : M Y unit := (do live <- take_pending Y; rotate_ephemeral_key Y live ;; put_quorum_key Y q).
  Lemma key_finish q q' (s t : st) : key_seed Y q -> key_seed Y q' -> same s t -> rel eq (finish q s) (finish q' t).
  Proof.
    intros K K' S. unfold finish. eapply rel_bind; [apply b_take, S|]. intros a b s1 t1 -> S1.
    eapply rel_bind; [apply b_rotate, S1|]. intros [] [] s2 t2 _ S2. now apply key_put.
  Qed.

  (** the errors of the installation are not those of the checks before it *)
  Definition errs (P : perr -> bool) {A} (m : M Y A) : Prop := forall s, match fst (m s) with Ok _ => True | Err e => P e = true end.
  Lemma e_bind P {A B} (m : M Y A) (f : A -> M Y B) : errs P m -> (forall a, errs P (f a)) -> errs P (bind m f).
  Proof. intros H K s. specialize (H s). unfold bind. destruct (m s) as [[a|e] s1]; [apply K|exact H]. Qed.
  Lemma e_ok P {A} (m : M Y A) : (forall s, exists a, fst (m s) = Ok a) -> errs P m.
  Proof. intros H s. destruct (H s) as (a & ->). exact I. Qed.
  Lemma e_guard P b e : P e = true -> errs P (guard b e). Proof. intros H s. destruct b; [exact I|exact H]. Qed.
  Lemma ok_write p d : forall s, exists a, fst (op_write Y p d s) = Ok a.
  Proof. intros s. unfold op_write. destruct (s_io Y (st_ioc s)); eexists; reflexivity. Qed.
  Lemma ok_rename p d : forall s, exists a, fst (op_rename Y p d s) = Ok a.
  Proof. intros s. unfold op_rename. destruct (s_io Y (st_ioc s)), (st_fs s p); eexists; reflexivity. Qed.
  Lemma ok_remove p : forall s, exists a, fst (op_remove Y p s) = Ok a.
  Proof. intros s. unfold op_remove. destruct (s_io Y (st_ioc s)), (st_fs s p); eexists; reflexivity. Qed.
  Lemma ok_chmod p d : forall s, exists a, fst (op_chmod Y p d s) = Ok a.
  Proof. intros s. unfold op_chmod. destruct (s_io Y (st_ioc s)), (st_fs s p) as [[]|]; eexists; reflexivity. Qed.
  Lemma ok_exists p : forall s, exists a, fst (op_exists Y p s) = Ok a.
  Proof. intros s. eexists; reflexivity. Qed.
  Lemma e_war P f b e : P e = true -> P IOError = true -> P CannotModifyPostPivotStatic = true -> errs P (write_as_read_only Y f b e).
  Proof.
    intros H1 H2 H3. unfold write_as_read_only. apply e_bind; [apply e_ok, ok_exists|intros]. apply e_bind; [now apply e_guard|intros].
    apply e_bind; [apply e_ok, ok_write|intros]. apply e_bind; [now apply e_guard|intros]. apply e_bind; [apply e_ok, ok_rename|intros]. apply e_bind; [now apply e_guard|intros].
    apply e_bind; [apply e_ok, ok_chmod|intros]. now apply e_guard.
  Qed.
  Definition late (e : perr) : bool :=
    match e with
    | MissingLiveEphemeralKey | CannotRotateNonExistentEphemeralKey | CannotDeleteEphemeralKey _ | CannotModifyPostPivotStatic
    | FailedToPutEphemeralKey | FailedToPutQuorumKey | IOError => true
    | _ => false
    end.
  Lemma late_finish q : errs late (finish q).
  Proof.
    unfold finish, rotate_ephemeral_key, put_quorum_key. apply e_bind.
    - intros s. unfold take_pending. destruct (st_pending s); [exact I|reflexivity].
    - intros live. apply e_bind; [|intros; now apply e_war]. apply e_bind; [apply e_ok, ok_exists|intros]. apply e_bind; [now apply e_guard|intros].
      apply e_bind; [apply e_ok, ok_remove|intros]. apply e_bind; [now apply e_guard|intros]. now apply e_war.
  Qed.

  (** provisioning: a public part, then the fate of the share *)
  Definition pro_pre (a : approval) : M Y (versioned_envelope * bytes) :=
    (do e <- get_manifest_envelope Y;
     lift (approval_verify Y a (manifest_hash Y (env_manifest e))) ;;
     guard (memb member_eqb (ap_member a) (members (vm_share_set (env_manifest e)))) NotShareSetMember ;;
     mutate_manifest_envelope Y (push_share_approval a) ;;
     do (eph, _) <- get_ephemeral_key Y; ret (e, eph)).
  Definition pro_tail (eph : bytes) (m : versioned_manifest) (share : bytes) : M Y bool :=
    (do sh <- lift (rmap_err (fun _ => DecryptionFailed) (s_decrypt Y eph share));
     add_share Y sh ;;
     do n <- gets (fun s => lenN (st_shares s));
     if n <? threshold (vm_share_set m) then ret false
     else
      do seed <- build_secret Y;
      modify (set_shares []) ;;
      guard (lenN seed =? 32) IncorrectSecretLen ;;
      do k <- lift (rmap_err P256Error (from_master_seed Y seed));
      guard (bytes_eqb (public_to_bytes k) (ns_quorum_key (vm_namespace m))) ReconstructionErrorIncorrectPubKey ;;
      do live <- take_pending Y;
      rotate_ephemeral_key Y live ;;
      put_quorum_key Y seed ;;
      ret true).
  Lemma pro_split c a s : provision Y c a s = bind (pro_pre a) (fun p => pro_tail (snd p) (env_manifest (fst p)) c) s.
  Proof.
    unfold provision, pro_pre, bind. destruct (get_manifest_envelope Y s) as [[e|x] s1]; [|reflexivity]. cbv zeta.
    destruct (lift (approval_verify Y a (manifest_hash Y (env_manifest e))) s1) as [[u|x] s2]; [|reflexivity].
    destruct (guard _ _ s2) as [[u1|x] s3]; [|reflexivity].
    destruct (mutate_manifest_envelope Y (push_share_approval a) s3) as [[u2|x] s4]; [|reflexivity].
    destruct (get_ephemeral_key Y s4) as [[[eph k]|x] s5]; reflexivity.
  Qed.
  Lemma b_pro_pre a : pub (pro_pre a).
  Proof. unfold pro_pre. b_tac; first [apply b_env|apply b_mutate|apply b_geteph]. Qed.
  Lemma pro_pre_ok a s e eph s1 : pro_pre a s = (Ok (e, eph), s1) -> stored (st_fs s) e /\ setup_key (st_fs s) eph /\ st_shares s1 = st_shares s.
  Proof.
    unfold pro_pre. intros H. apply bind_ok in H as (e0 & s2 & E0 & H). apply bind_ok in H as (u & s3 & E1 & H). apply bind_ok in H as (u' & s4 & E2 & H).
    apply bind_ok in H as (u2 & s5 & E3 & H). apply bind_ok in H as ([eph0 k] & s6 & E4 & H). apply ret_inv in H as [H ->]. injection H as <- <-.
    apply lift_inv in E1 as [_ ->]. apply guard_inv in E2 as [-> _].
    pose proof (si_get_manifest _ _ _ E0) as Q0. pose proof (silent_fs _ _ Q0) as F0.
    split; [|split].
    - destruct (get_manifest_ok _ _ _ E0) as (c & m & C & D). exists c. unfold content. rewrite C. auto.
    - destruct (get_eph_ok _ _ _ _ E4) as (c & m & C & D & _). exists c. split; [|exact D]. unfold content.
      rewrite <- F0, <- (kp_mutate (Main Eph) _ ltac:(discriminate) _ _ _ E3), C. reflexivity.
    - rewrite (fx_shares _ _ _ (si_get_eph _ _ _ E4)).
      assert (X : st_shares s5 = st_shares s2).
      { apply mutate_spec in E3 as [[_ Q]|(c1 & m1 & e1 & _ & _ & X)]; [apply (fx_shares _ _ _ Q)|].
        destruct (envelope_to_storage_vec _); [apply (fx_shares _ _ _ (proj1 X))|apply (fx_shares _ _ _ (proj2 X))]. }
      rewrite X. apply (fx_shares _ _ _ Q0).
  Qed.
  Lemma pro_fate eph m c (s : st) : exists l q, length l = Datatypes.S (length (st_shares s)) /\ (fate_of_share Y eph m (st_shares s) c = RightKey -> key_seed Y q)
    /\ pro_tail eph m c s =
       match fate_of_share Y eph m (st_shares s) c with
       | Unopened => (Err DecryptionFailed, s)
       | Empty => (Err InvalidShare, s)
       | Counted => (Ok false, set_shares l s)
       | NoSecret => (Err (QosCrypto (bs "vsss")), set_shares l s)
       | EmptySecret => (Err ReconstructionErrorEmptySecret, set_shares l s)
       | BadLength => (Err IncorrectSecretLen, set_shares [] s)
       | NoKey => (Err (P256Error FailedToReadSecret), set_shares [] s)
       | OtherKey => (Err ReconstructionErrorIncorrectPubKey, set_shares [] s)
       | RightKey => bind (finish q) (fun _ => ret true) (set_shares [] s)
       end.
  Proof.
    unfold fate_of_share, pro_tail. destruct (s_decrypt Y eph c) as [[|b x]|e]; cbn [rmap_err].
    - exists ([] :: st_shares s), []. split; [reflexivity|]. split; [discriminate|reflexivity].
    - set (sh := b :: x). exists (st_shares s ++ [sh]).
      rewrite (bstep _ _ s sh s) by reflexivity. rewrite (bstep _ _ s tt (set_shares (st_shares s ++ [sh]) s)) by reflexivity.
      rewrite (bstep _ _ _ (lenN (st_shares s ++ [sh])) (set_shares (st_shares s ++ [sh]) s)) by reflexivity.
      assert (LL : length (st_shares s ++ [sh]) = Datatypes.S (length (st_shares s))) by (rewrite app_length; cbn [length]; lia).
      replace (lenN (st_shares s ++ [sh])) with (N.of_nat (length (st_shares s)) + 1) by (rewrite lenN_length, LL; lia).
      destruct (N.of_nat (length (st_shares s)) + 1 <? threshold (vm_share_set m)) eqn:TH.
      + exists []. split; [exact LL|]. split; [discriminate|reflexivity].
      + set (s1 := set_shares (st_shares s ++ [sh]) s).
        assert (BS : build_secret Y s1 = match s_combine Y (st_shares s ++ [sh]) with
                       | None => (Err (QosCrypto (bs "vsss")), s1) | Some [] => (Err ReconstructionErrorEmptySecret, s1) | Some x => (Ok x, s1) end)
          by (unfold build_secret; rewrite (bstep _ _ s1 (st_shares s ++ [sh]) s1) by reflexivity; destruct (s_combine Y (st_shares s ++ [sh])) as [[|]|]; reflexivity).
        match goal with |- context [s_combine Y ?l] => change l with (st_shares s ++ [sh]) end.
        revert BS. generalize (s_combine Y (st_shares s ++ [sh])). intros [q|] BS.
        2:{ exists []. split; [exact LL|]. split; [discriminate|]. rewrite (bfail _ _ _ _ _ BS). reflexivity. }
        destruct q as [|b0 q0].
        { exists []. split; [exact LL|]. split; [discriminate|]. rewrite (bfail _ _ _ _ _ BS). reflexivity. }
        revert BS. set (q := b0 :: q0). intros BS. exists q. split; [exact LL|].
        rewrite (bstep _ _ _ _ _ BS).
        rewrite (bstep _ _ s1 tt (set_shares [] s)) by reflexivity. rewrite lenN_length.
        destruct (Nat.eqb (length q) 32) eqn:LQ.
        * apply Nat.eqb_eq in LQ. replace (N.of_nat (length q) =? 32) with true by (symmetry; apply N.eqb_eq; rewrite LQ; reflexivity).
          rewrite (bstep _ _ _ tt (set_shares [] s)) by reflexivity. unfold from_master_seed.
          destruct (s_pair Y q) as [[ek sk]|] eqn:PQ; cbn [rmap_err]; [|split; [discriminate|reflexivity]].
          rewrite (bstep _ _ _ (ek, sk) (set_shares [] s)) by reflexivity. unfold public_to_bytes. cbn [fst snd].
          destruct (list_eq_dec Byte.byte_eq_dec (ek ++ sk) (ns_quorum_key (vm_namespace m))) as [EQ|NE].
          -- split; [intros _; split; [exact LQ|congruence]|].
             assert (BE : bytes_eqb (ek ++ sk) (ns_quorum_key (vm_namespace m)) = true) by (apply bytes_eqb_eq; exact EQ). rewrite BE.
             rewrite (bstep _ _ _ tt (set_shares [] s)) by reflexivity. unfold finish, bind.
             destruct (take_pending Y (set_shares [] s)) as [[lv|z] s2]; [|reflexivity]. destruct (rotate_ephemeral_key Y lv s2) as [[u|z] s3]; [|reflexivity].
             destruct (put_quorum_key Y q s3) as [[u1|z] s4]; reflexivity.
          -- split; [discriminate|].
             assert (BE : bytes_eqb (ek ++ sk) (ns_quorum_key (vm_namespace m)) = false).
             { destruct (bytes_eqb (ek ++ sk) (ns_quorum_key (vm_namespace m))) eqn:X; [|reflexivity]. apply bytes_eqb_eq in X. contradiction. }
             rewrite BE. reflexivity.
        * replace (N.of_nat (length q) =? 32) with false by (symmetry; apply N.eqb_neq; apply Nat.eqb_neq in LQ; lia).
          split; [discriminate|reflexivity].
    - exists ([] :: st_shares s), []. split; [reflexivity|]. split; [discriminate|reflexivity].
  Qed.

  (** equal fates: nothing tells the two runs apart *)
  Lemma key_done q q' (s t : st) : key_seed Y q -> key_seed Y q' -> same s t ->
    rel eq (bind (finish q) (fun _ => ret true) s) (bind (finish q') (fun _ => ret true) t).
  Proof. intros K K' S. eapply rel_bind; [now apply key_finish|]. intros a b s1 t1 _ S1. now split. Qed.
  Lemma tail_rel eph m c c' (s t : st) : same s t ->
    fate_of_share Y eph m (st_shares s) c = fate_of_share Y eph m (st_shares t) c' -> rel eq (pro_tail eph m c s) (pro_tail eph m c' t).
  Proof.
    intros S E. destruct (pro_fate eph m c s) as (l & q & L & K & H). destruct (pro_fate eph m c' t) as (l' & q' & L' & K' & H').
    rewrite H, H'. rewrite <- E in K', H' |- *. assert (LL : length l = length l') by (rewrite L, L', (sm_shares _ _ _ S); reflexivity).
    destruct (fate_of_share Y eph m (st_shares s) c); try (split; [|reflexivity]; cbn [fst snd]; first [exact S|now apply same_shares_set]).
    apply key_done; auto. now apply same_shares_set.
  Qed.
  Definition shown_by (f : fate) (e : perr) : Prop :=
    match f with
    | Unopened => e = DecryptionFailed | Empty => e = InvalidShare | NoSecret => e = QosCrypto (bs "vsss")
    | EmptySecret => e = ReconstructionErrorEmptySecret | BadLength => e = IncorrectSecretLen
    | NoKey => e = P256Error FailedToReadSecret | OtherKey => e = ReconstructionErrorIncorrectPubKey
    | Counted => False | RightKey => late e = true
    end.
  Lemma tail_shows eph m c (s : st) :
    match fst (pro_tail eph m c s) with
    | Ok b => fate_of_share Y eph m (st_shares s) c = if b then RightKey else Counted
    | Err e => shown_by (fate_of_share Y eph m (st_shares s) c) e
    end.
  Proof.
    destruct (pro_fate eph m c s) as (l & q & L & K & H). rewrite H. destruct (fate_of_share Y eph m (st_shares s) c); try reflexivity.
    pose proof (late_finish q (set_shares [] s)) as F. unfold bind. destruct (finish q (set_shares [] s)) as [[u|e] s1]; [reflexivity|exact F].
  Qed.
  Lemma tail_weak eph m c c' (s t : st) : same s t -> fst (pro_tail eph m c s) = fst (pro_tail eph m c' t) ->
    same (snd (pro_tail eph m c s)) (snd (pro_tail eph m c' t)).
  Proof.
    intros S E. apply (tail_rel eph m c c' s t S).
    pose proof (tail_shows eph m c s) as A. pose proof (tail_shows eph m c' t) as B. rewrite <- E in B.
    destruct (fst (pro_tail eph m c s)) as [b|e]; [congruence|]. clear E.
    destruct (fate_of_share Y eph m (st_shares s) c), (fate_of_share Y eph m (st_shares t) c'); cbn [shown_by] in A, B; subst; try reflexivity; try contradiction; try discriminate.
  Qed.
  Lemma pro_rel c c' a (s t : st) : same s t ->
    (forall e eph, stored (st_fs s) e -> setup_key (st_fs s) eph ->
       fate_of_share Y eph (env_manifest e) (st_shares s) c = fate_of_share Y eph (env_manifest e) (st_shares t) c') ->
    rel eq (provision Y c a s) (provision Y c' a t).
  Proof.
    intros S H. rewrite !pro_split. destruct (b_pro_pre a s t S) as (S1 & E).
    destruct (pro_pre a s) as [[p|x] s1] eqn:P, (pro_pre a t) as [[p'|x'] t1] eqn:P'; cbn [fst snd] in *; try contradiction.
    - subst p'. destruct p as [e eph]. rewrite (bstep _ _ _ _ _ P), (bstep _ _ _ _ _ P'). cbn [fst snd].
      destruct (pro_pre_ok _ _ _ _ _ P) as (A & B & C). destruct (pro_pre_ok _ _ _ _ _ P') as (_ & _ & C').
      apply tail_rel; [exact S1|]. rewrite C, C'. now apply H.
    - rewrite (bfail _ _ _ _ _ P), (bfail _ _ _ _ _ P'). split; [exact S1|exact E].
  Qed.
  Lemma pro_weak c c' a (s t : st) : same s t -> fst (provision Y c a s) = fst (provision Y c' a t) ->
    same (snd (provision Y c a s)) (snd (provision Y c' a t)).
  Proof.
    intros S. rewrite !pro_split. destruct (b_pro_pre a s t S) as (S1 & E).
    destruct (pro_pre a s) as [[p|x] s1] eqn:P, (pro_pre a t) as [[p'|x'] t1] eqn:P'; cbn [fst snd] in *; try contradiction.
    - subst p'. destruct p as [e eph]. rewrite (bstep _ _ _ _ _ P), (bstep _ _ _ _ _ P'). now apply tail_weak.
    - rewrite (bfail _ _ _ _ _ P), (bfail _ _ _ _ _ P'). intros _. exact S1.
  Qed.

  (** injection *)
  Definition inj_pre : M Y (versioned_envelope * (bytes * bytes)) :=
    (do e <- get_manifest_envelope Y;
     do q <- lift (rmap_err P256Error (public_from_bytes Y (ns_quorum_key (vm_namespace (env_manifest e)))));
     ret (e, q)).
  Definition inj_seal (e : versioned_envelope) (q : bytes * bytes) (eph c : bytes) : M Y unit :=
    (do seed <- lift (rmap_err P256Error (s_decrypt Y eph c));
     guard (lenN seed =? 32) EncryptedQuorumKeyInvalidLen ;;
     do k <- lift (rmap_err (fun _ => InvalidQuorumSecret) (from_master_seed Y seed));
     guard (pub_eqb k q) WrongQuorumKey ;;
     finish seed).
  Definition inj_tail (e : versioned_envelope) (q : bytes * bytes) (c g : bytes) : M Y unit :=
    (guard (s_verify Y (snd q) c g) InvalidEncryptedQuorumKeySignature ;;
     do (eph, _) <- get_ephemeral_key Y; inj_seal e q eph c).
  Lemma inj_split c g s : inject_key Y c g s = bind inj_pre (fun p => inj_tail (fst p) (snd p) c g) s.
  Proof.
    unfold inject_key, inj_pre, inj_tail, inj_seal, bind. destruct (get_manifest_envelope Y s) as [[e|x] s1]; [|reflexivity]. cbv zeta.
    destruct (lift _ s1) as [[q|x] s2]; reflexivity.
  Qed.
  Lemma b_inj_pre : pub inj_pre.
  Proof. unfold inj_pre. b_tac; first [apply b_env]. Qed.
  Lemma inj_pre_ok s e q s1 : inj_pre s = (Ok (e, q), s1) ->
    stored (st_fs s) e /\ st_fs s1 = st_fs s /\ fst q ++ snd q = ns_quorum_key (vm_namespace (env_manifest e))
    /\ snd q = skipn 65 (ns_quorum_key (vm_namespace (env_manifest e))).
  Proof.
    unfold inj_pre. intros H. apply bind_ok in H as (e0 & s2 & E0 & H). apply bind_ok in H as (k & s3 & E1 & H). apply ret_inv in H as [H ->]. injection H as <- <-.
    apply lift_inv in E1 as [E1 ->]. pose proof (silent_fs _ _ (si_get_manifest _ _ _ E0)) as F0.
    split; [|split; [exact F0|]].
    - destruct (get_manifest_ok _ _ _ E0) as (c & m & C & D). exists c. unfold content. rewrite C. auto.
    - unfold public_from_bytes in E1. revert E1. generalize (ns_quorum_key (vm_namespace (env_manifest e))). intros b E1.
      destruct (130 <? lenN b); [discriminate E1|]. destruct (lenN b <? 130); [discriminate E1|]. cbv zeta in E1.
      destruct (s_point_ok Y (firstn 65 b)), (s_point_ok Y (skipn 65 b)); cbn [rmap_err] in E1; try discriminate E1.
      assert (q = (firstn 65 b, skipn 65 b)) as -> by congruence. cbn [fst snd]. split; [apply firstn_skipn|reflexivity].
  Qed.
  Definition seal_fate (e : versioned_envelope) (eph c : bytes) : sealed_fate :=
    match s_decrypt Y eph c with
    | Err x => Sealed x
    | Ok q => Opened (if Nat.eqb (length q) 32 then
                        match s_pair Y q with
                        | None => NoKey
                        | Some (ek, sk) => if list_eq_dec Byte.byte_eq_dec (ek ++ sk) (ns_quorum_key (vm_namespace (env_manifest e))) then RightKey else OtherKey
                        end
                      else BadLength)
    end.
  Definition shown_by_seal (f : sealed_fate) (e : perr) : Prop :=
    match f with
    | Unsigned => False
    | Sealed x => e = P256Error x
    | Opened BadLength => e = EncryptedQuorumKeyInvalidLen
    | Opened NoKey => e = InvalidQuorumSecret
    | Opened OtherKey => e = WrongQuorumKey
    | Opened RightKey => late e = true
    | Opened _ => False
    end.
  Lemma seal_cases e (q : bytes * bytes) eph c (s : st) : fst q ++ snd q = ns_quorum_key (vm_namespace (env_manifest e)) -> length (fst q) = 65%nat ->
    exists seed, (seal_fate e eph c = Opened RightKey -> key_seed Y seed) /\
    match seal_fate e eph c with
    | Opened RightKey => inj_seal e q eph c s = finish seed s
    | f => exists x, inj_seal e q eph c s = (Err x, s) /\ shown_by_seal f x
    end.
  Proof.
    intros Q QL. unfold seal_fate, inj_seal. destruct (s_decrypt Y eph c) as [seed|x]; cbn [rmap_err].
    2:{ exists []. split; [discriminate|]. eexists. split; reflexivity. }
    exists seed. rewrite (bstep _ _ s seed s) by reflexivity. rewrite lenN_length. destruct (Nat.eqb (length seed) 32) eqn:L.
    2:{ split; [discriminate|]. replace (N.of_nat (length seed) =? 32) with false by (symmetry; apply N.eqb_neq; apply Nat.eqb_neq in L; lia).
        eexists. split; reflexivity. }
    apply Nat.eqb_eq in L. replace (N.of_nat (length seed) =? 32) with true by (symmetry; apply N.eqb_eq; rewrite L; reflexivity).
    rewrite (bstep _ _ s tt s) by reflexivity. unfold from_master_seed.
    destruct (s_pair Y seed) as [[ek sk]|] eqn:P; cbn [rmap_err]; [|split; [discriminate|]; eexists; split; reflexivity].
    rewrite (bstep _ _ s (ek, sk) s) by reflexivity.
    destruct (ok_pair Y OK _ _ _ P) as (Lek & Lsk & _).
    destruct (list_eq_dec Byte.byte_eq_dec (ek ++ sk) (ns_quorum_key (vm_namespace (env_manifest e)))) as [E|N].
    - split; [intros _; split; [exact L|congruence]|].
      assert (X : (ek, sk) = q).
      { rewrite <- Q in E. destruct q as [a b]. cbn [fst snd] in *. apply app_inv_length in E; [|now rewrite Lek, QL]. destruct E as [-> ->]. reflexivity. }
      subst q. unfold pub_eqb. cbn [fst snd]. rewrite !bytes_eqb_refl. cbn [andb]. rewrite (bstep _ _ s tt s) by reflexivity. reflexivity.
    - split; [discriminate|].
      assert (X : pub_eqb (ek, sk) q = false).
      { destruct (pub_eqb (ek, sk) q) eqn:A; [|reflexivity]. apply andb_prop in A as [A B]. cbn [fst snd] in A, B.
        apply bytes_eqb_eq in A, B. exfalso. apply N. rewrite <- Q. now rewrite A, B. }
      rewrite X. eexists. split; reflexivity.
  Qed.
  Lemma seal_rel e (q : bytes * bytes) eph c c' (s t : st) : fst q ++ snd q = ns_quorum_key (vm_namespace (env_manifest e)) -> length (fst q) = 65%nat -> same s t ->
    seal_fate e eph c = seal_fate e eph c' -> rel eq (inj_seal e q eph c s) (inj_seal e q eph c' t).
  Proof.
    intros Q QL S E. destruct (seal_cases e q eph c s Q QL) as (x & K & H). destruct (seal_cases e q eph c' t Q QL) as (x' & K' & H').
    rewrite <- E in K', H'.
    assert (G : forall f, f <> Opened RightKey -> (exists x, inj_seal e q eph c s = (Err x, s) /\ shown_by_seal f x) ->
                (exists x, inj_seal e q eph c' t = (Err x, t) /\ shown_by_seal f x) -> rel eq (inj_seal e q eph c s) (inj_seal e q eph c' t)).
    { clear -S. intros f NR (x & -> & A) (x' & -> & B). split; [exact S|]. cbn [fst]. destruct f as [|y|[]]; cbn [shown_by_seal] in A, B; try contradiction; congruence. }
    destruct (seal_fate e eph c) as [|y|[]]; try (refine (G _ _ H H'); discriminate).
    rewrite H, H'. apply key_finish; auto.
  Qed.
  Lemma seal_shows e (q : bytes * bytes) eph c (s : st) : fst q ++ snd q = ns_quorum_key (vm_namespace (env_manifest e)) -> length (fst q) = 65%nat ->
    match fst (inj_seal e q eph c s) with
    | Ok _ => seal_fate e eph c = Opened RightKey
    | Err x => shown_by_seal (seal_fate e eph c) x
    end.
  Proof.
    intros Q QL. destruct (seal_cases e q eph c s Q QL) as (x & K & H).
    destruct (seal_fate e eph c) as [|y|[]]; try (destruct H as (z & -> & A); exact A).
    rewrite H. pose proof (late_finish x s) as F. destruct (finish x s) as [[u|z] s1]; [reflexivity|exact F].
  Qed.
  Lemma seal_weak e (q : bytes * bytes) eph c c' (s t : st) : fst q ++ snd q = ns_quorum_key (vm_namespace (env_manifest e)) -> length (fst q) = 65%nat -> same s t ->
    fst (inj_seal e q eph c s) = fst (inj_seal e q eph c' t) -> same (snd (inj_seal e q eph c s)) (snd (inj_seal e q eph c' t)).
  Proof.
    intros Q QL S E. apply (seal_rel e q eph c c' s t Q QL S).
    pose proof (seal_shows e q eph c s Q QL) as A. pose proof (seal_shows e q eph c' t Q QL) as B. rewrite <- E in B. clear E.
    destruct (fst (inj_seal e q eph c s)) as [u|x]; [congruence|].
    destruct (seal_fate e eph c) as [|y|[]], (seal_fate e eph c') as [|y'|[]]; cbn [shown_by_seal] in A, B; try contradiction; subst; try reflexivity; try discriminate; try congruence.
  Qed.
  Lemma seal_errs e (q : bytes * bytes) eph c : errs (fun x => match x with InvalidEncryptedQuorumKeySignature | FailedToGetEphemeralKey _ => false | _ => true end) (inj_seal e q eph c).
  Proof.
    unfold inj_seal. apply e_bind; [intros s; cbn; destruct (s_decrypt Y eph c); [exact I|reflexivity]|intros seed].
    apply e_bind; [now apply e_guard|intros _]. apply e_bind; [intros s; cbn; destruct (from_master_seed Y seed); [exact I|reflexivity]|intros k].
    apply e_bind; [now apply e_guard|intros _]. intros s. pose proof (late_finish seed s) as F. destruct (fst (finish seed s)) as [u|x]; [exact I|].
    destruct x; try discriminate F; reflexivity.
  Qed.
  Lemma geteph_errs : errs (fun x => match x with FailedToGetEphemeralKey _ => true | _ => false end) (get_ephemeral_key Y).
  Proof.
    unfold get_ephemeral_key. intros s. unfold bind. destruct (pair_from_hex_file Y (Main Eph) s) as [[r|e] s1] eqn:E.
    - cbn. destruct r; [exact I|reflexivity].
    - unfold pair_from_hex_file, bind, op_read in E. destruct (s_io Y (st_ioc s)); discriminate E.
  Qed.
  Lemma inj_tail_err e (q : bytes * bytes) c g (s : st) x : fst (inj_tail e q c g s) = Err x -> s_verify Y (snd q) c g = false <-> x = InvalidEncryptedQuorumKeySignature.
  Proof.
    unfold inj_tail. destruct (s_verify Y (snd q) c g); cbn [guard].
    - rewrite (bstep _ _ s tt s) by reflexivity. intros E. split; [discriminate|]. intros ->.
      unfold bind in E. pose proof (geteph_errs s) as G. destruct (get_ephemeral_key Y s) as [[[eph k]|y] s1]; cbn [fst] in *.
      + pose proof (seal_errs e q eph c s1) as H. rewrite E in H. discriminate H.
      + injection E as ->. discriminate G.
    - intros E. cbn in E. split; [congruence|reflexivity].
  Qed.
  Lemma inj_tail_rel e (q : bytes * bytes) c g c' g' (s t : st) : fst q ++ snd q = ns_quorum_key (vm_namespace (env_manifest e)) -> length (fst q) = 65%nat -> same s t ->
    s_verify Y (snd q) c g = s_verify Y (snd q) c' g' ->
    (s_verify Y (snd q) c g = true -> forall eph, setup_key (st_fs s) eph -> seal_fate e eph c = seal_fate e eph c') ->
    rel eq (inj_tail e q c g s) (inj_tail e q c' g' t).
  Proof.
    intros Q QL S V H. unfold inj_tail. rewrite <- V. destruct (s_verify Y (snd q) c g); cbn [guard]; [|split; [exact S|reflexivity]].
    rewrite (bstep _ _ s tt s), (bstep _ _ t tt t) by reflexivity. destruct (b_geteph s t S) as (S1 & E).
    destruct (get_ephemeral_key Y s) as [[[eph k]|x] s1] eqn:P, (get_ephemeral_key Y t) as [[p'|x'] t1] eqn:P'; cbn [fst snd] in *; try contradiction.
    - subst p'. rewrite (bstep _ _ _ _ _ P), (bstep _ _ _ _ _ P'). apply seal_rel; auto. apply H; [reflexivity|].
      destruct (get_eph_ok _ _ _ _ P) as (ct & m & C & D & _). exists ct. split; [unfold content; now rewrite C|exact D].
    - rewrite (bfail _ _ _ _ _ P), (bfail _ _ _ _ _ P'). split; [exact S1|exact E].
  Qed.
  Lemma inj_tail_weak e (q : bytes * bytes) c g c' g' (s t : st) : fst q ++ snd q = ns_quorum_key (vm_namespace (env_manifest e)) -> length (fst q) = 65%nat -> same s t ->
    fst (inj_tail e q c g s) = fst (inj_tail e q c' g' t) -> same (snd (inj_tail e q c g s)) (snd (inj_tail e q c' g' t)).
  Proof.
    intros Q QL S E.
    assert (V : s_verify Y (snd q) c g = s_verify Y (snd q) c' g').
    { destruct (fst (inj_tail e q c g s)) as [u|x] eqn:A.
      - assert (G : forall c g s u, fst (inj_tail e q c g s) = Ok u -> s_verify Y (snd q) c g = true).
        { clear. intros c g s u H. unfold inj_tail in H. destruct (s_verify Y (snd q) c g); [reflexivity|discriminate H]. }
        rewrite (G _ _ _ _ A). symmetry in E. now rewrite (G _ _ _ _ E).
      - symmetry in E. pose proof (inj_tail_err _ _ _ _ _ _ A) as X. pose proof (inj_tail_err _ _ _ _ _ _ E) as X'.
        destruct (s_verify Y (snd q) c g), (s_verify Y (snd q) c' g'); try reflexivity.
        + exfalso. assert (true = false) by (apply X; now apply X'). discriminate.
        + exfalso. assert (true = false) by (apply X'; now apply X). discriminate. }
    revert E. unfold inj_tail. rewrite <- V. destruct (s_verify Y (snd q) c g); cbn [guard]; [|intros _; exact S].
    rewrite (bstep _ _ s tt s), (bstep _ _ t tt t) by reflexivity. destruct (b_geteph s t S) as (S1 & E).
    destruct (get_ephemeral_key Y s) as [[[eph k]|x] s1] eqn:P, (get_ephemeral_key Y t) as [[p'|x'] t1] eqn:P'; cbn [fst snd] in *; try contradiction.
    - subst p'. rewrite (bstep _ _ _ _ _ P), (bstep _ _ _ _ _ P'). now apply seal_weak.
    - rewrite (bfail _ _ _ _ _ P), (bfail _ _ _ _ _ P'). intros _. exact S1.
  Qed.
  Lemma fate_seal eph e c g (q : bytes * bytes) : snd q = skipn 65 (ns_quorum_key (vm_namespace (env_manifest e))) ->
    fate_of_key Y eph (env_manifest e) c g = if s_verify Y (snd q) c g then seal_fate e eph c else Unsigned.
  Proof. intros ->. reflexivity. Qed.
  Lemma inj_pre_len s e q s1 : inj_pre s = (Ok (e, q), s1) -> length (fst q) = 65%nat.
  Proof.
    unfold inj_pre. intros H. apply bind_ok in H as (e0 & s2 & E0 & H). apply bind_ok in H as (k & s3 & E1 & H). apply ret_inv in H as [H ->]. injection H as <- <-.
    apply lift_inv in E1 as [E1 ->]. unfold public_from_bytes in E1. revert E1. generalize (ns_quorum_key (vm_namespace (env_manifest e))). intros b E1.
    destruct (130 <? lenN b); [discriminate E1|]. destruct (lenN b <? 130) eqn:L; [discriminate E1|]. cbv zeta in E1.
    destruct (s_point_ok Y (firstn 65 b)), (s_point_ok Y (skipn 65 b)); cbn [rmap_err] in E1; try discriminate E1.
    assert (q = (firstn 65 b, skipn 65 b)) as -> by congruence. cbn [fst]. rewrite firstn_length. apply N.ltb_ge in L. rewrite lenN_length in L. lia.
  Qed.
  Lemma inj_rel c g c' g' (s t : st) : same s t ->
    (forall e eph, stored (st_fs s) e -> setup_key (st_fs s) eph -> fate_of_key Y eph (env_manifest e) c g = fate_of_key Y eph (env_manifest e) c' g') ->
    (forall e, stored (st_fs s) e -> let k := skipn 65 (ns_quorum_key (vm_namespace (env_manifest e))) in s_verify Y k c g = s_verify Y k c' g') ->
    rel eq (inject_key Y c g s) (inject_key Y c' g' t).
  Proof.
    intros S H V. rewrite !inj_split. destruct (b_inj_pre s t S) as (S1 & E).
    destruct (inj_pre s) as [[[e q]|x] s1] eqn:P, (inj_pre t) as [[p'|x'] t1] eqn:P'; cbn [fst snd] in *; try contradiction.
    - subst p'. rewrite (bstep _ _ _ _ _ P), (bstep _ _ _ _ _ P'). cbn [fst snd]. destruct (inj_pre_ok _ _ _ _ P) as (A & B & C & D).
      specialize (V e A). cbv zeta in V. rewrite <- D in V.
      apply inj_tail_rel; [exact C|exact (inj_pre_len _ _ _ _ P)|exact S1|exact V|]. intros VT eph SK. rewrite B in SK.
      specialize (H e eph A SK). rewrite (fate_seal _ _ _ _ q D), (fate_seal _ _ c' g' q D), <- V, VT in H. exact H.
    - rewrite (bfail _ _ _ _ _ P), (bfail _ _ _ _ _ P'). split; [exact S1|exact E].
  Qed.
  Lemma inj_weak c g c' g' (s t : st) : same s t -> fst (inject_key Y c g s) = fst (inject_key Y c' g' t) ->
    same (snd (inject_key Y c g s)) (snd (inject_key Y c' g' t)).
  Proof.
    intros S. rewrite !inj_split. destruct (b_inj_pre s t S) as (S1 & E).
    destruct (inj_pre s) as [[[e q]|x] s1] eqn:P, (inj_pre t) as [[p'|x'] t1] eqn:P'; cbn [fst snd] in *; try contradiction.
    - subst p'. rewrite (bstep _ _ _ _ _ P), (bstep _ _ _ _ _ P'). cbn [fst snd]. destruct (inj_pre_ok _ _ _ _ P) as (A & B & C & D).
      apply inj_tail_weak; [exact C|exact (inj_pre_len _ _ _ _ P)|exact S1].
    - rewrite (bfail _ _ _ _ _ P), (bfail _ _ _ _ _ P'). intros _. exact S1.
  Qed.

  (** export: its answer is about the key, but it changes nothing else *)
  Lemma getq_same (s t : st) : same s t -> same (snd (get_quorum_key Y s)) (snd (get_quorum_key Y t))
    /\ match fst (get_quorum_key Y s), fst (get_quorum_key Y t) with Ok _, Ok _ | Err _, Err _ => True | _, _ => False end.
  Proof.
    intros S. unfold get_quorum_key, pair_from_hex_file, bind, op_read, ret, lift. rewrite (sm_faults _ _ _ S).
    pose proof (same_io _ _ S) as S1. destruct (sm_files _ _ _ S) as (_ & _ & F).
    destruct (s_io Y (st_ioc t)); cbn [rmap_err fst snd]; [|split; [exact S1|exact I]..].
    destruct F as [(-> & ->)|(q & q' & m & (L & K) & (L' & K') & -> & ->)]; cbn [option_map fst snd]; [split; [exact S1|exact I]|].
    rewrite !seed_of_hex_encode by assumption. unfold from_master_seed.
    destruct (s_pair Y q); [|contradiction]. destruct (s_pair Y q'); [|contradiction]. cbn. split; [exact S1|exact I].
  Qed.
  Definition exp_pre (new : versioned_envelope) (cose : bytes) : M Y (bytes * bytes) :=
    (do t <- op_time Y;
     do ms <- match t with Some ms => ret ms | None => err (attest_err "timestamp") end;
     do d <- lift (rmap_err attest_perr (attestation_doc_from_der Y cose (s_root Y) (ms / 1000)));
     do old <- get_manifest_envelope Y;
     lift (validate_manifest Y new old d) ;;
     do pk <- match ad_public_key d with Some k => ret k | None => err MissingEphemeralKey end;
     lift (rmap_err (fun _ => InvalidEphemeralKey) (public_from_bytes Y pk))).
  Definition exp_tail (eph : bytes * bytes) : M Y (bytes * bytes) :=
    (do (seed, _) <- get_quorum_key Y;
     do r <- op_rand Y;
     do c <- lift (rmap_err P256Error (s_encrypt Y (fst eph) r seed));
     ret (c, s_sign Y seed c)).
  Lemma exp_split new cose s : export_key Y new cose s = bind (exp_pre new cose) exp_tail s.
  Proof.
    unfold export_key, exp_pre, exp_tail, bind. destruct (op_time Y s) as [[t|x] s1]; [|reflexivity].
    destruct (match t with Some ms => ret ms | None => err (attest_err "timestamp") end s1) as [[ms|x] s2]; [|reflexivity].
    destruct (lift _ s2) as [[d|x] s3]; [|reflexivity]. destruct (get_manifest_envelope Y s3) as [[old|x] s4]; [|reflexivity].
    destruct (lift (validate_manifest Y new old d) s4) as [[u|x] s5]; [|reflexivity].
    destruct (match ad_public_key d with Some k => ret k | None => err MissingEphemeralKey end s5) as [[pk|x] s6]; [|reflexivity].
    destruct (lift _ s6) as [[eph|x] s7]; reflexivity.
  Qed.
  Lemma b_exp_pre new cose : pub (exp_pre new cose).
  Proof. unfold exp_pre. b_tac; first [apply b_env]. Qed.
  Lemma exp_weak new cose (s t : st) : same s t -> same (snd (export_key Y new cose s)) (snd (export_key Y new cose t)).
  Proof.
    intros S. rewrite !exp_split. destruct (b_exp_pre new cose s t S) as (S1 & E).
    destruct (exp_pre new cose s) as [[p|x] s1] eqn:P, (exp_pre new cose t) as [[p'|x'] t1] eqn:P'; cbn [fst snd] in *; try contradiction.
    - subst p'. rewrite (bstep _ _ _ _ _ P), (bstep _ _ _ _ _ P'). unfold exp_tail. destruct (getq_same s1 t1 S1) as (S2 & G).
      unfold bind. destruct (get_quorum_key Y s1) as [[[q k]|y] s2], (get_quorum_key Y t1) as [[[q' k']|y'] t2]; cbn [fst snd] in *; try contradiction; [|exact S2].
      pose proof (same_rng _ _ S2) as S3. unfold op_rand, lift, ret.
      destruct (rmap_err P256Error (s_encrypt Y (fst p) (s_rng Y (st_rngc s2)) q)), (rmap_err P256Error (s_encrypt Y (fst p) (s_rng Y (st_rngc t2)) q')); exact S3.
    - rewrite (bfail _ _ _ _ _ P), (bfail _ _ _ _ _ P'). exact S1.
  Qed.

  (** requests *)
  Lemma read_rel {A} (f : A -> msg) (m : M Y A) (s t : st) r : pub m -> same s t ->
    handle Y r s = (as_msg f (fst (m s)), snd (m s)) -> handle Y r t = (as_msg f (fst (m t)), snd (m t)) ->
    fst (handle Y r s) = fst (handle Y r t) /\ same (snd (handle Y r s)) (snd (handle Y r t)).
  Proof.
    intros P S -> ->. destruct (P s t S) as (S1 & E). cbn [fst snd]. split; [|exact S1].
    destruct (fst (m s)), (fst (m t)); try contradiction; cbn [as_msg]; now subst.
  Qed.
  Lemma pub_handle r (s t : st) : about_secret r = false -> same s t ->
    fst (handle Y r s) = fst (handle Y r t) /\ same (snd (handle Y r s)) (snd (handle Y r t)).
  Proof.
    intros NS S. pose proof (sm_phase _ _ _ S) as P. destruct (served (st_phase s) r) eqn:V.
    2:{ rewrite (handle_unserved r s V). rewrite P in V. rewrite (handle_unserved r t V). cbn [fst snd]. rewrite P. auto. }
    assert (BB : forall e pv, boot_of r = Some (e, pv) -> st_phase s = WaitingForBootInstruction ->
               fst (handle Y r s) = fst (handle Y r t) /\ same (snd (handle Y r s)) (snd (handle Y r t))).
    { intros e pv B Ps. rewrite (handle_boot r e pv s Ps B), (handle_boot r e pv t (eq_trans (eq_sym P) Ps) B).
      destruct (b_boot e pv s t S) as (S1 & E). destruct (put_manifest_and_pivot Y e pv s) as [[n|x] s1], (put_manifest_and_pivot Y e pv t) as [[n'|x'] t1]; cbn [fst snd] in *; try contradiction; subst; (split; [reflexivity|now apply same_phase_set]). }
    destruct r; try discriminate V; try discriminate NS; cbn [served] in V.
    all: try (apply phase_eqb_eq in V; eapply BB; [reflexivity|exact V]).
    - rewrite !handle_status. cbn [fst snd]. rewrite P. auto.
    - apply phase_eqb_eq in V. rewrite (handle_genesis _ _ s V), (handle_genesis _ _ t (eq_trans (eq_sym P) V)).
      destruct (b_genesis set dr_key s t S) as (S1 & E). destruct (boot_genesis Y set dr_key s) as [[n|x] s1], (boot_genesis Y set dr_key t) as [[n'|x'] t1]; cbn [fst snd] in *; try contradiction; subst; (split; [reflexivity|now apply same_phase_set]).
    - apply andb_prop in V as [V1 V2]. apply negb_true_iff in V1, V2.
      assert (N1 : st_phase s <> GenesisBooted) by (intros X; rewrite X in V1; discriminate).
      assert (N2 : st_phase s <> WaitingForBootInstruction) by (intros X; rewrite X in V2; discriminate).
      eapply read_rel; [|exact S|apply handle_live; [exact N1|exact N2]|apply handle_live; [now rewrite <- P|now rewrite <- P]].
      b_tac; first [apply b_live|apply b_env].
    - apply negb_true_iff in V. assert (N1 : st_phase s <> GenesisBooted) by (intros X; rewrite X in V; discriminate).
      eapply read_rel; [|exact S|apply handle_manifest; exact N1|apply handle_manifest; now rewrite <- P]. b_tac; apply b_env.
    - rewrite !handle_version. auto.
  Qed.
  Lemma handle_weak r r' (s t : st) : alike r r' -> same s t -> (brings_secret r = true -> fst (handle Y r s) = fst (handle Y r' t)) ->
    same (snd (handle Y r s)) (snd (handle Y r' t)).
  Proof.
    intros AL S H. pose proof (sm_phase _ _ _ S) as P.
    assert (PR : forall c c' a, fst (handle Y (ProvisionRequest c a) s) = fst (handle Y (ProvisionRequest c' a) t) -> same (snd (handle Y (ProvisionRequest c a) s)) (snd (handle Y (ProvisionRequest c' a) t))).
    { clear -S P. intros c c' a H. destruct (served (st_phase s) (ProvisionRequest c a)) eqn:V.
      2:{ rewrite (handle_unserved _ s V). rewrite P in V. rewrite (handle_unserved (ProvisionRequest c' a) t V). exact S. }
      cbn [served] in V. apply phase_eqb_eq in V. rewrite (handle_provision c a s V), (handle_provision c' a t (eq_trans (eq_sym P) V)) in *.
      pose proof (pro_weak c c' a s t S) as W. destruct (provision Y c a s) as [[[]|x] s1], (provision Y c' a t) as [[[]|x'] t1]; cbn [fst snd] in *; try discriminate H;
        try (apply same_phase_set); apply W; first [reflexivity|congruence]. }
    assert (IN : forall c g c' g', fst (handle Y (InjectKeyRequest c g) s) = fst (handle Y (InjectKeyRequest c' g') t) -> same (snd (handle Y (InjectKeyRequest c g) s)) (snd (handle Y (InjectKeyRequest c' g') t))).
    { clear -S P OK. intros c g c' g' H. destruct (served (st_phase s) (InjectKeyRequest c g)) eqn:V.
      2:{ rewrite (handle_unserved _ s V). rewrite P in V. rewrite (handle_unserved (InjectKeyRequest c' g') t V). exact S. }
      cbn [served] in V. apply phase_eqb_eq in V. rewrite (handle_inject c g s V), (handle_inject c' g' t (eq_trans (eq_sym P) V)) in *.
      pose proof (inj_weak c g c' g' s t S) as W. destruct (inject_key Y c g s) as [[[]|x] s1], (inject_key Y c' g' t) as [[[]|x'] t1]; cbn [fst snd] in *; try discriminate H;
        apply same_phase_set; apply W; first [reflexivity|congruence]. }
    destruct AL as [r|c c' a|c g c' g']; [|now apply PR, H|now apply IN, H].
    destruct (about_secret r) eqn:A; [|now apply pub_handle].
    destruct r; try discriminate A; [now apply PR, H| |now apply IN, H].
    match goal with |- same (snd (handle Y (ExportKeyRequest ?a ?b) s)) _ => rename a into e; rename b into cose end.
    destruct (served (st_phase s) (ExportKeyRequest e cose)) eqn:V.
    2:{ rewrite (handle_unserved _ s V). rewrite P in V. rewrite (handle_unserved (ExportKeyRequest e cose) t V). exact S. }
    cbn [served] in V. apply phase_eqb_eq in V. rewrite (handle_export e cose s V), (handle_export e cose t (eq_trans (eq_sym P) V)). cbn [snd]. now apply exp_weak.
  Qed.
  Lemma f2_len {A B} (R : A -> B -> Prop) l m : Forall2 R l m -> length l = length m. Proof. induction 1; cbn; congruence. Qed.
  Lemma f2_split {A B} (R : A -> B -> Prop) (a : list A) x b a' x' b' : Forall2 R (a ++ x :: b) (a' ++ x' :: b') -> length b = length b' -> R x x' /\ Forall2 R b b'.
  Proof.
    intros F L. assert (LA : length a = length a').
    { apply f2_len in F. rewrite !app_length in F. cbn [length] in F. lia. }
    clear L. revert a' LA F. induction a as [|y a IH]; intros [|y' a'] LA F; try discriminate LA.
    - inversion F; subst. auto.
    - inversion F; subst. apply (IH a'); [now injection LA|assumption].
  Qed.
  Lemma twins_same s t : twins Y s t -> same s t.
  Proof.
    induction 1 as [s t S|s t r r' T IH AL H|s t newer x older newer' x' older' rc ic T IH E E' L]; [exact S|now apply handle_weak|].
    pose proof (sm_trace _ _ _ IH) as F. rewrite E, E' in F. destruct (f2_split _ _ _ _ _ _ _ F L) as (X & FO). pose proof X as (X1 & X2 & X3).
    constructor; cbn [fresh st_phase st_shares st_pending st_fs st_nsm st_rngc st_ioc st_trace]; try reflexivity; try assumption. now constructor.
  Qed.
End Proofs.

(** *** Theorems *)
(** Only the answers to provisioning, injection and export depend on the secrets.  Take
    two runs in which those secrets differ, and in which the answers to the requests that
    bring them do not: every answer to any other request, the phase, the exchanges
    with the security module, the sequence of file operations and all files but the key's are the same. *)
Theorem c90_no_other_answer_depends_on_secrets : forall Y, sys_ok Y -> forall s t, twins Y s t ->
  (forall r, about_secret r = false -> fst (handle Y r s) = fst (handle Y r t))
  /\ st_phase s = st_phase t
  /\ map en_ev (st_trace s) = map en_ev (st_trace t)
  /\ forall p, p <> Main Quorum -> p <> Tmp Quorum -> st_fs s p = st_fs t p.
Proof.
  intros Y OK s t T. pose proof (twins_same OK s t T) as S. split; [intros r A; now apply (pub_handle r s t A)|]. split; [apply (sm_phase _ _ _ S)|].
  split; [|apply (proj1 (sm_files _ _ _ S))]. generalize (sm_trace _ _ _ S). induction 1 as [|x y l m (E & _) F IH]; [reflexivity|]. cbn [map]. now f_equal.
Qed.
Print Assumptions c90_no_other_answer_depends_on_secrets.

(** The answer to a share tells at most which of nine fates it had; below the
    threshold, at most whether it opened and was not empty. *)
Theorem c90_a_share_shows_only_its_fate : forall Y, sys_ok Y -> forall s t, twins Y s t -> forall e eph c c' a,
  stored (st_fs s) e -> setup_key (st_fs s) eph ->
  fate_of_share Y eph (env_manifest e) (st_shares s) c = fate_of_share Y eph (env_manifest e) (st_shares t) c' ->
  fst (handle Y (ProvisionRequest c a) s) = fst (handle Y (ProvisionRequest c' a) t).
Proof.
  intros Y OK s t T e eph c c' a SE SK F. pose proof (twins_same OK s t T) as S. pose proof (sm_phase _ _ _ S) as P.
  destruct (served (st_phase s) (ProvisionRequest c a)) eqn:V.
  2:{ rewrite (handle_unserved _ s V). rewrite P in V. rewrite (handle_unserved (ProvisionRequest c' a) t V). cbn [fst]. now rewrite P. }
  cbn [served] in V. apply phase_eqb_eq in V. rewrite (handle_provision c a s V), (handle_provision c' a t (eq_trans (eq_sym P) V)).
  assert (H : rel eq (provision Y c a s) (provision Y c' a t)).
  { apply pro_rel; [exact S|]. intros e' eph' SE' SK'.
    destruct SE as (x & X1 & X2), SE' as (x' & X1' & X2'). assert (x' = x) as -> by congruence. assert (e' = e) as -> by congruence.
    destruct SK as (y & Y1 & Y2), SK' as (y' & Y1' & Y2'). assert (y' = y) as -> by congruence. assert (eph' = eph) as -> by congruence. exact F. }
  destruct H as (_ & H). destruct (provision Y c a s) as [[[]|x] s1], (provision Y c' a t) as [[[]|x'] t1]; cbn [fst snd] in *; try contradiction; congruence.
Qed.
Print Assumptions c90_a_share_shows_only_its_fate.

(** Likewise for a forwarded key. *)
Theorem c90_a_forwarded_key_shows_only_its_fate : forall Y, sys_ok Y -> forall s t, twins Y s t -> forall e eph c g c' g',
  stored (st_fs s) e -> setup_key (st_fs s) eph ->
  fate_of_key Y eph (env_manifest e) c g = fate_of_key Y eph (env_manifest e) c' g' ->
  fst (handle Y (InjectKeyRequest c g) s) = fst (handle Y (InjectKeyRequest c' g') t).
Proof.
  intros Y OK s t T e eph c g c' g' SE SK F. pose proof (twins_same OK s t T) as S. pose proof (sm_phase _ _ _ S) as P.
  destruct (served (st_phase s) (InjectKeyRequest c g)) eqn:V.
  2:{ rewrite (handle_unserved _ s V). rewrite P in V. rewrite (handle_unserved (InjectKeyRequest c' g') t V). cbn [fst]. now rewrite P. }
  cbn [served] in V. apply phase_eqb_eq in V. rewrite (handle_inject c g s V), (handle_inject c' g' t (eq_trans (eq_sym P) V)).
  assert (H : rel eq (inject_key Y c g s) (inject_key Y c' g' t)).
  { apply inj_rel; [exact OK|exact S| |].
    - intros e' eph' SE' SK'.
      destruct SE as (x & X1 & X2), SE' as (x' & X1' & X2'). assert (x' = x) as -> by congruence. assert (e' = e) as -> by congruence.
      destruct SK as (y & Y1 & Y2), SK' as (y' & Y1' & Y2'). assert (y' = y) as -> by congruence. assert (eph' = eph) as -> by congruence. exact F.
    - intros e' SE'. destruct SE as (x & X1 & X2), SE' as (x' & X1' & X2'). assert (x' = x) as -> by congruence. assert (e' = e) as -> by congruence.
      revert F. unfold fate_of_key. cbv zeta.
      destruct (s_verify Y (skipn 65 (ns_quorum_key (vm_namespace (env_manifest e)))) c g), (s_verify Y (skipn 65 (ns_quorum_key (vm_namespace (env_manifest e)))) c' g'); try reflexivity;
        [destruct (s_decrypt Y eph c); discriminate|destruct (s_decrypt Y eph c'); discriminate]. }
  destruct H as (_ & H). destruct (inject_key Y c g s) as [[[]|x] s1], (inject_key Y c' g' t) as [[[]|x'] t1]; cbn [fst snd] in *; try contradiction; congruence.
Qed.
Print Assumptions c90_a_forwarded_key_shows_only_its_fate.

(** Non-vacuity: two enclaves booted alike and given the first share of two different
    splittings of the key: the states differ, the answers do not; then each gets its second share. *)
Definition other1 := ProvisionRequest (setup_seed 0 ++ firstn 10 seed_q) (approve seed_a alice tm).
Definition share2' : bytes := setup_seed 0 ++ skipn 10 seed_q.
Definition s_waiting' := snd (handle T other1 s_booted).
Lemma same_refl Y (s : st Y) : content (st_fs s) Quorum = None ->
  Forall (fun x => content (en_fs x) Quorum = None) (st_trace s) -> same_but_secrets Y s s.
Proof.
  assert (G : forall f : fsys, content f Quorum = None -> same_files Y f f).
  { intros f H. unfold content in H. split; [auto|]. split; [reflexivity|]. left. destruct (f (Main Quorum)); [discriminate|auto]. }
  intros H F. constructor; auto. induction F as [|x l X F IH]; constructor; [|exact IH]. split; [reflexivity|]. split; [now apply G|reflexivity].
Qed.
Lemma forallb_none {Y} (l : list (entry Y)) : forallb (fun x => negb (is_some (content (en_fs x) Quorum))) l = true ->
  Forall (fun x => content (en_fs x) Quorum = None) l.
Proof. intros H. apply Forall_forall. intros x I. rewrite forallb_forall in H. specialize (H x I). destruct (content (en_fs x) Quorum); [discriminate|reflexivity]. Qed.
Example c90_nontrivial :
  twins T (snd (handle T (prov1 0) s_booted)) s_waiting'
  /\ st_shares (snd (handle T (prov1 0) s_booted)) = [firstn 16 seed_q] /\ st_shares s_waiting' = [firstn 10 seed_q]
  /\ fate_of_share T (setup_seed 0) (VM2 tm) (st_shares s_waiting') (share2 0) = BadLength
  /\ fate_of_share T (setup_seed 0) (VM2 tm) (st_shares s_waiting') share2' = RightKey
  /\ fate_of_share T (setup_seed 0) (VM2 tm) [firstn 16 seed_q] (share2 0) = RightKey
  /\ fst (handle T (ProvisionRequest share2' (approve seed_b bob tm)) s_waiting') = ProvisionResponse true.
Proof.
  split; [|split; [vm_compute; reflexivity|]].
  - apply (twins_step T s_booted s_booted (prov1 0) other1); [|constructor|intros _; vm_compute; reflexivity].
    apply twins_start, same_refl; [vm_compute; reflexivity|]. apply forallb_none. vm_compute. reflexivity.
  - split; [vm_compute; reflexivity|]. split; [vm_compute; reflexivity|]. split; [vm_compute; reflexivity|]. split; vm_compute; reflexivity.
Qed.
