(** A concrete system, used only to show that hypotheses of theorems are met
    by non-trivial runs and to exhibit witnesses.  Its cryptography is a toy:
    public keys contain the seed; hashing is reduction of a number. *)
From Verif Require Import Base Hex Types TypesJson Json Msg World Attest Services State SpecProtocol Reach CodecExamples.
Local Open Scope N_scope.

(** *** toy cryptography *)
Definition bxor (a b : byte) : byte :=
  let '(a0, (a1, (a2, (a3, (a4, (a5, (a6, a7))))))) := Byte.to_bits a in
  let '(b0, (b1, (b2, (b3, (b4, (b5, (b6, b7))))))) := Byte.to_bits b in
  Byte.of_bits (xorb a0 b0, (xorb a1 b1, (xorb a2 b2, (xorb a3 b3, (xorb a4 b4, (xorb a5 b5, (xorb a6 b6, xorb a7 b7))))))).
Fixpoint xor_in (acc x : bytes) : bytes * bytes :=
  match acc, x with
  | a :: acc', b :: x' => let (r, t) := xor_in acc' x' in (bxor a b :: r, t)
  | _, _ => (acc, x)
  end.
Fixpoint fold_chunks (fuel : nat) (acc x : bytes) : bytes :=
  match x, fuel with
  | [], _ | _, O => acc
  | _, S f => let (a, r) := xor_in acc x in fold_chunks f a r
  end.
(** The exclusive or of the [n]-byte chunks. *)
Definition toy_hash (n : nat) (x : bytes) : bytes := fold_chunks (length x) (repeat x00 n) x.
Definition toy_pair (seed : bytes) : option (bytes * bytes) :=
  if Nat.eqb (length seed) 32
  then Some (x04 :: seed ++ repeat x00 32, x04 :: seed ++ repeat x01 32) else None.
Definition toy_point (p : bytes) : bool :=
  match p with x04 :: r => Nat.eqb (length r) 64 | _ => false end.
Definition seed_in (k : bytes) : bytes := firstn 32 (tl k).
Definition toy_sign (seed m : bytes) : bytes := toy_hash 64 (seed ++ m).
Definition toy_verify (k m s : bytes) : bool := bytes_eqb s (toy_sign (seed_in k) m).
Definition toy_encrypt (k r m : bytes) : result p256_error bytes := Ok (seed_in k ++ m).
Definition toy_decrypt (seed c : bytes) : result p256_error bytes :=
  if bytes_eqb (firstn 32 c) seed then Ok (skipn 32 c) else Err AesGcm256DecryptError.
(** Shares are the two halves of the secret; reconstruction needs two shares. *)
Definition toy_combine (l : list bytes) : option bytes :=
  match l with [a; b] => Some (a ++ b) | _ => None end.
Definition toy_split (rnd secret : bytes) (n t : N) : option (list bytes) :=
  if (n =? 2) && (t =? 2) then Some [firstn 16 secret; skipn 16 secret] else None.

(** *** toy NSM: two commitment registers and the lock bit *)
Record toy_nsm := ToyNsm { tn_16 : bytes; tn_17 : bytes; tn_locked : bool; tn_time : N }.
Definition zeros48 : bytes := repeat x00 48.
Definition toy_indices : list N := map N.of_nat (seq 0 32).
Definition toy_pcr (n : toy_nsm) (i : N) : bytes :=
  if i =? 16 then tn_16 n else if i =? 17 then tn_17 n else if i =? 0 then pcr0 ex_nitro else if i =? 1 then pcr1 ex_nitro
  else if i =? 2 then pcr2 ex_nitro else if i =? 3 then pcr3 ex_nitro else zeros48.
Definition toy_step (n : toy_nsm) (r : nsm_request) : nsm_response * toy_nsm :=
  match r with
  | DescribeNSM => (RDescribeNSM 1 0 0 (bs "m") 32 (if tn_locked n then toy_indices else []) SHA384, n)
  | DescribePCR i => (RDescribePCR (tn_locked n) (toy_pcr n i), n)
  | ExtendPCR i d =>
    let v := toy_hash 48 (toy_pcr n i ++ d) in
    (RExtendPCR v, if i =? 16 then ToyNsm v (tn_17 n) (tn_locked n) (tn_time n)
                   else ToyNsm (tn_16 n) v (tn_locked n) (tn_time n))
  | LockPCRs _ => (RLockPCRs, ToyNsm (tn_16 n) (tn_17 n) true (tn_time n))
  | Attestation ud _ pk =>
    (RAttestation (match ud with Some u => u | None => [] end ++ match pk with Some p => p | None => [] end ++ tn_16 n ++ tn_17 n), n)
  | _ => (RError NsmInvalidOperation, n)
  end.
Definition toy_nsm0 : toy_nsm := ToyNsm zeros48 zeros48 false 1000000.
(** A document is user data, public key (if any), PCR16, PCR17; PCR0-3 are those of [ex_nitro]. *)
Definition toy_att (ud : bytes) (pk : option bytes) (p16 p17 : bytes) : att_doc :=
  AttDoc (bs "m") SHA384 1 (map (fun i => (i, toy_pcr (ToyNsm p16 p17 true 0) i)) toy_indices) (bs "leaf") [bs "root"] pk (Some ud) None.
Definition toy_doc (c : bytes) : option att_doc :=
  if Nat.eqb (length c) 258 then
    Some (toy_att (firstn 32 c) (Some (firstn 130 (skipn 32 c))) (firstn 48 (skipn 162 c)) (skipn 210 c))
  else if Nat.eqb (length c) 128 then
    Some (toy_att (firstn 32 c) None (firstn 48 (skipn 32 c)) (skipn 80 c))
  else None.

(** [io] is the fault schedule, [salt] separates the randomness of two enclaves. *)
Definition toy (io : nat -> fault) (salt : N) : sys := {|
  s_nsm := toy_nsm;
  s_nsm_step := toy_step;
  s_nsm_time := fun n => (Some (tn_time n), n);
  s_root := bs "root";
  s_sha256 := toy_hash 32; s_sha384 := toy_hash 48; s_sha512 := toy_hash 64;
  s_point_ok := toy_point; s_pair := toy_pair; s_sign := toy_sign; s_verify := toy_verify;
  s_encrypt := toy_encrypt; s_decrypt := toy_decrypt; s_combine := toy_combine; s_split := toy_split;
  s_doc := toy_doc; s_chain_ok := fun _ _ _ _ => true; s_cose_sig_ok := fun _ _ => true;
  s_rng := fun n => toy_hash 32 (le_enc 8 (salt + N.of_nat n));
  s_io := io;
  s_version := bs "1"; s_commit := bs "c"
|}.
Definition calm : nat -> fault := fun _ => NoFault.

Lemma xor_in_len acc : forall x, length (fst (xor_in acc x)) = length acc.
Proof.
  induction acc as [|a acc IH]; intros [|b x]; try reflexivity.
  cbn [xor_in]. specialize (IH x). destruct (xor_in acc x) as [r t]. cbn in *. now rewrite IH.
Qed.
Lemma toy_hash_length n x : length (toy_hash n x) = n.
Proof.
  unfold toy_hash. rewrite <- (repeat_length x00 n) at 2. generalize (repeat x00 n). generalize (length x). intros fuel. revert x.
  induction fuel as [|f IH]; intros [|b x] acc; try reflexivity.
  cbn [fold_chunks]. pose proof (xor_in_len acc (b :: x)) as L. destruct (xor_in acc (b :: x)) as [a r]. rewrite IH. exact L.
Qed.
Lemma toy_ok io salt : sys_ok (toy io salt).
Proof.
  constructor.
  1-4: intros; apply toy_hash_length.
  cbn. intros seed e s H. unfold toy_pair in H. destruct (Nat.eqb (length seed) 32) eqn:L; [|discriminate].
  apply Nat.eqb_eq in L.
  assert (G : forall b, length (x04 :: seed ++ repeat b 32) = 65%nat /\ toy_point (x04 :: seed ++ repeat b 32) = true).
  { intros b. unfold toy_point. cbn [length]. rewrite app_length, repeat_length, L. auto. }
  assert (e = x04 :: seed ++ repeat x00 32 /\ s = x04 :: seed ++ repeat x01 32) as [-> ->] by (split; congruence).
  destruct (G x00), (G x01). auto.
Qed.

(** *** A manifest with a 2-of-3 manifest set and a 2-of-2 share set *)
Definition seed_a : bytes := repeat x0a 32.
Definition seed_b : bytes := repeat x0b 32.
Definition seed_c : bytes := repeat x0c 32.
Definition seed_q : bytes := repeat x51 16 ++ repeat x52 16.
Definition pub_of (seed : bytes) : bytes :=
  match toy_pair seed with Some (e, s) => e ++ s | None => [] end.
Definition alice := QuorumMember (bs "alice") (pub_of seed_a).
Definition bob := QuorumMember (bs "bob") (pub_of seed_b).
Definition carol := QuorumMember (bs "carol") (pub_of seed_c).
Definition pivot : bytes := bs "#!pivot".
Definition mset : member_set := MemberSet 2 [alice; bob; carol].
Definition sset : member_set := MemberSet 2 [alice; bob].
Definition toy_manifest (nonce : N) (pol : restart_policy) : manifest_v2 :=
  ManifestV2 (Namespace (bs "ns") nonce (pub_of seed_q))
    (PivotConfigV2 (toy_hash 32 pivot) pol [BServer 3000 (bs "0.0.0.0")] false [bs "q"] [(bs "A_1", bs "x=y")])
    mset sset ex_nitro None.
Definition mh_of (m : manifest_v2) : bytes := manifest_hash (toy calm 0) (VM2 m).
Definition approve (seed : bytes) (who : quorum_member) (m : manifest_v2) : approval :=
  Approval (toy_sign seed (mh_of m)) who.
Definition toy_env (m : manifest_v2) : versioned_envelope :=
  VE2 (ManifestEnvelopeV2 m [approve seed_c carol m; approve seed_a alice m] []).
Definition tm : manifest_v2 := toy_manifest 7 Always.
Definition te : versioned_envelope := toy_env tm.

Definition no_files : fsys := fun _ => None.
Definition start (io : nat -> fault) (salt : N) : st (toy io salt) :=
  fresh (toy io salt) no_files toy_nsm0 0 0 [].
(** The setup ephemeral seed of the first boot and the shares encrypted to it. *)
Definition setup_seed (salt : N) : bytes := toy_hash 32 (le_enc 8 salt).
Definition live_seed (salt : N) : bytes := toy_hash 32 (le_enc 8 (salt + 1)).
Definition share1 (salt : N) : bytes := setup_seed salt ++ firstn 16 seed_q.
Definition share2 (salt : N) : bytes := setup_seed salt ++ skipn 16 seed_q.
Definition prov1 salt := ProvisionRequest (share1 salt) (approve seed_a alice tm).
Definition prov2 salt := ProvisionRequest (share2 salt) (approve seed_b bob tm).
Definition prov2a salt := ProvisionRequest (share2 salt) (approve seed_a alice tm).

Definition boot_std := BootStandardJsonEnvelopeRequest te pivot.
Definition boot_fwd := BootKeyForwardRequest te pivot.
Definition shape (m : msg) : msg :=
  match m with
  | BootStandardResponse _ => BootStandardResponse RLockPCRs
  | BootKeyForwardResponse _ => BootKeyForwardResponse RLockPCRs
  | m => m end.
Definition full_run := [StatusRequest; boot_std; prov1 0; prov2 0; StatusRequest].
Example toy_run : map shape (fst (serve (toy calm 0) full_run (start calm 0))) =
  [StatusResponse WaitingForBootInstruction; BootStandardResponse RLockPCRs;
   ProvisionResponse false; ProvisionResponse true; StatusResponse QuorumKeyProvisioned].
Proof. vm_compute. reflexivity. Qed.
