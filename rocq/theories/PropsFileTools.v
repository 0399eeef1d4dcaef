(** C73: the operator's file tools: signing, encryption, secret sharing, file modes. *)
From Coq Require Import ZifyBool ZifyN ZifyNat.
From Verif Require Import Base Utf8 Hex HexProofs Borsh Json JsonProofs Types TypesBorsh TypesJson Msg World FsProofs Attest Services SpecProtocol SpecExport ExportProofs
  CliParser Client ClientProofs Gf256 Shamir ShamirProofs PropsShamir Toy ToyClient FileTools.
Local Open Scope N_scope.

(** *** Specification *)
(** The disks a crash (or another process) may see while the calls [l] are made from [d]. *)
Inductive visible : disk -> list call -> disk -> Prop :=
| V_now d l : visible d l d
| V_partial d p c rest b m l : d p = Some (b, m) -> visible d (Write p (c ++ rest) :: l) (put d p (Some (c, m)))
| V_next d c l d' : visible (after d c) l d' -> visible d (c :: l) d'.
(** The file tools, on a disk, and the paths a run of one writes secrets to. *)
Inductive tool :=
| TGenerate (seed secret_path pub_path : bytes)
| TSign (payload_path signature_path seed_path : bytes)
| TEncrypt (rnd plain_path cipher_path pub_path : bytes)
| TDecrypt (plain_path cipher_path seed_path : bytes) (hex : bool)
| TSplit (rnd : list bytes) (secret_path : bytes) (total threshold : N) (dir : bytes)
| TReconstruct (paths : list bytes) (out : bytes).
Definition tool_calls (Y : sys) (um : N) (t : tool) (d : disk) : option (list call) :=
  match t with
  | TGenerate seed sp pp => generate_file_key Y um seed sp pp
  | TSign mp gp sp => p256_sign Y um d mp gp sp
  | TEncrypt rnd mp cp pp => p256_encrypt Y um d rnd mp cp pp
  | TDecrypt mp cp sp hex => p256_decrypt Y d mp cp sp hex
  | TSplit rnd sp n k dir => shamir_split d rnd sp n k dir
  | TReconstruct ps out => shamir_reconstruct d ps out
  end.
Definition secret_output (t : tool) (p : bytes) : Prop :=
  match t with
  | TGenerate _ sp _ => p = sp
  | TSign _ _ _ | TEncrypt _ _ _ _ => False
  | TDecrypt mp _ _ _ => p = mp
  | TSplit _ _ n _ dir => exists i, (1 <= i <= N.to_nat n)%nat /\ p = share_path dir i
  | TReconstruct _ out => p = out
  end.
(** The disk after the tool has run. *)
Definition runs (Y : sys) (um : N) (t : tool) (d d' : disk) : Prop := exists l, tool_calls Y um t d = Some l /\ d' = done d l.

(** *** Disks *)
Lemma put_same d p v : put d p v p = v.
Proof. unfold put. now rewrite (proj2 (bytes_eqb_eq p p) eq_refl). Qed.
Lemma put_other d p v q : p <> q -> put d p v q = d q.
Proof. intros N. unfold put. destruct (bytes_eqb p q) eqn:E; [|reflexivity]. apply bytes_eqb_eq in E. contradiction. Qed.
Definition target (c : call) : bytes := match c with Open p _ | Chmod p _ | Write p _ => p end.
Lemma after_other d c q : target c <> q -> after d c q = d q.
Proof. intros N. destruct c as [p m|p m|p b]; cbn in *; try (now apply put_other); destruct (d p) as [[x y]|]; try reflexivity; now apply put_other. Qed.
Lemma done_app d l l' : done d (l ++ l') = done (done d l) l'.
Proof. apply fold_left_app. Qed.
Lemma done_other l : forall d q, (forall c, In c l -> target c <> q) -> done d l q = d q.
Proof.
  induction l as [|c l IH]; intros d q H; [reflexivity|]. change (done d (c :: l)) with (done (after d c) l).
  rewrite IH by (intros; apply H; now right). apply after_other, H. now left.
Qed.
Lemma secret_done d p c : done d (write_secret p c) p = Some (c, 384).
Proof. unfold done, write_secret. cbn [fold_left after]. now rewrite !put_same. Qed.
Lemma plain_done d um p c : exists m, done d (write_with_msg um p c) p = Some (c, m).
Proof. unfold done, write_with_msg. cbn [fold_left after]. rewrite !put_same. eauto. Qed.
Lemma secret_other d p c q : p <> q -> done d (write_secret p c) q = d q.
Proof. intros N. apply done_other. intros x [<-|[<-|[<-|[]]]]; exact N. Qed.
Lemma plain_other d um p c q : p <> q -> done d (write_with_msg um p c) q = d q.
Proof. intros N. apply done_other. intros x [<-|[<-|[]]]; exact N. Qed.
Lemma contents_eq (d : disk) p c m : d p = Some (c, m) -> contents d p = Some c.
Proof. unfold contents. now intros ->. Qed.

(** *** Modes *)
Definition safe (p : bytes) (d0 d : disk) : Prop := d p = d0 p \/ (exists m, d p = Some ([], m)) \/ exists c, d p = Some (c, 384).
Definition sealed (p : bytes) (d : disk) : Prop := exists c, d p = Some (c, 384).
Definition harmless (c : call) : Prop := match c with Chmod _ m => m = 384 | _ => True end.
Lemma sealed_after p d c : harmless c -> sealed p d -> sealed p (after d c).
Proof.
  intros H (x & E). destruct (bytes_dec (target c) p) as [<-|N]; [|exists x; now rewrite after_other].
  destruct c as [q m|q m|q b]; cbn [target after] in *; rewrite E; unfold sealed; rewrite put_same; eauto. rewrite H. eauto.
Qed.
Lemma sealed_visible p l : forall d d', Forall harmless l -> sealed p d -> visible d l d' -> sealed p d'.
Proof.
  induction l as [|c l IH]; intros d d' H S V.
  - inversion V; subst. exact S.
  - inversion H as [|? ? Hc Hl]; subst. inversion V as [|d1 q c1 rest b m l1 E|d1 c1 l1 d2 V1]; subst.
    + exact S.
    + destruct (bytes_dec q p) as [->|N]; [|destruct S as (x & S); exists x; now rewrite put_other]. destruct S as (x & S). rewrite S in E. injection E as <- <-.
      exists c1. apply put_same.
    + exact (IH _ _ Hl (sealed_after p d c Hc S) V1).
Qed.
Lemma visible_skip p : forall l d d', (forall c, In c l -> target c <> p) -> visible d l d' -> d' p = d p.
Proof.
  induction l as [|c l IH]; intros d d' H V.
  - inversion V; subst. reflexivity.
  - inversion V as [|d1 q c1 rest b m l1 E|d1 c1 l1 d2 V1]; subst; [reflexivity| |].
    + apply put_other. exact (H _ (or_introl eq_refl)).
    + rewrite (IH _ _ (fun x I => H x (or_intror I)) V1). apply after_other, H. now left.
Qed.
Lemma visible_app l1 : forall l2 d d', visible d (l1 ++ l2) d' -> visible d l1 d' \/ visible (done d l1) l2 d'.
Proof.
  induction l1 as [|c l1 IH]; intros l2 d d' V; [now right|]. cbn [app] in V.
  inversion V as [|d1 q c1 rest b m l E|d1 c1 l d2 V1]; subst; [left; constructor|left; econstructor; eassumption|].
  destruct (IH _ _ _ V1) as [W|W]; [left; now constructor|right; exact W].
Qed.
Lemma secret_visible d p c d' : visible d (write_secret p c) d' -> safe p d d'.
Proof.
  intros V. unfold write_secret in V.
  assert (S : forall d1, sealed p d1 -> visible d1 [Write p c] d' -> safe p d d').
  { intros d1 S V1. right; right. apply (sealed_visible p [Write p c] d1 d'); auto. repeat constructor. }
  inversion V as [|d1 q c1 rest b m l E|d1 c1 l d2 V1]; subst; [left; reflexivity|].
  inversion V1 as [|d2 q c2 rest b m l E|d2 c2 l d3 V2]; subst; [right; left; cbn [after]; rewrite put_same; eauto|].
  eapply S; [|exact V2]. cbn [after]. rewrite put_same. exists []. apply put_same.
Qed.
(** Blocks: [l1] does not touch [p], then [p] is written as a secret. *)
Lemma first_secret p d l1 c l2 d' : (forall x, In x l1 -> target x <> p) -> Forall harmless l2 ->
  visible d (l1 ++ write_secret p c ++ l2) d' -> safe p d d'.
Proof.
  intros H1 H2 V. apply visible_app in V as [V|V]; [left; exact (visible_skip p l1 d d' H1 V)|].
  pose proof (done_other l1 d p H1) as E. apply visible_app in V as [V|V].
  - apply secret_visible in V. unfold safe in *. now rewrite E in V.
  - right; right. refine (sealed_visible p l2 (done (done d l1) (write_secret p c)) d' _ _ _); [try exact H2; exists c; apply secret_done|try exact H2; try (exists c; apply secret_done)|exact V].
Qed.
Lemma join_inj dir a b : join dir a = join dir b -> a = b.
Proof.
  unfold join. destruct (rev dir) as [|c r]; [auto|]. destruct (byte_eqb c "/"); intros E; apply app_inv_head in E; [exact E|]. now injection E.
Qed.
Lemma share_path_inj dir i j : share_path dir i = share_path dir j -> i = j.
Proof. unfold share_path. intros E. apply join_inj in E. apply app_inv_tail in E. apply print_N_inj in E. lia. Qed.
Definition share_calls (dir : bytes) (i : nat) (shares : list bytes) : list call :=
  concat (map (fun p => write_secret (share_path dir (fst p)) (snd p)) (combine (seq i (length shares)) shares)).
Lemma share_calls_harmless dir shares : forall i, Forall harmless (share_calls dir i shares).
Proof.
  induction shares as [|s shares IH]; intros i; [constructor|]. unfold share_calls. cbn [length seq combine map concat].
  apply Forall_app. split; [repeat constructor|apply IH].
Qed.
Lemma share_calls_target dir shares : forall i c, In c (share_calls dir i shares) -> exists j, (i <= j < i + length shares)%nat /\ target c = share_path dir j.
Proof.
  induction shares as [|s shares IH]; intros i c I; [destruct I|]. unfold share_calls in I. cbn [length seq combine map concat] in I.
  apply in_app_or in I as [I|I].
  - exists i. split; [cbn [length]; lia|]. destruct I as [<-|[<-|[<-|[]]]]; reflexivity.
  - destruct (IH _ _ I) as (j & L & E). exists j. split; [cbn [length]; lia|exact E].
Qed.
Lemma share_calls_split dir shares : forall i j, (i <= j < i + length shares)%nat -> exists l1 c l2,
  share_calls dir i shares = l1 ++ write_secret (share_path dir j) c ++ l2 /\ (forall x, In x l1 -> target x <> share_path dir j) /\ Forall harmless l2
  /\ nth_error shares (j - i) = Some c /\ (forall x, In x l2 -> target x <> share_path dir j).
Proof.
  induction shares as [|s shares IH]; intros i j L; [cbn in L; lia|]. cbn [length] in L. unfold share_calls. cbn [length seq combine map concat fst snd].
  destruct (Nat.eq_dec i j) as [->|N].
  - exists [], s, (share_calls dir (S j) shares). split; [reflexivity|]. split; [intros x []|]. split; [apply share_calls_harmless|].
    split; [now rewrite Nat.sub_diag|]. intros x I E. destruct (share_calls_target _ _ _ _ I) as (k & Lk & Ek). rewrite Ek in E. apply share_path_inj in E. lia.
  - destruct (IH (S i) j ltac:(lia)) as (l1 & c & l2 & E & A & B & C & D). exists (write_secret (share_path dir i) s ++ l1), c, l2. split; [unfold share_calls in E; now rewrite E, <- app_assoc|].
    split; [|split; [exact B|split; [|exact D]]].
    + intros x I X. apply in_app_or in I as [I|I]; [|exact (A x I X)]. destruct I as [<-|[<-|[<-|[]]]]; cbn [target] in X; apply share_path_inj in X; contradiction.
    + replace (j - i)%nat with (S (j - S i)) by lia. exact C.
Qed.

(** *** Theorems *)
(** Secrets (generated keys, decrypted plaintexts, shares, reconstructed secrets) are
    never on disk in a file others may read: at every moment of a run the output
    file is the old one, or empty, or has mode 0600, even if it existed with other bits. *)
Theorem c73_secrets_are_private : forall Y um t d l p d', tool_calls Y um t d = Some l -> secret_output t p -> visible d l d' ->
  d' p = d p \/ (exists m, d' p = Some ([], m)) \/ exists c, d' p = Some (c, 384).
Proof.
  intros Y um t d l p d' C O V. fold (safe p d d').
  assert (One : forall c, l = write_secret p c -> safe p d d').
  { intros c ->. now apply (first_secret p d [] c [] d'); [intros x []|constructor|rewrite app_nil_r]. }
  destruct t as [seed sp pp|mp gp sp|rnd mp cp pp|mp cp sp hex|rnd sp n k dir|ps out]; cbn [tool_calls secret_output] in *; try contradiction.
  - subst p. unfold generate_file_key in C. destruct (ok_opt (from_master_seed Y seed)) as [k|]; [|discriminate]. cbn [obind] in C.
    assert (E : l = write_secret sp (encode seed) ++ write_with_msg um pp (encode (public_to_bytes k))) by (injection C; auto). rewrite E in V.
    apply (first_secret sp d [] (encode seed) _ d') in V; [exact V|intros x []|repeat constructor].
  - subst p. unfold p256_decrypt in C. destruct (read_pair Y (contents d sp)) as [[sd pk]|]; [|discriminate]. cbn [obind] in C.
    destruct (contents d cp); [|discriminate]. cbn [obind] in C. destruct (ok_opt (s_decrypt Y _ _)) as [m|]; [|discriminate]. cbn [obind] in C.
    eapply One. assert (X : write_secret mp (if hex then encode m else m) = l) by (injection C; auto). symmetry. exact X.
  - destruct O as (i & L & ->). unfold shamir_split in C. destruct (contents d sp) as [s|]; [|discriminate]. cbn [obind] in C.
    destruct (shares_generate rnd s n k) as [shares|] eqn:G; [|discriminate]. cbn [obind] in C.
    destruct (c25_shares_distinct _ _ _ _ _ G) as [Ln _]. rewrite lenN_length in Ln.
    assert (X : l = share_calls dir 1 shares) by (injection C; auto). rewrite X in V.
    destruct (share_calls_split dir shares 1 i ltac:(lia)) as (l1 & c & l2 & E & A & B & _). rewrite E in V. exact (first_secret _ _ _ _ _ _ A B V).
  - subst p. unfold shamir_reconstruct in C. destruct (mapM (contents d) ps); [|discriminate]. cbn [obind] in C. destruct (shares_reconstruct _) as [s|]; [|discriminate]. cbn [obind] in C.
    eapply One. assert (X : write_secret out s = l) by (injection C; auto). symmetry. exact X.
Qed.
Print Assumptions c73_secrets_are_private.

Section Keys.
  Context {Y : sys} (OK : sys_ok Y).
  Lemma trim_text_encode s : trim_text (encode s) = Some (encode s).
  Proof.
    unfold trim_text. rewrite utf8_dec_ascii by apply encode_ascii. cbn [obind].
    replace (map b2n (encode s)) with ([] ++ map b2n (encode s) ++ []) by (cbn; now rewrite app_nil_r).
    rewrite trim_surround; [|reflexivity|reflexivity|apply encode_not_white]. now rewrite utf8_enc_ascii by apply encode_ascii.
  Qed.
  Lemma read_pair_encode seed k : length seed = 32%nat -> s_pair Y seed = Some k -> read_pair Y (Some (encode seed)) = Some (seed, k).
  Proof. intros L P. unfold read_pair. cbn [obind]. rewrite (seed_of_hex_encode seed L). cbn [obind]. unfold from_master_seed. now rewrite P. Qed.
  Lemma read_public_encode seed ek sk : s_pair Y seed = Some (ek, sk) -> public_from_hex_file Y (Some (encode (ek ++ sk))) = Some (ek, sk).
  Proof.
    intros P. destruct (ok_pair Y OK _ _ _ P) as (L1 & L2 & P1 & P2). unfold public_from_hex_file. cbn [obind].
    pose proof (decode_from_vec_encode [] [] (ek ++ sk) eq_refl eq_refl) as D. cbn [app] in D. rewrite app_nil_r in D. rewrite D.
    - cbn [ok_opt obind]. unfold public_from_bytes. rewrite lenN_length, app_length, L1, L2. cbn [Nat.add]. change (130 <? N.of_nat 130) with false. change (N.of_nat 130 <? 130) with false. cbv iota.
      rewrite firstn_app, L1. replace (65 - 65)%nat with 0%nat by lia. rewrite firstn_all2 by lia. cbn [firstn]. rewrite app_nil_r.
      rewrite skipn_app, L1. replace (65 - 65)%nat with 0%nat by lia. rewrite (skipn_all2 ek) by lia. cbn [skipn app]. now rewrite P1, P2.
    - rewrite lenN_length, app_length, L1, L2. unfold STR_MAX_LENGTH. lia.
  Qed.
  (** A key generated by the tool is at these paths. *)
  Definition has_generated (d : disk) (seed sp pp : bytes) : Prop :=
    exists k, s_pair Y seed = Some k /\ contents d sp = Some (encode seed) /\ contents d pp = Some (encode (public_to_bytes k)).
  Lemma generated_files um d seed sp pp d' : sp <> pp -> runs Y um (TGenerate seed sp pp) d d' -> has_generated d' seed sp pp.
  Proof.
    intros N (l & C & ->). cbn [tool_calls] in C. unfold generate_file_key, from_master_seed in C. destruct (s_pair Y seed) as [k|] eqn:P; [|discriminate]. cbn [ok_opt obind] in C.
    assert (E : l = write_secret sp (encode seed) ++ write_with_msg um pp (encode (public_to_bytes k))) by (injection C; auto). rewrite E, done_app.
    exists k. split; [exact P|]. split.
    - unfold contents. rewrite plain_other by congruence. now rewrite secret_done.
    - destruct (plain_done (done d (write_secret sp (encode seed))) um pp (encode (public_to_bytes k))) as (m & X). exact (contents_eq _ _ _ _ X).
  Qed.
End Keys.

(** A file signed with a generated key verifies under its public key file, whatever the
    payload; signing always succeeds. *)
Theorem c73_sign_then_verify : forall Y, sys_ok Y -> crypto_ok Y -> forall um seed sp pp d0 d1 d mp gp payload,
  length seed = 32%nat -> sp <> pp -> runs Y um (TGenerate seed sp pp) d0 d1 ->
  contents d sp = contents d1 sp -> contents d pp = contents d1 pp -> contents d mp = Some payload ->
  gp <> mp -> gp <> pp -> 2 * lenN (s_sign Y seed payload) < 256 * 1024 * 1024 ->
  exists d', runs Y um (TSign mp gp sp) d d' /\ p256_verify Y d' mp gp pp = true.
Proof.
  intros Y OK CR um seed sp pp d0 d1 d mp gp payload L N R E1 E2 M N1 N2 B.
  destruct (generated_files um d0 seed sp pp d1 N R) as ([ek sk] & P & A1 & A2). rewrite A1 in E1. rewrite A2 in E2.
  eexists. split; [eexists; split; [|reflexivity]|].
  - cbn [tool_calls]. unfold p256_sign. rewrite M. cbn [obind]. rewrite E1, (read_pair_encode seed (ek, sk) L P). cbn [obind fst]. reflexivity.
  - unfold p256_verify. set (sg := s_sign Y seed payload) in *.
    assert (C1 : contents (done d (write_with_msg um gp (encode sg))) mp = Some payload) by (unfold contents; rewrite plain_other by exact N1; exact M).
    assert (C2 : contents (done d (write_with_msg um gp (encode sg))) pp = Some (encode (ek ++ sk))) by (unfold contents; rewrite plain_other by exact N2; exact E2).
    destruct (plain_done d um gp (encode sg)) as (m & C3). apply contents_eq in C3. rewrite C1, C2, C3. cbn [obind].
    rewrite (read_public_encode OK seed ek sk P). cbn [obind]. rewrite trim_text_encode. cbn [obind].
    rewrite decode_encode by exact B. cbn [ok_opt obind snd]. unfold sg. now rewrite (cr_verify Y CR seed ek sk payload P).
Qed.
Print Assumptions c73_sign_then_verify.

(** A file encrypted to a generated key decrypts to exactly the plaintext (or its hex text). *)
Theorem c73_encrypt_then_decrypt : forall Y, sys_ok Y -> crypto_ok Y -> forall um seed sp pp d0 d1 d rnd mp cp op hex plain d2,
  length seed = 32%nat -> sp <> pp -> runs Y um (TGenerate seed sp pp) d0 d1 ->
  contents d sp = contents d1 sp -> contents d pp = contents d1 pp -> contents d mp = Some plain ->
  cp <> sp -> runs Y um (TEncrypt rnd mp cp pp) d d2 ->
  exists d3, runs Y um (TDecrypt op cp sp hex) d2 d3 /\ contents d3 op = Some (if hex then encode plain else plain).
Proof.
  intros Y OK CR um seed sp pp d0 d1 d rnd mp cp op hex plain d2 L N R E1 E2 M N1 (l & C & ->).
  destruct (generated_files um d0 seed sp pp d1 N R) as ([ek sk] & P & A1 & A2). rewrite A1 in E1. rewrite A2 in E2.
  cbn [tool_calls] in C. unfold p256_encrypt in C. rewrite E2 in C. change (public_to_bytes (ek, sk)) with (ek ++ sk) in C. rewrite (read_public_encode OK seed ek sk P) in C.
  cbn [obind fst] in C. rewrite M in C. cbn [obind] in C. destruct (s_encrypt Y ek rnd plain) as [c|] eqn:EN; [|discriminate]. cbn [ok_opt obind] in C.
  assert (X : l = write_with_msg um cp c) by (injection C; auto). rewrite X.
  destruct (plain_done d um cp c) as (m & C3). apply contents_eq in C3.
  assert (C4 : contents (done d (write_with_msg um cp c)) sp = Some (encode seed)) by (unfold contents; rewrite plain_other by exact N1; exact E1).
  eexists. split; [eexists; split; [|reflexivity]|].
  - cbn [tool_calls]. unfold p256_decrypt. rewrite C4, (read_pair_encode seed (ek, sk) L P). cbn [obind fst]. rewrite C3. cbn [obind].
    rewrite (cr_decrypt Y CR seed ek sk rnd plain c P EN). cbn [ok_opt obind]. reflexivity.
  - unfold contents. now rewrite secret_done.
Qed.
Print Assumptions c73_encrypt_then_decrypt.

(** Splitting writes one file per share; any choice of at least [k] of them, in any
    order, reconstructs exactly the secret file. *)
Theorem c73_split_then_reconstruct : forall Y um rnd d d1 d2 secret sp n k dir chosen out, contents d sp = Some secret -> drawn_for secret k rnd ->
  runs Y um (TSplit rnd sp n k dir) d d1 ->
  (forall i, In i chosen -> (1 <= i <= N.to_nat n)%nat /\ contents d2 (share_path dir i) = contents d1 (share_path dir i)) ->
  NoDup chosen -> k <= lenN chosen ->
  exists d3, runs Y um (TReconstruct (map (share_path dir) chosen) out) d2 d3 /\ d3 out = Some (secret, 384).
Proof.
  intros Y um rnd d d1 d2 secret sp n k dir chosen out S DR (l & C & ->) CH ND K.
  cbn [tool_calls] in C. unfold shamir_split in C. rewrite S in C. cbn [obind] in C.
  destruct (shares_generate rnd secret n k) as [shares|] eqn:G; [|discriminate]. cbn [obind] in C.
  assert (X : l = share_calls dir 1 shares) by (injection C; auto). rewrite X in CH. clear C X.
  destruct (c25_shares_distinct _ _ _ _ _ G) as [Ln Nd]. rewrite lenN_length in Ln.
  assert (F : forall i, In i chosen -> exists s, contents d2 (share_path dir i) = Some s /\ nth_error shares (i - 1) = Some s).
  { intros i I. destruct (CH i I) as [L E]. destruct (share_calls_split dir shares 1 i ltac:(lia)) as (l1 & c & l2 & Q & A & B & NE & T2). exists c. split; [|exact NE].
    rewrite E, Q, !done_app. unfold contents. rewrite done_other by exact T2. now rewrite secret_done. }
  assert (MM : exists got, mapM (contents d2) (map (share_path dir) chosen) = Some got /\ Forall2 (fun i s => nth_error shares (i - 1) = Some s) chosen got).
  { clear ND K CH. induction chosen as [|i chosen IH]; [exists []; split; [reflexivity|constructor]|]. destruct (F i (or_introl eq_refl)) as (s & E & NE).
    destruct IH as (got & M & F2); [intros j J; apply F; now right|]. exists (s :: got). split; [cbn [map mapM]; now rewrite E; cbn [obind]; rewrite M|now constructor]. }
  destruct MM as (got & M & F2).
  assert (Inc : incl got shares).
  { intros s I. clear - F2 I. induction F2 as [|i s' ch g E F2 IH]; [destruct I|]. destruct I as [<-|I]; [exact (nth_error_In _ _ E)|auto]. }
  assert (NG : NoDup got).
  { assert (P1 : forall i, In i chosen -> (1 <= i)%nat) by (intros i I; apply CH in I; lia). clear - F2 ND Nd P1. induction F2 as [|i s ch g E F2 IH]; [constructor|].
    inversion ND as [|? ? NI ND']; subst. constructor; [|apply IH; [exact ND'|intros j J; apply P1; now right]]. intros I. apply NI.
    assert (exists j, In j ch /\ nth_error shares (j - 1) = Some s) as (j & J & Ej).
    { clear - F2 I. induction F2 as [|j s' ch g Ej F2 IH]; [destruct I|]. destruct I as [->|I]; [exists j; split; [now left|exact Ej]|].
      destruct (IH I) as (j' & J & E'). exists j'. split; [now right|exact E']. }
    assert (i - 1 = j - 1)%nat.
    { apply (proj1 (NoDup_nth_error shares) Nd); [apply nth_error_Some; congruence|congruence]. }
    pose proof (P1 i (or_introl eq_refl)). pose proof (P1 j (or_intror J)). replace i with j by lia. exact J. }
  assert (LG : lenN got = lenN chosen) by (rewrite !lenN_length; f_equal; symmetry; clear - F2; induction F2; cbn; auto).
  pose proof (c25_any_k_shares_reconstruct rnd secret n k shares got DR G Inc NG ltac:(lia)) as RC.
  eexists. split; [eexists; split; [|reflexivity]|].
  - cbn [tool_calls]. unfold shamir_reconstruct. rewrite M. cbn [obind]. rewrite RC. cbn [obind]. reflexivity.
  - apply secret_done.
Qed.
Print Assumptions c73_split_then_reconstruct.

(** Finding: splitting again into the same directory with fewer shares leaves the old
    shares there; reconstructing from an old and a new one succeeds, with a secret that is neither. *)
Definition rnd_old : list bytes := [[x05]; [x07]].
Definition rnd_new : list bytes := [[x11]; [x13]].
Definition disk0 : disk := put (put (fun _ => None) (bs "a") (Some ([xaa; xbb], 384))) (bs "b") (Some ([xcc; xdd], 384)).
Theorem c73_refuted_stale_shares_are_detected : ~ (forall Y um rnd rnd' d d1 d2 d3 sp sp' n n' k dir chosen out secret secret' s,
  contents d sp = Some secret -> contents d sp' = Some secret' -> drawn_for secret k rnd -> drawn_for secret' k rnd' ->
  runs Y um (TSplit rnd sp n k dir) d d1 -> runs Y um (TSplit rnd' sp' n' k dir) d1 d2 ->
  runs Y um (TReconstruct (map (share_path dir) chosen) out) d2 d3 -> contents d3 out = Some s -> s = secret \/ s = secret').
Proof.
  intros H.
  pose (d1 := match tool_calls T 420 (TSplit rnd_old (bs "a") 3 2 (bs "d")) disk0 with Some l => done disk0 l | None => disk0 end).
  pose (d2 := match tool_calls T 420 (TSplit rnd_new (bs "b") 2 2 (bs "d")) d1 with Some l => done d1 l | None => d1 end).
  pose (d3 := match tool_calls T 420 (TReconstruct (map (share_path (bs "d")) [1; 3]%nat) (bs "o")) d2 with Some l => done d2 l | None => d2 end).
  destruct (contents d3 (bs "o")) as [s|] eqn:E.
  2:{ vm_compute in E. discriminate E. }
  assert (X : s = [xaa; xbb] \/ s = [xcc; xdd]).
  { apply (H T 420 rnd_old rnd_new disk0 d1 d2 d3 (bs "a") (bs "b") 3 2 2 (bs "d") [1; 3]%nat (bs "o") [xaa; xbb] [xcc; xdd] s).
    - reflexivity.
    - reflexivity.
    - split; [reflexivity|intros row [<-|[<-|[]]]; reflexivity].
    - split; [reflexivity|intros row [<-|[<-|[]]]; reflexivity].
    - eexists. split; [reflexivity|reflexivity].
    - eexists. split; [reflexivity|reflexivity].
    - eexists. split; [reflexivity|reflexivity].
    - exact E. }
  vm_compute in E. injection E as <-. destruct X; discriminate.
Qed.
Print Assumptions c73_refuted_stale_shares_are_detected.

(** Non-vacuity: a split and a reconstruction with three of five shares over an existing
    world-readable output; keys of the toy system. *)
Definition disk1 : disk := put disk0 (bs "o") (Some (bs "old", 420)).
Example c73_nontrivial :
  (exists d1 d2, runs T 420 (TSplit c25_rnd (bs "a") 5 3 (bs "out/")) disk1 d1 /\ drawn_for [xaa; xbb] 3 c25_rnd
     /\ runs T 420 (TReconstruct (map (share_path (bs "out/")) [5; 2; 4]%nat) (bs "o")) d1 d2 /\ d2 (bs "o") = Some ([xaa; xbb], 384)
     /\ share_path (bs "out/") 5 = bs "out/5.share")
  /\ exists d, runs T 420 (TGenerate (repeat x01 32) (bs "k.secret") (bs "k.pub")) disk0 d.
Proof.
  split.
  - pose (d1 := match tool_calls T 420 (TSplit c25_rnd (bs "a") 5 3 (bs "out/")) disk1 with Some l => done disk1 l | None => disk1 end).
    exists d1, (match tool_calls T 420 (TReconstruct (map (share_path (bs "out/")) [5; 2; 4]%nat) (bs "o")) d1 with Some l => done d1 l | None => d1 end).
    split; [eexists; split; reflexivity|]. split; [split; [reflexivity|intros row [<-|[<-|[]]]; reflexivity]|]. split; [eexists; split; reflexivity|]. split; vm_compute; reflexivity.
  - eexists. eexists. split; reflexivity.
Qed.
