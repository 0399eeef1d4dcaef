(** The decoders of manifests and envelopes read exactly what SpecMeaning.v says. *)
From Verif Require Import Base Utf8 Hex HexProofs Json NormProofs Types Env EnvProofs EnvReach TypesJson TypesJsonLaws SpecEnv SpecCanon PropsNumbers SpecMeaning.
From Verif Require ReorderProofs IpProofs.
From Verif Require Import CodecExamples.
From Coq Require Import Sorted.
Require Import ZifyBool ZifyN ZifyNat.
Local Open Scope N_scope.

Class Means {A} (c : jcodec A) (k : nat) (P : nat -> json -> A -> Prop) :=
  means : forall d j a, (k <= d)%nat -> (jdec c d j = Some a <-> P d j a).

Lemma obind_inv {A B} (o : option A) (f : A -> option B) y : obind o f = Some y -> exists x, o = Some x /\ f x = Some y.
Proof. destruct o; [eauto|discriminate]. Qed.
Lemma obind_mk {A B} (o : option A) (f : A -> option B) x y : o = Some x -> f x = Some y -> obind o f = Some y.
Proof. now intros ->. Qed.
Lemma means_fwd {A} (c : jcodec A) k P {M : Means c k P} d j a : (k <= d)%nat -> jdec c d j = Some a -> P d j a.
Proof. intros L. now apply M. Qed.
Lemma means_back {A} (c : jcodec A) k P {M : Means c k P} d j a : (k <= d)%nat -> P d j a -> jdec c d j = Some a.
Proof. intros L. now apply M. Qed.
Lemma req_fwd {A} (c : jcodec A) k P {M : Means c k P} d o a : (k <= pred d)%nat -> req c d o = Some a -> exists j, o = Some j /\ P (pred d) j a.
Proof. intros L. destruct o as [j|]; [|discriminate]. cbn [req]. intros E. exists j. split; [reflexivity|now apply M]. Qed.
Lemma req_back {A} (c : jcodec A) k P {M : Means c k P} d j a : (k <= pred d)%nat -> P (pred d) j a -> req c d (Some j) = Some a.
Proof. intros L H. cbn [req]. now apply M. Qed.

(** ** Members *)
Lemma okey_some k o : okey_eqb k o = true <-> o = Some k.
Proof. destruct o as [x|]; cbn [okey_eqb]; [|split; discriminate]. rewrite bytes_eqb_eq. split; [now intros ->|now intros [= ->]]. Qed.
Lemma count_in {A} k (m : list (option bytes * A)) x : In (Some k, x) m -> (1 <= count_key k m)%nat.
Proof.
  induction m as [|[o v] m IH]; [intros []|]. unfold count_key in *. cbn [filter fst]. intros [E|H].
  - injection E as -> ->. rewrite (proj2 (okey_some k (Some k)) eq_refl). cbn [length]. lia.
  - destruct (okey_eqb k o); cbn [length]; [|auto]. specialize (IH H). lia.
Qed.
Lemma count_out {A} k (m : list (option bytes * A)) : (1 <= count_key k m)%nat -> exists m1 x m2, m = m1 ++ (Some k, x) :: m2 /\ count_key k m = S (count_key k m2).
Proof.
  induction m as [|[o v] m IH]; unfold count_key in *; cbn [filter fst length]; [lia|].
  destruct (okey_eqb k o) eqn:E; cbn [length].
  - intros _. apply okey_some in E as ->. exists [], v, m. auto.
  - intros H. destruct (IH H) as (m1 & x & m2 & -> & C). exists ((o, v) :: m1), x, m2. auto.
Qed.
Lemma count_app {A} k (m1 m2 : list (option bytes * A)) : count_key k (m1 ++ m2) = (count_key k m1 + count_key k m2)%nat.
Proof. unfold count_key. now rewrite filter_app, app_length. Qed.
Lemma count_once m n : (count_key n m <= 1)%nat <-> once m n.
Proof.
  split.
  - intros H m1 x m2 y m3 ->. rewrite count_app in H.
    assert (C : forall (z : json) l, count_key n ((Some n, z) :: l) = S (count_key n l)).
    { intros z l. unfold count_key. cbn [filter fst]. now rewrite (proj2 (okey_some n (Some n)) eq_refl). }
    rewrite C, count_app, C in H. lia.
  - intros H. destruct (Nat.le_gt_cases (count_key n m) 1) as [L|G]; [exact L|]. exfalso.
    destruct (count_out n m) as (m1 & x & m2 & E & C); [lia|]. destruct (count_out n m2) as (m3 & y & m4 & E2 & C2); [lia|].
    subst m2. exact (H _ _ _ _ _ E).
Qed.
Lemma find_last_member m n v : once m n -> (find_last n m = v <-> member m n v).
Proof.
  intros U. assert (K : forall x, find_last n m = Some x <-> In (Some n, x) m).
  { revert U. induction m as [|[o y] m IH]; intros U x; cbn [find_last In]; [split; [discriminate|intros []]|].
    assert (U' : once m n). { intros m1 a m2 b m3 E. apply (U ((o, y) :: m1) a m2 b m3). now rewrite E. }
    specialize (IH U'). destruct (find_last n m) as [z|] eqn:F.
    - split; [intros [= <-]; right; now apply IH|]. intros [E|H]; [|now apply IH]. exfalso. injection E as -> ->.
      assert (I : In (Some n, z) m) by now apply IH. apply in_split in I as (l1 & l2 & ->). exact (U [] x l1 z l2 eq_refl).
    - destruct (okey_eqb n o) eqn:E.
      + apply okey_some in E as ->. split; [intros [= <-]; now left|]. intros [[= <-]|H]; [reflexivity|]. apply IH in H. discriminate.
      + split; [discriminate|]. intros [[= -> ->]|H]; [|now apply IH in H]. rewrite (proj2 (okey_some n (Some n)) eq_refl) in E. discriminate. }
  destruct v as [x|]; cbn [member]; [apply K|]. split.
  - intros E x I. apply K in I. congruence.
  - intros H. destruct (find_last n m) as [x|]; [|reflexivity]. exfalso. apply (H x). now apply K.
Qed.
Lemma dec_struct_fields names closed d j vs : (2 <= d)%nat -> (dec_struct names closed d j = Some vs <-> fields names closed j vs).
Proof.
  intros L. unfold dec_struct, fields. destruct d as [|[|d]]; [lia|lia|]. destruct j as [| | | | |l|m];
    try (split; [discriminate|intros [(m & E & _)|(l & t & E & _)]; discriminate]).
  - split.
    + destruct (Nat.leb_spec (length l) (length names)); [|discriminate]. intros [= <-]. right. exists l, (repeat None (length names - length l)).
      repeat split; [apply Forall_forall; intros x I; now apply repeat_spec in I|]. rewrite app_length, map_length, repeat_length. lia.
    + intros [(m & E & _)|(l' & t & E & -> & N & C)]; [discriminate|]. injection E as <-. rewrite app_length, map_length in C.
      destruct (Nat.leb_spec (length l) (length names)) as [_|]; [|lia]. do 2 f_equal. replace (length names - length l)%nat with (length t) by lia.
      clear - N. induction N as [|x t -> _ IH]; [reflexivity|]. cbn [length repeat]. now rewrite IH.
  - split.
    + destruct (forallb _ m) eqn:K; [|discriminate]. destruct (forallb _ names) eqn:O; [|discriminate]. cbn [andb].
      destruct (negb closed || _) eqn:C; [|discriminate]. intros [= <-]. left. exists m. split; [reflexivity|]. rewrite forallb_forall in K, O.
      split; [|split; [|split]].
      * intros v I. now specialize (K _ I).
      * apply Forall_forall. intros n I. apply count_once. specialize (O n I). lia.
      * intros -> k v I. cbn [negb orb] in C. rewrite forallb_forall in C. specialize (C _ I). cbn [fst okey_in] in C.
        apply existsb_exists in C as (x & I' & E). apply bytes_eqb_eq in E as ->. exact I'.
      * assert (O' : forall n, In n names -> once m n). { intros n I. apply count_once. specialize (O n I). lia. }
        clear - O'. induction names as [|n names IH]; constructor; [apply find_last_member; [apply O'; now left|reflexivity]|apply IH; intros k I; apply O'; now right].
    + intros [(m' & E & K & O & C & F)|(l' & t & E & _)]; [|discriminate]. injection E as <-.
      assert (E1 : forallb (fun p : option bytes * json => is_some (fst p)) m = true).
      { apply forallb_forall. intros [[k|] v] I; [reflexivity|]. now apply K in I. }
      assert (E2 : forallb (fun n => (count_key n m <=? 1)%nat) names = true).
      { apply forallb_forall. intros n I. rewrite Forall_forall in O. specialize (O n I). apply count_once in O. lia. }
      assert (E3 : negb closed || forallb (fun p : option bytes * json => okey_in names (fst p)) m = true).
      { destruct closed; [|reflexivity]. cbn [negb orb]. apply forallb_forall. intros [[k|] v] I; [|now apply K in I].
        cbn [fst okey_in]. apply existsb_exists. exists k. split; [exact (C eq_refl _ _ I)|now apply bytes_eqb_eq]. }
      rewrite E1, E2, E3. cbn [andb]. f_equal. clear - O F. induction F as [|n v names vs M _ IH]; [reflexivity|]. inversion O; subst. cbn [map].
      rewrite IH by assumption. f_equal. now apply find_last_member.
Qed.

(** ** Values *)
#[global] Instance means_string : Means js_string 0 (fun _ => says_text).
Proof.
  intros d j a _. unfold says_text. cbn [js_string jdec]. destruct j as [| | | |[s|]| |]; try (split; discriminate).
  split; [now intros [= ->]|now intros [= ->]].
Qed.
Lemma spelled_iff s b : decode s = Ok b <-> hex_spelled s b.
Proof. exact (PropsHex.c33_hex_decode_language s b). Qed.
#[global] Instance means_hex : Means js_hex 0 (fun _ => says_hex).
Proof.
  intros d j a _. unfold says_hex, says_text. cbn [js_hex jdec]. destruct j as [| | | |[s|]| |]; try (split; [discriminate|intros (? & E & _); discriminate]).
  split.
  - intros E. exists s. split; [reflexivity|]. apply spelled_iff. destruct (decode s) as [x|]; [cbn [ok_opt] in E; now injection E as ->|discriminate].
  - intros (s' & E & H). injection E as <-. apply spelled_iff in H. now rewrite H.
Qed.
Lemma decode_length_32 s b : decode_to_buf s 32 = Ok b <-> decode s = Ok b /\ length b = 32%nat.
Proof.
  destruct (N.lt_ge_cases (lenN (strip_0x s)) STR_MAX_LENGTH) as [L|G].
  - rewrite (decode_to_buf_decode s 32 L), lenN_length. split; intros (A & B); (split; [exact A|]).
    + apply Nat2N.inj. exact B.
    + rewrite B. reflexivity.
  - split.
    + intros E. exfalso. unfold decode_to_buf in E. destruct s as [|x [|y s]]; [discriminate|discriminate|]. cbv zeta in E.
      destruct (negb (N.even _)); [discriminate|]. unfold STR_MAX_LENGTH in G.
      destruct (negb (_ =? 32)) eqn:Q; [discriminate|]. apply negb_false_iff, N.eqb_eq in Q. 
      assert (256 * 1024 * 1024 / 2 <= lenN (strip_0x (x :: y :: s)) / 2) by (apply N.div_le_mono; [lia|exact G]).
      change (256 * 1024 * 1024 / 2) with 134217728 in H. lia.
    + intros (E & _). exfalso. unfold decode in E. destruct s as [|x [|y s]]; [cbn in G; unfold STR_MAX_LENGTH in G; lia|discriminate|]. cbv zeta in E.
      destruct (N.ltb_spec (lenN (strip_0x (x :: y :: s))) STR_MAX_LENGTH); [lia|]. destruct (N.even _); discriminate.
Qed.
#[global] Instance means_hash : Means (js_hex_n 32) 0 (fun _ => says_hash).
Proof.
  intros d j a _. unfold says_hash, says_hex, says_text. cbn [js_hex_n jdec]. destruct j as [| | | |[s|]| |]; try (split; [discriminate|intros ((? & E & _) & _); discriminate]).
  split.
  - intros E. destruct (decode_to_buf s 32) as [x|] eqn:D; [cbn [ok_opt] in E; injection E as ->|discriminate]. apply decode_length_32 in D as (D & K). apply spelled_iff in D. split; [eauto|exact K].
  - intros ((s' & E & H) & K). injection E as <-. apply spelled_iff in H. now rewrite (proj2 (decode_length_32 s a) (conj H K)).
Qed.
#[global] Instance means_u16 : Means js_u16 0 (fun _ => says_number 65536).
Proof. intros d j a _. apply c94_numbers_exactly. Qed.
#[global] Instance means_u32 : Means js_u32 0 (fun _ => says_number 4294967296).
Proof. intros d j a _. apply c94_numbers_exactly. Qed.
#[global] Instance means_bool : Means js_bool 0 (fun _ => says_bool).
Proof. intros d j a _. unfold says_bool. cbn [js_bool jdec]. destruct j; try (split; discriminate). split; [now intros [= ->]|now intros [= ->]]. Qed.
#[global] Instance means_ip : Means js_ip 0 (fun _ => says_address).
Proof.
  intros d j a _. unfold says_address, says_text. cbn [js_ip jdec]. destruct j as [| | | |[s|]| |]; try (split; [discriminate|intros (? & E & _); discriminate]).
  split; [intros H; exists s; split; [reflexivity|now apply IpProofs.parse_ip_addr_iff]|]. intros (s' & E & H). apply IpProofs.parse_ip_addr_iff. now injection E as <-.
Qed.
Lemma enum_text_variant d j s : (2 <= d)%nat -> (enum_text j d = Some s <-> says_variant j s).
Proof.
  intros L. unfold says_variant, says_text. destruct j as [| | | |[x|]| |[|[[k|] []] [|]]]; cbn [enum_text];
    try (split; [discriminate|intros [E|E]; discriminate]).
  - split; [intros [= ->]; now left|intros [[= ->]|E]; [reflexivity|discriminate]].
  - destruct d as [|[|d]]; [lia|lia|]. split; [intros [= ->]; now right|intros [E|[= ->]]; [discriminate|reflexivity]].
Qed.
Lemma variant_fun j s s' : says_variant j s -> says_variant j s' -> s = s'.
Proof. intros [->| ->] [E|E]; try discriminate; now injection E. Qed.
#[global] Instance means_restart : Means js_restart 2 (fun _ => says_restart).
Proof.
  intros d j r L. unfold says_restart. cbn [js_restart jdec]. split.
  - destruct (enum_text j d) as [s|] eqn:E; [|discriminate]. apply enum_text_variant in E; [|exact L].
    destruct (bytes_eqb s (bs "Never")) eqn:N; [intros [= <-]; apply bytes_eqb_eq in N as ->; exact E|].
    destruct (bytes_eqb s (bs "Always")) eqn:N'; [intros [= <-]; apply bytes_eqb_eq in N' as ->; exact E|discriminate].
  - intros H. apply (enum_text_variant d) in H; [|exact L]. rewrite H. destruct r; reflexivity.
Qed.
#[global] Instance means_vec {A} (c : jcodec A) k P (M : Means c k P) : Means (js_vec c) (Nat.max 2 (S k)) (fun d => says_list (P (pred d))).
Proof.
  intros d j l L. cbn [js_vec jdec]. destruct d as [|[|d]]; [lia|lia|]. cbn [pred]. unfold says_list. destruct j as [| | | | |js|];
    try (split; [discriminate|intros (? & E & _); discriminate]).
  split.
  - intros E. apply oseq_inv in E. exists js. split; [reflexivity|]. revert l E. induction js as [|x js IH]; intros [|a l] E; cbn [map] in E; try discriminate; constructor.
    + apply M; [lia|]. now injection E.
    + apply IH. now injection E.
  - intros (js' & E & F). injection E as <-. induction F as [|x a js l H _ IH]; [reflexivity|]. cbn [map oseq].
    apply M in H; [|lia]. rewrite H. cbn [obind]. rewrite IH. reflexivity.
Qed.

(** ** Structs *)
Ltac fwd_fields H :=
  repeat (let R := fresh "R" in apply obind_inv in H as (? & R & H);
          try (eapply req_fwd in R; [|typeclasses eauto|cbn; lia]; destruct R as (? & -> & R); cbv beta in R)).
Ltac take_fields d j :=
  match goal with |- match dec_struct ?n ?c d j with _ => _ end = _ -> _ =>
    let E := fresh "E" in let vs := fresh "vs" in
    destruct (dec_struct n c d j) as [vs|] eqn:E; [|discriminate];
    apply dec_struct_fields in E; [|lia];
    repeat (destruct vs as [|? vs]; try discriminate);
    let H := fresh "H" in intros H; fwd_fields H; injection H as <-
  end.
Ltac back_fields :=
  repeat (eapply obind_mk; [eapply req_back; [typeclasses eauto|cbn; lia|cbv beta; cbn [pred]; eassumption]|cbv beta]).
Ltac give_fields d F := apply (proj2 (dec_struct_fields _ _ d _ _ ltac:(lia))) in F; rewrite F; back_fields.

#[global] Instance means_member : Means js_member 2 (fun _ => says_member).
Proof.
  intros d j a L. cbn [js_member jdec]. split.
  - take_fields d j. red. eauto 10.
  - intros (x & y & F & H1 & H2). give_fields d F. now destruct a.
Qed.
#[global] Instance means_set : Means js_member_set 4 (fun _ => says_set).
Proof.
  intros d j a L. cbn [js_member_set jdec]. split.
  - take_fields d j. red. eauto 10.
  - intros (x & y & F & H1 & H2). give_fields d F. now destruct a.
Qed.
#[global] Instance means_pub_key : Means js_member_pub_key 2 (fun _ => says_pub_key).
Proof.
  intros d j a L. cbn [js_member_pub_key jdec]. split.
  - destruct (dec_struct _ _ d j) as [vs|] eqn:E; [|discriminate]. apply dec_struct_fields in E; [|lia]. destruct vs as [|x [|]]; try discriminate.
    intros R. eapply req_fwd in R; [|typeclasses eauto|cbn; lia]. destruct R as (y & -> & R). red. eauto.
  - intros (x & F & H). apply (proj2 (dec_struct_fields _ _ d _ _ ltac:(lia))) in F. rewrite F. eapply req_back; [typeclasses eauto|lia|exact H].
Qed.
#[global] Instance means_patch_set : Means js_patch_set 4 (fun _ => says_patch_set).
Proof.
  intros d j a L. cbn [js_patch_set jdec]. split.
  - take_fields d j. red. eauto 10.
  - intros (x & y & F & H1 & H2). give_fields d F. now destruct a.
Qed.
#[global] Instance means_namespace : Means js_namespace 2 (fun _ => says_namespace).
Proof.
  intros d j a L. cbn [js_namespace jdec]. split.
  - take_fields d j. red. eauto 10.
  - intros (x & y & z & F & H1 & H2 & H3). give_fields d F. now destruct a.
Qed.
#[global] Instance means_nitro : Means js_nitro 2 (fun _ => says_enclave).
Proof.
  intros d j a L. cbn [js_nitro jdec]. split.
  - take_fields d j. red. do 6 eexists. split; [eassumption|]. cbn. auto 10.
  - intros (x & y & z & u & v & w & F & H1 & H2 & H3 & H4 & H5 & H6). give_fields d F. now destruct a.
Qed.
#[global] Instance means_approval : Means js_approval 3 (fun _ => says_approval).
Proof.
  intros d j a L. cbn [js_approval jdec]. split.
  - take_fields d j. red. eauto 10.
  - intros (x & y & F & H1 & H2). give_fields d F. now destruct a.
Qed.
#[global] Instance means_dns : Means js_dns 3 (fun _ => says_dns).
Proof.
  intros d j a L. cbn [js_dns jdec]. split.
  - take_fields d j. red. eauto 10.
  - intros (x & F & H1). give_fields d F. now destruct a.
Qed.
#[global] Instance means_pivot_v0 : Means js_pivot_v0 4 (fun _ => says_pivot_v0).
Proof.
  intros d j a L. cbn [js_pivot_v0 jdec]. split.
  - take_fields d j. red. eauto 10.
  - intros (x & y & z & F & H1 & H2 & H3). give_fields d F. now destruct a.
Qed.
#[global] Instance means_manifest_v0 : Means js_manifest_v0 5 (fun _ => says_manifest_v0).
Proof.
  intros d j a L. cbn [js_manifest_v0 jdec]. split.
  - take_fields d j. red. do 6 eexists. split; [eassumption|]. cbn. auto 10.
  - intros (x & y & z & u & v & w & F & H1 & H2 & H3 & H4 & H5 & H6). give_fields d F. now destruct a.
Qed.
#[global] Instance means_envelope_v0 : Means js_envelope_v0 6 (fun _ => says_envelope_v0).
Proof.
  intros d j a L. cbn [js_envelope_v0 jdec]. split.
  - take_fields d j. red. eauto 10.
  - intros (x & y & z & F & H1 & H2 & H3). give_fields d F. now destruct a.
Qed.

(** ** Bridges *)
Definition BN := [bs "type"; bs "port"; bs "host"].
(** the tag, and the rest as the decoder takes them apart *)
Lemma bridge_split d j tag p h : (2 <= d)%nat -> strict d j = true ->
  (fields BN false j [Some (str tag); p; h] <->
   match j with
   | JObj m => count_key K_type m = 1%nat /\ find_last K_type m = Some (str tag)
       /\ dec_struct [K_port; K_host] false 2 (JObj (filter (fun q => negb (okey_eqb K_type (fst q))) m)) = Some [p; h]
   | JArr (x :: l) => x = str tag /\ dec_struct [K_port; K_host] false 2 (JArr l) = Some [p; h]
   | _ => False
   end).
Proof.
  intros L S. destruct j as [| | | | |l|m];
    try (split; [intros [(m & E & _)|(l & t & E & _)]; discriminate|intros []]).
  - rewrite <- (dec_struct_fields BN false d (JArr l) _ L). destruct d as [|[|d]]; [lia|lia|]. destruct l as [|x l]; [split; [discriminate|intros []]|].
    unfold dec_struct. cbn [length BN Nat.leb]. destruct (Nat.leb_spec (length l) 2) as [K|K].
    + cbn [map app Nat.sub]. split.
      * intros E. injection E as -> E. split; [reflexivity|]. now rewrite E.
      * intros (-> & E). injection E as E. now rewrite E.
    + split; [discriminate|]. intros (_ & E). discriminate.
  - split.
    + intros F. apply (proj2 (dec_struct_fields BN false d (JObj m) _ L)) in F. destruct d as [|[|d]]; [lia|lia|].
      cbn [dec_struct] in F. destruct (_ && _ && _) eqn:C in F; [|discriminate]. apply andb_true_iff in C as [C _]. apply andb_true_iff in C as [C1 C2].
      rewrite forallb_forall in C2. cbn [map BN] in F.
      assert (FT : find_last K_type m = Some (str tag)) by exact (f_equal (fun o => match o with Some (x :: _) => x | _ => None end) F).
      assert (FP : find_last K_port m = p) by exact (f_equal (fun o => match o with Some [_; x; _] => x | _ => p end) F).
      assert (FH : find_last K_host m = h) by exact (f_equal (fun o => match o with Some [_; _; x] => x | _ => h end) F).
      assert (CT : (count_key K_type m <= 1)%nat) by (apply Nat.leb_le, C2; now left).
      assert (CP : (count_key K_port m <= 1)%nat) by (apply Nat.leb_le, C2; now right; left).
      assert (CH : (count_key K_host m <= 1)%nat) by (apply Nat.leb_le, C2; now right; right; left).
      assert (UT : once m K_type) by now apply count_once.
      split; [|split; [exact FT|]].
      * apply (find_last_member m K_type _ UT) in FT. cbn [member] in FT. apply count_in in FT. lia.
      * apply dec_struct_fields; [lia|]. left. eexists. split; [reflexivity|].
        assert (IF : forall n x, n <> K_type -> In (Some n, x) (filter (fun q => negb (okey_eqb K_type (fst q))) m) <-> In (Some n, x) m).
        { intros n x NE. rewrite filter_In. split; [now intros []|]. intros I. split; [exact I|]. cbn [fst]. apply negb_true_iff.
          destruct (okey_eqb K_type (Some n)) eqn:Q; [|reflexivity]. apply okey_some in Q. congruence. }
        assert (CF : forall n, (count_key n (filter (fun q => negb (okey_eqb K_type (fst q))) m) <= count_key n m)%nat).
        { intros n. clear. induction m as [|[o x] m IH]; [reflexivity|]. cbn [filter fst]. unfold count_key in *.
          destruct (okey_eqb K_type o); cbn [negb filter fst]; destruct (okey_eqb n o); cbn [length]; lia. }
        assert (MF : forall n v, n <> K_type -> member m n v -> member (filter (fun q => negb (okey_eqb K_type (fst q))) m) n v).
        { intros n [x|] NE; cbn [member]; [apply IF; exact NE|]. intros H x I. apply (H x). now apply (IF n x NE). }
        split; [|split; [|split]].
        -- intros v I. apply filter_In in I as (I & _). rewrite forallb_forall in C1. now specialize (C1 _ I).
        -- constructor; [|constructor; [|constructor]]; apply count_once; [specialize (CF K_port)|specialize (CF K_host)]; lia.
        -- discriminate.
        -- constructor; [|constructor; [|constructor]]; (apply MF; [discriminate|]); apply find_last_member; try (apply count_once); assumption.
    + intros (C & FT & F). apply dec_struct_fields in F; [|lia]. destruct F as [(m' & E & K & O & _ & F)|(l & t & E & _)]; [|discriminate]. injection E as <-.
      set (g := fun q : option bytes * json => negb (okey_eqb K_type (fst q))) in *.
      assert (CE : forall n, n <> K_type -> count_key n (filter g m) = count_key n m).
      { intros n NE. clear - NE. induction m as [|[o x] m IH]; [reflexivity|]. cbn [filter]. unfold g at 1. cbn [fst]. unfold count_key in *.
        destruct (okey_eqb K_type o) eqn:Q; cbn [negb filter fst].
        - apply okey_some in Q as ->. destruct (okey_eqb n (Some K_type)) eqn:Q; [apply okey_some in Q; congruence|]. exact IH.
        - destruct (okey_eqb n o); cbn [length]; [now f_equal|exact IH]. }
      assert (IF : forall n x, n <> K_type -> In (Some n, x) (filter g m) <-> In (Some n, x) m).
      { intros n x NE. rewrite filter_In. split; [now intros []|]. intros I. split; [exact I|]. unfold g. cbn [fst]. apply negb_true_iff.
        destruct (okey_eqb K_type (Some n)) eqn:Q; [|reflexivity]. apply okey_some in Q. congruence. }
      assert (MF : forall n v, n <> K_type -> member (filter g m) n v -> member m n v).
      { intros n [x|] NE; cbn [member]; [apply IF; exact NE|]. intros H x I. apply (H x). now apply (IF n x NE). }
      left. exists m. split; [reflexivity|]. inversion O as [|? ? O1 O2]; subst. inversion O2 as [|? ? O3 _]; subst.
      inversion F as [|? ? ? ? F1 F2]; subst. inversion F2 as [|? ? ? ? F3 _]; subst.
      assert (U : once m K_type) by (apply count_once; lia).
      split; [|split; [|split]].
      * intros v I. apply (K v). apply filter_In. split; [exact I|reflexivity].
      * constructor; [exact U|constructor; [|constructor; [|constructor]]]; apply count_once.
        -- rewrite <- (CE (bs "port")) by discriminate. now apply count_once.
        -- rewrite <- (CE (bs "host")) by discriminate. now apply count_once.
      * discriminate.
      * constructor; [|constructor; [|constructor; [|constructor]]].
        -- apply find_last_member; [exact U|exact FT].
        -- apply MF; [discriminate|exact F1].
        -- apply MF; [discriminate|exact F3].
Qed.
(** what the two kinds of bridge take from their fields *)
Lemma bridge_fields_means tag p h b :
  dec_bridge_fields tag (Some [p; h]) = Some b <->
  exists q, p = Some q /\
  match b with
  | BServer port host => tag = bs "server" /\ says_number 65536 q port /\ exists x, h = Some x /\ says_text x host
  | BClient port host => tag = bs "client" /\ says_number 65536 q port
      /\ match host with Some s => exists x, h = Some x /\ says_text x s | None => h = None \/ h = Some JNull end
  end.
Proof.
  cbn [dec_bridge_fields]. split.
  - intros H. apply obind_inv in H as (port & R & H). eapply req_fwd in R; [|typeclasses eauto|lia]. destruct R as (q & -> & R). exists q. split; [reflexivity|].
    destruct (bytes_eqb tag (bs "server")) eqn:T.
    + apply obind_inv in H as (host & R' & H). injection H as <-. eapply req_fwd in R'; [|typeclasses eauto|lia]. destruct R' as (x & -> & R').
      apply bytes_eqb_eq in T. eauto.
    + destruct (bytes_eqb tag (bs "client")) eqn:T'; [|discriminate]. apply bytes_eqb_eq in T'.
      destruct h as [x|]; [|injection H as <-; auto].
      destruct (match x with JNull => true | _ => false end) eqn:X; [destruct x; try discriminate; injection H as <-; auto|].
      assert (H' : (let? host := jdec js_string 0 x in Some (BClient port (Some host))) = Some b) by (destruct x; [discriminate|exact H..]).
      apply obind_inv in H' as (host & R' & H'). injection H' as <-. eapply means_fwd in R'; [|typeclasses eauto|lia]. eauto.
  - intros (q & -> & H). destruct b as [port host|port host].
    + destruct H as (-> & H & x & -> & HX). eapply obind_mk; [eapply req_back; [typeclasses eauto|lia|exact H]|]. cbv beta.
      rewrite (proj2 (bytes_eqb_eq (bs "server") (bs "server")) eq_refl). eapply obind_mk; [eapply req_back; [typeclasses eauto|lia|exact HX]|]. reflexivity.
    + destruct H as (-> & H & HX). eapply obind_mk; [eapply req_back; [typeclasses eauto|lia|exact H]|]. cbv beta.
      change (bytes_eqb (bs "client") (bs "server")) with false. change (bytes_eqb (bs "client") (bs "client")) with true. cbv iota.
      destruct host as [s|].
      * destruct HX as (x & -> & HX). assert (E : jdec js_string 0 x = Some s) by (eapply means_back; [typeclasses eauto|lia|exact HX]).
        unfold says_text in HX. subst x. cbv iota. rewrite E. reflexivity.
      * destruct HX as [-> | ->]; reflexivity.
Qed.
Lemma fields_two p h vs : dec_struct [K_port; K_host] false 2 p = Some vs -> h = Some vs -> exists a b, vs = [a; b].
Proof.
  intros E _. apply dec_struct_fields in E; [|lia]. destruct E as [(m & _ & _ & _ & _ & F)|(l & t & _ & -> & _ & C)].
  - inversion F as [|? a ? ? _ F2]; subst. inversion F2 as [|? b ? ? _ F3]; subst. inversion F3. eauto.
  - destruct (map Some l ++ t) as [|a [|b [|]]]; try discriminate. eauto.
Qed.
#[global] Instance means_bridge : Means js_bridge 2 (fun d => says_bridge d).
Proof.
  intros d j b L. unfold says_bridge. cbn [js_bridge jdec]. destruct (strict d j) eqn:S; [|split; [discriminate|now intros []]].
  assert (K : (exists tag p h, fields BN false j [Some (str tag); p; h] /\ dec_bridge_fields tag (Some [p; h]) = Some b)
    <-> match b with
        | BServer port host => exists p h, fields BN false j [Some (str (bs "server")); Some p; Some h] /\ says_number 65536 p port /\ says_text h host
        | BClient port host => exists p h, fields BN false j [Some (str (bs "client")); Some p; h] /\ says_number 65536 p port
            /\ match host with Some s => exists x, h = Some x /\ says_text x s | None => h = None \/ h = Some JNull end
        end).
  { split.
    - intros (tag & p & h & F & D). apply bridge_fields_means in D as (q & -> & D). destruct b as [port host|port host].
      + destruct D as (-> & H & x & -> & HX). eauto.
      + destruct D as (-> & H & HX). eauto.
    - destruct b as [port host|port host].
      + intros (p & h & F & H & HX). exists (bs "server"), (Some p), (Some h). split; [exact F|]. apply bridge_fields_means. eauto 10.
      + intros (p & h & F & H & HX). exists (bs "client"), (Some p), h. split; [exact F|]. apply bridge_fields_means. eauto 10. }
  assert (K2 : (match j with
              | JObj m =>
                if (count_key K_type m =? 1)%nat then
                  match find_last K_type m with
                  | Some (JStr (Some tag)) =>
                    dec_bridge_fields tag
                      (dec_struct [K_port; K_host] false 2
                         (JObj (filter (fun p => negb (okey_eqb K_type (fst p))) m)))
                  | _ => None
                  end
                else None
              | JArr (JStr (Some tag) :: l) => dec_bridge_fields tag (dec_struct [K_port; K_host] false 2 (JArr l))
              | _ => None
              end = Some b)
     <-> exists tag p h, fields BN false j [Some (str tag); p; h] /\ dec_bridge_fields tag (Some [p; h]) = Some b).
  { split.
    - destruct j as [| | | | |l|m]; try discriminate.
      + destruct l as [|[| | | |[tag|]| |] l]; try discriminate. intros D.
        destruct (dec_struct [K_port; K_host] false 2 (JArr l)) as [vs|] eqn:E; [|discriminate].
        destruct (fields_two _ _ _ E eq_refl) as (p & h & ->). exists tag, p, h. split; [|exact D]. apply (bridge_split d); [exact L|exact S|]. split; [reflexivity|exact E].
      + destruct (Nat.eqb_spec (count_key K_type m) 1) as [C|]; [|discriminate].
        destruct (find_last K_type m) as [[| | | |[tag|]| |]|] eqn:FT; try discriminate. intros D.
        destruct (dec_struct [K_port; K_host] false 2 _) as [vs|] eqn:E; [|discriminate].
        destruct (fields_two _ _ _ E eq_refl) as (p & h & ->). exists tag, p, h. split; [|exact D]. apply (bridge_split d); [exact L|exact S|]. repeat split; assumption.
    - intros (tag & p & h & F & D). apply (bridge_split d) in F; [|exact L|exact S]. destruct j as [| | | | |l|m]; try contradiction.
      + destruct l as [|x l]; [contradiction|]. destruct F as (-> & E). unfold str. rewrite E. exact D.
      + destruct F as (C & FT & E). rewrite C, FT. cbn [Nat.eqb]. unfold str. rewrite E. exact D. }
  rewrite K2, K. split; [intros H; split; [reflexivity|exact H]|intros (_ & H); exact H].
Qed.
#[global] Instance means_pivot : Means js_pivot 4 (fun d => says_pivot (pred (pred d))).
Proof.
  intros d j a L. cbn [js_pivot jdec]. split.
  - take_fields d j. red. do 5 eexists. split; [eassumption|]. cbn. auto 10.
  - intros (x & y & z & u & v & F & H1 & H2 & H3 & H4 & H5). give_fields d F. now destruct a.
Qed.
#[global] Instance means_manifest : Means js_manifest 5 (fun d => says_manifest_v1 (pred (pred (pred d)))).
Proof.
  intros d j a L. cbn [js_manifest jdec]. split.
  - take_fields d j. red. do 6 eexists. split; [eassumption|]. cbn. auto 10.
  - intros (x & y & z & u & v & w & F & H1 & H2 & H3 & H4 & H5 & H6). give_fields d F. now destruct a.
Qed.
#[global] Instance means_envelope : Means js_envelope 6 (fun d => says_envelope_v1 (pred (pred (pred (pred d))))).
Proof.
  intros d j a L. cbn [js_envelope jdec]. split.
  - take_fields d j. red. eauto 10.
  - intros (x & y & z & F & H1 & H2 & H3). give_fields d F. now destruct a.
Qed.

(** ** Environment variables *)
Lemma ltb_lex a : forall b, bytes_ltb a b = true <-> lex_before (map b2n a) (map b2n b).
Proof.
  induction a as [|x a IH]; intros [|y b]; cbn [bytes_ltb map].
  - split; [discriminate|]. intros H. inversion H.
  - split; [intros _; constructor|reflexivity].
  - split; [discriminate|]. intros H. inversion H.
  - destruct (N.ltb_spec (b2n x) (b2n y)) as [L|G]; [split; [intros _; now constructor|reflexivity]|].
    destruct (N.ltb_spec (b2n y) (b2n x)) as [L|G']; [split; [discriminate|intros H; inversion H; subst; lia]|].
    assert (E : b2n x = b2n y) by lia. rewrite E, IH. split; [now constructor|]. intros H. inversion H; subst; [lia|assumption].
Qed.
Lemma sorted_strongly (e : list (bytes * bytes)) : sorted_keys e = true <-> StronglySorted (fun p q => lex_before (map b2n (fst p)) (map b2n (fst q))) e.
Proof.
  induction e as [|[k v] e IH]; [split; [constructor|reflexivity]|]. rewrite sorted_cons. split.
  - intros (A & S). constructor; [now apply IH|]. eapply Forall_impl; [|exact A]. intros p H. now apply ltb_lex.
  - intros H. inversion H as [|? ? S F]; subst. split; [|now apply IH]. eapply Forall_impl; [|exact F]. intros p H'. now apply ltb_lex.
Qed.
Lemma collect_last l n v : map_get n (map_collect l) = Some v <-> last_entry l n v.
Proof.
  induction l as [|[k x] l IH] using rev_ind.
  - split; [discriminate|]. intros ([|] & l2 & E & _); discriminate.
  - unfold map_collect. rewrite fold_left_app. cbn [fold_left fst snd]. fold (map_collect l). rewrite map_get_insert.
    destruct (bytes_eqb_spec n k) as [-> |NE].
    + split.
      * intros [= ->]. exists l, []. split; [reflexivity|intros []].
      * intros (l1 & l2 & E & NI). destruct l2 as [|q l2] using rev_ind; [apply app_inj_tail in E as [_ E]; congruence|].
        exfalso. rewrite app_comm_cons, app_assoc in E. apply app_inj_tail in E as [_ <-]. apply NI. rewrite map_app. apply in_or_app. right. now left.
    + rewrite IH. split.
      * intros (l1 & l2 & -> & NI). exists l1, (l2 ++ [(k, x)]). split; [now rewrite <- app_assoc|]. rewrite map_app. intros I. apply in_app_or in I as [I|[I|[]]]; [contradiction|]. cbn in I. congruence.
      * intros (l1 & l2 & E & NI). destruct l2 as [|q l2] using rev_ind; [apply app_inj_tail in E as [_ E]; congruence|].
        rewrite app_comm_cons, app_assoc in E. apply app_inj_tail in E as [-> _]. exists l1, l2. split; [reflexivity|]. intros I. apply NI. rewrite map_app. apply in_or_app. now left.
Qed.
Lemma collect_exact l e : map_collect l = e <->
  (forall n v, In (n, v) e <-> last_entry l n v) /\ StronglySorted (fun p q => lex_before (map b2n (fst p)) (map b2n (fst q))) e.
Proof.
  split.
  - intros <-. pose proof (map_collect_is_sorted l) as S. split; [|now apply sorted_strongly]. intros n v.
    rewrite <- collect_last. symmetry. apply ReorderProofs.map_get_in. now apply sorted_nodup.
  - intros (H & S). apply sorted_strongly in S. apply ReorderProofs.sorted_ext; [apply map_collect_is_sorted|exact S|]. intros k.
    assert (K : forall v, map_get k (map_collect l) = Some v <-> map_get k e = Some v).
    { intros v. rewrite collect_last, <- H. symmetry. apply ReorderProofs.map_get_in. now apply sorted_nodup. }
    destruct (map_get k (map_collect l)) as [v|] eqn:A; [symmetry; now apply K|]. destruct (map_get k e) as [v|] eqn:B; [|reflexivity].
    assert (A' : None = Some v) by now apply K. discriminate.
Qed.
Lemma name_is n n' : name_new n = Some n' <-> n = n' /\ good_name n'.
Proof.
  rewrite <- name_new_exact. split; [|intros (-> & H); exact H]. intros H. assert (X := H). apply name_new_some in X as (-> & _). auto.
Qed.
Lemma value_is v v' : value_new v = Some v' <-> v = v' /\ good_value v'.
Proof.
  rewrite <- value_new_exact. split; [|intros (-> & H); exact H]. intros H. assert (X := H). apply value_new_some in X as (-> & _). auto.
Qed.
#[global] Instance means_env_value : Means js_env_value 3 (fun _ => says_env_value).
Proof.
  intros d j v L. cbn [js_env_value jdec]. destruct d as [|[|[|d]]]; [lia..|]. unfold says_env_value. split.
  - destruct j as [| | | | | |[|[[k|] x] [|]]]; try discriminate. destruct (bytes_eqb k (bs "plain")) eqn:K; [|discriminate]. apply bytes_eqb_eq in K as ->.
    destruct (dec_struct [bs "value"] false (S (S d)) x) as [[|[[| | | |[s|]| |]|] [|]]|] eqn:E; try discriminate. intros H. apply value_is in H as (-> & G).
    apply dec_struct_fields in E; [|lia]. exists x, (JStr (Some v)). repeat split; [exact E|..]; apply G.
  - intros (x & y & -> & F & T & G). unfold says_text in T. subst y. rewrite (proj2 (bytes_eqb_eq (bs "plain") (bs "plain")) eq_refl).
    apply (proj2 (dec_struct_fields _ _ (S (S d)) _ _ ltac:(lia))) in F. rewrite F. apply value_is. auto.
Qed.
Definition says_entry (p : option bytes * json) (q : bytes * bytes) : Prop := fst p = Some (fst q) /\ good_name (fst q) /\ says_env_value (snd p) (snd q).
Lemma entry_means d p q : (3 <= d)%nat -> (ReorderProofs.env_entry d p = Some q <-> says_entry p q).
Proof.
  intros L. unfold ReorderProofs.env_entry, says_entry. destruct p as [[k|] x]; cbn [fst snd]; [|split; [discriminate|intros (E & _); discriminate]]. split.
  - intros H. apply obind_inv in H as (n & N & H). apply obind_inv in H as (v & V & H). injection H as <-. cbn [fst snd].
    apply name_is in N as (-> & N). eapply means_fwd in V; [|typeclasses eauto|exact L]. auto.
  - intros (E & N & V). injection E as ->. eapply obind_mk; [apply name_is; split; [reflexivity|exact N]|].
    eapply obind_mk; [eapply means_back; [typeclasses eauto|exact L|exact V]|]. now destruct q.
Qed.
#[global] Instance means_env : Means js_env 4 (fun _ => says_env).
Proof.
  intros d j e L. unfold says_env. cbn [js_env jdec]. destruct d as [|[|d]]; [lia..|].
  assert (EN : forall m l, oseq (map (ReorderProofs.env_entry (S d)) m) = Some l <-> Forall2 says_entry m l).
  { intros m l. split.
    - intros E. apply oseq_inv in E. revert l E. induction m as [|p m IH]; intros [|q l] E; cbn [map] in E; try discriminate; constructor.
      + apply (entry_means (S d)); [lia|]. now injection E.
      + apply IH. now injection E.
    - induction 1 as [|p q m l H _ IH]; [reflexivity|]. cbn [map oseq]. apply (entry_means (S d)) in H; [|lia]. rewrite H. cbn [obind]. rewrite IH. reflexivity. }
  destruct j as [| | | | | |m]; try (split; [discriminate|intros (? & ? & E & _); discriminate]).
  change (obind (oseq (map (ReorderProofs.env_entry (S d)) m)) (fun l => env_try_from (map_collect l)) = Some e <->
    exists m0 l, JObj m = JObj m0 /\ Forall2 says_entry m0 l /\ (forall n v, In (n, v) e <-> last_entry l n v)
     /\ StronglySorted (fun p q => lex_before (map b2n (fst p)) (map b2n (fst q))) e /\ (length e <= 512)%nat).
  split.
  - intros H. apply obind_inv in H as (l & E & H). apply EN in E. unfold env_try_from in H. destruct (check_limits (map_collect l)) eqn:C; [|discriminate].
    injection H as H. apply collect_exact in H as (H1 & H2). exists m, l. split; [reflexivity|]. split; [exact E|]. split; [exact H1|]. split; [exact H2|].
    assert (M : map_collect l = e) by now apply collect_exact. rewrite M in C. unfold check_limits, MAX_PIVOT_ENV_VARS in C. rewrite lenN_length in C. lia.
  - intros (m0 & l & E & F & H1 & H2 & H3). injection E as <-. apply EN in F. eapply obind_mk; [exact F|]. assert (M : map_collect l = e) by now apply collect_exact.
    rewrite M. unfold env_try_from, check_limits, MAX_PIVOT_ENV_VARS. rewrite lenN_length. destruct (N.ltb_spec 512 (N.of_nat (length e))); [lia|reflexivity].
Qed.

(** ** Version 2 *)
Lemma env_field d o e : (4 <= d)%nat -> match o with None => Some [] | Some x => jdec js_env d x end = Some e -> match o with None => e = [] | Some x => says_env x e end.
Proof. intros L. destruct o as [g|]; [intros R; exact (means_fwd js_env 4 _ d g e L R)|now intros [= <-]]. Qed.
Lemma dns_field d o e : (3 <= d)%nat ->
  match o with None | Some JNull => Some None | Some x => let? y := jdec js_dns d x in Some (Some y) end = Some e ->
  match e with Some x => exists y, o = Some y /\ says_dns y x | None => o = None \/ o = Some JNull end.
Proof.
  intros L R. destruct o as [g|]; [|injection R as <-; auto]. destruct (match g with JNull => true | _ => false end) eqn:G; [destruct g; try discriminate; injection R as <-; auto|].
  assert (R' : (let? y := jdec js_dns d g in Some (Some y)) = Some e) by (destruct g; [discriminate|exact R..]).
  apply obind_inv in R' as (y & R' & E'). injection E' as <-. exists g. split; [reflexivity|]. exact (means_fwd js_dns 3 _ d g y L R').
Qed.
#[global] Instance means_pivot_v2 : Means js_pivot_v2 5 (fun d => says_pivot_v2 (pred (pred d))).
Proof.
  intros d j a L. cbn [js_pivot_v2 jdec]. split.
  - take_fields d j. red. do 6 eexists. split; [eassumption|]. cbn.
    match goal with R : _ = Some ?e |- context [match ?o with Some _ => _ | None => ?e = [] end] => apply env_field in R; [|lia] end.
    auto 10.
  - intros (x & y & z & u & v & w & F & H1 & H2 & H3 & H4 & H5 & H6). give_fields d F.
    eapply (obind_mk _ _ (pv2_env a)); [|now destruct a]. destruct w as [g|]; [eapply means_back; [typeclasses eauto|lia|exact H6]|now rewrite H6].
Qed.
Lemma version_means d j : (2 <= d)%nat -> (dec_version d j = Some tt <-> says_variant j (bs "v2")).
Proof.
  intros L. unfold dec_version. rewrite <- (enum_text_variant d j _ L). destruct (enum_text j d) as [s|]; [|split; discriminate].
  destruct (bytes_eqb_spec s (bs "v2")) as [-> |NE]; [split; reflexivity|]. split; [discriminate|]. intros E. injection E as ->. contradiction.
Qed.
#[global] Instance means_manifest_v2 : Means js_manifest_v2 6 (fun d => says_manifest_v2 (pred (pred (pred d)))).
Proof.
  intros d j a L. cbn [js_manifest_v2 jdec]. split.
  - take_fields d j. red.
    match goal with R : match ?o with Some x => dec_version (pred d) x | None => None end = Some ?u |- _ => destruct o as [v|]; [|discriminate R]; destruct u; apply version_means in R; [|lia] end.
    do 7 eexists. split; [eassumption|]. cbn.
    match goal with R : _ = Some ?e |- context [match ?e with Some _ => _ | None => _ end] => apply dns_field in R; [|lia] end.
    auto 10.
  - intros (v0 & x & y & z & u & v & w & F & H0 & H1 & H2 & H3 & H4 & H5 & H6). apply (proj2 (dec_struct_fields _ _ d _ _ ltac:(lia))) in F. rewrite F.
    eapply obind_mk; [apply version_means; [lia|exact H0]|]. cbv beta. back_fields.
    eapply (obind_mk _ _ (mf2_dns a)); [|now destruct a]. destruct (mf2_dns a) as [c|].
    + destruct H6 as (g & -> & H6). assert (E : jdec js_dns (pred d) g = Some c) by (eapply means_back; [typeclasses eauto|lia|exact H6]).
      rewrite E. destruct g; try reflexivity. cbn in E. destruct d as [|[|[|d]]]; discriminate.
    + destruct H6 as [-> | ->]; reflexivity.
Qed.
#[global] Instance means_envelope_v2 : Means js_envelope_v2 7 (fun d => says_envelope_v2 (pred (pred (pred (pred d))))).
Proof.
  intros d j a L. cbn [js_envelope_v2 jdec]. split.
  - take_fields d j. red. eauto 10.
  - intros (x & y & z & F & H1 & H2 & H3). give_fields d F. now destruct a.
Qed.
