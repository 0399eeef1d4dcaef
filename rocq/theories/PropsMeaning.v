(** C95: a manifest or envelope document is read as exactly what its members
    say (SpecMeaning.v), and refused if they do not say a whole manifest. *)
From Coq Require Import ZifyBool ZifyN ZifyNat.
From Verif Require Import Base Utf8 Hex Json Borsh BorshProofs Types TypesBorsh TypesJson TypesJsonLaws CodecExamples SpecMeaning MeaningProofs PropsConvert.
Local Open Scope N_scope.

(** *** Specification *)
(** The document is JSON by the standard reader (valid texts, numbers in range,
    nested at most 127 deep) and has a member "version". *)
Definition declares_version (j : json) : Prop :=
  strict 128 j = true /\ exists m v, j = JObj m /\ In (Some (bs "version"), v) m.
(** ... its (last) member "manifest" has a member "version". *)
Definition declares_version_inside (j : json) : Prop :=
  strict 128 j = true /\ exists m1 m m2 v, j = JObj (m1 ++ (Some (bs "manifest"), JObj m) :: m2)
    /\ (forall x, ~ In (Some (bs "manifest"), x) m2) /\ In (Some (bs "version"), v) m.

(** *** Proofs *)
Lemma find_last_gone {A} k (m : list (option bytes * A)) : find_last k m = None <-> forall y, ~ In (Some k, y) m.
Proof.
  induction m as [|[o v] m IH]; cbn [find_last]; [split; [intros _ y []|reflexivity]|].
  destruct (find_last k m) as [z|].
  - split; [discriminate|]. intros H. assert (X : Some z = None) by (apply IH; intros y I; apply (H y); now right). discriminate.
  - destruct (okey_eqb k o) eqn:E.
    + apply okey_some in E as ->. split; [discriminate|]. intros H. exfalso. apply (H v). now left.
    + split; [|reflexivity]. intros _ y [Q|I]; [|now apply (proj1 IH eq_refl y)]. injection Q as -> ->.
      rewrite (proj2 (okey_some k (Some k)) eq_refl) in E. discriminate.
Qed.
Lemma find_last_split {A} k (m : list (option bytes * A)) x :
  find_last k m = Some x <-> exists m1 m2, m = m1 ++ (Some k, x) :: m2 /\ forall y, ~ In (Some k, y) m2.
Proof.
  split.
  - induction m as [|[o v] m IH]; cbn [find_last]; [discriminate|]. destruct (find_last k m) as [z|] eqn:F.
    + intros [= ->]. destruct (IH eq_refl) as (m1 & m2 & -> & N). exists ((o, v) :: m1), m2. auto.
    + destruct (okey_eqb k o) eqn:E; [|discriminate]. intros [= ->]. apply okey_some in E as ->. exists [], m. split; [reflexivity|].
      now apply find_last_gone.
  - intros (m1 & m2 & -> & N). apply find_last_gone in N. induction m1 as [|[o v] m1 IH]; cbn [app find_last].
    + rewrite N. now rewrite (proj2 (okey_some k (Some k)) eq_refl).
    + now rewrite IH.
Qed.
Lemma has_key k m : is_some (find_last k m) = true <-> exists v : json, In (Some k, v) m.
Proof.
  destruct (find_last k m) as [x|] eqn:F; cbn [is_some].
  - split; [intros _|reflexivity]. apply find_last_split in F as (m1 & m2 & -> & _). exists x. apply in_or_app. right. now left.
  - split; [discriminate|]. intros (v & I). exfalso. now apply (proj1 (find_last_gone k m) F v).
Qed.
Lemma declares_iff b j : parse b = Some j -> (declares_a_version b = true <-> declares_version j).
Proof.
  intros P. unfold declares_a_version, parse_strict, declares_version. rewrite P. change MAX_DEPTH with 128%nat. destruct (strict 128 j); [|split; [discriminate|now intros []]].
  destruct j as [| | | | | |m]; cbn [jget is_some]; try (split; [discriminate|intros (_ & ? & ? & E & _); discriminate]). rewrite has_key. split.
  - intros (v & I). eauto.
  - intros (_ & m' & v & E & I). injection E as <-. eauto.
Qed.
Lemma declares_inside_iff b j : parse b = Some j -> (enveloped_manifest_declares_a_version b = true <-> declares_version_inside j).
Proof.
  intros P. unfold enveloped_manifest_declares_a_version, parse_strict, declares_version_inside. rewrite P. change MAX_DEPTH with 128%nat.
  destruct (strict 128 j); [|split; [discriminate|now intros []]].
  destruct j as [| | | | | |m]; cbn [jget]; try (split; [discriminate|intros (_ & ? & ? & ? & ? & E & _); discriminate]). split.
  - destruct (find_last (bs "manifest") m) as [x|] eqn:F; [|discriminate]. destruct x as [| | | | | |x]; try discriminate. cbn [jget]. intros H. apply has_key in H as (v & I).
    apply find_last_split in F as (m1 & m2 & -> & N). split; [reflexivity|]. exists m1, x, m2, v. auto.
  - intros (_ & m1 & x & m2 & v & E & N & I). injection E as ->. rewrite (proj2 (find_last_split (bs "manifest") _ (JObj x))) by eauto. cbn [jget].
    apply has_key. eauto.
Qed.
Lemma json_not_borsh b j : parse b = Some j -> decode_borsh c_manifest c_manifest_v0 VM1 VM0 b = None.
Proof.
  intros P. unfold decode_borsh. destruct (from_slice c_manifest b) as [x|] eqn:E.
  { apply (lawful_slice_canon _ c_manifest_lawful) in E as (_ & ->). rewrite (c74_borsh_is_never_json _ (BF_manifest x)) in P. discriminate. }
  destruct (from_slice c_manifest_v0 b) as [x|] eqn:E0; [|reflexivity].
  apply (lawful_slice_canon _ c_manifest_v0_lawful) in E0 as (_ & ->). rewrite (c74_borsh_is_never_json _ (BF_manifest_v0 x)) in P. discriminate.
Qed.
Lemma json_not_borsh_envelope b j : parse b = Some j -> decode_borsh c_envelope c_envelope_v0 VE1 VE0 b = None.
Proof.
  intros P. unfold decode_borsh. destruct (from_slice c_envelope b) as [x|] eqn:E.
  { apply (lawful_slice_canon _ c_envelope_lawful) in E as (_ & ->). rewrite (c74_borsh_is_never_json _ (BF_envelope x)) in P. discriminate. }
  destruct (from_slice c_envelope_v0 b) as [x|] eqn:E0; [|reflexivity].
  apply (lawful_slice_canon _ c_envelope_v0_lawful) in E0 as (_ & ->). rewrite (c74_borsh_is_never_json _ (BF_envelope_v0 x)) in P. discriminate.
Qed.
Lemma from_json {A} (c : jcodec A) k P (M : Means c k P) b j a : (k <= 128)%nat -> parse b = Some j -> (json_from_slice c b = Some a <-> P 128%nat j a).
Proof. intros L E. unfold json_from_slice. rewrite E. exact (M MAX_DEPTH j a L). Qed.
Lemma obind_wrap {A B} (o : option A) (f : A -> B) v : (let? m := o in Some (f m)) = Some v <-> exists m, o = Some m /\ v = f m.
Proof. destruct o as [m|]; cbn [obind]; split; [intros [= <-]; eauto|intros (x & [= <-] & ->); reflexivity|discriminate|intros (x & E & _); discriminate]. Qed.

(** *** Theorems *)
Theorem c95_manifest_documents : forall b j v, parse b = Some j ->
  (manifest_try_from_slice_compat b = Some v <->
   match v with
   | VM2 m => declares_version j /\ says_manifest_v2 125 j m
   | VM1 m => ~ declares_version j /\ says_manifest_v1 125 j m
   | VM0 m => ~ declares_version j /\ (forall m1, ~ says_manifest_v1 125 j m1) /\ says_manifest_v0 j m
   end).
Proof.
  intros b j v P. unfold manifest_try_from_slice_compat. rewrite (json_not_borsh b j P).
  pose proof (declares_iff b j P) as D.
  pose proof (fun m => from_json js_manifest_v2 6 _ _ b j m ltac:(lia) P) as J2.
  pose proof (fun m => from_json js_manifest 5 _ _ b j m ltac:(lia) P) as J1.
  pose proof (fun m => from_json js_manifest_v0 5 _ _ b j m ltac:(lia) P) as J0. cbv beta in J0, J1, J2.
  destruct (declares_a_version b).
  - assert (Y : declares_version j) by now apply D. rewrite obind_wrap. destruct v as [m|m|m].
    + split; [intros (x & E & Q); injection Q as ->; split; [exact Y|now apply J2]|intros (_ & H); exists m; split; [now apply J2|reflexivity]].
    + split; [intros (x & _ & Q); discriminate|intros (N & _); contradiction].
    + split; [intros (x & _ & Q); discriminate|intros (N & _); contradiction].
  - assert (N : ~ declares_version j) by (intros Y; apply D in Y; discriminate).
    destruct (json_from_slice js_manifest b) as [m1|] eqn:E1.
    + assert (S1 := proj1 (J1 m1) eq_refl). destruct v as [m|m|m].
      * split; [discriminate|intros (Y & _); contradiction].
      * split; [intros [= <-]; auto|intros (_ & H); apply J1 in H; congruence].
      * split; [discriminate|intros (_ & K & _); exfalso; exact (K m1 S1)].
    + assert (K : forall m1, ~ says_manifest_v1 125 j m1) by (intros m1 H; apply J1 in H; discriminate).
      destruct (json_from_slice js_manifest_v0 b) as [m0|] eqn:E0; destruct v as [m|m|m].
      * split; [discriminate|intros (Y & _); contradiction].
      * split; [discriminate|intros (_ & H); exfalso; exact (K m H)].
      * split; [intros [= <-]; split; [exact N|split; [exact K|now apply J0]]|intros (_ & _ & H); apply J0 in H; congruence].
      * split; [discriminate|intros (Y & _); contradiction].
      * split; [discriminate|intros (_ & H); exfalso; exact (K m H)].
      * split; [discriminate|intros (_ & _ & H); apply J0 in H; discriminate].
Qed.
Print Assumptions c95_manifest_documents.

Theorem c95_envelope_documents : forall b j v, parse b = Some j ->
  (envelope_try_from_slice_compat b = Some v <->
   match v with
   | VE2 e => declares_version_inside j /\ says_envelope_v2 124 j e
   | VE1 e => ~ declares_version_inside j /\ says_envelope_v1 124 j e
   | VE0 e => ~ declares_version_inside j /\ (forall e1, ~ says_envelope_v1 124 j e1) /\ says_envelope_v0 j e
   end).
Proof.
  intros b j v P. unfold envelope_try_from_slice_compat. rewrite (json_not_borsh_envelope b j P).
  pose proof (declares_inside_iff b j P) as D.
  pose proof (fun m => from_json js_envelope_v2 7 _ _ b j m ltac:(lia) P) as J2.
  pose proof (fun m => from_json js_envelope 6 _ _ b j m ltac:(lia) P) as J1.
  pose proof (fun m => from_json js_envelope_v0 6 _ _ b j m ltac:(lia) P) as J0. cbv beta in J0, J1, J2.
  destruct (enveloped_manifest_declares_a_version b).
  - assert (Y : declares_version_inside j) by now apply D. rewrite obind_wrap. destruct v as [m|m|m].
    + split; [intros (x & E & Q); injection Q as ->; split; [exact Y|now apply J2]|intros (_ & H); exists m; split; [now apply J2|reflexivity]].
    + split; [intros (x & _ & Q); discriminate|intros (N & _); contradiction].
    + split; [intros (x & _ & Q); discriminate|intros (N & _); contradiction].
  - assert (N : ~ declares_version_inside j) by (intros Y; apply D in Y; discriminate).
    destruct (json_from_slice js_envelope b) as [m1|] eqn:E1.
    + assert (S1 := proj1 (J1 m1) eq_refl). destruct v as [m|m|m].
      * split; [discriminate|intros (Y & _); contradiction].
      * split; [intros [= <-]; auto|intros (_ & H); apply J1 in H; congruence].
      * split; [discriminate|intros (_ & K & _); exfalso; exact (K m1 S1)].
    + assert (K : forall m1, ~ says_envelope_v1 124 j m1) by (intros m1 H; apply J1 in H; discriminate).
      destruct (json_from_slice js_envelope_v0 b) as [m0|] eqn:E0; destruct v as [m|m|m].
      * split; [discriminate|intros (Y & _); contradiction].
      * split; [discriminate|intros (_ & H); exfalso; exact (K m H)].
      * split; [intros [= <-]; split; [exact N|split; [exact K|now apply J0]]|intros (_ & _ & H); apply J0 in H; congruence].
      * split; [discriminate|intros (Y & _); contradiction].
      * split; [discriminate|intros (_ & H); exfalso; exact (K m H)].
      * split; [discriminate|intros (_ & _ & H); apply J0 in H; discriminate].
Qed.
Print Assumptions c95_envelope_documents.

(** In short: of the members of an accepted manifest object none is given
    twice, and a version 2 manifest has no member besides the known ones. *)
Theorem c95_no_member_twice_none_unknown : forall b m v, parse b = Some (JObj m) -> manifest_try_from_slice_compat b = Some v ->
  Forall (once m) [bs "namespace"; bs "pivot"; bs "manifestSet"; bs "shareSet"; bs "enclave"]
  /\ (forall k x v2, v = VM2 v2 -> In (Some k, x) m ->
        In k [bs "version"; bs "namespace"; bs "pivot"; bs "manifestSet"; bs "shareSet"; bs "enclave"; bs "dns"]).
Proof.
  intros b m v P H. apply (c95_manifest_documents b _ v P) in H.
  assert (F : forall names c vs, fields names c (JObj m) vs -> Forall (once m) names /\ (c = true -> forall k x, In (Some k, x) m -> In k names)).
  { intros names c vs [(m' & E & _ & O & C & _)|(l & t & E & _)]; [|discriminate]. injection E as <-. auto. }
  destruct v as [x|x|x].
  - destruct H as (_ & v0 & a & b0 & c & e & f & g & G & _). apply F in G as (O & C). split.
    + inversion O as [|? ? _ O1]; subst. inversion O1 as [|? ? A1 O2]; subst. inversion O2 as [|? ? A2 O3]; subst. inversion O3 as [|? ? A3 O4]; subst.
      inversion O4 as [|? ? A4 O5]; subst. inversion O5 as [|? ? A5 _]; subst. repeat (constructor; [assumption|]). constructor.
    + intros k y v2 _ I. exact (C eq_refl k y I).
  - destruct H as (_ & a & b0 & c & e & f & g & G & _). apply F in G as (O & _). split; [|intros; discriminate].
    inversion O as [|? ? A1 O2]; subst. inversion O2 as [|? ? A2 O3]; subst. inversion O3 as [|? ? A3 O4]; subst.
      inversion O4 as [|? ? A4 O5]; subst. inversion O5 as [|? ? A5 _]; subst. repeat (constructor; [assumption|]). constructor.
  - destruct H as (_ & _ & a & b0 & c & e & f & g & G & _). apply F in G as (O & _). split; [|intros; discriminate].
    inversion O as [|? ? A1 O2]; subst. inversion O2 as [|? ? A2 O3]; subst. inversion O3 as [|? ? A3 O4]; subst.
      inversion O4 as [|? ? A4 O5]; subst. inversion O5 as [|? ? A5 _]; subst. repeat (constructor; [assumption|]). constructor.
Qed.
Print Assumptions c95_no_member_twice_none_unknown.
(** A version 2 document is read; with a member added it is refused, while a
    version 1 document with a member added is read; one given twice is refused. *)
Definition with_member (k : bytes) (x : json) (j : json) : json := match j with JObj m => JObj (m ++ [(Some k, x)]) | _ => j end.
Example c95_nontrivial :
  manifest_try_from_slice_compat (write (jser js_manifest_v2 ex_manifest_v2)) = Some (VM2 ex_manifest_v2)
  /\ manifest_try_from_slice_compat (write (with_member (bs "note") (JInt 1) (jser js_manifest_v2 ex_manifest_v2))) = None
  /\ manifest_try_from_slice_compat (write (with_member (bs "note") (JInt 1) (jser js_manifest ex_manifest))) = Some (VM1 ex_manifest)
  /\ manifest_try_from_slice_compat (write (with_member (bs "enclave") (jser js_nitro ex_nitro) (jser js_manifest ex_manifest))) = None
  /\ envelope_try_from_slice_compat (write (jser js_envelope_v0 ex_envelope_v0)) = Some (VE0 ex_envelope_v0).
Proof. vm_compute. repeat split. Qed.
