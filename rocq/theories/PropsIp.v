(** C97: which texts are IP addresses, and how an address is written. *)
From Coq Require Import ZifyBool ZifyN ZifyNat.
From Verif Require Import Base Hex SpecHex HexProofs Json JsonProofs Types TypesJson TypesJsonProofs Client ClientSets ClientCli PropsClientCli SpecIp IpProofs.
From Verif Require Reaper.
Local Open Scope N_scope.

(** A text is read as an address exactly when it is one of its text forms. *)
Theorem c97_address_read : forall s i, parse_ip_addr s = Some i <-> ip_text s i.
Proof. exact parse_ip_addr_iff. Qed.
Print Assumptions c97_address_read.

(** No text is two addresses. *)
Theorem c97_one_meaning : forall s i j, ip_text s i -> ip_text s j -> i = j.
Proof. intros s i j A B. apply parse_ip_addr_iff in A, B. congruence. Qed.
Print Assumptions c97_one_meaning.

(** ** The command line *)
Lemma octet_chars s b c : octet_text s b -> In c s -> is_hex c = true.
Proof. intros O I. apply octet_digits in O as [D _]. rewrite forallb_forall in D. apply digit_hex, D, I. Qed.
Lemma group_chars s g c : group_text s g -> In c s -> is_hex c = true.
Proof. intros G I. apply group_hex in G. rewrite forallb_forall in G. now apply G. Qed.
Definition addr_char (c : byte) : Prop := is_hex c = true \/ c = "."%byte \/ c = ":"%byte.
Ltac pieces := repeat match goal with
  | H : In _ (_ ++ _) |- _ => apply in_app_or in H as [H|H]
  | H : In _ (_ :: _) |- _ => destruct H as [<-|H]; [unfold addr_char; tauto|]
  | H : In _ [] |- _ => destruct H
  end.
Lemma dotted_chars s i c : dotted s i -> In c s -> addr_char c.
Proof. intros (sa & sb & sc & sd & -> & A & B & C & D) I. pieces; left; eauto using octet_chars. Qed.
Lemma some_chars s l c : some_groups s l -> In c s -> addr_char c.
Proof. intros H. induction H; intros I; pieces; eauto using dotted_chars; left; eauto using group_chars. Qed.
Lemma address_chars s i c : ip_text s i -> In c s -> addr_char c.
Proof.
  destruct i as [i|i]; cbn [ip_text]; [apply dotted_chars|]. intros [H|(f & b & fg & bg & n & -> & F & B & _)] I; [eapply some_chars; eauto|].
  pieces.
  - destruct F as [(-> & _)|F]; [destruct I|]. eapply some_chars; [apply hex_some; exact F|exact I].
  - destruct B as [(-> & _)|B]; [destruct I|]. eapply some_chars; eauto.
Qed.
Lemma address_no_comma s i : ip_text s i -> ~ In ","%byte s.
Proof. intros H I. destruct (address_chars s i _ H I) as [X|[X|X]]; discriminate X. Qed.
Lemma address_not_empty i : ~ ip_text [] i.
Proof. intros H. apply parse_ip_addr_iff in H. discriminate H. Qed.

(** [--dns-resolvers] is a bracketed list of addresses without blanks; any other
    value is refused as a whole. *)
Theorem c97_resolvers_option : forall v l,
  dns_from v = Some l <-> exists texts, v = bs "[" ++ join ","%byte texts ++ bs "]" /\ Forall2 ip_text texts l.
Proof.
  intros v l. unfold dns_from. split.
  - destruct (bracketed v) as [i|] eqn:B; [|discriminate]. apply bracketed_iff in B. cbn [obind]. destruct i as [|x i].
    + intros H. injection H as <-. exists []. split; [exact B|constructor].
    + intros H. apply mapM_iff in H. exists (split_on ","%byte (x :: i)). split; [rewrite split_join; exact B|].
      eapply Forall2_impl2; [|exact H]. intros s a. apply parse_ip_addr_iff.
  - intros (texts & -> & F).
    assert (B : bracketed (bs "[" ++ join ","%byte texts ++ bs "]") = Some (join ","%byte texts)) by now apply bracketed_iff. rewrite B. cbn [obind].
    destruct texts as [|w ws]; [inversion F; reflexivity|].
    assert (NC : Forall (fun w => ~ In ","%byte w) (w :: ws)).
    { clear B. revert F. generalize (w :: ws) as t. intros t F. induction F as [|s a t l' H F IH]; constructor; [exact (address_no_comma s a H)|exact IH]. }
    pose proof (join_free_split "," (w :: ws) NC ltac:(discriminate)) as J.
    assert (M : mapM parse_ip_addr (w :: ws) = Some l).
    { apply mapM_iff. eapply Forall2_impl2; [|exact F]. intros s a. apply parse_ip_addr_iff. }
    destruct (join "," (w :: ws)) as [|x i] eqn:E; [|now rewrite J].
    exfalso. cbn [split_on] in J. injection J as J1 J2. subst w. inversion F; subst. eapply address_not_empty; eauto.
Qed.
Print Assumptions c97_resolvers_option.

(** ** Writing *)
Lemma print_group_short g : short_group (print_group g) g.
Proof.
  split; [|split].
  - pose proof (read_group_print g [] I) as R. apply read_group_iff in R as (s & E & G & _). rewrite !app_nil_r in E. now rewrite E.
  - intros c Hc. destruct g as [a b].
    pose proof (byte_sweep2 (fun a b => forallb (fun c => existsb (byte_eqb c) lower_digits) (print_group (a, b))) ltac:(vm_compute; reflexivity) a b) as S.
    cbv beta in S. rewrite forallb_forall in S. specialize (S c Hc). apply existsb_exists in S as (d & D & E). destruct (byte_eqb_spec c d) as [-> |_]; [|discriminate E].
    now apply In_nth_error.
  - destruct g as [a b].
    pose proof (byte_sweep2 (fun a b => match print_group (a, b) with c :: _ :: _ => negb (byte_eqb c "0"%byte) | _ => true end) ltac:(vm_compute; reflexivity) a b) as S.
    cbv beta in S. destruct (print_group (a, b)) as [|c [|d r]]; cbn [hd_error]; intros H; try discriminate H; injection H as ->; [reflexivity|discriminate S].
Qed.
Lemma print_groups_short l : short_groups l (print_groups l).
Proof.
  induction l as [|g l IH]; [constructor|]. destruct l as [|h l].
  - cbn [print_groups print_more]. rewrite app_nil_r. constructor. apply print_group_short.
  - change (print_groups (g :: h :: l)) with (print_group g ++ ":"%byte :: print_groups (h :: l)). constructor; [apply print_group_short|exact IH].
Qed.

Fixpoint run_of (l : list bool) (i cs cl ls ll : nat) : nat * nat :=
  match l with
  | [] => (ls, ll)
  | g :: r =>
    if g then
      let cs := if (cl =? 0)%nat then i else cs in
      let cl := S cl in
      if (ll <? cl)%nat then run_of r (S i) cs cl cs cl else run_of r (S i) cs cl ls ll
    else run_of r (S i) 0 0 ls ll
  end.
Definition zero_flags (l : list group) : list bool := map (fun g => group_eqb g zero_group) l.
Lemma longest_run_flags l : forall i cs cl ls ll, longest_run l i cs cl ls ll = run_of (zero_flags l) i cs cl ls ll.
Proof. induction l as [|g l IH]; intros; cbn [longest_run zero_flags map run_of]; [reflexivity|]. cbv zeta. unfold zero_flags in IH. now rewrite !IH. Qed.
Definition flags_at (v : list bool) (st n : nat) : bool := (st + n <=? length v)%nat && forallb (fun i => nth i v false) (seq st n).
Lemma zeros_at_flags l st n : zeros_at l st n <-> flags_at (zero_flags l) st n = true.
Proof.
  unfold zeros_at, flags_at. unfold zero_flags at 1. rewrite map_length, Bool.andb_true_iff, Nat.leb_le, forallb_forall.
  split; intros [L H]; (split; [exact L|]).
  - intros i I. apply in_seq in I. specialize (H i I). unfold zero_flags.
    apply (nth_error_nth (map (fun g => group_eqb g zero_group) l) i false). rewrite nth_error_map, H. reflexivity.
  - intros i I. specialize (H i (proj2 (in_seq _ _ _) I)). destruct (nth_error l i) as [g|] eqn:E.
    + assert (X : nth_error (zero_flags l) i = Some (group_eqb g zero_group)) by (unfold zero_flags; now rewrite nth_error_map, E).
      apply (nth_error_nth _ _ false) in X. rewrite X in H. apply group_eqb_eq in H. now rewrite H.
    + apply nth_error_None in E. unfold group in *. lia.
Qed.
Definition best (v : list bool) : bool :=
  let '(st, n) := run_of v 0 0 0 0 0 in
  flags_at v st n && forallb (fun s => forallb (fun m => implb (flags_at v s m) ((m <=? n)%nat && implb (m =? n)%nat (st <=? s)%nat)) (seq 0 9)) (seq 0 9).
Lemma best_always a b c d e f g h : best [a; b; c; d; e; f; g; h] = true.
Proof. destruct a, b, c, d, e, f, g, h; vm_compute; reflexivity. Qed.
Lemma longest_run_first i : let z := longest_run (all_groups i) 0 0 0 0 0 in first_longest (all_groups i) (fst z) (snd z).
Proof.
  cbv zeta. rewrite longest_run_flags. pose proof (best_always (group_eqb (g0 i) zero_group) (group_eqb (g1 i) zero_group) (group_eqb (g2 i) zero_group)
    (group_eqb (g3 i) zero_group) (group_eqb (g4 i) zero_group) (group_eqb (g5 i) zero_group) (group_eqb (g6 i) zero_group) (group_eqb (g7 i) zero_group)) as B.
  change (best (zero_flags (all_groups i)) = true) in B. unfold best in B.
  destruct (run_of (zero_flags (all_groups i)) 0 0 0 0 0) as [st n]. cbn [fst snd]. apply andb_prop in B as [Z B].
  split; [now apply zeros_at_flags|]. intros s m H. assert (L : (s + m <= 8)%nat) by exact (proj1 H). apply zeros_at_flags in H.
  rewrite forallb_forall in B. specialize (B s ltac:(apply in_seq; lia)). rewrite forallb_forall in B. specialize (B m ltac:(apply in_seq; lia)).
  rewrite H in B. cbn [implb] in B. apply andb_prop in B as [B1 B2]. split; [lia|]. intros ->. rewrite Nat.eqb_refl in B2. cbn [implb] in B2. lia.
Qed.
Lemma print_ip_dotted x : dotted (print_ip x) x.
Proof.
  pose proof (read_ipv4_print x [] I) as R. apply read_ipv4_iff in R as (s & E & D & _). rewrite !app_nil_r in E. now rewrite E.
Qed.

(** An address is written in its one written form ... *)
Theorem c97_address_written : forall i, written_ip i (print_ip_addr i).
Proof.
  intros [x|i]; cbn [written_ip print_ip_addr]; [apply print_ip_dotted|]. unfold print_ipv6. change (groups i) with (all_groups i).
  assert (M : (forallb (group_eqb zero_group) (firstn 5 (all_groups i)) && group_eqb (g5 i) (xff, xff) = true) <-> exists x, mapped i x).
  { unfold mapped, all_groups. cbn [firstn forallb repeat app]. rewrite !Bool.andb_true_iff, !group_eqb_eq. unfold zero_group. split.
    - intros ((A & B & C & D & E & _) & F). exists (Ipv4 (fst (g6 i)) (snd (g6 i)) (fst (g7 i)) (snd (g7 i))). cbn [ip_a ip_b ip_c ip_d].
      rewrite <- !surjective_pairing, <- A, <- B, <- C, <- D, <- E, F. reflexivity.
    - intros (x & E). injection E as -> -> -> -> -> -> _ _. repeat split. }
  destruct (forallb (group_eqb zero_group) (firstn 5 (all_groups i)) && group_eqb (g5 i) (xff, xff)) eqn:B.
  - left. destruct (proj1 M eq_refl) as (x & X). exists x, (print_ip x). split; [exact X|]. split; [apply print_ip_dotted|].
    unfold mapped, all_groups in X. cbn [repeat app] in X. injection X as _ _ _ _ _ _ -> ->. cbn [fst snd]. now destruct x.
  - right. split; [intros x X; discriminate (proj2 M (ex_intro _ x X))|].
    exists (fst (longest_run (all_groups i) 0 0 0 0 0)), (snd (longest_run (all_groups i) 0 0 0 0 0)).
    split; [apply longest_run_first|]. cbv zeta. destruct (1 <? snd (longest_run (all_groups i) 0 0 0 0 0))%nat eqn:L.
    + left. split; [lia|]. eexists _, _. split; [apply print_groups_short|]. split; [apply print_groups_short|]. reflexivity.
    + right. split; [lia|]. apply print_groups_short.
Qed.
Print Assumptions c97_address_written.
(** ... and in no other. *)
Definition short_check (s : bytes) : bool := match read_group s with Some (g, []) => bytes_eqb (print_group g) s | _ => false end.
Lemma short_sweep : forallb (fun a => short_check [a] && implb (negb (byte_eqb a "0"%byte))
  (forallb (fun b => short_check [a; b] && forallb (fun c => short_check [a; b; c] && forallb (fun d => short_check [a; b; c; d]) lower_digits) lower_digits) lower_digits)) lower_digits = true.
Proof. vm_compute. reflexivity. Qed.
Lemma short_group_unique s g : short_group s g -> s = print_group g.
Proof.
  intros (G & L & Z). assert (R : read_group s = Some (g, [])) by (apply read_group_iff; exists s; rewrite app_nil_r; repeat split; apply G || exact (proj2 G)).
  enough (C : short_check s = true). { unfold short_check in C. rewrite R in C. apply bytes_eqb_eq in C. now symmetry. }
  assert (I : forall c, In c s -> In c lower_digits) by (intros c H; destruct (L c H) as (v & V); eapply nth_error_In; eauto). clear L.
  destruct G as (L & n & H & _). pose proof short_sweep as S. destruct s as [|a s]; [inversion H; destruct s; discriminate|]. clear H.
  rewrite forallb_forall in S. specialize (S a (I a (in_eq _ _))). apply andb_prop in S as [S1 S]. destruct s as [|b s]; [exact S1|].
  destruct (byte_eqb_spec a "0"%byte) as [->|_]; [discriminate (Z eq_refl)|]. cbn [negb implb] in S.
  rewrite forallb_forall in S. specialize (S b (I b ltac:(cbn; auto))). apply andb_prop in S as [S2 S]. destruct s as [|c s]; [exact S2|].
  rewrite forallb_forall in S. specialize (S c (I c ltac:(cbn; auto))). apply andb_prop in S as [S3 S]. destruct s as [|d s]; [exact S3|].
  rewrite forallb_forall in S. specialize (S d (I d ltac:(cbn; auto))). destruct s as [|e s]; [exact S|]. cbn [length] in L. lia.
Qed.
Lemma short_groups_unique l s : short_groups l s -> s = print_groups l.
Proof.
  intros H. induction H as [|g s H|g s h gs t H _ IH]; [reflexivity|..].
  - apply short_group_unique in H as ->. cbn [print_groups print_more]. now rewrite app_nil_r.
  - apply short_group_unique in H as ->. subst t. reflexivity.
Qed.
Definition octet_check (s : bytes) : bool := match parse_octet s with Some (b, []) => bytes_eqb (print_N (b2n b)) s | _ => true end.
Lemma octet_sweep : forallb (fun a => octet_check [a] && forallb (fun b => octet_check [a; b] && forallb (fun c => octet_check [a; b; c]) (bs "0123456789")) (bs "0123456789")) (bs "0123456789") = true.
Proof. vm_compute. reflexivity. Qed.
Lemma digit_in c v : dec_digit c v -> In c (bs "0123456789").
Proof.
  intros D. apply dec_digit_is in D as (D & _). pose proof (byte_sweep (fun c => implb (is_digit c) (existsb (byte_eqb c) (bs "0123456789"))) ltac:(vm_compute; reflexivity) c) as S.
  cbv beta in S. rewrite D in S. cbn [implb] in S. apply existsb_exists in S as (d & I & E). destruct (byte_eqb_spec c d) as [-> |_]; [exact I|discriminate E].
Qed.
Lemma octet_unique s b : octet_text s b -> s = print_N (b2n b).
Proof.
  intros O. assert (R : parse_octet s = Some (b, [])) by (apply parse_octet_iff; exists s; rewrite app_nil_r; repeat split; exact O).
  enough (C : octet_check s = true). { unfold octet_check in C. rewrite R in C. apply bytes_eqb_eq in C. now symmetry. }
  pose proof octet_sweep as S. clear R. destruct O as [x a X|x y a d X Y _|x y z a d e X Y Z _ _];
    rewrite forallb_forall in S; specialize (S x (digit_in _ _ X)); apply andb_prop in S as [S1 S]; [exact S1|..];
    rewrite forallb_forall in S; specialize (S y (digit_in _ _ Y)); apply andb_prop in S as [S2 S]; [exact S2|].
  rewrite forallb_forall in S. exact (S z (digit_in _ _ Z)).
Qed.
Lemma dotted_unique s x : dotted s x -> s = print_ip x.
Proof. intros (a & b & c & d & -> & A & B & C & D). unfold print_ip. now rewrite (octet_unique _ _ A), (octet_unique _ _ B), (octet_unique _ _ C), (octet_unique _ _ D). Qed.
Lemma first_longest_unique l a n b m : first_longest l a n -> first_longest l b m -> a = b /\ n = m.
Proof.
  intros (Z1 & M1) (Z2 & M2). destruct (M1 _ _ Z2) as [L1 E1], (M2 _ _ Z1) as [L2 E2]. assert (n = m) as -> by lia.
  specialize (E1 eq_refl). specialize (E2 eq_refl). lia.
Qed.
Lemma written_unique i s t : written_ip i s -> written_ip i t -> s = t.
Proof.
  destruct i as [x|i]; cbn [written_ip]; [intros A B; apply dotted_unique in A, B; congruence|].
  intros [(x & d & M & D & ->)|(N & st & n & F & K)] [(y & e & M2 & D2 & ->)|(N2 & st2 & n2 & F2 & K2)].
  - f_equal. unfold mapped in *. rewrite M in M2. cbn [repeat app] in M2. injection M2 as E1 E2 E3 E4. apply dotted_unique in D, D2. destruct x, y; cbn in *; congruence.
  - exfalso. exact (N2 x M).
  - exfalso. exact (N y M2).
  - destruct (first_longest_unique _ _ _ _ _ F F2) as [<- <-].
    destruct K as [(L & f & b & A & B & ->)|(L & A)], K2 as [(L2 & f2 & b2 & A2 & B2 & ->)|(L2 & A2)]; try (exfalso; lia).
    + apply short_groups_unique in A, B, A2, B2. congruence.
    + apply short_groups_unique in A, A2. congruence.
Qed.
Theorem c97_one_written_form : forall i s, written_ip i s <-> s = print_ip_addr i.
Proof. intros i s. split; [intros H; exact (written_unique i _ _ H (c97_address_written i))|intros ->; apply c97_address_written]. Qed.
Print Assumptions c97_one_written_form.
(** ... which is one of its texts. *)
Theorem c97_written_is_read : forall i, ip_text (print_ip_addr i) i.
Proof. intros i. apply parse_ip_addr_iff, parse_ip_addr_print. Qed.
Print Assumptions c97_written_is_read.

(** The resolver configuration the enclave writes: one line an address, in
    order, in that form. *)
Theorem c97_resolv_conf_text : forall d, exists texts, Forall2 written_ip (dns_resolvers d) texts
  /\ Reaper.resolv_conf d = concat (map (fun t => bs "nameserver " ++ t ++ [x0a]) texts).
Proof.
  intros [l]. exists (map print_ip_addr l). unfold Reaper.resolv_conf. cbn [dns_resolvers]. split.
  - induction l as [|i l IH]; constructor; [apply c97_address_written|exact IH].
  - now rewrite map_map.
Qed.
Print Assumptions c97_resolv_conf_text.

Definition v6_example : ipv6 := Ipv6 (x20, x01) (x00, x00) (x00, x00) (x00, x01) (x00, x00) (x00, x00) (x00, x00) (x0a, x53).
Example c97_nontrivial :
  ip_text (bs "2001:0:0:1::a53") (IpV6 v6_example) /\ ip_text (bs "2001::1:0:0:0.0.10.83") (IpV6 v6_example)
  /\ ip_text (bs "2001:0000::0001:0:0:0:0A53") (IpV6 v6_example)
  /\ (forall i, ~ ip_text (bs "1.2.3.256") i) /\ (forall i, ~ ip_text (bs "1.2.3.04") i) /\ (forall i, ~ ip_text (bs "1:2:3:4:5:6:7:8::") i)
  /\ (forall i, ~ ip_text (bs "1.2.3.4::") i) /\ (forall i, ~ ip_text (bs "::1%eth0") i)
  /\ print_ip_addr (IpV6 v6_example) = bs "2001:0:0:1::a53" /\ written_ip (IpV6 v6_example) (bs "2001:0:0:1::a53")
  /\ dns_from (bs "[8.8.8.8,2001:0:0:1::a53]") = Some [IpV4 (Ipv4 x08 x08 x08 x08); IpV6 v6_example]
  /\ dns_from (bs "[8.8.8.8, 1.1.1.1]") = None /\ dns_from (bs "[8.8.8.8,]") = None.
Proof.
  assert (N : forall s, parse_ip_addr s = None -> forall i, ~ ip_text s i) by (intros s H i X; apply parse_ip_addr_iff in X; congruence).
  assert (W : print_ip_addr (IpV6 v6_example) = bs "2001:0:0:1::a53") by (vm_compute; reflexivity).
  split; [apply parse_ip_addr_iff; vm_compute; reflexivity|]. split; [apply parse_ip_addr_iff; vm_compute; reflexivity|].
  split; [apply parse_ip_addr_iff; vm_compute; reflexivity|].
  split; [apply N; vm_compute; reflexivity|]. split; [apply N; vm_compute; reflexivity|]. split; [apply N; vm_compute; reflexivity|].
  split; [apply N; vm_compute; reflexivity|]. split; [apply N; vm_compute; reflexivity|].
  split; [exact W|]. split; [rewrite <- W; apply c97_address_written|]. repeat split; vm_compute; reflexivity.
Qed.
