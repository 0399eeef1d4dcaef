(** Release files, approvals and re-encryption: the client commands step by step. *)
From Coq Require Import Permutation Sorting.Sorted ZifyBool ZifyN ZifyNat.
From Verif Require Import Base Utf8 Hex HexProofs Borsh Json JsonProofs Types TypesBorsh TypesJson Msg World Attest Services Builder CliParser CliProofs
  SpecApproval ApprovalProofs ExportProofs Client SpecClient ClientProofs ClientSets.
Local Open Scope N_scope.

Lemma chomp_iff l t : (exists u, l = u ++ [x0a] /\ ~ In x0a u) \/ ~ In x0a l -> (chomp l = t <-> line_text l t).
Proof.
  intros Hl. unfold chomp, line_text. destruct (rev l) as [|x [|y r]] eqn:R.
  - assert (l = []) as -> by (rewrite <- (rev_involutive l), R; reflexivity). split.
    + intros <-. right. right. now split.
    + intros [E|[[E _]|[E _]]]; try (now apply app_cons_not_nil in E); [exact E].
  - assert (l = [x]) as -> by (rewrite <- (rev_involutive l), R; reflexivity).
    destruct (byte_eqb_spec x x0a) as [->|N].
    + split.
      * intros <-. right. left. split; [reflexivity|]. intros r' E. now apply app_cons_not_nil in E.
      * intros [E|[[E _]|[E Ni]]].
        -- destruct t as [|? [|]]; discriminate E.
        -- change [x0a] with ([] ++ [x0a]) in E at 1. apply app_inj_tail in E as [<- _]. reflexivity.
        -- exfalso. apply Ni. now left.
    + split.
      * intros <-. right. right. split; [reflexivity|]. intros [?|[]]. congruence.
      * intros [E|[[E _]|[E Ni]]].
        -- destruct t as [|? [|]]; discriminate E.
        -- change [x] with ([] ++ [x]) in E. apply app_inj_tail in E as [_ E]. congruence.
        -- exact E.
  - assert (E0 : l = (rev r ++ [y]) ++ [x]) by (rewrite <- (rev_involutive l), R; reflexivity).
    destruct (byte_eqb_spec x x0a) as [->|N].
    + destruct (byte_eqb_spec y x0d) as [->|Ny].
      * split.
        -- intros <-. left. rewrite E0, <- app_assoc. reflexivity.
        -- intros [E|[[E Nr]|[E Ni]]].
           ++ rewrite E0 in E. change [x0d; x0a] with ([x0d] ++ [x0a]) in E. rewrite app_assoc in E.
              apply app_inj_tail in E as [E _]. now apply app_inj_tail in E as [E _].
           ++ rewrite E0 in E. apply app_inj_tail in E as [E _]. exfalso. apply (Nr (rev r)). now rewrite E.
           ++ exfalso. apply Ni. rewrite E0. apply in_or_app. right. now left.
      * split.
        -- intros <-. right. left. cbn [rev]. split; [exact E0|]. intros r' E. apply app_inj_tail in E as [_ E]. congruence.
        -- intros [E|[[E Nr]|[E Ni]]].
           ++ rewrite E0 in E. change [x0d; x0a] with ([x0d] ++ [x0a]) in E. rewrite app_assoc in E.
              apply app_inj_tail in E as [E _]. apply app_inj_tail in E as [_ E]. congruence.
           ++ rewrite E0 in E. apply app_inj_tail in E as [E _]. cbn [rev]. exact E.
           ++ exfalso. apply Ni. rewrite E0. apply in_or_app. right. now left.
    + split.
      * intros <-. right. right. split; [reflexivity|]. destruct Hl as [(u & -> & _)|Hl]; [|exact Hl].
        exfalso. apply app_inj_tail in E0 as [_ E0]. congruence.
      * intros [E|[[E Nr]|[E Ni]]].
        -- rewrite E0 in E. change [x0d; x0a] with ([x0d] ++ [x0a]) in E. rewrite app_assoc in E. apply app_inj_tail in E as [_ E]. congruence.
        -- rewrite E0 in E. apply app_inj_tail in E as [_ E]. congruence.
        -- exact E.
Qed.
Lemma next_line_shape c l rest : next_line c l rest -> (exists u, l = u ++ [x0a] /\ ~ In x0a u) \/ ~ In x0a l.
Proof. intros [_ [H|[H _]]]; auto. Qed.
Lemma cut_line_short c l rest : c <> [] -> cut_line c = (l, rest) -> (length rest < length c)%nat.
Proof.
  intros N E. apply cut_line_iff in E as [-> H]. rewrite app_length. destruct l as [|x l]; [|cbn; lia].
  destruct H as [(t & E & _)|[_ ->]]; [now apply app_cons_not_nil in E|]. now cbn in N.
Qed.
Lemma raw_lines_iff n : forall c ls, (length c <= n)%nat ->
  (raw_lines n c = ls /\ forallb utf8_valid ls = true) <-> text_lines c ls.
Proof.
  induction n as [|n IH]; intros c ls L.
  - destruct c; [|cbn in L; lia]. cbn [raw_lines]. split.
    + intros [<- _]. constructor.
    + inversion 1; subst; [now split|congruence].
  - destruct c as [|x c].
    + cbn [raw_lines]. split; [intros [<- _]; constructor|]. inversion 1; subst; [now split|congruence].
    + cbn [raw_lines]. destruct (cut_line (x :: c)) as [l rest] eqn:E.
      assert (Ls : (length rest <= n)%nat) by (apply cut_line_short in E; [lia|discriminate]).
      pose proof E as E2. apply cut_line_iff in E2. pose proof (next_line_shape _ _ _ E2) as Sh. split.
      * intros [<- V]. cbn [forallb] in V. apply andb_true_iff in V as [V1 V2].
        econstructor; [discriminate|exact E2|now apply chomp_iff|exact V1|]. apply IH; [exact Ls|]. now split.
      * inversion 1 as [|c' l' rest' t ls' Nc NL LT V TL]; subst. apply cut_line_iff in NL. rewrite E in NL.
        assert (l' = l /\ rest' = rest) as [-> ->] by (split; congruence). apply chomp_iff in LT; [|exact Sh].
        apply IH in TL as [R V2]; [|exact Ls]. split; [congruence|]. cbn [forallb]. now rewrite V, V2.
Qed.
Lemma lines_of_iff c ls : lines_of c = Some ls <-> text_lines c ls.
Proof.
  unfold lines_of. rewrite <- (raw_lines_iff (length c)) by lia. destruct (forallb utf8_valid (raw_lines (length c) c)) eqn:V.
  - split; [intros E; assert (raw_lines (length c) c = ls) as <- by congruence; now split|intros [-> _]; reflexivity].
  - split; [discriminate|]. intros [<- H]. congruence.
Qed.
Lemma first_line_iff f l : (let? c := f in let? ls := lines_of c in nth_error ls 0) = Some l <-> first_line_is f l.
Proof.
  unfold first_line_is. rewrite obind_some. split.
  - intros (c & -> & H). apply obind_some in H as (ls & L & H). apply lines_of_iff in L. destruct ls as [|x ls]; [discriminate|].
    assert (x = l) as -> by (cbn in H; congruence). eauto.
  - intros (c & ls & -> & L). exists c. split; [reflexivity|]. apply lines_of_iff in L. rewrite L. reflexivity.
Qed.
Lemma find_pcr3_iff f l : find_pcr3 f = Some l <-> first_line_is f l.
Proof. apply first_line_iff. Qed.
Lemma pivot_hash_iff f h : extract_pivot_hash f = Some h <-> exists l, first_line_is f l /\ decode l = Ok h.
Proof.
  unfold extract_pivot_hash. rewrite obind_some. split.
  - intros (c & -> & H). apply obind_some in H as (ls & L & H). apply obind_some in H as (l & N & H). apply ok_opt_some in H.
    exists l. split; [|exact H]. apply first_line_iff. cbn [obind]. now rewrite L.
  - intros (l & F & D). apply first_line_iff in F. apply obind_some in F as (c & -> & F). apply obind_some in F as (ls & L & N).
    exists c. split; [reflexivity|]. rewrite L. cbn [obind]. rewrite N. cbn [obind]. now rewrite D.
Qed.

Lemma two_words l : (match split_on " "%byte l with [a; b] => Some (a, b) | _ => None end) <> None <->
  exists a b, l = a ++ " "%byte :: b /\ ~ In " "%byte a /\ ~ In " "%byte b.
Proof.
  split.
  - pose proof (split_join " " l) as J. pose proof (split_free " " l) as F.
    destruct (split_on " " l) as [|a [|b [|]]]; try congruence. intros _. exists a, b. cbn [join] in J. inversion F as [|? ? F1 F2]; subst. inversion F2; subst. now split.
  - intros (a & b & -> & Na & Nb). rewrite split_app, split_word by assumption. discriminate.
Qed.
Lemma two_words_eq l a b : (match split_on " "%byte l with [a; b] => Some (a, b) | _ => None end) = Some (a, b) <->
  l = a ++ " "%byte :: b /\ ~ In " "%byte a /\ ~ In " "%byte b.
Proof.
  split.
  - pose proof (split_join " " l) as J. pose proof (split_free " " l) as F.
    destruct (split_on " " l) as [|a' [|b' [|]]]; try congruence. intros E. assert (a' = a /\ b' = b) as [-> ->] by (split; congruence).
    cbn [join] in J. inversion F as [|? ? F1 F2]; subst. inversion F2; subst. now split.
  - intros (-> & Na & Nb). rewrite split_app, split_word by assumption. reflexivity.
Qed.
Lemma entries_iff f es : lines_to_entries f = Some es <-> exists c ls, f = Some c /\ text_lines c ls /\
  Forall2 (fun l e => l = fst e ++ " "%byte :: snd e /\ ~ In " "%byte (fst e) /\ ~ In " "%byte (snd e)) ls es.
Proof.
  unfold lines_to_entries. rewrite obind_some. split.
  - intros (c & -> & H). apply obind_some in H as (ls & L & H). exists c, ls. split; [reflexivity|]. split; [now apply lines_of_iff|].
    apply mapM_iff in H. eapply Forall2_impl2; [|exact H]. intros l [a b] E. apply two_words_eq in E. exact E.
  - intros (c & ls & -> & L & F). exists c. split; [reflexivity|]. apply lines_of_iff in L. rewrite L. cbn [obind].
    apply mapM_iff. eapply Forall2_impl2; [|exact F]. intros l [a b] E. apply two_words_eq. exact E.
Qed.
Lemma words_unique a b a' b' : a ++ " "%byte :: b = a' ++ " "%byte :: b' -> ~ In " "%byte a -> ~ In " "%byte b -> ~ In " "%byte b' -> a = a' /\ b = b'.
Proof.
  intros E Na Nb Nb'. assert (X : split_on " " (a ++ " "%byte :: b) = split_on " " (a' ++ " "%byte :: b')) by now rewrite E.
  rewrite (split_last " " a b Nb), (split_last " " a' b' Nb') in X. apply app_inj_tail in X as [X ->]. split; [|reflexivity].
  rewrite <- (split_join " " a), <- (split_join " " a'). now rewrite X.
Qed.
Lemma pcrs_file_iff f p0 p1 p2 : extract_qos_pcrs f = Some (p0, p1, p2) <-> release_pcrs f p0 p1 p2.
Proof.
  unfold extract_qos_pcrs, release_pcrs. rewrite obind_some. split.
  - intros (es & E & H). apply entries_iff in E as (c & ls & -> & L & F).
    apply obind_some in H as (q0 & G0 & H). apply obind_some in H as (q1 & G1 & H). apply obind_some in H as (q2 & G2 & H).
    assert (q0 = p0 /\ q1 = p1 /\ q2 = p2) as (-> & -> & ->) by (repeat split; congruence).
    unfold get_entry in G0, G1, G2. apply obind_some in G0 as (e0 & N0 & G0), G1 as (e1 & N1 & G1), G2 as (e2 & N2 & G2).
    apply if_some in G0 as [B0 G0], G1 as [B1 G1], G2 as [B2 G2]. apply bytes_eqb_eq in B0, B1, B2. apply ok_opt_some in G0, G1, G2.
    destruct es as [|x0 [|x1 [|x2 es]]]; try discriminate. cbn in N0, N1, N2. assert (x0 = e0 /\ x1 = e1 /\ x2 = e2) as (-> & -> & ->) by (repeat split; congruence).
    destruct e0 as [a0 b0], e1 as [a1 b1], e2 as [a2 b2]. cbn [fst snd] in *. subst b0 b1 b2.
    assert (Fw : Forall (fun l => exists a b, l = a ++ " "%byte :: b /\ ~ In " "%byte a /\ ~ In " "%byte b) ls).
    { clear - F. induction F as [|l e ls' es' (E & Na & Nb) F IH]; constructor; [exists (fst e), (snd e); now split|exact IH]. }
    inversion F as [|l0 ? ls0 ? (E0 & _) F0]; subst. inversion F0 as [|l1 ? ls1 ? (E1 & _) F1]; subst. inversion F1 as [|l2 ? ls2 ? (E2 & _) F2]; subst.
    eexists c, _, a0, a1, a2, ls2. split; [reflexivity|]. split; [exact L|]. split; [reflexivity|].
    split; [exact Fw|]. now split.
  - intros (c & ls & h0 & h1 & h2 & more & -> & L & El & Fw & D0 & D1 & D2).
    assert (X : exists es, Forall2 (fun l e => l = fst e ++ " "%byte :: snd e /\ ~ In " "%byte (fst e) /\ ~ In " "%byte (snd e)) ls es).
    { clear - Fw. induction Fw as [|l ls' (a & b & E) Fw [es IH]]; [exists []; constructor|]. exists ((a, b) :: es). constructor; assumption. }
    destruct X as [es F]. exists es. split; [apply entries_iff; exists c, ls; split; [reflexivity|]; split; [exact L|exact F]|].
    rewrite El in F. inversion F as [|l0 e0 ls0 es0 (E0 & N0 & N0') F0]; subst. inversion F0 as [|l1 e1 ls1 es1 (E1 & N1 & N1') F1]; subst.
    inversion F1 as [|l2 e2 ls2 es2 (E2 & N2 & N2') F2]; subst. clear F F0 F1 F2.
    destruct e0 as [a0 b0], e1 as [a1 b1], e2 as [a2 b2]. cbn [fst snd] in *.
    symmetry in E0, E1, E2.
    apply words_unique in E0 as [A0 B0]; [|assumption|assumption|intros I; cbn in I; intuition discriminate].
    apply words_unique in E1 as [A1 B1]; [|assumption|assumption|intros I; cbn in I; intuition discriminate].
    apply words_unique in E2 as [A2 B2]; [|assumption|assumption|intros I; cbn in I; intuition discriminate].
    unfold get_entry. cbn [nth_error obind fst snd]. subst a0 a1 a2 b0 b1 b2.
    rewrite D0, D1, D2. reflexivity.
Qed.

Section Files.
  Context {Y : sys}.
  Lemma nitro_iff pcrs role n : extract_nitro_config Y pcrs role = Some n <-> release_config Y pcrs role n.
  Proof.
    unfold extract_nitro_config, release_config, extract_pcr3. rewrite obind_some. split.
    - intros (p3 & P & H). apply obind_some in P as (r & P & E3). apply find_pcr3_iff in P.
      apply obind_some in H as ([[p0 p1] p2] & Q & H). apply pcrs_file_iff in Q.
      assert (n = NitroConfig p0 p1 p2 p3 (s_root Y) []) as -> by congruence. cbn [pcr0 pcr1 pcr2 pcr3 aws_root_certificate qos_commit].
      split; [exact Q|]. split; [exists r; split; [exact P|]; unfold pcr3_from_preimage in E3; congruence|]. now split.
    - intros (Q & (r & P & E3) & Er & Ec). apply pcrs_file_iff in Q. apply find_pcr3_iff in P. exists (pcr3 n). rewrite P. cbn [obind].
      split; [unfold pcr3_from_preimage; now rewrite E3|]. rewrite Q. cbn [obind]. destruct n; cbn in *; congruence.
  Qed.
  Lemma public_file_iff f k : (exists kk, public_from_hex_file Y f = Some kk /\ k = public_to_bytes kk) <-> public_key_file Y f k.
  Proof.
    unfold public_key_file. split.
    - intros ([e g] & P & ->). apply public_hex_iff in P as (c & F & D & K). exists c, e, g. now split.
    - intros (c & e & g & F & D & K). exists (e, g). pose proof K as (E & _). cbn [m_pub_key] in E. subst k. split; [|reflexivity].
      apply public_hex_iff. eauto.
  Qed.
  Lemma read_pair_iff f seed ek sk : read_pair Y f = Some (seed, (ek, sk)) <-> personal_key Y f seed ek sk.
  Proof.
    unfold read_pair, personal_key. rewrite obind_some. split.
    - intros (c & -> & H). exists c. split; [reflexivity|]. apply obind_some in H as (s & S & H). apply obind_some in H as (k & P & E).
      assert (s = seed /\ k = (ek, sk)) as [-> ->] by (split; congruence). split; [exact S|]. apply ok_opt_some in P. unfold from_master_seed in P.
      destruct (s_pair Y seed); congruence.
    - intros (c & -> & S & P). exists c. split; [reflexivity|]. rewrite S. cbn [obind]. unfold from_master_seed. rewrite P. reflexivity.
  Qed.
  Lemma sorted_keys l : sorted (map anon l) <-> StronglySorted text_le l.
  Proof.
    induction l as [|k l IH]; cbn [map].
    - split; constructor.
    - assert (X : forall x, member_leb (anon k) (anon x) = true <-> text_le k x).
      { intros x. rewrite <- text_le_iff. unfold member_leb. cbn. destruct (bytes_cmp k x); split; congruence. }
      split.
      + intros Hs. inversion Hs as [|m l' H S]; subst. constructor; [now apply IH|]. apply Forall_forall. intros x I. apply X. apply H. now apply in_map.
      + intros Hs. inversion Hs as [|m l' S H]; subst. constructor; [|now apply IH]. intros y I. apply in_map_iff in I as (x & <- & I).
        rewrite Forall_forall in H. apply X. auto.
  Qed.
  Lemma read_key_iff e k : (let? kk := public_from_hex_file Y (snd e) in Some (public_to_bytes kk)) = Some k <->
    exists m, key_in Y e m /\ m_pub_key m = k.
  Proof.
    rewrite obind_some. split.
    - intros (kk & P & E). exists (QuorumMember (hd [] (split_file_name (fst e))) (public_to_bytes kk)). split; [|cbn [m_pub_key]; congruence].
      apply read_member_iff. unfold read_member. now rewrite P.
    - intros (m & K & <-). apply read_member_iff in K. unfold read_member in K. apply obind_some in K as (kk & P & E). exists kk. split; [exact P|].
      assert (m = QuorumMember (hd [] (split_file_name (fst e))) (public_to_bytes kk)) as -> by congruence. reflexivity.
  Qed.
  Lemma get_patch_iff d p : get_patch_set Y d = Some p <-> directory_patch_set Y d p.
  Proof.
    unfold get_patch_set, directory_patch_set. rewrite with_pub, obind_some. split.
    - intros (ks & M & H). apply obind_some in H as (t & T & E). assert (p = PatchSet t (sort_keys ks)) as -> by congruence.
      cbn [ps_members ps_threshold]. split; [|now apply find_threshold_iff]. apply mapM_iff in M.
      exists (filter key_entry d), (filter (fun x => negb (key_entry x)) d). split; [apply filter_partition|]. split; [|split].
      + apply Forall_forall. intros x I. apply filter_In in I as [_ I]. now apply key_entry_iff.
      + apply Forall_forall. intros x I N. apply filter_In in I as [_ I]. apply key_entry_iff in N. rewrite N in I. discriminate.
      + assert (X : exists ms, Forall2 (key_in Y) (filter key_entry d) ms /\ map m_pub_key ms = ks).
        { clear - M. induction M as [|e k l r E M (ms & F & <-)]; [exists []; split; constructor|]. apply read_key_iff in E as (m & K & <-).
          exists (m :: ms). split; [now constructor|reflexivity]. }
        destruct X as (ms & F & <-). exists ms. split; [exact F|]. split.
        * assert (G : Permutation (map anon (sort_keys (map m_pub_key ms))) (map anon (map m_pub_key ms))) by (rewrite sort_keys_members; apply sort_perm).
          apply (Permutation_map m_pub_key) in G. rewrite !map_map in G. cbn [anon m_pub_key] in G. rewrite !map_id in G. exact G.
        * apply sorted_keys. rewrite sort_keys_members. apply sort_sorted.
    - intros [(files & others & P & Fk & Fo & ms & F2 & Pm & So) T]. apply find_threshold_iff in T.
      assert (Q : Permutation (filter key_entry d) files).
      { eapply partition_filter; [exact P| |].
        - eapply Forall_impl; [|exact Fk]. intros x H. now apply key_entry_iff.
        - apply Forall_forall. intros x I. rewrite Forall_forall in Fo. specialize (Fo x I). destruct (key_entry x) eqn:X; [|reflexivity].
          exfalso. apply Fo. now apply key_entry_iff. }
      destruct (Forall2_perm _ _ _ _ (Permutation_sym Q) F2) as (ms' & F2' & Pm').
      exists (map m_pub_key ms'). split.
      + apply mapM_iff. clear - F2'. induction F2' as [|e m l r E M IH]; cbn [map]; constructor; [apply read_key_iff; eauto|exact IH].
      + rewrite T. cbn [obind]. assert (E : sort_keys (map m_pub_key ms') = ps_members p).
        { apply anon_inj. rewrite sort_keys_members. apply sorted_unique; [apply sort_sorted|now apply sorted_keys|]. rewrite sort_perm.
          apply Permutation_map. rewrite Pm. apply Permutation_map. now apply Permutation_sym. }
        rewrite E. destruct p; reflexivity.
  Qed.
End Files.
