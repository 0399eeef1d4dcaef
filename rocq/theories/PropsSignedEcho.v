(** C76: what the sample application signs. *)
From Coq Require Import ZifyBool ZifyN ZifyNat.
From Verif Require Import Base Utf8 Hex HexProofs Json JsonProofs NormProofs Types TypesJson Msg World Attest Services SpecProtocol SpecApproval SpecAttest SpecHistory SpecExport
  State Reach Run FsProofs HistoryProofs PropsHistory Client SpecClient ClientSets FileTools PropsFileTools SignedEcho CodecExamples Toy ToyRuns.
Local Open Scope N_scope.

(** *** Specification *)
(** What the application can be made to say, and the JSON it says it in. *)
Inductive statement :=
| Echoed (message : bytes) (time : N)
| Visited (url : bytes) (status : N) (text : bytes) (time : N).
Definition said_as (s : statement) : json :=
  match s with
  | Echoed m t => JObj [(Some (bs "domain"), str (bs "echo app signed")); (Some (bs "message"), str m); (Some (bs "time"), str (print_N t))]
  | Visited u st b t => JObj [(Some (bs "body"), str b); (Some (bs "domain"), str (bs "echo app signed")); (Some (bs "status"), str (print_N st));
                              (Some (bs "time"), str (print_N t)); (Some (bs "url"), str u)]
  end.
(** A verifier reads the reply, checks the signature over the payload under the
    public key [pk] named in it, and reads the payload. *)
Definition attests (Y : sys) (reply pk : bytes) (j : json) : Prop :=
  exists payload sig_hex pk_hex sig ek sk,
    parse reply = Some (JObj [(Some (bs "signed_payload_json"), str payload); (Some (bs "signature_hex"), str sig_hex); (Some (bs "public_key_hex"), str pk_hex)])
    /\ decode sig_hex = Ok sig /\ decode pk_hex = Ok pk /\ public_from_bytes Y pk = Ok (ek, sk) /\ s_verify Y sk payload sig = true /\ parse payload = Some j.
(** Which statement a request asks for. *)
Definition asked (now : option N) (web : bytes -> fetched) (r : request) (s : statement) : Prop :=
  match r, s with
  | Echo b, Echoed m t => m = b /\ now = Some t
  | GetUrl (Some u), Visited u' st b t => u' = u /\ now = Some t /\ web u = Answer st (Ok b) /\ 200 <= st < 300
  | _, _ => False
  end.
(** Texts are Rust strings, and the clock fits 64 bits. *)
Definition sane (now : option N) (web : bytes -> fetched) (r : request) : Prop :=
  (forall t, now = Some t -> t < 2 ^ 64)
  /\ match r with
     | GetUrl (Some u) => utf8_valid u = true
         /\ match web u with Answer _ (Ok t) | Answer _ (Err t) | NoAnswer t => utf8_valid t = true end
     | _ => True
     end.

(** *** Proofs *)
Lemma said_inj a b : said_as a = said_as b -> a = b.
Proof.
  destruct a as [m t|u st x t], b as [m' t'|u' st' x' t']; cbn [said_as]; intros E; [|discriminate..|].
  - assert (m = m' /\ print_N t = print_N t') as [-> P] by (remember (print_N t) as p; remember (print_N t') as p'; injection E; auto). now rewrite (print_N_inj _ _ P).
  - assert (x = x' /\ print_N st = print_N st' /\ print_N t = print_N t' /\ u = u') as (-> & P & Q & ->)
      by (remember (print_N t) as p; remember (print_N t') as p'; remember (print_N st) as q; remember (print_N st') as q'; injection E; auto).
    now rewrite (print_N_inj _ _ P), (print_N_inj _ _ Q).
Qed.
Definition payload (s : statement) : json := match s with Echoed m t => echo_payload m t | Visited u st b t => get_url_payload u st b t end.
Definition plain (s : statement) : Prop :=
  match s with Echoed m t => utf8_valid m = true /\ t < 2 ^ 64 | Visited u st b t => utf8_valid u = true /\ utf8_valid b = true /\ st < 2 ^ 64 /\ t < 2 ^ 64 end.
Lemma print_Z_N n : print_Z (Z.of_N n) = print_N n.
Proof. destruct n; reflexivity. Qed.
Lemma payload_norm s : norm (payload s) = Some (said_as s).
Proof.
  destruct s as [m t|u st b t]; unfold payload, echo_payload, get_url_payload, said_as, str, DOMAIN.
  - rewrite <- (print_Z_N t). remember (Z.of_N t) as z. vm_compute. reflexivity.
  - rewrite <- (print_Z_N t), <- (print_Z_N st). remember (Z.of_N t) as z. remember (Z.of_N st) as y. vm_compute. reflexivity.
Qed.
Lemma print_N_utf8 n : utf8_valid (print_N n) = true.
Proof. rewrite <- print_Z_N. apply print_Z_utf8. Qed.
Lemma said_jok s : plain s -> jok (said_as s) = true.
Proof.
  destruct s as [m t|u st b t]; cbn [plain said_as]; intros H; unfold str; cbn [jok forallb okey fst snd]; rewrite ?print_N_utf8.
  - destruct H as [-> _]. vm_compute. reflexivity.
  - destruct H as (-> & -> & _). vm_compute. reflexivity.
Qed.
Lemma payload_text s : canon (payload s) = Some (write (said_as s)).
Proof. unfold canon. now rewrite payload_norm. Qed.
Lemma asked_plain now web r s : sane now web r -> (match r with Echo b => utf8_valid b = true | _ => True end) -> asked now web r s -> plain s.
Proof.
  intros [T S] U A. destruct r as [|b|[u|]| |], s as [m t|u' st x t]; cbn [asked] in A; try contradiction.
  - destruct A as [-> N]. split; [exact U|exact (T _ N)].
  - destruct A as (-> & N & W & R). destruct S as [S1 S2]. split; [exact S1|]. split; [rewrite W in S2; exact S2|]. split; [|exact (T _ N)]. lia.
Qed.
(** the writer writes text *)
Lemma utf8_valid_app a b : utf8_valid a = true -> utf8_valid b = true -> utf8_valid (a ++ b) = true.
Proof.
  rewrite !utf8_valid_iff. intros (x & X & ->) (y & Y & ->). exists (x ++ y). unfold scalars in *. split; [now rewrite forallb_app, X, Y|]. unfold utf8_enc. now rewrite map_app, concat_app.
Qed.
Lemma encode_utf8 l : utf8_valid (encode l) = true.
Proof. apply ascii_valid, encode_ascii. Qed.
Lemma esc_high b : 128 <= b2n b -> esc_byte b = [b].
Proof. destruct b; intros H; try reflexivity; exfalso; vm_compute in H; now apply H. Qed.
Lemma esc_ascii b : b2n b < 128 -> utf8_valid (esc_byte b) = true.
Proof. destruct b; intros H; try reflexivity; discriminate H. Qed.
Lemma esc_char c : is_scalar c = true -> utf8_valid (concat (map esc_byte (utf8_char c))) = true.
Proof.
  intros S. assert (V : utf8_valid (utf8_char c) = true) by (apply utf8_valid_iff; exists [c]; cbn; rewrite S, app_nil_r; split; reflexivity).
  assert (C : c < 1114112) by (unfold is_scalar in S; lia).
  unfold utf8_char in *. destruct (N.ltb_spec c 128).
  - cbn [map concat]. rewrite app_nil_r. apply esc_ascii. rewrite b2n_n2b. lia.
  - destruct (N.ltb_spec c 2048); [|destruct (N.ltb_spec c 65536)]; cbn [map]; rewrite !esc_high by (rewrite b2n_n2b; lia); exact V.
Qed.
Lemma esc_utf8 s : utf8_valid s = true -> utf8_valid (concat (map esc_byte s)) = true.
Proof.
  intros H. apply utf8_valid_iff in H as (cs & S & ->). induction cs as [|c cs IH]; [reflexivity|].
  cbn [scalars forallb] in S. apply andb_true_iff in S as [S1 S2]. unfold utf8_enc. cbn [map concat]. rewrite map_app, concat_app. apply utf8_valid_app; [exact (esc_char c S1)|exact (IH S2)].
Qed.
Lemma write_str_utf8 s : utf8_valid s = true -> utf8_valid (write_str s) = true.
Proof. intros H. unfold write_str. apply (utf8_valid_app [x22]); [reflexivity|]. apply utf8_valid_app; [exact (esc_utf8 s H)|reflexivity]. Qed.
Lemma write_utf8 j : jok j = true -> utf8_valid (write j) = true.
Proof.
  induction j as [| [] |z|raw|s|l IH|m IH] using json_ind'; intros H; try reflexivity; try discriminate H.
  - apply print_Z_utf8.
  - destruct s as [s|]; [|discriminate H]. apply write_str_utf8. exact H.
  - destruct l as [|x l]; [reflexivity|]. cbn [write]. apply (utf8_valid_app ["["%byte]); [reflexivity|]. cbn [jok forallb] in H. apply andb_true_iff in H as [H1 H2].
    pose proof (Forall_inv IH) as I1. apply Forall_inv_tail in IH. apply utf8_valid_app; [exact (I1 H1)|]. apply utf8_valid_app; [|reflexivity].
    clear I1 H1. induction l as [|y l IHl]; [reflexivity|]. cbn [map concat]. cbn [forallb] in H2. apply andb_true_iff in H2 as [H1 H2]. pose proof (Forall_inv IH) as I1. apply Forall_inv_tail in IH.
    apply utf8_valid_app; [apply (utf8_valid_app [","%byte]); [reflexivity|exact (I1 H1)]|exact (IHl IH H2)].
  - destruct m as [|[k x] m]; [reflexivity|]. cbn [write]. apply (utf8_valid_app ["{"%byte]); [reflexivity|]. cbn [jok forallb fst snd] in H. apply andb_true_iff in H as [H1 H2]. apply andb_true_iff in H1 as [K H1].
    pose proof (Forall_inv IH) as I1. apply Forall_inv_tail in IH. destruct k as [k|]; [|discriminate K]. apply utf8_valid_app; [apply write_str_utf8; exact K|].
    apply (utf8_valid_app [":"%byte]); [reflexivity|]. apply utf8_valid_app; [exact (I1 H1)|]. apply utf8_valid_app; [|reflexivity].
    clear I1 H1 K. induction m as [|[k' y] m IHl]; [reflexivity|]. cbn [map concat]. cbn [forallb fst snd] in H2. apply andb_true_iff in H2 as [H1 H2]. apply andb_true_iff in H1 as [K H1]. pose proof (Forall_inv IH) as I1. apply Forall_inv_tail in IH.
    destruct k' as [k'|]; [|discriminate K]. cbn [fst snd opt_str]. apply utf8_valid_app; [|exact (IHl IH H2)].
    apply (utf8_valid_app [","%byte]); [reflexivity|]. apply utf8_valid_app; [apply write_str_utf8; exact K|]. apply (utf8_valid_app [":"%byte]); [reflexivity|exact (I1 H1)].
Qed.
(** the handlers, by the statement asked for *)
Lemma handlers Y key now web r : (exists s, asked now web r s /\ (match r with Echo b => utf8_valid b = true | _ => True end)
      /\ router Y key now web r = reply_of (sign_json_payload Y key (payload s)))
  \/ (code (router Y key now web r) <> 200 /\ (match r with Echo b => utf8_valid b = false \/ now = None | GetUrl (Some u) => now = None \/ forall st b, web u = Answer st (Ok b) -> ~ 200 <= st < 300 | _ => True end)) \/ r = Health.
Proof.
  destruct r as [|b|[u|]| |]; cbn [router]; [right; right; reflexivity| | |right; left; split; [discriminate|exact I]..].
  - destruct (utf8_valid b) eqn:U; [|right; left; split; [discriminate|now left]]. unfold signed_echo. destruct now as [t|]; [|right; left; split; [discriminate|now right]].
    left. exists (Echoed b t). split; [split; reflexivity|]. split; [reflexivity|]. reflexivity.
  - unfold signed_get_url, fetch. destruct (web u) as [e|st [b|e]] eqn:W; cbn [reply_of error_reply code].
    + right; left. split; [discriminate|]. right. intros; discriminate.
    + destruct ((200 <=? st) && (st <? 300)) eqn:R.
      * destruct now as [t|]; [|right; left; split; [discriminate|now left]]. left. exists (Visited u st b t). split; [split; [reflexivity|split; [reflexivity|split; [exact W|lia]]]|]. split; [exact I|reflexivity].
      * right; left. split; [discriminate|]. right. intros st' b' E. injection E as <- <-. lia.
    + right; left. split; [destruct ((200 <=? st) && (st <? 300)); discriminate|]. right. intros; discriminate.
Qed.
Section Signing.
  Context (Y : sys) (OK : sys_ok Y) (CR : crypto_ok Y).
  Context (SG : forall seed m, length (s_sign Y seed m) = 64%nat).
  Lemma signed_attests key seed k s : read_pair Y key = Some (seed, k) -> plain s ->
    code (reply_of (sign_json_payload Y key (payload s))) = 200 /\ attests Y (body (reply_of (sign_json_payload Y key (payload s)))) (public_to_bytes k) (said_as s).
  Proof.
    intros K P. unfold sign_json_payload. rewrite K, payload_text. cbn [reply_of ok_reply code body signed_payload_json signature_hex public_key_hex]. split; [reflexivity|].
    destruct k as [ek sk]. assert (PK : s_pair Y seed = Some (ek, sk)).
    { unfold read_pair in K. destruct key as [c|]; [|discriminate]. cbn [obind] in K. destruct (seed_of_hex c) as [sd|]; [|discriminate]. cbn [obind] in K. unfold from_master_seed in K.
      destruct (s_pair Y sd) as [k'|] eqn:E; [|discriminate]. cbn [ok_opt obind] in K. injection K as -> <-. exact E. }
    destruct (ok_pair Y OK seed ek sk PK) as (L1 & L2 & P1 & P2).
    exists (write (said_as s)), (encode (s_sign Y seed (write (said_as s)))), (encode (public_to_bytes (ek, sk))), (s_sign Y seed (write (said_as s))), ek, sk.
    split; [|split; [|split; [|split; [|split]]]].
    - apply parse_write. unfold str. cbn [jok forallb okey fst snd]. rewrite !encode_utf8. 
      replace (utf8_valid (write (said_as s))) with true by (symmetry; apply write_utf8; exact (said_jok s P)). vm_compute. reflexivity.
    - apply decode_encode. rewrite lenN_length, SG. reflexivity.
    - apply decode_encode. unfold public_to_bytes. cbn [fst snd]. rewrite lenN_length, app_length, L1, L2. reflexivity.
    - unfold public_from_bytes, public_to_bytes. cbn [fst snd]. rewrite lenN_length, app_length, L1, L2. cbn [Nat.add]. change (130 <? N.of_nat 130) with false. change (N.of_nat 130 <? 130) with false. cbv iota zeta.
      rewrite firstn_app, L1. replace (65 - 65)%nat with 0%nat by lia. rewrite firstn_all2 by lia. cbn [firstn]. rewrite app_nil_r.
      rewrite skipn_app, L1. replace (65 - 65)%nat with 0%nat by lia. rewrite (skipn_all2 ek) by lia. cbn [skipn app]. now rewrite P1, P2.
    - exact (cr_verify Y CR seed ek sk _ PK).
    - exact (parse_write _ (said_jok s P)).
  Qed.
  Lemma unsigned_code key j : read_pair Y key = None -> code (reply_of (sign_json_payload Y key j)) = 500.
  Proof. intros K. unfold sign_json_payload. now rewrite K. Qed.
End Signing.

(** *** Theorems *)
(** Every successful reply, other than to the health check, is a statement the
    request asked for, signed by the key in the file at that moment. *)
Theorem c76_signed_statements : forall Y, sys_ok Y -> crypto_ok Y -> (forall seed m, length (s_sign Y seed m) = 64%nat) -> forall key now web r,
  sane now web r -> r <> Health -> code (router Y key now web r) = 200 ->
  exists s seed k, asked now web r s /\ read_pair Y key = Some (seed, k) /\ attests Y (body (router Y key now web r)) (public_to_bytes k) (said_as s).
Proof.
  intros Y OK CR SG key now web r S NH C. destruct (handlers Y key now web r) as [(s & A & U & E)|[[N _]|H]]; [|congruence|congruence].
  rewrite E in C |- *. destruct (read_pair Y key) as [[seed k]|] eqn:K; [|rewrite (unsigned_code Y key _ K) in C; discriminate C].
  exists s, seed, k. split; [exact A|]. split; [reflexivity|]. exact (proj2 (signed_attests Y OK CR SG key seed k s K (asked_plain now web r s S U A))).
Qed.
Print Assumptions c76_signed_statements.

(** A reply has one meaning: no reply, read by anyone, attests two statements;
    in particular nothing said for an echo can be passed off as a page visited. *)
Theorem c76_one_meaning : forall Y reply pk pk' s s',
  attests Y reply pk (said_as s) -> attests Y reply pk' (said_as s') -> s = s' /\ pk = pk'.
Proof.
  intros Y reply pk pk' s s' (p & sg & ph & sig & ek & sk & P & D1 & D2 & _ & _ & J) (p' & sg' & ph' & sig' & ek' & sk' & P' & D1' & D2' & _ & _ & J').
  assert (E : p = p' /\ ph = ph') by (rewrite P in P'; injection P'; auto). destruct E as [<- <-]. split; [apply said_inj|]; congruence.
Qed.
Print Assumptions c76_one_meaning.

(** It always answers: with a readable key and a clock after 1970, every UTF-8
    body is echoed, and every page fetched with a 2xx status is reported. *)
Theorem c76_always_answers : forall Y, sys_ok Y -> crypto_ok Y -> (forall seed m, length (s_sign Y seed m) = 64%nat) -> forall key seed k now t web r s,
  read_pair Y key = Some (seed, k) -> now = Some t -> sane now web r -> asked now web r s -> (forall b, r = Echo b -> utf8_valid b = true) ->
  code (router Y key now web r) = 200 /\ attests Y (body (router Y key now web r)) (public_to_bytes k) (said_as s).
Proof.
  intros Y OK CR SG key seed k now t web r s K N S A U.
  assert (U' : match r with Echo b => utf8_valid b = true | _ => True end) by (destruct r; try exact I; exact (U _ eq_refl)).
  destruct (handlers Y key now web r) as [(s' & A' & _ & E)|[[_ F]|H]].
  - assert (s' = s) as ->.
    { destruct r as [|b|[u|]| |], s as [m1 t1|u1 st1 x1 t1], s' as [m2 t2|u2 st2 x2 t2]; cbn [asked] in A, A'; try contradiction.
      - destruct A as [-> A], A' as [-> A']. congruence.
      - destruct A as (-> & A & W & _), A' as (-> & A' & W' & _). congruence. }
    rewrite E. exact (signed_attests Y OK CR SG key seed k s K (asked_plain now web r s S U' A)).
  - exfalso. destruct r as [|b|[u|]| |], s as [m1 t1|u1 st1 x1 t1]; cbn [asked] in A; try contradiction.
    + destruct F as [F|F]; congruence.
    + destruct A as (-> & _ & W & R). destruct F as [F|F]; [congruence|]. exact (F _ _ W R).
  - subst r. destruct s; contradiction.
Qed.
Print Assumptions c76_always_answers.

(** In the enclave: whenever the application is served the quorum key file, what
    it signs is signed under the quorum key named in the manifest stored there. *)
Theorem c76_speaks_for_the_manifest : forall Y, sys_ok Y -> crypto_ok Y -> (forall seed m, length (s_sign Y seed m) = 64%nat) -> forall s tr f now web r,
  reach Y s -> moment Y s tr f -> sane now web r -> r <> Health -> code (router Y (content f Quorum) now web r) = 200 ->
  exists st e, asked now web r st /\ stored f e /\ attests Y (body (router Y (content f Quorum) now web r)) (ns_quorum_key (vm_namespace (env_manifest e))) (said_as st).
Proof.
  intros Y OK CR SG s tr f now web r R M S NH C. destruct (c76_signed_statements Y OK CR SG _ now web r S NH C) as (st & seed & k & A & K & T).
  destruct (content f Quorum) as [c|] eqn:Q; [|discriminate K]. destruct (c04_installed_key_is_the_manifests Y OK s tr f c R M Q) as (sd & e & -> & ST & L & ek & sk & P & PUB).
  rewrite (read_pair_encode sd (ek, sk) L P) in K. assert (k = (ek, sk)) as -> by congruence. exists st, e. split; [exact A|]. split; [exact ST|].
  rewrite PUB. exact T.
Qed.
Print Assumptions c76_speaks_for_the_manifest.

(** Before the key is installed nothing is signed: every echo and every page ends in an error. *)
Theorem c76_no_key_no_statement : forall Y now web r, r <> Health -> code (router Y None now web r) <> 200.
Proof.
  intros Y now web r NH. destruct (handlers Y None now web r) as [(s & _ & _ & E)|[[N _]|H]]; [|exact N|congruence].
  rewrite E, (unsigned_code Y None _ eq_refl). discriminate.
Qed.
Print Assumptions c76_no_key_no_statement.

(** A reply that is not a success attests nothing, and neither does the health check. *)
Theorem c76_only_successes_attest : forall Y key now web r pk j, sane now web r ->
  r = Health \/ code (router Y key now web r) <> 200 -> ~ attests Y (body (router Y key now web r)) pk j.
Proof.
  intros Y key now web r pk j S H (p & sg & ph & sig & ek & sk & P & _). revert P.
  assert (E : forall e, (match e with EFetch t | EFetchRead t => utf8_valid t = true | _ => True end) ->
    exists t, parse (body (error_reply e)) = Some (JObj [(Some (bs "error"), str t)])).
  { intros e He. eexists. unfold error_reply. cbn [body]. apply parse_write. unfold str. cbn [jok forallb okey fst snd].
    assert (W : forall a b, utf8_valid a = true -> utf8_valid b = true -> true && utf8_valid (a ++ b) && true = true) by (intros a b Ha Hb; now rewrite (utf8_valid_app a b Ha Hb)).
    destruct e as [| | | |t|n|t]; try reflexivity; apply W; try reflexivity; try exact He. apply print_N_utf8. }
  assert (X : forall e, (match e with EFetch t | EFetchRead t => utf8_valid t = true | _ => True end) ->
    parse (body (error_reply e)) = Some (JObj [(Some (bs "signed_payload_json"), str p); (Some (bs "signature_hex"), str sg); (Some (bs "public_key_hex"), str ph)]) -> False).
  { intros e He Q. destruct (E e He) as [t Q']. rewrite Q' in Q. discriminate Q. }
  assert (SJ : forall q, code (reply_of (sign_json_payload Y key (payload q))) <> 200 ->
    parse (body (reply_of (sign_json_payload Y key (payload q)))) = Some (JObj [(Some (bs "signed_payload_json"), str p); (Some (bs "signature_hex"), str sg); (Some (bs "public_key_hex"), str ph)]) -> False).
  { intros q C. unfold sign_json_payload in *. destruct (read_pair Y key) as [[seed k]|]; [|exact (X EQuorumKey I)]. rewrite payload_text in *. exfalso. apply C. reflexivity. }
  destruct H as [-> |H]; [vm_compute; discriminate|]. destruct S as [_ S]. destruct r as [|b|[u|]| |]; cbn [router] in *; [vm_compute; discriminate| | |vm_compute; discriminate..].
  - destruct (utf8_valid b); [|vm_compute; discriminate]. unfold signed_echo in *. destruct now as [t|]; [|exact (X ESystemTime I)].
    exact (SJ (Echoed b t) H).
  - destruct S as [_ S]. unfold signed_get_url, fetch in *. destruct (web u) as [e|st [b|e]].
    + exact (X (EFetch e) S).
    + destruct ((200 <=? st) && (st <? 300)); [|exact (X (EFetchStatus st) I)]. destruct now as [t|]; [|exact (X ESystemTime I)]. exact (SJ (Visited u st b t) H).
    + destruct ((200 <=? st) && (st <? 300)); [exact (X (EFetchRead e) S)|exact (X (EFetchStatus st) I)].
Qed.
Print Assumptions c76_only_successes_attest.

(** The command line is a sequence of settings, the last of each kind wins, and nothing else is accepted. *)
Inductive setting := SHost (v : bytes) | SPort (v : bytes) (n : N) | SFile (v : bytes).
Definition spelling (s : setting) : list bytes :=
  match s with SHost v => [bs "--host"; v] | SPort v _ => [bs "--port"; v] | SFile v => [bs "--quorum-file"; v] end.
Definition lawful_setting (s : setting) : Prop := match s with SPort v n => decimal v n /\ n < 2 ^ 16 | _ => True end.
Definition latest {A} (pick : setting -> option A) (d : A) (l : list setting) : A :=
  fold_left (fun a s => match pick s with Some v => v | None => a end) l d.
Lemma u16_iff w n : parse_unsigned 65536 w = Some n <-> decimal w n /\ n < 65536.
Proof.
  rewrite <- decimal_iff. unfold parse_unsigned. cbv zeta. set (t := match w with [] => _ | _ => _ end). clearbody t.
  destruct t as [|c t]; [split; [discriminate|intros [H _]; discriminate H]|]. destruct (dec_val (c :: t)) as [m|]; [|split; [discriminate|intros [H _]; discriminate H]].
  destruct (N.ltb_spec m 65536), (N.ltb_spec m 4294967296); split; intros H'; try discriminate; try (destruct H' as [H' ?]; congruence || (injection H' as ->; lia)); try lia.
  injection H' as ->. auto.
Qed.
Lemma cli_from args : forall c r, cli_parse_from c args = Some r <->
  exists l, args = concat (map spelling l) /\ Forall lawful_setting l
  /\ r = Cli (latest (fun s => match s with SHost v => Some v | _ => None end) (host c) l)
             (latest (fun s => match s with SPort _ n => Some n | _ => None end) (port c) l)
             (latest (fun s => match s with SFile v => Some v | _ => None end) (quorum_key_path c) l).
Proof.
  remember (length args) as n eqn:N. revert args N. induction n as [n IH] using (well_founded_induction Wf_nat.lt_wf). intros args -> c r.
  assert (REC : forall v r', args = v :: r' \/ (exists a, args = a :: v :: r') -> forall c' r0, cli_parse_from c' r' = Some r0 <->
    exists l, r' = concat (map spelling l) /\ Forall lawful_setting l
  /\ r0 = Cli (latest (fun s => match s with SHost v => Some v | _ => None end) (host c') l)
             (latest (fun s => match s with SPort _ n => Some n | _ => None end) (port c') l)
             (latest (fun s => match s with SFile v => Some v | _ => None end) (quorum_key_path c') l)).
  { intros v r' E. apply (IH (length r')); [|reflexivity]. destruct E as [-> |[a ->]]; cbn; lia. }
  destruct args as [|a args].
  { cbn [cli_parse_from]. split.
    - intros E. exists []. split; [reflexivity|]. split; [constructor|]. injection E as <-. destruct c. reflexivity.
    - intros (l & E & _ & ->). destruct l as [|[?|? ?|?] l]; [|discriminate E..]. destruct c. reflexivity. }
  cbn [cli_parse_from]. split.
  - destruct (bytes_eqb a (bs "--host")) eqn:A1; [|destruct (bytes_eqb a (bs "--port")) eqn:A2; [|destruct (bytes_eqb a (bs "--quorum-file")) eqn:A3; [|discriminate]]];
      apply bytes_eqb_eq in A1 || apply bytes_eqb_eq in A2 || apply bytes_eqb_eq in A3; subst a; (destruct args as [|v r']; [discriminate|]); intros E.
    + apply (REC v r' (or_intror (ex_intro _ _ eq_refl))) in E as (l & -> & F & ->). exists (SHost v :: l). split; [reflexivity|]. split; [constructor; [exact I|exact F]|reflexivity].
    + destruct (parse_unsigned 65536 v) as [q|] eqn:Q; [|discriminate E]. cbn [obind] in E. apply u16_iff in Q.
      apply (REC v r' (or_intror (ex_intro _ _ eq_refl))) in E as (l & -> & F & ->). exists (SPort v q :: l). split; [reflexivity|]. split; [constructor; [exact Q|exact F]|reflexivity].
    + apply (REC v r' (or_intror (ex_intro _ _ eq_refl))) in E as (l & -> & F & ->). exists (SFile v :: l). split; [reflexivity|]. split; [constructor; [exact I|exact F]|reflexivity].
  - intros (l & E & F & ->). destruct l as [|s l]; [discriminate E|]. pose proof (Forall_inv F) as F1. apply Forall_inv_tail in F.
    destruct s as [v|v q|v]; cbn [map concat spelling app] in E.
    + assert (a = bs "--host" /\ args = v :: concat (map spelling l)) as [-> ->] by (split; congruence). cbn [bytes_eqb].
      change (bytes_eqb (bs "--host") (bs "--host")) with true. cbv iota. apply (REC v _ (or_intror (ex_intro _ _ eq_refl))). exists l. split; [reflexivity|]. split; [exact F|reflexivity].
    + assert (a = bs "--port" /\ args = v :: concat (map spelling l)) as [-> ->] by (split; congruence).
      change (bytes_eqb (bs "--port") (bs "--host")) with false. change (bytes_eqb (bs "--port") (bs "--port")) with true. cbv iota.
      replace (parse_unsigned 65536 v) with (Some q) by (symmetry; apply u16_iff; exact F1). cbn [obind]. apply (REC v _ (or_intror (ex_intro _ _ eq_refl))). exists l. split; [reflexivity|]. split; [exact F|reflexivity].
    + assert (a = bs "--quorum-file" /\ args = v :: concat (map spelling l)) as [-> ->] by (split; congruence).
      change (bytes_eqb (bs "--quorum-file") (bs "--host")) with false. change (bytes_eqb (bs "--quorum-file") (bs "--port")) with false. change (bytes_eqb (bs "--quorum-file") (bs "--quorum-file")) with true. cbv iota.
      apply (REC v _ (or_intror (ex_intro _ _ eq_refl))). exists l. split; [reflexivity|]. split; [exact F|reflexivity].
Qed.
Theorem c76_command_line : forall args h p q, cli_parse args = Some (Cli h p q) <->
  exists l, args = concat (map spelling l) /\ Forall lawful_setting l
  /\ h = latest (fun s => match s with SHost v => Some v | _ => None end) (bs "127.0.0.1") l
  /\ p = latest (fun s => match s with SPort _ n => Some n | _ => None end) 3000 l
  /\ q = latest (fun s => match s with SFile v => Some v | _ => None end) (bs "/qos.quorum.key") l.
Proof.
  intros args h p q. unfold cli_parse. rewrite cli_from. split; intros (l & E & F & R); exists l; (split; [exact E|]; split; [exact F|]).
  - cbn [host port default_cli quorum_key_path] in R.
    set (h' := latest _ _ _) in R at 1. set (p' := latest _ _ _) in R at 1. set (q' := latest _ _ _) in R at 1. injection R as -> -> ->. auto.
  - destruct R as (-> & -> & ->). reflexivity.
Qed.
Print Assumptions c76_command_line.

Definition demo_web (u : bytes) : fetched := if bytes_eqb u (bs "http://a/") then Answer 204 (Ok (bs "page")) else NoAnswer (bs "refused").
Example c76_nontrivial : sys_ok T /\ crypto_ok T /\ (forall seed m, length (s_sign T seed m) = 64%nat)
  /\ reach T s_done /\ moment T s_done (st_trace s_done) (st_fs s_done)
  /\ sane (Some 1700000000) demo_web (Echo (bs "hi")) /\ code (router T (content (st_fs s_done) Quorum) (Some 1700000000) demo_web (Echo (bs "hi"))) = 200
  /\ sane (Some 1700000000) demo_web (GetUrl (Some (bs "http://a/"))) /\ code (router T (content (st_fs s_done) Quorum) (Some 1700000000) demo_web (GetUrl (Some (bs "http://a/")))) = 200
  /\ code (router T (content (st_fs s_done) Quorum) (Some 1700000000) demo_web (GetUrl (Some (bs "http://b/")))) = 502
  /\ cli_parse [bs "--port"; bs "80"; bs "--host"; bs "0.0.0.0"; bs "--port"; bs "8080"] = Some (Cli (bs "0.0.0.0") 8080 (bs "/qos.quorum.key"))
  /\ cli_parse [bs "--port"; bs "65536"] = None /\ cli_parse [bs "--verbose"] = None /\ cli_parse [bs "--host"] = None.
Proof.
  split; [exact T_ok|]. split; [exact (toy_crypto _ _)|]. split; [intros; exact (toy_hash_length 64 _)|].
  split; [exact done_reach|]. split; [constructor|].
  assert (C : content (st_fs s_done) Quorum = Some (encode seed_q)) by apply done_looks. rewrite C.
  assert (SN : forall t, Some 1700000000 = Some t -> t < 2 ^ 64) by (intros t E; injection E as <-; reflexivity).
  split; [split; [exact SN|exact I]|]. split; [vm_compute; reflexivity|].
  split; [split; [exact SN|split; vm_compute; reflexivity]|]. split; [vm_compute; reflexivity|]. split; [vm_compute; reflexivity|].
  repeat split; vm_compute; reflexivity.
Qed.
