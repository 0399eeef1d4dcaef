(** C69, C70: the remote-connection proxy. *)
From Verif Require Import Base Utf8 Borsh BorshProofs Stream PropsStream Proxy.
Require Import ZifyBool ZifyN ZifyNat.
Local Open Scope N_scope.

(** *** Specification *)
(** The address a request asks to be connected to: the given one, or the first
    that the given name servers return for the given name. *)
Inductive asks (n : net) : proxy_msg -> ip -> N -> Prop :=
| asks_ip s a port : parse_ip n s = Ok a -> asks n (ConnectByIp s port) a port
| asks_name h port rs d servers a more :
    Forall2 (fun s x => parse_ip n s = Ok x) rs servers -> lookup n h servers d = Ok (a :: more) -> asks n (ConnectByName h port rs d) a port.
(** The text by which the application is told the address. *)
Inductive told (n : net) : proxy_msg -> ip -> bytes -> Prop :=
| told_ip s a port : told n (ConnectByIp s port) a s
| told_name h port rs d a : told n (ConnectByName h port rs d) a (show_ip n a).
(** A message that can be encoded and sent. *)
Definition sendable (m : proxy_msg) : Prop := wf c_proxy_msg m = true /\ fits (ask m).
(** The texts of IP addresses are short. *)
Definition net_ok (n : net) : Prop := forall a, utf8_valid (show_ip n a) = true /\ lenN (show_ip n a) <= 64.
(** What enclave and proxy have on the socket: the request, then what the application writes. *)
Definition app_sends (F : nat) (w : nat -> wres) (m : proxy_msg) (data : bytes) : bytes := on_wire (snd (send F w (ask m))) ++ data.
Definition dials (l : list action) : list (ip * N) := flat_map (fun a => match a with Dialed x p => [(x, p)] | _ => [] end) l.

(** *** Messages *)
Lemma net_error_of_to a : net_error_of (net_error_to a) = a.
Proof. destruct a; reflexivity. Qed.
Lemma net_error_to_of s : net_error_to (net_error_of s) = s.
Proof. cbv [net_error_sum] in s. repeat (destruct s as [s|s]; [repeat match goal with p : (_ * _)%type |- _ => destruct p | u : unit |- _ => destruct u end; reflexivity|]). destruct s. Qed.
Lemma proxy_msg_of_to a : proxy_msg_of (proxy_msg_to a) = a.
Proof. destruct a; reflexivity. Qed.
Lemma proxy_msg_to_of s : proxy_msg_to (proxy_msg_of s) = s.
Proof. cbv [proxy_msg_sum] in s. repeat (destruct s as [s|s]; [repeat match goal with p : (_ * _)%type |- _ => destruct p | u : unit |- _ => destruct u end; reflexivity|]). destruct s. Qed.
Lemma u64_lawful : lawful c_u64.
Proof. apply c_uint_lawful. Qed.
Lemma u16_lawful : lawful c_u16.
Proof. apply c_uint_lawful. Qed.
Lemma c_net_error_lawful : lawful c_net_error.
Proof.
  apply c_iso_lawful; [exact net_error_of_to|exact net_error_to_of|]. apply c_enum_lawful.
  repeat (apply t_cons_lawful; [auto using c_string_lawful, c_unit_lawful, u64_lawful, u16_lawful, c_pair_lawful|]). apply t_nil_lawful.
Qed.
Lemma c_proxy_msg_lawful : lawful c_proxy_msg.
Proof.
  apply c_iso_lawful; [exact proxy_msg_of_to|exact proxy_msg_to_of|]. apply c_enum_lawful.
  repeat (apply t_cons_lawful; [auto 8 using c_net_error_lawful, c_string_lawful, c_unit_lawful, u64_lawful, u16_lawful, c_pair_lawful, c_vec_lawful, c_string_nonempty|]). apply t_nil_lawful.
Qed.
Theorem c69_messages_decode_only_their_encodings : forall b m,
  from_slice c_proxy_msg b = Some m <-> wf c_proxy_msg m = true /\ b = ask m.
Proof. exact (lawful_slice_iff c_proxy_msg c_proxy_msg_lawful). Qed.
Print Assumptions c69_messages_decode_only_their_encodings.

(** *** Requests *)
Lemma parse_all_iff n : forall l servers, parse_all n l = Ok servers <-> Forall2 (fun s x => parse_ip n s = Ok x) l servers.
Proof.
  induction l as [|s l IH]; intros servers; cbn [parse_all]; [split; [intros H; injection H as <-; constructor|intros H; inversion H; reflexivity]|].
  destruct (parse_ip n s) as [a|e] eqn:P; [|split; [discriminate|intros H; inversion H; subst; congruence]].
  destruct (parse_all n l) as [r|e] eqn:A.
  - split; [intros H; injection H as <-; constructor; [exact P|now apply IH]|]. intros H. inversion H as [|? x ? l' Hx Hl]; subst.
    apply IH in Hl. rewrite P in Hx. injection Hx as ->. injection Hl as ->. reflexivity.
  - split; [discriminate|]. intros H. inversion H as [|? x ? l' Hx Hl]; subst. apply IH in Hl. discriminate.
Qed.
(** What a decoded request leads to. *)
Lemma process_sound n req resp conn acts : process_req n req = (resp, conn, acts) ->
  (forall a p, In (a, p) (dials acts) -> exists m, wf c_proxy_msg m = true /\ req = ask m /\ asks n m a p) /\
  (length (dials acts) <= 1)%nat /\
  (forall h servers d, In (Looked h servers d) acts -> exists p rs, req = ask (ConnectByName h p rs d) /\ Forall2 (fun s x => parse_ip n s = Ok x) rs servers) /\
  (forall a p, conn = Some (a, p) -> dials acts = [(a, p)] /\ dial n a p = Ok tt /\
     exists m t, wf c_proxy_msg m = true /\ req = ask m /\ asks n m a p /\ told n m a t /\ resp = ConnectResponse t) /\
  (forall t, resp = ConnectResponse t -> conn <> None).
Proof.
  unfold process_req. intros E.
  assert (Triv : forall resp' : proxy_msg, (forall t, resp' <> ConnectResponse t) -> (resp', @None (ip * N), @nil action) = (resp, conn, acts) ->
    (forall a p, In (a, p) (dials acts) -> exists m, wf c_proxy_msg m = true /\ req = ask m /\ asks n m a p) /\
    (length (dials acts) <= 1)%nat /\
    (forall h servers d, In (Looked h servers d) acts -> exists p rs, req = ask (ConnectByName h p rs d) /\ Forall2 (fun s x => parse_ip n s = Ok x) rs servers) /\
    (forall a p, conn = Some (a, p) -> dials acts = [(a, p)] /\ dial n a p = Ok tt /\
      exists m t, wf c_proxy_msg m = true /\ req = ask m /\ asks n m a p /\ told n m a t /\ resp = ConnectResponse t) /\
    (forall t, resp = ConnectResponse t -> conn <> None)).
  { intros resp' NR H. injection H as <- <- <-. split; [intros a p []|]. split; [cbn; lia|]. split; [intros h s d []|]. split; [discriminate|]. intros t Ht. now destruct (NR t). }
  destruct (_ <? lenN req); [eapply Triv; [|exact E]; intros ? ?; discriminate|].
  destruct (from_slice c_proxy_msg req) as [m|] eqn:D; [|eapply Triv; [|exact E]; intros ? ?; discriminate].
  apply c69_messages_decode_only_their_encodings in D. destruct D as (W & ->).
  destruct m as [e| |x|h p rs d|s p|x]; try (eapply Triv; [|exact E]; intros ? ?; discriminate).
  - unfold connect_by_name, resolve_hostname in E. destruct (parse_all n rs) as [servers|pe] eqn:PA.
    2:{ eapply Triv; [|exact E]; intros ? ?; discriminate. }
    apply parse_all_iff in PA.
    assert (LK : forall h' servers' d' tail, (forall x, In x tail -> exists a q, x = Dialed a q) -> In (Looked h' servers' d') ([Looked h servers d] ++ tail) ->
       exists p' rs', ask (ConnectByName h p rs d) = ask (ConnectByName h' p' rs' d') /\ Forall2 (fun s x => parse_ip n s = Ok x) rs' servers').
    { intros h' s' d' tail HT [I|I]; [injection I as <- <- <-; eauto|]. destruct (HT _ I) as (? & ? & ?). discriminate. }
    destruct (lookup n h servers d) as [[|a more]|le] eqn:LU.
    + injection E as <- <- <-. split; [intros a q [] |]. split; [cbn; lia|]. split; [intros h' s' d' I; apply (LK h' s' d' []); [intros ? []|rewrite app_nil_r; exact I]|]. split; discriminate.
    + assert (A : asks n (ConnectByName h p rs d) a p) by (econstructor; eassumption).
      assert (LK2 : forall h' servers' d', In (Looked h' servers' d') ([Looked h servers d] ++ [Dialed a p]) ->
         exists p' rs', ask (ConnectByName h p rs d) = ask (ConnectByName h' p' rs' d') /\ Forall2 (fun s x => parse_ip n s = Ok x) rs' servers').
      { intros h' s' d' I. apply (LK h' s' d' [Dialed a p]); [intros ? [<-|[]]; eauto|exact I]. }
      destruct (dial n a p) as [[]|de] eqn:DI; injection E as <- <- <-.
      * split; [intros a' q' [H|[]]; injection H as <- <-; exists (ConnectByName h p rs d); auto|]. split; [cbn; lia|]. split; [exact LK2|]. split.
        -- intros a' q' H. injection H as <- <-. split; [reflexivity|]. split; [exact DI|]. exists (ConnectByName h p rs d), (show_ip n a). repeat split; auto. constructor.
        -- discriminate.
      * split; [intros a' q' [H|[]]; injection H as <- <-; exists (ConnectByName h p rs d); auto|]. split; [cbn; lia|]. split; [exact LK2|]. split; discriminate.
    + injection E as <- <- <-. split; [intros a q [] |]. split; [cbn; lia|]. split; [intros h' s' d' I; apply (LK h' s' d' []); [intros ? []|rewrite app_nil_r; exact I]|]. split; discriminate.
  - unfold connect_by_ip in E. destruct (parse_ip n s) as [a|pe] eqn:P; [|eapply Triv; [|exact E]; intros ? ?; discriminate].
    assert (A : asks n (ConnectByIp s p) a p) by (constructor; exact P).
    destruct (dial n a p) as [[]|de] eqn:DI; injection E as <- <- <-.
    + split; [intros a' q' [H|[]]; injection H as <- <-; exists (ConnectByIp s p); auto|]. split; [cbn; lia|]. split; [intros h' s' d' [I|[]]; discriminate|]. split.
      * intros a' q' H. injection H as <- <-. split; [reflexivity|]. split; [exact DI|]. exists (ConnectByIp s p), s. repeat split; auto. constructor.
      * discriminate.
    + split; [intros a' q' [H|[]]; injection H as <- <-; exists (ConnectByIp s p); auto|]. split; [cbn; lia|]. split; [intros h' s' d' [I|[]]; discriminate|]. split; discriminate.
Qed.
Lemma process_complete n m a p : wf c_proxy_msg m = true -> fits (ask m) -> asks n m a p -> dial n a p = Ok tt ->
  exists t acts, told n m a t /\ process_req n (ask m) = (ConnectResponse t, Some (a, p), acts).
Proof.
  intros W F A D. unfold process_req. destruct (_ <? lenN (ask m)) eqn:O; [unfold fits in F; lia|].
  assert (E : from_slice c_proxy_msg (ask m) = Some m) by (apply c69_messages_decode_only_their_encodings; auto). rewrite E.
  destruct A as [s a p P|h p rs d servers a more P L].
  - unfold connect_by_ip. rewrite P, D. eexists _, _. split; [|reflexivity]. constructor.
  - unfold connect_by_name, resolve_hostname. rewrite (proj2 (parse_all_iff n rs servers) P), L, D. eexists _, _. split; [|reflexivity]. constructor.
Qed.

(** *** The pipe *)
Lemma read_cases x k stream : (0 < k)%nat ->
  match read_once x k stream with
  | None => x = RFail
  | Some (got, rest) => stream = got ++ rest /\ (got = [] -> stream = [])
  end.
Proof.
  intros K. unfold read_once. destruct x as [n|]; [|reflexivity].
  remember (Nat.max 1 (Nat.min (N.to_nat n) (Nat.min k (length stream)))) as m eqn:Em. assert (M : (1 <= m)%nat) by (rewrite Em; apply Nat.le_max_l). clear Em.
  split; [now rewrite firstn_skipn|]. intros H. destruct stream; [reflexivity|]. apply (f_equal (@length byte)) in H. rewrite firstn_length in H. cbn [length] in H. lia.
Qed.
Lemma copy_spec r w : forall fuel i j stream o tr, copy fuel r i w j stream = (o, tr) ->
  prefix (on_wire tr) stream /\ (o = Finished (Ok tt) -> on_wire tr = stream).
Proof.
  induction fuel as [|f IH]; intros i j stream o tr E; cbn [copy] in E; [injection E as <- <-; split; [exists stream; reflexivity|discriminate]|].
  pose proof (read_cases (r i) (N.to_nat 8192) stream ltac:(lia)) as RC. destruct (read_once (r i) (N.to_nat 8192) stream) as [[got rest]|].
  2:{ injection E as <- <-. split; [exists stream; reflexivity|discriminate]. }
  destruct RC as (Es & NE). destruct got as [|g got]; [injection E as <- <-; rewrite (NE eq_refl); split; [exists []; reflexivity|reflexivity]|].
  rewrite Es. set (x := g :: got) in *. pose proof (write_all_spec w (length x) j x (le_n _)) as WS.
  destruct (write_all (length x) w j x) as [[res j'] t1]. destruct WS as ((c & WP) & WF & _).
  assert (Pre : prefix (on_wire t1) (x ++ rest)) by (exists (c ++ rest); rewrite WP at 1; now rewrite <- app_assoc).
  destruct res as [[]|e]; [|injection E as <- <-; split; [exact Pre|discriminate]].
  destruct (copy f r (S i) w j' rest) as [o2 t2] eqn:C2. injection E as <- <-. destruct (IH _ _ _ _ _ C2) as ((d & P2) & F2).
  rewrite on_wire_app, (WF eq_refl). split.
  - exists d. rewrite P2 at 1. apply app_assoc.
  - intros H. now rewrite (F2 H).
Qed.
Lemma copy_completes r w : no_read_error r -> makes_progress w -> forall fuel i j stream, (length stream < fuel)%nat ->
  exists tr, copy fuel r i w j stream = (Finished (Ok tt), tr).
Proof.
  intros NR MP. induction fuel as [|f IH]; intros i j stream L; [lia|]. cbn [copy].
  pose proof (read_cases (r i) (N.to_nat 8192) stream ltac:(lia)) as RC. destruct (read_once (r i) (N.to_nat 8192) stream) as [[got rest]|].
  2:{ destruct (NR i RC). }
  destruct RC as (Es & NE). destruct got as [|g got]; [eauto|]. set (x := g :: got) in *.
  pose proof (write_all_ok w MP (length x) j x (le_n _)) as WO. destruct (write_all (length x) w j x) as [[res j'] t1]. cbn [fst] in WO. subst res.
  destruct (IH (S i) j' rest) as (tr & ->); [|eauto]. rewrite Es, app_length in L. subst x. cbn [length] in L. lia.
Qed.
Lemma frame_inj p q t u : fits p -> fits q -> frame p ++ t = frame q ++ u -> p = q /\ t = u.
Proof.
  intros Fp Fq E. assert (NR : no_read_error (fun _ => Give 1)) by (intros i; discriminate).
  destruct (c34_recv_returns_the_payload _ 0 p t NR Fp) as (j1 & R1). destruct (c34_recv_returns_the_payload _ 0 q u NR Fq) as (j2 & R2).
  rewrite E, R2 in R1. injection R1 as -> _ ->. auto.
Qed.

(** *** C69: sessions *)
(** The proxy connects at most once, only because the bytes at the start of the
    socket are a request for exactly that address (or a name that the
    requested name servers resolve to it), and asks those name servers about no other name. *)
Theorem c69_connects_only_as_requested : forall n k from_enclave from_remote,
  let s := connect_and_stream n k from_enclave from_remote in
  (length (dials (s_actions s)) <= 1)%nat /\
  (forall a p, In (Dialed a p) (s_actions s) -> exists m rest, from_enclave = frame (ask m) ++ rest /\ asks n m a p) /\
  (forall h servers d, In (Looked h servers d) (s_actions s) -> exists p rs rest,
     from_enclave = frame (ask (ConnectByName h p rs d)) ++ rest /\ Forall2 (fun t x => parse_ip n t = Ok x) rs servers) /\
  (forall a p, s_opened s = Some (a, p) -> dials (s_actions s) = [(a, p)] /\ dial n a p = Ok tt).
Proof.
  intros n k fe fr s. unfold s, connect_and_stream. clear s. destruct (recv (k_read k) 0 fe) as [[req i] rest] eqn:R.
  destruct req as [req|e].
  2:{ cbn [s_actions s_opened s_to_remote s_to_enclave s_answer dials flat_map length]. split; [cbn [dials flat_map length]; lia|]. split; [intros a p []|]. split; [intros h s d []|]. discriminate. }
  apply c34_recv_sound in R. destruct R as (_ & ->). destruct (process_req n req) as [[resp conn] acts] eqn:P.
  destruct (process_sound _ _ _ _ _ P) as (H1 & H2 & H3 & H4 & _).
  assert (G : (length (dials acts) <= 1)%nat /\
    (forall a p, In (Dialed a p) acts -> exists m rest0, frame req ++ rest = frame (ask m) ++ rest0 /\ asks n m a p) /\
    (forall h servers d, In (Looked h servers d) acts -> exists p rs rest0, frame req ++ rest = frame (ask (ConnectByName h p rs d)) ++ rest0 /\ Forall2 (fun t x => parse_ip n t = Ok x) rs servers) /\
    (forall a p, conn = Some (a, p) -> dials acts = [(a, p)] /\ dial n a p = Ok tt)).
  { split; [exact H2|]. split; [|split].
    - intros a p I. destruct (H1 a p) as (m & W & -> & A); [apply in_flat_map; exists (Dialed a p); split; [exact I|now left]|]. exists m, rest. auto.
    - intros h servers d I. destruct (H3 h servers d I) as (p & rs & -> & F). exists p, rs, rest. auto.
    - intros a p E. destruct (H4 a p E) as (A & B & _). auto. }
  destruct (send (k_send_fuel k) (k_send k) (enc c_proxy_msg resp)) as [sent tr]. destruct sent as [[[]|e]|]; cbn [s_actions s_opened]; [|exact G..].
  destruct conn as [c|].
  2:{ destruct G as (A & B & C & _). split; [exact A|split; [exact B|split; [exact C|discriminate]]]. }
  destruct (copy (k_up k) _ _ _ _ _) as [up tru]. destruct (copy (k_down k) _ _ _ _ _) as [down trd]. exact G.
Qed.
Print Assumptions c69_connects_only_as_requested.

(** Whatever the kernel does and wherever the session ends: the remote receives
    a prefix of what the enclave sent after its request, and nothing unless the connection is open; the enclave
    receives (a prefix of) one answer followed by a prefix of what the remote sent. *)
Theorem c69_transparent_pipe : forall n k from_enclave from_remote,
  let s := connect_and_stream n k from_enclave from_remote in
  (s_to_remote s <> [] -> exists a p, s_opened s = Some (a, p)) /\
  (exists req rest, from_enclave = req ++ rest /\ prefix (s_to_remote s) rest /\
     (s_opened s <> None -> exists m a p, asks n m a p /\ s_opened s = Some (a, p) /\ req = frame (ask m))) /\
  (match s_answer s with
   | None => s_to_enclave s = []
   | Some answer => prefix (s_to_enclave s) (frame (ask answer) ++ match s_opened s with Some _ => from_remote | None => [] end)
   end).
Proof.
  intros n k fe fr s. unfold s, connect_and_stream. clear s. destruct (recv (k_read k) 0 fe) as [[req i] rest] eqn:R.
  destruct req as [req|e].
  2:{ cbn [s_actions s_opened s_to_remote s_to_enclave s_answer dials flat_map length]. split; [congruence|]. split; [|reflexivity]. exists [], fe. split; [reflexivity|split; [exists fe; reflexivity|congruence]]. }
  apply c34_recv_sound in R. destruct R as (_ & ->). destruct (process_req n req) as [[resp conn] acts] eqn:P.
  destruct (process_sound _ _ _ _ _ P) as (_ & _ & _ & H4 & _).
  assert (Op : conn <> None -> exists m a p, asks n m a p /\ conn = Some (a, p) /\ frame req = frame (ask m)).
  { intros H. destruct conn as [[a p]|]; [|congruence]. destruct (H4 a p eq_refl) as (_ & _ & m & t & W & -> & A & _). exists m, a, p. auto. }
  pose proof (c34_send_writes_the_frame (k_send_fuel k) (k_send k) (enc c_proxy_msg resp)) as SW.
  destruct (send (k_send_fuel k) (k_send k) (enc c_proxy_msg resp)) as [sent tr]. destruct SW as (S1 & S2 & S3 & _).
  assert (Pre : forall tail, prefix (on_wire tr) (frame (ask resp) ++ tail)).
  { intros tail. destruct (N.leb_spec (lenN (enc c_proxy_msg resp)) 134217728) as [L|L].
    - destruct (S2 L) as (c & Hc). exists (c ++ tail). unfold ask. rewrite Hc. now rewrite <- app_assoc.
    - destruct (S3 ltac:(unfold fits; lia)) as (_ & ->). eexists; reflexivity. }
  destruct sent as [[[]|e]|]; cbn [s_actions s_opened s_to_remote s_to_enclave s_answer].
  2,3: (split; [congruence|]; split; [exists (frame req), rest; split; [reflexivity|split; [exists rest; reflexivity|exact Op]]|apply Pre]).
  destruct conn as [[a p]|].
  - destruct (copy (k_up k) _ _ _ _ _) as [up tru] eqn:U. destruct (copy (k_down k) _ _ _ _ _) as [down trd] eqn:Dn. cbn [s_actions s_opened s_to_remote s_to_enclave s_answer].
    destruct (copy_spec _ _ _ _ _ _ _ _ U) as (PU & _). destruct (copy_spec _ _ _ _ _ _ _ _ Dn) as ((d & PD) & _).
    split; [eauto|]. split; [exists (frame req), rest; split; [reflexivity|split; [exact PU|exact Op]]|].
    exists d. destruct (S1 eq_refl) as (_ & ->). unfold ask. rewrite PD at 1. apply app_assoc.
  - cbn [s_actions s_opened s_to_remote s_to_enclave s_answer dials flat_map length]. split; [congruence|]. split; [exists (frame req), rest; split; [reflexivity|split; [exists rest; reflexivity|congruence]]|apply (Pre [])].
Qed.
Print Assumptions c69_transparent_pipe.

(** The application's view.  If it is told that it is connected then the proxy is, to the
    address it asked for, whose text it is given, and everything it can read from then on is what the remote sent; everything the
    remote receives is what it wrote. *)
Theorem c69_told_connected_means_connected : forall n k F w m data from_remote r t rest,
  sendable m -> fst (send F w (ask m)) = Finished (Ok tt) ->
  let s := connect_and_stream n k (app_sends F w m data) from_remote in
  app_receive r (s_to_enclave s) = (Ok t, rest) ->
  exists a p, s_opened s = Some (a, p) /\ asks n m a p /\ told n m a t /\ prefix rest from_remote /\ prefix (s_to_remote s) data.
Proof.
  intros n k F w m data fr r t rest (W & Fm) Sd s. unfold app_receive, s, connect_and_stream, app_sends. clear s.
  pose proof (c34_send_writes_the_frame F w (ask m)) as SW. destruct (send F w (ask m)) as [sm trm]. cbn [fst snd] in *. destruct SW as (SW & _).
  destruct (SW Sd) as (_ & ->). clear SW.
  destruct (recv (k_read k) 0 (frame (ask m) ++ data)) as [[req i] rest1] eqn:R.
  destruct req as [req|e].
  2:{ cbn [s_to_enclave]. destruct (recv r 0 []) as [[[x|x] jj] zz] eqn:Z; [|discriminate]. apply c34_recv_sound in Z. destruct Z as (_ & Z).
      unfold frame in Z. apply (f_equal (@length byte)) in Z. rewrite !app_length, le_enc_length in Z. cbn in Z. lia. }
  apply c34_recv_sound in R. destruct R as (Fr & R). destruct (frame_inj _ _ _ _ Fm Fr R) as (<- & <-). clear R.
  destruct (process_req n (ask m)) as [[resp conn] acts] eqn:P.
  destruct (process_sound _ _ _ _ _ P) as (_ & _ & _ & H4 & H5).
  pose proof (c34_send_writes_the_frame (k_send_fuel k) (k_send k) (enc c_proxy_msg resp)) as SW.
  destruct (send (k_send_fuel k) (k_send k) (enc c_proxy_msg resp)) as [sent tr]. destruct SW as (S1 & S2 & S3 & _).
  assert (Key : forall out tail, prefix out (frame (enc c_proxy_msg resp) ++ tail) -> (~ fits (enc c_proxy_msg resp) -> out = []) ->
     (let '(res, _, rest0) := recv r 0 out in match res with Ok p => (answer_of p, rest0) | Err _ => (Err (QOSIOError (bs "io")), rest0) end) = (Ok t, rest) ->
     resp = ConnectResponse t /\ prefix rest tail).
  { intros out tail (c & Pc) NF E. destruct (recv r 0 out) as [[[q|e] jj] rest0] eqn:Rq; [|discriminate].
    apply c34_recv_sound in Rq. destruct Rq as (Fq & Eq). injection E as E1 <-.
    destruct (N.leb_spec (lenN (enc c_proxy_msg resp)) 134217728) as [L|L].
    2:{ rewrite (NF ltac:(unfold fits; lia)) in Eq. unfold frame in Eq. apply (f_equal (@length byte)) in Eq. rewrite !app_length, le_enc_length in Eq. cbn in Eq. lia. }
    rewrite Eq, <- app_assoc in Pc. destruct (frame_inj _ _ _ _ L Fq Pc) as (<- & Et). split; [|exists c; exact Et].
    unfold answer_of in E1. destruct (from_slice c_proxy_msg (enc c_proxy_msg resp)) as [m'|] eqn:D; [|discriminate].
    apply c69_messages_decode_only_their_encodings in D. destruct D as (W' & D).
    destruct m' as [e'| |x|h p rs d|s p|x]; try discriminate. injection E1 as ->.
    destruct resp as [e'| |x|h p rs d|s p|x]; try (exfalso; unfold ask in D; cbn in D; discriminate D).
    change (x05 :: le_enc 4 (lenN x) ++ x = x05 :: le_enc 4 (lenN t) ++ t) in D.
    assert (D' := f_equal (@tl byte) D). change (le_enc 4 (lenN x) ++ x = le_enc 4 (lenN t) ++ t) in D'.
    apply app_inv_length in D'; [|now rewrite !le_enc_length]. destruct D' as (_ & ->). reflexivity. }
  assert (Done : forall tail, conn <> None -> resp = ConnectResponse t -> prefix rest tail ->
     forall out sp, prefix out data -> tail = fr -> sp = conn -> exists a p, sp = Some (a, p) /\ asks n m a p /\ told n m a t /\ prefix rest fr /\ prefix out data).
  { intros tail NC Er Pr out sp Po -> ->. destruct conn as [[a p]|]; [|congruence]. destruct (H4 a p eq_refl) as (_ & _ & m' & t' & W' & Em & A & T & Er').
    assert (m = m') as <- by (apply (lawful_inj c_proxy_msg c_proxy_msg_lawful); assumption).
    rewrite Er in Er'. injection Er' as <-. exists a, p. auto. }
  assert (NilP : prefix [] data) by (exists data; reflexivity).
  destruct sent as [[[]|e]|]; cbn [s_actions s_opened s_to_remote s_to_enclave s_answer].
  2,3: (intros E; destruct (Key (on_wire tr) fr) as (K1 & K2); [destruct (N.leb_spec (lenN (enc c_proxy_msg resp)) 134217728) as [L|L];
      [destruct (S2 L) as (c & Hc); exists (c ++ fr); rewrite Hc; now rewrite <- app_assoc|destruct (S3 ltac:(unfold fits; lia)) as (_ & ->); eexists; reflexivity]
      |intros NF; apply (S3 NF)|exact E|]; apply (Done fr (H5 t K1) K1 K2); auto).
  destruct (S1 eq_refl) as (Ff & Wt). rewrite Wt. destruct conn as [[a p]|].
  - destruct (copy (k_up k) _ _ _ _ _) as [up tru] eqn:U. destruct (copy (k_down k) _ _ _ _ _) as [down trd] eqn:Dn. cbn [s_actions s_opened s_to_remote s_to_enclave s_answer].
    destruct (copy_spec _ _ _ _ _ _ _ _ U) as (PU & _). destruct (copy_spec _ _ _ _ _ _ _ _ Dn) as ((d & PD) & _).
    intros E. destruct (Key (frame (enc c_proxy_msg resp) ++ on_wire trd) fr) as (K1 & K2); [exists d; rewrite PD at 1; apply app_assoc|tauto|exact E|].
    apply (Done fr (H5 t K1) K1 K2); auto.
  - cbn [s_actions s_opened s_to_remote s_to_enclave s_answer]. intros E.
    destruct (Key (frame (enc c_proxy_msg resp)) []) as (K1 & K2); [exists []; reflexivity|tauto|exact E|]. exfalso. apply (H5 t K1). reflexivity.
Qed.
Print Assumptions c69_told_connected_means_connected.

Definition kernel_ok (k : kernel) : Prop :=
  no_read_error (k_read k) /\ makes_progress (k_send k) /\ makes_progress (k_up_write k) /\ no_read_error (k_down_read k) /\ makes_progress (k_down_write k).
Lemma answer_size t : utf8_valid t = true -> lenN t < 4294967296 -> wf c_proxy_msg (ConnectResponse t) = true /\ length (enc c_proxy_msg (ConnectResponse t)) = (5 + length t)%nat.
Proof.
  intros U L. split.
  - change (((lenN t <? U32_LIMIT) && utf8_valid t) && (5 <? 256) = true). rewrite U. unfold U32_LIMIT. rewrite (proj2 (N.ltb_lt _ _) L). reflexivity.
  - change (length (x05 :: le_enc 4 (lenN t) ++ t) = (5 + length t)%nat). cbn [length]. rewrite app_length, le_enc_length. lia.
Qed.
Lemma told_sendable n m a t : net_ok n -> sendable m -> told n m a t -> wf c_proxy_msg (ConnectResponse t) = true /\ fits (enc c_proxy_msg (ConnectResponse t)) /\
  (length (enc c_proxy_msg (ConnectResponse t)) <= 70 + length (ask m))%nat.
Proof.
  intros NO (W & F) T. destruct T as [s a p|h p rs d a].
  - assert (W' : ((lenN s <? U32_LIMIT) && utf8_valid s) = true).
    { change ((((lenN s <? U32_LIMIT) && utf8_valid s) && (p <? pow256 2)) && (4 <? 256) = true) in W. destruct ((lenN s <? U32_LIMIT) && utf8_valid s); [reflexivity|discriminate]. }
    apply andb_true_iff in W'. destruct W' as (W1 & W2). apply N.ltb_lt in W1. destruct (answer_size s W2 W1) as (A & B). split; [exact A|].
    assert (LA : length (ask (ConnectByIp s p)) = (7 + length s)%nat).
    { change (length (x04 :: (le_enc 4 (lenN s) ++ s) ++ le_enc 2 p) = (7 + length s)%nat). cbn [length]. rewrite !app_length, !le_enc_length. lia. }
    unfold fits in *. rewrite lenN_length in *. rewrite B. rewrite LA in *. split; lia.
  - destruct (NO a) as (U & L). destruct (answer_size (show_ip n a) U ltac:(lia)) as (A & B). split; [exact A|]. unfold fits. rewrite lenN_length in *. rewrite B. split; lia.
Qed.
(** Without errors and given time, nothing is lost in either direction, not even data
    written along with the request. *)
Theorem c69_nothing_is_lost : forall n k F w m a p data from_remote r,
  net_ok n -> kernel_ok k -> makes_progress w -> no_read_error r -> sendable m -> (length (ask m) < F)%nat ->
  asks n m a p -> dial n a p = Ok tt ->
  (length data < k_up k)%nat -> (length from_remote < k_down k)%nat -> (70 + length (ask m) < k_send_fuel k)%nat ->
  let s := connect_and_stream n k (app_sends F w m data) from_remote in
  s_opened s = Some (a, p) /\ s_to_remote s = data /\ s_end s = Finished (Ok tt) /\
  exists t, told n m a t /\ app_receive r (s_to_enclave s) = (Ok t, from_remote).
Proof.
  intros n k F w m a p data fr r NO (K1 & K2 & K3 & K4 & K5) MP NR SM HF A D H1 H2 H3 s. unfold app_receive, s, connect_and_stream, app_sends. clear s.
  destruct (c34_send_completes w (ask m) F MP (proj2 SM) HF) as (trm & Es & Et). rewrite Es. cbn [snd]. rewrite Et.
  destruct (c34_recv_returns_the_payload (k_read k) 0 (ask m) data K1 (proj2 SM)) as (i & ->).
  destruct (process_complete n m a p (proj1 SM) (proj2 SM) A D) as (t & acts & T & ->).
  destruct (told_sendable n m a t NO SM T) as (Wt & Ft & Lt).
  destruct (c34_send_completes (k_send k) (enc c_proxy_msg (ConnectResponse t)) (k_send_fuel k) K2 Ft) as (tr2 & E2 & T2); [lia|]. rewrite E2, T2.
  destruct (copy_completes (k_read k) (k_up_write k) K1 K3 (k_up k) i 0 data H1) as (tru & U). rewrite U.
  destruct (copy_completes (k_down_read k) (k_down_write k) K4 K5 (k_down k) 0 0 fr H2) as (trd & Dn). rewrite Dn.
  cbn [s_opened s_to_remote s_end s_to_enclave].
  destruct (copy_spec _ _ _ _ _ _ _ _ U) as (_ & PU). destruct (copy_spec _ _ _ _ _ _ _ _ Dn) as (_ & PD).
  split; [reflexivity|]. split; [exact (PU eq_refl)|]. split; [reflexivity|]. exists t. split; [exact T|].
  rewrite (PD eq_refl). destruct (c34_recv_returns_the_payload r 0 (enc c_proxy_msg (ConnectResponse t)) fr NR Ft) as (j & ->).
  assert (De : from_slice c_proxy_msg (enc c_proxy_msg (ConnectResponse t)) = Some (ConnectResponse t)) by (apply c69_messages_decode_only_their_encodings; auto).
  unfold answer_of. rewrite De. reflexivity.
Qed.
Print Assumptions c69_nothing_is_lost.

(** A toy Internet: one server, two names. *)
Definition toy_net : net := {|
  parse_ip s := if bytes_eqb s (bs "1.1.1.1") then Ok (V4 1) else if bytes_eqb s (bs "8.8.8.8") then Ok (V4 8) else Err (bs "AddrParseError");
  show_ip a := match a with V4 1 => bs "1.1.1.1" | V4 8 => bs "8.8.8.8" | _ => bs "?" end;
  lookup h servers port := if bytes_eqb h (bs "example.com") then match servers with [V4 8] => Ok [V4 1; V4 8] | _ => Ok [] end else Err (bs "no such name");
  dial a port := match a with V4 1 => if port =? 443 then Ok tt else Err (bs "refused") | _ => Err (bs "timeout") end |}.
Definition toy_kernel : kernel :=
  Kernel (fun _ => Give 3) (fun _ => Accept 5) 200 50 (fun _ => Accept 2) 50 (fun _ => Give 4) (fun _ => Accept 1).
Definition toy_ask := ConnectByName (bs "example.com") 443 [bs "8.8.8.8"] 53.
Example c69_nontrivial :
  net_ok toy_net /\ kernel_ok toy_kernel /\ sendable toy_ask /\ asks toy_net toy_ask (V4 1) 443 /\
  (let s := connect_and_stream toy_net toy_kernel (app_sends 200 (fun _ => Accept 7) toy_ask (bs "hello")) (bs "world!") in
   s_to_remote s = bs "hello" /\ app_receive (fun _ => Give 2) (s_to_enclave s) = (Ok (bs "1.1.1.1"), bs "world!") /\
   s_actions s = [Looked (bs "example.com") [V4 8] 53; Dialed (V4 1) 443] /\ s_end s = Finished (Ok tt)) /\
  (let s := connect_and_stream toy_net toy_kernel (app_sends 200 (fun _ => Accept 7) (ConnectByIp (bs "8.8.8.8") 443) (bs "hello")) (bs "world!") in
   s_to_remote s = [] /\ app_receive (fun _ => Give 2) (s_to_enclave s) = (Err (QOSIOError (bs "timeout")), [])) /\
  (let s := connect_and_stream toy_net toy_kernel (app_sends 200 (fun _ => Accept 7) StatusRequestP (bs "hello")) (bs "world!") in
   s_to_remote s = [] /\ app_receive (fun _ => Give 2) (s_to_enclave s) = (Err InvalidMsgN, [])).
Proof.
  split; [|split; [|split; [|split; [|split; [|split]]]]].
  - intros a. assert (G : forall x, In x [bs "1.1.1.1"; bs "8.8.8.8"; bs "?"] -> utf8_valid x = true /\ lenN x <= 64).
    { intros x [<-|[<-|[<-|[]]]]; (split; [reflexivity|vm_compute; discriminate]). }
    apply G. cbn [show_ip toy_net]. destruct a as [a|a]; [destruct (N.eq_dec a 1) as [->|N1]; [now left|destruct (N.eq_dec a 8) as [->|N8]; [now right; left|]]|]; right; right; left.
    + destruct a as [|a]; [reflexivity|]. destruct a as [a|a|]; [reflexivity| |congruence]. destruct a as [a|a|]; [reflexivity| |reflexivity]. destruct a as [a|a|]; [reflexivity| |reflexivity]. destruct a; [reflexivity..|congruence].
    + reflexivity.
  - split; [intros i; discriminate|]. split; [intros i; exists 5; split; [reflexivity|lia]|]. split; [intros i; exists 2; split; [reflexivity|lia]|]. split; [intros i; discriminate|]. intros i; exists 1; split; [reflexivity|lia].
  - split; [vm_compute; reflexivity|unfold fits; vm_compute; discriminate].
  - apply (asks_name toy_net (bs "example.com") 443 [bs "8.8.8.8"] 53 [V4 8] (V4 1) [V4 8]); [constructor; [reflexivity|constructor]|reflexivity].
  - vm_compute. auto.
  - vm_compute. auto.
  - vm_compute. auto.
Qed.

(** *** C70: the resolver cache *)
Lemma ip_eqb_spec a b : reflect (a = b) (ip_eqb a b).
Proof. destruct a as [x|x], b as [y|y]; cbn; try (constructor; discriminate); destruct (N.eqb_spec x y) as [->|H]; constructor; congruence. Qed.
Lemma rkey_eqb_spec a b : reflect (a = b) (rkey_eqb a b).
Proof.
  destruct a as [l p], b as [l' p']. unfold rkey_eqb. cbn [fst snd]. destruct (list_eqb_spec ip_eqb ip_eqb_spec l l') as [->|H]; [|constructor; congruence].
  destruct (N.eqb_spec p p') as [->|H]; constructor; congruence.
Qed.
Lemma find_entry_in k l r : find_entry k l = Some r -> In (k, r) l.
Proof.
  induction l as [|[k' r'] l IH]; cbn [find_entry]; [discriminate|]. destruct (rkey_eqb_spec k' k) as [->|H]; [intros E; injection E as ->; now left|intros E; right; auto].
Qed.
Lemma find_entry_none k l : find_entry k l = None -> forall r, ~ In (k, r) l.
Proof.
  induction l as [|[k' r'] l IH]; cbn [find_entry]; [intros _ r []|]. destruct (rkey_eqb_spec k' k) as [->|H]; [discriminate|].
  intros E r [I|I]; [injection I as -> _; congruence|exact (IH E r I)].
Qed.
Lemma set_thread_in t s l x : In x (set_thread t s l) -> x = s \/ In x l.
Proof.
  revert t. induction l as [|y l IH]; intros [|t]; cbn [set_thread]; [now right|now right|intros [<-|I]; [now left|right; now right]|].
  intros [<-|I]; [right; now left|]. destruct (IH t I) as [->|I']; [now left|right; now right].
Qed.
(** What holds of every thread and entry. *)
Definition cache_inv (c : cache) : Prop :=
  (forall k r, In (k, r) (entries c) -> rk r = k /\ rid r < next_id c) /\
  (forall k r1 r2, In (k, r1) (entries c) -> In (k, r2) (entries c) -> r1 = r2) /\
  (forall k r, In (TInsert k r) (threads c) -> rk r = k /\ rid r < next_id c) /\
  (forall k r, In (TDone k r) (threads c) -> In (k, r) (entries c)).
Lemma cache_invariant c : cache_run c -> cache_inv c.
Proof.
  induction 1 as [|c k R (I1 & I2 & I3 & I4)|c t ok R (I1 & I2 & I3 & I4)].
  - repeat split; cbn in *; tauto.
  - split; [exact I1|split; [exact I2|]]. cbn [entries threads next_id cache_call]. split; intros k' r I; apply in_app_or in I; (destruct I as [I|[I|[]]]; [auto|discriminate]).
  - unfold cache_step. destruct (nth_error (threads c) t) as [[k|k|k r|k r|k]|] eqn:T; try (split; [exact I1|split; [exact I2|split; assumption]]).
    + destruct (find_entry k (entries c)) as [r|] eqn:F.
      * apply find_entry_in in F. split; [exact I1|split; [exact I2|]]. cbn [entries threads next_id].
        split; intros k' r' I; apply set_thread_in in I; (destruct I as [I|I]; [|auto]); [discriminate|injection I as -> ->; exact F].
      * split; [exact I1|split; [exact I2|]]. cbn [entries threads next_id]. split; intros k' r' I; apply set_thread_in in I; (destruct I as [I|I]; [discriminate|auto]).
    + destruct ok.
      * split; [intros k' r' I; cbn [entries next_id] in *; destruct (I1 k' r' I); split; [assumption|lia]|]. split; [exact I2|]. cbn [entries threads next_id].
        split; intros k' r' I; apply set_thread_in in I; (destruct I as [I|I]; [|auto]); [injection I as -> ->; cbn; split; [reflexivity|lia]|destruct (I3 k' r' I); split; [assumption|lia]|discriminate].
      * split; [exact I1|split; [exact I2|]]. cbn [entries threads next_id]. split; intros k' r' I; apply set_thread_in in I; (destruct I as [I|I]; [discriminate|auto]).
    + destruct (find_entry k (entries c)) as [r'|] eqn:F.
      * apply find_entry_in in F. split; [exact I1|split; [exact I2|]]. cbn [entries threads next_id].
        split; intros k' r2 I; apply set_thread_in in I; (destruct I as [I|I]; [|auto]); [discriminate|injection I as -> ->; exact F].
      * pose proof (find_entry_none _ _ F) as NF. destruct (I3 k r (nth_error_In _ _ T)) as (Hk & Hi). split; [|split].
        -- cbn [entries next_id]. intros k' r' [I|I]; [injection I as <- <-; auto|auto].
        -- cbn [entries]. intros k' r1 r2 [A|A] [B|B]; [congruence| | |eapply I2; eassumption].
           ++ injection A as <- <-. now destruct (NF r2).
           ++ injection B as <- <-. now destruct (NF r1).
        -- cbn [entries threads next_id]. split; intros k' r' I; apply set_thread_in in I; (destruct I as [I|I]; [|try (now right; auto)]); [discriminate|auto|injection I as -> ->; now left].
Qed.
(** Whatever threads ask for resolvers, however they interleave and wherever building fails: two calls
    get the same resolver exactly when they asked for the same servers (in the same
    order) and port, and a resolver serves only the configuration it was built for. *)
Theorem c70_resolvers_are_shared_exactly_by_configuration : forall c k1 r1 k2 r2, cache_run c ->
  In (TDone k1 r1) (threads c) -> In (TDone k2 r2) (threads c) -> rk r1 = k1 /\ (k1 = k2 <-> r1 = r2).
Proof.
  intros c k1 r1 k2 r2 R D1 D2. destruct (cache_invariant c R) as (I1 & I2 & _ & I4). apply I4 in D1, D2. destruct (I1 _ _ D1) as (A & _). destruct (I1 _ _ D2) as (B & _).
  split; [exact A|]. split; [intros <-; exact (I2 _ _ _ D1 D2)|]. intros <-. congruence.
Qed.
Print Assumptions c70_resolvers_are_shared_exactly_by_configuration.
(** Two threads race for one configuration: both build, one resolver is kept and both get it. *)
Example c70_nontrivial :
  let k := ([V4 8], 53) in let k' := ([V4 8], 54) in
  let c := cache_step 2 true (cache_step 2 true (cache_step 2 true (cache_step 0 true (cache_step 1 true (cache_step 1 true (cache_step 0 true (cache_step 1 true (cache_step 0 true
             (cache_call k' (cache_call k (cache_call k (Cache [] 0 []))))))))))))  in
  cache_run c /\ threads c = [TDone k (Resolver 1 k); TDone k (Resolver 1 k); TDone k' (Resolver 2 k')].
Proof. cbv zeta. split; [repeat constructor|vm_compute; reflexivity]. Qed.
