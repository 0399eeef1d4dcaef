From Verif Require Import Base Utf8 Hex Json.
From Coq Require Decimal DecimalN DecimalFacts.
Require Import ZifyBool ZifyN ZifyNat.
Local Open Scope N_scope.

(** ** Induction principle *)
Section JsonInd.
  Variable P : json -> Prop.
  Hypothesis Hnull : P JNull.
  Hypothesis Hbool : forall b, P (JBool b).
  Hypothesis Hint : forall z, P (JInt z).
  Hypothesis Hfloat : forall r, P (JFloat r).
  Hypothesis Hstr : forall s, P (JStr s).
  Hypothesis Harr : forall l, Forall P l -> P (JArr l).
  Hypothesis Hobj : forall m, Forall (fun p => P (snd p)) m -> P (JObj m).
  Fixpoint json_ind' (j : json) : P j :=
    match j with
    | JNull => Hnull | JBool b => Hbool b | JInt z => Hint z | JFloat r => Hfloat r | JStr s => Hstr s
    | JArr l => Harr l ((fix go l : Forall P l :=
        match l with [] => Forall_nil _ | x :: r => Forall_cons _ (json_ind' x) (go r) end) l)
    | JObj m => Hobj m ((fix go m : Forall (fun p => P (snd p)) m :=
        match m with [] => Forall_nil _ | x :: r => Forall_cons _ (json_ind' (snd x)) (go r) end) m)
    end.
End JsonInd.

(** ** Writable values *)
Definition okey (k : option bytes) : bool := match k with Some s => utf8_valid s | None => false end.
Fixpoint jok (j : json) : bool :=
  match j with
  | JNull | JBool _ => true
  | JInt z => ((-9223372036854775808 <=? z) && (z <? 18446744073709551616))%Z
  | JFloat _ => false
  | JStr s => okey s
  | JArr l => forallb jok l
  | JObj m => forallb (fun p => okey (fst p) && jok (snd p)) m
  end.

(** ** Decimal printing *)
Lemma uint_bytes u : uint_of_bytes (bytes_of_uint u) = Some u.
Proof. induction u; cbn [bytes_of_uint uint_of_bytes]; rewrite ?IHu; reflexivity. Qed.

Lemma dec_val_print n : dec_val (print_N n) = Some n.
Proof. unfold dec_val, print_N. rewrite uint_bytes. cbn. now rewrite DecimalN.Unsigned.of_to. Qed.

Lemma to_uint_norm n : N.to_uint n = Decimal.unorm (N.to_uint n).
Proof. rewrite <- (DecimalN.Unsigned.to_of (N.to_uint n)). now rewrite DecimalN.Unsigned.of_to. Qed.

Lemma bytes_of_uint_digits u : forallb is_digit (bytes_of_uint u) = true.
Proof. induction u; cbn [bytes_of_uint forallb]; rewrite ?IHu; reflexivity. Qed.

Lemma unorm_cases u : Decimal.unorm u = Decimal.zero \/ exists c r, bytes_of_uint (Decimal.unorm u) = c :: r /\ byte_eqb c "0" = false.
Proof.
  unfold Decimal.unorm. induction u; cbn; try (right; do 2 eexists; split; reflexivity).
  - now left.
  - destruct IHu as [IH|IH]; [left|right]; exact IH.
Qed.

Lemma print_N_shape n : exists c r, print_N n = c :: r /\ (byte_eqb c "0" = true -> r = []) /\ is_digit c = true.
Proof.
  unfold print_N. rewrite to_uint_norm.
  destruct (unorm_cases (N.to_uint n)) as [->|(c & r & E & Hc)].
  - exists "0"%byte, []. repeat split.
  - exists c, r. split; [exact E|]. split; [congruence|].
    pose proof (bytes_of_uint_digits (Decimal.unorm (N.to_uint n))) as D. rewrite E in D. cbn in D.
    now apply andb_true_iff in D as [D _].
Qed.

Lemma print_N_digits n : forallb is_digit (print_N n) = true.
Proof. apply bytes_of_uint_digits. Qed.

Lemma print_N_inj a b : print_N a = print_N b -> a = b.
Proof. intros E. pose proof (dec_val_print a) as H. rewrite E, dec_val_print in H. congruence. Qed.

Lemma parse_unsigned_print limit n : n < limit -> parse_unsigned limit (print_N n) = Some n.
Proof.
  intros H. unfold parse_unsigned. destruct (print_N_shape n) as (c & r & E & _ & D).
  rewrite E. assert (byte_eqb c "+" = false) as ->.
  { destruct (byte_eqb_spec c "+") as [->|]; [discriminate|reflexivity]. }
  rewrite <- E, dec_val_print. destruct (N.ltb_spec n limit); [reflexivity|lia].
Qed.

Lemma span_digits_app ds r : forallb is_digit ds = true ->
  match r with c :: _ => is_digit c = false | [] => True end -> span_digits (ds ++ r) = (ds, r).
Proof.
  intros H Hr. induction ds as [|c ds IH]; cbn [app].
  - destruct r as [|c r]; [reflexivity|]. cbn [span_digits]. now rewrite Hr.
  - cbn [forallb] in H. apply andb_true_iff in H as [Hc H]. cbn [span_digits]. rewrite Hc, IH by auto. reflexivity.
Qed.

(** What may follow a value: no digit, '.', 'e', 'E'. *)
Definition delim (l : bytes) : Prop :=
  match l with
  | [] => True
  | c :: _ => is_digit c = false /\ byte_eqb c "." = false /\ byte_eqb c "e" = false /\ byte_eqb c "E" = false
  end.

Lemma lex_frac_delim l : delim l -> lex_frac l = Some ([], l).
Proof. destruct l as [|c l]; cbn [lex_frac delim]; [reflexivity|]. intros (_ & -> & _). reflexivity. Qed.
Lemma lex_exp_delim l : delim l -> lex_exp l = Some ([], l).
Proof. destruct l as [|c l]; cbn [lex_exp delim]; [reflexivity|]. intros (_ & _ & -> & ->). reflexivity. Qed.
Lemma delim_span l : delim l -> match l with c :: _ => is_digit c = false | [] => True end.
Proof. destruct l; cbn; tauto. Qed.

Lemma parse_number_print z r : (-9223372036854775808 <= z < 18446744073709551616)%Z -> delim r ->
  parse_number (print_Z z ++ r) = Some (JInt z, r).
Proof.
  intros Hz Hr.
  assert (K : forall (neg : bool) n, (n = 0 -> neg = false) ->
     (if neg then n <= I64_MIN_ABS else n < U64_LIMIT) ->
     match span_digits (print_N n ++ r) with
     | ([], _) => None
     | (d :: ds', s) =>
       if byte_eqb d "0" && negb (match ds' with [] => true | _ => false end) then None
       else match lex_frac s with
            | None => None
            | Some (fr, l2) => match lex_exp l2 with
              | None => None
              | Some (ex, l3) => match fr, ex with
                | [], [] => Some (int_token neg (d :: ds'), l3)
                | _, _ => Some (JFloat ((if neg then ["-"%byte] else []) ++ (d :: ds') ++ fr ++ ex), l3)
                end end end
     end = Some (JInt (if neg then - Z.of_N n else Z.of_N n), r)).
  { intros neg n Hn Hb. rewrite (span_digits_app _ _ (print_N_digits n) (delim_span _ Hr)).
    destruct (print_N_shape n) as (c & ds & E & H0 & _). rewrite E.
    replace (byte_eqb c "0" && negb (match ds with [] => true | _ => false end)) with false
      by (destruct (byte_eqb c "0"); cbn; [rewrite (H0 eq_refl)|]; reflexivity).
    rewrite lex_frac_delim, lex_exp_delim by auto. rewrite <- E. unfold int_token. rewrite dec_val_print.
    destruct neg.
    - destruct (N.eqb_spec n 0) as [->|]; [now specialize (Hn eq_refl)|].
      destruct (N.ltb_spec I64_MIN_ABS n); [lia|]. reflexivity.
    - destruct (N.ltb_spec n U64_LIMIT); [reflexivity|lia]. }
  unfold parse_number. destruct z as [|p|p].
  - cbn [print_Z app]. change (print_N (Z.to_N 0)) with (["0"%byte]). cbn [app].
    change (byte_eqb "0" "-") with false. cbn iota.
    specialize (K false 0 (fun _ => eq_refl)). change (print_N 0) with ["0"%byte] in K. cbn [app] in K.
    specialize (K ltac:(reflexivity)).
    destruct (span_digits ("0"%byte :: r)) as [[|d ds] s]; cbn [fst snd]; exact K.
  - cbn [print_Z]. destruct (print_N_shape (Z.to_N (Zpos p))) as (c & ds & E & _ & D).
    rewrite E. cbn [app]. assert (byte_eqb c "-" = false) as ->.
    { destruct (byte_eqb_spec c "-") as [->|]; [discriminate|reflexivity]. }
    change (c :: ds ++ r) with ((c :: ds) ++ r). rewrite <- E.
    specialize (K false (Z.to_N (Zpos p)) ltac:(lia) ltac:(unfold U64_LIMIT; lia)).
    destruct (span_digits (print_N (Z.to_N (Zpos p)) ++ r)) as [[|d ds'] s]; cbn [fst snd]; rewrite K;
      do 3 f_equal; lia.
  - cbn [print_Z app]. rewrite byte_eqb_refl.
    specialize (K true (Npos p) ltac:(lia) ltac:(unfold I64_MIN_ABS; lia)).
    destruct (span_digits (print_N (Npos p) ++ r)) as [[|d ds'] s]; cbn [fst snd]; rewrite K;
      do 3 f_equal; lia.
Qed.

(** ** Strings *)
Fixpoint toks (s : bytes) : list stok :=
  match s with
  | [] => []
  | b :: r =>
    (if (b2n b <? 32) && negb (b2n b =? 8) && negb (b2n b =? 9) && negb (b2n b =? 10)
        && negb (b2n b =? 12) && negb (b2n b =? 13) then TU (b2n b) else TB b) :: toks r
  end.

Lemma lex_esc_byte : forall b t, lex_str (esc_byte b ++ t) =
  match lex_str t with Some (ts, r') => Some (hd (TB b) (toks [b]) :: ts, r') | None => None end.
Proof. intros b t. destruct b; cbn; destruct (lex_str t) as [[? ?]|]; reflexivity. Qed.

Lemma lex_write_str s r : lex_str (concat (map esc_byte s) ++ x22 :: r) = Some (toks s, r).
Proof.
  induction s as [|b s IH]; [reflexivity|].
  cbn [map]. change (concat (esc_byte b :: map esc_byte s)) with (esc_byte b ++ concat (map esc_byte s)).
  rewrite <- app_assoc, lex_esc_byte, IH. reflexivity.
Qed.

Lemma assemble_toks s : assemble (toks s) = Some s.
Proof.
  induction s as [|b s IH]; [reflexivity|].
  cbn [toks]. match goal with |- context [if ?c then _ else _] => destruct c eqn:E end.
  - assert (H : b2n b < 32) by lia.
    cbn [assemble]. assert (is_scalar (b2n b) = true) as -> by (unfold is_scalar; lia).
    rewrite IH. cbn [obind]. unfold utf8_char. destruct (N.ltb_spec (b2n b) 128); [|lia].
    rewrite n2b_b2n. reflexivity.
  - cbn [assemble]. rewrite IH. reflexivity.
Qed.

Lemma parse_write_str s r : utf8_valid s = true ->
  parse_string (concat (map esc_byte s) ++ x22 :: r) = Some (Some s, r).
Proof.
  intros H. unfold parse_string. rewrite lex_write_str. unfold str_text. rewrite assemble_toks, H. reflexivity.
Qed.

(** ** Parser on written values *)
Definition head_ok (l : bytes) : Prop := match l with c :: _ => is_ws c = false | [] => True end.
Lemma skip_ws_head l : head_ok l -> skip_ws l = l.
Proof. destruct l as [|c l]; cbn; [reflexivity|]. now intros ->. Qed.

Definition first_ok (c : byte) : Prop :=
  is_ws c = false /\ byte_eqb c "]" = false /\ byte_eqb c "}" = false.

Lemma write_head j : jok j = true -> exists c r, write j = c :: r /\ first_ok c.
Proof.
  destruct j as [| [] |z|raw|s|[|x l]|[|[k x] m]]; cbn [jok]; intros H; try discriminate;
    try (do 2 eexists; split; [reflexivity|repeat split; reflexivity]).
  cbn [write]. destruct z as [|p|p]; cbn [print_Z];
    try (do 2 eexists; split; [reflexivity|repeat split; reflexivity]).
  destruct (print_N_shape (Z.to_N (Zpos p))) as (c & r & -> & _ & D). exists c, r. split; [reflexivity|].
  unfold first_ok, is_ws, is_digit in *.
  repeat split; repeat match goal with |- context [byte_eqb c ?x] => destruct (byte_eqb_spec c x) as [->|]; try discriminate end; reflexivity.
Qed.

Lemma write_len j : jok j = true -> (1 <= length (write j))%nat.
Proof. intros H. destruct (write_head j H) as (c & r & -> & _). cbn; lia. Qed.

Lemma delim_comma r : delim (","%byte :: r). Proof. repeat split. Qed.
Lemma delim_rb r : delim ("]"%byte :: r). Proof. repeat split. Qed.
Lemma delim_rc r : delim ("}"%byte :: r). Proof. repeat split. Qed.

Definition PV (j : json) : Prop := jok j = true -> forall f r, delim r ->
  (2 * length (write j) <= f)%nat -> parse_value f (write j ++ r) = Some (j, r).

Definition tail_elems (l : list json) : bytes := concat (map (fun y => ","%byte :: write y) l).
Definition tail_members (m : list (option bytes * json)) : bytes :=
  concat (map (fun p => ","%byte :: write_str (opt_str (fst p)) ++ ":"%byte :: write (snd p)) m).

Lemma parse_elems_write l : forall x, Forall PV (x :: l) -> forallb jok (x :: l) = true ->
  forall f r, (2 * length (write x ++ tail_elems l) + 1 <= f)%nat ->
  parse_elems f (write x ++ tail_elems l ++ "]"%byte :: r) = Some (x :: l, r).
Proof.
  induction l as [|y l IH]; intros x HP Hok f r Hf; inversion HP as [|? ? Hx HP']; subst;
    cbn [forallb] in Hok; apply andb_true_iff in Hok as [Ox Ol]; destruct f as [|f]; try lia.
  - cbn [tail_elems map] in *. change (concat []) with (@nil byte) in *. cbn [app] in *.
    cbn [parse_elems]. rewrite Hx; [|auto|apply delim_rb|rewrite app_nil_r in Hf; lia].
    cbn [skip_ws]. change (is_ws "]") with false. cbn iota. reflexivity.
  - unfold tail_elems in *. cbn [map] in *.
    change (concat ((","%byte :: write y) :: map (fun y0 => ","%byte :: write y0) l))
      with (","%byte :: write y ++ tail_elems l) in *.
    cbn [parse_elems]. rewrite app_length in Hf. cbn [length] in Hf.
    cbn [app]. rewrite Hx; [|auto|apply delim_comma|lia].
    cbn [skip_ws]. change (is_ws ",") with false. cbn iota. change (byte_eqb "," ",") with true. cbn iota.
    rewrite <- app_assoc.
    rewrite IH; [reflexivity|auto|auto|].
    unfold tail_elems in *. lia.
Qed.

Lemma parse_members_write m : forall k x, Forall (fun p => PV (snd p)) ((k, x) :: m) ->
  forallb (fun p => okey (fst p) && jok (snd p)) ((k, x) :: m) = true ->
  forall f r, (2 * length (write_str (opt_str k) ++ ":"%byte :: write x ++ tail_members m) + 1 <= f)%nat ->
  parse_members f (write_str (opt_str k) ++ ":"%byte :: write x ++ tail_members m ++ "}"%byte :: r)
    = Some ((k, x) :: m, r).
Proof.
  induction m as [|[k' y] m IH]; intros k x HP Hok f r Hf; inversion HP as [|? ? Hx HP']; subst;
    cbn [forallb fst snd] in *; apply andb_true_iff in Hok as [Ox Ol]; apply andb_true_iff in Ox as [Ok Ox];
    destruct f as [|f]; try lia; destruct k as [k|]; try discriminate; cbn [okey opt_str] in *;
    unfold write_str in *; cbn [app] in *; rewrite <- ?app_assoc in *; cbn [app] in *;
    cbn [parse_members skip_ws]; change (is_ws x22) with false; cbn iota; rewrite byte_eqb_refl;
    rewrite parse_write_str by auto; cbn [skip_ws]; change (is_ws ":") with false; cbn iota;
    change (byte_eqb ":" ":") with true; cbn iota; cbn [length] in Hf; rewrite app_length in Hf; cbn [length] in Hf;
    rewrite app_length in Hf.
  - unfold tail_members in *. cbn [map] in *. change (concat []) with (@nil byte) in *. cbn [app length] in *.
    rewrite Hx; [|auto|apply delim_rc|lia].
    cbn [skip_ws]. change (is_ws "}") with false. cbn iota. reflexivity.
  - unfold tail_members in Hf |- *. cbn [map fst snd] in Hf |- *.
    change (concat ((","%byte :: write_str (opt_str k') ++ ":"%byte :: write y)
        :: map (fun p => ","%byte :: write_str (opt_str (fst p)) ++ ":"%byte :: write (snd p)) m))
      with (","%byte :: (write_str (opt_str k') ++ ":"%byte :: write y) ++ tail_members m) in *.
    cbn [app]. rewrite Hx; [|auto|apply delim_comma|cbn [length] in Hf; lia].
    cbn [skip_ws]. change (is_ws ",") with false. cbn iota. change (byte_eqb "," ",") with true. cbn iota.
    rewrite <- !app_assoc. cbn [app]. unfold write_str in IH.
    specialize (IH k' y HP' Ol f r). cbn [app] in IH. rewrite <- !app_assoc in IH. cbn [app] in IH.
    unfold write_str. cbn [app]. rewrite <- !app_assoc. cbn [app].
    rewrite IH; [reflexivity|].
    unfold write_str in Hf. cbn [length app] in Hf. rewrite <- ?app_assoc in Hf. cbn [app] in Hf.
    cbn [length]. lia.
Qed.

Lemma parse_value_write : forall j, PV j.
Proof.
  induction j as [| [] |z|raw|s|l IH|m IH] using json_ind'; intros Hok f r Hr Hf;
    pose proof (write_len _ Hok) as Hl; (destruct f as [|f]; [lia|]); try discriminate.
  - reflexivity.
  - reflexivity.
  - reflexivity.
  - cbn [jok] in Hok.
    assert (exists c t, print_Z z = c :: t /\ (is_digit c = true \/ c = "-"%byte)) as (c & t & E & Hc).
    { destruct z as [|p|p]; cbn [print_Z].
      - exists "0"%byte, []. split; [reflexivity|now left].
      - destruct (print_N_shape (Z.to_N (Zpos p))) as (c & t & E & _ & D). eauto.
      - eauto. }
    assert (K : parse_value (S f) (print_Z z ++ r) = parse_number (print_Z z ++ r)).
    { rewrite E. cbn [app parse_value]. 
      assert (is_ws c = false /\ byte_eqb c "n" = false /\ byte_eqb c "t" = false /\ byte_eqb c "f" = false
        /\ byte_eqb c x22 = false /\ byte_eqb c "[" = false /\ byte_eqb c "{" = false) as (E1 & E2 & E3 & E4 & E5 & E6 & E7).
      { destruct Hc as [Hc| ->]; [|repeat split].
        unfold is_ws. repeat split;
        repeat match goal with |- context [byte_eqb c ?x] => destruct (byte_eqb_spec c x) as [->|]; try discriminate end; reflexivity. }
      cbn [skip_ws]. rewrite E1, E2, E3, E4, E5, E6, E7. reflexivity. }
    change (write (JInt z)) with (print_Z z). rewrite K. apply parse_number_print; [lia|auto].
  - cbn [jok] in Hok. destruct s as [s|]; [|discriminate]. cbn [okey] in Hok.
    cbn [write opt_str]. unfold write_str. cbn [app parse_value skip_ws].
    change (is_ws x22) with false. cbn iota. cbn [byte_eqb].
    change (byte_eqb x22 "n") with false. change (byte_eqb x22 "t") with false.
    change (byte_eqb x22 "f") with false. change (byte_eqb x22 x22) with true. cbn iota.
    rewrite <- app_assoc. cbn [app]. rewrite parse_write_str by auto. reflexivity.
  - destruct l as [|x l]; [reflexivity|].
    cbn [jok] in Hok. change (write (JArr (x :: l))) with ("["%byte :: write x ++ tail_elems l ++ ["]"%byte]) in *.
    cbn [app parse_value skip_ws].
    change (is_ws "[") with false. cbn iota.
    change (byte_eqb "[" "n") with false. change (byte_eqb "[" "t") with false.
    change (byte_eqb "[" "f") with false. change (byte_eqb "[" x22) with false. change (byte_eqb "[" "[") with true. cbn iota.
    rewrite <- !app_assoc. cbn [app].
    assert (Ox : jok x = true) by (cbn in Hok; now apply andb_true_iff in Hok).
    destruct (write_head x Ox) as (c & t & E & (W1 & W2 & W3)).
    rewrite skip_ws_head by (rewrite E; exact W1).
    rewrite E at 1. cbn [app]. rewrite W2.
    rewrite parse_elems_write; [reflexivity|exact IH|exact Hok|].
    cbn [length] in Hf. rewrite !app_length in *. cbn [length] in Hf. lia.
  - destruct m as [|[k x] m]; [reflexivity|].
    cbn [jok] in Hok.
    change (write (JObj ((k, x) :: m))) with ("{"%byte :: write_str (opt_str k) ++ ":"%byte :: write x ++ tail_members m ++ ["}"%byte]) in *.
    cbn [app parse_value skip_ws].
    change (is_ws "{") with false. cbn iota.
    change (byte_eqb "{" "n") with false. change (byte_eqb "{" "t") with false.
    change (byte_eqb "{" "f") with false. change (byte_eqb "{" x22) with false. change (byte_eqb "{" "[") with false.
    change (byte_eqb "{" "{") with true. cbn iota.
    rewrite <- !app_assoc. cbn [app]. rewrite <- !app_assoc. cbn [app].
    rewrite skip_ws_head by reflexivity.
    replace (match write_str (opt_str k) ++ ":"%byte :: write x ++ tail_members m ++ "}"%byte :: r with
             | [] => None
             | d :: r' => if byte_eqb d "}" then Some (JObj [], r')
                 else obind (parse_members f (write_str (opt_str k) ++ ":"%byte :: write x ++ tail_members m ++ "}"%byte :: r))
                        (fun p => Some (JObj (fst p), snd p)) end)
      with (obind (parse_members f (write_str (opt_str k) ++ ":"%byte :: write x ++ tail_members m ++ "}"%byte :: r))
                        (fun p => Some (JObj (fst p), snd p))) by reflexivity.
    rewrite parse_members_write; [reflexivity|exact IH|exact Hok|].
    cbn [length] in Hf. rewrite !app_length in *. cbn [length] in *. rewrite !app_length in *. cbn [length] in Hf. lia.
Qed.

Theorem parse_write j : jok j = true -> parse (write j) = Some j.
Proof.
  intros H. unfold parse.
  pose proof (parse_value_write j H (2 * length (write j) + 2)%nat [] I ltac:(lia)) as E.
  rewrite app_nil_r in E. rewrite E. reflexivity.
Qed.

Lemma write_inj a b : jok a = true -> jok b = true -> write a = write b -> a = b.
Proof. intros Ha Hb E. apply parse_write in Ha, Hb. congruence. Qed.
