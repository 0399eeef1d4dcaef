(** The text forms of an IP address, as RFC 4291 section 2.2 describes them and
    std::net reads them: four decimal octets; or eight groups of up to four hex
    digits, of which the last two may be written as four octets, and of which
    one run of one or more zero groups may be written as [::]. *)
From Verif Require Import Base SpecHex Types.
Local Open Scope N_scope.

Definition dec_digit (c : byte) (v : N) : Prop := v < 10 /\ b2n c = 48 + v.
(** An octet: up to three digits without a leading zero, at most 255. *)
Inductive octet_text : bytes -> byte -> Prop :=
| oct1 x a : dec_digit x a -> octet_text [x] (n2b a)
| oct2 x y a b : dec_digit x a -> dec_digit y b -> a <> 0 -> octet_text [x; y] (n2b (10 * a + b))
| oct3 x y z a b c : dec_digit x a -> dec_digit y b -> dec_digit z c -> a <> 0 -> 100 * a + 10 * b + c < 256 ->
    octet_text [x; y; z] (n2b (100 * a + 10 * b + c)).
Definition dotted (s : bytes) (i : ipv4) : Prop :=
  exists a b c d, s = a ++ "."%byte :: b ++ "."%byte :: c ++ "."%byte :: d
    /\ octet_text a (ip_a i) /\ octet_text b (ip_b i) /\ octet_text c (ip_c i) /\ octet_text d (ip_d i).

(** The number spelled by hex digits, most significant first. *)
Inductive hex_number : bytes -> N -> Prop :=
| hn_one c v : digit_value c v -> hex_number [c] (N.of_nat v)
| hn_more s n c v : hex_number s n -> digit_value c v -> hex_number (s ++ [c]) (16 * n + N.of_nat v).
Definition group_text (s : bytes) (g : group) : Prop :=
  (length s <= 4)%nat /\ exists n, hex_number s n /\ g = (n2b (n / 256), n2b (n mod 256)).

(** Groups separated by colons ... *)
Inductive hex_groups : bytes -> list group -> Prop :=
| hg_one s g : group_text s g -> hex_groups s [g]
| hg_more s g t gs : group_text s g -> hex_groups t gs -> hex_groups (s ++ ":"%byte :: t) (g :: gs).
(** ... the last two possibly dotted. *)
Inductive some_groups : bytes -> list group -> Prop :=
| sg_one s g : group_text s g -> some_groups s [g]
| sg_dotted s i : dotted s i -> some_groups s [(ip_a i, ip_b i); (ip_c i, ip_d i)]
| sg_more s g t gs : group_text s g -> some_groups t gs -> some_groups (s ++ ":"%byte :: t) (g :: gs).

Definition all_groups (i : ipv6) : list group := [g0 i; g1 i; g2 i; g3 i; g4 i; g5 i; g6 i; g7 i].
Definition ipv6_text (s : bytes) (i : ipv6) : Prop :=
  some_groups s (all_groups i)
  \/ exists front back fg bg n,
       s = front ++ ":"%byte :: ":"%byte :: back
       /\ (front = [] /\ fg = [] \/ hex_groups front fg)
       /\ (back = [] /\ bg = [] \/ some_groups back bg)
       /\ (1 <= n)%nat /\ all_groups i = fg ++ repeat (x00, x00) n ++ bg.
Definition ip_text (s : bytes) (i : ip_addr) : Prop :=
  match i with IpV4 x => dotted s x | IpV6 x => ipv6_text s x end.

(** The one form in which an address is written (RFC 5952; std::net Display):
    octets and groups without leading zeros, lower-case digits, the first
    longest run of two or more zero groups as [::], and an address mapped from
    version 4 with its last two groups dotted. *)
Definition short_group (s : bytes) (g : group) : Prop :=
  group_text s g
  /\ (forall c, In c s -> exists v, nth_error lower_digits v = Some c)
  /\ (hd_error s = Some "0"%byte -> s = ["0"%byte]).
Inductive short_groups : list group -> bytes -> Prop :=
| shg_none : short_groups [] []
| shg_one g s : short_group s g -> short_groups [g] s
| shg_more g s h gs t : short_group s g -> short_groups (h :: gs) t -> short_groups (g :: h :: gs) (s ++ ":"%byte :: t).

Definition zeros_at (l : list group) (start n : nat) : Prop :=
  (start + n <= length l)%nat /\ forall i, (start <= i < start + n)%nat -> nth_error l i = Some (x00, x00).
Definition first_longest (l : list group) (start n : nat) : Prop :=
  zeros_at l start n /\ forall start' n', zeros_at l start' n' -> (n' <= n)%nat /\ (n' = n -> (start <= start')%nat).

Definition mapped (i : ipv6) (x : ipv4) : Prop :=
  all_groups i = repeat (x00, x00) 5 ++ [(xff, xff); (ip_a x, ip_b x); (ip_c x, ip_d x)].
Definition written_ipv6 (i : ipv6) (s : bytes) : Prop :=
  (exists x d, mapped i x /\ dotted d x /\ s = bs "::ffff:" ++ d)
  \/ (forall x, ~ mapped i x) /\ exists start n, first_longest (all_groups i) start n
       /\ (2 <= n /\ (exists front back, short_groups (firstn start (all_groups i)) front
              /\ short_groups (skipn (start + n) (all_groups i)) back /\ s = front ++ bs "::" ++ back)
           \/ n < 2 /\ short_groups (all_groups i) s)%nat.
Definition written_ip (i : ip_addr) (s : bytes) : Prop :=
  match i with IpV4 x => dotted s x | IpV6 x => written_ipv6 x s end.
