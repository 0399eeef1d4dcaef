(** Secret sharing: /repo/src/qos_crypto/src/shamir.rs.
    The functions there only forward to [Gf256::split_array] and
    [Gf256::combine_array] of vsss-rs 5.4.0, which is not in /repo; they are
    modelled after that crate's documented behaviour: a share is the evaluation
    point (1, 2, ...) followed by one evaluation per secret byte. *)
From Verif Require Import Base Gf256.
Local Open Scope N_scope.

(** Evaluation of c0 + c1*x + ... (Horner). *)
Definition peval (p : list byte) (x : byte) : byte := fold_right (fun c acc => gadd c (gmul x acc)) gzero p.

(** One share: the identifier, then for each secret byte the value at the
    identifier of the polynomial with that byte as constant term.  [rnd] holds,
    for each secret byte, the [threshold - 1] random higher coefficients. *)
Definition share_at (rnd : list bytes) (secret : bytes) (x : byte) : bytes :=
  x :: map (fun rb => peval (snd rb :: fst rb) x) (combine rnd secret).

(** shamir.rs:18-28 shares_generate (split_array: the limit is at most 255, at
    least the threshold, the threshold at least 2, the secret not empty). *)
Definition shares_generate (rnd : list bytes) (secret : bytes) (share_count threshold : N) : option (list bytes) :=
  if (255 <? share_count) || (share_count <? threshold) || (threshold <? 2) || (lenN secret =? 0) then None
  else Some (map (fun i => share_at rnd secret (n2b (N.of_nat i))) (seq 1 (N.to_nat share_count))).

Definition gprod (l : list byte) : byte := fold_right gmul gone l.
Definition gsum (l : list byte) : byte := fold_right gadd gzero l.
(** Lagrange interpolation at 0.  Identifiers are pairwise distinct when this is
    called, so skipping the own index is skipping the own identifier. *)
Definition interpolate (pts : list (byte * byte)) : byte :=
  gsum (map (fun p =>
    let others := filter (fun q => negb (byte_eqb (fst q) (fst p))) pts in
    gmul (snd p) (gmul (gprod (map fst others)) (ginv (gprod (map (fun q => gsub (fst q) (fst p)) others))))) pts).

Fixpoint nodupb (l : list byte) : bool :=
  match l with [] => true | x :: r => negb (existsb (byte_eqb x) r) && nodupb r end.
Definition share_id (s : bytes) : byte := hd x00 s.
(** shamir.rs:35-42 shares_reconstruct (combine_array: at least two shares, all
    of the same length of at least 2, identifiers non-zero and distinct). *)
Definition shares_reconstruct (shares : list bytes) : option bytes :=
  match shares with
  | s0 :: _ :: _ =>
    if forallb (fun s => (length s =? length s0)%nat) shares && (2 <=? length s0)%nat
       && forallb (fun s => negb (byte_eqb (share_id s) x00)) shares && nodupb (map share_id shares)
    then Some (map (fun i => interpolate (map (fun s => (share_id s, nth i s x00)) shares)) (seq 1 (length s0 - 1)))
    else None
  | _ => None
  end.
