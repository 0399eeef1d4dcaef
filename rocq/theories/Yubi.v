(** Smart-card member keys: /repo/src/qos_client/src/yubikey.rs and, in
    /repo/src/qos_client/src/cli/services.rs, 224-341 (PairOrYubi), 367-413
    (provision_yubikey), 415-423 (pin_from_path), 425-490
    (advanced_provision_yubikey), 1828-1850 (yubikey_sign, yubikey_public).

    The PIV application of the card is modelled from the Yubico manual and the
    yubikey crate (not in the repository): a PIN with a retry counter, a PUK, a
    management key, and per slot a private key and a certificate.  Every exchange
    with the card may fail before or after it took effect ([plan]); a missing
    touch or a pulled card is such a failure.  Certificates are the bits of
    their subject public key; names, dates and serial numbers are not modelled
    (their constructors cannot fail on the values given).  Error payloads are
    dropped. *)
From Verif Require Import Base Utf8 Hex Borsh Msg P256.
Local Open Scope N_scope.

Inductive slot := Signature | KeyManagement | OtherSlot (n : N).
Definition slot_eqb (a b : slot) : bool :=
  match a, b with
  | Signature, Signature | KeyManagement, KeyManagement => true
  | OtherSlot n, OtherSlot m => n =? m
  | _, _ => false end.
Inductive policy := Never | Once | Always.
Record key := Key { k_scalar : bytes; k_pin : policy; k_touch : policy }.
Inductive fault := Works | FailsBefore | FailsAfter.

Record card := Card {
  c_pin : bytes; c_retries : nat; c_max : nat;      (* PIN, tries left, tries after a success *)
  c_puk : nat;                                       (* PUK tries left *)
  c_mgm : bytes;                                     (* management key *)
  c_key : slot -> option key;
  c_cert : slot -> option (option bytes);            (* certificate; None inside: key bits not whole bytes *)
  c_authed : bool; c_verified : bool;                (* session: management key shown, PIN shown *)
  c_rng : list bytes;                                (* the card's random scalars *)
  c_plan : list fault                                (* what happens to the coming exchanges *)
}.
Definition set_pin d p r v := Card p r (c_max d) (c_puk d) (c_mgm d) (c_key d) (c_cert d) (c_authed d) v (c_rng d) (c_plan d).
Definition set_session d a v := Card (c_pin d) (c_retries d) (c_max d) (c_puk d) (c_mgm d) (c_key d) (c_cert d) a v (c_rng d) (c_plan d).
Definition set_key d s k rng := Card (c_pin d) (c_retries d) (c_max d) (c_puk d) (c_mgm d)
  (fun t => if slot_eqb t s then Some k else c_key d t) (c_cert d) (c_authed d) (c_verified d) rng (c_plan d).
Definition set_cert d s x := Card (c_pin d) (c_retries d) (c_max d) (c_puk d) (c_mgm d)
  (c_key d) (fun t => if slot_eqb t s then Some x else c_cert d t) (c_authed d) (c_verified d) (c_rng d) (c_plan d).
Definition set_puk d n := Card (c_pin d) (c_retries d) (c_max d) n (c_mgm d) (c_key d) (c_cert d) (c_authed d) (c_verified d) (c_rng d) (c_plan d).
Definition advance d := Card (c_pin d) (c_retries d) (c_max d) (c_puk d) (c_mgm d) (c_key d) (c_cert d) (c_authed d) (c_verified d) (c_rng d) (tl (c_plan d)).

(** One exchange with the card. *)
Definition exchange {A} (f : card -> option A * card) (d : card) : option A * card :=
  match c_plan d with
  | FailsBefore :: _ => (None, advance d)
  | FailsAfter :: _ => (None, snd (f (advance d)))
  | _ => f (advance d)
  end.

(** yubikey.rs:40-80 *)
Inductive yerr :=
| FailedToGenerateKey | FailedToAuthWithMGM | FailedToVerifyPin | FailedToGenerateSelfSignedCert | WillNotOverwriteSlot
| CannotFindSigningKey | CannotFindKeyAgree | FoundNonP256Key | SigningFailed | FailedToVerifyYubiKeySignature
| KeyAgreementFailed | Connection | EnvelopeDeserialize | FailedToLoadKey | InvalidSecret | FailedToChangePin | EmptyPublicKeyInfo
| WrongPublicKey | YP256 (e : p256_error).   (* the last two: services.rs Error *)

Definition y (A : Type) : Type := card -> result yerr A * card.
Definition yret {A} (a : A) : y A := fun d => (Ok a, d).
Definition yfail {A} (e : yerr) : y A := fun d => (Err e, d).
Definition ybind {A B} (m : y A) (f : A -> y B) : y B :=
  fun d => match m d with (Ok a, d') => f a d' | (Err e, d') => (Err e, d') end.
Definition yop {A} (f : card -> option A * card) (e : yerr) : y A :=
  fun d => match exchange f d with (Some a, d') => (Ok a, d') | (None, d') => (Err e, d') end.
Definition ytry {A} (o : option A) (e : yerr) : y A := match o with Some a => yret a | None => yfail e end.
Notation "'let!' x ':=' a 'in' b" := (ybind a (fun x => b)) (at level 200, x name, a at level 100, b at level 200).
Notation "'do!' a 'in' b" := (ybind a (fun _ => b)) (at level 200, a at level 100, b at level 200).

(** ** The card's side *)
Definition PIN_MAX : N := 8.
Definition DEFAULT_MGM : bytes := bs "default management key".
Definition DEFAULT_PIN : bytes := bs "123456".
(** Opening starts a new session. *)
Definition op_open (d : card) : option unit * card := (Some tt, set_session d false false).
(** YubiKey::verify_pin: an empty PIN only asks whether one was shown *)
Definition op_verify_pin (p : bytes) (d : card) : option unit * card :=
  if PIN_MAX <? lenN p then (None, d)
  else match p with
  | [] => (if c_verified d then Some tt else None, d)
  | _ => if (c_retries d =? 0)%nat then (None, d)
         else if bytes_eqb p (c_pin d) then (Some tt, set_pin d (c_pin d) (c_max d) true)
         else (None, set_pin d (c_pin d) (pred (c_retries d)) false)
  end.
Definition op_authenticate (m : bytes) (d : card) : option unit * card :=
  if bytes_eqb m (c_mgm d) then (Some tt, set_session d true (c_verified d)) else (None, set_session d false (c_verified d)).
Definition op_read_cert (s : slot) (d : card) : option (option bytes) * card := (c_cert d s, d).
(** The PIN is used up by a key whose PIN policy is Always. *)
Definition use_key (s : slot) (d : card) : option key * card :=
  match c_key d s with
  | None => (None, d)
  | Some k => match k_pin k with
              | Never => (Some k, d)
              | Once => (if c_verified d then Some k else None, d)
              | Always => if c_verified d then (Some k, set_session d (c_authed d) false) else (None, d) end
  end.
Section Yubi.
  Context (Q : prims).
  Context (card_sign : bytes -> bytes -> bytes)      (* the card's ECDSA: scalar, digest -> DER *)
          (from_der : bytes -> option bytes)         (* Signature::from_der, then to_vec *)
          (sha256 : bytes -> bytes)
          (encoded_ok : bytes -> bool).              (* EncodedPoint::from_bytes accepts *)

  Definition op_generate (s : slot) (pin touch : policy) (d : card) : option bytes * card :=
    if c_authed d then
      match c_rng d with
      | k :: r => (Some (q_pub Q k), set_key d s (Key k pin touch) r)
      | [] => (None, d)
      end
    else (None, d).
  Definition op_import (s : slot) (k : bytes) (touch pin : policy) (d : card) : option unit * card :=
    if c_authed d then (Some tt, set_key d s (Key k pin touch) (c_rng d)) else (None, d).
  (** Certificate::generate_self_signed: signs with the slot's key, then stores *)
  Definition op_self_sign (s : slot) (subject : bytes) (d : card) : option unit * card :=
    match use_key s d with
    | (Some _, d') => if c_authed d' then (Some tt, set_cert d' s (Some subject)) else (None, d')
    | (None, d') => (None, d')
    end.
  Definition op_sign (s : slot) (digest : bytes) (d : card) : option bytes * card :=
    match use_key s d with (Some k, d') => (Some (card_sign (k_scalar k) digest), d') | (None, d') => (None, d') end.
  (** ECDH; the card refuses what is not an uncompressed point *)
  Definition op_dh (s : slot) (point : bytes) (d : card) : option bytes * card :=
    match use_key s d with
    | (Some k, d') => (if q_point_ok Q point then Some (q_dh Q (k_scalar k) point) else None, d')
    | (None, d') => (None, d')
    end.
  Definition op_change_pin (cur new : bytes) (d : card) : option unit * card :=
    if (PIN_MAX <? lenN cur) || (PIN_MAX <? lenN new) then (None, d)
    else if (c_retries d =? 0)%nat then (None, d)
    else if bytes_eqb cur (c_pin d) then (Some tt, set_pin d new (c_max d) (c_verified d))
    else (None, set_pin d (c_pin d) (pred (c_retries d)) false).
  Definition op_block_puk (d : card) : option unit * card := (Some tt, set_puk d 0).
  (** Only a card whose PIN and PUK are blocked can be reset. *)
  Definition op_reset (d : card) : option unit * card :=
    if (c_retries d =? 0)%nat && (c_puk d =? 0)%nat
    then (Some tt, Card DEFAULT_PIN 3 3 3 DEFAULT_MGM (fun _ => None) (fun _ => None) false false (c_rng d) (c_plan d))
    else (None, d).

  (** ** yubikey.rs *)
  Definition SIGNING_SLOT := Signature.
  Definition KEY_AGREEMENT_SLOT := KeyManagement.
  Definition verify_pin (p : bytes) : y unit := yop (op_verify_pin p) FailedToVerifyPin.

  (** yubikey.rs:409-418 *)
  Definition extract_encoded_point (bits : option bytes) : y bytes :=
    match bits with
    | None => yfail EmptyPublicKeyInfo
    | Some b => if encoded_ok b then yret b else yfail FoundNonP256Key end.

  (** The check for an occupied slot (yubikey.rs:112-115, 170-173): any error
      of the read means "free". *)
  Definition refuse_occupied (s : slot) : y unit :=
    fun d => match exchange (op_read_cert s) d with
             | (Some _, d') => (Err WillNotOverwriteSlot, d')
             | (None, d') => (Ok tt, d') end.

  (** yubikey.rs:99-144 *)
  Definition generate_signed_certificate (s : slot) (pin mgm : bytes) (touch : policy) : y bytes :=
    do! verify_pin pin in
    do! yop (op_authenticate mgm) FailedToAuthWithMGM in
    do! refuse_occupied s in
    let! pub := yop (op_generate s Always touch) FailedToGenerateKey in
    let! point := extract_encoded_point (Some pub) in
    do! verify_pin pin in
    do! yop (op_self_sign s pub) FailedToGenerateSelfSignedCert in
    yret point.

  (** yubikey.rs:156-213 *)
  Definition import_key (k : bytes) (s : slot) (pin mgm : bytes) (touch : policy) : y unit :=
    do! verify_pin pin in
    do! yop (op_authenticate mgm) FailedToAuthWithMGM in
    do! refuse_occupied s in
    let! pub := ytry (if q_scalar_ok Q k then Some (q_pub Q k) else None) InvalidSecret in
    do! yop (op_import s k touch Always) FailedToLoadKey in
    do! verify_pin pin in
    do! yop (op_self_sign s pub) FailedToGenerateSelfSignedCert in
    yret tt.

  (** yubikey.rs:224-259.  A card answering something that is not a DER
      signature is a panic, here an error. *)
  Definition sign_data (data pin : bytes) : y bytes :=
    let! c := yop (op_read_cert SIGNING_SLOT) CannotFindSigningKey in
    let! point := extract_encoded_point c in
    do! (if q_point_ok Q point then yret tt else yfail FoundNonP256Key) in
    do! verify_pin pin in
    let! der := yop (op_sign SIGNING_SLOT (sha256 data)) SigningFailed in
    let! sig := ytry (from_der der) SigningFailed in
    if q_verify Q point data sig then yret sig else yfail FailedToVerifyYubiKeySignature.

  (** yubikey.rs:270-279 *)
  Definition key_agreement (sender pin : bytes) : y bytes :=
    do! verify_pin pin in yop (op_dh KEY_AGREEMENT_SLOT sender) KeyAgreementFailed.
  (** yubikey.rs:287-289 *)
  Definition open_single : y unit := yop op_open Connection.
  (** yubikey.rs:328-338 *)
  Definition key_agree_public_key : y bytes :=
    let! c := yop (op_read_cert KEY_AGREEMENT_SLOT) CannotFindKeyAgree in extract_encoded_point c.
  (** yubikey.rs:299-316 *)
  Definition pair_public_key : y bytes :=
    let! c := yop (op_read_cert SIGNING_SLOT) CannotFindSigningKey in
    let! g := extract_encoded_point c in
    let! e := key_agree_public_key in yret (e ++ g).
  (** yubikey.rs:350-363 *)
  Definition shared_secret (env pin : bytes) : y bytes :=
    match from_slice c_envelope env with
    | None => yfail EnvelopeDeserialize
    | Some (_, (sender, _)) => key_agreement sender pin end.
  (** yubikey.rs:371-380 *)
  Definition yubikey_change_pin (cur new : bytes) : y unit :=
    do! open_single in yop (op_change_pin cur new) FailedToChangePin.
  (** yubikey.rs:389-400: results are ignored; [m] are the random management keys *)
  Definition ignore {A} (f : card -> option A * card) : y unit := fun d => (Ok tt, snd (exchange f d)).
  Definition yubikey_piv_reset (m1 m2 m3 : bytes) : y unit :=
    do! open_single in
    do! ignore (op_authenticate m1) in do! ignore (op_verify_pin (bs "000000")) in
    do! ignore (op_authenticate m2) in do! ignore (op_verify_pin (bs "000000")) in
    do! ignore (op_authenticate m3) in do! ignore (op_verify_pin (bs "000000")) in
    do! ignore op_block_puk in do! ignore op_reset in yret tt.

  (** ** services.rs *)
  (** services.rs:415-423 pin_from_path: the first line, without its newline *)
  Fixpoint first_line (l : bytes) : bytes :=
    match l with
    | [] => []
    | c :: r => if byte_eqb c x0a then []
                else match r with
                     | d :: _ => if byte_eqb c x0d && byte_eqb d x0a then [] else c :: first_line r
                     | [] => [c] end
    end.
  Definition pin_from_path (f : option bytes) : option bytes :=
    match f with
    | Some ((_ :: _) as t) => if utf8_valid (first_line t) then Some (first_line t) else None
    | _ => None end.

  (** services.rs:288-297, 304-327, 334-341: a session with the card ([Yubi]);
      [Pair] is P256.v *)
  Definition yubi_sign (data pin : bytes) : y bytes := sign_data data pin.
  Definition of_p256 {A} (r : result p256_error A) : y A := match r with Ok a => yret a | Err e => yfail (YP256 e) end.
  Definition yubi_decrypt (payload pin : bytes) : y bytes :=
    let! shared := shared_secret payload pin in
    let! e := key_agree_public_key in
    let! receiver := of_p256 (point_from_bytes Q e) in
    of_p256 (decrypt_from_shared_secret Q receiver payload shared).
  Definition yubi_public_key_bytes : y bytes := pair_public_key.

  (** services.rs:367-413: what is written to the public key file *)
  Definition provision_yubikey (pin : bytes) : y bytes :=
    do! open_single in
    do! generate_signed_certificate SIGNING_SLOT pin DEFAULT_MGM Always in
    do! generate_signed_certificate KEY_AGREEMENT_SLOT pin DEFAULT_MGM Always in
    let! p := pair_public_key in
    yret (encode p).
  (** services.rs:425-490; [seed] is the contents of the master seed file *)
  Definition advanced_provision_yubikey (seed_file pin : bytes) : y unit :=
    do! open_single in
    let! p := of_p256 (pair_of_hex Q seed_file) in
    let! e := of_p256 (derive_secret Q (pr_seed p) P256_ENCRYPT_DERIVE_PATH) in
    let! g := of_p256 (derive_secret Q (pr_seed p) P256_SIGN_DERIVE_PATH) in
    do! import_key g SIGNING_SLOT pin DEFAULT_MGM Always in
    do! import_key e KEY_AGREEMENT_SLOT pin DEFAULT_MGM Always in
    let! k := pair_public_key in
    if bytes_eqb k (public_to_bytes (public_key Q p)) then yret tt else yfail WrongPublicKey.
  (** services.rs:1828-1840, 1842-1850: what is printed *)
  Definition yubikey_sign (hex pin : bytes) : y bytes :=
    match decode hex with
    | Err _ => yfail EnvelopeDeserialize   (* Error::QosHex *)
    | Ok b => do! open_single in let! s := yubi_sign b pin in yret (encode s) end.
  Definition yubikey_public : y bytes := do! open_single in let! p := pair_public_key in yret (encode p).
End Yubi.
