(** The key set: /repo/src/qos_p256/src/{lib.rs,encrypt.rs,sign.rs}.
    The curve, HMAC, HKDF, AES-GCM and ECDSA implementations (crates p256, hmac,
    hkdf, aes-gcm) are not opened: they are the fields of [prims].  Everything
    the crate itself does (layouts, lengths, derivation paths, associated data,
    error cases, order of arguments) is modelled. *)
From Verif Require Import Base Utf8 Hex Borsh Msg.
Local Open Scope N_scope.

Record prims := Prims {
  q_scalar_ok : bytes -> bool;                      (* SecretKey::from_slice accepts *)
  q_pub : bytes -> bytes;                           (* scalar -> uncompressed SEC1 point *)
  q_point_ok : bytes -> bool;                       (* PublicKey::from_sec1_bytes accepts *)
  q_dh : bytes -> bytes -> bytes;                   (* diffie_hellman: scalar, point -> raw secret *)
  q_hmac : bytes -> bytes -> bytes;                 (* HMAC-SHA512: key, message *)
  q_hkdf : bytes -> bytes -> bytes;                 (* HKDF-SHA512: salt, input; empty info, 32 bytes *)
  q_seal : bytes -> bytes -> bytes -> bytes -> option bytes; (* AES-256-GCM: key, nonce, aad, message *)
  q_open : bytes -> bytes -> bytes -> bytes -> option bytes; (* AES-256-GCM: key, nonce, aad, ciphertext *)
  q_sign : bytes -> bytes -> bytes;                 (* ECDSA (RFC 6979): scalar, message *)
  q_sig_ok : bytes -> bool;                         (* Signature::try_from accepts *)
  q_verify : bytes -> bytes -> bytes -> bool        (* point, message, signature *)
}.

Section P256.
  Context (Q : prims).
  Local Notation res := (result p256_error).

  (** lib.rs:18-29, encrypt.rs:18-22 *)
  Definition PUB_KEY_LEN : N := 65.
  Definition P256_ENCRYPT_DERIVE_PATH : bytes := bs "qos_p256_encrypt".
  Definition P256_SIGN_DERIVE_PATH : bytes := bs "qos_p256_sign".
  Definition AES_GCM_256_PATH : bytes := bs "qos_aes_gcm_encrypt".
  Definition AES_TAG : bytes := bs "qos_aes_gcm_256_hmac_sha512".
  Definition HMAC_MESSAGE : bytes := bs "qos_encryption_hmac_message".

  (** encrypt.rs:26-35 Envelope, :359-367 SymmetricEnvelope *)
  Definition c_envelope : codec (bytes * (bytes * bytes)) := c_pair (c_fixed 12) (c_pair (c_fixed 65) c_bytes).
  Definition c_sym_envelope : codec (bytes * bytes) := c_pair (c_fixed 12) c_bytes.

  (** lib.rs:109-119 derive_secret (a 32-byte expansion never fails) *)
  Definition derive_secret (seed path : bytes) : res bytes := Ok (q_hkdf Q path seed).

  (** encrypt.rs:112-121, sign.rs:50-59 from_bytes *)
  Definition secret_from_bytes (b : bytes) : res bytes := if q_scalar_ok Q b then Ok b else Err FailedToReadSecret.

  (** encrypt.rs:251-263, sign.rs:107-119 from_bytes *)
  Definition point_from_bytes (b : bytes) : res bytes :=
    if PUB_KEY_LEN <? lenN b then Err EncodedPublicKeyTooLong
    else if lenN b <? PUB_KEY_LEN then Err EncodedPublicKeyTooShort
    else if q_point_ok Q b then Ok b else Err FailedToReadPublicKey.

  (** lib.rs:145-153 P256Pair *)
  Record pair := Pair { pr_encrypt : bytes; pr_sign : bytes; pr_seed : bytes; pr_aes : bytes }.
  (** lib.rs:243-263 from_master_seed *)
  Definition pair_from_master_seed (seed : bytes) : res pair :=
    rbind (derive_secret seed P256_ENCRYPT_DERIVE_PATH) (fun es =>
    rbind (derive_secret seed P256_SIGN_DERIVE_PATH) (fun ss =>
    rbind (derive_secret seed AES_GCM_256_PATH) (fun ae =>
    rbind (secret_from_bytes es) (fun e =>
    rbind (secret_from_bytes ss) (fun g => Ok (Pair e g seed ae)))))).
  (** lib.rs:161-183 generate; [rnd] is the OS randomness *)
  Definition pair_generate (rnd : bytes) : res pair :=
    rbind (derive_secret rnd P256_ENCRYPT_DERIVE_PATH) (fun es =>
    rbind (derive_secret rnd P256_SIGN_DERIVE_PATH) (fun ss =>
    rbind (derive_secret rnd AES_GCM_256_PATH) (fun ae =>
    rbind (secret_from_bytes es) (fun e =>
    rbind (secret_from_bytes ss) (fun g => Ok (Pair e g rnd ae)))))).
  (** lib.rs:359-364 P256Public *)
  Record public := Public { pb_encrypt : bytes; pb_sign : bytes }.
  (** lib.rs:230-236 *)
  Definition public_key (p : pair) : public := Public (q_pub Q (pr_encrypt p)) (q_pub Q (pr_sign p)).
  (** lib.rs:394-402 to_bytes *)
  Definition public_to_bytes (k : public) : bytes := pb_encrypt k ++ pb_sign k.
  (** lib.rs:423-441 from_bytes *)
  Definition public_from_bytes (b : bytes) : res public :=
    if 2 * PUB_KEY_LEN <? lenN b then Err EncodedPublicKeyTooLong
    else if lenN b <? 2 * PUB_KEY_LEN then Err EncodedPublicKeyTooShort
    else
      match point_from_bytes (firstn 65 b) with
      | Err _ => Err FailedToReadPublicKey
      | Ok e => match point_from_bytes (skipn 65 b) with
                | Err _ => Err FailedToReadPublicKey
                | Ok g => Ok (Public e g) end
      end.
  (** lib.rs:459-470 to_hex_file (contents) and :478-490 from_hex_file (of contents) *)
  Definition public_hex (k : public) : bytes := encode (public_to_bytes k).
  Definition public_of_hex (c : bytes) : res public :=
    match decode_from_vec c with
    | Err InvalidUtf8 => Err MasterSeedInvalidUtf8
    | Err _ => Err (PQosHex (bs "hex"))
    | Ok b => public_from_bytes b
    end.
  (** lib.rs:287-298 to_hex_file (contents) and :306-322 from_hex_file (of contents) *)
  Definition pair_hex (p : pair) : bytes := encode (pr_seed p).
  Definition pair_of_hex (c : bytes) : res pair :=
    match utf8_dec c with
    | None => Err InvalidMasterSeed
    | Some cs => match decode_to_buf (utf8_enc (trim cs)) 32 with
                 | Ok seed => pair_from_master_seed seed
                 | Err _ => Err InvalidMasterSeed end
    end.

  (** encrypt.rs:285-322 create_cipher: the AES key.  Its expect and error
      cannot occur (HMAC takes any key, 32 bytes are an AES-256 key). *)
  Definition cipher_key (shared sender receiver : bytes) : bytes :=
    firstn 32 (q_hmac Q (sender ++ receiver ++ shared) HMAC_MESSAGE).
  (** encrypt.rs:331-357 create_additional_associated_data *)
  Definition create_aad (sender receiver : bytes) : res bytes :=
    if 255 <? lenN sender then Err CannotCoerceLenToU8
    else if 255 <? lenN receiver then Err CannotCoerceLenToU8
    else Ok (sender ++ [n2b (lenN sender)] ++ receiver ++ [n2b (lenN receiver)]).

  (** encrypt.rs:139-189 P256EncryptPublic::encrypt; [es] is the random
      ephemeral scalar and [nonce] the random nonce *)
  Definition encrypt (receiver es nonce msg : bytes) : res bytes :=
    let sender := q_pub Q es in
    if negb (lenN sender =? PUB_KEY_LEN) then Err FailedToCoercePublicKeyToIntendedLength
    else
      let key := cipher_key (q_dh Q es receiver) sender receiver in
      rbind (create_aad sender receiver) (fun aad =>
      match q_seal Q key nonce aad msg with
      | None => Err AesGcm256EncryptError
      | Some c => match to_vec c_envelope (nonce, (sender, c)) with
                  | Some b => Ok b
                  | None => Err FailedToSerializeEnvelope end
      end).
  (** encrypt.rs:57-104 P256EncryptPair::decrypt *)
  Definition decrypt (private env : bytes) : res bytes :=
    match from_slice c_envelope env with
    | None => Err FailedToDeserializeEnvelope
    | Some (nonce, (sender, c)) =>
      if negb (q_point_ok Q sender) then Err FailedToDeserializePublicKey
      else
        let receiver := q_pub Q private in
        let key := cipher_key (q_dh Q private sender) sender receiver in
        rbind (create_aad sender receiver) (fun aad =>
        match q_open Q key nonce aad c with Some m => Ok m | None => Err AesGcm256DecryptError end)
    end.
  (** encrypt.rs:201-240 decrypt_from_shared_secret *)
  Definition decrypt_from_shared_secret (receiver env shared : bytes) : res bytes :=
    match from_slice c_envelope env with
    | None => Err FailedToDeserializeEnvelope
    | Some (nonce, (sender, c)) =>
      let key := cipher_key shared sender receiver in
      rbind (create_aad sender receiver) (fun aad =>
      match q_open Q key nonce aad c with Some m => Ok m | None => Err AesGcm256DecryptError end)
    end.
  (** encrypt.rs:413-434 and :450-476 AesGcm256Secret *)
  Definition aes_encrypt (secret nonce msg : bytes) : res bytes :=
    match q_seal Q secret nonce AES_TAG msg with
    | None => Err AesGcm256EncryptError
    | Some c => match to_vec c_sym_envelope (nonce, c) with
                | Some b => Ok b
                | None => Err FailedToSerializeEnvelope end
    end.
  Definition aes_decrypt (secret env : bytes) : res bytes :=
    match from_slice c_sym_envelope env with
    | None => Err FailedToDeserializeEnvelope
    | Some (nonce, c) => match q_open Q secret nonce AES_TAG c with Some m => Ok m | None => Err AesGcm256DecryptError end
    end.

  (** sign.rs:33-37, 83-96 *)
  Definition sign (p : pair) (m : bytes) : bytes := q_sign Q (pr_sign p) m.
  Definition verify (k : public) (m sig : bytes) : res unit :=
    if negb (q_sig_ok Q sig) then Err FailedToDeserializeSignature
    else if q_verify Q (pb_sign k) m sig then Ok tt else Err FailedSignatureVerification.
  (** lib.rs:215-220, 372-374 *)
  Definition pair_decrypt (p : pair) (env : bytes) : res bytes := decrypt (pr_encrypt p) env.
  Definition public_encrypt (k : public) (es nonce msg : bytes) : res bytes := encrypt (pb_encrypt k) es nonce msg.
  (** lib.rs:190-209 *)
  Definition pair_aes_encrypt (p : pair) := aes_encrypt (pr_aes p).
  Definition pair_aes_decrypt (p : pair) := aes_decrypt (pr_aes p).
End P256.
