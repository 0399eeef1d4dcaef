(** Specification of the key set, after /repo/src/qos_p256/SPEC.md (C41). *)
From Verif Require Import Base P256.
Local Open Scope N_scope.

(** Laws of the primitives. *)
Record prims_ok (Q : prims) : Prop := PrimsOk {
  l_pub : forall k, q_scalar_ok Q k = true -> lenN (q_pub Q k) = 65 /\ q_point_ok Q (q_pub Q k) = true;
  l_dh : forall a b, q_scalar_ok Q a = true -> q_scalar_ok Q b = true -> q_dh Q a (q_pub Q b) = q_dh Q b (q_pub Q a);
  l_open : forall k n a m c, q_seal Q k n a m = Some c -> q_open Q k n a c = Some m;
  l_sign : forall k m, q_scalar_ok Q k = true -> q_sig_ok Q (q_sign Q k m) = true /\ q_verify Q (q_pub Q k) m (q_sign Q k m) = true
}.

(** A public key: encryption point, then signing point, 65 bytes each. *)
Definition key_layout (Q : prims) (b e g : bytes) : Prop :=
  b = e ++ g /\ length e = 65%nat /\ length g = 65%nat /\ q_point_ok Q e = true /\ q_point_ok Q g = true.

(** SPEC.md "P256 HPKE": the envelope is nonce || sender point || u32 length || ciphertext. *)
Definition envelope_layout (env nonce sender c : bytes) : Prop :=
  env = nonce ++ sender ++ le_enc 4 (lenN c) ++ c /\ length nonce = 12%nat /\ length sender = 65%nat /\ lenN c < 2 ^ 32.
Definition sym_envelope_layout (env nonce c : bytes) : Prop :=
  env = nonce ++ le_enc 4 (lenN c) ++ c /\ length nonce = 12%nat /\ lenN c < 2 ^ 32.
(** step 3 and 4: cipher key and associated data from sender, receiver and ECDH secret *)
Definition hpke_key (Q : prims) (sender receiver shared : bytes) : bytes :=
  firstn 32 (q_hmac Q (sender ++ receiver ++ shared) (bs "qos_encryption_hmac_message")).
Definition hpke_aad (sender receiver : bytes) : bytes := sender ++ [x41] ++ receiver ++ [x41].
