(** Borsh codecs of the protocol messages (derive macros; enum tags are
    declaration indices): msg.rs:84-262, error.rs, state.rs, genesis.rs and
    qos_nsm/src/types.rs.  Each enum is presented as a nested sum [X_sum] in
    declaration order, with the bijection [X_of]/[X_to]; generated by
    /verif/tools/gen_msg.py. *)
From Verif Require Import Base Utf8 Borsh Json Types TypesBorsh TypesJson JsonComb Msg.
Local Open Scope N_scope.

(** state.rs:21-52 *)
Definition phase_sum : Type := (unit) + ((unit) + ((unit) + ((unit) + ((unit) + ((unit) + Empty_set))))).
Definition phase_of (s : phase_sum) : phase :=
  match s with
  | inl _ => UnrecoverableError
  | inr (inl _) => WaitingForBootInstruction
  | inr (inr (inl _)) => GenesisBooted
  | inr (inr (inr (inl _))) => WaitingForQuorumShards
  | inr (inr (inr (inr (inl _)))) => QuorumKeyProvisioned
  | inr (inr (inr (inr (inr (inl _))))) => WaitingForForwardedKey
  | inr (inr (inr (inr (inr (inr e))))) => match e return phase with end
  end.
Definition phase_to (a : phase) : phase_sum :=
  match a with
  | UnrecoverableError => inl tt
  | WaitingForBootInstruction => inr (inl tt)
  | GenesisBooted => inr (inr (inl tt))
  | WaitingForQuorumShards => inr (inr (inr (inl tt)))
  | QuorumKeyProvisioned => inr (inr (inr (inr (inl tt))))
  | WaitingForForwardedKey => inr (inr (inr (inr (inr (inl tt)))))
  end.
Lemma phase_of_to a : phase_of (phase_to a) = a.
Proof. destruct a; reflexivity. Qed.
Lemma phase_to_of s : phase_to (phase_of s) = s.
Proof. cbv [phase_sum] in s. repeat (destruct s as [s|s]; [repeat match goal with p : (_ * _)%type |- _ => destruct p | u : unit |- _ => destruct u end; reflexivity|]). destruct s. Qed.
Definition t_phase : tcodec phase_sum :=
  t_cons c_unit (t_cons c_unit (t_cons c_unit (t_cons c_unit (t_cons c_unit (t_cons c_unit t_nil))))).
Definition c_phase : codec phase := c_iso phase_of phase_to (c_enum t_phase).

(** qos_nsm/src/types.rs:20-46 *)
Definition nsm_error_code_sum : Type := (unit) + ((unit) + ((unit) + ((unit) + ((unit) + ((unit) + ((unit) + ((unit) + ((unit) + Empty_set)))))))).
Definition nsm_error_code_of (s : nsm_error_code_sum) : nsm_error_code :=
  match s with
  | inl _ => NsmSuccess
  | inr (inl _) => NsmInvalidArgument
  | inr (inr (inl _)) => NsmInvalidIndex
  | inr (inr (inr (inl _))) => NsmInvalidResponse
  | inr (inr (inr (inr (inl _)))) => NsmReadOnlyIndex
  | inr (inr (inr (inr (inr (inl _))))) => NsmInvalidOperation
  | inr (inr (inr (inr (inr (inr (inl _)))))) => NsmBufferTooSmall
  | inr (inr (inr (inr (inr (inr (inr (inl _))))))) => NsmInputTooLarge
  | inr (inr (inr (inr (inr (inr (inr (inr (inl _)))))))) => NsmInternalError
  | inr (inr (inr (inr (inr (inr (inr (inr (inr e)))))))) => match e return nsm_error_code with end
  end.
Definition nsm_error_code_to (a : nsm_error_code) : nsm_error_code_sum :=
  match a with
  | NsmSuccess => inl tt
  | NsmInvalidArgument => inr (inl tt)
  | NsmInvalidIndex => inr (inr (inl tt))
  | NsmInvalidResponse => inr (inr (inr (inl tt)))
  | NsmReadOnlyIndex => inr (inr (inr (inr (inl tt))))
  | NsmInvalidOperation => inr (inr (inr (inr (inr (inl tt)))))
  | NsmBufferTooSmall => inr (inr (inr (inr (inr (inr (inl tt))))))
  | NsmInputTooLarge => inr (inr (inr (inr (inr (inr (inr (inl tt)))))))
  | NsmInternalError => inr (inr (inr (inr (inr (inr (inr (inr (inl tt))))))))
  end.
Lemma nsm_error_code_of_to a : nsm_error_code_of (nsm_error_code_to a) = a.
Proof. destruct a; reflexivity. Qed.
Lemma nsm_error_code_to_of s : nsm_error_code_to (nsm_error_code_of s) = s.
Proof. cbv [nsm_error_code_sum] in s. repeat (destruct s as [s|s]; [repeat match goal with p : (_ * _)%type |- _ => destruct p | u : unit |- _ => destruct u end; reflexivity|]). destruct s. Qed.
Definition t_nsm_error_code : tcodec nsm_error_code_sum :=
  t_cons c_unit (t_cons c_unit (t_cons c_unit (t_cons c_unit (t_cons c_unit (t_cons c_unit (t_cons c_unit (t_cons c_unit (t_cons c_unit t_nil)))))))).
Definition c_nsm_code : codec nsm_error_code := c_iso nsm_error_code_of nsm_error_code_to (c_enum t_nsm_error_code).

(** qos_nsm/src/types.rs NsmDigest *)
Definition nsm_digest_sum : Type := (unit) + ((unit) + ((unit) + Empty_set)).
Definition nsm_digest_of (s : nsm_digest_sum) : nsm_digest :=
  match s with
  | inl _ => SHA256
  | inr (inl _) => SHA384
  | inr (inr (inl _)) => SHA512
  | inr (inr (inr e)) => match e return nsm_digest with end
  end.
Definition nsm_digest_to (a : nsm_digest) : nsm_digest_sum :=
  match a with
  | SHA256 => inl tt
  | SHA384 => inr (inl tt)
  | SHA512 => inr (inr (inl tt))
  end.
Lemma nsm_digest_of_to a : nsm_digest_of (nsm_digest_to a) = a.
Proof. destruct a; reflexivity. Qed.
Lemma nsm_digest_to_of s : nsm_digest_to (nsm_digest_of s) = s.
Proof. cbv [nsm_digest_sum] in s. repeat (destruct s as [s|s]; [repeat match goal with p : (_ * _)%type |- _ => destruct p | u : unit |- _ => destruct u end; reflexivity|]). destruct s. Qed.
Definition t_nsm_digest : tcodec nsm_digest_sum :=
  t_cons c_unit (t_cons c_unit (t_cons c_unit t_nil)).
Definition c_digest : codec nsm_digest := c_iso nsm_digest_of nsm_digest_to (c_enum t_nsm_digest).

(** BTreeSet<u16>: borsh without de_strict_order decodes a Vec and collects it. *)
Definition c_set_u16 : codec (list N) :=
  Codec (enc (c_vec c_u16))
        (fun b => match dec (c_vec c_u16) b with Some (l, r) => Some (set_collect l, r) | None => None end)
        (fun l => wf (c_vec c_u16) l && ascending l).

(** qos_nsm/src/types.rs NsmResponse *)
Definition nsm_response_sum : Type := ((bool * bytes)) + ((bytes) + ((unit) + ((unit) + (((N * (N * (N * (bytes * (N * (list N * nsm_digest))))))) + ((bytes) + ((bytes) + ((nsm_error_code) + Empty_set))))))).
Definition nsm_response_of (s : nsm_response_sum) : nsm_response :=
  match s with
  | inl (x0, x1) => RDescribePCR x0 x1
  | inr (inl x0) => RExtendPCR x0
  | inr (inr (inl _)) => RLockPCR
  | inr (inr (inr (inl _))) => RLockPCRs
  | inr (inr (inr (inr (inl (x0, (x1, (x2, (x3, (x4, (x5, x6)))))))))) => RDescribeNSM x0 x1 x2 x3 x4 x5 x6
  | inr (inr (inr (inr (inr (inl x0))))) => RAttestation x0
  | inr (inr (inr (inr (inr (inr (inl x0)))))) => RGetRandom x0
  | inr (inr (inr (inr (inr (inr (inr (inl x0))))))) => RError x0
  | inr (inr (inr (inr (inr (inr (inr (inr e))))))) => match e return nsm_response with end
  end.
Definition nsm_response_to (a : nsm_response) : nsm_response_sum :=
  match a with
  | RDescribePCR x0 x1 => inl (x0, x1)
  | RExtendPCR x0 => inr (inl x0)
  | RLockPCR => inr (inr (inl tt))
  | RLockPCRs => inr (inr (inr (inl tt)))
  | RDescribeNSM x0 x1 x2 x3 x4 x5 x6 => inr (inr (inr (inr (inl (x0, (x1, (x2, (x3, (x4, (x5, x6))))))))))
  | RAttestation x0 => inr (inr (inr (inr (inr (inl x0)))))
  | RGetRandom x0 => inr (inr (inr (inr (inr (inr (inl x0))))))
  | RError x0 => inr (inr (inr (inr (inr (inr (inr (inl x0)))))))
  end.
Lemma nsm_response_of_to a : nsm_response_of (nsm_response_to a) = a.
Proof. destruct a; reflexivity. Qed.
Lemma nsm_response_to_of s : nsm_response_to (nsm_response_of s) = s.
Proof. cbv [nsm_response_sum] in s. repeat (destruct s as [s|s]; [repeat match goal with p : (_ * _)%type |- _ => destruct p | u : unit |- _ => destruct u end; reflexivity|]). destruct s. Qed.
Definition t_nsm_response : tcodec nsm_response_sum :=
  t_cons (c_pair c_bool c_bytes) (t_cons c_bytes (t_cons c_unit (t_cons c_unit (t_cons (c_pair c_u16 (c_pair c_u16 (c_pair c_u16 (c_pair c_string (c_pair c_u16 (c_pair c_set_u16 c_digest)))))) (t_cons c_bytes (t_cons c_bytes (t_cons c_nsm_code t_nil))))))).
Definition c_nsm_response : codec nsm_response := c_iso nsm_response_of nsm_response_to (c_enum t_nsm_response).

(** qos_p256/src/lib.rs:45-95 *)
Definition p256_error_sum : Type := (bytes) + ((bytes) + ((unit) + ((unit) + ((unit) + ((unit) + ((unit) + ((unit) + ((unit) + ((unit) + ((unit) + ((unit) + ((unit) + ((unit) + ((unit) + ((unit) + ((unit) + ((unit) + ((unit) + ((unit) + ((unit) + Empty_set)))))))))))))))))))).
Definition p256_error_of (s : p256_error_sum) : p256_error :=
  match s with
  | inl x0 => PQosHex x0
  | inr (inl x0) => PIOError x0
  | inr (inr (inl _)) => FailedToSerializeEnvelope
  | inr (inr (inr (inl _))) => FailedToDeserializeEnvelope
  | inr (inr (inr (inr (inl _)))) => AesGcm256DecryptError
  | inr (inr (inr (inr (inr (inl _))))) => AesGcm256EncryptError
  | inr (inr (inr (inr (inr (inr (inl _)))))) => FailedToCreateAes256GcmCipher
  | inr (inr (inr (inr (inr (inr (inr (inl _))))))) => FailedToDeserializePublicKey
  | inr (inr (inr (inr (inr (inr (inr (inr (inl _)))))))) => FailedToCoercePublicKeyToIntendedLength
  | inr (inr (inr (inr (inr (inr (inr (inr (inr (inl _))))))))) => FailedToCoerceNonceToIntendedLength
  | inr (inr (inr (inr (inr (inr (inr (inr (inr (inr (inl _)))))))))) => FailedToDeserializeSignature
  | inr (inr (inr (inr (inr (inr (inr (inr (inr (inr (inr (inl _))))))))))) => FailedSignatureVerification
  | inr (inr (inr (inr (inr (inr (inr (inr (inr (inr (inr (inr (inl _)))))))))))) => FailedToReadSecret
  | inr (inr (inr (inr (inr (inr (inr (inr (inr (inr (inr (inr (inr (inl _))))))))))))) => FailedToReadPublicKey
  | inr (inr (inr (inr (inr (inr (inr (inr (inr (inr (inr (inr (inr (inr (inl _)))))))))))))) => EncodedPublicKeyTooLong
  | inr (inr (inr (inr (inr (inr (inr (inr (inr (inr (inr (inr (inr (inr (inr (inl _))))))))))))))) => EncodedPublicKeyTooShort
  | inr (inr (inr (inr (inr (inr (inr (inr (inr (inr (inr (inr (inr (inr (inr (inr (inl _)))))))))))))))) => HkdfExpansionFailed
  | inr (inr (inr (inr (inr (inr (inr (inr (inr (inr (inr (inr (inr (inr (inr (inr (inr (inl _))))))))))))))))) => MasterSeedInvalidUtf8
  | inr (inr (inr (inr (inr (inr (inr (inr (inr (inr (inr (inr (inr (inr (inr (inr (inr (inr (inl _)))))))))))))))))) => MasterSeedInvalidLength
  | inr (inr (inr (inr (inr (inr (inr (inr (inr (inr (inr (inr (inr (inr (inr (inr (inr (inr (inr (inl _))))))))))))))))))) => InvalidMasterSeed
  | inr (inr (inr (inr (inr (inr (inr (inr (inr (inr (inr (inr (inr (inr (inr (inr (inr (inr (inr (inr (inl _)))))))))))))))))))) => CannotCoerceLenToU8
  | inr (inr (inr (inr (inr (inr (inr (inr (inr (inr (inr (inr (inr (inr (inr (inr (inr (inr (inr (inr (inr e)))))))))))))))))))) => match e return p256_error with end
  end.
Definition p256_error_to (a : p256_error) : p256_error_sum :=
  match a with
  | PQosHex x0 => inl x0
  | PIOError x0 => inr (inl x0)
  | FailedToSerializeEnvelope => inr (inr (inl tt))
  | FailedToDeserializeEnvelope => inr (inr (inr (inl tt)))
  | AesGcm256DecryptError => inr (inr (inr (inr (inl tt))))
  | AesGcm256EncryptError => inr (inr (inr (inr (inr (inl tt)))))
  | FailedToCreateAes256GcmCipher => inr (inr (inr (inr (inr (inr (inl tt))))))
  | FailedToDeserializePublicKey => inr (inr (inr (inr (inr (inr (inr (inl tt)))))))
  | FailedToCoercePublicKeyToIntendedLength => inr (inr (inr (inr (inr (inr (inr (inr (inl tt))))))))
  | FailedToCoerceNonceToIntendedLength => inr (inr (inr (inr (inr (inr (inr (inr (inr (inl tt)))))))))
  | FailedToDeserializeSignature => inr (inr (inr (inr (inr (inr (inr (inr (inr (inr (inl tt))))))))))
  | FailedSignatureVerification => inr (inr (inr (inr (inr (inr (inr (inr (inr (inr (inr (inl tt)))))))))))
  | FailedToReadSecret => inr (inr (inr (inr (inr (inr (inr (inr (inr (inr (inr (inr (inl tt))))))))))))
  | FailedToReadPublicKey => inr (inr (inr (inr (inr (inr (inr (inr (inr (inr (inr (inr (inr (inl tt)))))))))))))
  | EncodedPublicKeyTooLong => inr (inr (inr (inr (inr (inr (inr (inr (inr (inr (inr (inr (inr (inr (inl tt))))))))))))))
  | EncodedPublicKeyTooShort => inr (inr (inr (inr (inr (inr (inr (inr (inr (inr (inr (inr (inr (inr (inr (inl tt)))))))))))))))
  | HkdfExpansionFailed => inr (inr (inr (inr (inr (inr (inr (inr (inr (inr (inr (inr (inr (inr (inr (inr (inl tt))))))))))))))))
  | MasterSeedInvalidUtf8 => inr (inr (inr (inr (inr (inr (inr (inr (inr (inr (inr (inr (inr (inr (inr (inr (inr (inl tt)))))))))))))))))
  | MasterSeedInvalidLength => inr (inr (inr (inr (inr (inr (inr (inr (inr (inr (inr (inr (inr (inr (inr (inr (inr (inr (inl tt))))))))))))))))))
  | InvalidMasterSeed => inr (inr (inr (inr (inr (inr (inr (inr (inr (inr (inr (inr (inr (inr (inr (inr (inr (inr (inr (inl tt)))))))))))))))))))
  | CannotCoerceLenToU8 => inr (inr (inr (inr (inr (inr (inr (inr (inr (inr (inr (inr (inr (inr (inr (inr (inr (inr (inr (inr (inl tt))))))))))))))))))))
  end.
Lemma p256_error_of_to a : p256_error_of (p256_error_to a) = a.
Proof. destruct a; reflexivity. Qed.
Lemma p256_error_to_of s : p256_error_to (p256_error_of s) = s.
Proof. cbv [p256_error_sum] in s. repeat (destruct s as [s|s]; [repeat match goal with p : (_ * _)%type |- _ => destruct p | u : unit |- _ => destruct u end; reflexivity|]). destruct s. Qed.
Definition t_p256_error : tcodec p256_error_sum :=
  t_cons c_string (t_cons c_string (t_cons c_unit (t_cons c_unit (t_cons c_unit (t_cons c_unit (t_cons c_unit (t_cons c_unit (t_cons c_unit (t_cons c_unit (t_cons c_unit (t_cons c_unit (t_cons c_unit (t_cons c_unit (t_cons c_unit (t_cons c_unit (t_cons c_unit (t_cons c_unit (t_cons c_unit (t_cons c_unit (t_cons c_unit t_nil)))))))))))))))))))).
Definition c_p256_error : codec p256_error := c_iso p256_error_of p256_error_to (c_enum t_p256_error).

(** error.rs:23-211 *)
Definition perr_sum : Type := (unit) + ((unit) + ((unit) + ((unit) + ((approval) + ((unit) + ((phase) + (((bytes * bytes)) + ((unit) + ((unit) + ((unit) + ((unit) + ((unit) + ((unit) + ((unit) + ((unit) + ((p256_error) + ((unit) + ((unit) + ((bytes) + ((p256_error) + ((unit) + ((unit) + ((unit) + ((unit) + ((unit) + ((unit) + ((unit) + ((bytes) + ((bytes) + ((bytes) + ((unit) + ((unit) + ((unit) + ((unit) + ((unit) + ((unit) + ((p256_error) + ((p256_error) + ((unit) + ((bytes) + (((bytes * bytes)) + (((bytes * bytes)) + (((bytes * bytes)) + (((N * N)) + (((bytes * bytes)) + ((unit) + ((unit) + ((unit) + ((unit) + ((unit) + ((unit) + (((phase * phase)) + ((unit) + (((bytes * bytes)) + ((bytes) + ((unit) + ((bytes) + ((unit) + ((unit) + ((unit) + Empty_set)))))))))))))))))))))))))))))))))))))))))))))))))))))))))))).
Definition perr_of (s : perr_sum) : perr :=
  match s with
  | inl _ => InvalidShare
  | inr (inl _) => ReconstructionErrorEmptySecret
  | inr (inr (inl _)) => ReconstructionErrorIncorrectPubKey
  | inr (inr (inr (inl _))) => IOError
  | inr (inr (inr (inr (inl x0)))) => InvalidManifestApproval x0
  | inr (inr (inr (inr (inr (inl _))))) => NotEnoughApprovals
  | inr (inr (inr (inr (inr (inr (inl x0)))))) => NoMatchingRoute x0
  | inr (inr (inr (inr (inr (inr (inr (inl (x0, x1)))))))) => InvalidPivotHash x0 x1
  | inr (inr (inr (inr (inr (inr (inr (inr (inl _)))))))) => OversizeMsg
  | inr (inr (inr (inr (inr (inr (inr (inr (inr (inl _))))))))) => InvalidMsg
  | inr (inr (inr (inr (inr (inr (inr (inr (inr (inr (inl _)))))))))) => EnclaveClient
  | inr (inr (inr (inr (inr (inr (inr (inr (inr (inr (inr (inl _))))))))))) => DecryptionFailed
  | inr (inr (inr (inr (inr (inr (inr (inr (inr (inr (inr (inr (inl _)))))))))))) => InvalidPrivateKey
  | inr (inr (inr (inr (inr (inr (inr (inr (inr (inr (inr (inr (inr (inl _))))))))))))) => FailedToParseFromString
  | inr (inr (inr (inr (inr (inr (inr (inr (inr (inr (inr (inr (inr (inr (inl _)))))))))))))) => BadEphemeralKeyPath
  | inr (inr (inr (inr (inr (inr (inr (inr (inr (inr (inr (inr (inr (inr (inr (inl _))))))))))))))) => CannotModifyPostPivotStatic
  | inr (inr (inr (inr (inr (inr (inr (inr (inr (inr (inr (inr (inr (inr (inr (inr (inl x0)))))))))))))))) => FailedToGetEphemeralKey x0
  | inr (inr (inr (inr (inr (inr (inr (inr (inr (inr (inr (inr (inr (inr (inr (inr (inr (inl _))))))))))))))))) => FailedToPutEphemeralKey
  | inr (inr (inr (inr (inr (inr (inr (inr (inr (inr (inr (inr (inr (inr (inr (inr (inr (inr (inl _)))))))))))))))))) => CannotRotateNonExistentEphemeralKey
  | inr (inr (inr (inr (inr (inr (inr (inr (inr (inr (inr (inr (inr (inr (inr (inr (inr (inr (inr (inl x0))))))))))))))))))) => CannotDeleteEphemeralKey x0
  | inr (inr (inr (inr (inr (inr (inr (inr (inr (inr (inr (inr (inr (inr (inr (inr (inr (inr (inr (inr (inl x0)))))))))))))))))))) => FailedToGetQuorumKey x0
  | inr (inr (inr (inr (inr (inr (inr (inr (inr (inr (inr (inr (inr (inr (inr (inr (inr (inr (inr (inr (inr (inl _))))))))))))))))))))) => FailedToPutQuorumKey
  | inr (inr (inr (inr (inr (inr (inr (inr (inr (inr (inr (inr (inr (inr (inr (inr (inr (inr (inr (inr (inr (inr (inl _)))))))))))))))))))))) => FailedToGetManifestEnvelope
  | inr (inr (inr (inr (inr (inr (inr (inr (inr (inr (inr (inr (inr (inr (inr (inr (inr (inr (inr (inr (inr (inr (inr (inl _))))))))))))))))))))))) => FailedToPutManifestEnvelope
  | inr (inr (inr (inr (inr (inr (inr (inr (inr (inr (inr (inr (inr (inr (inr (inr (inr (inr (inr (inr (inr (inr (inr (inr (inl _)))))))))))))))))))))))) => FailedToPutPivot
  | inr (inr (inr (inr (inr (inr (inr (inr (inr (inr (inr (inr (inr (inr (inr (inr (inr (inr (inr (inr (inr (inr (inr (inr (inr (inl _))))))))))))))))))))))))) => AppClientRecvTimeout
  | inr (inr (inr (inr (inr (inr (inr (inr (inr (inr (inr (inr (inr (inr (inr (inr (inr (inr (inr (inr (inr (inr (inr (inr (inr (inr (inl _)))))))))))))))))))))))))) => AppClientRecvInterrupted
  | inr (inr (inr (inr (inr (inr (inr (inr (inr (inr (inr (inr (inr (inr (inr (inr (inr (inr (inr (inr (inr (inr (inr (inr (inr (inr (inr (inl _))))))))))))))))))))))))))) => AppClientRecvConnectionClosed
  | inr (inr (inr (inr (inr (inr (inr (inr (inr (inr (inr (inr (inr (inr (inr (inr (inr (inr (inr (inr (inr (inr (inr (inr (inr (inr (inr (inr (inl x0)))))))))))))))))))))))))))) => AppClientConnectError x0
  | inr (inr (inr (inr (inr (inr (inr (inr (inr (inr (inr (inr (inr (inr (inr (inr (inr (inr (inr (inr (inr (inr (inr (inr (inr (inr (inr (inr (inr (inl x0))))))))))))))))))))))))))))) => AppClientSendError x0
  | inr (inr (inr (inr (inr (inr (inr (inr (inr (inr (inr (inr (inr (inr (inr (inr (inr (inr (inr (inr (inr (inr (inr (inr (inr (inr (inr (inr (inr (inr (inl x0)))))))))))))))))))))))))))))) => AppClientError x0
  | inr (inr (inr (inr (inr (inr (inr (inr (inr (inr (inr (inr (inr (inr (inr (inr (inr (inr (inr (inr (inr (inr (inr (inr (inr (inr (inr (inr (inr (inr (inr (inl _))))))))))))))))))))))))))))))) => OversizedPayload
  | inr (inr (inr (inr (inr (inr (inr (inr (inr (inr (inr (inr (inr (inr (inr (inr (inr (inr (inr (inr (inr (inr (inr (inr (inr (inr (inr (inr (inr (inr (inr (inr (inl _)))))))))))))))))))))))))))))))) => ProtocolMsgDeserialization
  | inr (inr (inr (inr (inr (inr (inr (inr (inr (inr (inr (inr (inr (inr (inr (inr (inr (inr (inr (inr (inr (inr (inr (inr (inr (inr (inr (inr (inr (inr (inr (inr (inr (inl _))))))))))))))))))))))))))))))))) => BadShareSetApprovals
  | inr (inr (inr (inr (inr (inr (inr (inr (inr (inr (inr (inr (inr (inr (inr (inr (inr (inr (inr (inr (inr (inr (inr (inr (inr (inr (inr (inr (inr (inr (inr (inr (inr (inr (inl _)))))))))))))))))))))))))))))))))) => CouldNotVerifyApproval
  | inr (inr (inr (inr (inr (inr (inr (inr (inr (inr (inr (inr (inr (inr (inr (inr (inr (inr (inr (inr (inr (inr (inr (inr (inr (inr (inr (inr (inr (inr (inr (inr (inr (inr (inr (inl _))))))))))))))))))))))))))))))))))) => NotShareSetMember
  | inr (inr (inr (inr (inr (inr (inr (inr (inr (inr (inr (inr (inr (inr (inr (inr (inr (inr (inr (inr (inr (inr (inr (inr (inr (inr (inr (inr (inr (inr (inr (inr (inr (inr (inr (inr (inl _)))))))))))))))))))))))))))))))))))) => NotManifestSetMember
  | inr (inr (inr (inr (inr (inr (inr (inr (inr (inr (inr (inr (inr (inr (inr (inr (inr (inr (inr (inr (inr (inr (inr (inr (inr (inr (inr (inr (inr (inr (inr (inr (inr (inr (inr (inr (inr (inl x0))))))))))))))))))))))))))))))))))))) => P256Error x0
  | inr (inr (inr (inr (inr (inr (inr (inr (inr (inr (inr (inr (inr (inr (inr (inr (inr (inr (inr (inr (inr (inr (inr (inr (inr (inr (inr (inr (inr (inr (inr (inr (inr (inr (inr (inr (inr (inr (inl x0)))))))))))))))))))))))))))))))))))))) => InvalidP256DRKey x0
  | inr (inr (inr (inr (inr (inr (inr (inr (inr (inr (inr (inr (inr (inr (inr (inr (inr (inr (inr (inr (inr (inr (inr (inr (inr (inr (inr (inr (inr (inr (inr (inr (inr (inr (inr (inr (inr (inr (inr (inl _))))))))))))))))))))))))))))))))))))))) => IncorrectSecretLen
  | inr (inr (inr (inr (inr (inr (inr (inr (inr (inr (inr (inr (inr (inr (inr (inr (inr (inr (inr (inr (inr (inr (inr (inr (inr (inr (inr (inr (inr (inr (inr (inr (inr (inr (inr (inr (inr (inr (inr (inr (inl x0)))))))))))))))))))))))))))))))))))))))) => QosAttestError x0
  | inr (inr (inr (inr (inr (inr (inr (inr (inr (inr (inr (inr (inr (inr (inr (inr (inr (inr (inr (inr (inr (inr (inr (inr (inr (inr (inr (inr (inr (inr (inr (inr (inr (inr (inr (inr (inr (inr (inr (inr (inr (inl (x0, x1)))))))))))))))))))))))))))))))))))))))))) => DifferentQuorumKey x0 x1
  | inr (inr (inr (inr (inr (inr (inr (inr (inr (inr (inr (inr (inr (inr (inr (inr (inr (inr (inr (inr (inr (inr (inr (inr (inr (inr (inr (inr (inr (inr (inr (inr (inr (inr (inr (inr (inr (inr (inr (inr (inr (inr (inl (x0, x1))))))))))))))))))))))))))))))))))))))))))) => DifferentManifestSet x0 x1
  | inr (inr (inr (inr (inr (inr (inr (inr (inr (inr (inr (inr (inr (inr (inr (inr (inr (inr (inr (inr (inr (inr (inr (inr (inr (inr (inr (inr (inr (inr (inr (inr (inr (inr (inr (inr (inr (inr (inr (inr (inr (inr (inr (inl (x0, x1)))))))))))))))))))))))))))))))))))))))))))) => DifferentNamespaceName x0 x1
  | inr (inr (inr (inr (inr (inr (inr (inr (inr (inr (inr (inr (inr (inr (inr (inr (inr (inr (inr (inr (inr (inr (inr (inr (inr (inr (inr (inr (inr (inr (inr (inr (inr (inr (inr (inr (inr (inr (inr (inr (inr (inr (inr (inr (inl (x0, x1))))))))))))))))))))))))))))))))))))))))))))) => LowNonce x0 x1
  | inr (inr (inr (inr (inr (inr (inr (inr (inr (inr (inr (inr (inr (inr (inr (inr (inr (inr (inr (inr (inr (inr (inr (inr (inr (inr (inr (inr (inr (inr (inr (inr (inr (inr (inr (inr (inr (inr (inr (inr (inr (inr (inr (inr (inr (inl (x0, x1)))))))))))))))))))))))))))))))))))))))))))))) => DifferentPcr3 x0 x1
  | inr (inr (inr (inr (inr (inr (inr (inr (inr (inr (inr (inr (inr (inr (inr (inr (inr (inr (inr (inr (inr (inr (inr (inr (inr (inr (inr (inr (inr (inr (inr (inr (inr (inr (inr (inr (inr (inr (inr (inr (inr (inr (inr (inr (inr (inr (inl _)))))))))))))))))))))))))))))))))))))))))))))) => MissingEphemeralKey
  | inr (inr (inr (inr (inr (inr (inr (inr (inr (inr (inr (inr (inr (inr (inr (inr (inr (inr (inr (inr (inr (inr (inr (inr (inr (inr (inr (inr (inr (inr (inr (inr (inr (inr (inr (inr (inr (inr (inr (inr (inr (inr (inr (inr (inr (inr (inr (inl _))))))))))))))))))))))))))))))))))))))))))))))) => InvalidEphemeralKey
  | inr (inr (inr (inr (inr (inr (inr (inr (inr (inr (inr (inr (inr (inr (inr (inr (inr (inr (inr (inr (inr (inr (inr (inr (inr (inr (inr (inr (inr (inr (inr (inr (inr (inr (inr (inr (inr (inr (inr (inr (inr (inr (inr (inr (inr (inr (inr (inr (inl _)))))))))))))))))))))))))))))))))))))))))))))))) => InvalidEncryptedQuorumKeySignature
  | inr (inr (inr (inr (inr (inr (inr (inr (inr (inr (inr (inr (inr (inr (inr (inr (inr (inr (inr (inr (inr (inr (inr (inr (inr (inr (inr (inr (inr (inr (inr (inr (inr (inr (inr (inr (inr (inr (inr (inr (inr (inr (inr (inr (inr (inr (inr (inr (inr (inl _))))))))))))))))))))))))))))))))))))))))))))))))) => EncryptedQuorumKeyInvalidLen
  | inr (inr (inr (inr (inr (inr (inr (inr (inr (inr (inr (inr (inr (inr (inr (inr (inr (inr (inr (inr (inr (inr (inr (inr (inr (inr (inr (inr (inr (inr (inr (inr (inr (inr (inr (inr (inr (inr (inr (inr (inr (inr (inr (inr (inr (inr (inr (inr (inr (inr (inl _)))))))))))))))))))))))))))))))))))))))))))))))))) => InvalidQuorumSecret
  | inr (inr (inr (inr (inr (inr (inr (inr (inr (inr (inr (inr (inr (inr (inr (inr (inr (inr (inr (inr (inr (inr (inr (inr (inr (inr (inr (inr (inr (inr (inr (inr (inr (inr (inr (inr (inr (inr (inr (inr (inr (inr (inr (inr (inr (inr (inr (inr (inr (inr (inr (inl _))))))))))))))))))))))))))))))))))))))))))))))))))) => WrongQuorumKey
  | inr (inr (inr (inr (inr (inr (inr (inr (inr (inr (inr (inr (inr (inr (inr (inr (inr (inr (inr (inr (inr (inr (inr (inr (inr (inr (inr (inr (inr (inr (inr (inr (inr (inr (inr (inr (inr (inr (inr (inr (inr (inr (inr (inr (inr (inr (inr (inr (inr (inr (inr (inr (inl (x0, x1))))))))))))))))))))))))))))))))))))))))))))))))))))) => InvalidStateTransition x0 x1
  | inr (inr (inr (inr (inr (inr (inr (inr (inr (inr (inr (inr (inr (inr (inr (inr (inr (inr (inr (inr (inr (inr (inr (inr (inr (inr (inr (inr (inr (inr (inr (inr (inr (inr (inr (inr (inr (inr (inr (inr (inr (inr (inr (inr (inr (inr (inr (inr (inr (inr (inr (inr (inr (inl _))))))))))))))))))))))))))))))))))))))))))))))))))))) => DuplicateApproval
  | inr (inr (inr (inr (inr (inr (inr (inr (inr (inr (inr (inr (inr (inr (inr (inr (inr (inr (inr (inr (inr (inr (inr (inr (inr (inr (inr (inr (inr (inr (inr (inr (inr (inr (inr (inr (inr (inr (inr (inr (inr (inr (inr (inr (inr (inr (inr (inr (inr (inr (inr (inr (inr (inr (inl (x0, x1))))))))))))))))))))))))))))))))))))))))))))))))))))))) => DifferentManifest x0 x1
  | inr (inr (inr (inr (inr (inr (inr (inr (inr (inr (inr (inr (inr (inr (inr (inr (inr (inr (inr (inr (inr (inr (inr (inr (inr (inr (inr (inr (inr (inr (inr (inr (inr (inr (inr (inr (inr (inr (inr (inr (inr (inr (inr (inr (inr (inr (inr (inr (inr (inr (inr (inr (inr (inr (inr (inl x0))))))))))))))))))))))))))))))))))))))))))))))))))))))) => QosCrypto x0
  | inr (inr (inr (inr (inr (inr (inr (inr (inr (inr (inr (inr (inr (inr (inr (inr (inr (inr (inr (inr (inr (inr (inr (inr (inr (inr (inr (inr (inr (inr (inr (inr (inr (inr (inr (inr (inr (inr (inr (inr (inr (inr (inr (inr (inr (inr (inr (inr (inr (inr (inr (inr (inr (inr (inr (inr (inl _)))))))))))))))))))))))))))))))))))))))))))))))))))))))) => PoolExpandError
  | inr (inr (inr (inr (inr (inr (inr (inr (inr (inr (inr (inr (inr (inr (inr (inr (inr (inr (inr (inr (inr (inr (inr (inr (inr (inr (inr (inr (inr (inr (inr (inr (inr (inr (inr (inr (inr (inr (inr (inr (inr (inr (inr (inr (inr (inr (inr (inr (inr (inr (inr (inr (inr (inr (inr (inr (inr (inl x0))))))))))))))))))))))))))))))))))))))))))))))))))))))))) => InvalidPivotEnv x0
  | inr (inr (inr (inr (inr (inr (inr (inr (inr (inr (inr (inr (inr (inr (inr (inr (inr (inr (inr (inr (inr (inr (inr (inr (inr (inr (inr (inr (inr (inr (inr (inr (inr (inr (inr (inr (inr (inr (inr (inr (inr (inr (inr (inr (inr (inr (inr (inr (inr (inr (inr (inr (inr (inr (inr (inr (inr (inr (inl _)))))))))))))))))))))))))))))))))))))))))))))))))))))))))) => MissingLiveEphemeralKey
  | inr (inr (inr (inr (inr (inr (inr (inr (inr (inr (inr (inr (inr (inr (inr (inr (inr (inr (inr (inr (inr (inr (inr (inr (inr (inr (inr (inr (inr (inr (inr (inr (inr (inr (inr (inr (inr (inr (inr (inr (inr (inr (inr (inr (inr (inr (inr (inr (inr (inr (inr (inr (inr (inr (inr (inr (inr (inr (inr (inl _))))))))))))))))))))))))))))))))))))))))))))))))))))))))))) => DuplicateQuorumMember
  | inr (inr (inr (inr (inr (inr (inr (inr (inr (inr (inr (inr (inr (inr (inr (inr (inr (inr (inr (inr (inr (inr (inr (inr (inr (inr (inr (inr (inr (inr (inr (inr (inr (inr (inr (inr (inr (inr (inr (inr (inr (inr (inr (inr (inr (inr (inr (inr (inr (inr (inr (inr (inr (inr (inr (inr (inr (inr (inr (inr (inl _)))))))))))))))))))))))))))))))))))))))))))))))))))))))))))) => LegacyGenesisNotSupported
  | inr (inr (inr (inr (inr (inr (inr (inr (inr (inr (inr (inr (inr (inr (inr (inr (inr (inr (inr (inr (inr (inr (inr (inr (inr (inr (inr (inr (inr (inr (inr (inr (inr (inr (inr (inr (inr (inr (inr (inr (inr (inr (inr (inr (inr (inr (inr (inr (inr (inr (inr (inr (inr (inr (inr (inr (inr (inr (inr (inr (inr e)))))))))))))))))))))))))))))))))))))))))))))))))))))))))))) => match e return perr with end
  end.
Definition perr_to (a : perr) : perr_sum :=
  match a with
  | InvalidShare => inl tt
  | ReconstructionErrorEmptySecret => inr (inl tt)
  | ReconstructionErrorIncorrectPubKey => inr (inr (inl tt))
  | IOError => inr (inr (inr (inl tt)))
  | InvalidManifestApproval x0 => inr (inr (inr (inr (inl x0))))
  | NotEnoughApprovals => inr (inr (inr (inr (inr (inl tt)))))
  | NoMatchingRoute x0 => inr (inr (inr (inr (inr (inr (inl x0))))))
  | InvalidPivotHash x0 x1 => inr (inr (inr (inr (inr (inr (inr (inl (x0, x1))))))))
  | OversizeMsg => inr (inr (inr (inr (inr (inr (inr (inr (inl tt))))))))
  | InvalidMsg => inr (inr (inr (inr (inr (inr (inr (inr (inr (inl tt)))))))))
  | EnclaveClient => inr (inr (inr (inr (inr (inr (inr (inr (inr (inr (inl tt))))))))))
  | DecryptionFailed => inr (inr (inr (inr (inr (inr (inr (inr (inr (inr (inr (inl tt)))))))))))
  | InvalidPrivateKey => inr (inr (inr (inr (inr (inr (inr (inr (inr (inr (inr (inr (inl tt))))))))))))
  | FailedToParseFromString => inr (inr (inr (inr (inr (inr (inr (inr (inr (inr (inr (inr (inr (inl tt)))))))))))))
  | BadEphemeralKeyPath => inr (inr (inr (inr (inr (inr (inr (inr (inr (inr (inr (inr (inr (inr (inl tt))))))))))))))
  | CannotModifyPostPivotStatic => inr (inr (inr (inr (inr (inr (inr (inr (inr (inr (inr (inr (inr (inr (inr (inl tt)))))))))))))))
  | FailedToGetEphemeralKey x0 => inr (inr (inr (inr (inr (inr (inr (inr (inr (inr (inr (inr (inr (inr (inr (inr (inl x0))))))))))))))))
  | FailedToPutEphemeralKey => inr (inr (inr (inr (inr (inr (inr (inr (inr (inr (inr (inr (inr (inr (inr (inr (inr (inl tt)))))))))))))))))
  | CannotRotateNonExistentEphemeralKey => inr (inr (inr (inr (inr (inr (inr (inr (inr (inr (inr (inr (inr (inr (inr (inr (inr (inr (inl tt))))))))))))))))))
  | CannotDeleteEphemeralKey x0 => inr (inr (inr (inr (inr (inr (inr (inr (inr (inr (inr (inr (inr (inr (inr (inr (inr (inr (inr (inl x0)))))))))))))))))))
  | FailedToGetQuorumKey x0 => inr (inr (inr (inr (inr (inr (inr (inr (inr (inr (inr (inr (inr (inr (inr (inr (inr (inr (inr (inr (inl x0))))))))))))))))))))
  | FailedToPutQuorumKey => inr (inr (inr (inr (inr (inr (inr (inr (inr (inr (inr (inr (inr (inr (inr (inr (inr (inr (inr (inr (inr (inl tt)))))))))))))))))))))
  | FailedToGetManifestEnvelope => inr (inr (inr (inr (inr (inr (inr (inr (inr (inr (inr (inr (inr (inr (inr (inr (inr (inr (inr (inr (inr (inr (inl tt))))))))))))))))))))))
  | FailedToPutManifestEnvelope => inr (inr (inr (inr (inr (inr (inr (inr (inr (inr (inr (inr (inr (inr (inr (inr (inr (inr (inr (inr (inr (inr (inr (inl tt)))))))))))))))))))))))
  | FailedToPutPivot => inr (inr (inr (inr (inr (inr (inr (inr (inr (inr (inr (inr (inr (inr (inr (inr (inr (inr (inr (inr (inr (inr (inr (inr (inl tt))))))))))))))))))))))))
  | AppClientRecvTimeout => inr (inr (inr (inr (inr (inr (inr (inr (inr (inr (inr (inr (inr (inr (inr (inr (inr (inr (inr (inr (inr (inr (inr (inr (inr (inl tt)))))))))))))))))))))))))
  | AppClientRecvInterrupted => inr (inr (inr (inr (inr (inr (inr (inr (inr (inr (inr (inr (inr (inr (inr (inr (inr (inr (inr (inr (inr (inr (inr (inr (inr (inr (inl tt))))))))))))))))))))))))))
  | AppClientRecvConnectionClosed => inr (inr (inr (inr (inr (inr (inr (inr (inr (inr (inr (inr (inr (inr (inr (inr (inr (inr (inr (inr (inr (inr (inr (inr (inr (inr (inr (inl tt)))))))))))))))))))))))))))
  | AppClientConnectError x0 => inr (inr (inr (inr (inr (inr (inr (inr (inr (inr (inr (inr (inr (inr (inr (inr (inr (inr (inr (inr (inr (inr (inr (inr (inr (inr (inr (inr (inl x0))))))))))))))))))))))))))))
  | AppClientSendError x0 => inr (inr (inr (inr (inr (inr (inr (inr (inr (inr (inr (inr (inr (inr (inr (inr (inr (inr (inr (inr (inr (inr (inr (inr (inr (inr (inr (inr (inr (inl x0)))))))))))))))))))))))))))))
  | AppClientError x0 => inr (inr (inr (inr (inr (inr (inr (inr (inr (inr (inr (inr (inr (inr (inr (inr (inr (inr (inr (inr (inr (inr (inr (inr (inr (inr (inr (inr (inr (inr (inl x0))))))))))))))))))))))))))))))
  | OversizedPayload => inr (inr (inr (inr (inr (inr (inr (inr (inr (inr (inr (inr (inr (inr (inr (inr (inr (inr (inr (inr (inr (inr (inr (inr (inr (inr (inr (inr (inr (inr (inr (inl tt)))))))))))))))))))))))))))))))
  | ProtocolMsgDeserialization => inr (inr (inr (inr (inr (inr (inr (inr (inr (inr (inr (inr (inr (inr (inr (inr (inr (inr (inr (inr (inr (inr (inr (inr (inr (inr (inr (inr (inr (inr (inr (inr (inl tt))))))))))))))))))))))))))))))))
  | BadShareSetApprovals => inr (inr (inr (inr (inr (inr (inr (inr (inr (inr (inr (inr (inr (inr (inr (inr (inr (inr (inr (inr (inr (inr (inr (inr (inr (inr (inr (inr (inr (inr (inr (inr (inr (inl tt)))))))))))))))))))))))))))))))))
  | CouldNotVerifyApproval => inr (inr (inr (inr (inr (inr (inr (inr (inr (inr (inr (inr (inr (inr (inr (inr (inr (inr (inr (inr (inr (inr (inr (inr (inr (inr (inr (inr (inr (inr (inr (inr (inr (inr (inl tt))))))))))))))))))))))))))))))))))
  | NotShareSetMember => inr (inr (inr (inr (inr (inr (inr (inr (inr (inr (inr (inr (inr (inr (inr (inr (inr (inr (inr (inr (inr (inr (inr (inr (inr (inr (inr (inr (inr (inr (inr (inr (inr (inr (inr (inl tt)))))))))))))))))))))))))))))))))))
  | NotManifestSetMember => inr (inr (inr (inr (inr (inr (inr (inr (inr (inr (inr (inr (inr (inr (inr (inr (inr (inr (inr (inr (inr (inr (inr (inr (inr (inr (inr (inr (inr (inr (inr (inr (inr (inr (inr (inr (inl tt))))))))))))))))))))))))))))))))))))
  | P256Error x0 => inr (inr (inr (inr (inr (inr (inr (inr (inr (inr (inr (inr (inr (inr (inr (inr (inr (inr (inr (inr (inr (inr (inr (inr (inr (inr (inr (inr (inr (inr (inr (inr (inr (inr (inr (inr (inr (inl x0)))))))))))))))))))))))))))))))))))))
  | InvalidP256DRKey x0 => inr (inr (inr (inr (inr (inr (inr (inr (inr (inr (inr (inr (inr (inr (inr (inr (inr (inr (inr (inr (inr (inr (inr (inr (inr (inr (inr (inr (inr (inr (inr (inr (inr (inr (inr (inr (inr (inr (inl x0))))))))))))))))))))))))))))))))))))))
  | IncorrectSecretLen => inr (inr (inr (inr (inr (inr (inr (inr (inr (inr (inr (inr (inr (inr (inr (inr (inr (inr (inr (inr (inr (inr (inr (inr (inr (inr (inr (inr (inr (inr (inr (inr (inr (inr (inr (inr (inr (inr (inr (inl tt)))))))))))))))))))))))))))))))))))))))
  | QosAttestError x0 => inr (inr (inr (inr (inr (inr (inr (inr (inr (inr (inr (inr (inr (inr (inr (inr (inr (inr (inr (inr (inr (inr (inr (inr (inr (inr (inr (inr (inr (inr (inr (inr (inr (inr (inr (inr (inr (inr (inr (inr (inl x0))))))))))))))))))))))))))))))))))))))))
  | DifferentQuorumKey x0 x1 => inr (inr (inr (inr (inr (inr (inr (inr (inr (inr (inr (inr (inr (inr (inr (inr (inr (inr (inr (inr (inr (inr (inr (inr (inr (inr (inr (inr (inr (inr (inr (inr (inr (inr (inr (inr (inr (inr (inr (inr (inr (inl (x0, x1))))))))))))))))))))))))))))))))))))))))))
  | DifferentManifestSet x0 x1 => inr (inr (inr (inr (inr (inr (inr (inr (inr (inr (inr (inr (inr (inr (inr (inr (inr (inr (inr (inr (inr (inr (inr (inr (inr (inr (inr (inr (inr (inr (inr (inr (inr (inr (inr (inr (inr (inr (inr (inr (inr (inr (inl (x0, x1)))))))))))))))))))))))))))))))))))))))))))
  | DifferentNamespaceName x0 x1 => inr (inr (inr (inr (inr (inr (inr (inr (inr (inr (inr (inr (inr (inr (inr (inr (inr (inr (inr (inr (inr (inr (inr (inr (inr (inr (inr (inr (inr (inr (inr (inr (inr (inr (inr (inr (inr (inr (inr (inr (inr (inr (inr (inl (x0, x1))))))))))))))))))))))))))))))))))))))))))))
  | LowNonce x0 x1 => inr (inr (inr (inr (inr (inr (inr (inr (inr (inr (inr (inr (inr (inr (inr (inr (inr (inr (inr (inr (inr (inr (inr (inr (inr (inr (inr (inr (inr (inr (inr (inr (inr (inr (inr (inr (inr (inr (inr (inr (inr (inr (inr (inr (inl (x0, x1)))))))))))))))))))))))))))))))))))))))))))))
  | DifferentPcr3 x0 x1 => inr (inr (inr (inr (inr (inr (inr (inr (inr (inr (inr (inr (inr (inr (inr (inr (inr (inr (inr (inr (inr (inr (inr (inr (inr (inr (inr (inr (inr (inr (inr (inr (inr (inr (inr (inr (inr (inr (inr (inr (inr (inr (inr (inr (inr (inl (x0, x1))))))))))))))))))))))))))))))))))))))))))))))
  | MissingEphemeralKey => inr (inr (inr (inr (inr (inr (inr (inr (inr (inr (inr (inr (inr (inr (inr (inr (inr (inr (inr (inr (inr (inr (inr (inr (inr (inr (inr (inr (inr (inr (inr (inr (inr (inr (inr (inr (inr (inr (inr (inr (inr (inr (inr (inr (inr (inr (inl tt))))))))))))))))))))))))))))))))))))))))))))))
  | InvalidEphemeralKey => inr (inr (inr (inr (inr (inr (inr (inr (inr (inr (inr (inr (inr (inr (inr (inr (inr (inr (inr (inr (inr (inr (inr (inr (inr (inr (inr (inr (inr (inr (inr (inr (inr (inr (inr (inr (inr (inr (inr (inr (inr (inr (inr (inr (inr (inr (inr (inl tt)))))))))))))))))))))))))))))))))))))))))))))))
  | InvalidEncryptedQuorumKeySignature => inr (inr (inr (inr (inr (inr (inr (inr (inr (inr (inr (inr (inr (inr (inr (inr (inr (inr (inr (inr (inr (inr (inr (inr (inr (inr (inr (inr (inr (inr (inr (inr (inr (inr (inr (inr (inr (inr (inr (inr (inr (inr (inr (inr (inr (inr (inr (inr (inl tt))))))))))))))))))))))))))))))))))))))))))))))))
  | EncryptedQuorumKeyInvalidLen => inr (inr (inr (inr (inr (inr (inr (inr (inr (inr (inr (inr (inr (inr (inr (inr (inr (inr (inr (inr (inr (inr (inr (inr (inr (inr (inr (inr (inr (inr (inr (inr (inr (inr (inr (inr (inr (inr (inr (inr (inr (inr (inr (inr (inr (inr (inr (inr (inr (inl tt)))))))))))))))))))))))))))))))))))))))))))))))))
  | InvalidQuorumSecret => inr (inr (inr (inr (inr (inr (inr (inr (inr (inr (inr (inr (inr (inr (inr (inr (inr (inr (inr (inr (inr (inr (inr (inr (inr (inr (inr (inr (inr (inr (inr (inr (inr (inr (inr (inr (inr (inr (inr (inr (inr (inr (inr (inr (inr (inr (inr (inr (inr (inr (inl tt))))))))))))))))))))))))))))))))))))))))))))))))))
  | WrongQuorumKey => inr (inr (inr (inr (inr (inr (inr (inr (inr (inr (inr (inr (inr (inr (inr (inr (inr (inr (inr (inr (inr (inr (inr (inr (inr (inr (inr (inr (inr (inr (inr (inr (inr (inr (inr (inr (inr (inr (inr (inr (inr (inr (inr (inr (inr (inr (inr (inr (inr (inr (inr (inl tt)))))))))))))))))))))))))))))))))))))))))))))))))))
  | InvalidStateTransition x0 x1 => inr (inr (inr (inr (inr (inr (inr (inr (inr (inr (inr (inr (inr (inr (inr (inr (inr (inr (inr (inr (inr (inr (inr (inr (inr (inr (inr (inr (inr (inr (inr (inr (inr (inr (inr (inr (inr (inr (inr (inr (inr (inr (inr (inr (inr (inr (inr (inr (inr (inr (inr (inr (inl (x0, x1)))))))))))))))))))))))))))))))))))))))))))))))))))))
  | DuplicateApproval => inr (inr (inr (inr (inr (inr (inr (inr (inr (inr (inr (inr (inr (inr (inr (inr (inr (inr (inr (inr (inr (inr (inr (inr (inr (inr (inr (inr (inr (inr (inr (inr (inr (inr (inr (inr (inr (inr (inr (inr (inr (inr (inr (inr (inr (inr (inr (inr (inr (inr (inr (inr (inr (inl tt)))))))))))))))))))))))))))))))))))))))))))))))))))))
  | DifferentManifest x0 x1 => inr (inr (inr (inr (inr (inr (inr (inr (inr (inr (inr (inr (inr (inr (inr (inr (inr (inr (inr (inr (inr (inr (inr (inr (inr (inr (inr (inr (inr (inr (inr (inr (inr (inr (inr (inr (inr (inr (inr (inr (inr (inr (inr (inr (inr (inr (inr (inr (inr (inr (inr (inr (inr (inr (inl (x0, x1)))))))))))))))))))))))))))))))))))))))))))))))))))))))
  | QosCrypto x0 => inr (inr (inr (inr (inr (inr (inr (inr (inr (inr (inr (inr (inr (inr (inr (inr (inr (inr (inr (inr (inr (inr (inr (inr (inr (inr (inr (inr (inr (inr (inr (inr (inr (inr (inr (inr (inr (inr (inr (inr (inr (inr (inr (inr (inr (inr (inr (inr (inr (inr (inr (inr (inr (inr (inr (inl x0)))))))))))))))))))))))))))))))))))))))))))))))))))))))
  | PoolExpandError => inr (inr (inr (inr (inr (inr (inr (inr (inr (inr (inr (inr (inr (inr (inr (inr (inr (inr (inr (inr (inr (inr (inr (inr (inr (inr (inr (inr (inr (inr (inr (inr (inr (inr (inr (inr (inr (inr (inr (inr (inr (inr (inr (inr (inr (inr (inr (inr (inr (inr (inr (inr (inr (inr (inr (inr (inl tt))))))))))))))))))))))))))))))))))))))))))))))))))))))))
  | InvalidPivotEnv x0 => inr (inr (inr (inr (inr (inr (inr (inr (inr (inr (inr (inr (inr (inr (inr (inr (inr (inr (inr (inr (inr (inr (inr (inr (inr (inr (inr (inr (inr (inr (inr (inr (inr (inr (inr (inr (inr (inr (inr (inr (inr (inr (inr (inr (inr (inr (inr (inr (inr (inr (inr (inr (inr (inr (inr (inr (inr (inl x0)))))))))))))))))))))))))))))))))))))))))))))))))))))))))
  | MissingLiveEphemeralKey => inr (inr (inr (inr (inr (inr (inr (inr (inr (inr (inr (inr (inr (inr (inr (inr (inr (inr (inr (inr (inr (inr (inr (inr (inr (inr (inr (inr (inr (inr (inr (inr (inr (inr (inr (inr (inr (inr (inr (inr (inr (inr (inr (inr (inr (inr (inr (inr (inr (inr (inr (inr (inr (inr (inr (inr (inr (inr (inl tt))))))))))))))))))))))))))))))))))))))))))))))))))))))))))
  | DuplicateQuorumMember => inr (inr (inr (inr (inr (inr (inr (inr (inr (inr (inr (inr (inr (inr (inr (inr (inr (inr (inr (inr (inr (inr (inr (inr (inr (inr (inr (inr (inr (inr (inr (inr (inr (inr (inr (inr (inr (inr (inr (inr (inr (inr (inr (inr (inr (inr (inr (inr (inr (inr (inr (inr (inr (inr (inr (inr (inr (inr (inr (inl tt)))))))))))))))))))))))))))))))))))))))))))))))))))))))))))
  | LegacyGenesisNotSupported => inr (inr (inr (inr (inr (inr (inr (inr (inr (inr (inr (inr (inr (inr (inr (inr (inr (inr (inr (inr (inr (inr (inr (inr (inr (inr (inr (inr (inr (inr (inr (inr (inr (inr (inr (inr (inr (inr (inr (inr (inr (inr (inr (inr (inr (inr (inr (inr (inr (inr (inr (inr (inr (inr (inr (inr (inr (inr (inr (inr (inl tt))))))))))))))))))))))))))))))))))))))))))))))))))))))))))))
  end.
Lemma perr_of_to a : perr_of (perr_to a) = a.
Proof. destruct a; reflexivity. Qed.
Lemma perr_to_of s : perr_to (perr_of s) = s.
Proof. cbv [perr_sum] in s. repeat (destruct s as [s|s]; [repeat match goal with p : (_ * _)%type |- _ => destruct p | u : unit |- _ => destruct u end; reflexivity|]). destruct s. Qed.
Definition t_perr : tcodec perr_sum :=
  t_cons c_unit (t_cons c_unit (t_cons c_unit (t_cons c_unit (t_cons c_approval (t_cons c_unit (t_cons c_phase (t_cons (c_pair c_string c_string) (t_cons c_unit (t_cons c_unit (t_cons c_unit (t_cons c_unit (t_cons c_unit (t_cons c_unit (t_cons c_unit (t_cons c_unit (t_cons c_p256_error (t_cons c_unit (t_cons c_unit (t_cons c_string (t_cons c_p256_error (t_cons c_unit (t_cons c_unit (t_cons c_unit (t_cons c_unit (t_cons c_unit (t_cons c_unit (t_cons c_unit (t_cons c_string (t_cons c_string (t_cons c_string (t_cons c_unit (t_cons c_unit (t_cons c_unit (t_cons c_unit (t_cons c_unit (t_cons c_unit (t_cons c_p256_error (t_cons c_p256_error (t_cons c_unit (t_cons c_string (t_cons (c_pair c_string c_string) (t_cons (c_pair c_string c_string) (t_cons (c_pair c_string c_string) (t_cons (c_pair c_u32 c_u32) (t_cons (c_pair c_string c_string) (t_cons c_unit (t_cons c_unit (t_cons c_unit (t_cons c_unit (t_cons c_unit (t_cons c_unit (t_cons (c_pair c_phase c_phase) (t_cons c_unit (t_cons (c_pair c_string c_string) (t_cons c_string (t_cons c_unit (t_cons c_string (t_cons c_unit (t_cons c_unit (t_cons c_unit t_nil)))))))))))))))))))))))))))))))))))))))))))))))))))))))))))).
Definition c_perr : codec perr := c_iso perr_of perr_to (c_enum t_perr).

(** genesis.rs:19-37 *)
Definition c_genesis_set : codec genesis_set :=
  c_iso (fun p : list quorum_member * N => GenesisSet (fst p) (snd p)) (fun s => (gs_members s, gs_threshold s))
        (c_pair (c_vec c_member) c_u32).
(** genesis.rs:39-55 *)
Definition c_member_shard : codec member_shard :=
  c_iso (fun p : quorum_member * bytes => MemberShard (fst p) (snd p)) (fun s => (sh_member s, sh_shard s))
        (c_pair c_member c_bytes).
(** genesis.rs:80-103 *)
Definition c_member_output : codec genesis_member_output :=
  c_iso (fun p : quorum_member * (bytes * bytes) => let '(a, (b, c)) := p in GenesisMemberOutput a b c)
        (fun s => (gm_member s, (gm_share s, gm_share_hash s)))
        (c_pair c_member (c_pair c_bytes (c_fixed 64))).
(** genesis.rs:117-167 *)
Definition c_genesis_output : codec genesis_output :=
  c_iso (fun p : genesis_set * (option bytes * (bytes * (list genesis_member_output * (list (list member_shard) *
                 (option bytes * (bytes * (bytes * (bytes * bytes)))))))) =>
           let '(a, (b, (c, (d, (e, (f, (g, (h, (i, j))))))))) := p in GenesisOutput a b c d e f g h i j)
        (fun o => (go_set o, (go_dr_key o, (go_quorum_key o, (go_member_outputs o, (go_recovery_permutations o,
                  (go_dr_key_wrapped o, (go_quorum_key_hash o, (go_test_ciphertext o, (go_test_signature o, go_test_message o))))))))))
        (c_pair c_genesis_set (c_pair (c_option c_bytes) (c_pair c_bytes (c_pair (c_vec c_member_output)
          (c_pair (c_vec (c_vec c_member_shard)) (c_pair (c_option c_bytes) (c_pair (c_fixed 64)
          (c_pair c_bytes (c_pair c_bytes c_bytes))))))))).
(** msg.rs:18-73 JsonBytes<VersionedManifestEnvelope>: the plain serde_json text in a Vec<u8> *)
Definition c_json_envelope : codec versioned_envelope :=
  Codec (fun e => enc c_bytes (write (jser js_versioned_envelope e)))
        (fun b => match dec c_bytes b with
                  | Some (t, r) => match json_from_slice js_versioned_envelope t with Some e => Some (e, r) | None => None end
                  | None => None end)
        (fun e => wf_envelope e && (lenN (write (jser js_versioned_envelope e)) <? U32_LIMIT)).

(** msg.rs:81-258 *)
Definition msg_sum : Type := (perr) + ((unit) + ((phase) + (((versioned_envelope * bytes)) + ((nsm_response) + (((genesis_set * option bytes)) + (((nsm_response * genesis_output)) + (((bytes * approval)) + ((bool) + ((bytes) + ((bytes) + ((unit) + (((nsm_response * option versioned_envelope)) + (((versioned_envelope * bytes)) + ((nsm_response) + (((versioned_envelope * bytes)) + (((bytes * bytes)) + (((bytes * bytes)) + ((unit) + ((unit) + ((option versioned_envelope) + ((unit) + (((bytes * bytes)) + (((versioned_envelope * bytes)) + Empty_set))))))))))))))))))))))).
Definition msg_of (s : msg_sum) : msg :=
  match s with
  | inl x0 => ProtocolErrorResponse x0
  | inr (inl _) => StatusRequest
  | inr (inr (inl x0)) => StatusResponse x0
  | inr (inr (inr (inl (x0, x1)))) => BootStandardRequest x0 x1
  | inr (inr (inr (inr (inl x0)))) => BootStandardResponse x0
  | inr (inr (inr (inr (inr (inl (x0, x1)))))) => BootGenesisRequest x0 x1
  | inr (inr (inr (inr (inr (inr (inl (x0, x1))))))) => BootGenesisResponse x0 x1
  | inr (inr (inr (inr (inr (inr (inr (inl (x0, x1)))))))) => ProvisionRequest x0 x1
  | inr (inr (inr (inr (inr (inr (inr (inr (inl x0)))))))) => ProvisionResponse x0
  | inr (inr (inr (inr (inr (inr (inr (inr (inr (inl x0))))))))) => ProxyRequest x0
  | inr (inr (inr (inr (inr (inr (inr (inr (inr (inr (inl x0)))))))))) => ProxyResponse x0
  | inr (inr (inr (inr (inr (inr (inr (inr (inr (inr (inr (inl _))))))))))) => LiveAttestationDocRequest
  | inr (inr (inr (inr (inr (inr (inr (inr (inr (inr (inr (inr (inl (x0, x1))))))))))))) => LiveAttestationDocResponse x0 x1
  | inr (inr (inr (inr (inr (inr (inr (inr (inr (inr (inr (inr (inr (inl (x0, x1)))))))))))))) => BootKeyForwardRequest x0 x1
  | inr (inr (inr (inr (inr (inr (inr (inr (inr (inr (inr (inr (inr (inr (inl x0)))))))))))))) => BootKeyForwardResponse x0
  | inr (inr (inr (inr (inr (inr (inr (inr (inr (inr (inr (inr (inr (inr (inr (inl (x0, x1)))))))))))))))) => ExportKeyRequest x0 x1
  | inr (inr (inr (inr (inr (inr (inr (inr (inr (inr (inr (inr (inr (inr (inr (inr (inl (x0, x1))))))))))))))))) => ExportKeyResponse x0 x1
  | inr (inr (inr (inr (inr (inr (inr (inr (inr (inr (inr (inr (inr (inr (inr (inr (inr (inl (x0, x1)))))))))))))))))) => InjectKeyRequest x0 x1
  | inr (inr (inr (inr (inr (inr (inr (inr (inr (inr (inr (inr (inr (inr (inr (inr (inr (inr (inl _)))))))))))))))))) => InjectKeyResponse
  | inr (inr (inr (inr (inr (inr (inr (inr (inr (inr (inr (inr (inr (inr (inr (inr (inr (inr (inr (inl _))))))))))))))))))) => ManifestEnvelopeRequest
  | inr (inr (inr (inr (inr (inr (inr (inr (inr (inr (inr (inr (inr (inr (inr (inr (inr (inr (inr (inr (inl x0)))))))))))))))))))) => ManifestEnvelopeResponse x0
  | inr (inr (inr (inr (inr (inr (inr (inr (inr (inr (inr (inr (inr (inr (inr (inr (inr (inr (inr (inr (inr (inl _))))))))))))))))))))) => VersionRequest
  | inr (inr (inr (inr (inr (inr (inr (inr (inr (inr (inr (inr (inr (inr (inr (inr (inr (inr (inr (inr (inr (inr (inl (x0, x1))))))))))))))))))))))) => VersionResponse x0 x1
  | inr (inr (inr (inr (inr (inr (inr (inr (inr (inr (inr (inr (inr (inr (inr (inr (inr (inr (inr (inr (inr (inr (inr (inl (x0, x1)))))))))))))))))))))))) => BootStandardJsonEnvelopeRequest x0 x1
  | inr (inr (inr (inr (inr (inr (inr (inr (inr (inr (inr (inr (inr (inr (inr (inr (inr (inr (inr (inr (inr (inr (inr (inr e))))))))))))))))))))))) => match e return msg with end
  end.
Definition msg_to (a : msg) : msg_sum :=
  match a with
  | ProtocolErrorResponse x0 => inl x0
  | StatusRequest => inr (inl tt)
  | StatusResponse x0 => inr (inr (inl x0))
  | BootStandardRequest x0 x1 => inr (inr (inr (inl (x0, x1))))
  | BootStandardResponse x0 => inr (inr (inr (inr (inl x0))))
  | BootGenesisRequest x0 x1 => inr (inr (inr (inr (inr (inl (x0, x1))))))
  | BootGenesisResponse x0 x1 => inr (inr (inr (inr (inr (inr (inl (x0, x1)))))))
  | ProvisionRequest x0 x1 => inr (inr (inr (inr (inr (inr (inr (inl (x0, x1))))))))
  | ProvisionResponse x0 => inr (inr (inr (inr (inr (inr (inr (inr (inl x0))))))))
  | ProxyRequest x0 => inr (inr (inr (inr (inr (inr (inr (inr (inr (inl x0)))))))))
  | ProxyResponse x0 => inr (inr (inr (inr (inr (inr (inr (inr (inr (inr (inl x0))))))))))
  | LiveAttestationDocRequest => inr (inr (inr (inr (inr (inr (inr (inr (inr (inr (inr (inl tt)))))))))))
  | LiveAttestationDocResponse x0 x1 => inr (inr (inr (inr (inr (inr (inr (inr (inr (inr (inr (inr (inl (x0, x1)))))))))))))
  | BootKeyForwardRequest x0 x1 => inr (inr (inr (inr (inr (inr (inr (inr (inr (inr (inr (inr (inr (inl (x0, x1))))))))))))))
  | BootKeyForwardResponse x0 => inr (inr (inr (inr (inr (inr (inr (inr (inr (inr (inr (inr (inr (inr (inl x0))))))))))))))
  | ExportKeyRequest x0 x1 => inr (inr (inr (inr (inr (inr (inr (inr (inr (inr (inr (inr (inr (inr (inr (inl (x0, x1))))))))))))))))
  | ExportKeyResponse x0 x1 => inr (inr (inr (inr (inr (inr (inr (inr (inr (inr (inr (inr (inr (inr (inr (inr (inl (x0, x1)))))))))))))))))
  | InjectKeyRequest x0 x1 => inr (inr (inr (inr (inr (inr (inr (inr (inr (inr (inr (inr (inr (inr (inr (inr (inr (inl (x0, x1))))))))))))))))))
  | InjectKeyResponse => inr (inr (inr (inr (inr (inr (inr (inr (inr (inr (inr (inr (inr (inr (inr (inr (inr (inr (inl tt))))))))))))))))))
  | ManifestEnvelopeRequest => inr (inr (inr (inr (inr (inr (inr (inr (inr (inr (inr (inr (inr (inr (inr (inr (inr (inr (inr (inl tt)))))))))))))))))))
  | ManifestEnvelopeResponse x0 => inr (inr (inr (inr (inr (inr (inr (inr (inr (inr (inr (inr (inr (inr (inr (inr (inr (inr (inr (inr (inl x0))))))))))))))))))))
  | VersionRequest => inr (inr (inr (inr (inr (inr (inr (inr (inr (inr (inr (inr (inr (inr (inr (inr (inr (inr (inr (inr (inr (inl tt)))))))))))))))))))))
  | VersionResponse x0 x1 => inr (inr (inr (inr (inr (inr (inr (inr (inr (inr (inr (inr (inr (inr (inr (inr (inr (inr (inr (inr (inr (inr (inl (x0, x1)))))))))))))))))))))))
  | BootStandardJsonEnvelopeRequest x0 x1 => inr (inr (inr (inr (inr (inr (inr (inr (inr (inr (inr (inr (inr (inr (inr (inr (inr (inr (inr (inr (inr (inr (inr (inl (x0, x1))))))))))))))))))))))))
  end.
Lemma msg_of_to a : msg_of (msg_to a) = a.
Proof. destruct a; reflexivity. Qed.
Lemma msg_to_of s : msg_to (msg_of s) = s.
Proof. cbv [msg_sum] in s. repeat (destruct s as [s|s]; [repeat match goal with p : (_ * _)%type |- _ => destruct p | u : unit |- _ => destruct u end; reflexivity|]). destruct s. Qed.
Definition t_msg : tcodec msg_sum :=
  t_cons c_perr (t_cons c_unit (t_cons c_phase (t_cons (c_pair c_versioned_envelope c_bytes) (t_cons c_nsm_response (t_cons (c_pair c_genesis_set (c_option c_bytes)) (t_cons (c_pair c_nsm_response c_genesis_output) (t_cons (c_pair c_bytes c_approval) (t_cons c_bool (t_cons c_bytes (t_cons c_bytes (t_cons c_unit (t_cons (c_pair c_nsm_response (c_option c_versioned_envelope)) (t_cons (c_pair c_versioned_envelope c_bytes) (t_cons c_nsm_response (t_cons (c_pair c_versioned_envelope c_bytes) (t_cons (c_pair c_bytes c_bytes) (t_cons (c_pair c_bytes c_bytes) (t_cons c_unit (t_cons c_unit (t_cons (c_option c_versioned_envelope) (t_cons c_unit (t_cons (c_pair c_string c_string) (t_cons (c_pair c_json_envelope c_bytes) t_nil))))))))))))))))))))))).
Definition c_msg : codec msg := c_iso msg_of msg_to (c_enum t_msg).

