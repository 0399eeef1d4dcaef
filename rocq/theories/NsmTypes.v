(** The wrapper around the Nitro Secure Module's driver:
    /repo/src/qos_nsm/src/types.rs (conversions to and from the driver's types)
    and /repo/src/qos_nsm/src/nsm.rs (the [Nsm] provider). *)
From Verif Require Import Base Msg World.
Local Open Scope N_scope.

(** aws_nitro_enclaves_nsm_api::api: Digest, ErrorCode, Request, Response.
    Request and Response are non-exhaustive: later versions may add variants. *)
Inductive aws_digest := AwsSHA256 | AwsSHA384 | AwsSHA512.
Inductive aws_error := AwsSuccess | AwsInvalidArgument | AwsInvalidIndex | AwsInvalidResponse | AwsReadOnlyIndex
| AwsInvalidOperation | AwsBufferTooSmall | AwsInputTooLarge | AwsInternalError.
Inductive aws_request :=
| AwsDescribePCR (index : N) | AwsExtendPCR (index : N) (data : bytes) | AwsLockPCR (index : N) | AwsLockPCRs (range : N)
| AwsDescribeNSM | AwsAttestation (user_data nonce public_key : option bytes) | AwsGetRandom | AwsNewRequest (n : N).
Inductive aws_response :=
| AwsRDescribePCR (lock : bool) (data : bytes) | AwsRExtendPCR (data : bytes) | AwsRLockPCR | AwsRLockPCRs
| AwsRDescribeNSM (major minor patch : N) (module_id : bytes) (max_pcrs : N) (locked_pcrs : list N) (digest : aws_digest)
| AwsRAttestation (document : bytes) | AwsRGetRandom (random : bytes) | AwsRError (e : aws_error) | AwsNewResponse (n : N).

(** types.rs:43-58, 60-75 *)
Definition error_from (e : aws_error) : nsm_error_code :=
  match e with
  | AwsSuccess => NsmSuccess | AwsInvalidArgument => NsmInvalidArgument | AwsInvalidIndex => NsmInvalidIndex
  | AwsInvalidResponse => NsmInvalidResponse | AwsReadOnlyIndex => NsmReadOnlyIndex | AwsInvalidOperation => NsmInvalidOperation
  | AwsBufferTooSmall => NsmBufferTooSmall | AwsInputTooLarge => NsmInputTooLarge | AwsInternalError => NsmInternalError
  end.
Definition error_into (e : nsm_error_code) : aws_error :=
  match e with
  | NsmSuccess => AwsSuccess | NsmInvalidArgument => AwsInvalidArgument | NsmInvalidIndex => AwsInvalidIndex
  | NsmInvalidResponse => AwsInvalidResponse | NsmReadOnlyIndex => AwsReadOnlyIndex | NsmInvalidOperation => AwsInvalidOperation
  | NsmBufferTooSmall => AwsBufferTooSmall | NsmInputTooLarge => AwsInputTooLarge | NsmInternalError => AwsInternalError
  end.
(** types.rs:98-118 *)
Definition digest_from (d : aws_digest) : nsm_digest := match d with AwsSHA256 => SHA256 | AwsSHA384 => SHA384 | AwsSHA512 => SHA512 end.
Definition digest_into (d : nsm_digest) : aws_digest := match d with SHA256 => AwsSHA256 | SHA384 => AwsSHA384 | SHA512 => AwsSHA512 end.
(** types.rs:185-205; [None]: panic on an unknown variant *)
Definition request_from (r : aws_request) : option nsm_request :=
  match r with
  | AwsDescribePCR i => Some (DescribePCR i) | AwsExtendPCR i d => Some (ExtendPCR i d) | AwsLockPCR i => Some (LockPCR i)
  | AwsLockPCRs n => Some (LockPCRs n) | AwsDescribeNSM => Some DescribeNSM
  | AwsAttestation u n p => Some (Attestation u n p) | AwsGetRandom => Some GetRandom | AwsNewRequest _ => None
  end.
(** types.rs:207-227 *)
Definition request_into (r : nsm_request) : aws_request :=
  match r with
  | DescribePCR i => AwsDescribePCR i | ExtendPCR i d => AwsExtendPCR i d | LockPCR i => AwsLockPCR i
  | LockPCRs n => AwsLockPCRs n | DescribeNSM => AwsDescribeNSM
  | Attestation u n p => AwsAttestation u n p | GetRandom => AwsGetRandom
  end.
(** types.rs:306-339 *)
Definition response_from (r : aws_response) : nsm_response :=
  match r with
  | AwsRDescribePCR l d => RDescribePCR l d | AwsRExtendPCR d => RExtendPCR d | AwsRLockPCR => RLockPCR | AwsRLockPCRs => RLockPCRs
  | AwsRDescribeNSM a b c m x l d => RDescribeNSM a b c m x l (digest_from d)
  | AwsRAttestation d => RAttestation d | AwsRGetRandom r => RGetRandom r | AwsRError e => RError (error_from e)
  | AwsNewResponse _ => RError (error_from AwsInternalError)
  end.
(** types.rs:341-376 *)
Definition response_into (r : nsm_response) : aws_response :=
  match r with
  | RDescribePCR l d => AwsRDescribePCR l d | RExtendPCR d => AwsRExtendPCR d | RLockPCR => AwsRLockPCR | RLockPCRs => AwsRLockPCRs
  | RDescribeNSM a b c m x l d => AwsRDescribeNSM a b c m x l (digest_into d)
  | RAttestation d => AwsRAttestation d | RGetRandom r => AwsRGetRandom r | RError e => AwsRError (error_into e)
  end.

Section Nsm.
  (** The device behind the driver, and the reading of a document
      (nitro::unsafe_attestation_doc_from_der). *)
  Context (D : Type) (device : D -> aws_request -> aws_response * D) (read_doc : bytes -> option att_doc).
  (** nsm.rs:49-59; opening and closing the driver is folded into [device] *)
  Definition nsm_process (d : D) (r : nsm_request) : nsm_response * D :=
    let '(a, d') := device d (request_into r) in (response_from a, d').
  (** nsm.rs:61-78 *)
  Definition nsm_timestamp_ms (d : D) : option N * D :=
    let '(a, d') := nsm_process d (Attestation None None None) in
    (match a with RAttestation doc => option_map ad_timestamp (read_doc doc) | _ => None end, d').
End Nsm.
