(** The mock Nitro Secure Module and its seed file:
    /repo/src/qos_nsm/src/mock.rs and /repo/src/qos_core/src/cli.rs:125-171.

    The state is behind a mutex: requests are served one at a time, and a panic
    while it is held poisons it, so that every later request that takes it
    panics too.  COSE encoding and signing of a document is a parameter; the
    fixed certificates are parameters.  The [mock_realtime] clock is not
    modelled. *)
From Verif Require Import Base Utf8 Hex Json TypesJson Msg World Attest.
Local Open Scope N_scope.

(** mock.rs:86-90.  BTreeMap: association list, first occurrence wins;
    BTreeSet: list. *)
Record mock := Mock { mk_pcrs : list (N * bytes); mk_locked : list N; mk_poisoned : bool }.
(** mock.rs:92-108; max_pcrs is always ATTESTABLE_PCR_COUNT *)
Definition new_mock : mock := Mock [(16, INITIAL_PCR); (17, INITIAL_PCR)] [] false.
Definition max_pcrs : N := ATTESTABLE_PCR_COUNT.
(** mock.rs:131-148; [None]: an assertion fails *)
Definition with_pcr (i : N) (v : bytes) (m : mock) : option mock :=
  if negb (i <? ATTESTABLE_PCR_COUNT) then None
  else if negb ((lenN v =? 32) || (lenN v =? 48) || (lenN v =? 64)) then None
  else Some (Mock ((i, v) :: mk_pcrs m) (mk_locked m) (mk_poisoned m)).

Definition ZERO_PCR : bytes := repeat x00 48.
(** [entry(index).or_insert_with(zeros)] and [get(..).unwrap_or(zeros)] *)
Definition mock_register (m : mock) (i : N) : bytes := match alookup i (mk_pcrs m) with Some v => v | None => ZERO_PCR end.
Definition indices (n : N) : list N := map N.of_nat (seq 0 (N.to_nat n)).

Section Mock.
  Context (sha384 : bytes -> bytes) (sign_doc : att_doc -> bytes) (LEAF ROOT INTERMEDIATE : bytes).

  (** mock.rs:150-196 *)
  Definition MOCK_MODULE_ID : bytes := bs "mock_module_id".
  Definition MOCK_TIMESTAMP : N := 1657117102484.
  Definition mock_doc (m : mock) (user_data nonce public_key : option bytes) : att_doc :=
    AttDoc MOCK_MODULE_ID SHA384 MOCK_TIMESTAMP (map (fun i => (i, mock_register m i)) (indices ATTESTABLE_PCR_COUNT))
      LEAF [ROOT; INTERMEDIATE] public_key user_data nonce.
  (** mock.rs:240-312 nsm_process_request; [None]: the call panics *)
  Definition mock_step (m : mock) (r : nsm_request) : option nsm_response * mock :=
    match r with
    | GetRandom => (Some (RGetRandom [x04; x02; x00; x45]), m)
    | _ =>
      if mk_poisoned m then (None, m) else
      match r with
      | Attestation u n p => (Some (RAttestation (sign_doc (mock_doc m u n p))), m)
      | DescribeNSM => (Some (RDescribeNSM 1 2 14 MOCK_MODULE_ID max_pcrs (filter (fun i => memb N.eqb i (mk_locked m)) (indices max_pcrs)) SHA384), m)
      | ExtendPCR i d =>
        if max_pcrs <=? i then (Some (RError NsmInvalidIndex), m)
        else if memb N.eqb i (mk_locked m) then (Some (RError NsmReadOnlyIndex), m)
        else let cur := mock_register m i in
          if lenN cur =? 48 then let v := sha384 (cur ++ d) in (Some (RExtendPCR v), Mock ((i, v) :: mk_pcrs m) (mk_locked m) false)
          else (None, Mock ((i, cur) :: mk_pcrs m) (mk_locked m) true)
      | LockPCR i =>
        if max_pcrs <=? i then (Some (RError NsmInvalidIndex), m)
        else (Some RLockPCR, Mock (mk_pcrs m) (i :: mk_locked m) false)
      | LockPCRs n =>
        if max_pcrs <? n then (Some (RError NsmInvalidIndex), m)
        else (Some RLockPCRs, Mock (mk_pcrs m) (indices n ++ mk_locked m) false)
      | DescribePCR i =>
        if max_pcrs <=? i then (Some (RError NsmInvalidIndex), m)
        else (Some (RDescribePCR (memb N.eqb i (mk_locked m)) (mock_register m i)), Mock ((i, mock_register m i) :: mk_pcrs m) (mk_locked m) false)
      | GetRandom => (None, m)
      end
    end.
End Mock.

(** ** The seed file *)
(** [str::lines] without the removal of a final carriage return, which the
    trimming below removes; on code points *)
Fixpoint split_lines (cs : list N) : list (list N) :=
  match cs with
  | [] => [[]]
  | c :: r => if c =? 10 then [] :: split_lines r else match split_lines r with l :: ls => (c :: l) :: ls | [] => [[c]] end
  end.
(** [str::split_whitespace]: [cur] is the word being read *)
Fixpoint words (cur : list N) (cs : list N) : list (list N) :=
  match cs with
  | [] => match cur with [] => [] | _ => [rev cur] end
  | c :: r => if is_white c then match cur with [] => words [] r | _ => rev cur :: words [] r end
              else words (c :: cur) r
  end.
Fixpoint cut_prefix (p s : bytes) : option bytes :=
  match p, s with
  | [], _ => Some s
  | a :: p', b :: s' => if byte_eqb a b then cut_prefix p' s' else None
  | _ :: _, [] => None
  end.
(** cli.rs:144-167: one line *)
Definition seed_line (m : mock) (line : list N) : option mock :=
  match words [] line with
  | [] => Some m
  | [value; label] =>
    let? num := cut_prefix (bs "PCR") (utf8_enc label) in
    let? i := parse_unsigned 65536 num in
    let? v := ok_opt (decode (utf8_enc value)) in
    with_pcr i v m
  | _ => None
  end.
Fixpoint seed_lines (m : mock) (ls : list (list N)) : option mock :=
  match ls with [] => Some m | l :: r => let? m := seed_line m l in seed_lines m r end.
(** cli.rs:134-171; [None]: panic *)
Definition seed_mock_pcrs (m : mock) (contents : option bytes) : option mock :=
  let? c := contents in let? cs := utf8_dec c in seed_lines m (split_lines cs).
