(** C86: the wrapper around the Nitro Secure Module's driver (NsmTypes.v). *)
From Verif Require Import Base Msg World NsmTypes.
Local Open Scope N_scope.

(** Converting to the driver's types and back changes nothing, so different
    requests reach the device as different requests and different answers of
    the device are told apart; only a variant this version does not know is
    lost: as an answer it reads as an internal error of the module. *)
Theorem c86_conversions_lose_nothing :
  (forall r, request_from (request_into r) = Some r) /\
  (forall a r, request_from a = Some r -> request_into r = a) /\
  (forall r, response_from (response_into r) = r) /\
  (forall a, (exists n, a = AwsNewResponse n /\ response_from a = RError NsmInternalError) \/ response_into (response_from a) = a) /\
  (forall a, request_from a = None <-> exists n, a = AwsNewRequest n).
Proof.
  assert (EI : forall e, error_into (error_from e) = e) by now intros [].
  assert (EF : forall e, error_from (error_into e) = e) by now intros [].
  assert (DI : forall d, digest_into (digest_from d) = d) by now intros [].
  assert (DF : forall d, digest_from (digest_into d) = d) by now intros [].
  split; [now intros []|]. split; [intros [] r E; try discriminate; injection E as <-; reflexivity|].
  split; [intros []; cbn; try reflexivity; [now rewrite DF|now rewrite EF]|].
  split; [intros []; cbn; try (right; reflexivity); [right; now rewrite DI|right; now rewrite EI|left; eauto]|].
  intros []; cbn; split; try discriminate; try (intros (? & ?); discriminate); eauto.
Qed.
Print Assumptions c86_conversions_lose_nothing.
Theorem c86_requests_are_told_apart : forall r r', request_into r = request_into r' -> r = r'.
Proof. intros r r' E. destruct c86_conversions_lose_nothing as (H & _). pose proof (H r) as A. rewrite E, H in A. now injection A. Qed.
Print Assumptions c86_requests_are_told_apart.

(** The wrapper asks the device exactly what it was asked, once, and gives back
    what the device said; the time is that of a document the device issued for
    an empty request, as written in it. *)
Theorem c86_wrapper_is_transparent : forall D device read_doc (d : D) r,
  fst (nsm_process D device d r) = response_from (fst (device d (request_into r))) /\ snd (nsm_process D device d r) = snd (device d (request_into r)) /\
  snd (nsm_timestamp_ms D device read_doc d) = snd (device d (AwsAttestation None None None)) /\
  forall t, fst (nsm_timestamp_ms D device read_doc d) = Some t <->
    exists doc a, fst (device d (AwsAttestation None None None)) = AwsRAttestation doc /\ read_doc doc = Some a /\ ad_timestamp a = t.
Proof.
  intros D device rd d r. unfold nsm_timestamp_ms, nsm_process. cbn [request_into].
  destruct (device d (request_into r)) as [a d'], (device d (AwsAttestation None None None)) as [b d'']. cbn [fst snd].
  split; [reflexivity|]. split; [reflexivity|]. split; [reflexivity|]. intros t. split.
  - destruct b; cbn [response_from]; try discriminate. intros H. destruct (rd document) as [x|] eqn:E; [|discriminate]. injection H as <-. eauto.
  - intros (doc & x & -> & E & <-). cbn [response_from]. now rewrite E.
Qed.
Print Assumptions c86_wrapper_is_transparent.
Example c86_nontrivial : response_from (AwsRDescribeNSM 1 2 3 [x01] 32 [0; 16] AwsSHA384) = RDescribeNSM 1 2 3 [x01] 32 [0; 16] SHA384
  /\ request_from (AwsAttestation (Some [x01]) None (Some [x02])) = Some (Attestation (Some [x01]) None (Some [x02])).
Proof. split; reflexivity. Qed.
