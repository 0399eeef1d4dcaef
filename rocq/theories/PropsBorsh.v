(** C96: the Borsh byte layout of everything that is stored, hashed or sent. *)
From Coq Require Import Sorting.Sorted.
From Verif Require Import Base Utf8 Borsh BorshProofs Json Types TypesBorsh TypesJson JsonComb Msg MsgBorsh MsgJson World Services SpecBorsh BorshLayout SpecWire Wire WireProofs PropsWire.
From Verif Require Proxy PropsProxy P256 Client CodecExamples.
Require Import ZifyBool ZifyN ZifyNat.
Local Open Scope N_scope.

Lemma lays_slice {A} (c : codec A) lay fit : lawful c -> Lays c lay fit ->
  forall b a, from_slice c b = Some a <-> fit a /\ b = lay a.
Proof. intros L [E W] b a. rewrite (lawful_slice_iff c L), W, E. reflexivity. Qed.

(** A byte string reads as a manifest, an envelope or an approval exactly when
    it is the layout of it, in both the V1 and the V0 schema. *)
Theorem c96_manifest_bytes :
  (forall b m, from_slice c_manifest b = Some m <-> fit_manifest m /\ b = lay_manifest m)
  /\ (forall b m, from_slice c_manifest_v0 b = Some m <-> fit_manifest_v0 m /\ b = lay_manifest_v0 m)
  /\ (forall b e, from_slice c_envelope b = Some e <-> fit_envelope e /\ b = lay_envelope e)
  /\ (forall b e, from_slice c_envelope_v0 b = Some e <-> fit_envelope_v0 e /\ b = lay_envelope_v0 e)
  /\ (forall b a, from_slice c_approval b = Some a <-> fit_approval a /\ b = lay_approval a).
Proof.
  split; [|split; [|split; [|split]]]; apply lays_slice;
    solve [ apply c_manifest_lawful | apply lays_manifest | apply c_manifest_v0_lawful | apply lays_manifest_v0
          | apply c_envelope_lawful | apply lays_envelope | apply c_envelope_v0_lawful | apply lays_envelope_v0
          | apply c_approval_lawful | apply lays_approval ].
Qed.
Print Assumptions c96_manifest_bytes.

(** The digests that are signed, compared and attested are SHA-256 of these
    layouts (a V2 manifest is hashed as canonical JSON: C32, C92). *)
Theorem c96_digests : forall Y,
  (forall m, manifest_hash Y (VM1 m) = s_sha256 Y (lay_manifest m))
  /\ (forall m, manifest_hash Y (VM0 m) = s_sha256 Y (lay_manifest_v0 m))
  /\ (forall s, set_hash Y s = s_sha256 Y (lay_set s))
  /\ (forall m, member_hash Y m = s_sha256 Y (lay_member m))
  /\ (forall o, Client.genesis_hash Y o = s_sha256 Y (lay_genesis o)).
Proof.
  intros Y. unfold manifest_hash, manifest_preimage, set_hash, member_hash, Client.genesis_hash.
  split; [|split; [|split; [|split]]]; intros x;
    [rewrite (proj1 lays_manifest)|rewrite (proj1 lays_manifest_v0)|rewrite (proj1 lays_set)|rewrite (proj1 lays_member)
    |rewrite (proj1 lays_genesis)]; reflexivity.
Qed.
Print Assumptions c96_digests.

(** A message is written in Borsh exactly when it is expressible, and then as
    this layout. *)
Theorem c96_message_written : forall m b, to_wire m EBorsh = Ok b <-> fit_msg m /\ b = lay_msg m.
Proof.
  intros m b. unfold to_wire. destruct (is_genesis m) eqn:G.
  - split; [discriminate|]. destruct m; try discriminate G; intros [[] _].
  - unfold to_vec. assert (Fx : wf c_msg m = true <-> fit_msg m).
    { rewrite (proj2 lays_msg). destruct m; try discriminate G; reflexivity. }
    assert (Ex : enc c_msg m = lay_msg m).
    { rewrite (proj1 lays_msg). destruct m; try discriminate G; reflexivity. }
    rewrite Ex. destruct (wf c_msg m).
    + split; [intros H; apply ok_eq in H; subst b; split; [now apply Fx|reflexivity]|intros [_ ->]; reflexivity].
    + split; [discriminate|]. intros [F _]. apply Fx in F. discriminate.
Qed.
Print Assumptions c96_message_written.

(** Bytes taken as a Borsh message, other than one holding a manifest envelope
    or a security module's answer, are the layout of that message: nothing
    else is read as it, and the layout is. *)
Theorem c96_message_read : forall b m, fits b -> plain m ->
  (from_wire b = Ok (m, EBorsh) <-> fit_msg m /\ b = lay_msg m).
Proof.
  intros b m F P. split.
  - unfold from_wire. destruct (json_from_slice js_msg b) as [m'|] eqn:J; [intros H; discriminate|].
    destruct (from_slice c_msg b) as [m'|] eqn:B; [|discriminate]. destruct (is_genesis m') eqn:G; [discriminate|].
    intros H. assert (m' = m) as -> by (apply ok_eq in H; inversion H; reflexivity). now apply plain_slice.
  - intros [Fm ->]. apply c37_other_borsh_messages_round_trip; [now apply c96_message_written|exact F| |].
    + destruct m; try reflexivity; destruct P.
    + intros e L. destruct m; try discriminate L; destruct P.
Qed.
Print Assumptions c96_message_read.

(** The messages between an enclave and its network proxy. *)
Theorem c96_proxy_message : forall b m, from_slice Proxy.c_proxy_msg b = Some m <-> fit_proxy m /\ b = lay_proxy m.
Proof. apply lays_slice; [apply PropsProxy.c_proxy_msg_lawful|apply lays_proxy]. Qed.
Print Assumptions c96_proxy_message.

(** Ciphertexts: nonce, sender's one-time public key, sealed message. *)
Theorem c96_ciphertext_bytes :
  (forall b nonce key sealed, from_slice P256.c_envelope b = Some (nonce, (key, sealed)) <->
     (length nonce = 12 /\ length key = 65)%nat /\ fit_bytes sealed /\ b = nonce ++ key ++ lay_bytes sealed)
  /\ (forall b nonce sealed, from_slice P256.c_sym_envelope b = Some (nonce, sealed) <->
     (length nonce = 12)%nat /\ fit_bytes sealed /\ b = nonce ++ lay_bytes sealed).
Proof.
  split; intros.
  - unfold P256.c_envelope. rewrite (lays_slice (c_pair (c_fixed 12) (c_pair (c_fixed 65) c_bytes)) _ _ ltac:(auto with law) (lays_pair _ _ _ _ _ _ (lays_fixed 12) (lays_pair _ _ _ _ _ _ (lays_fixed 65) lays_bytes))).
    cbn [fst snd]. tauto.
  - unfold P256.c_sym_envelope. rewrite (lays_slice (c_pair (c_fixed 12) c_bytes) _ _ ltac:(auto with law) (lays_pair _ _ _ _ _ _ (lays_fixed 12) lays_bytes)).
    cbn [fst snd]. tauto.
Qed.
Print Assumptions c96_ciphertext_bytes.

(** A manifest, a request and a proxy message with their bytes. *)
Definition c96_provision : msg := ProvisionRequest (bs "sh") (Approval (bs "sig") (QuorumMember (bs "al") (bs "pk"))).
Example c96_nontrivial :
  (fit_manifest CodecExamples.ex_manifest /\ from_slice c_manifest (lay_manifest CodecExamples.ex_manifest) = Some CodecExamples.ex_manifest)
  /\ (fit_msg c96_provision /\ plain c96_provision
      /\ lay_msg c96_provision =
         [x07; x02; x00; x00; x00; "s"; "h"; x03; x00; x00; x00; "s"; "i"; "g"; x02; x00; x00; x00; "a"; "l"; x02; x00; x00; x00; "p"; "k"]%byte
      /\ from_wire (lay_msg c96_provision) = Ok (c96_provision, EBorsh))
  /\ (lay_proxy (Proxy.ConnectByIp (bs "::1") 443) = [x04; x03; x00; x00; x00; ":"; ":"; "1"; xbb; x01]%byte
      /\ fit_proxy (Proxy.ConnectByIp (bs "::1") 443))
  /\ (exists b, from_slice P256.c_envelope b = Some (repeat x01 12, (repeat x04 65, bs "sealed"))).
Proof.
  assert (FM : fit_manifest CodecExamples.ex_manifest) by (apply (proj2 lays_manifest); vm_compute; reflexivity).
  assert (FP : fit_msg c96_provision).
  { assert (X : wf c_msg c96_provision = true) by (vm_compute; reflexivity). apply (proj2 lays_msg) in X. exact X. }
  split; [|split; [|split]].
  - split; [exact FM|]. apply c96_manifest_bytes. auto.
  - split; [exact FP|]. split; [exact I|]. split; [vm_compute; reflexivity|].
    apply c96_message_read; [vm_compute; discriminate|exact I|auto].
  - split; [vm_compute; reflexivity|]. apply (proj2 lays_proxy). vm_compute. reflexivity.
  - exists (repeat x01 12 ++ repeat x04 65 ++ lay_bytes (bs "sealed")). apply c96_ciphertext_bytes.
    split; [split; reflexivity|]. split; [vm_compute; reflexivity|reflexivity].
Qed.
