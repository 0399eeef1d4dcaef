(** Specification of attestation-document checks (C22, C23, C24, C19). *)
From Verif Require Import Base Hex Json Types Msg World Attest.
Local Open Scope N_scope.

(** What the code's own comments and constants promise, with the PCR index
    bound as a parameter: AWS documents the index range as [0, 32). *)
Definition doc_syntax (max_index : N) (d : att_doc) : Prop :=
  ad_module_id d <> [] /\ ad_digest d = SHA384 /\ ad_timestamp d <> 0
  /\ (1 <= length (ad_pcrs d) <= 32)%nat
  /\ (forall i v, In (i, v) (ad_pcrs d) -> i <= max_index /\ (length v = 32 \/ length v = 48 \/ length v = 64)%nat)
  /\ ad_cabundle d <> []
  /\ (forall c, In c (ad_cabundle d) -> (1 <= length c <= 1024)%nat)
  /\ (forall k, ad_public_key d = Some k -> (1 <= length k <= 1024)%nat)
  /\ (forall u, ad_user_data d = Some u -> (length u <= 512)%nat)
  /\ (forall n, ad_nonce d = Some n -> (length n <= 512)%nat).

(** The value PCR [i] has in the document. *)
Definition pcr_is (d : att_doc) (i : N) (v : bytes) : Prop := alookup i (ad_pcrs d) = Some v.

(** User data and the boot measurements are the expected ones, and there is no nonce. *)
Definition doc_matches (d : att_doc) (ud p0 p1 p2 p3 : bytes) : Prop :=
  ad_user_data d = Some ud /\ ad_nonce d = None
  /\ pcr_is d 0 p0 /\ pcr_is d 1 p1 /\ pcr_is d 2 p2 /\ pcr_is d 3 p3.

(** The text hashed into a commitment PCR. *)
Definition commitment_text (k : commitment_kind) (mh pk : bytes) : bytes :=
  bs "{""domain"":""" ++ (match k with Setup => bs "qos-setup-manifest-pcr-commitment-v1"
                                    | Live => bs "qos-live-manifest-pcr-commitment-v1" end)
  ++ bs """,""ephemeralPublicKey"":""" ++ encode pk ++ bs """,""manifestHash"":""" ++ encode mh ++ bs """}".

(** The register value after extending 48 zero bytes with the hash of that text. *)
Definition committed_value (Y : sys) (k : commitment_kind) (mh pk : bytes) : bytes :=
  s_sha384 Y (repeat x00 48 ++ s_sha384 Y (commitment_text k mh pk)).

(** Every attestable PCR is present and PCR16 (setup) or PCR17 (live) commits to
    the manifest hash and to the public key carried by the document itself. *)
Definition doc_commits (Y : sys) (k : commitment_kind) (d : att_doc) (mh : bytes) : Prop :=
  (forall i, i < 32 -> exists v, pcr_is d i v)
  /\ exists pk, ad_public_key d = Some pk
       /\ pcr_is d (match k with Setup => 16 | Live => 17 end) (committed_value Y k mh pk).
