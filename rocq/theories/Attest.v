(** Verification of Nitro attestation documents.
    Models /repo/src/qos_nsm/src/nitro/mod.rs and nitro/syntactic_validation.rs. *)
From Verif Require Import Base Hex Json TypesJson Types Msg World.
Local Open Scope N_scope.

(** nitro/error.rs: AttestError (the variants these functions return; payload
    strings kept, wrapped third-party errors dropped). *)
Inductive attest_error :=
| AInvalidCertChain | AInvalidCOSESign1Signature | AInvalidCOSESign1Structure
| AInvalidDigest | AInvalidModuleId | AInvalidPcr | AInvalidCABundle | AInvalidTimeStamp
| AInvalidPubKey | AInvalidBytes | AMissingUserData | ADifferentUserData (e a : bytes)
| AUnexpectedNonce | AMissingPcr (i : N) | ADifferentPcr (i : N) (e a : bytes) | AMissingPubKey.

(** BTreeMap lookup in the decoded document *)
Fixpoint alookup (i : N) (m : list (N * bytes)) : option bytes :=
  match m with
  | [] => None
  | (j, v) :: r => if N.eqb i j then Some v else alookup i r
  end.

(** ** syntactic_validation.rs *)
(** :49-51 *)
Definition validate_module_id (id : bytes) : result attest_error unit :=
  match id with [] => Err AInvalidModuleId | _ => Ok tt end.
(** :86-88 *)
Definition validate_digest (d : nsm_digest) : result attest_error unit :=
  if digest_eqb d SHA384 then Ok tt else Err AInvalidDigest.
(** :53-70; constants :9-12 *)
Definition validate_pcrs (pcrs : list (N * bytes)) : result attest_error unit :=
  let count_ok := (1 <=? lenN pcrs) && (lenN pcrs <=? 32) in
  let each_ok := forallb (fun '(idx, pcr) =>
      (idx <=? 32) && ((lenN pcr =? 32) || (lenN pcr =? 48) || (lenN pcr =? 64))) pcrs in
  if negb each_ok || negb count_ok then Err AInvalidPcr else Ok tt.
(** :72-84; constants :15-19 *)
Definition validate_cabundle (ca : list bytes) : result attest_error unit :=
  let len_ok := 1 <=? lenN ca in
  let entries_ok := forallb (fun c => (1 <=? lenN c) && (lenN c <=? 1024)) ca in
  if negb len_ok || negb entries_ok then Err AInvalidCABundle else Ok tt.
(** :90-92 *)
Definition validate_timestamp (t : N) : result attest_error unit :=
  if t =? 0 then Err AInvalidTimeStamp else Ok tt.
(** :94-102 *)
Definition validate_public_key (k : option bytes) : result attest_error unit :=
  match k with
  | Some k => if (1 <=? lenN k) && (lenN k <=? 1024) then Ok tt else Err AInvalidPubKey
  | None => Ok tt
  end.
(** :104-113 *)
Definition validate_bytes_512 (v : option bytes) : result attest_error unit :=
  match v with Some v => if 512 <? lenN v then Err AInvalidBytes else Ok tt | None => Ok tt end.
(** :21-46 *)
Definition validate_attestation_doc (d : att_doc) : result attest_error unit :=
  rbind (validate_module_id (ad_module_id d)) (fun _ =>
  rbind (validate_digest (ad_digest d)) (fun _ =>
  rbind (validate_pcrs (ad_pcrs d)) (fun _ =>
  rbind (validate_cabundle (ad_cabundle d)) (fun _ =>
  rbind (validate_timestamp (ad_timestamp d)) (fun _ =>
  rbind (validate_public_key (ad_public_key d)) (fun _ =>
  rbind (validate_bytes_512 (ad_user_data d)) (fun _ =>
  validate_bytes_512 (ad_nonce d)))))))).

(** ** nitro/mod.rs *)
(** :66-73 *)
Inductive commitment_kind := Setup | Live.
(** :91-108, constants :47-63 *)
Definition pcr_index (k : commitment_kind) : N := match k with Setup => 16 | Live => 17 end.
Definition domain (k : commitment_kind) : bytes :=
  match k with
  | Setup => bs "qos-setup-manifest-pcr-commitment-v1"
  | Live => bs "qos-live-manifest-pcr-commitment-v1"
  end.
Definition ATTESTABLE_PCR_COUNT : N := 32.
Definition INITIAL_PCR : bytes := repeat x00 48.

(** :110-132 manifest_pcr_commitment_preimage: canonical JSON of the three fields *)
Definition commitment_json (k : commitment_kind) (mh eph : bytes) : json :=
  JObj [(Some (bs "domain"), str (domain k));
        (Some (bs "manifestHash"), str (encode mh));
        (Some (bs "ephemeralPublicKey"), str (encode eph))].
(** The Rust code unwraps ("only contains strings"); [canon] of this value is
    never [None] (proved in AttestProofs.v). *)
Definition commitment_preimage (k : commitment_kind) (mh eph : bytes) : bytes :=
  match canon (commitment_json k mh eph) with Some b => b | None => [] end.

Section Attest.
  Context (Y : sys).

  (** :134-147 *)
  Definition manifest_pcr_commitment (k : commitment_kind) (mh eph : bytes) : bytes :=
    s_sha384 Y (commitment_preimage k mh eph).
  (** :158-170 *)
  Definition pcr_extend_sha384 (cur data : bytes) : result attest_error bytes :=
    if lenN cur =? 48 then Ok (s_sha384 Y (cur ++ data)) else Err AInvalidPcr.
  (** :178-186 *)
  Definition expected_commitment_pcr (k : commitment_kind) (mh eph : bytes) : result attest_error bytes :=
    pcr_extend_sha384 INITIAL_PCR (manifest_pcr_commitment k mh eph).

  Definition all_attestable (pcrs : list (N * bytes)) : option N :=
    find (fun i => negb (is_some (alookup i pcrs))) (map N.of_nat (seq 0 32)).

  (** :193-229 *)
  Definition verify_commitment (d : att_doc) (k : commitment_kind) (mh : bytes) : result attest_error unit :=
    match all_attestable (ad_pcrs d) with
    | Some i => Err (AMissingPcr i)
    | None =>
      match ad_public_key d with
      | None => Err AMissingPubKey
      | Some pk =>
        rbind (expected_commitment_pcr k mh pk) (fun expected =>
        match alookup (pcr_index k) (ad_pcrs d) with
        | None => Err (AMissingPcr (pcr_index k))
        | Some actual => if bytes_eqb actual expected then Ok tt
                         else Err (ADifferentPcr (pcr_index k) (encode expected) (encode actual))
        end)
      end
    end.

  (** :323-414 verify_attestation_doc_against_user_input *)
  Definition check_pcr (d : att_doc) (i : N) (want : bytes) : result attest_error unit :=
    match alookup i (ad_pcrs d) with
    | None => Err (AMissingPcr i)
    | Some v => if bytes_eqb want v then Ok tt else Err (ADifferentPcr i (encode want) (encode v))
    end.
  Definition verify_user_input (d : att_doc) (ud p0 p1 p2 p3 : bytes) : result attest_error unit :=
    match ad_user_data d with
    | None => Err AMissingUserData
    | Some u =>
      if negb (bytes_eqb ud u) then Err (ADifferentUserData (encode ud) (encode u))
      else if is_some (ad_nonce d) then Err AUnexpectedNonce
      else rbind (check_pcr d 0 p0) (fun _ => rbind (check_pcr d 1 p1) (fun _ =>
           rbind (check_pcr d 2 p2) (fun _ => check_pcr d 3 p3)))
    end.

  (** :236-256 verify_attestation_doc_against_manifest (and :263-289) *)
  Definition verify_against_manifest (k : commitment_kind) (d : att_doc) (mh p0 p1 p2 p3 : bytes)
    : result attest_error unit :=
    rbind (verify_user_input d mh p0 p1 p2 p3) (fun _ => verify_commitment d k mh).

  (** :457-477 attestation_doc_from_der, :479-506 verify_certificate_chain:
      the first certificate of the bundle (the claimed root) is dropped. *)
  Definition attestation_doc_from_der (cose root : bytes) (secs : N) : result attest_error att_doc :=
    match s_doc Y cose with
    | None => Err AInvalidCOSESign1Structure
    | Some d =>
      rbind (validate_attestation_doc d) (fun _ =>
      if s_chain_ok Y (tl (ad_cabundle d)) root (ad_certificate d) secs then
        (if s_cose_sig_ok Y (ad_certificate d) cose then Ok d else Err AInvalidCOSESign1Signature)
      else Err AInvalidCertChain)
    end.
End Attest.

(** error.rs: [From<AttestError>] renders the error into QosAttestError. *)
Definition attest_perr (e : attest_error) : perr := QosAttestError (bs "attest").
