(** The development boot: /repo/src/qos_client/src/cli/services.rs:2024-2173
    dangerous_dev_boot. *)
From Verif Require Import Base Utf8 Hex Borsh Json Types TypesBorsh TypesJson Msg MsgBorsh MsgJson World Attest Services State Wire Client ClientNet.
Local Open Scope N_scope.

(** services.rs:54-56 *)
Definition DEV_MEMBER : bytes := bs "DANGEROUS_DEV_BOOT_MEMBER".
Definition DEV_NAMESPACE : bytes := bs "DANGEROUS_DEV_BOOT_MEMBER_NAMESPACE".

Section DevBoot.
  Context (Y : sys).
  (** What the command draws: the quorum key's seed, the sharing's randomness,
      and the randomness of the two encryptions; its inputs. *)
  Record dev_args := DevArgs { da_seed : bytes; da_split : bytes; da_enc1 : bytes; da_enc2 : bytes;
    da_pivot : file; da_restart : restart_policy; da_args : list bytes; da_bridge : list bridge_config; da_override : option file }.

  Definition dev_member (k : bytes * bytes) : quorum_member := QuorumMember DEV_MEMBER (public_to_bytes k).
  (** services.rs:2067-2105; [s_root Y] is the AWS root certificate the client is built with *)
  Definition dev_manifest (a : dev_args) (k : bytes * bytes) (pivot : bytes) : manifest :=
    let zero := repeat x00 48 in
    Manifest (Namespace DEV_NAMESPACE 4294967295 (public_to_bytes k))
      (PivotConfig (s_sha256 Y pivot) (da_restart a) (da_bridge a) false (da_args a))
      (MemberSet 1 [dev_member k]) (MemberSet 2 [dev_member k])
      (NitroConfig zero zero zero zero (s_root Y) (bs "mock-qos-commit-ref")) (PatchSet 0 []).
  (** services.rs:2107-2116, 2146-2154 *)
  Definition dev_approval (a : dev_args) (k : bytes * bytes) (pivot : bytes) : approval :=
    Approval (s_sign Y (da_seed a) (manifest_hash Y (VM1 (dev_manifest a k pivot)))) (dev_member k).
  Definition dev_envelope (a : dev_args) (k : bytes * bytes) (pivot : bytes) : versioned_envelope :=
    VE1 (ManifestEnvelope (dev_manifest a k pivot) [dev_approval a k pivot] []).
  (** services.rs:2124-2143: the key to encrypt to; the document is not verified *)
  Definition dev_target (a : dev_args) (cose : bytes) : option (bytes * bytes) :=
    let? d := extract_attestation_doc Y cose true 0 in
    match da_override a with
    | Some f => let? c := f in let? s := seed_of_hex c in s_pair Y s
    | None => let? pk := ad_public_key d in ok_opt (public_from_bytes Y pk)
    end.
  (** services.rs:2156-2162, 2173-2179 *)
  Definition dev_share (a : dev_args) (k : bytes * bytes) (pivot : bytes) (ek : bytes) (rnd share : bytes) : option msg :=
    let? c := ok_opt (s_encrypt Y ek rnd share) in Some (ProvisionRequest c (dev_approval a k pivot)).

  (** services.rs:2024-2186; [false] is a panic *)
  Definition dangerous_dev_boot (a : dev_args) (n : net Y) : bool * net Y :=
    match s_pair Y (da_seed a), s_split Y (da_split a) (da_seed a) 2 2, da_pivot a with
    | Some k, Some [share1; share2], Some pivot =>
      match boot_doc Y (dev_envelope a k pivot) pivot n with
      | (Ok cose, n1) =>
        match (let? t := dev_target a cose in let? m := dev_share a k pivot (fst t) (da_enc1 a) share1 in Some (fst t, m)) with
        | Some (ek, m1) =>
          match post Y m1 n1 with
          | (Ok (ProvisionResponse false), n2) =>
            match dev_share a k pivot ek (da_enc2 a) share2 with
            | Some m2 => match post Y m2 n2 with (Ok (ProvisionResponse true), n3) => (true, n3) | (_, n3) => (false, n3) end
            | None => (false, n2)
            end
          | (_, n2) => (false, n2)
          end
        | None => (false, n1)
        end
      | (Err _, n1) => (false, n1)
      end
    | _, _, _ => (false, n)
    end.
End DevBoot.
