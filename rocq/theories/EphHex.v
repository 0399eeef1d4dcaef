(** The client's get-ephemeral-key-hex:
    /repo/src/qos_client/src/cli/services.rs:1932-1950 get_ephemeral_key_hex,
    /repo/src/qos_p256/src/lib.rs:442-453 P256Public::to_hex_file.
    The calls it makes on the disk of [FileTools]; [None] is a panic before the
    first of them. *)
From Verif Require Import Base Hex Types TypesJson Msg World Attest CliParser Client FileTools.
Local Open Scope N_scope.

(** services.rs:1938 calls extract_attestation_doc with [unsafe_skip = true], so the
    time is not used *)
Definition get_ephemeral_key_hex (Y : sys) (umask_mode : N) (d : disk) (doc_path eph_path : bytes) : option (list call) :=
  let? cose := contents d doc_path in
  let? doc := extract_attestation_doc Y cose true 0 in
  let? pk := ad_public_key doc in
  let? k := ok_opt (public_from_bytes Y pk) in
  Some (write_with_msg umask_mode eph_path (encode (public_to_bytes k))).
