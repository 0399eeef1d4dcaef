claim("C28", "proved", ["c28_borsh_canonical"],
  "Every Borsh type of the boot model (manifest, envelope, V0 forms and all parts): encode/decode identity, accepted input = encoding of its value, injective.")
claim("C29", "proved", ["c29_borsh_versions_exclusive", "c29_borsh_envelope_versions_exclusive", "c29_ambiguity_exists"],
  "Exact characterisation of the V1/V0 decoders, plus a witness that ambiguous byte strings exist and are rejected.")
claim("C30", "proved", ["c30_envelope_storage_round_trip", "c30_manifest_storage_round_trip"],
  "For every well-formed envelope/manifest of every version (JSON V2, JSON V1, V0).")
claim("C31", "proved", ["c31_declared_version_no_fallback", "c31_declared_version_manifest_no_fallback", "c31_v2_means_v2", "c31_declared_version_refuted"],
  "Holds for documents the strict JSON reader accepts; refuted in general because the version probe and the V1 decoder use different JSON readers (unknown member holding an unpaired surrogate).")
claim("C32", "proved", ["c32_canonical_json_iff", "c32_canonical_json_parses_back", "c32_manifest_v2_preimage_injective","c32_canonical_form","c32_floats_are_refused"],
  "Canonical JSON equal iff values equal up to key order, null members and the integer/decimal-string identification.")
claim("C33", "proved", ["c33_hex_round_trip", "c33_hex_encode_lowercase", "c33_hex_decode_exact", "c33_hex_decode_language","c33_fixed_size_exact", "c33_hex_decode_exact_refuted"],
  "Round trip and lower case proved for all bytes; the strict acceptance claim is proved for inputs without '+' and refuted in general ('+a' decodes); the exact accepted language, plus signs included, is c33_hex_decode_language.")
claim("C38", "proved", ["c38_builder_exact", "c38_builder_fails_iff_incomplete"], "All call sequences.")
claim("C39", "proved", ["c39_env_limits", "c39_env_insert", "c39_env_names_exact", "c39_env_values_exact", "c39_env_borsh_round_trip"],
  "Every way of making a PivotEnv.")
claim("C01", "proved", ["c01_status_reports_phase", "c01_one_edge_per_request", "c01_phase_path", "c01_terminal_phases"], "All systems, states and request sequences.")
claim("C02", "proved", ["c02_unserved_refused_without_effect", "c02_served_is_routed"], "State equality, so NSM, files and randomness included.")
claim("C03", "proved", ["c03_read_only"], "All intermediate file systems too.")
claim("C04", "proved", ["c04_installed_key_is_the_manifests"], "Every file-system state of every history with faults, crashes and restarts.")
claim("C05", "proved", ["c05_only_by_provision_or_inject", "c05_never_changes", "c05_all_files_frozen", "c05_success_means_installed"], "Includes restarts after crashes.")
claim("C06", "proved", ["c06_pivot_write_once", "c06_manifest_only_grows", "c06_manifest_only_grows_without_faults"], "Under an I/O fault in the middle of recording an approval the manifest file may be spoiled; then the enclave is dead (c06_manifest_only_grows says exactly this; see C18).")
claim("C07", "proved", ["c07_accepted_boot"], "")
claim("C08", "proved", ["c08_approvals_sound"], "")
claim("C09", "proved", ["c09_approvals_complete", "c09_order_and_shares_irrelevant"], "Completeness assumes no sha256 collision among the set's members, as the code compares member hashes.")
claim("C10", "proved", ["c10_zero_threshold_needs_no_approval", "c10_positive_threshold_rejects_empty"], "Negative property, proved as stated.")
claim("C11", "proved", ["c11_threshold_of_accepted_shares", "c11_recorded_share_approvals"], "")
claim("C12", "proved", ["c12_distinct_members_refuted", "c92_the_approval_makes_no_difference", "c11_recorded_share_approvals"], "Negative: the intended property is refuted by a run, and for every history the member whose approval comes with a share is shown to be irrelevant.")
claim("C13", "proved", ["c13_failure_is_fatal", "c13_failure_leaves_no_key", "c13_no_second_boot", "c13_error_means_no_key_refuted","c13_key_despite_error_exactly"], "Fatal always; key-less proved without I/O faults and refuted with a fault of the final chmod; with faults, that is proved to be the only exception (c13_key_despite_error_exactly).")
claim("C14", "proved", ["c14_locked_before_any_file"], "Any device behaviour.")
claim("C15", "proved", ["c15_live_key_in_place", "c15_rotated_before_key"], "")
claim("C16", "proved", ["c16_pivot_started_only_on_consistent_boot", "c16_reaper_never_panics", "c16_nul_argument_is_never_started"], "The reaper observes arbitrary moments of an arbitrary history.")
claim("C17", "proved", ["c17_all_or_nothing", "c17_publications", "c17_key_world_readable", "c17_every_publication_readable"], "Every prefix of the write and every fault.")
claim("C18", "proved", ["c18_every_boot_exposes_every_prefix", "c18_every_provision_exposes_a_broken_manifest", "c18_pivot_not_atomic", "c18_manifest_not_atomic"], "Universal over accepted requests and prefix lengths; the last two are concrete reachable histories.")
claim("C19", "proved", ["c19_export_conditions"], "")
claim("C20", "proved", ["c20_forwarding_round_trip"], "Hypotheses: decryption inverts encryption, own signatures verify, no I/O fault.")
claim("C21", "proved", ["c21_inject_accepts_only_the_key"], "")
claim("C22", "proved", ["c22_user_input_exact", "c22_against_manifest_exact", "c22_document_authentic_exact", "c22_timestamp_never_compared"], "COSE/X.509 parsing and signature checks are parameters.")
claim("C23", "proved", ["c23_syntax_exact", "c23_documented_bounds_refuted", "c23_documented_bounds_without_32"], "Exact for index bound 32; the documented bound [0,32) is refuted (off by one) and holds for documents without index 32.")
claim("C24", "proved", ["c24_commitment_binding", "c24_commitment_is_hash_of_text", "c24_register_binding"], "")
claim("C45", "proved", ["c45_never_at_most_once", "c45_always_restarts", "c45_always_never_finishes"], "")
claim("C46", "proved", ["c46_pivot_environment_delivered_refuted", "c46_environment_always_empty"], "Negative: the intended property is refuted, and the actual behaviour proved for every manifest and run.")
claim("C47", "proved", ["c47_bridges_as_configured"], "")
claim("C48", "proved", ["c48_resolv_conf_as_configured","c48_resolv_conf_reads_back"], "IPv4 and IPv6 resolvers; the file, read line by line, gives back exactly the configured addresses.")
claim("C25", "proved", ["c25_any_k_shares_reconstruct", "c25_shares_distinct", "c25_generate_refuses", "c25_reconstruct_refuses"], "GF(256) Shamir. vsss-rs itself is not in /repo: modelled from its documented behaviour, checked against the test vectors in /repo.")
claim("C26", "proved", ["c26_fewer_shares_hide"], "Coefficients assumed drawn from the whole field.")
claim("C27", "proved", ["c27_combinations_exactly", "c27_combinations_unless_panic", "c27_when_it_panics", "c27_up_to_65", "c27_degenerate", "c27_every_size_refuted"], "Exact, panics included (finding: no documented limit on the number of elements; c27_every_size_refuted: 34 of 68 divides by zero). Debug builds, where the factorials overflow with a panic from 21 elements on, are not modelled.")
claim("C34", "proved", ["c34_send_writes_the_frame", "c34_send_completes", "c34_recv_returns_the_payload", "c34_frames_in_order", "c34_truncated_is_an_error", "c34_oversized_header_refused", "c34_recv_sound"], "Every write and read split.")
claim("C35", "proved", ["c35_send_terminates_refuted", "c35_send_terminates_if_progress", "c35_send_terminates_unless_stalled", "c35_stalled_never_ends"], "The intended property is false of the code (finding, Ok(0) writes): exactly the stalled kernels keep it from ending.")
claim("C36","proved",["c36_always_answers","c36_refusals_change_nothing","c36_answer_in_request_encoding","c36_bytes_stay_in_histories","c36_concurrent_requests_are_sequential","c36_one_request_at_a_time"],"Concurrency: tasks interleave arbitrarily around the RwLock write guard; handling reads the state when the lock is taken and commits later.")
claim("C37","proved",["c37_refuted_no_borsh_boot_forward_or_export","c37_refuted_what_is_written_is_refused","c37_other_borsh_messages_round_trip","c37_json_messages_round_trip"],"The intended property is false of the code (finding): boot-standard, boot-key-forward and export-key requests can never be decoded from Borsh. Proved: the refutation for all byte strings, and the round trip of every other non-genesis message.")
claim("C49","proved",["c49_refuted_declared_v2_read_as_v1","c49_declared_without_patch_set_is_v2","c37_json_messages_round_trip"],"The intended property is false of the code (finding); the first theorem exhibits an accepted request. Proved: a request is read as an older schema despite its version only if its manifest also has a patchSet, the field V2 lacks; and what a client writes for a V2 envelope is read back as that envelope.")
claim("C50","proved",["c50_encodings_disjoint"],"")
claim("C42","proved",["c42_vsock_sequence","c42_unix_sequence","c42_distinct","c42_expand_monotone_idempotent","c42_expand_is_new","c42_listen_adds_no_streams","c42_refuted_failed_listen_can_be_retried"],"Findings: listen_to adds no stream handles, and an address whose bind failed is skipped by a retry.")
claim("C43","proved",["c43_never_over_the_limit","c43_freed_permits_reusable","c43_full_means_closed","c43_drop_stops_accepting","c43_refuted_drop_stops_service"],"Finding: dropping the server aborts the accept loops only; connections already accepted go on being served.")
claim("C44","proved",["c44_accepts_exactly","c44_values_read_back","c44_reading_unique","c44_help_short_circuits","c44_version_short_circuits","c44_never_panics","c44_options_drop_the_binary_name","c44_options_without_binary_name","c44_command_parses_the_rest","c44_command_missing_or_unknown"],"Note: flag() of a registered but absent flag returns None, contrary to its doc comment.")
claim("C51","proved",["c51_runs_as_told","c51_default_files_distinct","c51_refuted_files_always_distinct"],"Finding: colliding file names given by the operator are accepted.")
claim("C52","proved",["c52_app_sockets_distinct","c52_app_socket_is_not_the_base"],"")
claim("C53","proved",["c53_one_answer_per_request_in_order"],"")
claim("C40","proved",["c40_genesis_output_faithful","c40_threshold_of_members_recover_the_key","c40_fewer_members_learn_nothing","c40_genesis_served_iff"],"Relative to stated laws: decryption inverts encryption, signatures verify, the sharing is the one of C25/C26.")
claim("C41","proved",["c41_public_key_layout","c41_public_key_round_trip","c41_public_key_refusals","c41_pair_public_key_reads_back","c41_pair_is_derived","c41_generate_is_a_random_seed","c41_saved_pair_reads_back","c41_aad_determines_parties","c41_decrypt_follows_the_format","c41_envelope_one_reading","c41_decrypts_what_was_encrypted","c41_encrypts_what_fits","c41_aes_follows_the_format","c41_aes_round_trip","c41_signatures_verify","c41_protocol_keys_lawful"],"Curve, HMAC, HKDF, AES-GCM and ECDSA are abstract primitives with stated laws.")
claim("C54","proved",["c54_honest_provisioning_completes","c54_threshold_below_two_never_provisions"],"liveness: any threshold distinct honest shares, any order, mixed with any other requests; and the limit case threshold < 2")
claim("C55","proved",["c55_only_own_requests","c55_answer_is_own_attestation"],"")
claim("C56","proved",["c56_one_question","c56_all_questions","c56_order","c56_silence","c56_no"],"")
claim("C57","proved",["c57_approve_iff","c57_asked_about","c57_signed","c57_same_manifest","c57_environment_refuted"],"Finding: the pivot's environment variables of a V2 manifest are neither shown nor checked, so the last sentence holds only up to the environment (c57_same_manifest) and is refuted in full (c57_environment_refuted); everything else is proved.")
claim("C58","proved",["c58_reencrypt_sound","c58_reencrypt_complete","c58_honest_request","c58_holders_provision_the_enclave"],"COSE/X.509 checks are parameters.")
claim("C60","proved",["c60_v1_iff","c60_v2_iff","c60_complete","c60_reads_back","c60_approvable"],"")
claim("C61","proved",["c61_envelope_sound","c61_reads_back","c61_envelope_complete","c61_collects_what_was_approved"],"")
claim("C62","proved",["c62_manifest_or_share_set","c62_genesis_set","c62_patch_set","c62_any_order","c62_unique"],"")
claim("C59","proved",["c59_accept_iff","c59_after_iff","c59_verify_iff","c59_endorsed_is_a_ceremony","c59_keyless_document_is_a_ceremony","c59_honest_ceremony_accepted","c59_boot_document_passes_for_genesis"],"Finding: the last sentence is refuted (c59_boot_document_passes_for_genesis): manifest hashes (V0/V1) and genesis-output hashes are SHA-256 of undelimited Borsh without a domain tag, and the client does not check that the document carries no public key, so the boot document of an enclave running an attacker-approved manifest passes for a genesis. Proved for documents without a key (c59_keyless_document_is_a_ceremony) up to hash collisions, and in general up to exactly that case (c59_endorsed_is_a_ceremony).")
claim("C63","proved",["c63_commands_act_at_most_once","c63_undisturbed_commands_succeed","c63_refuted_boot_reports_the_enclaves_refusal"],"Findings: boot-standard's second attempt (legacy Borsh request) can never be read by this enclave, and its failure is what is reported, so the enclave's reason for refusing a boot is never shown (third theorem); the host accepts bodies of up to 256 MiB of which the stream can carry only 128 MiB.")
claim("C64","proved",["c64_approved_boot_succeeds"],"The device is any security module meeting the stated laws.")
claim("C65","proved",["c65_ceremonies_provision_the_key"],"Relative to the stated laws of the primitives and the device, without I/O faults.")
claim("C66","proved",["c66_answers_are_to_the_callers_own_request","c66_reads_exactly_one_message","c66_served_in_real_time_order","c66_refuted_a_failed_call_has_no_later_effect"],"The third theorem exhibits the last sentence of the statement: a call that timed out can still be processed, even after later calls.")
claim("C67","proved",["c67_streams_are_exclusive_and_never_leak","c67_a_waiting_call_gets_a_stream","c67_an_undisturbed_call_is_answered"],"")
claim("C68","proved",["c68_packets_are_delivered_whole","c68_every_packet_is_delivered","c68_a_cut_packet_is_not_delivered","c68_no_write_crosses_a_packet","c68_malformed_header_is_survived_refuted"],"Finding (last theorem): a header declaring length 0 (IPv4 total length 0, or IPv6 payload length 65496, whose sum with 40 wraps in 16 bits) makes pipe_frames loop forever without reading or writing. The header parser of etherparse is modelled from its documentation.")
claim("C69","proved",["c69_messages_decode_only_their_encodings","c69_connects_only_as_requested","c69_transparent_pipe","c69_told_connected_means_connected","c69_nothing_is_lost"],"The ten second limit (PROXY_CLIENT_TIMEOUT) covers the whole session, the pipe included: any connection is cut after ten seconds, in use or not; in the model a session may be cut anywhere. tokio's copy_bidirectional is modelled from its documentation.")
claim("C70","proved",["c70_resolvers_are_shared_exactly_by_configuration"],"Lock poisoning is not modelled.")
claim("C71","proved",["c71_health_tells_the_phase","c71_health_answers","c71_info_tells_the_truth","c71_reported_manifest_is_final","c71_info_answers","c71_info_is_readable","c71_refuted_info_is_a_snapshot"],"The last theorem exhibits the last sentence of the statement. The tracing output and the texts of the error bodies are not modelled; after a genesis ceremony the info route always fails (c71_info_answers).")
claim("C72","proved",["c72_bridge_uses_the_enclaves_manifest","c72_bridge_starts","c72_clients_reach_exactly_the_configured_ports","c72_at_most_one_egress","c72_relay_is_transparent","c72_every_listener_binds","c72_bridge_runs_to_the_end","c72_unix_control_socket_is_not_exposed","c72_refuted_override_serves_every_entry","c72_refuted_every_port_can_be_bridged","c72_refuted_control_socket_is_not_exposed"],"The last three theorems exhibit the limits named in the statement (findings). That connecting to a vsock cid and port reaches the listener on that port in that enclave, and the kernel's rule for conflicting listening addresses, are part of the model.")
claim("C73","proved",["c73_secrets_are_private","c73_sign_then_verify","c73_encrypt_then_decrypt","c73_split_then_reconstruct","c73_refuted_stale_shares_are_detected"],"Relative to the stated laws of the primitives. The last theorem exhibits the last sentence of the statement (finding).")
claim("C74","proved",["c74_borsh_is_never_json","c74_borsh_file_reads_back","c74_json_to_borsh","c74_json_to_borsh_succeeds","c74_displayed_json_reads_back","c74_refuted_v0_conversion_keeps_the_hash"],"The last theorem exhibits the last sentence of the statement (finding).")
claim("C75","proved",["c75_does_what_the_command_line_says","c75_unsafe_only_when_asked","c75_unknown_options_are_refused","c75_order_is_irrelevant","c75_pivot_args_exactly","c75_option_values","c75_options_that_cannot_be_given"],"The last theorem exhibits the limits named in the statement (findings). The printed help texts are not modelled.")
claim("C76","proved",["c76_signed_statements","c76_one_meaning","c76_always_answers","c76_speaks_for_the_manifest","c76_no_key_no_statement","c76_only_successes_attest","c76_command_line"],"Relative to the stated laws of the primitives; axum, ureq and the JSON body writer are modelled by their documented behaviour; a URL fetch is the environment's choice.")
claim("C77","proved",["c77_host_starts_as_told","c77_proxy_starts_as_told","c77_ingress_starts_as_told","c77_egress_starts_as_told","c77_client_reaches_the_host","c77_to_host_defaults_differ","c77_refuted_a_bad_override_is_refused"],"The last two theorems exhibit the limits named in the statement (findings). Help texts are not modelled.")
claim("C78","proved",["c78_success_is_real","c78_dev_boot_provisions"],"Relative to the stated laws of the primitives (second theorem). The attestation document is never verified by this command (skip = true): the first theorem therefore speaks of the enclave at the other end of the connection, whoever runs it.")
claim("C79","proved",["c79_signatures_verify","c79_sign_command","c79_decrypts_only_as_the_key_file","c79_decrypts_all_the_key_file_does","c79_provisioned_from_the_seed","c79_generated_key_is_the_published_one","c79_a_fresh_card_is_provisioned","c79_signs_with_the_right_pin"],"The PIV application on the card is modelled from its manual; the elliptic curve and DER are abstract, with the laws stated in prims_ok and card_laws.")
claim("C80","proved",["c80_use_changes_no_key","c80_needs_the_pin","c80_never_overwrites_without_faults","c80_half_provisioned_is_stuck","c80_reset_wipes","c80_refuted_provisioning_never_overwrites","c80_refuted_interrupted_provisioning_can_be_completed","c80_refuted_reset_success_means_reset"],"The first two sentences hold in full. The third is false of the code (findings): an error of the read that looks for a certificate counts as an empty slot, so a transient failure replaces a member's key (proved otherwise when no exchange fails); one lost exchange between the two slots leaves a card that no later run accepts; the reset ignores every error and reports success even if nothing was wiped (it does wipe a card with at most three PIN tries and a PIN other than 000000).")

claim("C81","proved",["c81_console_lines_are_logged","c81_chunking_is_invisible","c81_text_is_verbatim","c81_events_are_text","c81_replacements"],"Text that is not UTF-8 is shown as SpecReadable.v says: the Unicode standard's replacement rule, which String::from_utf8_lossy (standard library, not in /repo) documents.")
claim("C82","proved",["c82_launches_as_told","c82_starts_when_it_can","c82_health_is_the_first_enclaves","c82_refuted_exit_leaves_no_enclave"],"nitro-cli is the environment. Findings: a failed launch and a clean exit may leave an enclave running; only the first enclave described counts for the health answer.")
claim("C83","proved",["c83_serves_exactly_when","c83_serves_only_with_hardware_entropy","c83_what_it_serves","c83_files_are_on_the_root","c83_mounts_are_restricted","c83_refuted_entropy_failure_stops_the_boot"],"The kernel is the environment. Findings: failed mounts, console, heartbeat and module insertion are ignored; a failed power-off lets the boot go on without the entropy check.")

claim("C84","proved",["c84_registers_tell_their_history","c84_answers","c84_documents_show_the_registers","c84_boot_commits","c84_commits_once","c84_documents_verify","c84_refuted_any_accepted_seed_will_do"],"COSE signing is a parameter with the law that the document reads back; the mock_realtime clock is not modelled.")
claim("C85","proved",["c85_seed_file"],"The value is read by qos_hex's decoder (see C33 for its exact language); numbers may carry a leading plus sign.")
claim("C86","proved",["c86_conversions_lose_nothing","c86_requests_are_told_apart","c86_wrapper_is_transparent"],"The device and the document reader are parameters.")
claim("C87","proved",["c87_others_never_read_the_secret","c87_secret_goes_to_own_private_file","c87_success_means_written","c87_refuted_existing_readable_file","c87_refuted_root_in_shared_directory"],"Any number of other users interleaved with the program; links and directories with other rules are not modelled. The two limits named in the statement are theorems.")
claim("C88","proved",["c88_writes_the_documents_key","c88_encrypting_to_the_extracted_key","c88_refuted_document_is_verified"],"The encryption scheme is a parameter with the round-trip law (crypto_ok).")
claim("C89","proved",["c89_every_key_has_a_lineage","c89_rooted_in_shares"],"Hypotheses: enclaves draw different ephemeral keys (own_keys), no hash collision among the manifests in play (no_collision), a ciphertext opens with no key but its addressee's (only_addressee), and an authentic document with this code's PCR0-3 was signed by the module of an enclave of the fleet (hardware_honest, for export requests only). c89_nontrivial is a forwarding between two enclaves of a toy fleet.")
claim("C90","proved",["c90_no_other_answer_depends_on_secrets","c90_a_share_shows_only_its_fate","c90_a_forwarded_key_shows_only_its_fate"],"Two-run (relational) theorems. Timing, memory and the text inside a vsss error (modelled as one constant) are outside the model.")
claim("C91","proved",["c91_a_hash_is_for_one_manifest","c91_what_an_approval_always_covers","c91_refuted_an_approval_covers_the_arguments","c91_a_borsh_envelope_has_no_twin"],"The exception stated as a limit in the property is proved of a whole family of manifests. In that family the version 0 argument holds NUL bytes, so its pivot cannot be started (C16): the usable direction is approving version 0 and booting version 1.")
claim("C92","proved",["c92_the_approval_makes_no_difference","c92_refuted_a_share_approval_is_given_for_the_share"],"Two-run theorems by induction on histories. The second is the limit stated in the property, for every booted manifest whose two sets share an approver.")
claim("C93","proved",["c93_any_layout_is_read","c93_manifest_in_any_order","c93_envelope_in_any_order","c93_message_in_any_order","c93_client_input_in_any_order"],
 "SpecLayout.v defines the texts of a JSON value (any white space, any escapes, surrogate pairs) and reordering, independently of the parser. Integers are spelled in their one decimal form and float tokens do not occur in the documents compared; serde_json itself is modelled (Json.v), not verified.")
claim("C94","proved",["c94_numbers_exactly","c94_one_reading"],
 "At the level of the JSON value (js_uint, the decoder of every number field); C93 gives the step from text to value. serde_json's tokenising of numbers is modelled in Json.v.")
claim("C95","proved",["c95_manifest_documents","c95_envelope_documents","c95_no_member_twice_none_unknown"],
 "SpecMeaning.v is the reading of a document, member by member, as relations; the theorems are equivalences with the decoders behind try_from_slice_compat. 125 and 124 are how deep a bridge entry may nest inside a manifest and an envelope (serde_json's limit of 128). Hex is read by the grammar stated in SpecMeaning.v and addresses by that of SpecIp (C97), not by the decoders.")
claim("C97","proved",["c97_address_read","c97_one_meaning","c97_resolvers_option","c97_address_written","c97_one_written_form","c97_written_is_read","c97_resolv_conf_text"],
 "The grammar is SpecIp.v, which shares nothing with the reader. The reader models std::net's parser (the standard library is not in /repo); Display likewise.")
claim("C96","proved",["c96_manifest_bytes","c96_digests","c96_message_written","c96_message_read","c96_proxy_message","c96_ciphertext_bytes"],
 "SpecBorsh.v gives the layout as plain functions with literal numbers, not through the codec combinators. The Borsh crate itself is not in /repo: its format is that of its specification. Messages left out of c96_message_read hold an envelope, whose decoder tries two schemas (C29, C37, C49), or the module's register set, which is read in any order.")
claim("C98","proved",["c98_enclave_launches","c98_host_launches","c98_enclave_gives_way","c98_host_gives_way","c98_refuted_host_starts_again_when_a_direction_fails"],
 "The launched command lines are run through the program's own command line (C77). std::thread::scope waits for every thread of it, also when its closure panics: that is the standard library's documented behaviour, modelled in EgressRun.v. When a direction fails is the environment's choice here; what it carries before that is C68.")
claim("C99","proved",["c99_serves_exactly_when","c99_set_up_before_serving","c99_stops_at_the_first_failure","c99_nothing_else_changes","c99_names_of_interfaces","c99_the_program_opens_it"],
 "The words of the commands are literal in the specification; what the ip program does with them is the environment, and an outcome depends on the command only (all six differ).")
claim("C100","proved",["c100_taken_by_a_listener_of_that_path","c100_a_dropped_listener_is_never_reached","c100_a_new_listener_is_reached","c100_opened_exactly_when","c100_every_socket_of_a_pool_is_reached","c100_refuted_reached_until_dropped","c100_refuted_other_files_are_kept"],
 "Paths are compared as written: symbolic links and other spellings of one path are not modelled. Another program's socket counts as any other file.")
