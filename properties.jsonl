{"id": "C01", "title": "Phase only moves along the documented edges; error and genesis phases are terminal", "statement": "After any sequence of requests the enclave's reported phase (StatusResponse) is one reachable from WaitingForBootInstruction by the edges: boot -> {GenesisBooted, WaitingForQuorumShards, WaitingForForwardedKey, UnrecoverableError}; WaitingForQuorumShards/WaitingForForwardedKey -> {QuorumKeyProvisioned, UnrecoverableError}. One request moves the phase by at most one edge. Once GenesisBooted, UnrecoverableError or QuorumKeyProvisioned has been reached the phase never changes again.", "quantifier": "every finite request history, every NSM behaviour, every I/O fault schedule, every randomness", "why_tests_cant": "a test samples a few histories; terminality is a statement about all continuations", "anchors": ["src/qos_core/src/protocol/state.rs: ProtocolState::transition, routes, ProtocolRoute::try_msg, handle_msg_response"]}
{"id": "C02", "title": "A request that the current phase does not serve is refused without any effect", "statement": "If the current phase has no route for a request, the response is ProtocolErrorResponse(NoMatchingRoute(phase)) and nothing changes: phase, files, pending key, collected shares, NSM state. In particular boot requests are refused after a boot, provision outside WaitingForQuorumShards, inject outside WaitingForForwardedKey, export outside QuorumKeyProvisioned, and response-type messages everywhere.", "quantifier": "every state, every message", "why_tests_cant": "tests enumerate a handful of phase/message pairs and cannot check that no hidden state moved", "anchors": ["src/qos_core/src/protocol/state.rs: routes, handle_msg_response"]}
{"id": "C03", "title": "Read-only requests have no effect on keys, files or phase", "statement": "Status, version, manifest-envelope, live-attestation and export-key requests never change the phase, the file system, the collected shares or the pending live key, whatever they return (success or error).", "quantifier": "every reachable state and every such request", "why_tests_cant": "absence of side effects must hold for all states", "anchors": ["src/qos_core/src/protocol/state.rs: handlers", "src/qos_core/src/protocol/services/key.rs: export_key", "src/qos_core/src/protocol/services/attestation.rs: live_attestation_doc"]}
{"id": "C04", "title": "The installed quorum key is always the one the booted manifest names", "statement": "At every moment of every history at which a quorum key file exists, it holds a 32-byte master seed whose public key equals the namespace quorum key of the stored manifest envelope.", "quantifier": "every history, every intermediate file-system state inside a request, every I/O fault schedule", "why_tests_cant": "depends on all interleavings of shares, faults and errors", "anchors": ["src/qos_core/src/protocol/services/provision.rs: provision", "src/qos_core/src/protocol/services/key.rs: inject_key", "src/qos_core/src/handles.rs: put_quorum_key"]}
{"id": "C05", "title": "Quorum key appears only through a successful provision or inject, and then never changes", "statement": "The quorum key file is absent until a ProvisionRequest or InjectKeyRequest reaches its final step; its content never changes afterwards; and a response claiming success (ProvisionResponse{reconstructed:true} / InjectKeyResponse) is returned only if the key is installed.", "quantifier": "every history and fault schedule", "why_tests_cant": "universally quantified over request sequences", "anchors": ["src/qos_core/src/protocol/services/provision.rs: provision", "src/qos_core/src/protocol/services/key.rs: inject_key"]}
{"id": "C06", "title": "Boot artefacts are write-once", "statement": "Pivot binary and manifest, once stored by a boot, are never replaced by later requests: the pivot bytes stay identical and the manifest envelope only changes by appending share-set approvals (same manifest, same manifest-set approvals, earlier share approvals kept in order).", "quantifier": "every history after the first accepted boot", "why_tests_cant": "needs induction over all later requests", "anchors": ["src/qos_core/src/handles.rs: put_pivot, put_manifest_envelope, mutate_manifest_envelope", "src/qos_core/src/protocol/services/provision.rs"]}
{"id": "C07", "title": "An accepted boot stores exactly what was approved", "statement": "If a standard or key-forward boot succeeds then the envelope had at least threshold valid approvals from distinct manifest-set members, carried no share-set approvals, sha256(pivot) equals the manifest pivot hash, and the stored envelope and pivot are exactly the requested ones.", "quantifier": "every boot request (all envelopes of all manifest versions, all pivots) in every state", "why_tests_cant": "input space is unbounded", "anchors": ["src/qos_core/src/protocol/services/boot.rs: put_manifest_and_pivot, boot_standard", "src/qos_core/src/protocol/services/key.rs: boot_key_forward"]}
{"id": "C08", "title": "Approval checking is sound: K distinct members really signed", "statement": "check_approvals accepts only if there are at least `threshold` approvals in the list coming from pairwise distinct manifest-set members with pairwise distinct aliases, signing keys and encryption keys, every approval in the list is by a set member and carries a signature that verifies over the manifest hash under that member's key.", "quantifier": "every envelope and approval list", "why_tests_cant": "all list lengths, orders, duplicates, malformed keys", "anchors": ["src/qos_core/src/protocol/services/boot/manifest.rs: VersionedManifestEnvelope::check_approvals", "src/qos_core/src/protocol/services/boot.rs: ensure_unique_members, ManifestEnvelope::check_approvals"]}
{"id": "C09", "title": "Approval checking is complete and independent of approval order", "statement": "If the manifest set has unique valid members and the approvals are valid signatures by at least threshold distinct members with no repetition, check_approvals accepts (barring sha256 collisions between members); permuting the approvals never changes acceptance; the verdict does not depend on share-set approvals.", "quantifier": "every envelope", "why_tests_cant": "all permutations and sizes", "anchors": ["src/qos_core/src/protocol/services/boot/manifest.rs: check_approvals"]}
{"id": "C10", "title": "A zero threshold disables manifest approval", "statement": "Negative property (documented hazard): a manifest whose manifest-set threshold is 0 is accepted with no approvals at all; for positive thresholds an empty approval list is always rejected.", "quantifier": "every manifest", "why_tests_cant": "quantifies over all manifests", "anchors": ["src/qos_core/src/protocol/services/boot/manifest.rs: check_approvals"]}
{"id": "C11", "title": "Provisioning needs at least threshold accepted shares", "statement": "The quorum key is never provisioned through shares before at least max(1,threshold) ProvisionRequests have been accepted since boot, each with a valid signature of the booted manifest's hash by a share-set member and a share that decrypts under the boot ephemeral key; each earlier request answers reconstructed:false and leaves the phase unchanged.", "quantifier": "every history", "why_tests_cant": "all sequences of good and bad requests", "anchors": ["src/qos_core/src/protocol/services/provision.rs: provision, SecretBuilder"]}
{"id": "C12", "title": "Provisioning does not need distinct members (negative)", "statement": "Negative property. Intended: the K shares come from K distinct share-set members. The code has no such check: a key can be installed with all approvals by one member, and whichever member's valid approval comes with each share makes no difference to any answer, to the phase or to the keys. What holds: every recorded share approval is by a share-set member over the booted manifest, and there are at least K of them.", "quantifier": "every history", "why_tests_cant": "needs a universal statement or a counterexample history", "anchors": ["src/qos_core/src/protocol/services/provision.rs: provision"]}
{"id": "C13", "title": "A failed boot, provision or inject is fatal and key-less forever", "statement": "If a boot, provision or inject request is answered with an error the enclave is UnrecoverableError for good, and no later request changes any file, boots again or installs a quorum key. The failed request itself leaves the quorum key file as it was, always if no I/O operation fails, and otherwise except in exactly one case: the last chmod of the publication fails, and then the complete key is installed despite the reported error (finding).", "quantifier": "every history", "why_tests_cant": "statement about all continuations", "anchors": ["src/qos_core/src/protocol/state.rs: err_phase", "src/qos_core/src/protocol/services/*"]}
{"id": "C14", "title": "PCR bank is committed and locked before any boot file is published", "statement": "When a boot (standard or key-forward) has written any of ephemeral key, pivot, manifest, the NSM has reported every PCR locked, PCR16 equal to extend(0, commitment(setup, manifest hash, setup ephemeral key)) and PCR17 equal to extend(0, commitment(live, manifest hash, live ephemeral key)), where the setup key is the ephemeral key that was written and the live key the one later rotated in. If the NSM refuses or misreports, no file is written.", "quantifier": "every NSM behaviour, every fault schedule, every request history", "why_tests_cant": "NSM misbehaviour and crash points cannot be enumerated by tests", "anchors": ["src/qos_core/src/protocol/services/attestation.rs: lock_manifest_commitment_pcr_bank", "src/qos_core/src/protocol/services/boot.rs: put_manifest_and_pivot"]}
{"id": "C15", "title": "Ephemeral key is rotated before the quorum key becomes visible", "statement": "At every moment the quorum key file exists, the ephemeral key file holds the live key committed at boot, not the setup key used as encryption target for shares or forwarded keys.", "quantifier": "every intermediate file-system state of every history", "why_tests_cant": "crash points and observers between file operations", "anchors": ["src/qos_core/src/protocol/services/provision.rs", "src/qos_core/src/protocol/services/key.rs: inject_key", "src/qos_core/src/handles.rs: rotate_ephemeral_key"]}
{"id": "C16", "title": "Pivot starts only on a complete, consistent boot", "statement": "The reaper launches the pivot only when quorum key, pivot and manifest files all exist; whenever it does, in every history and at every intermediate point, the manifest file decodes, the pivot file content hashes to the manifest's pivot hash and the quorum key matches the manifest. With startable arguments, free ports and an egress build it never panics. Limit: nothing refuses an argument with a NUL byte at build, approval or boot, and the pivot of such a manifest is never started.", "quantifier": "every history and every observation instant", "why_tests_cant": "concurrent observer at any instant", "anchors": ["src/qos_core/src/reaper.rs: Reaper::execute", "src/qos_core/src/protocol/services/provision.rs", "src/qos_core/src/reaper.rs: Command::new(..).args(..).spawn().expect"]}
{"id": "C17", "title": "Read-only writes are crash-atomic", "statement": "Publishing the ephemeral key, quorum key or manifest is all-or-nothing under a crash or I/O error at any point: an observer of the destination path sees either no file or the complete content.", "quantifier": "every crash point, every partial write", "why_tests_cant": "tests cannot stop at every instruction", "anchors": ["src/qos_core/src/handles.rs: write_as_read_only"]}
{"id": "C18", "title": "Pivot and manifest mutation are not crash-atomic", "statement": "Negative property: the pivot and the amended manifest are written in place, so every accepted boot passes through every prefix of the pivot at its final path, and every accepted provision request passes through every prefix of the amended manifest at its final path, the empty one (no manifest at all) among them: a crash there leaves a truncated pivot or an undecodable manifest.", "quantifier": "every enclave state, every accepted boot or provision request, every prefix length", "why_tests_cant": "needs a specific crash instant", "anchors": ["src/qos_core/src/handles.rs: put_pivot, mutate_manifest_envelope"]}
{"id": "C19", "title": "Key export conditions", "statement": "ExportKeyRequest succeeds only if: the attestation document passed chain, signature and syntax validation; the new manifest has a valid quorum of approvals and no share approvals; quorum key, namespace name, manifest set (threshold and members up to order) and PCR3 are equal to the local manifest's; the new nonce is not lower, and if equal the manifest hash is equal; the document's user_data is the new manifest's hash, nonce absent, PCR0-3 match the new manifest, PCR16 commits to the new manifest's hash and the attested public key. The returned ciphertext is the local quorum seed encrypted to the attested key and signed by the quorum key.", "quantifier": "every request in every state", "why_tests_cant": "unbounded inputs", "anchors": ["src/qos_core/src/protocol/services/key.rs: export_key, export_key_internal, validate_manifest"]}
{"id": "C20", "title": "Key forwarding round trip", "statement": "If an enclave in QuorumKeyProvisioned exports to a key-forward-booted enclave whose attested ephemeral key is its setup key and whose manifest names the same quorum key, then injecting the exported message installs the same quorum key and both enclaves end QuorumKeyProvisioned (given correct encryption/signature primitives and no I/O fault).", "quantifier": "all pairs of reachable enclave states satisfying the premise", "why_tests_cant": "two-party protocol over all states", "anchors": ["src/qos_core/src/protocol/services/key.rs: export_key, inject_key"]}
{"id": "C21", "title": "Injection accepts only the manifest's quorum key", "statement": "InjectKeyRequest succeeds only when the ciphertext is signed by the manifest's quorum key and decrypts to a seed whose public key is exactly that key.", "quantifier": "every request and state", "why_tests_cant": "unbounded inputs", "anchors": ["src/qos_core/src/protocol/services/key.rs: inject_key"]}
{"id": "C22", "title": "Attestation document verification against manifest", "statement": "verify_attestation_doc_against_user_input / _manifest_setup / _manifest_live accept exactly the documents whose user_data, PCR0-3 are present and equal, nonce is absent and (manifest variants) all PCR 0..31 are present and the commitment PCR has the expected value for the attested public key.", "quantifier": "every document and every expected value", "why_tests_cant": "all documents", "anchors": ["src/qos_nsm/src/nitro/mod.rs: verify_attestation_doc_against_user_input, verify_attestation_doc_manifest_commitment"]}
{"id": "C23", "title": "Attestation syntactic validation accepts exactly the documented bounds", "statement": "The syntactic validators accept exactly: non-empty module id; digest SHA384; non-zero timestamp; 1..=32 PCRs with index in 0..=32 and length 32/48/64; non-empty cabundle with entries of 1..=1024 bytes; public key 1..=1024; user_data and nonce at most 512. (AWS documents the index range as [0,32): off by one, a finding; for documents without index 32 the documented bounds are met exactly.)", "quantifier": "every document", "why_tests_cant": "boundary values everywhere", "anchors": ["src/qos_nsm/src/nitro/syntactic_validation.rs"]}
{"id": "C24", "title": "PCR commitments bind kind, manifest hash and key", "statement": "Setup and live commitment preimages are injective in (kind, manifest hash, public key): equal preimages imply equal kind, hash and key.", "quantifier": "all byte strings", "why_tests_cant": "injectivity over all inputs", "anchors": ["src/qos_nsm/src/nitro/mod.rs: manifest_pcr_commitment"]}
{"id": "C25", "title": "Shamir: any K of N shares reconstruct, in any order", "statement": "For every secret and 2<=K<=N<=255 (as accepted by shares_generate) any K or more distinct shares, in any order, reconstruct exactly the secret.", "quantifier": "every secret, every polynomial randomness, every subset and order", "why_tests_cant": "exponentially many subsets", "anchors": ["src/qos_crypto/src/shamir.rs: shares_generate, shares_reconstruct"]}
{"id": "C26", "title": "Shamir: fewer than K shares reveal nothing", "statement": "For any K-1 distinct share indices and every candidate secret of the same length there is exactly one choice of randomness giving the same K-1 share values.", "quantifier": "every secret pair, every K-1 indices", "why_tests_cant": "information-theoretic statement", "anchors": ["src/qos_crypto/src/shamir.rs"]}
{"id": "C27", "title": "Combinations helper enumerates exactly the k-subsets", "statement": "combinations(input,k), for 1<=k<=n, returns each k-element sub-sequence of the input exactly once and only those, unless 2^64 divides k!(n-k)!, in which case (release build) it panics dividing by zero: never for up to 65 elements, always from 71 on. For k=0 or k>n it returns nothing. (The helper's documentation knows no such limit.)", "quantifier": "every input, every k", "why_tests_cant": "combinatorial explosion", "anchors": ["src/qos_crypto/src/n_choose_k.rs"]}
{"id": "C28", "title": "Borsh codec is a canonical bijection", "statement": "For every protocol type encode/decode round-trips, decoding accepts only canonical encodings (decode bs = v implies bs = encode v), and distinct values have distinct encodings, so approvals and hashes bind the full manifest.", "quantifier": "every value and byte string", "why_tests_cant": "all nested values", "anchors": ["src/qos_core/src/protocol/services/boot.rs: derives", "src/qos_core/src/protocol/mod.rs: QosHash"]}
{"id": "C29", "title": "V1/V0 Borsh manifests are never confused", "statement": "decode_borsh returns a manifest of a version only if the bytes are exactly that version's encoding and not also an encoding of the other version; ambiguous bytes are rejected.", "quantifier": "every byte string", "why_tests_cant": "all byte strings", "anchors": ["src/qos_core/src/protocol/services/boot.rs: decode_borsh"]}
{"id": "C30", "title": "Manifest storage round trip", "statement": "For every envelope (V0, V1, V2) the stored file decodes to exactly the same envelope of the same version.", "quantifier": "every envelope", "why_tests_cant": "all nested values and strings including escapes", "anchors": ["src/qos_core/src/protocol/services/boot/manifest.rs: to_storage_vec, try_from_slice_compat"]}
{"id": "C31", "title": "A declared manifest version never falls back to a legacy schema", "statement": "Intended: a stored JSON document whose manifest carries a `version` member is read as a V2 manifest or refused. This holds for every document that serde_json's generic reader accepts, and what is read as V2 always declares v2. It is false beyond (finding): the version probe uses the generic reader and the legacy decoders a laxer one, so a document with, say, an unpaired surrogate in an unknown member is read as V1 although it declares v2.", "quantifier": "every byte string", "why_tests_cant": "all JSON documents", "anchors": ["src/qos_core/src/protocol/services/boot/manifest.rs: try_from_slice_compat"]}
{"id": "C32", "title": "Canonical JSON is canonical", "statement": "qos_json::to_vec gives equal bytes for values that differ only in object key order, null members, repeated members (the last counts) or integer spelling, and different bytes otherwise; its output parses back to the normalised value. What it writes is exactly the compact text of a value in canonical form: no numbers (integers are decimal strings), no null members, the members of every object strictly ascending by UTF-16 code units; a value with a floating point number is refused.", "quantifier": "every JSON value", "why_tests_cant": "all values, strings, key orders", "anchors": ["src/qos_json/src/lib.rs"]}
{"id": "C33", "title": "Hex codec", "statement": "decode(encode(b)) = b for every byte string below the size cap, with and without the 0x prefix; encode emits lowercase of double length; decode accepts exactly the optionally 0x-prefixed texts of pairs below the cap, each pair two hex digits, or (finding) a plus sign and one hex digit: without plus signs, exactly the even-length hex strings.", "quantifier": "every byte string / every ASCII string", "why_tests_cant": "all inputs", "anchors": ["src/qos_hex/src/lib.rs"]}
{"id": "C34", "title": "Length-delimited framing survives any fragmentation", "statement": "For every payload up to 128 MiB and every way the kernel splits writes and reads, recv returns exactly the sent payload, consumes exactly the frame, and back-to-back frames are received in order; larger payloads are refused by both sides; a truncated frame is an error, never a short message.", "quantifier": "every payload, write split, read split, frame sequence", "why_tests_cant": "all schedules", "anchors": ["src/qos_core/src/io/stream.rs: send, recv"]}
{"id": "C35", "title": "Send loop termination", "statement": "Intended: send terminates for every kernel behaviour. It does for every kernel that does not, from some point on, accept zero bytes for ever, and against one that does so before the frame is through it never ends (finding).", "quantifier": "every kernel write behaviour", "why_tests_cant": "liveness over infinite behaviours", "anchors": ["src/qos_core/src/io/stream.rs"]}
{"id": "C36", "title": "Processor answers every byte string, in the request's encoding, and serialises requests", "statement": "For every request byte string the processor returns exactly one response; undecodable or oversize requests do not change state; the response uses the request's encoding (JSON error fallback); Borsh genesis requests are refused without touching the state; concurrent requests are equivalent to some sequential order.", "quantifier": "every byte string, every interleaving", "why_tests_cant": "unbounded inputs", "anchors": ["src/qos_core/src/protocol/processor.rs", "src/qos_core/src/protocol/msg.rs: from_wire, to_wire"]}
{"id": "C37", "title": "Legacy Borsh requests remain decodable", "statement": "Intended (doc of from_wire): every non-genesis legacy Borsh message with a V0/V1 manifest is accepted. So it is for every message but three: BootStandardRequest, BootKeyForwardRequest and ExportKeyRequest can never be decoded from Borsh, whatever the bytes, because the embedded envelope decoder consumes the rest of the message; what a client writes for them is refused (finding). All messages round-trip in JSON.", "quantifier": "every byte string", "why_tests_cant": "a test only samples", "anchors": ["src/qos_core/src/protocol/msg.rs: ProtocolMsg derive, from_wire", "src/qos_core/src/protocol/services/boot/manifest.rs: BorshDeserialize for VersionedManifestEnvelope"]}
{"id": "C38", "title": "Manifest builder", "statement": "ManifestBuilder::build fails exactly when a required field is missing or a field is not allowed for the chosen version, and otherwise yields a manifest of the requested version with exactly the supplied values and the documented defaults.", "quantifier": "every combination of builder calls", "why_tests_cant": "2^n combinations of optional fields and all values", "anchors": ["src/qos_core/src/protocol/services/boot/manifest/builder.rs"]}
{"id": "C39", "title": "Pivot environment limits", "statement": "Every PivotEnv value obtainable through the API has at most 512 variables with valid distinct names of 1..=1024 bytes and NUL-free values up to 64 KiB; a rejected insert leaves the map unchanged.", "quantifier": "every sequence of inserts and every decoded map", "why_tests_cant": "all sequences", "anchors": ["src/qos_core/src/protocol/services/boot/env.rs"]}
{"id": "C40", "title": "Genesis output is a faithful sharing of one fresh key", "statement": "A successful BootGenesisRequest yields one output per set member in order, each share encrypted to that member; any threshold of the shares reconstructs the seed whose public key is reported; request set and DR key are echoed; the attested user_data is the hash of the output; no quorum key file is written.", "quantifier": "every request", "why_tests_cant": "all member counts and thresholds", "anchors": ["src/qos_core/src/protocol/services/genesis.rs: boot_genesis"]}
{"id": "C41", "title": "P256 public key and envelope layout", "statement": "Public key bytes parse iff they are the concatenation of two valid 65-byte points, encode/parse round-trips; the AAD used in encryption determines sender and receiver; ciphertext envelopes round-trip.", "quantifier": "every byte string", "why_tests_cant": "all inputs", "anchors": ["src/qos_p256/src/lib.rs", "src/qos_p256/src/encrypt.rs"]}
{"id": "C42", "title": "Socket pool addresses are distinct and sequential", "statement": "A pool of n addresses built from a base contains n pairwise distinct addresses in sequence, and expand_to is idempotent and monotone.", "quantifier": "every base and n", "why_tests_cant": "all sizes", "anchors": ["src/qos_core/src/io/pool.rs"]}
{"id": "C43", "title": "Connection limit", "statement": "At no time does a listener serve more than its permit count of connections; every released permit is reusable.", "quantifier": "every interleaving of connects and disconnects", "why_tests_cant": "all schedules", "anchors": ["src/qos_core/src/server.rs"]}
{"id": "C44", "title": "CLI token parser", "statement": "Parsing succeeds only if required tokens are present, forbidden combinations absent, each single-valued flag given at most once, and every value read back is the one given (or the default); --help and --version short-circuit.", "quantifier": "every argument list and every token table", "why_tests_cant": "all argument orders", "anchors": ["src/qos_core/src/parser.rs"]}
{"id": "C45", "title": "Reaper restart policy", "statement": "With restart policy Never the pivot is run at most once; with Always it is restarted after every exit.", "quantifier": "every sequence of exits", "why_tests_cant": "infinite behaviour", "anchors": ["src/qos_core/src/reaper.rs"]}
{"id": "C46", "title": "Pivot environment is never delivered to the pivot (negative)", "statement": "Negative property. Intended: environment variables in the manifest reach the pivot process. The reaper clears the environment and never injects them: every pivot of every manifest is started with an empty environment.", "quantifier": "every manifest", "why_tests_cant": "universal over manifests", "anchors": ["src/qos_core/src/reaper.rs", "src/qos_core/src/protocol/services/boot/env.rs"]}
{"id": "C47", "title": "Bridges are started as configured, before the pivot", "statement": "Whenever the pivot is started, before it exactly one host bridge was started per Server entry of the booted manifest, in order, and one transparent egress exactly if there is a Client entry; none is started afterwards.", "quantifier": "every history, every observation schedule of the reaper, every manifest", "why_tests_cant": "universal over manifests and interleavings", "anchors": ["src/qos_core/src/reaper.rs: run_bridges, Reaper::execute"]}
{"id": "C48", "title": "resolv.conf is written iff DNS is configured", "statement": "Whenever the pivot is started, resolv.conf was written first if and only if the booted manifest configures DNS, with one nameserver line per resolver in order.", "quantifier": "every history and manifest", "why_tests_cant": "universal over manifests and interleavings", "anchors": ["src/qos_core/src/reaper.rs: resolv_conf_with_nameservers, Reaper::execute"]}
{"id": "C49", "title": "A manifest declaring a version is never read as an older schema", "statement": "Intended: a request whose JSON manifest declares version \"v2\" is accepted only as a V2 manifest (as the storage decoder enforces). On the wire this is false (finding): a request whose manifest declares \"v2\" but also has the V1 fields, and so fails the strict V2 decoder, is accepted as a V1 manifest. A request can be read as an older schema despite its version member only if its manifest also has a patchSet member, which V2 lacks; and what a client writes for a V2 envelope is read back as that envelope.", "quantifier": "every request byte string", "why_tests_cant": "quantifies over all JSON texts", "anchors": ["src/qos_core/src/protocol/services/boot/manifest.rs: VersionedManifestEnvelope (serde untagged), declares_a_version", "src/qos_core/src/protocol/msg.rs: from_wire"]}
{"id": "C50", "title": "The two wire encodings cannot be confused", "statement": "No byte string of at most 128 MiB is both a JSON text and a Borsh protocol message, so trying JSON first never changes the meaning of a Borsh request.", "quantifier": "every byte string within the request limit", "why_tests_cant": "unbounded inputs", "anchors": ["src/qos_core/src/protocol/msg.rs: from_wire"]}
{"id": "C51", "title": "The enclave's command line selects its files and socket", "statement": "An enclave process that starts serving uses exactly the quorum, pivot, ephemeral and manifest file names given on its command line (or the documented defaults) and listens on the one socket given (unix path, or vsock cid and port, never both); with the default names the files and their temporary files are pairwise distinct. (Refuted: that distinctness is enforced for names given by the operator.)", "quantifier": "every argument list", "why_tests_cant": "all orders and combinations of arguments", "anchors": ["src/qos_core/src/cli.rs: CLI::execute, EnclaveOpts", "src/qos_core/src/handles.rs"]}
{"id": "C52", "title": "Application sockets are distinct per port", "statement": "Deriving an application's socket address from the base address gives different addresses for different ports, and never the base address itself for unix sockets.", "quantifier": "every base address and every two ports", "why_tests_cant": "all addresses and ports", "anchors": ["src/qos_core/src/io/mod.rs: SocketAddress::with_port, next_address"]}
{"id": "C53", "title": "One answer per request, in order, per connection", "statement": "On every connection served by the socket server, the answers sent are the answers to a prefix of the requests received, in the order received, one each.", "quantifier": "every interleaving of connects, requests, answers, failures and drops", "why_tests_cant": "all schedules", "anchors": ["src/qos_core/src/server.rs: accept_loop, SocketServer"]}
{"id": "C54", "title": "Honest provisioning completes", "statement": "After an accepted standard boot, in a world without file-system faults, if threshold-many holders of distinct shares of the manifest's quorum key each post their share encrypted to the enclave's attested setup key with their own valid signature of the manifest, in any order and interleaved with any other requests, every post but the last is answered 'not reconstructed', the last one 'reconstructed', and the enclave ends provisioned with exactly the shared key. Conversely a share set with threshold below two can never provision.", "quantifier": "every reachable enclave, every manifest, every sharing polynomial, every subset of threshold distinct shares, every order and every interleaving with other requests", "why_tests_cant": "liveness over all subsets, orders and interleavings", "anchors": ["src/qos_core/src/protocol/services/provision.rs:provision", "src/qos_core/src/protocol/state.rs", "src/qos_crypto/src/shamir.rs"]}
{"id": "C55", "title": "Attestations only speak for the enclave's own manifest and key", "statement": "In every history, across requests, faults and restarts, the security module is never asked to attest anything but (hash of the manifest then on disk, public key of the ephemeral key then on disk) or (hash of the output of a genesis ceremony that was answered, no key), never with a caller's nonce; and the attestation inside every boot or live-attestation answer is the device's answer to exactly such a request about the manifest and ephemeral key on disk at that moment, which after a boot is the manifest just booted.", "quantifier": "every request sequence, fault schedule, crash point and security-module behaviour", "why_tests_cant": "absence of any other attestation request over all histories", "anchors": ["src/qos_core/src/protocol/services/attestation.rs", "src/qos_core/src/protocol/services/boot.rs:put_manifest_and_pivot", "src/qos_core/src/protocol/services/genesis.rs"]}
{"id": "C56", "title": "An operator's consent is explicit", "statement": "Every question the client asks is taken as confirmed exactly when the operator's next answers are at most two unrecognised ones followed by yes/Yes/YES/Y/y (up to Unicode white space); a list of questions is consented to exactly when every one is confirmed in turn, later questions are only put after all earlier ones were confirmed, a no before any yes refuses, and consent to n questions takes at least n bytes of input (silence or end of input never consents).", "quantifier": "every byte stream on standard input and every list of questions", "why_tests_cant": "arbitrary terminal input: invalid UTF-8, Unicode white space, missing newline, end of file at any point", "anchors": ["src/qos_client/src/cli/services.rs:Prompter", "src/qos_client/src/cli/services.rs:PromptConfirm"]}
{"id": "C57", "title": "Approving signs only what was shown and agrees with the operator's own files", "statement": "approve-manifest writes an approval exactly when the manifest file decodes to a manifest whose manifest, share and patch sets, PCRs, root certificate, pivot hash and quorum key are those of the operator's own files and the operator confirmed every displayed field; it then writes a signature with the operator's key over that manifest's hash. Two manifests approved with the same files and the same shown questions are the same manifest up to the pivot's environment variables, which are neither shown nor checked (finding: they may differ).", "quantifier": "every manifest file, key-set directory listing, release file, key file and terminal input", "why_tests_cant": "quantifies over all adversarial manifests that could be put before an approver; tests check a few", "anchors": ["src/qos_client/src/cli/services.rs:approve_manifest", "approve_manifest_programmatic_verifications", "approve_manifest_human_verifications"]}
{"id": "C58", "title": "Re-encrypting a share is only done for a genuine enclave running an approved manifest", "statement": "proxy-re-encrypt-share releases a share only when the attestation document is authentic for the manifest envelope's hash and PCRs, carries a public key, the envelope is approved by its manifest set, the operator is in the share set and has consented (or opted out); the share is encrypted to the attested key. Honest holders' outputs, posted in any order, provision the enclave.", "quantifier": "every attestation document, envelope, share file, alias and terminal input", "why_tests_cant": "security against every forged document or envelope, and end-to-end composition over all orders", "anchors": ["src/qos_client/src/cli/services.rs:proxy_re_encrypt_share", "post_share"]}
{"id": "C59", "title": "Genesis output accepted only from a genesis ceremony", "statement": "The coordinator accepts a genesis response exactly when it is about the set and recovery key asked for, has one output per member for members only, a valid quorum key, and a document of an enclave of the release about the hash of the whole output; a member takes out exactly the share under his alias and key, if it opens to what its hash says; verify-genesis accepts exactly the seed whose hash, signature and decryption match. An honest ceremony on a working device passes all of these, for every member, and short of a SHA-512 collision only its seed passes. If only enclaves of the release have documents with its measurements, whatever is accepted was the answer of a genesis ceremony of such an enclave, unless two outputs have the same hash, or (finding) the document carries a key and comes from an enclave of the release that booted a manifest with that hash, which an attacker can arrange; documents without a key are of a ceremony.", "quantifier": "every response, output, document, key file and release file; every history of the enclaves that can have produced the document", "why_tests_cant": "absence of any accepted output outside the ceremonies of all histories", "anchors": ["src/qos_client/src/cli/services.rs:boot_genesis", "after_genesis", "verify_genesis", "src/qos_core/src/protocol/services/genesis.rs"]}
{"id": "C60", "title": "A generated manifest says what the operator's inputs say", "statement": "generate-manifest writes a manifest exactly when the inputs are readable, and its every field is as the inputs say (V1 refuses DNS options, V2 refuses patch sets, V2's environment is empty); the file written reads back as that manifest, and a reviewer with the same files who confirms every question can approve it.", "quantifier": "every combination of input files and options", "why_tests_cant": "all combinations of directory contents and options; composition with the parser and the approver", "anchors": ["src/qos_client/src/cli/services.rs:generate_manifest", "generate_manifest_v2"]}
{"id": "C61", "title": "A manifest envelope collects only valid approvals", "statement": "generate-manifest-envelope writes an envelope exactly over the manifest in the file and the approval files in the directory, only when the manifest set's threshold of distinct members has signed that manifest; it has no share approvals, reads back as written, and when enough members have run approve-manifest it succeeds.", "quantifier": "every directory listing, manifest and approval file", "why_tests_cant": "all sets of files and orders", "anchors": ["src/qos_client/src/cli/services.rs:generate_manifest_envelope", "find_approvals"]}
{"id": "C62", "title": "A key-set directory denotes one set, whatever the listing order", "statement": "The set read from a directory consists of the valid keys in the non-hidden *.pub entries under the alias before the first dot, sorted, and the number on the first line of quorum_threshold; anything unreadable refuses; the order of the directory listing does not matter and the set is unique.", "quantifier": "every directory listing, in every order", "why_tests_cant": "directory listing order is unspecified by the OS; arbitrary names and contents", "anchors": ["src/qos_client/src/cli/services.rs:get_manifest_set", "get_share_set", "get_patch_set", "get_genesis_set", "find_file_paths", "find_threshold"]}
{"id": "C63", "title": "A command acts at most once on the enclave and reports its answer", "statement": "Each operator command that talks to the enclave (boot-genesis, boot-standard, boot-key-forward, export-key, inject-key, post-share, get-attestation-doc, enclave-status, the version query), despite its retries in another encoding, makes the enclave act on at most one request, and only on the one the operator asked for; if it reports success, the enclave acted on exactly that request and what the command writes is what the enclave answered to it. When nothing is lost the command succeeds whenever the enclave's answer is of the kind asked for and passes the command's checks.", "quantifier": "every command and every content of its files, every enclave state, every loss of requests or answers, every interleaving of requests of other parties", "why_tests_cant": "the tests run each command once over a perfect connection; a retry after a lost answer, with other requests in between, is never exercised", "anchors": ["src/qos_client/src/lib.rs: request::post, post_json, post_borsh, post_wire", "src/qos_client/src/cli/services.rs: post_request_with_encoding_fallback, boot_standard_attestation_doc_with_fallback, boot_genesis, boot_standard, boot_key_forward, export_key, inject_key, post_share, get_attestation_doc", "src/qos_host/src/host.rs: message"]}
{"id": "C64", "title": "An approved manifest boots", "statement": "When no I/O fails and the security module works and is blank, an enclave that has not booted answers a boot request for a sufficiently approved envelope without share approvals, with the pivot of the manifest's hash, by an authentic document about this manifest, the device's measurements and the public key of the ephemeral key now on disk, with the commitment register extended with this manifest; and waits for shares (or a forwarded key).", "quantifier": "every envelope, pivot, device state and randomness", "why_tests_cant": "liveness for all manifests and device states", "anchors": ["src/qos_core/src/protocol/services/boot.rs:put_manifest_and_pivot", "attestation.rs"]}
{"id": "C65", "title": "The ceremonies, end to end", "statement": "A genesis ceremony on one working enclave of the release; a manifest generated for its quorum key with the genesis set as share set; a threshold of the manifest set running approve-manifest and confirming; the envelope collected from their files; a standard boot of it on a second, unbooted enclave of the same release; a threshold of genesis members running after-genesis and proxy-re-encrypt-share and posting: every step succeeds, and the second enclave then holds exactly the seed of the genesis quorum key, whatever other requests arrive in between.", "quantifier": "every genesis set, threshold, manifest option, choice and order of reviewers and holders, randomness and interleaving of other requests", "why_tests_cant": "liveness of the composition of all commands and both enclaves for all inputs and orders", "anchors": ["src/qos_client/src/cli/services.rs", "src/qos_core/src/protocol/services/*"]}
{"id": "C66", "title": "A pooled call returns the server's answer to its own request", "statement": "Through a client with a pool of streams, whatever calls time out, fail or are cancelled at any point, whatever the server does with its connections, and whoever else talks to it: what a call returns is the answer the server gave to that very call's request, given between the start and the end of the call (never the answer to an earlier, timed-out call); the server processes each call's request at most once, never before the call starts, and nothing that no caller asked for; calls that do not overlap are served in their real-time order. A call that failed may still be processed later.", "quantifier": "every number of streams and calls, every schedule at byte granularity, every cut-off point, every server behaviour", "why_tests_cant": "one test aborts one call and looks at one flag; desynchronisation needs a particular interleaving of a timeout, late bytes and a reuse of the stream", "anchors": ["src/qos_core/src/client.rs: SocketClient::call", "src/qos_core/src/io/pool.rs: PoolGuard, StreamPool::get", "src/qos_core/src/io/stream.rs: Stream::call, reset, send, recv", "src/qos_core/src/server.rs: accept_loop"]}
{"id": "C67", "title": "Streams of a pool are exclusive and never leak", "statement": "No two calls ever hold the same stream; every stream not held by a running call is free and disconnected, however the call that last used it ended; so whenever fewer calls are under way than there are streams the pool does not report itself busy and a waiting call can take a stream, and, left undisturbed, is served and returns the server's answer without affecting any other call.", "quantifier": "every number of streams and calls, every schedule and cut-off point", "why_tests_cant": "a leak shows only after a particular cancellation point", "anchors": ["src/qos_core/src/io/pool.rs: PoolGuard::drop, get, busy", "src/qos_core/src/client.rs: call, busy, expand_to"]}
{"id": "C68", "title": "The egress bridge delivers packets whole and in order", "statement": "IP packets read from the tun interface at one end of the egress bridge reach the tun interface at the other end one per write, whole, in order, none invented, altered, merged or repeated, whatever the sizes of partial writes and reads on the socket between and wherever it fails; without errors none is lost and the loops stop only when the source is closed; when the peer stops inside a packet exactly the complete packets were delivered. (A packet whose header declares length zero, or an IPv6 payload of 65496 bytes, makes the receiving loop spin forever.)", "quantifier": "every sequence of IPv4/IPv6 packets of up to 32000 bytes, every pattern of partial reads and writes, every stopping point", "why_tests_cant": "reassembly must be right for every way the stream can be cut into reads; tests use a few cuts", "anchors": ["src/qos_core/src/egress.rs: pipe_all, next_frame, pipe_frames"]}
{"id": "C69", "title": "The remote-connection proxy connects only as asked and is then a transparent pipe", "statement": "Per socket the proxy opens at most one outgoing connection, only because the first message on the socket asked for exactly that address (or for a name which the name servers given in the request resolve to it), and asks name servers about no other name. An application told that it is connected is connected, to what it asked for; from then on the remote receives only, in order, bytes the application wrote after its request, and the application reads only, in order, bytes the remote sent; on any other answer the remote receives nothing. Without errors, and within the session's time limit, nothing is lost in either direction, including data sent along with the request.", "quantifier": "every request, data in both directions, pattern of partial reads and writes, failure and cut-off point, DNS and network behaviour", "why_tests_cant": "tests fetch one page; over-reading the request or answer loses data only for particular splits of the stream", "anchors": ["src/qos_net/src/proxy.rs: process_req, connect_and_stream", "src/qos_net/src/proxy_connection.rs: new_from_name, new_from_ip, resolve_hostname", "src/qos_net/src/proxy_stream.rs: connect_by_name, connect_by_ip", "src/qos_net/src/proxy_msg.rs"]}
{"id": "C70", "title": "DNS resolvers are shared exactly by configuration", "statement": "Two connections get the same cached resolver exactly when they asked for the same name servers in the same order and the same port, and a resolver only ever serves the configuration it was built for, however concurrent connections interleave and wherever building one fails.", "quantifier": "every number of concurrent calls, configuration and interleaving at lock granularity", "why_tests_cant": "the lookup and the insertion are two critical sections; a test makes three sequential calls", "anchors": ["src/qos_net/src/proxy_connection.rs: cached_resolver, build_resolver"]}
{"id": "C71", "title": "The host's health and info routes report what the enclave really said", "statement": "Whatever other parties send to the enclave and whatever exchanges fail meanwhile: GET /qos/enclave-health answers 200 exactly when the enclave reported a phase in which it is working (key provisioned, or genesis booted), 503 when it reported any other phase, and 500 only if the exchange failed; GET /enclave-info reports a phase the enclave was in, then the manifest stored on its disk at a later moment (or none, when there was none), then an ephemeral key taken from an attestation document the security module gave for that manifest; both send only read-only requests and never change the enclave; a reported manifest is final (it stays this process's manifest, approvals may only be added), a phase after the boot is never reported without one, and every body sent is parsed back to the same report by its reader, qos_bridge. The three fields need not have been true at one and the same moment.", "quantifier": "every history of the enclave, every interleaving with other clients' requests, every pattern of lost or cut exchanges, every stored manifest", "why_tests_cant": "The requests of other clients can fall between any two of the route's three questions, and exchanges fail anywhere; the manifest is arbitrary content that must survive JSON encoding and decoding.", "anchors": ["src/qos_host/src/host.rs: enclave_health, enclave_info, get_manifest_envelope, get_eph_key_from_attestation_doc", "src/qos_host/src/lib.rs: EnclaveInfo", "src/qos_bridge/src/host.rs: BridgeServer::serve"]}
{"id": "C72", "title": "Clients of the host reach exactly the application ports the manifest configures", "statement": "The host's bridge waits for the enclave to report a manifest, never fails on what the info route sends, and then uses the entries of the manifest the enclave holds from then on and is provisioned with. Once it has run to the end and the enclave has started its application, a TCP client of host address ip:q is relayed to the application's 127.0.0.1:p exactly if the manifest has a Server entry with port p and host ip and q is p (or the override); one egress program runs, exactly if there is a Client entry; each direction of a relayed connection delivers a prefix of what was sent, all of it unless the connection is cut. All listeners bind if their addresses do not conflict. Limits: an override port lets only one entry per address bind; a Server port of 65534 or 65535 stops the bridge on both sides; with vsock a Server entry on the control port relays clients to the enclave's control socket (never with unix sockets).", "quantifier": "every history of the enclave, every pattern of lost HTTP exchanges, every list of bridge entries, both kinds of sockets, every behaviour of reads and writes, every order of the listener tasks", "why_tests_cant": "The bridge polls an enclave that other parties change meanwhile, and host and enclave read the manifest independently; the tests use one entry and small transfers.", "anchors": ["src/qos_bridge/src/host.rs: BridgeServer::serve, run_bridges, run_ingress_bridge, host_port", "src/qos_core/src/io/host_bridge.rs: HostBridge::new, tcp_to_vsock, vsock_to_tcp", "src/qos_core/src/reaper.rs: run_bridges", "src/qos_core/src/io/mod.rs: SocketAddress::with_port"]}
{"id": "C73", "title": "The operator's file tools are inverses of each other and keep secrets private on disk", "statement": "generate-file-key, p256-sign, p256-verify, p256-asymmetric-encrypt, p256-asymmetric-decrypt, shamir-split and shamir-reconstruct: a payload signed with a generated key verifies under its public key file; a file encrypted to a generated key decrypts to exactly the plaintext (or its hex text); splitting a file writes one share file per share, and any choice of at least the threshold of them, in any order, reconstructs exactly the file. At every moment of a run, crash included, a file that receives a secret (private key, decrypted plaintext, share, reconstructed secret) is as it was, or empty, or readable by its owner only, even if it existed with wider permissions. Limit: splitting again into the same directory with fewer shares leaves the old ones there, and a reconstruction from old and new shares succeeds with a third secret.", "quantifier": "every payload, key, coefficient choice, number of shares and threshold, every choice and order of shares, every prior state of the disk, every crash point, paths that may coincide where the statement allows", "why_tests_cant": "The tests use one key, one payload and one choice of shares on an empty directory, and never look at the permissions in the middle of a run.", "anchors": ["src/qos_client/src/cli/services.rs: generate_file_key, p256_sign, p256_verify, p256_asymmetric_encrypt, p256_asymmetric_decrypt, shamir_split, shamir_reconstruct, write_with_msg, write_secret_with_msg"]}
{"id": "C74", "title": "Manifest and envelope files in Borsh and in JSON are never confused", "statement": "A Borsh file of a version 0 or 1 manifest or envelope is never a JSON text; read with the version-detecting reader (enclave and client) it yields exactly the manifest or envelope it was written for, or is refused, and refused exactly if the same bytes are also a Borsh file of the other version. json-to-borsh writes a file that reads as the version 1 form of what the input held (or is refused as ambiguous), refuses version 2, and converts everything else; what display --json prints, put in a file, reads as the same manifest or envelope including its version and approvals. Limit: converting a version 0 file changes the manifest hash, so the approvals in a converted envelope are for another hash.", "quantifier": "every manifest and envelope of every version, every file content, every prior state of the output path", "why_tests_cant": "Confusion of two formats is a statement about all byte strings; the tests convert one example.", "anchors": ["src/qos_core/src/protocol/services/boot/manifest.rs: VersionedManifest::try_from_slice_compat, VersionedManifestEnvelope::try_from_slice_compat", "src/qos_core/src/protocol/services/boot.rs: decode_borsh", "src/qos_client/src/cli/services.rs: json_to_borsh, display, read_manifest_v1_compat, read_manifest_envelope_v1_compat"]}
{"id": "C75", "title": "The client does exactly what its command line says", "statement": "The client starts an operation exactly if the command line is the command's word followed by options of that command, in any order, each with a value unless it is a flag, none repeated except --share, and all required ones present; the operation then runs with exactly the typed values (the URL built from --host-ip, --host-port and --endpoint-base-path, the key chosen by --yubikey or --secret-path but not both, numbers, lists and defaults as documented). Skipping attestation, auto-confirming, overriding the ephemeral key and the dev boot happen only if spelled out. Options the command does not have are refused, not ignored; the order of the options does not matter. Pivot arguments \"[a,b]\" mean exactly a and b, so an argument with a comma cannot be given; two bridges on one port are refused. Limits: dangerous-dev-boot refuses --bridge-config although its handler reads it; approve-manifest and proxy-re-encrypt-share refuse --current-pin-path.", "quantifier": "every command line (any number of arguments, any byte strings)", "why_tests_cant": "The tests parse a handful of argument lists; that no list of arguments can switch on an unsafe mode unasked, or be read differently from what was typed, is about all of them.", "anchors": ["src/qos_client/src/cli/mod.rs: Command, ClientOpts, ClientRunner, handlers", "src/qos_core/src/parser.rs: CommandParser", "src/qos_client/src/cli/services.rs: PairOrYubi::from_inputs", "src/qos_core/src/protocol/services/boot.rs: RestartPolicy::try_from"]}
{"id": "C76", "title": "The sample application signs exactly what it was asked, under the quorum key of the manifest", "statement": "Every successful reply of signed_echo's /signed-echo and /signed-get-url carries a payload, a signature that verifies under the public key in the reply, and that key; the payload says exactly the body that was posted, or exactly the URL asked for with the 2xx status and body that the fetch returned, with the current time. In an enclave, whenever the application is served the quorum key file, that public key is the one named in the manifest stored there. A reply can be read in one way only: an echoed message can never pass for a fetched page. Non-UTF-8 bodies, non-2xx or failed fetches, and requests before the key is installed give errors that carry no statement; with a key and a clock everything else is answered. The server listens and reads the key as the command line says: a sequence of options with values, the last of a kind wins, anything else is refused.", "quantifier": "every request body, URL, fetched page, clock value, key file, enclave history and moment, and every command line", "why_tests_cant": "The tests echo two literals; that no message can be crafted to read as another statement, and that the key is always the manifest's, ranges over all bodies and histories.", "anchors": ["src/signed_echo/src/lib.rs: router, signed_echo, signed_get_url, sign_json_payload, fetch, AppError", "src/signed_echo/src/main.rs: Cli::parse", "src/qos_json/src/lib.rs: to_vec"]}
{"id": "C77", "title": "The programs around the enclave start exactly as their command lines say", "statement": "qos_host, qos_net's proxy, and both sides of qos_bridge start if and only if their command line consists of their own options, each at most once, with the options that must be present or go together present, without the ones that exclude each other, and with values that can be read; they then use exactly the sockets, addresses, ports, limits, flags and paths given, or the documented defaults. A host and a client (C75) told the same address, port and base path meet at the same URL. Limits: an override port that cannot be read is dropped silently; the default of --vsock-to-host is false for the host and true for the bridge.", "quantifier": "every argument vector whose first element (the program name) does not start with two dashes", "why_tests_cant": "The tests start the programs with a handful of literal command lines; that every other combination, repetition or order is refused or means what it says ranges over all vectors.", "anchors": ["src/qos_host/src/cli.rs: HostParser, HostOpts, CLI::execute", "src/qos_host/src/host.rs: HostServer::path", "src/qos_net/src/cli.rs: ProxyParser, ProxyOpts, CLI::execute", "src/qos_bridge/src/cli.rs: HostParser, HostOpts, Cli::execute_ingress, Cli::execute_egress", "src/qos_core/src/io/pool.rs: StreamPool::new"]}
{"id": "C78", "title": "The development boot reports only real success", "statement": "If dangerous_dev_boot ends without an error then, whatever the network did and whoever else talked to the enclave meanwhile, the enclave is in the provisioned phase with a quorum key whose public half is that of the key the command generated, it stores the manifest and the pivot the command built, and at least two share approvals are recorded, all by the one generated member (the one member counts twice, see C12). Conversely, run against an enclave that has not been booted, over a network that works, with messages that fit, the command succeeds and the enclave then holds exactly the generated seed.", "quantifier": "every seed, sharing and encryption randomness, every pivot, argument list and bridge configuration, every reachable state of the enclave, every script of lost and cut answers and of other users' requests between the command's own", "why_tests_cant": "The integration test runs the command once against an idle enclave over a working network; that success is never reported of a different manifest, key or phase ranges over all interleavings with other users and all losses.", "anchors": ["src/qos_client/src/cli/services.rs: dangerous_dev_boot, boot_standard_attestation_doc_with_fallback", "src/qos_core/src/protocol/services/provision.rs: provision", "src/qos_core/src/protocol/services/boot.rs: boot_standard"]}
{"id": "C79", "title": "A smart card and a key file are interchangeable", "statement": "When provisioning a YubiKey from a master seed reports success, the card holds exactly the two keys derived from that seed (each asking for the PIN and a touch at every use) and reports their public key; when generating keys on the card reports success, the file written is the public key of the keys now on it. A card holding a pair's keys decrypts an envelope only to what the key file decrypts it to, whatever exchange with the card fails, and with the right PIN and a working connection to all of that; a signature the tool returns from a card always verifies under the public key the card reports. A fresh card with the default management key is provisioned successfully.", "quantifier": "every state of the card (PIN, counters, keys, certificates, session, random numbers), every seed, envelope, message and PIN, and every pattern of exchanges failing before or after they took effect", "why_tests_cant": "The tests need a physical card and run one happy path; the claim ranges over all seeds and envelopes and all ways a card or its connection can fail midway.", "anchors": ["src/qos_client/src/yubikey.rs: generate_signed_certificate, import_key_and_generate_signed_certificate, sign_data, shared_secret, pair_public_key, key_agree_public_key", "src/qos_client/src/cli/services.rs: PairOrYubi, provision_yubikey, advanced_provision_yubikey, yubikey_sign, yubikey_public"]}
{"id": "C80", "title": "Card operations cannot destroy or leak key use", "statement": "Signing, decrypting, reading the public key and changing the PIN never alter a key or certificate on a card. With a wrong PIN nothing is provisioned, signed or decrypted, no key changes and at most one PIN try is used up. While no exchange with the card fails, provisioning never replaces a key in an occupied slot, a card with an occupied signature slot is refused unchanged, and a reset wipes the card exactly if it has at most three PIN tries left and its PIN is not 000000, or it has no tries left, always reporting success. (Findings: one failed exchange lets provisioning replace a key, or leaves a half-provisioned card no later run accepts; a reset may report success with nothing wiped.)", "quantifier": "every state of the card, every PIN, seed and message, and every pattern of exchanges failing before or after they took effect", "why_tests_cant": "The tests run no failing exchange and no half-provisioned card; whether a key can be lost ranges over all card states and all failure points.", "anchors": ["src/qos_client/src/yubikey.rs: generate_signed_certificate, import_key_and_generate_signed_certificate, yubikey_piv_reset, yubikey_change_pin", "src/qos_client/src/cli/services.rs: provision_yubikey, advanced_provision_yubikey, yubikey_sign"]}
{"id": "C81", "title": "The enclave's console is logged line by line", "statement": "qos_enclave's debug console reader logs exactly the non-empty lines of the console stream, in order and without loss: one event per line, however the bytes are cut into writes, a last unfinished line included when the stream ends. A line that is valid UTF-8 is logged verbatim but for trailing carriage returns; every event is non-empty valid UTF-8 without a newline.", "quantifier": "every byte stream and every division of it into writes", "why_tests_cant": "The tests write a few chunks; that no division of the stream (inside a multi-byte character, before a newline) changes the log ranges over all streams and all divisions.", "anchors": ["src/qos_enclave/src/main.rs: EnclaveConsoleWriter, read_logs"]}
{"id": "C82", "title": "qos_enclave launches the enclave it was told to and tells its health", "statement": "qos_enclave starts at most one enclave, and only with the image, memory, cpus, cid and debug flag its environment variables give (defaults where the code names them, nothing started if one is malformed); the console is attached only if asked for, on the cid's console port; it starts serving if every step of the launch succeeds, exits successfully only on a signal, and its health answer is 200 exactly when the first enclave described is RUNNING and 503 otherwise. It does not hold that an exit leaves no enclave running.", "quantifier": "every environment, every outcome of every nitro-cli step and every state described", "why_tests_cant": "No test runs it at all (it needs a Nitro host); the claim ranges over all environments and failure points.", "anchors": ["src/qos_enclave/src/main.rs: main, boot, healthy, health_service, shutdown"]}
{"id": "C83", "title": "init serves only after the entropy check, and reboots afterwards", "statement": "The enclave's init process starts the QOS server exactly when the kernel module file opens, the hardware random source in use is nsm-hwrng (or the power-off call did not take effect), the loopback interface can be brought up as 127.0.0.1 and the vsock device tells a cid; it then serves on port 3 of that cid with the default files, none of which lies on a file system mounted at boot, and restarts the machine when serving ends. A missing entropy source stops the boot unless switching off itself fails.", "quantifier": "every outcome of every system call made at boot and every contents of rng_current", "why_tests_cant": "It runs as process 1 of an enclave; no test covers it, and the claim ranges over all combinations of failing system calls.", "anchors": ["src/init/init.rs: boot, main, init_rootfs", "src/init/setip.rs: init_localhost", "src/qos_aws/src/lib.rs: init_platform", "src/qos_system/src/lib.rs: check_hwrng, get_local_cid"]}
{"id": "C84", "title": "The mock NSM keeps a faithful register bank", "statement": "Whatever requests the mock Nitro Secure Module has answered, a register's value is its seed hashed with every piece of data it was extended with before it was locked, and it reads as locked exactly if a lock request covered it; out-of-range and read-only requests are refused and change nothing; every document shows all 32 registers and the data asked for, passes the syntactic checks exactly when the data is within their limits, and verifies against the mock root. A boot over it commits successfully exactly when registers 16 and 17 are unlocked and zero, can never be followed by another commitment, and its documents verify for the committed manifest and keys only, up to hash collisions. With seeds of 48 bytes no request panics; with an accepted seed of 32 or 64 bytes an extension panics and so does everything later.", "quantifier": "every list of seeds, every history of requests before and after, every manifest hash and pair of keys", "why_tests_cant": "Its unit tests run one extension and one lock on register 5; the claim ranges over all histories of all requests on all registers, and over boots at any point of them.", "anchors": ["src/qos_nsm/src/mock.rs: MockNsm, nsm_process_request, with_pcr, signed_attestation_document", "src/qos_core/src/protocol/services/attestation.rs: lock_manifest_commitment_pcr_bank", "src/qos_nsm/src/nitro/mod.rs: pcr_extend_sha384"]}
{"id": "C85", "title": "A mock PCR seed file means what it says", "statement": "The mock PCR file is accepted exactly when every line is blank or a hexadecimal value of 32, 48 or 64 bytes and a label PCR<index> with index below 32, separated and surrounded by white space; it then seeds the named registers in order, later lines overriding earlier ones. Anything else stops the program.", "quantifier": "every file contents", "why_tests_cant": "The format (white space, line ends, number and hex syntax) ranges over all files; the tests read well-formed ones.", "anchors": ["src/qos_core/src/cli.rs: seed_mock_pcrs", "src/qos_nsm/src/mock.rs: with_pcr"]}
{"id": "C86", "title": "The NSM wrapper is transparent", "statement": "The wrapper asks the device exactly the request it was given, once, and returns the device's answer: conversions between the two sets of types lose nothing in either direction, so distinct requests stay distinct; an answer this version does not know reads as an internal error. The time it reports is the timestamp of a document the device issued for an empty request.", "quantifier": "every request, every answer of the device, every device state", "why_tests_cant": "The real wrapper runs only inside a Nitro enclave; the claim ranges over all requests and answers.", "anchors": ["src/qos_nsm/src/types.rs: From<NsmRequest> for Request, From<Response> for NsmResponse", "src/qos_nsm/src/nsm.rs: Nsm"]}
{"id": "C87", "title": "A secret being written to disk cannot be read by the machine's other users", "statement": "Writing a private key to a file (P256Pair::to_hex_file) or a secret with the client (generated key, plaintext, share, reconstructed secret): whatever other users of the machine do before, between and after the program's system calls (open, read, write, create, chmod, unlink, rename), and wherever the program fails or is killed, none of them ever reads a byte of the secret, provided the file was absent, or the user's own, private and not held open by others, and the user is not root in a directory others may create files in. A file planted by someone else is refused before a secret byte is written (unless root). Success means the file holds exactly the secret with mode 0600. Limits: over an existing file that others may read, someone who opens it between the open and the fchmod (or already had it open) reads the secret; root writes into a planted file, whose owner reads it.", "quantifier": "every interleaving of any number of other users' file-system calls with the program's, every crash point, every prior file-system state, umask and group membership", "why_tests_cant": "The test looks at the mode after the call, on a quiet machine; the race windows are between system calls.", "anchors": ["src/qos_p256/src/lib.rs: write_owner_only, P256Pair::to_hex_file", "src/qos_client/src/cli/services.rs: write_secret_with_msg"]}
{"id": "C88", "title": "Extracting the enclave's key from an attestation document", "statement": "get-ephemeral-key-hex succeeds exactly if the file is an attestation document carrying a well-formed public key, and then writes exactly the hex text of that key to the given file and touches no other; a file encrypted with the client to the extracted key decrypts, with the seed behind the document's key, to exactly the plaintext. Limit: the document is not verified at all, so success says nothing about whose key it is.", "quantifier": "every document, disk, key, plaintext and randomness", "why_tests_cant": "No test runs the command; forged documents are not tried.", "anchors": ["src/qos_client/src/cli/services.rs: get_ephemeral_key_hex, extract_attestation_doc", "src/qos_p256/src/lib.rs: P256Public::to_hex_file"]}
{"id": "C89", "title": "Where each enclave of a fleet has its quorum key from", "statement": "In any number of enclaves running this code, whose hosts carry anything between them: every enclave holding a quorum key either was provisioned with it by share holders, or opened an answer that another enclave of the fleet gave to an export request, while that enclave itself held the key under a manifest of which the new one is an approved successor (same quorum key, namespace, manifest set and PCR3; higher nonce unless the same manifest), or was given it by someone outside the fleet who already knew it. Without outsiders, every key goes back through approved successors to one provisioned by its share holders.", "quantifier": "every number of enclaves, every interleaving of requests to them, every crash point and restart, every content of every request", "why_tests_cant": "The claim ranges over unbounded chains of key forwarding between enclaves under adversarial hosts and crashes; a test runs one chain.", "anchors": ["src/qos_core/src/protocol/services/key.rs: export_key, inject_key, validate_manifest", "src/qos_core/src/protocol/services/provision.rs: provision", "src/qos_core/src/protocol/state.rs: handle_msg"]}
{"id": "C90", "title": "Answers reveal nothing about shares and keys beyond their fate", "statement": "Two runs of an enclave in the same environment (device, randomness, faults, crash points), with the same requests except for the encrypted shares and forwarded keys they carry: as long as the answers to those requests are the same, every other answer, the phase, the exchanges with the security module, the file operations and all files but the quorum key's are the same in both runs; the answer to a share tells at most which of nine fates it had (below the threshold: unopened, empty or counted), the answer to a forwarded key likewise. Only an export's answer depends on the key held.", "quantifier": "every pair of such runs of any length, every share, key, request, fault schedule and crash point", "why_tests_cant": "Non-interference relates pairs of runs over all secrets and histories; a test compares two.", "anchors": ["src/qos_core/src/protocol/services/provision.rs: provision, SecretBuilder", "src/qos_core/src/protocol/services/key.rs: inject_key, export_key", "src/qos_core/src/protocol/state.rs: handle_msg", "src/qos_core/src/handles.rs: put_quorum_key, write_as_read_only"]}
{"id": "C91", "title": "An approval is for one manifest", "statement": "The manifest hash, which is all an approval signs, is the hash of one manifest only: two manifests of any versions with one hash are equal, or SHA-256 collides, or one is a version 1 and the other a version 0 manifest with the same Borsh bytes; in every case (without a collision) namespace name, nonce and quorum key, pivot hash and restart policy are the same. Limit: the exception is real. A version 1 manifest with a suitable client port has a version 0 twin with other arguments, debug flag and bridges; the approvals of one boot the other, with the same answer in every state and under every fault, through the JSON boot request. An envelope that was decoded from Borsh never has such a twin.", "quantifier": "all pairs of manifests of all versions, all approval lists, all states, faults and pivots", "why_tests_cant": "injectivity over all pairs of manifests, and equality of behaviour in all states", "anchors": ["src/qos_core/src/protocol/services/boot/manifest.rs: VersionedManifest::qos_hash, check_approvals", "src/qos_core/src/protocol/services/boot.rs: decode_borsh, put_manifest_and_pivot", "src/qos_core/src/protocol/msg.rs: BootStandardJsonEnvelopeRequest"]}
{"id": "C92", "title": "Which approval comes with a share makes no difference", "statement": "Provisioning uses the approval of a share only to check that some share-set member signed the booted manifest's hash. Two histories of provision (and status or version) requests that post the same shares with any acceptable approvals get the same answers and end in the same phase with the same quorum and ephemeral keys, under every fault. Limit: a manifest-set approval in the stored envelope by a member who is also in the share set is acceptable, so it can be replayed with every share, and the recorded share approvals do not show that anybody agreed to hand in a share.", "quantifier": "every reachable state, all sequences of requests, all shares, approvals and file-system faults", "why_tests_cant": "equality of pairs of histories", "anchors": ["src/qos_core/src/protocol/services/provision.rs: provision", "src/qos_core/src/protocol/services/boot.rs: Approval::verify", "src/qos_core/src/protocol/services/boot/manifest.rs: check_approvals"]}
{"id": "C93", "title": "Layout and member order of JSON documents do not matter", "statement": "Two JSON texts that differ only in white space, in how the characters of strings are escaped, and in the order of the members of objects without repeated keys (at any depth) are treated alike: manifest files, envelope files, approval files and the client's bridge-config argument read as the same value or are both refused, and a request or reply is read from one as a JSON message exactly if it is read from the other, as the same message. In particular the version of a manifest is detected the same way wherever its version member stands, and a JSON text is never read as Borsh instead.", "quantifier": "every two texts of one JSON value up to member order: any white space, escapes, nesting, permutation of members", "why_tests_cant": "layouts and permutations of nested documents are unboundedly many", "anchors": ["src/qos_core/src/protocol/services/boot/manifest.rs: try_from_slice_compat, declares_a_version", "src/qos_core/src/protocol/services/boot.rs: serde derives", "src/qos_core/src/protocol/services/boot/env.rs: PivotEnv", "src/qos_core/src/protocol/msg.rs: from_wire", "src/qos_client/src/cli/mod.rs: bridge_config"]}
{"id": "C94", "title": "Numbers in JSON documents are read exactly", "statement": "A threshold, nonce or port of a JSON document (manifest, envelope, request, bridge configuration) is read as n exactly if it is the integer token n or a string of decimal digits of value n, with or without leading zeros and '+', and n fits the field (16 or 32 bits); every other value (fractions, exponents, negative numbers, blanks, larger numbers, bool, null) is refused, never rounded, wrapped or truncated, and no text has two readings.", "quantifier": "every JSON value in a number field, every limit", "why_tests_cant": "all spellings and all magnitudes", "anchors": ["src/qos_json/src/lib.rs: string_or_numeric", "src/qos_core/src/protocol/services/boot.rs: threshold, nonce, port"]}
{"id": "C95", "title": "A manifest document means what its members say", "statement": "A JSON manifest or envelope is accepted exactly when its members spell out a whole manifest (envelope) of the version it counts as, and the value read is what they spell out, field by field: text, hex, number, list, bridge, environment entry. No known member may be given twice (for environment variables the last entry counts), none may be missing except host of a client bridge, env and dns, and a version 2 manifest, pivot, dns and envelope have no other members; in the older versions and the shared parts unknown members are skipped. A struct may also be written as an array of its fields in order.", "quantifier": "every byte string that is a JSON text, every manifest and envelope of versions 0, 1 and 2", "why_tests_cant": "all documents: any member missing, repeated, unknown, misplaced, of another type, at any depth, in objects and arrays", "anchors": ["src/qos_core/src/protocol/services/boot.rs: Manifest, PivotConfig, BridgeConfig, NitroConfig, MemberSet (serde derives)", "src/qos_core/src/protocol/services/boot/manifest.rs: VersionedManifest::try_from_slice_compat, VersionedManifestEnvelope::try_from_slice_compat", "src/qos_core/src/protocol/services/boot/manifest/v2.rs: ManifestV2, PivotConfigV2", "src/qos_core/src/protocol/services/boot/env.rs: PivotEnv", "src/qos_json/src/lib.rs: string_or_numeric"]}
{"id": "C96", "title": "The Borsh bytes on the wire, in storage and under the hashes are the documented layout", "statement": "A V1 or V0 manifest, an envelope, an approval, a proxy message or a ciphertext envelope is read from exactly one byte string: little-endian integers, a 32-bit count before each text, byte string and list, 0/1 before an optional value, one byte for the alternative of an enum with the number of its place in the declaration, fields in declaration order, nothing after. Manifest, member-set, member and genesis digests are SHA-256 of that layout. A protocol message is written in Borsh exactly when its parts fit (texts are UTF-8, counts below 2^32, no V2 envelope, no genesis message), as its number 0..23 and its fields; and, apart from messages holding a manifest envelope or a security module's answer, exactly those bytes are read back as it.", "quantifier": "all byte strings, manifests, envelopes, approvals, messages, errors, proxy messages and ciphertexts", "why_tests_cant": "Round-trip tests pass when writer and reader are changed together (two fields swapped, an alternative inserted in the middle of an enum, big-endian counts); such a change breaks stored manifests, every signature made earlier and every client of another version, and only shows on values the test vectors do not hold.", "anchors": ["src/qos_core/src/protocol/services/boot.rs: derive(BorshSerialize, BorshDeserialize)", "src/qos_core/src/protocol/services/genesis.rs", "src/qos_core/src/protocol/msg.rs: ProtocolMsg, to_wire, from_wire", "src/qos_core/src/protocol/error.rs: ProtocolError", "src/qos_core/src/protocol/state.rs: ProtocolPhase", "src/qos_nsm/src/types.rs: NsmResponse", "src/qos_p256/src/lib.rs: P256Error", "src/qos_p256/src/encrypt.rs: Envelope, SymmetricEnvelope", "src/qos_net/src/proxy_msg.rs", "src/qos_net/src/error.rs"]}
{"id": "C97", "title": "Which texts are IP addresses, and how an address is written", "statement": "A resolver address in a version 2 manifest or in --dns-resolvers is accepted exactly if it is four decimal octets without leading zeros, or eight groups of one to four hex digits of which the last two may be dotted octets and one run of one or more zero groups may be '::'; nothing may stand before, between or after (no blanks, zone, prefix length or brackets), and it then means the address spelled. --dns-resolvers is '[', such texts separated by single commas, ']', accepted as a whole or refused. An address is written (in canonical manifests, resolv.conf and displays) with lower-case digits, no leading zeros, '::' for the first longest run of two or more zero groups, and dotted if mapped from version 4; what is written is read back.", "quantifier": "every byte string, every IPv4 and IPv6 address, every list of addresses", "why_tests_cant": "all texts and 2^128 addresses: every place of '::' and of the dotted part, every zero run, all digit counts", "anchors": ["src/qos_core/src/protocol/services/boot/manifest/v2.rs: DnsConfig", "src/qos_client/src/cli/mod.rs: dns_resolvers", "src/qos_core/src/reaper.rs: write_resolv_conf"]}
{"id": "C98", "title": "The egress program at both ends: how it is launched and when it gives way to a new one", "statement": "However often the transparent egress program has ended or failed to start, each end launches it once more: the enclave as the inner end for its own vsock address, port 1000, without the to-host flag; the host bridge as the outer end for the enclave's address, port 1000, with the flag exactly if the socket to the enclave has it. Built with the enclave image's profile (panic = abort), the program is over as soon as a direction fails, and only then. Refuted of the host's image, built with the plain release profile: it is over only when both directions have failed and it has looked after the first; while one direction goes on it stays, and no new one is launched.", "quantifier": "every vsock address and flags, every custom program path that is no option, every history of endings and failures to start, every order of failures and looks", "why_tests_cant": "any number of restarts; every interleaving of the two directions and the main thread", "anchors": ["src/qos_core/src/egress.rs: copy_bidirectional, run_looping", "src/qos_core/src/reaper.rs: run_egress_bridge", "src/qos_bridge/src/host.rs: run_egress_host_bridge", "src/qos_bridge/src/cli.rs: execute_egress", "Cargo.toml: profile.release-panic-abort", "src/images/qos_bridge_egress/Containerfile", "src/images/qos_enclave_egress/Containerfile"]}
{"id": "C99", "title": "With egress, the enclave serves only behind a fully set-up tunnel interface", "statement": "Built with the egress feature, the init process serves exactly if it would without it (C83) and each of the six ip commands that create the tun interface enclave_egress, bring up lo, give it 169.254.0.1/32, set the MTU to 1320, bring the interface up and make it the default route ends well; they run in that order, after all the boot of C83 did and before serving, and the first that cannot be started, waited for, or ends badly stops the machine: none after it runs and nothing is served. The egress program asks the kernel for an interface by the first 15 bytes of its name, so two names are one interface exactly if they agree so far; the enclave's end opens the very interface that was set up, the host's another.", "quantifier": "every kernel behaviour, every outcome of every ip command, every interface name", "why_tests_cant": "all combinations of failures; all names", "anchors": ["src/init/init.rs: boot", "src/qos_core/src/egress.rs: init_egress_tun, run_ip, run_with_ld, create_tun_socket"]}
{"id": "C100", "title": "Which listener a connection to a unix socket path reaches", "statement": "In every history of listeners opened and dropped and of other programs changing files, a connection to a unix socket path is only ever taken by a listener still held and bound to that path, a dropped one never again; a listener just opened takes every connection to its path as long as no listener is opened there, none bound there is dropped and nobody else changes it, whatever happens elsewhere; opening fails exactly if the system refuses, a directory is there, or what is there cannot be removed; all sockets of a pool are reached. Refuted: that a listener is reached until it is dropped (dropping an earlier listener on the same path removes the later one's socket file), and that other programs' files are left alone (a plain file at the path is deleted).", "quantifier": "every history of openings, droppings and foreign changes, every path, every initial file system", "why_tests_cant": "all interleavings of several listeners' lives on shared paths", "anchors": ["src/qos_core/src/io/stream.rs: Listener::listen, Drop for Listener, unix_connect", "src/qos_core/src/io/pool.rs: listen"]}
