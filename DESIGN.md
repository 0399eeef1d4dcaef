# Formal model of tkhq/qos in Rocq (Coq 8.16.1)

(This file is generated by `tools/design.py` from `tools/design_head.md`,
`tools/design_tail.md`, `properties.jsonl` and `MANIFEST.json`.)

Source modelled: `/repo/src` at the pinned commit. Nothing is built or run from
the repo: the tie between code and model is the file/line citation on every
definition. Build: `cd rocq && coq_makefile -f _CoqProject -o Makefile && make -j4`.

## Layout (`rocq/theories`)

| kind | files | content |
|---|---|---|
| data formats | `Base Utf8 Hex Borsh Json Types TypesBorsh TypesJson Env Builder JsonComb Msg MsgBorsh MsgJson Wire` | qos_hex, qos_json, borsh 1.x as used, serde_json as used, the manifest and message types of qos_core and their codecs, the request processor |
| enclave | `World Attest Services State Reach Reaper` | oracles, files and effect history; qos_nsm/nitro checks; boot, genesis, provision, key, attestation services; the protocol state machine; histories and crashes; the reaper |
| arithmetic | `Gf256 Shamir NChooseK P256` | vsss-rs sharing as used by qos_crypto; the combination helper; qos_p256 key, signature and envelope layout |
| transport | `Stream ListenerFiles Pool Server Calls Egress EgressRun EgressInit Proxy Bridge` | qos_core io (framing, pools, client, server), egress, host bridge, qos_bridge, qos_net proxy |
| programs | `CliParser EnclaveCli DaemonCli ClientCli Host SignedEcho` | option parser and every command line; host routes; sample app |
| client | `Client ClientNet FileTools DevBoot` | qos_client services (ceremonies, file tools, dev boot), with the network between client and enclave |
| specs | `Spec*` and the "Specification" section on top of a `Props*` file | small definitions, independent of the model's helpers, that theorems are stated with |
| proofs | `*Proofs`, `*Laws`, `Client*`, `Run`, `Invariant`, ... | lemmas |
| theorems | `Props*` | the theorems of `MANIFEST.json`, each followed by `Print Assumptions`, and non-vacuity `Example`s |
| instances | `Toy*`, `CodecExamples` | concrete worlds and histories used by the examples |

## Properties the code does not meet as intended

Where the documented or intended form of a property is false of the code, the
property is stated in the form the code satisfies, with the intended form and the deviation kept in the statement, and a
theorem with `refuted` in its name (or a universal negative theorem) is listed with it.
A claim is `partial` if only part of its statement is proved; none is at present.

## Modelling decisions

* Bytes are `Coq.Init.Byte.byte`; Rust `String` is a byte list with an explicit
  UTF-8 validity predicate where the code checks it. Rust integers are `N` with
  the range check or wrap-around the code has.
* `&mut self` functions return the new state. `Result` is `result E A`
  (`Ok`/`Err`); a panic is an explicit value (an error, `None`, or `false`,
  stated at each definition).
* Cryptography and the platform are an *oracle record* (`World.sys`): hash
  functions, point validity, seed to key pair, sign, verify, encrypt, decrypt,
  split and combine, COSE and X.509 verdicts, the NSM as an arbitrary state
  machine, randomness as an arbitrary tape, I/O faults as an arbitrary tape that
  may fail any file operation after any number of bytes. Theorems quantify over
  that record. Laws are explicit premises, grouped as `sys_ok` (output lengths,
  key pairs are valid points), `crypto_ok` (decrypt inverts encrypt, verify
  accepts sign), `sharing_ok` (split/combine are the functions of `Shamir`),
  `no_faults`, `primitives_total`, `working` (a device that behaves as the Nitro
  documentation says). Each has a concrete inhabitant in `Toy*`/`PropsGenesis`.
  No law says that forging or breaking is impossible: "signed" means "the
  verifier accepts".
* The file system is a map from the four configured paths and their temporary
  siblings to (content, mode); every primitive effect appends the resulting
  file system to a history, so "at every crash point / to any concurrent
  observer" is "at every element of the history" (`moment`), and a restart may
  happen at any of them (`reach`).
* Concurrency: the enclave's processor holds one lock per request, so the
  enclave is sequential and concurrency is an arbitrary interleaving of
  requests (C36). Pools, servers, bridges and proxies are transition systems
  whose scheduler, network fragmentation, cancellations and failures are
  arbitrary.
* HTTP (ureq, axum) is modelled by its documented behaviour: a request may be
  lost, carried out and its answer lost, or answered; bodies above the limit
  are refused.

## Properties: what is modelled and how it is proved

Every row is stated in English in `properties.jsonl`; exact theorem names are in `MANIFEST.json`. Status *partial* means that the statement as written is not true of the code or not provable in full: the theorems suffixed `_partial` prove what holds and those named `refuted` prove the counterexample.

| id | property | model | how it is proved | theorems in | status |
|---|---|---|---|---|---|
| C01 | Phase only moves along the documented edges; error and genesis phases are terminal | State (routes, try_msg, transition, handle) | case analysis per phase and request; induction over the request list | PropsMachine | proved |
| C02 | A request that the current phase does not serve is refused without any effect | State | case analysis: a request that is not served returns the same state, with nothing added to the effect history | PropsMachine | proved |
| C03 | Read-only requests have no effect on keys, files or phase | State, Services | "quiet" effect analysis of every read-only service | PropsMachine | proved |
| C04 | The installed quorum key is always the one the booted manifest names | World (files, effect history), Services, Reach | one inductive invariant over all histories and all intermediate file systems (`Invariant`), read off at every moment | PropsHistory | proved |
| C05 | Quorum key appears only through a successful provision or inject, and then never changes | as C04 | the invariant; the quorum file is created by rename only, and never written again | PropsHistory | proved |
| C06 | Boot artefacts are write-once | as C04 | every primitive effect is classified (`EffectProofs`); induction over histories and restarts | PropsHistory | proved |
| C07 | An accepted boot stores exactly what was approved | Services boot_standard/boot_key_forward | inversion of an accepting run, storage round trip (C30) | PropsHistory | proved |
| C08 | Approval checking is sound: K distinct members really signed | Services check_approvals, SpecApproval | induction over the approval list; nothing assumed about signatures beyond the oracle | PropsApproval | proved |
| C09 | Approval checking is complete and independent of approval order | as C08 | completeness and permutation invariance of the check | PropsApproval | proved |
| C10 | A zero threshold disables manifest approval | as C08 | iff at threshold 0 | PropsApproval | proved |
| C11 | Provisioning needs at least threshold accepted shares | Services provision, Invariant | share approvals in the stored envelope tracked by the invariant | PropsHistory | proved |
| C12 | Provisioning does not need distinct members (negative) | as C11 | refutation by a concrete history (one member posts every share); positive part proved for distinct approvals | PropsHistory, PropsReplay | proved |
| C13 | A failed boot, provision or inject is fatal and key-less forever | State, Services, CalmProofs | failure leads to UnrecoverableError, which is terminal; the key-less part holds without I/O faults, and is refuted with them by a concrete history | PropsHistory | proved |
| C14 | PCR bank is committed and locked before any boot file is published | World NSM transcript | invariant over the transcript of NSM calls: extend and lock precede the first publication | PropsHistory | proved |
| C15 | Ephemeral key is rotated before the quorum key becomes visible | as C04 | order of effects inside `install`, at every moment | PropsHistory | proved |
| C16 | Pivot starts only on a complete, consistent boot | Reaper | the reaper polls files; invariant of C04 at the moment it reads | PropsReaper | proved |
| C17 | Read-only writes are crash-atomic | World write_as_read_only | every prefix of the effect sequence | PropsExposed, PropsFiles | proved |
| C18 | Pivot and manifest mutation are not crash-atomic | World | the effects of an accepted boot / provision request in order: each prefix appears in the trace; and concrete crash points | PropsExposed, PropsFiles | proved |
| C19 | Key export conditions | Services export_key, Attest | iff characterisation of the accepting runs | PropsExport | proved |
| C20 | Key forwarding round trip | Services export_key + inject_key | composition of two enclaves under decrypt∘encrypt and verify∘sign laws | PropsExport | proved |
| C21 | Injection accepts only the manifest's quorum key | Services inject_key | inversion | PropsExport | proved |
| C22 | Attestation document verification against manifest | Attest verify_against_manifest | iff against an independent specification of the document fields | PropsAttest | proved |
| C23 | Attestation syntactic validation accepts exactly the documented bounds | Attest syntactic_validation | iff against stated bounds; the documented index bound is refuted (off by one) | PropsAttest | proved |
| C24 | PCR commitments bind kind, manifest hash and key | Services commitments, Json | injectivity through hex and JSON layout, up to hash collisions stated as such | PropsAttest | proved |
| C25 | Shamir: any K of N shares reconstruct, in any order | Gf256, Shamir | field laws by exhaustive finite sweep in the kernel, Lagrange interpolation by induction on degree | PropsShamir | proved |
| C26 | Shamir: fewer than K shares reveal nothing | Gf256, Shamir | bijection between coefficient vectors for every secret (perfect secrecy as counting) | PropsShamir | proved |
| C27 | Combinations helper enumerates exactly the k-subsets | NChooseK | loop invariant; wrapping factorials against divisibility by 2^64, tables for the finite range | PropsNChooseK | proved |
| C28 | Borsh codec is a canonical bijection | Borsh combinators, TypesBorsh | generic lawful-codec lemma, instantiated for every type | PropsCodec | proved |
| C29 | V1/V0 Borsh manifests are never confused | TypesBorsh | disjointness of layouts and the exact overlap | PropsCodec | proved |
| C30 | Manifest storage round trip | TypesJson, Json writer/parser | round trip by induction on JSON trees and schema codecs | PropsCodec | proved |
| C31 | A declared manifest version never falls back to a legacy schema | TypesJson try_from_slice_compat | induction through both JSON readers; refutation by a document only one of them accepts | PropsCodec | proved |
| C32 | Canonical JSON is canonical | Json canonical writer | sorting, injectivity and idempotence by induction | PropsCanon, PropsCodec | proved |
| C33 | Hex codec | Hex | induction, byte sweeps; refutation for `+`-prefixed digits | PropsCodec, PropsHex | proved |
| C34 | Length-delimited framing survives any fragmentation | Stream | induction over arbitrary kernel read/write splits | PropsStream | proved |
| C35 | Send loop termination | Stream | termination measure for progressing kernels; refutation for endless zero-length writes | PropsStream | proved |
| C36 | Processor answers every byte string, in the request's encoding, and serialises requests | Wire processor | totality and encoding agreement; interleavings of several connections are some serial order | PropsWire | proved |
| C37 | Legacy Borsh requests remain decodable | Wire | round trip per message; refutation for boot and export requests | PropsWire | proved |
| C38 | Manifest builder | Builder | iff of success; the built manifest is the described one | PropsCodec | proved |
| C39 | Pivot environment limits | Env | iff of each limit; reachability of every legal environment | PropsCodec | proved |
| C40 | Genesis output is a faithful sharing of one fresh key | Services genesis, Shamir | inversion of the run; total success under totality of primitives | PropsGenesis | proved |
| C41 | P256 public key and envelope layout | P256 | layout, iff of every parser; ECDH/AES-GCM/ECDSA as oracles | PropsP256 | proved |
| C42 | Socket pool addresses are distinct and sequential | Pool | arithmetic of CID/port/UNIX suffixes, iff of construction | PropsPool | proved |
| C43 | Connection limit | Server | invariant of the accept loop with the two semaphores | PropsServer | proved |
| C44 | CLI token parser | CliParser | iff of acceptance against an independent grammar of token lists | PropsCli | proved |
| C45 | Reaper restart policy | Reaper | trace of the restart loop for every sequence of exits | PropsReaper | proved |
| C46 | Pivot environment is never delivered to the pivot (negative) | Reaper | refutation, and the actual behaviour: the environment is always empty | PropsReaper | proved |
| C47 | Bridges are started as configured, before the pivot | Reaper | trace prefix | PropsReaper | proved |
| C48 | resolv.conf is written iff DNS is configured | Reaper | iff | PropsReaper | proved |
| C49 | A manifest declaring a version is never read as an older schema | Wire, TypesJson | refutation: an accepted request whose V2 manifest is read as V1 | PropsWire | proved |
| C50 | The two wire encodings cannot be confused | Wire | first byte disjointness | PropsWire | proved |
| C51 | The enclave's command line selects its files and socket | EnclaveCli on CliParser | iff from C44 | PropsEnclaveCli | proved |
| C52 | Application sockets are distinct per port | Pool | injectivity of per-port addresses | PropsPool | proved |
| C53 | One answer per request, in order, per connection | Server | per-connection trace induction | PropsServer | proved |
| C54 | Honest provisioning completes | State, Shamir | forward simulation of honest provisioning among arbitrary other requests | PropsLive | proved |
| C55 | Attestations only speak for the enclave's own manifest and key | Services, NSM transcript | every attestation call ever made carries this enclave's values | PropsDocs | proved |
| C56 | An operator's consent is explicit | Client prompts | answers accepted by iff; order of the questions | PropsClient | proved |
| C57 | Approving signs only what was shown and agrees with the operator's own files | Client approve_manifest | iff against operator files; refutation for the environment, which is neither shown nor checked | PropsApprove | proved |
| C58 | Re-encrypting a share is only done for a genuine enclave running an approved manifest | Client proxy_re_encrypt_share | iff; composition with C54 | PropsReencrypt | proved |
| C59 | Genesis output accepted only from a genesis ceremony | Client after_genesis | iff of acceptance and completeness; refutation: a boot document passes for a genesis document | PropsGenesisClient, PropsGenesisForgery | proved |
| C60 | A generated manifest says what the operator's inputs say | Client generate_manifest | iff: the text is the manifest described by the inputs | PropsGenerate | proved |
| C61 | A manifest envelope collects only valid approvals | Client generate_manifest_envelope | iff; reads back | PropsEnvelope | proved |
| C62 | A key-set directory denotes one set, whatever the listing order | Client key sets | permutation invariance | PropsClient | proved |
| C63 | A command acts at most once on the enclave and reports its answer | ClientNet: client, host, enclave over lossy HTTP with other users | log invariants: at most one action per command, answers are the enclave's | PropsClientNet | proved |
| C64 | An approved manifest boots | Services on a working device | forward run | PropsBoot | proved |
| C65 | The ceremonies, end to end | all of the above | composition genesis → manifest → approvals → boot → shares | PropsCeremony | proved |
| C66 | A pooled call returns the server's answer to its own request | Calls: pooled client, cancellation, server, byte streams | labelled transition system, inductive invariant on wires | PropsCalls | proved |
| C67 | Streams of a pool are exclusive and never leak | Calls | ownership invariant; liveness of an undisturbed call | PropsCalls | proved |
| C68 | The egress bridge delivers packets whole and in order | Egress | byte-stream induction over fragments | PropsEgress | proved |
| C69 | The remote-connection proxy connects only as asked and is then a transparent pipe | Proxy | process/refinement of the accept loop; copy loop as byte streams | PropsProxy | proved |
| C70 | DNS resolvers are shared exactly by configuration | Proxy | iff on configuration keys | PropsProxy | proved |
| C71 | The host's health and info routes report what the enclave really said | Host | reduction to enclave states reached meanwhile | PropsHost | proved |
| C72 | Clients of the host reach exactly the application ports the manifest configures | Bridge | port reconciliation loop invariants | PropsBridge | proved |
| C73 | The operator's file tools are inverses of each other and keep secrets private on disk | FileTools | inverse laws, file-mode analysis; refutation for stale shares | PropsFileTools | proved |
| C74 | Manifest and envelope files in Borsh and in JSON are never confused | TypesJson, Client conversions | first-byte arguments and round trips; refutation for V0 | PropsConvert | proved |
| C75 | The client does exactly what its command line says | ClientCli on CliParser | iff per command | PropsClientCli | proved |
| C76 | The sample application signs exactly what it was asked, under the quorum key of the manifest | SignedEcho | iff per route, JSON writer injectivity | PropsSignedEcho | proved |
| C77 | The programs around the enclave start exactly as their command lines say | DaemonCli on CliParser | iff per program | PropsDaemonCli | proved |
| C78 | The development boot reports only real success | DevBoot on ClientNet | run inversion under interference; forward run on a working network | PropsDevBoot | proved |
| C79 | A smart card and a key file are interchangeable | Yubi (card as a state machine with a fault plan) on P256 | inversion of successful runs under any fault plan; forward runs when nothing fails | PropsYubi | proved |
| C80 | Card operations cannot destroy or leak key use | Yubi | relations kept by every exchange under any fault plan; refutations by explicit cards | PropsYubi | proved |
| C81 | The enclave's console is logged line by line | EnclaveHost | the writer keeps (events so far, unfinished line) related to the stream read; lines are unique | PropsEnclaveHost | proved |
| C82 | qos_enclave launches the enclave it was told to and tells its health | EnclaveHost | case analysis over the launch steps; environment parsing against the spec of numbers | PropsEnclaveHost | proved |
| C83 | init serves only after the entropy check, and reboots afterwards | Init | closed form of the boot trace, then case analysis over system calls | PropsInit | proved |
| C84 | The mock NSM keeps a faithful register bank | MockNsm | invariant over request histories (register value = fold of extensions before the first lock); symbolic run of the boot over any system whose module answers as the mock | PropsMockNsm | proved |
| C85 | A mock PCR seed file means what it says | MockNsm | words and lines of a text characterised both ways; induction over lines | PropsMockNsm | proved |
| C86 | The NSM wrapper is transparent | NsmTypes | case analysis over all variants | PropsNsmTypes | proved |
| C87 | A secret being written to disk cannot be read by the machine's other users | Posix | labelled bytes, invariants over all interleavings of other users; two attacks as counterexamples | PropsPrivate | proved |
| C88 | Extracting the enclave's key from an attestation document | EphHex, FileTools | exact characterisation; composition with C73; counterexample with an unvouched module | PropsEphHex | proved |
| C89 | Where each enclave of a fleet has its quorum key from | Fleet (many State.v machines, untrusted carriers), Services | invariant over fleet histories: every signed document is traced to the enclave and manifest that asked for it; induction over the lineage | PropsFleet | proved |
| C90 | Answers reveal nothing about shares and keys beyond their fate | World, Services, State (pairs of runs) | unwinding: a relation on pairs of states preserved by every request and crash; compositional two-run lemmas over the monad | PropsSecrecy | proved |
| C91 | An approval is for one manifest | Services (manifest_hash, check_approvals, put_manifest_and_pivot), TypesBorsh, TypesJson | injectivity of the codecs field by field; two-run relation for boots that differ in the manifest only | PropsBind | proved |
| C92 | Which approval comes with a share makes no difference | Services (provision), State | two-run relation: states equal but for the stored manifest envelope, preserved by every operation; induction on the history | PropsReplay | proved |
| C93 | Layout and member order of JSON documents do not matter | The JSON text parser (Json.v), every serde decoder of the manifest types, client inputs and protocol messages, version detection and the Borsh fallback | A text grammar with free layout as specification, parser completeness by mutual induction over it; a reordering relation preserved by every decoder combinator; sorted maps are determined by their lookups; Borsh files are never JSON (C74) | PropsLayout | proved |
| C94 | Numbers in JSON documents are read exactly | qos_json string_or_numeric (js_uint) on every JSON value | decimal digits as lists and their value as specification; equivalence with the decoder by induction on digits | PropsNumbers | proved |
| C95 | A manifest document means what its members say | TypesJson decoders of every manifest and envelope part; SpecMeaning as relations | one equivalence per type, found by instance; dec_struct characterised by membership, map collection by last entry and order | PropsMeaning | proved |
| C96 | The Borsh bytes on the wire, in storage and under the hashes are the documented layout | all Borsh codecs: TypesBorsh, MsgBorsh, Services (genesis), Proxy, P256 envelopes | SpecBorsh layout functions; per codec enc = layout and wf <-> fit, enum alternatives numbered by induction; lawfulness gives the reading direction | PropsBorsh | proved |
| C97 | Which texts are IP addresses, and how an address is written | TypesJson parse_ip_addr / print_ip_addr (std::net), ClientCli dns_from | grammar SpecIp; each reader equals its grammar piece up to the first other character; printing by sweeps over all groups and all patterns of zero groups | PropsIp | proved |
| C98 | The egress program at both ends: how it is launched and when it gives way to a new one | EgressRun (reaper, host bridge, copy_bidirectional), DaemonCli | launched lines split and parsed for a symbolic number; invariants over all sequences of failures and looks, for both panic settings | PropsEgressRun | proved |
| C99 | With egress, the enclave serves only behind a fully set-up tunnel interface | EgressInit (init with the egress feature), Init | first command that does not end well, by induction on the commands; the boot of C83 left as it is; padding argument for names | PropsEgressInit | proved |
| C100 | Which listener a connection to a unix socket path reaches | ListenerFiles (stream.rs listeners) | invariant that files know their listeners, over all histories; a predicate on the rest of a history for what leaves a path alone | PropsListenerFiles | proved |

## Findings (statements a user may expect that the code does not meet)

Proved as theorems with `refuted` in their names, or as stated limits:

* One share-set member can post all shares (C12; the dev boot relies on it, C78).
* A fault of the final chmod leaves an installed quorum key behind a reported
  failure (C13).
* The stored pivot and a mutated manifest are not crash-atomic (C18).
* The PCR index bound of attestation documents is off by one: index 32 passes (C23).
* The combination helper panics (division by zero) for some choices from 66
  elements and every choice from 71 on (C27).
* The version probe and the V1 decoder read JSON differently: a manifest that
  declares version 2 can be read as V1 (C31, and inside requests C49).
* Boot-standard, boot-key-forward and export-key requests cannot be decoded from
  Borsh, although clients write them (C37).
* Converting a V0 manifest does not keep its hash (C74).
* Hex decoding accepts `+` before a digit (C33).
* The send loop never ends against a socket that keeps accepting zero bytes (C35).
* The pivot's environment variables are never handed to the pivot (C46), nor
  shown to the approver (C57).
* The boot document of an enclave running an attacker-approved manifest passes
  for a genesis document (C59).
* Stale shares in an output directory go unnoticed (C73).
* Command-line limits: options that can never be given, a bad override port
  dropped silently, differing `--vsock-to-host` defaults (C75, C77).
* dangerous-dev-boot (C78) and get-ephemeral-key-hex (C88) never verify the
  attestation document.
* Smart cards: a transient read error lets provisioning replace a key, a lost
  exchange leaves a card half provisioned for good, a reset reports success
  without one (C80).
* qos_enclave may exit and leave its enclave running (C82); a failed power-off
  lets init go on without the entropy check (C83).
* The mock NSM accepts seeds of 32 or 64 bytes, which make a later extension
  panic (C84).
* A manifest approval can be replayed as a share approval (C92).
* A version 1 and a version 0 manifest can share one hash, so approvals of one
  boot the other through the JSON boot request (C91).
* An argument with a NUL byte is accepted everywhere and its pivot can never
  start: the reaper panics (C16).
* In the host's image, the egress program stays, and is not started again, when
  one of its two directions has failed and the other has not (C98).
* Dropping a unix listener removes whatever is at its path, a later listener's
  socket too; opening one deletes a plain file there (C100).
* Secrets written over an existing readable file, or by root in a shared
  directory, can be read by other users through a race (C87).

## Trusted base

* Coq 8.16.1's kernel, including `vm_compute`; no `native_compute`, no plugin,
  no flag switching off a check, no `Admitted`.
* Axioms: none. `Print Assumptions` prints *Closed under the global context* for
  each of the 394 theorems (list below). Standard-library files loaded here (`lia`'s
  `Zify*` modules require `Coq.ssr.*`) make `coqchk` list
  the seven declarations `Coq.ssr.ssrunder.Under_rel.*` (`Over_rel`,
  `Under_rel_from_rel`, `over_rel`, `over_rel_done`, `Under_rel`, `Under_relE`,
  `under_rel_done`) of the standard library; no theorem depends on them.
* Faithfulness of the transcription: every model definition cites its source
  lines, and simplifications are named there. `seeded/LOG.jsonl` records wrong
  programs and the theorems that reject them.

### Modelled

qos_hex, qos_json (canonical writer, parser, schema rules as used), qos_crypto
(shamir, n_choose_k), qos_p256 (layouts and checks), qos_nsm nitro checks and
types, its driver wrapper and mock, qos_core (protocol state machine and all services, processor, messages,
errors, manifest types of all versions, builder, environment, handles, reaper,
parser, cli, io stream/pool/host_bridge, client, server, egress), qos_host
(routes and cli), qos_net (proxy, connection, stream, messages, cli), qos_bridge
(host, cli), qos_client (cli parsing, ceremonies, file tools, conversions,
network commands, dev boot, YubiKeys), signed_echo, qos_enclave, init with
qos_aws and qos_system (nitro-cli and the kernel are the environment).

Fleet.v puts any number of these state machines side by side, with hosts that
carry anything between them (C89).

### Not modelled

* Internals of p256, aes-gcm, sha2, hkdf, hmac, vsss-rs beyond GF(256)
  arithmetic, COSE/CBOR and X.509 parsing, webpki, hickory-resolver: oracles.
* serde_json and borsh are modelled as used by these types (objects, arrays,
  strings with all escapes, integers; floats are rejected where the schema has
  none), not as general libraries.
* tokio, hyper/axum, ureq: by documented behaviour only; memory, time-outs other
  than those named, and logging are not modelled.
* the PIV hardware (modelled from its manual in Yubi.v), nitro-cli, the kernel, images,
  test harness, integration tests.
* The kernel's file system beyond: write may fail part-way, rename and chmod are
  atomic or fail.
* Denial of service (memory exhaustion, CPU time), side channels.

### `Print Assumptions`, theorem by theorem

Each line below was printed by the build (the command follows every theorem in its file): *Closed under the global context* for all 394 theorems.

* C01: `c01_status_reports_phase`, `c01_one_edge_per_request`, `c01_phase_path`, `c01_terminal_phases`
* C02: `c02_unserved_refused_without_effect`, `c02_served_is_routed`
* C03: `c03_read_only`
* C04: `c04_installed_key_is_the_manifests`
* C05: `c05_only_by_provision_or_inject`, `c05_never_changes`, `c05_all_files_frozen`, `c05_success_means_installed`
* C06: `c06_pivot_write_once`, `c06_manifest_only_grows`, `c06_manifest_only_grows_without_faults`
* C07: `c07_accepted_boot`
* C08: `c08_approvals_sound`
* C09: `c09_approvals_complete`, `c09_order_and_shares_irrelevant`
* C10: `c10_zero_threshold_needs_no_approval`, `c10_positive_threshold_rejects_empty`
* C11: `c11_threshold_of_accepted_shares`, `c11_recorded_share_approvals`
* C12: `c12_distinct_members_refuted`, `c92_the_approval_makes_no_difference`, `c11_recorded_share_approvals`
* C13: `c13_failure_is_fatal`, `c13_failure_leaves_no_key`, `c13_no_second_boot`, `c13_error_means_no_key_refuted`, `c13_key_despite_error_exactly`
* C14: `c14_locked_before_any_file`
* C15: `c15_live_key_in_place`, `c15_rotated_before_key`
* C16: `c16_pivot_started_only_on_consistent_boot`, `c16_reaper_never_panics`, `c16_nul_argument_is_never_started`
* C17: `c17_all_or_nothing`, `c17_publications`, `c17_key_world_readable`, `c17_every_publication_readable`
* C18: `c18_every_boot_exposes_every_prefix`, `c18_every_provision_exposes_a_broken_manifest`, `c18_pivot_not_atomic`, `c18_manifest_not_atomic`
* C19: `c19_export_conditions`
* C20: `c20_forwarding_round_trip`
* C21: `c21_inject_accepts_only_the_key`
* C22: `c22_user_input_exact`, `c22_against_manifest_exact`, `c22_document_authentic_exact`, `c22_timestamp_never_compared`
* C23: `c23_syntax_exact`, `c23_documented_bounds_refuted`, `c23_documented_bounds_without_32`
* C24: `c24_commitment_binding`, `c24_commitment_is_hash_of_text`, `c24_register_binding`
* C25: `c25_any_k_shares_reconstruct`, `c25_shares_distinct`, `c25_generate_refuses`, `c25_reconstruct_refuses`
* C26: `c26_fewer_shares_hide`
* C27: `c27_combinations_exactly`, `c27_combinations_unless_panic`, `c27_when_it_panics`, `c27_up_to_65`, `c27_degenerate`, `c27_every_size_refuted`
* C28: `c28_borsh_canonical`
* C29: `c29_borsh_versions_exclusive`, `c29_borsh_envelope_versions_exclusive`, `c29_ambiguity_exists`
* C30: `c30_envelope_storage_round_trip`, `c30_manifest_storage_round_trip`
* C31: `c31_declared_version_no_fallback`, `c31_declared_version_manifest_no_fallback`, `c31_v2_means_v2`, `c31_declared_version_refuted`
* C32: `c32_canonical_json_iff`, `c32_canonical_json_parses_back`, `c32_manifest_v2_preimage_injective`, `c32_canonical_form`, `c32_floats_are_refused`
* C33: `c33_hex_round_trip`, `c33_hex_encode_lowercase`, `c33_hex_decode_exact`, `c33_hex_decode_language`, `c33_fixed_size_exact`, `c33_hex_decode_exact_refuted`
* C34: `c34_send_writes_the_frame`, `c34_send_completes`, `c34_recv_returns_the_payload`, `c34_frames_in_order`, `c34_truncated_is_an_error`, `c34_oversized_header_refused`, `c34_recv_sound`
* C35: `c35_send_terminates_refuted`, `c35_send_terminates_if_progress`, `c35_send_terminates_unless_stalled`, `c35_stalled_never_ends`
* C36: `c36_always_answers`, `c36_refusals_change_nothing`, `c36_answer_in_request_encoding`, `c36_bytes_stay_in_histories`, `c36_concurrent_requests_are_sequential`, `c36_one_request_at_a_time`
* C37: `c37_refuted_no_borsh_boot_forward_or_export`, `c37_refuted_what_is_written_is_refused`, `c37_other_borsh_messages_round_trip`, `c37_json_messages_round_trip`
* C38: `c38_builder_exact`, `c38_builder_fails_iff_incomplete`
* C39: `c39_env_limits`, `c39_env_insert`, `c39_env_names_exact`, `c39_env_values_exact`, `c39_env_borsh_round_trip`
* C40: `c40_genesis_output_faithful`, `c40_threshold_of_members_recover_the_key`, `c40_fewer_members_learn_nothing`, `c40_genesis_served_iff`
* C41: `c41_public_key_layout`, `c41_public_key_round_trip`, `c41_public_key_refusals`, `c41_pair_public_key_reads_back`, `c41_pair_is_derived`, `c41_generate_is_a_random_seed`, `c41_saved_pair_reads_back`, `c41_aad_determines_parties`, `c41_decrypt_follows_the_format`, `c41_envelope_one_reading`, `c41_decrypts_what_was_encrypted`, `c41_encrypts_what_fits`, `c41_aes_follows_the_format`, `c41_aes_round_trip`, `c41_signatures_verify`, `c41_protocol_keys_lawful`
* C42: `c42_vsock_sequence`, `c42_unix_sequence`, `c42_distinct`, `c42_expand_monotone_idempotent`, `c42_expand_is_new`, `c42_listen_adds_no_streams`, `c42_refuted_failed_listen_can_be_retried`
* C43: `c43_never_over_the_limit`, `c43_freed_permits_reusable`, `c43_full_means_closed`, `c43_drop_stops_accepting`, `c43_refuted_drop_stops_service`
* C44: `c44_accepts_exactly`, `c44_values_read_back`, `c44_reading_unique`, `c44_help_short_circuits`, `c44_version_short_circuits`, `c44_never_panics`, `c44_options_drop_the_binary_name`, `c44_options_without_binary_name`, `c44_command_parses_the_rest`, `c44_command_missing_or_unknown`
* C45: `c45_never_at_most_once`, `c45_always_restarts`, `c45_always_never_finishes`
* C46: `c46_pivot_environment_delivered_refuted`, `c46_environment_always_empty`
* C47: `c47_bridges_as_configured`
* C48: `c48_resolv_conf_as_configured`, `c48_resolv_conf_reads_back`
* C49: `c49_refuted_declared_v2_read_as_v1`, `c49_declared_without_patch_set_is_v2`, `c37_json_messages_round_trip`
* C50: `c50_encodings_disjoint`
* C51: `c51_runs_as_told`, `c51_default_files_distinct`, `c51_refuted_files_always_distinct`
* C52: `c52_app_sockets_distinct`, `c52_app_socket_is_not_the_base`
* C53: `c53_one_answer_per_request_in_order`
* C54: `c54_honest_provisioning_completes`, `c54_threshold_below_two_never_provisions`
* C55: `c55_only_own_requests`, `c55_answer_is_own_attestation`
* C56: `c56_one_question`, `c56_all_questions`, `c56_order`, `c56_silence`, `c56_no`
* C57: `c57_approve_iff`, `c57_asked_about`, `c57_signed`, `c57_same_manifest`, `c57_environment_refuted`
* C58: `c58_reencrypt_sound`, `c58_reencrypt_complete`, `c58_honest_request`, `c58_holders_provision_the_enclave`
* C59: `c59_accept_iff`, `c59_after_iff`, `c59_verify_iff`, `c59_endorsed_is_a_ceremony`, `c59_keyless_document_is_a_ceremony`, `c59_honest_ceremony_accepted`, `c59_boot_document_passes_for_genesis`
* C60: `c60_v1_iff`, `c60_v2_iff`, `c60_complete`, `c60_reads_back`, `c60_approvable`
* C61: `c61_envelope_sound`, `c61_reads_back`, `c61_envelope_complete`, `c61_collects_what_was_approved`
* C62: `c62_manifest_or_share_set`, `c62_genesis_set`, `c62_patch_set`, `c62_any_order`, `c62_unique`
* C63: `c63_commands_act_at_most_once`, `c63_undisturbed_commands_succeed`, `c63_refuted_boot_reports_the_enclaves_refusal`
* C64: `c64_approved_boot_succeeds`
* C65: `c65_ceremonies_provision_the_key`
* C66: `c66_answers_are_to_the_callers_own_request`, `c66_reads_exactly_one_message`, `c66_served_in_real_time_order`, `c66_refuted_a_failed_call_has_no_later_effect`
* C67: `c67_streams_are_exclusive_and_never_leak`, `c67_a_waiting_call_gets_a_stream`, `c67_an_undisturbed_call_is_answered`
* C68: `c68_packets_are_delivered_whole`, `c68_every_packet_is_delivered`, `c68_a_cut_packet_is_not_delivered`, `c68_no_write_crosses_a_packet`, `c68_malformed_header_is_survived_refuted`
* C69: `c69_messages_decode_only_their_encodings`, `c69_connects_only_as_requested`, `c69_transparent_pipe`, `c69_told_connected_means_connected`, `c69_nothing_is_lost`
* C70: `c70_resolvers_are_shared_exactly_by_configuration`
* C71: `c71_health_tells_the_phase`, `c71_health_answers`, `c71_info_tells_the_truth`, `c71_reported_manifest_is_final`, `c71_info_answers`, `c71_info_is_readable`, `c71_refuted_info_is_a_snapshot`
* C72: `c72_bridge_uses_the_enclaves_manifest`, `c72_bridge_starts`, `c72_clients_reach_exactly_the_configured_ports`, `c72_at_most_one_egress`, `c72_relay_is_transparent`, `c72_every_listener_binds`, `c72_bridge_runs_to_the_end`, `c72_unix_control_socket_is_not_exposed`, `c72_refuted_override_serves_every_entry`, `c72_refuted_every_port_can_be_bridged`, `c72_refuted_control_socket_is_not_exposed`
* C73: `c73_secrets_are_private`, `c73_sign_then_verify`, `c73_encrypt_then_decrypt`, `c73_split_then_reconstruct`, `c73_refuted_stale_shares_are_detected`
* C74: `c74_borsh_is_never_json`, `c74_borsh_file_reads_back`, `c74_json_to_borsh`, `c74_json_to_borsh_succeeds`, `c74_displayed_json_reads_back`, `c74_refuted_v0_conversion_keeps_the_hash`
* C75: `c75_does_what_the_command_line_says`, `c75_unsafe_only_when_asked`, `c75_unknown_options_are_refused`, `c75_order_is_irrelevant`, `c75_pivot_args_exactly`, `c75_option_values`, `c75_options_that_cannot_be_given`
* C76: `c76_signed_statements`, `c76_one_meaning`, `c76_always_answers`, `c76_speaks_for_the_manifest`, `c76_no_key_no_statement`, `c76_only_successes_attest`, `c76_command_line`
* C77: `c77_host_starts_as_told`, `c77_proxy_starts_as_told`, `c77_ingress_starts_as_told`, `c77_egress_starts_as_told`, `c77_client_reaches_the_host`, `c77_to_host_defaults_differ`, `c77_refuted_a_bad_override_is_refused`
* C78: `c78_success_is_real`, `c78_dev_boot_provisions`
* C79: `c79_signatures_verify`, `c79_sign_command`, `c79_decrypts_only_as_the_key_file`, `c79_decrypts_all_the_key_file_does`, `c79_provisioned_from_the_seed`, `c79_generated_key_is_the_published_one`, `c79_a_fresh_card_is_provisioned`, `c79_signs_with_the_right_pin`
* C80: `c80_use_changes_no_key`, `c80_needs_the_pin`, `c80_never_overwrites_without_faults`, `c80_half_provisioned_is_stuck`, `c80_reset_wipes`, `c80_refuted_provisioning_never_overwrites`, `c80_refuted_interrupted_provisioning_can_be_completed`, `c80_refuted_reset_success_means_reset`
* C81: `c81_console_lines_are_logged`, `c81_chunking_is_invisible`, `c81_text_is_verbatim`, `c81_events_are_text`, `c81_replacements`
* C82: `c82_launches_as_told`, `c82_starts_when_it_can`, `c82_health_is_the_first_enclaves`, `c82_refuted_exit_leaves_no_enclave`
* C83: `c83_serves_exactly_when`, `c83_serves_only_with_hardware_entropy`, `c83_what_it_serves`, `c83_files_are_on_the_root`, `c83_mounts_are_restricted`, `c83_refuted_entropy_failure_stops_the_boot`
* C84: `c84_registers_tell_their_history`, `c84_answers`, `c84_documents_show_the_registers`, `c84_boot_commits`, `c84_commits_once`, `c84_documents_verify`, `c84_refuted_any_accepted_seed_will_do`
* C85: `c85_seed_file`
* C86: `c86_conversions_lose_nothing`, `c86_requests_are_told_apart`, `c86_wrapper_is_transparent`
* C87: `c87_others_never_read_the_secret`, `c87_secret_goes_to_own_private_file`, `c87_success_means_written`, `c87_refuted_existing_readable_file`, `c87_refuted_root_in_shared_directory`
* C88: `c88_writes_the_documents_key`, `c88_encrypting_to_the_extracted_key`, `c88_refuted_document_is_verified`
* C89: `c89_every_key_has_a_lineage`, `c89_rooted_in_shares`
* C90: `c90_no_other_answer_depends_on_secrets`, `c90_a_share_shows_only_its_fate`, `c90_a_forwarded_key_shows_only_its_fate`
* C91: `c91_a_hash_is_for_one_manifest`, `c91_what_an_approval_always_covers`, `c91_refuted_an_approval_covers_the_arguments`, `c91_a_borsh_envelope_has_no_twin`
* C92: `c92_the_approval_makes_no_difference`, `c92_refuted_a_share_approval_is_given_for_the_share`
* C93: `c93_any_layout_is_read`, `c93_manifest_in_any_order`, `c93_envelope_in_any_order`, `c93_message_in_any_order`, `c93_client_input_in_any_order`
* C94: `c94_numbers_exactly`, `c94_one_reading`
* C95: `c95_manifest_documents`, `c95_envelope_documents`, `c95_no_member_twice_none_unknown`
* C96: `c96_manifest_bytes`, `c96_digests`, `c96_message_written`, `c96_message_read`, `c96_proxy_message`, `c96_ciphertext_bytes`
* C97: `c97_address_read`, `c97_one_meaning`, `c97_resolvers_option`, `c97_address_written`, `c97_one_written_form`, `c97_written_is_read`, `c97_resolv_conf_text`
* C98: `c98_enclave_launches`, `c98_host_launches`, `c98_enclave_gives_way`, `c98_host_gives_way`, `c98_refuted_host_starts_again_when_a_direction_fails`
* C99: `c99_serves_exactly_when`, `c99_set_up_before_serving`, `c99_stops_at_the_first_failure`, `c99_nothing_else_changes`, `c99_names_of_interfaces`, `c99_the_program_opens_it`
* C100: `c100_taken_by_a_listener_of_that_path`, `c100_a_dropped_listener_is_never_reached`, `c100_a_new_listener_is_reached`, `c100_opened_exactly_when`, `c100_every_socket_of_a_pool_is_reached`, `c100_refuted_reached_until_dropped`, `c100_refuted_other_files_are_kept`
