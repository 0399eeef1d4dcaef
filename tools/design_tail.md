## Findings (statements a user may expect that the code does not meet)

Proved as theorems with `refuted` in their names, or as stated limits:

* One share-set member can post all shares (C12; the dev boot relies on it, C78).
* A fault of the final chmod leaves an installed quorum key behind a reported
  failure (C13).
* The stored pivot and a mutated manifest are not crash-atomic (C18).
* The PCR index bound of attestation documents is off by one: index 32 passes (C23).
* The combination helper panics (division by zero) for some choices from 66
  elements and every choice from 71 on (C27).
* The version probe and the V1 decoder read JSON differently: a manifest that
  declares version 2 can be read as V1 (C31, and inside requests C49).
* Boot-standard, boot-key-forward and export-key requests cannot be decoded from
  Borsh, although clients write them (C37).
* Converting a V0 manifest does not keep its hash (C74).
* Hex decoding accepts `+` before a digit (C33).
* The send loop never ends against a socket that keeps accepting zero bytes (C35).
* The pivot's environment variables are never handed to the pivot (C46), nor
  shown to the approver (C57).
* The boot document of an enclave running an attacker-approved manifest passes
  for a genesis document (C59).
* Stale shares in an output directory go unnoticed (C73).
* Command-line limits: options that can never be given, a bad override port
  dropped silently, differing `--vsock-to-host` defaults (C75, C77).
* dangerous-dev-boot (C78) and get-ephemeral-key-hex (C88) never verify the
  attestation document.
* Smart cards: a transient read error lets provisioning replace a key, a lost
  exchange leaves a card half provisioned for good, a reset reports success
  without one (C80).
* qos_enclave may exit and leave its enclave running (C82); a failed power-off
  lets init go on without the entropy check (C83).
* The mock NSM accepts seeds of 32 or 64 bytes, which make a later extension
  panic (C84).
* A manifest approval can be replayed as a share approval (C92).
* A version 1 and a version 0 manifest can share one hash, so approvals of one
  boot the other through the JSON boot request (C91).
* An argument with a NUL byte is accepted everywhere and its pivot can never
  start: the reaper panics (C16).
* In the host's image, the egress program stays, and is not started again, when
  one of its two directions has failed and the other has not (C98).
* Dropping a unix listener removes whatever is at its path, a later listener's
  socket too; opening one deletes a plain file there (C100).
* Secrets written over an existing readable file, or by root in a shared
  directory, can be read by other users through a race (C87).

## Trusted base

* Coq 8.16.1's kernel, including `vm_compute`; no `native_compute`, no plugin,
  no flag switching off a check, no `Admitted`.
* Axioms: none. `Print Assumptions` prints *Closed under the global context* for
  each of the @N@ theorems (list below). Standard-library files loaded here (`lia`'s
  `Zify*` modules require `Coq.ssr.*`) make `coqchk` list
  the seven declarations `Coq.ssr.ssrunder.Under_rel.*` (`Over_rel`,
  `Under_rel_from_rel`, `over_rel`, `over_rel_done`, `Under_rel`, `Under_relE`,
  `under_rel_done`) of the standard library; no theorem depends on them.
* Faithfulness of the transcription: every model definition cites its source
  lines, and simplifications are named there. `seeded/LOG.jsonl` records wrong
  programs and the theorems that reject them.

### Modelled

qos_hex, qos_json (canonical writer, parser, schema rules as used), qos_crypto
(shamir, n_choose_k), qos_p256 (layouts and checks), qos_nsm nitro checks and
types, its driver wrapper and mock, qos_core (protocol state machine and all services, processor, messages,
errors, manifest types of all versions, builder, environment, handles, reaper,
parser, cli, io stream/pool/host_bridge, client, server, egress), qos_host
(routes and cli), qos_net (proxy, connection, stream, messages, cli), qos_bridge
(host, cli), qos_client (cli parsing, ceremonies, file tools, conversions,
network commands, dev boot, YubiKeys), signed_echo, qos_enclave, init with
qos_aws and qos_system (nitro-cli and the kernel are the environment).

Fleet.v puts any number of these state machines side by side, with hosts that
carry anything between them (C89).

### Not modelled

* Internals of p256, aes-gcm, sha2, hkdf, hmac, vsss-rs beyond GF(256)
  arithmetic, COSE/CBOR and X.509 parsing, webpki, hickory-resolver: oracles.
* serde_json and borsh are modelled as used by these types (objects, arrays,
  strings with all escapes, integers; floats are rejected where the schema has
  none), not as general libraries.
* tokio, hyper/axum, ureq: by documented behaviour only; memory, time-outs other
  than those named, and logging are not modelled.
* the PIV hardware (modelled from its manual in Yubi.v), nitro-cli, the kernel, images,
  test harness, integration tests.
* The kernel's file system beyond: write may fail part-way, rename and chmod are
  atomic or fail.
* Denial of service (memory exhaustion, CPU time), side channels.
