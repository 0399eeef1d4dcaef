# Formal model of tkhq/qos in Rocq (Coq 8.16.1)

(This file is generated by `tools/design.py` from `tools/design_head.md`,
`tools/design_tail.md`, `properties.jsonl` and `MANIFEST.json`.)

Source modelled: `/repo/src` at the pinned commit. Nothing is built or run from
the repo: the tie between code and model is the file/line citation on every
definition. Build: `cd rocq && coq_makefile -f _CoqProject -o Makefile && make -j4`.

## Layout (`rocq/theories`)

| kind | files | content |
|---|---|---|
| data formats | `Base Utf8 Hex Borsh Json Types TypesBorsh TypesJson Env Builder JsonComb Msg MsgBorsh MsgJson Wire` | qos_hex, qos_json, borsh 1.x as used, serde_json as used, the manifest and message types of qos_core and their codecs, the request processor |
| enclave | `World Attest Services State Reach Reaper` | oracles, files and effect history; qos_nsm/nitro checks; boot, genesis, provision, key, attestation services; the protocol state machine; histories and crashes; the reaper |
| arithmetic | `Gf256 Shamir NChooseK P256` | vsss-rs sharing as used by qos_crypto; the combination helper; qos_p256 key, signature and envelope layout |
| transport | `Stream ListenerFiles Pool Server Calls Egress EgressRun EgressInit Proxy Bridge` | qos_core io (framing, pools, client, server), egress, host bridge, qos_bridge, qos_net proxy |
| programs | `CliParser EnclaveCli DaemonCli ClientCli Host SignedEcho` | option parser and every command line; host routes; sample app |
| client | `Client ClientNet FileTools DevBoot` | qos_client services (ceremonies, file tools, dev boot), with the network between client and enclave |
| specs | `Spec*` and the "Specification" section on top of a `Props*` file | small definitions, independent of the model's helpers, that theorems are stated with |
| proofs | `*Proofs`, `*Laws`, `Client*`, `Run`, `Invariant`, ... | lemmas |
| theorems | `Props*` | the theorems of `MANIFEST.json`, each followed by `Print Assumptions`, and non-vacuity `Example`s |
| instances | `Toy*`, `CodecExamples` | concrete worlds and histories used by the examples |

## Properties the code does not meet as intended

Where the documented or intended form of a property is false of the code, the
property is stated in the form the code satisfies, with the intended form and the deviation kept in the statement, and a
theorem with `refuted` in its name (or a universal negative theorem) is listed with it.
A claim is `partial` if only part of its statement is proved; none is at present.

## Modelling decisions

* Bytes are `Coq.Init.Byte.byte`; Rust `String` is a byte list with an explicit
  UTF-8 validity predicate where the code checks it. Rust integers are `N` with
  the range check or wrap-around the code has.
* `&mut self` functions return the new state. `Result` is `result E A`
  (`Ok`/`Err`); a panic is an explicit value (an error, `None`, or `false`,
  stated at each definition).
* Cryptography and the platform are an *oracle record* (`World.sys`): hash
  functions, point validity, seed to key pair, sign, verify, encrypt, decrypt,
  split and combine, COSE and X.509 verdicts, the NSM as an arbitrary state
  machine, randomness as an arbitrary tape, I/O faults as an arbitrary tape that
  may fail any file operation after any number of bytes. Theorems quantify over
  that record. Laws are explicit premises, grouped as `sys_ok` (output lengths,
  key pairs are valid points), `crypto_ok` (decrypt inverts encrypt, verify
  accepts sign), `sharing_ok` (split/combine are the functions of `Shamir`),
  `no_faults`, `primitives_total`, `working` (a device that behaves as the Nitro
  documentation says). Each has a concrete inhabitant in `Toy*`/`PropsGenesis`.
  No law says that forging or breaking is impossible: "signed" means "the
  verifier accepts".
* The file system is a map from the four configured paths and their temporary
  siblings to (content, mode); every primitive effect appends the resulting
  file system to a history, so "at every crash point / to any concurrent
  observer" is "at every element of the history" (`moment`), and a restart may
  happen at any of them (`reach`).
* Concurrency: the enclave's processor holds one lock per request, so the
  enclave is sequential and concurrency is an arbitrary interleaving of
  requests (C36). Pools, servers, bridges and proxies are transition systems
  whose scheduler, network fragmentation, cancellations and failures are
  arbitrary.
* HTTP (ureq, axum) is modelled by its documented behaviour: a request may be
  lost, carried out and its answer lost, or answered; bodies above the limit
  are refused.
