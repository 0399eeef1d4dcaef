#!/usr/bin/env python3
"""Generates DESIGN.md: prose below plus tables read from properties.jsonl, MANIFEST.json and the theories."""
import json, re, glob, os
R=os.path.dirname(os.path.dirname(os.path.abspath(__file__)))
props=[json.loads(l) for l in open(R+'/properties.jsonl')]
man={c['property']:c for c in json.load(open(R+'/MANIFEST.json'))['claims']}
where={}
for f in sorted(glob.glob(R+'/rocq/theories/*.v')):
    for x in re.findall(r'^ *(?:Theorem|Lemma|Corollary) (\w+)',open(f).read(),re.M): where.setdefault(x,os.path.basename(f)[:-2])

HOW={
'C01':('State (routes, try_msg, transition, handle)','case analysis per phase and request; induction over the request list'),
'C02':('State','case analysis: a request that is not served returns the same state, with nothing added to the effect history'),
'C03':('State, Services','"quiet" effect analysis of every read-only service'),
'C04':('World (files, effect history), Services, Reach','one inductive invariant over all histories and all intermediate file systems (`Invariant`), read off at every moment'),
'C05':('as C04','the invariant; the quorum file is created by rename only, and never written again'),
'C06':('as C04','every primitive effect is classified (`EffectProofs`); induction over histories and restarts'),
'C07':('Services boot_standard/boot_key_forward','inversion of an accepting run, storage round trip (C30)'),
'C08':('Services check_approvals, SpecApproval','induction over the approval list; nothing assumed about signatures beyond the oracle'),
'C09':('as C08','completeness and permutation invariance of the check'),
'C10':('as C08','iff at threshold 0'),
'C11':('Services provision, Invariant','share approvals in the stored envelope tracked by the invariant'),
'C12':('as C11','refutation by a concrete history (one member posts every share); positive part proved for distinct approvals'),
'C13':('State, Services, CalmProofs','failure leads to UnrecoverableError, which is terminal; the key-less part holds without I/O faults, and is refuted with them by a concrete history'),
'C14':('World NSM transcript','invariant over the transcript of NSM calls: extend and lock precede the first publication'),
'C15':('as C04','order of effects inside `install`, at every moment'),
'C16':('Reaper','the reaper polls files; invariant of C04 at the moment it reads'),
'C17':('World write_as_read_only','every prefix of the effect sequence'),
'C18':('World','the effects of an accepted boot / provision request in order: each prefix appears in the trace; and concrete crash points'),
'C19':('Services export_key, Attest','iff characterisation of the accepting runs'),
'C20':('Services export_key + inject_key','composition of two enclaves under decrypt∘encrypt and verify∘sign laws'),
'C21':('Services inject_key','inversion'),
'C22':('Attest verify_against_manifest','iff against an independent specification of the document fields'),
'C23':('Attest syntactic_validation','iff against stated bounds; the documented index bound is refuted (off by one)'),
'C24':('Services commitments, Json','injectivity through hex and JSON layout, up to hash collisions stated as such'),
'C25':('Gf256, Shamir','field laws by exhaustive finite sweep in the kernel, Lagrange interpolation by induction on degree'),
'C26':('Gf256, Shamir','bijection between coefficient vectors for every secret (perfect secrecy as counting)'),
'C27':('NChooseK','loop invariant; wrapping factorials against divisibility by 2^64, tables for the finite range'),
'C28':('Borsh combinators, TypesBorsh','generic lawful-codec lemma, instantiated for every type'),
'C29':('TypesBorsh','disjointness of layouts and the exact overlap'),
'C30':('TypesJson, Json writer/parser','round trip by induction on JSON trees and schema codecs'),
'C31':('TypesJson try_from_slice_compat','induction through both JSON readers; refutation by a document only one of them accepts'),
'C32':('Json canonical writer','sorting, injectivity and idempotence by induction'),
'C33':('Hex','induction, byte sweeps; refutation for `+`-prefixed digits'),
'C34':('Stream','induction over arbitrary kernel read/write splits'),
'C35':('Stream','termination measure for progressing kernels; refutation for endless zero-length writes'),
'C36':('Wire processor','totality and encoding agreement; interleavings of several connections are some serial order'),
'C37':('Wire','round trip per message; refutation for boot and export requests'),
'C38':('Builder','iff of success; the built manifest is the described one'),
'C39':('Env','iff of each limit; reachability of every legal environment'),
'C40':('Services genesis, Shamir','inversion of the run; total success under totality of primitives'),
'C41':('P256','layout, iff of every parser; ECDH/AES-GCM/ECDSA as oracles'),
'C42':('Pool','arithmetic of CID/port/UNIX suffixes, iff of construction'),
'C43':('Server','invariant of the accept loop with the two semaphores'),
'C44':('CliParser','iff of acceptance against an independent grammar of token lists'),
'C45':('Reaper','trace of the restart loop for every sequence of exits'),
'C46':('Reaper','refutation, and the actual behaviour: the environment is always empty'),
'C47':('Reaper','trace prefix'), 'C48':('Reaper','iff'),
'C49':('Wire, TypesJson','refutation: an accepted request whose V2 manifest is read as V1'),
'C50':('Wire','first byte disjointness'),
'C51':('EnclaveCli on CliParser','iff from C44'),
'C52':('Pool','injectivity of per-port addresses'),
'C53':('Server','per-connection trace induction'),
'C54':('State, Shamir','forward simulation of honest provisioning among arbitrary other requests'),
'C55':('Services, NSM transcript','every attestation call ever made carries this enclave\'s values'),
'C56':('Client prompts','answers accepted by iff; order of the questions'),
'C57':('Client approve_manifest','iff against operator files; refutation for the environment, which is neither shown nor checked'),
'C58':('Client proxy_re_encrypt_share','iff; composition with C54'),
'C59':('Client after_genesis','iff of acceptance and completeness; refutation: a boot document passes for a genesis document'),
'C60':('Client generate_manifest','iff: the text is the manifest described by the inputs'),
'C61':('Client generate_manifest_envelope','iff; reads back'),
'C62':('Client key sets','permutation invariance'),
'C63':('ClientNet: client, host, enclave over lossy HTTP with other users','log invariants: at most one action per command, answers are the enclave\'s'),
'C64':('Services on a working device','forward run'),
'C65':('all of the above','composition genesis → manifest → approvals → boot → shares'),
'C66':('Calls: pooled client, cancellation, server, byte streams','labelled transition system, inductive invariant on wires'),
'C67':('Calls','ownership invariant; liveness of an undisturbed call'),
'C68':('Egress','byte-stream induction over fragments'),
'C69':('Proxy','process/refinement of the accept loop; copy loop as byte streams'),
'C70':('Proxy','iff on configuration keys'),
'C71':('Host','reduction to enclave states reached meanwhile'),
'C72':('Bridge','port reconciliation loop invariants'),
'C73':('FileTools','inverse laws, file-mode analysis; refutation for stale shares'),
'C74':('TypesJson, Client conversions','first-byte arguments and round trips; refutation for V0'),
'C75':('ClientCli on CliParser','iff per command'),
'C76':('SignedEcho','iff per route, JSON writer injectivity'),
'C77':('DaemonCli on CliParser','iff per program'),
'C78':('DevBoot on ClientNet','run inversion under interference; forward run on a working network'),
'C79':('Yubi (card as a state machine with a fault plan) on P256','inversion of successful runs under any fault plan; forward runs when nothing fails'),
'C80':('Yubi','relations kept by every exchange under any fault plan; refutations by explicit cards'),
'C81':('EnclaveHost','the writer keeps (events so far, unfinished line) related to the stream read; lines are unique'),
'C82':('EnclaveHost','case analysis over the launch steps; environment parsing against the spec of numbers'),
'C83':('Init','closed form of the boot trace, then case analysis over system calls'),
'C84':('MockNsm','invariant over request histories (register value = fold of extensions before the first lock); symbolic run of the boot over any system whose module answers as the mock'),
'C85':('MockNsm','words and lines of a text characterised both ways; induction over lines'),
'C86':('NsmTypes','case analysis over all variants'),
'C88':('EphHex, FileTools','exact characterisation; composition with C73; counterexample with an unvouched module'),
'C89':('Fleet (many State.v machines, untrusted carriers), Services','invariant over fleet histories: every signed document is traced to the enclave and manifest that asked for it; induction over the lineage'),
'C90':('World, Services, State (pairs of runs)','unwinding: a relation on pairs of states preserved by every request and crash; compositional two-run lemmas over the monad'),
'C91':('Services (manifest_hash, check_approvals, put_manifest_and_pivot), TypesBorsh, TypesJson','injectivity of the codecs field by field; two-run relation for boots that differ in the manifest only'),
'C92':('Services (provision), State','two-run relation: states equal but for the stored manifest envelope, preserved by every operation; induction on the history'),
 'C93':('The JSON text parser (Json.v), every serde decoder of the manifest types, client inputs and protocol messages, version detection and the Borsh fallback','A text grammar with free layout as specification, parser completeness by mutual induction over it; a reordering relation preserved by every decoder combinator; sorted maps are determined by their lookups; Borsh files are never JSON (C74)'),
 'C94':('qos_json string_or_numeric (js_uint) on every JSON value','decimal digits as lists and their value as specification; equivalence with the decoder by induction on digits'),
'C95':('TypesJson decoders of every manifest and envelope part; SpecMeaning as relations','one equivalence per type, found by instance; dec_struct characterised by membership, map collection by last entry and order'),
'C96':('all Borsh codecs: TypesBorsh, MsgBorsh, Services (genesis), Proxy, P256 envelopes','SpecBorsh layout functions; per codec enc = layout and wf <-> fit, enum alternatives numbered by induction; lawfulness gives the reading direction'),
 'C97':('TypesJson parse_ip_addr / print_ip_addr (std::net), ClientCli dns_from','grammar SpecIp; each reader equals its grammar piece up to the first other character; printing by sweeps over all groups and all patterns of zero groups'),
 'C98':('EgressRun (reaper, host bridge, copy_bidirectional), DaemonCli','launched lines split and parsed for a symbolic number; invariants over all sequences of failures and looks, for both panic settings'),
 'C99':('EgressInit (init with the egress feature), Init','first command that does not end well, by induction on the commands; the boot of C83 left as it is; padding argument for names'),
 'C100':('ListenerFiles (stream.rs listeners)','invariant that files know their listeners, over all histories; a predicate on the rest of a history for what leaves a path alone'),
'C87':('Posix','labelled bytes, invariants over all interleavings of other users; two attacks as counterexamples'),
}
try:
    exec(open(R+'/tools/design_extra.py').read())
except FileNotFoundError: pass
o=[]
o.append(open(R+'/tools/design_head.md').read())
o.append('## Properties: what is modelled and how it is proved\n')
o.append('Every row is stated in English in `properties.jsonl`; exact theorem names are in `MANIFEST.json`. Status *partial* means that the statement as written is not true of the code or not provable in full: the theorems suffixed `_partial` prove what holds and those named `refuted` prove the counterexample.\n')
o.append('| id | property | model | how it is proved | theorems in | status |\n|---|---|---|---|---|---|')
for p in props:
    c=man[p['id']]; m,h=HOW[p['id']]
    o.append('| %s | %s | %s | %s | %s | %s |'%(p['id'],p['title'],m,h,', '.join(sorted({where[t] for t in c['theorems']})),c['status']))
o.append('')
o.append(open(R+'/tools/design_tail.md').read())
n=sum(len(c['theorems']) for c in man.values())
text='\n'.join(o).replace('@N@',str(n)).replace('@P@',str(len(props)))
lst=['### `Print Assumptions`, theorem by theorem\n','Each line below was printed by the build (the command follows every theorem in its file): *Closed under the global context* for all %d theorems.\n'%n]
for p in props:
    lst.append('* %s: %s'%(p['id'],', '.join('`%s`'%t for t in man[p['id']]['theorems'])))
open(R+'/DESIGN.md','w').write(text+'\n'+'\n'.join(lst)+'\n')
