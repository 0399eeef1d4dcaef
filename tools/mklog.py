#!/usr/bin/env python3
"""Appends to /verif/seeded/LOG.jsonl the results of tools/mutate.py.  usage: mklog.py OUT.jsonl..."""
import json, os, re, sys
V = '/verif/rocq/theories/'
LOG = '/verif/seeded/LOG.jsonl'
NOTES = {  # id -> (tightened, note)
 'S07': (['c55_only_own_requests', 'c55_answer_is_own_attestation'], 'no registered theorem spoke of the key in the attestation request, so C55 was added; with it the edit is refused'),
 'CA3': (['c66_reads_exactly_one_message', 'c67_an_undisturbed_call_is_answered'], 'an over-reading receiver survived: the asynchronous model only bounded a read by what is asked for and no theorem said how much is asked; both theorems were added, with the first the edit is refused'),
 'EC1': ([], 'equivalent program: the other option still forbids this one, so no claim is broken'),
 'BR2': (['c72_clients_reach_exactly_the_configured_ports', 'c72_bridge_runs_to_the_end'], 'only the refuted theorem failed: the positive theorems read the port through the model helper, so both now state the override rule themselves; with them the edit is refused'),
 'CP9': (['c44_command_missing_or_unknown'], 'survived: no theorem spoke of a missing command; the theorem was added and refuses the edit'),
 'YUA': (['c79_sign_command'], 'survived: no theorem spoke of what the command prints; the theorem was added and refuses the edit'),
 'IN4': (['c83_mounts_are_restricted'], 'survived: the mount flags were not stated; the theorem was added and refuses the edit'),
 'H03': (['c33_fixed_size_exact'], 'only lemmas failed: the theorem on fixed-size buffers was added'),
 'EH4': (['c81_replacements', 'c81_console_lines_are_logged'], 'only an example failed: the shown text was stated through the model; it is now specified in SpecReadable.v'),
 'TJ6': (['c97_address_read', 'c97_resolvers_option'], 'survived: the address grammar was used as modelled; C97 specifies it and refuses the edit'),
 'T04': ([], 'equivalent program: the edge is never taken, so no claim is broken'),
}
def defname(f, old):
    for p in ('/tmp/mutlab/base/theories/' + f, V + f):
        try: s = open(p).read()
        except OSError: continue
        i = s.find(old)
        if i < 0: continue
        m = None
        for m in re.finditer(r'^\s*(?:Local |Global )?(?:Definition|Fixpoint|Inductive|with|Record|CoFixpoint|Notation|Class|Instance)\s+"?([A-Za-z0-9_\']+)', s[:i + len(old)], re.M): pass
        if m: return m.group(1)
    return '?'
seen = set()
if os.path.exists(LOG): seen = {json.loads(l)['id'] for l in open(LOG)}
with open(LOG, 'a') as o:
    for fn in sys.argv[1:]:
        for l in open(fn):
            r = json.loads(l)
            if r['id'] in seen or 'error' in r['result'] and 'failed' not in r['result']: continue
            seen.add(r['id'])
            t, note = NOTES.get(r['id'], ([], r.get('expect', '')))
            res = r['result']
            d = {'id': r['id'], 'definition': r['file'][:-2] + '.' + defname(r['file'], r['old']), 'edit': {'old': r['old'], 'new': r['new']},
                 'claim_broken': r['claim'], 'theorems_failed': [x.rstrip('?') for x in res.get('theorems', [])],
                 'lemmas_failed': res.get('failed', []), 'theorems_tightened': r.get('tightened', t), 'note': note}
            o.write(json.dumps(d) + '\n')
