#!/usr/bin/env python3
"""Seeded-bug harness.  usage: mutate.py MUTATIONS.json OUT.jsonl
Works in a scratch copy (/tmp/mutlab/w) of a built tree (/tmp/mutlab/base).
For each mutation: apply the textual edit, rebuild; each proof that fails is
replaced by Admitted in the scratch copy so that the build can go on; finally
Print Assumptions tells which manifest theorems now rest on a failed proof.
A mutation may name the modules to build ("only"); the environment variable
MUTLAB moves the scratch directory."""
import json, os, re, shutil, subprocess, sys
LAB = os.environ.get('MUTLAB', '/tmp/mutlab')
BASE, W = LAB + '/base', LAB + '/w'
HEAD = re.compile(r'^\s*(?:#\[[^\]]*\]\s*)?(?:Local |Global )?(Lemma|Theorem|Example|Corollary|Fact|Remark|Instance)\s+([A-Za-z0-9_\']+)')
def sh(cmd, t=3000):
    try:
        p = subprocess.run(cmd, shell=True, cwd=W, capture_output=True, text=True, timeout=t)
        return p.stdout + p.stderr
    except subprocess.TimeoutExpired as e:
        return 'TIMEOUT'
def admit(path, line):
    src = open(path).read().split('\n')
    for i in range(min(line, len(src)) - 1, -1, -1):
        m = HEAD.match(src[i])
        if m: break
    else: return None
    text = '\n'.join(src[i:])
    p = re.search(r'\bProof\b', text); q = re.search(r'\b(Qed|Defined)\.', text)
    if not p or not q or p.start() > q.start(): return None
    if i + text[:p.start()].count('\n') + 1 > line: return None   # error in the statement
    text = text[:p.start()] + 'Admitted.' + text[q.end():]
    open(path, 'w').write('\n'.join(src[:i]) + ('\n' if i else '') + text)
    return m.group(2)
def run(mu, thms):
    subprocess.run('rm -rf %s; cp -a %s %s' % (W, BASE, W), shell=True, check=True)
    path = W + '/theories/' + mu['file']
    s = open(path).read()
    if s.count(mu['old']) != 1: return {'error': 'pattern occurs %d times' % s.count(mu['old'])}
    open(path, 'w').write(s.replace(mu['old'], mu['new']))
    failed, broken = [], []
    for it in range(40):
        out = sh('make -k -j2 %s 2>&1' % ' '.join('theories/%s.vo' % x for x in mu.get('only', [])))
        if out == 'TIMEOUT': return {'error': 'timeout', 'failed': failed}
        errs = re.findall(r'File "\./(?:theories/)?([A-Za-z0-9_]+\.v)", line (\d+), characters [0-9-]+:\n(Error[^\n]*(?:\n[^\n]+)?)', out)
        killed = re.findall(r'theories/([A-Za-z0-9_]+)\.vo\] (?:Killed|Error 137|Error 124)', out)
        if not errs:
            if killed: broken.append('killed:' + ','.join(killed))
            break
        prog = False
        for f, l, e in errs:
            n = admit(W + '/theories/' + f, int(l))
            if n: failed.append(f[:-2] + '.' + n); prog = True
            else: broken.append('%s:%s %s' % (f, l, ' '.join(e.split())[:120]))
        if not prog: break
    mods = mu.get('only') or sorted(f[:-2] for f in os.listdir(W + '/theories') if f.endswith('.v') and f.startswith('Props') and os.path.exists(W + '/theories/' + f[:-2] + '.vo'))
    # only theorems of modules that were rebuilt can have changed
    home = {}
    for f in os.listdir(W + '/theories'):
        if f.endswith('.v') and (not mu.get('only') or f[:-2] in mu['only']):
            a, b = W + '/theories/' + f + 'o', BASE + '/theories/' + f + 'o'
            if not os.path.exists(a) or not os.path.exists(b) or os.path.getmtime(a) != os.path.getmtime(b):
                for t in re.findall(r'^\s*Theorem ([A-Za-z0-9_\']+)', open(BASE + '/theories/' + f).read(), re.M): home[t] = f[:-2]
    thms = [t for t in thms if t in home]
    hit = []
    ck = 'From Verif Require Import %s.\n' % ' '.join(mods)
    for t in thms: ck += 'Print Assumptions %s.\n' % t
    # one theorem per query, tolerate missing ones
    open(LAB + '/q.v', 'w').write(ck)
    p = subprocess.run('coqtop -quiet -Q theories Verif < %s/q.v 2>&1' % LAB, shell=True, cwd=W, capture_output=True, text=True)
    blocks = re.split(r'Coq < ', p.stdout)
    res = [b for b in blocks if b.strip() and ('Axioms' in b or 'Closed' in b or 'Error' in b)]
    k = 0
    for b in res:
        if k >= len(thms): break
        if 'Axioms' in b: hit.append(thms[k])
        elif 'Error' in b: hit.append(thms[k] + '?')
        k += 1
    return {'failed': failed, 'broken': broken, 'theorems': hit}
if __name__ == '__main__':
    man = json.load(open('/verif/MANIFEST.json'))
    thms = [t for c in man['claims'] for t in c['theorems']]
    thms = list(dict.fromkeys(thms))
    for mu in json.load(open(sys.argv[1])):
        r = run(mu, thms)
        with open(sys.argv[2], 'a') as f: f.write(json.dumps({**mu, 'result': r}) + '\n')
        print(mu['id'], json.dumps(r)[:600], flush=True)
