#!/usr/bin/env python3
"""Seed bugs into the model in a scratch copy and see which theorems notice.

usage: mutate.py mutations.json
Each mutation: {"file": "M_X.v", "definition": ..., "old": ..., "new": ..., "edit": ..., "claim": ...,
                "property": "Cnn", "tightened": []}
Applies the edit in /tmp/mut, rebuilds the theorems of the property named, and everything else if none of them notices; every proof that breaks is replaced by Admitted so that the build can
go on, and theorems resting on such a lemma are found through Print Assumptions.  Appends one line per
mutation to seeded/LOG.jsonl."""
import json, os, re, subprocess, sys, shutil, time
SRC = '/tmp/mutsrc'; DST = '/tmp/mut'; LOG = '/verif/seeded/LOG.jsonl'
def sh(c, t=1500):
    try: return subprocess.run(c, shell=True, capture_output=True, text=True, timeout=t)
    except subprocess.TimeoutExpired: return None
HEAD = re.compile(r'^\s*(?:Local |Global |#\[[^\]]*\]\s*)?(Lemma|Theorem|Corollary|Example|Fact|Remark|Instance|Definition|Fixpoint|Program Definition)\s+([A-Za-z0-9_\']+)')
def run(m, log=True):
    sh(f'mkdir -p {DST}; rsync -a --delete {SRC}/ {DST}/' if shutil.which('rsync') else f'rm -rf {DST}; cp -a {SRC} {DST}')
    p = f'{DST}/theories/{m["file"]}'
    start = time.time() - 1
    s = open(p).read()
    n = s.count(m['old'])
    if n != 1:
        print('!! old text found', n, 'times', m['definition']); return None
    open(p, 'w').write(s.replace(m['old'], m['new']))
    broken = []
    failed = attempt(m, '', broken, start) if not m.get('property') else attempt(m, targets(m['property']), broken, start)
    rest = not [b for b in broken if 'statement or definition' in b or b.startswith('BUILD')]
    if not failed and m.get('property') and rest: failed = attempt(m, '', broken, start)
    lem = [b for b in broken if not re.match(r'^C\d\d', b)]
    print(m['definition'], '|', m['edit'], '->', 'lemmas:', lem[:6], 'theorems:', failed)
    if log:
        d = {'definition': m['definition'], 'file': m['file'], 'edit': m['edit'], 'property': m.get('property'), 'claim': m['claim'],
             'failed': failed, 'broken_lemmas': lem, 'tightened': m.get('tightened', [])}
        if m.get('note'): d['note'] = m['note']
        open(LOG, 'a').write(json.dumps(d) + '\n')
    return failed
def targets(prop):
    d = f'{SRC}/theories'
    fs = [f for f in sorted(os.listdir(d)) if f.startswith('T_') and f.endswith('.v') and re.search(r'^(Theorem|Corollary|Example) ' + prop + '_', open(f'{d}/{f}').read(), re.M)]
    return ' '.join('theories/' + f + 'o' for f in fs)
def attempt(m, goals, broken, start):
    out = ''
    for _ in range(150):
        r = sh(f'cd {DST} && ulimit -v 7000000; timeout 900 make -k -j3 {goals} 2>&1')
        if r is None: broken.append('TIMEOUT'); break
        out = r.stdout
        e = re.search(r'File "\./theories/([^"]+)", line (\d+), characters', out)
        errs = [x for x in re.finditer(r'File "\./theories/([^"]+)", line (\d+), characters [^\n]*\n(?=Error)', out)]
        if r.returncode == 0: break
        if not errs:
            broken.append('BUILD: ' + out[-300:]); break
        stop = False
        for e in errs:
            f, ln = e.group(1), int(e.group(2))
            L = open(f'{DST}/theories/{f}').read().split('\n')
            i = ln - 1
            while i >= 0 and not HEAD.match(L[i]): i -= 1
            h = HEAD.match(L[i])
            name = h.group(2)
            # find Proof/Qed
            j = i
            while j < len(L) and not re.search(r'\bProof\b', L[j]): j += 1
            k = j
            while k < len(L) and not re.search(r'\b(Qed|Defined)\.', L[k]): k += 1
            if k >= len(L) or name in broken or ln - 1 > k or j >= len(L) or h.group(1) in ('Definition','Fixpoint') and not any('Proof' in x for x in L[i:ln]):
                broken.append(f'{f}:{name} (statement or definition) ' + out[e.start():e.start()+200]); stop = True; break
            # statement itself ill-typed?
            head = '\n'.join(L[i:j+1])
            pos = re.search(r'\bProof\b', L[j]).start()
            tail = L[k][re.search(r'\b(Qed|Defined)\.', L[k]).end():]
            L[j] = L[j][:pos] + 'Proof. Admitted.'
            L[j] += tail if k == j else ''
            for x in range(j+1, k+1): L[x] = ''
            open(f'{DST}/theories/{f}', 'w').write('\n'.join(L))
            broken.append(name)
        if stop: break
    # theorems resting on an admitted lemma: recompile T files that mention; use glob of assumptions
    failed = [b for b in broken if re.match(r'^C\d\d', b)]
    lem = [b for b in broken if not re.match(r'^C\d\d', b)]
    if broken:
        for f in sorted(os.listdir(f'{DST}/theories')):
            if f.startswith('T_') and f.endswith('.v') and os.path.exists(f'{DST}/theories/{f}o') and os.path.getmtime(f'{DST}/theories/{f}o') > start:
                names = re.findall(r'^(?:Theorem|Corollary) (C\d\d\w*)', open(f'{DST}/theories/{f}').read(), re.M)
                q = f'From Verif Require Import {f[:-2]}.\n' + '\n'.join(f'Print Assumptions {x}.' for x in names)
                open('/tmp/q.v','w').write(q)
                r = sh(f'cd /tmp && timeout 900 coqc -Q {DST}/theories Verif q.v 2>&1')
                parts = re.split(r'(?=Closed under the global context|Axioms:)', r.stdout)[1:]
                for x, pt in zip(names, parts):
                    if any(re.search(r'(?:^|\.|\s)' + re.escape(b) + r'\s*:', pt, re.M) for b in lem) and x not in failed:
                        failed.append(x)
    return failed
if __name__ == '__main__':
    ms = json.load(open(sys.argv[1]))
    sh(f'rm -rf {SRC}; cp -a /verif/rocq {SRC}; cd {SRC}; coq_makefile -f _CoqProject -o Makefile; make -j4')
    skip = int(os.environ.get('SKIP', '0'))
    for m in ms[skip:]:
        run(m, log='-n' not in sys.argv); sys.stdout.flush()
