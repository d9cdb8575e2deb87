#!/bin/sh
# Print Assumptions of every theorem named in MANIFEST.json, after a build in rocq/. Prints the totals.
cd "$(dirname "$0")/.."
python3 - > /tmp/assumptions_all.v <<'PY'
import json, re, glob
where = {}
for f in glob.glob('rocq/theories/T_*.v'):
    for n in re.findall(r'^(?:Theorem|Corollary) (C\d\d\w*)', open(f).read(), re.M): where[n] = f.split('/')[-1][:-2]
names = [t for c in json.load(open('MANIFEST.json'))['claims'] for t in c['theorems']]
for m in sorted(set(where.values())): print(f'From Verif Require {m}.')
for n in names:
    n = n.split('.')[-1]
    print(f'Print Assumptions Verif.{where[n]}.{n}.')
PY
cd rocq/theories && coqc -Q . Verif -o /tmp/assumptions_all.vo /tmp/assumptions_all.v | sort | uniq -c
