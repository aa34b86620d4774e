#!/usr/bin/env python3
"""Write seeded/LOG.jsonl from the results of tools/seed.py (/tmp/seed/results.jsonl) and the mutants."""
import glob, json, runpy
M = {}
for f in sorted(glob.glob('/verif/seeded/mutants*.py')):
    for m in runpy.run_path(f)['M']:
        M[m['name']] = m
R = {}
for l in open('/tmp/seed/results.jsonl'):
    r = json.loads(l)
    if not r.get('error'):
        R[r['name']] = r
try:
    T = json.load(open('/verif/seeded/tightened.json'))
except FileNotFoundError:
    T = {}
n = 0
with open('/verif/seeded/LOG.jsonl', 'w') as o:
    for name, m in M.items():
        r = R.get(name)
        if not r:
            continue
        e = dict(mutant=name, definition=f"{m['file'][:-2]}.{m['definition']}", old=m['old'].strip(), new=m['new'].strip(),
                 claim=m['claim'], outcome='no theorem failed' if r['survived'] else 'caught',
                 failed=r['failed'], proofs_broken=r['broken'][:12],
                 tightened=T.get(name, {}).get('tightened', []))
        if r.get('notes'):
            e['notes'] = r['notes'][:3]
        if r.get('stopped_early'):
            e['remark'] = 'checking stopped once theorems of the claim had failed; more may fail'
        if name in T and T[name].get('remark'):
            e['remark'] = T[name]['remark']
        o.write(json.dumps(e, ensure_ascii=False) + '\n')
        n += 1
print(n, 'of', len(M), [x for x in R if R[x]['survived']], [x for x in R if not R[x]['survived'] and not R[x]['failed']])
