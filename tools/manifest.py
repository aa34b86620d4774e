import re,json,glob,collections
T=collections.OrderedDict()
for f in sorted(glob.glob('/verif/rocq/theories/*.v')):
    for m in re.finditer(r'^Theorem (C(\d\d)_\w+)',open(f).read(),re.M):
        T.setdefault('C'+m.group(2),[]).append(m.group(1))
ids=[json.loads(l)['id'] for l in open('/verif/properties.jsonl')]
# the comment in front of a theorem says what it adds to the claim
C,X={},{}
for f in sorted(glob.glob('/verif/rocq/theories/*.v')):
    for m in re.finditer(r'(?:\(\*\*((?:(?!\*\)).)*)\*\)\s*)?^(Theorem|Example) (C(\d\d)_\w+)',open(f).read(),re.M|re.S):
        c=' '.join((m.group(1) or '').split())
        if m.group(2)=='Example': X.setdefault('C'+m.group(4),[]).append(m.group(3)); continue
        if c and not c.startswith('*'): C[m.group(3)]=c.strip('. ')
try: exec(open('/verif/tools/notes.py').read())
except FileNotFoundError: N={}
claims=[]
for i in ids:
    th=T.get(i,[])
    st,note=N.get(i,(None,''))
    if st is None: st='proved' if th else 'partial'
    parts=[t+': '+C[t]+'.' for t in th if t in C]
    if any(t.endswith('_refuted') for t in th): parts.append('Theorems named _refuted prove that the code deviates where the statement says so.')
    if X.get(i): parts.append('Concrete cases meeting the hypotheses: '+', '.join(X[i])+'.')
    note=' '.join(([note] if note else [])+parts)
    if th or st=='not_applicable':
        claims.append(dict(property=i,status=st,theorems=th,note=note))
    else: print('no theorems',i)
for i in T:
    if i not in ids: print('theorem without property',i)
json.dump({'claims':claims},open('/verif/MANIFEST.json','w'),indent=1)
print(len(claims),'claims',sum(len(c['theorems']) for c in claims),'theorems')
