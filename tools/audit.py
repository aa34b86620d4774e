"""Regenerates theories/Audit.v: one Print Assumptions for all the theorems of MANIFEST.json."""
import re,glob,os
d='/verif/rocq/theories/'
names=[];files=[]
order=[l.strip() for l in open('/verif/rocq/_CoqProject') if l.startswith('theories/')]
for f in order:
    b=os.path.basename(f)
    if b=='Audit.v': continue
    ns=re.findall(r'^Theorem (C\d\d_\w+)',open(d+b).read(),re.M)
    if ns: files.append(b[:-2]); names+=ns
out='(** * Audit: one Print Assumptions for every theorem (generated by tools/audit.py). *)\n'
out+='From Verif Require Import '+' '.join(files)+'.\n\n'
out+='Definition audited :=\n  ('+',\n   '.join('@'+n for n in names)+').\n\nPrint Assumptions audited.\n'
open(d+'Audit.v','w').write(out)
print(len(names),'theorems')
