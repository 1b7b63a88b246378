#!/usr/bin/env python3
"""Regenerates section 6 of DESIGN.md: what Print Assumptions lists for each manifest theorem."""
import json,re,subprocess,os
T='/verif/rocq/theories/'
m=json.load(open('/verif/MANIFEST.json'))['claims']
src={}
for f in sorted(os.listdir(T)):
    if f.endswith('.v'):
        for n in re.findall(r'^(?:Theorem|Lemma|Corollary)\s+(\w+)',open(T+f).read(),re.M): src.setdefault(n,f[:-2])
os.makedirs('/tmp/asm',exist_ok=True)
with open('/tmp/asm/A.v','w') as o:
    for c in m:
        for t in c['theorems']:
            o.write('From Verif Require %s.\nGoal True. idtac "@@ %s". Abort.\nPrint Assumptions %s.%s.\n'%(src[t],t,src[t],t))
out=subprocess.run(['coqc','-Q',T,'Verif','/tmp/asm/A.v'],capture_output=True,text=True,cwd='/tmp/asm').stdout
A={}
for blk in out.split('@@ ')[1:]:
    name,body=blk.split('\n',1)
    A[name.strip()]='closed' if 'Closed under' in body else ', '.join(sorted(set(x.split('.')[-1] for x in re.findall(r'^([A-Z]\w*\.\w+)',body,re.M))))
rows=['## 6. Print Assumptions per theorem','',"`closed` = closed under the global context.  The names are the standard library's:","`sig_forall_dec`, `sig_not_dec` (`ClassicalDedekindReals`), `functional_extensionality_dep`","(`FunctionalExtensionality`), `classic` (`Classical_Prop`).",'','| property | theorem | file | assumptions |','|---|---|---|---|']
for c in m:
    for t in c['theorems']: rows.append('| %s | `%s` | `%s.v` | %s |'%(c['property'],t,src[t],A[t]))
p='/verif/DESIGN.md'; s=open(p).read().split('## 6. Print Assumptions')[0].rstrip()+'\n\n'+'\n'.join(rows)+'\n'
open(p,'w').write(s)
print(len(rows),sum(v=='closed' for v in A.values()))
