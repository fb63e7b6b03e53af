#!/usr/bin/env python3
"""Rewrites section 7 of DESIGN.md: what Print Assumptions says for each theorem of
MANIFEST.json.  Needs the compiled files of a build in rocq/."""
import json,subprocess,re,os,glob
names=[t for c in json.load(open('/verif/MANIFEST.json'))['claims'] for t in c['theorems']]
mods=sorted(os.path.basename(f)[:-2] for f in glob.glob('/verif/rocq/theories/Properties*.v'))
src='From Verif Require Import '+' '.join(mods)+'.\n'+''.join('Print Assumptions %s.\n'%n for n in names)
os.makedirs('/tmp/pa',exist_ok=True)
open('/tmp/pa/pa.v','w').write(src)
out=subprocess.run(['coqc','-Q','/verif/rocq/theories','Verif','/tmp/pa/pa.v'],capture_output=True,text=True)
if out.returncode: raise SystemExit(out.stderr)
blocks=[];
for line in out.stdout.split('\n'):
    if line.startswith('Closed under'): blocks.append([])
    elif line.startswith('Axioms:'): blocks.append([]);
    elif re.match(r'^[A-Za-z_.]+ ?(:|$)',line) and line.strip(): blocks[-1].append(line.split(':')[0].strip())
assert len(blocks)==len(names),(len(blocks),len(names))
groups={}
for n,b in zip(names,blocks): groups.setdefault(tuple(sorted(b)),[]).append(n)
txt=''
for g in sorted(groups,key=len):
    txt+=('* **Closed under the global context (no axioms):** ' if not g else '* **'+', '.join('`%s`'%x for x in g)+':** ')
    txt+=', '.join(groups[g])+'.\n'
d=open('/verif/DESIGN.md').read()
a,b='<!-- assumptions -->\n','<!-- /assumptions -->'
i,j=d.index(a)+len(a),d.index(b)
open('/verif/DESIGN.md','w').write(d[:i]+txt+d[j:])
print({len(v):g for g,v in groups.items()})
