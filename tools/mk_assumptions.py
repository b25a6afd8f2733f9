#!/usr/bin/env python3
"""Print Assumptions for every theorem of MANIFEST.json (a build must exist); writes /verif/ASSUMPTIONS.md."""
import json,subprocess,glob,re
m=json.load(open('/verif/MANIFEST.json'))
files={}
for f in sorted(glob.glob('/verif/rocq/theories/Prop_*.v')):
    for t in re.findall(r'^(?:Theorem|Example|Lemma|Corollary) (C\d\d\w*)',open(f).read(),re.M):
        files.setdefault(t,f.split('/')[-1][:-2])
out='From Verif Require '+' '.join(sorted(set(files.values())))+'.\n'
ths=[t for c in m['claims'] for t in c['theorems']]
for t in ths: out+='Eval compute in tt.\nPrint Assumptions Verif.%s.%s.\n'%(files[t],t)
open('/tmp/assum.v','w').write(out)
r=subprocess.run(['coqc','-R','/verif/rocq/theories','Verif','/tmp/assum.v'],capture_output=True,text=True)
if r.returncode: raise SystemExit(r.stderr)
blocks=r.stdout.split('= tt\n     : unit\n')[1:]
assert len(blocks)==len(ths)
sets={}
for t,b in zip(ths,blocks):
    ax=tuple(sorted(re.findall(r'^([A-Za-z_.]+)(?= :|\n  :|\s*$)',b,re.M)))
    if 'Closed' in b: ax=()
    sets.setdefault(ax,[]).append(t)
s='# Output of Print Assumptions for every theorem of MANIFEST.json\n\nGenerated by tools/mk_assumptions.py. All axioms are from the standard library of Coq 8.16.1.\n'
for k,v in sorted(sets.items(),key=lambda kv:(len(kv[0]),kv[0])):
    s+='\n## '+(', '.join('`%s`'%x for x in k) or 'Closed under the global context')+' (%d theorems)\n\n'%len(v)
    s+=', '.join(v)+'\n'
open('/verif/ASSUMPTIONS.md','w').write(s)
print({k:len(v) for k,v in sets.items()})
