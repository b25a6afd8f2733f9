import json,re,glob,collections
# theorem names are collected from Prop_*.v by their Cnn_ prefix
th=collections.defaultdict(list)
for f in sorted(glob.glob('/verif/rocq/theories/Prop_*.v')):
    for m in re.finditer(r'^Theorem (C\d\d+)_(\w+)',open(f).read(),re.M):
        th[m.group(1)].append(m.group(1)+'_'+m.group(2))
notes=json.load(open('/verif/notes.json'))
props=[json.loads(l) for l in open('/verif/properties.jsonl')]
claims=[]
for p in props:
    i=p['id']
    if i not in th: continue
    ns=th[i]
    st='partial' if any(n.endswith('_refuted') or n.endswith('_partial') for n in ns) else 'proved'
    claims.append({"property":i,"status":st,"theorems":ns,"note":notes.get(i,"")})
missing=[p['id'] for p in props if p['id'] not in th]
json.dump({"claims":claims},open('/verif/MANIFEST.json','w'),indent=1)
print(len(claims),'claims; missing',missing)
