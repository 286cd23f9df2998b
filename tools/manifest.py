import re,glob,json,sys
props=[json.loads(l)['id'] for l in open('/verif/properties.jsonl')]
thms={}
for f in sorted(glob.glob('/verif/rocq/theories/Prop*.v')):
    for m in re.finditer(r'^Theorem (C\d+)(_\w+)',open(f).read(),re.M):
        thms.setdefault(m.group(1),[]).append(m.group(1)+m.group(2))
notes=json.load(open('/verif/tools/notes.json'))
claims=[]
for p in props:
    t=thms.get(p,[])
    if not t: continue
    n=notes.get(p,{})
    st=n.get('status') or ('partial' if any(x.endswith('_partial') or x.endswith('_refuted') for x in t) else 'proved')
    claims.append({"property":p,"status":st,"theorems":t,"note":n.get('note','')})
open('/verif/MANIFEST.json','w').write('{"claims": [\n'+',\n'.join(json.dumps(c) for c in claims)+'\n]}\n')
print(len(claims),[p for p in props if p not in thms])
