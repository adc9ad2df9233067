import json,re,glob
notes=json.load(open('/verif/tools/notes.json'))
claims=[]
thms={}
for f in sorted(glob.glob('/verif/rocq/theories/Properties*.v')):
    for t in re.findall(r'^Theorem (\w+)',open(f).read(),re.M):
        c=t.split('_')[0]
        if re.match(r'C\d\d$',c): thms.setdefault(c,[]).append(t)
for l in open('/verif/properties.jsonl'):
    i=json.loads(l)['id']
    if i not in thms: continue
    ts=thms[i]
    st='partial' if any(t.endswith('_partial') or t.endswith('_refuted') for t in ts) else 'proved'
    claims.append({"property":i,"status":st,"theorems":ts,"note":notes.get(i,"")})
json.dump({"claims":claims},open('/verif/MANIFEST.json','w'),indent=1)
print(len(claims),[c['property'] for c in claims])
