#!/usr/bin/env python3
"""Collect the theorems C<nn>_* of rocq/theories/Prop*.v into MANIFEST.json."""
import re, json, glob, collections
th=collections.OrderedDict()
for f in sorted(glob.glob('/verif/rocq/theories/Prop*.v')):
    for m in re.finditer(r'^Theorem (C(\d\d)_\w+)', open(f).read(), re.M):
        th.setdefault('C'+m.group(2),[]).append(m.group(1))
notes=json.load(open('/verif/tools/manifest_notes.json'))
ids=[json.loads(l)['id'] for l in open('/verif/properties.jsonl')]
claims=[]
for i in ids:
    if i not in th: continue
    n=notes.get(i,{})
    claims.append({"property":i,"status":n.get("status","proved"),"theorems":th[i],"note":n.get("note","")})
json.dump({"claims":claims},open('/verif/MANIFEST.json','w'),indent=1)
print(len(claims),"claims", [i for i in ids if i not in th])
