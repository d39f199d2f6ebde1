#!/usr/bin/env python3
"""Write MANIFEST.json from the theorems named Cxx_* in theories/Props*.v."""
import json,re,glob,os
root=os.path.dirname(os.path.dirname(os.path.abspath(__file__)))
ids=[json.loads(l)['id'] for l in open(root+'/properties.jsonl')]
from notes import NOTES
thms={}
for f in sorted(glob.glob(root+'/rocq/theories/Props*.v')):
    for m in re.finditer(r'^ *Theorem ((C\d+)_\w+)',open(f).read(),re.M):
        thms.setdefault(m.group(2),[]).append(m.group(1))
claims=[]
for i in ids:
    t=thms.pop(i,[])
    if not t: continue
    st='partial' if any(x.endswith(('_partial','_refuted')) for x in t) else 'proved'
    claims.append(dict(property=i,status=st,theorems=t,note=NOTES.get(i,'')))
    if not NOTES.get(i): print('no note for',i)
assert not thms,thms
json.dump({'claims':claims},open(root+'/MANIFEST.json','w'),indent=1,ensure_ascii=False)
print(len(claims),'claims,',sum(c['status']=='proved' for c in claims),'proved; missing:',[i for i in ids if i not in [c['property'] for c in claims]])
