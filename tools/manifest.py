#!/usr/bin/env python3
"""Regenerates MANIFEST.json from tools/notes.json and the theorem names in rocq/theories/Prop_*.v."""
import re,glob,json,os
root=os.path.dirname(os.path.dirname(os.path.abspath(__file__)))
thms={}
for f in sorted(glob.glob(root+'/rocq/theories/Prop_*.v')):
    for m in re.finditer(r'^Theorem (C\d\d)_(\w+)',open(f).read(),re.M):
        thms.setdefault(m.group(1),[]).append(m.group(1)+'_'+m.group(2))
notes=json.load(open(root+'/tools/notes.json'))
claims=[]
for l in open(root+'/properties.jsonl'):
    i=json.loads(l)['id']
    st,note=notes.get(i,['partial','not modelled yet'])
    if i not in thms: note=note or 'not modelled yet'
    claims.append({'property':i,'status':st,'theorems':thms.get(i,[]),'note':note})
json.dump({'claims':claims},open(root+'/MANIFEST.json','w'),indent=1)
print({c['property']:(c['status'],len(c['theorems'])) for c in claims})
