#!/usr/bin/env python3
"""Regenerates rocq/_CoqProject (file list) and MANIFEST.json from the theorem
names in rocq/theories/Properties (prefix Cxx_) and tools/status.json."""
import os,re,json,glob
root=os.path.dirname(os.path.dirname(os.path.abspath(__file__)))
os.chdir(root+'/rocq')
order=['Base','Spec','Model','Proof','Properties']
fs=[]
for d in order: fs+=sorted(glob.glob('theories/%s/*.v'%d))
open('_CoqProject','w').write('-Q theories Verif\n\n'+'\n'.join(fs)+'\n')
names={}
for f in sorted(glob.glob('theories/Properties/*.v')):
    for m in re.finditer(r'^\s*Theorem\s+(C\d\d)(_\w+)',open(f).read(),re.M):
        names.setdefault(m.group(1),[]).append(m.group(1)+m.group(2))
status=json.load(open(root+'/tools/status.json'))
claims=[]
for l in open(root+'/properties.jsonl'):
    i=json.loads(l)['id']
    st=status.get(i,{})
    if i in names:
        claims.append({"property":i,"status":st.get('status','partial'),"theorems":names[i],"note":st.get('note','')})
    elif st:
        claims.append({"property":i,"status":st['status'],"theorems":[],"note":st.get('note','')})
json.dump({"claims":claims},open(root+'/MANIFEST.json','w'),indent=1)
print(len(fs),'files',{c['property']:(c['status'],len(c['theorems'])) for c in claims})
