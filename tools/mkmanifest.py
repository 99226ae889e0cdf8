#!/usr/bin/env python3
# MANIFEST.json: every theorem C<nn>_* found in rocq/theories/Properties*.v,
# grouped by property; status and note from the table below.
import re,glob,json
S={}
def s(i,st,note): S[i]=(st,note)
exec(open('/verif/tools/status.py').read())
th={}
for f in sorted(glob.glob('/verif/rocq/theories/Properties*.v')):
    for m in re.finditer(r'^Theorem (C\d\d)(_\w+)',open(f).read(),re.M):
        th.setdefault(m.group(1),[]).append(m.group(1)+m.group(2))
claims=[]
for l in open('/verif/properties.jsonl'):
    i=json.loads(l)['id']
    if i in th:
        st,note=S[i]
        claims.append(dict(property=i,status=st,theorems=th[i],note=note))
    elif i in S and S[i][0]=='not_applicable':
        claims.append(dict(property=i,status='not_applicable',theorems=[],note=S[i][1]))
    else: print('no theorem for',i)
json.dump({'claims':claims},open('/verif/MANIFEST.json','w'),indent=1)
