#!/usr/bin/env python3
"""Generates MANIFEST.json from claims.txt (one block per property) and checks that every theorem named exists."""
import json,re,glob,os
root=os.path.dirname(os.path.dirname(os.path.abspath(__file__)))
src=''.join(open(f).read() for f in glob.glob(root+'/rocq/theories/*.v'))
thms=set(re.findall(r'^\s*(?:Theorem|Lemma) (C\d\d_\w+)',src,re.M))
claims=[];used=set()
for line in open(root+'/tools/claims.txt'):
    line=line.rstrip('\n')
    if not line.strip() or line.startswith('#'): continue
    pid,status,note=[x.strip() for x in line.split('|',2)]
    names=sorted(t for t in thms if t.startswith(pid+'_'))
    used|=set(names)
    if status!='not_applicable' and not names: print('no theorems for',pid)
    claims.append({"property":pid,"status":status,"theorems":names,"note":note})
print('unclaimed:',sorted(thms-used))
json.dump({"claims":claims},open(root+'/MANIFEST.json','w'),indent=1)
props=[json.loads(l)['id'] for l in open(root+'/properties.jsonl')]
print('missing props:',[p for p in props if p not in [c['property'] for c in claims]])
