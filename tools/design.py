#!/usr/bin/env python3
"""Writes DESIGN.md: tools/design_head.md + the table of theorems (from MANIFEST.json) + tools/design_tail.md."""
import json,re,glob,os
root=os.path.dirname(os.path.dirname(os.path.abspath(__file__)))
where={}
for f in glob.glob(root+'/rocq/theories/*.v'):
    for t in re.findall(r'^\s*(?:Theorem|Lemma) (C\d\d_\w+)',open(f).read(),re.M): where[t]=os.path.basename(f)
titles={json.loads(l)['id']:json.loads(l)['title'] for l in open(root+'/properties.jsonl')}
out=[]
for c in sorted(json.load(open(root+'/MANIFEST.json'))['claims'],key=lambda c:c['property']):
    p=c['property']; files={}
    for t in c['theorems']: files.setdefault(where[t],[]).append(t[4:])
    out.append(f"**{p} {titles[p]}** — {c['status']}. {c['note']}\n")
    out.append('  '+'; '.join(f"`{f}`: "+', '.join(f'`{x}`' for x in sorted(v)) for f,v in sorted(files.items()))+'\n')
body=open(root+'/tools/design_head.md').read()+'\n'.join(out)+'\n'+open(root+'/tools/design_tail.md').read()
open(root+'/DESIGN.md','w').write(body)
