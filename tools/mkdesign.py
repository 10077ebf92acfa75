#!/usr/bin/env python3
"""Makes DESIGN.md"""
import json,re,glob
R='/verif/'
plan=json.load(open(R+'tools/plan.json'))
claims={c['property']:c for c in json.load(open(R+'MANIFEST.json'))['claims']}
props=[json.loads(l) for l in open(R+'properties.jsonl')]
out=[open(R+'tools/design_head.md').read()]
out.append('## Properties: plan and result\n\n| Property | Title | Model | How it is proved | Result |\n|---|---|---|---|---|\n')
for p in props:
    i=p['id']; c=claims.get(i); m,h=plan.get(i,['',''])
    out.append('| %s | %s | %s | %s | %s |\n'%(i,p['title'].replace('|','/'),m,h,(c['status']+': '+c['note'].replace('|','/')) if c else 'not done'))
out.append('\n## Refutations\n\nClaims which are false of the faithful model. Each one is a theorem giving the counterexample, checked by computation.\n\n')
ref=[]
for f in sorted(glob.glob(R+'rocq/theories/P_*.v')):
    s=open(f).read()
    for m in re.finditer(r'(\(\*\*(?:(?!\*\)).)*\*\)\s*)?Theorem (C\d\d+_\w*_refuted)',s,re.S):
        c=re.sub(r'\s+',' ',m[1][3:m[1].rindex('*)')]).strip(' *') if m[1] else ''
        ref.append((m[2],c))
for n,c in sorted(ref): out.append('* `%s`: %s\n'%(n,c))
out.append('\n## Theorems\n\nAll of them are closed under the global context.\n\n')
for p in props:
    c=claims.get(p['id'])
    if c: out.append('* %s: %s\n'%(p['id'],', '.join('`%s`'%t for t in c['theorems'])))
open(R+'DESIGN.md','w').write(''.join(out))
print([n for n,c in ref if not c])
