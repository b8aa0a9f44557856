import json
notes=json.load(open('/verif/tools/notes.json'))
props=[json.loads(l) for l in open('/verif/properties.jsonl')]
man={c['property']:c for c in json.load(open('/verif/MANIFEST.json'))['claims']}
how=json.load(open('/verif/tools/how.json'))
import re
head=open('/verif/tools/design_head.md').read()
head=re.sub(r'\n?@@\w+@@','',head)
out=[head,'\n## 6. Every property: what is modelled, how it is proved\n\nGenerated by `tools/mkdesign.py` from `properties.jsonl`, `tools/how.json` and `tools/notes.json`.\n']
for p in props:
    i=p['id']; c=man[i]
    out.append(f"\n### {i} {p['title']} — {c['status']}\n\n*Claim.* {p['statement']} ({p['quantifier']})\n\n*Model and proof.* {how.get(i,'')}\n")
    if c.get('note'): out.append(f"\n*Result.* {c['note']}\n")
    out.append("\n*Theorems.* "+", ".join(f"`{t}`" for t in c['theorems'])+"\n")
open('/verif/DESIGN.md','w').write(''.join(out))
