import json,sys
p='/verif/properties.jsonl'
rows=[json.loads(l) for l in open(p) if l.strip()]
for r in rows:
    if r['id']==sys.argv[1]: r['statement']=sys.argv[2]
open(p,'w').write(''.join(json.dumps(r)+'\n' for r in rows))
