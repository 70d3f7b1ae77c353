import json,os,re
T=os.path.dirname(os.path.abspath(__file__)); V=os.path.dirname(T); D=T+'/design/'
r=lambda f:open(f).read()
plan=json.loads(r(D+'plan.json'))
props=[json.loads(l) for l in r(V+'/properties.jsonl').splitlines() if l.strip()]
man={c['property']:c for c in json.loads(r(V+'/MANIFEST.json'))['claims']}
where={}
for f in sorted(os.listdir(V+'/rocq/theories')):
    if f.endswith('.v'):
        for t in re.findall(r'^(?:Theorem|Corollary|Lemma)\s+(C\d\d+_\w+)',r(V+'/rocq/theories/'+f),re.M): where[t]=f
out=r(D+'head.md')
for p in props:
    i=p['id']; c=man.get(i)
    out+=f"### {i}: {p['title']}\n\n"
    if i in plan: out+=f"* Model: {plan[i][0]}. Proof: {plan[i][1]}.\n"
    if c:
        fs=sorted({where.get(t,'?') for t in c['theorems']})
        out+=f"* Status: **{c['status']}**. {c['note']}\n* Theorems ({', '.join(fs)}): "+', '.join('`%s`'%t for t in c['theorems'])+".\n"
    out+="\n"
out+=r(D+'mid.md')+r(D+'findings.md')
open(V+'/DESIGN.md','w').write(out)
