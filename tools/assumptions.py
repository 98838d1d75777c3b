import json,subprocess,re
m=json.load(open('/verif/MANIFEST.json'))
ths=[]
for c in m['claims']:
    for t in c['theorems']:
        if t not in ths: ths.append(t)
import glob
mods=[f.split('/')[-1][:-2] for f in sorted(glob.glob('/verif/rocq/theories/*.v'))]
src="From Verif Require "+' '.join(mods)+".\n"
# locate module
where={}
for f in glob.glob('/verif/rocq/theories/*.v'):
    s=open(f).read()
    for t in ths:
        if re.search(r'(Theorem|Lemma) '+re.escape(t)+r'\b',s): where[t]=f.split('/')[-1][:-2]
for t in ths: src+=f"Print Assumptions {where[t]}.{t}.\n"
open('/tmp/asm.v','w').write(src)
r=subprocess.run(['coqc','-Q','/verif/rocq/theories','Verif','/tmp/asm.v'],capture_output=True,text=True)
out=r.stdout+r.stderr
print(len(ths), out.count('Closed under the global context'), [l for l in out.split('\n') if 'Closed' not in l][:20])
