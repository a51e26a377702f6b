import re,glob,subprocess,json,os
os.chdir('/verif/rocq/theories')
res={}
for f in sorted(glob.glob('Props_*.v')):
    ths=re.findall(r'^Theorem (C\d+\w*)',open(f).read(),re.M)
    mod=f[:-2]
    src='From Verif Require Import %s.\n'%mod+''.join('Check tt. Print Assumptions %s.%s.\n'%(mod,t) for t in ths)
    open('/tmp/as.v','w').write(src)
    out=subprocess.run(['coqc','-Q','.','Verif','/tmp/as.v'],capture_output=True,text=True)
    parts=out.stdout.split('tt\n     : unit\n')[1:]
    if len(parts)!=len(ths): print('BAD',f,len(parts),len(ths),out.stderr[:300]); continue
    for t,p in zip(ths,parts):
        res[t]=[] if 'Closed under' in p else sorted(set(re.findall(r'^([A-Za-z_][\w.]*)\s*(?::|$)',p,re.M))-{'Axioms'})
json.dump(res,open('/verif/tools/assumptions.json','w'))
from collections import Counter
print(Counter(tuple(v) for v in res.values()))
