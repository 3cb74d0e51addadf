#!/usr/bin/env python3
"""Print Assumptions for every manifest theorem (needs a built rocq/).  Writes ASSUMPTIONS.md."""
import json,subprocess,re,os,glob,collections
V='/verif/rocq/theories'
thm={}
for f in sorted(glob.glob(V+'/Prop*.v')):
    m=os.path.basename(f)[:-2]
    for t in re.findall(r'^Theorem (C\d\d\w*)',open(f).read(),re.M): thm[t]=m
res={}
for m in sorted(set(thm.values())):
    ts=[t for t in thm if thm[t]==m]
    src='From Verif Require Import %s.\nRequire Import Coq.Strings.String.\n'%m+''.join('Eval compute in "@@%s"%%string.\nPrint Assumptions %s.%s.\n'%(t,m,t) for t in ts)
    open('/tmp/as/a.v','w').write(src)
    o=subprocess.run(['coqc','-Q',V,'Verif','/tmp/as/a.v'],capture_output=True,text=True)
    assert o.returncode==0,(m,o.stderr[-500:])
    for part in o.stdout.split('= "@@')[1:]:
        t=part.split('"')[0]
        ax=sorted(set(re.findall(r'^([A-Za-z][\w.]*)\s*:',part.split('\n',2)[2],re.M))-{'Axioms'})
        res[t]=tuple(ax)
groups=collections.defaultdict(list)
for t in sorted(res): groups[res[t]].append(t)
with open('/verif/ASSUMPTIONS.md','w') as f:
    f.write('# Print Assumptions, per theorem\n\nGenerated by tools/assumptions.py from the compiled development.\n')
    for g in sorted(groups,key=len):
        f.write('\n## '+(', '.join('`%s`'%a for a in g) if g else 'Closed under the global context')+'\n\n'+', '.join(groups[g])+'\n')
print({k:len(v) for k,v in groups.items()})
