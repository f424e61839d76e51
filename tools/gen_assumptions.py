"""Print Assumptions of every property theorem -> table in DESIGN.md (between the ASSUMPTIONS markers).
Needs a compiled tree in /verif/rocq; the check file lives in /tmp."""
import re,glob,subprocess,os,json
th='/verif/rocq/theories'
rows=[]
for f in sorted(glob.glob(th+'/Prop_*.v')):
    mod=os.path.basename(f)[:-2]
    thms=re.findall(r'^Theorem (C\d+_\w+)',open(f).read(),re.M)
    c='From Coq Require Import String. Open Scope string_scope.\nFrom Verif Require Import %s.\n'%mod
    for t in thms: c+='Eval compute in "MARK %s".\nPrint Assumptions %s.\n'%(t,t)
    open('/tmp/Chk.v','w').write(c)
    r=subprocess.run(['coqc','-Q',th,'Verif','/tmp/Chk.v'],capture_output=True,text=True)
    assert r.returncode==0,r.stderr
    parts=re.split(r'= "MARK (\w+)"',r.stdout)
    for t,b in zip(parts[1::2],parts[2::2]):
        ax=re.findall(r"^([\w\.']+)\s*(?::|$)",b,re.M)
        ax=[a for a in ax if a not in('Axioms','string') ]
        if 'Closed under the global context' in b: ax=[]
        rows.append((t,mod,[a.split('.')[-1] for a in ax]))
rows.sort()
short={'sig_not_dec':'N','sig_forall_dec':'F','functional_extensionality_dep':'E','classic':'C'}
out=['| theorem | file | axioms |','|---|---|---|']
for t,m,a in rows: out.append('| `%s` | %s | %s |'%(t,m,' '.join(sorted(short.get(x,x) for x in a)) or 'closed'))
s=open('/verif/DESIGN.md').read()
b,e='<!-- ASSUMPTIONS BEGIN -->','<!-- ASSUMPTIONS END -->'
if b in s:
    s=s[:s.index(b)+len(b)]+'\n'+'\n'.join(out)+'\n'+s[s.index(e):]
    open('/verif/DESIGN.md','w').write(s)
from collections import Counter
print(Counter(tuple(sorted(a)) for _,_,a in rows))
