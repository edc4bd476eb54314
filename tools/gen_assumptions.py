#!/usr/bin/env python3
"""Rewrite the last section of DESIGN.md ('Assumptions listed by Print Assumptions') from what Coq prints
for every Theorem of Props_*.v.  Needs a compiled rocq/ directory."""
import re,glob,os,subprocess,tempfile
root=os.path.dirname(os.path.dirname(os.path.abspath(__file__)))
th=[]
for f in sorted(glob.glob(root+'/rocq/theories/Props_*.v')):
    mod=os.path.basename(f)[:-2]
    for m in re.finditer(r'^\s*Theorem\s+((C\d+)_\w+)',open(f).read(),re.M): th.append((mod,m[1]))
mods=sorted({m for m,_ in th})
src=''.join(f'From Verif Require {m}.\n' for m in mods)+'From Coq Require Import String.\n'
for m,t in th: src+=f'Check ("@@{t}"%string).\nPrint Assumptions {m}.{t}.\n'
d=tempfile.mkdtemp(); open(d+'/x.v','w').write(src)
o=subprocess.run(['coqc','-Q',root+'/rocq/theories','Verif',d+'/x.v'],capture_output=True,text=True,cwd=d)
assert o.returncode==0,o.stderr[:2000]
groups={}
for blk in re.split(r'(?="@@)',o.stdout):
    m=re.match(r'"@@(\w+)"',blk)
    if not m: continue
    if 'Closed under the global context' in blk: ax=()
    else: ax=tuple(sorted(set(re.findall(r'^([A-Z][\w.]*\.\w+)\s*:',blk,re.M)) or ['?']))
    groups.setdefault(ax,[]).append(m[1])
out='## Assumptions listed by Print Assumptions\nGenerated by `tools/gen_assumptions.py` from what Coq prints; every axiom below is in Coq\'s standard library.\n\n'
for ax,ts in sorted(groups.items()):
    out+=('* **Closed under the global context**' if not ax else '* **'+', '.join(ax)+'**')+f' ({len(ts)} theorems): '+', '.join(sorted(ts,key=lambda t:(int(re.match(r"C(\d+)",t)[1]),t)))+'\n'
p=root+'/DESIGN.md'; s=open(p).read()
i=s.index('## Assumptions listed by Print Assumptions')
open(p,'w').write(s[:i]+out)
print({k:len(v) for k,v in groups.items()})
