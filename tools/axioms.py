#!/usr/bin/env python3
"""Print the theorems of MANIFEST.json that are not closed, with their axioms
(needs a finished build in rocq/)."""
import json,subprocess,re,os,glob,collections
os.chdir('/verif/rocq')
m=json.load(open('/verif/MANIFEST.json'))
th={}
for f in glob.glob('theories/Props_*.v'):
    for x in re.findall(r'^Theorem\s+(\w+)',open(f).read(),re.M): th[x]=os.path.basename(f)[:-2]
out=collections.defaultdict(list)
names=[t for c in m['claims'] for t in c['theorems']]
mods=sorted(set(th[t] for t in names))
src=''.join('From Verif Require %s.\n'%x for x in mods)
for t in names: src+='Check tt.\nPrint Assumptions %s.%s.\n'%(th[t],t)
open('/tmp/ax.v','w').write(src)
o=subprocess.run('coqc -Q theories Verif /tmp/ax.v',shell=True,capture_output=True,text=True).stdout
parts=re.split(r'^tt\s*:\s*unit\s*$',o,flags=re.M)[1:]
assert len(parts)==len(names),(len(parts),len(names),o[:500])
for t,p in zip(names,parts):
    if 'Closed under' in p: continue
    ax=re.findall(r'^([A-Za-z_]\w*(?:\.\w+)+)\s*(?::|$)',p,re.M)
    out[tuple(sorted(ax))].append(t)
for a,ts in out.items(): print(', '.join(ts),'|',', '.join(a))
print(len(names),'theorems')
