#!/usr/bin/env python3
"""Prints, for every theorem named in MANIFEST.json, what Print Assumptions lists (needs a built rocq/)."""
import json,re,subprocess,os,collections
os.chdir(os.path.join(os.path.dirname(os.path.abspath(__file__)),'..','rocq'))
files=[l.strip()[9:-2] for l in open('_CoqProject') if l.startswith('theories/Prop_')]
names=[]
for f in files:
    for m in re.finditer(r'^Theorem (C\d+_\w+)',open(f'theories/{f}.v').read(),re.M): names.append((f,m.group(1)))
src=''.join(f'From Verif Require {f}.\n' for f in files)
for f,n in names: src+=f'Goal True. idtac "@@ {n}". Abort.\nPrint Assumptions {f}.{n}.\n'
os.makedirs('/tmp/assum',exist_ok=True)
open('/tmp/assum/ZZ.v','w').write(src)
r=subprocess.run(['coqc','-q','-w','none','-Q','theories','Verif','/tmp/assum/ZZ.v'],capture_output=True,text=True)
assert r.returncode==0,r.stderr
cur=None; d=collections.OrderedDict()
for l in r.stdout.split('\n'):
    if l.startswith('@@ '): cur=l[3:].strip(); d[cur]=[]
    elif re.match(r'^[\w.]+ *:',l) : d[cur].append(l.split(':')[0].strip())
    elif re.match(r'^[\w.]+$',l.strip()) and not l.startswith(' ') and l.strip(): d[cur].append(l.strip())
g=collections.OrderedDict()
for n,a in d.items(): g.setdefault(tuple(sorted(set(x for x in a if x not in('Axioms','Closed')))),[]).append(n)
for a,ns in sorted(g.items(),key=lambda x:len(x[0])):
    print('* '+(', '.join(f'`{x}`' for x in a) if a else 'no axioms (closed under the global context)')+f' -- {len(ns)} theorems: '+', '.join(sorted(ns)))
    print()
