#!/usr/bin/env python3
"""Compile every *Props.v again (the other files must be built) and record what Print Assumptions says."""
import re, os, sys, json, subprocess, shutil, tempfile
from concurrent.futures import ThreadPoolExecutor
d = os.path.join(os.path.dirname(os.path.abspath(__file__)), '..', 'rocq', 'theories')
def run(f):
    src = open(os.path.join(d, f)).read()
    names = re.findall(r"^\s*Print Assumptions (\w+)\.", src, re.M)
    with tempfile.TemporaryDirectory() as t:
        shutil.copy(os.path.join(d, f), t)
        out = subprocess.run(['coqc', '-Q', d, 'Verif', os.path.join(t, f)], capture_output=True, text=True).stdout
    parts, cur = [], None
    for l in out.splitlines():
        if l.startswith('Closed under'): parts.append([]); cur = None
        elif l.startswith('Axioms:'): cur = []; parts.append(cur)
        elif cur is not None and re.match(r"^\S+(\s*:|$)", l): cur.append(l.split(':')[0].strip())
    assert len(parts) == len(names), (f, len(parts), len(names))
    return dict(zip(names, parts))
res = {}
with ThreadPoolExecutor(4) as ex:
    for r in ex.map(run, sorted(x for x in os.listdir(d) if x.endswith('Props.v'))): res.update(r)
json.dump(res, open(os.path.join(os.path.dirname(os.path.abspath(__file__)), 'assumptions.json'), 'w'), indent=0, sort_keys=True)
print(len(res), 'theorems,', sum(1 for v in res.values() if v), 'with axioms')
