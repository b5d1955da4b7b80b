#!/usr/bin/env python3
"""Write DESIGN.md."""
import os, re, sys, json
here = os.path.dirname(os.path.abspath(__file__)); top = os.path.join(here, '..'); th = os.path.join(top, 'rocq', 'theories')
sys.path.insert(0, here)
from plan import PLAN
props = [json.loads(l) for l in open(os.path.join(top, 'properties.jsonl'))]
claims = {c['property']: c for c in json.load(open(os.path.join(top, 'MANIFEST.json')))['claims']}
assum = json.load(open(os.path.join(here, 'assumptions.json')))
out = open(os.path.join(here, 'design_head.md')).read()

def header(f):
    s = open(os.path.join(th, f)).read(); i = j = s.index('(*'); d = 0
    while True:
        if s[j:j+2] == '(*': d += 1; j += 2
        elif s[j:j+2] == '*)':
            d -= 1; j += 2
            if d == 0: break
        else: j += 1
    t = s[i+3:j-2].strip()
    title, _, body = t.partition('\n')
    paras = [re.sub(r'\s+', ' ', p).strip() for p in body.split('\n\n')]
    return title.strip('* ').strip(), ' '.join(p for p in paras if p)

out += '## What is modelled, by component\n\nFrom the heads of the model files; the comment of each definition has the lines.\n\n'
for l in open(os.path.join(top, 'rocq', '_CoqProject')):
    f = l.strip().replace('theories/', '')
    if f.endswith('Model.v'):
        t, b = header(f)
        out += '- **%s** (%s). %s\n' % (f[:-7], t, b)
out += '\n## Properties: how each is modelled and proved, and what came out\n\n'
for p in props:
    c = claims[p['id']]
    out += '- **%s %s** - %s *%s.* %s\n' % (p['id'], p['title'], PLAN.get(p['id'], ''), c['status'], c['note'])
out += '\n' + open(os.path.join(here, 'findings.md')).read()
out += '\n## Print Assumptions for each theorem\n\n'
groups = {}
for c in claims.values():
    for t in c['theorems']: groups.setdefault(tuple(sorted(assum[t])), []).append(t)
for g in sorted(groups, key=len):
    out += ('Closed under the global context (no axioms):' if not g else 'Axioms of the standard library: ' + ', '.join('`%s`' % a for a in g) + ':') + '\n\n'
    out += ' '.join(groups[g]) + '\n\n'
open(os.path.join(top, 'DESIGN.md'), 'w').write(out.rstrip() + '\n')
print(len(out.splitlines()), 'lines; no plan:', [p['id'] for p in props if p['id'] not in PLAN])
