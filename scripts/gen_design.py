#!/usr/bin/env python3
"""Writes DESIGN.md from scripts/design_static.md, MANIFEST.json, properties.jsonl, scripts/assumptions.json and the Coq files."""
import glob
import json
import os
import re

ROOT = os.path.dirname(os.path.dirname(os.path.abspath(__file__)))
TH = os.path.join(ROOT, 'rocq', 'theories')
claims = json.load(open(os.path.join(ROOT, 'MANIFEST.json')))['claims']
props = {p['id']: p for p in map(json.loads, open(os.path.join(ROOT, 'properties.jsonl')))}
groups = json.load(open(os.path.join(ROOT, 'scripts', 'assumptions.json')))
where, comment, models = {}, {}, {}
for f in sorted(glob.glob(os.path.join(TH, '*.v'))):
    s = open(f).read()
    base = os.path.basename(f)[:-2]
    models[base] = sorted(set(re.findall(r'\b(\w+Model)\b', ' '.join(re.findall(r'Require Import[^.]*\.', s)))))
    for m in re.finditer(r'(\(\*\*?(?:(?!\*\)).)*?\*\)\s*)?Theorem\s+(\w+)', s, re.S):
        where[m[2]] = base
        comment[m[2]] = re.sub(r'\s+', ' ', (m[1] or '').strip()[3:-2]).strip(' *')
ax = {}
for i, (a, ts) in enumerate(sorted(groups, key=lambda g: len(g[0]))):
    for t in ts:
        ax[t] = i


def cell(s):
    return re.sub(r'\s+', ' ', s).replace('|', '\\|')


out = [open(os.path.join(ROOT, 'scripts', 'design_static.md')).read()]
out.append('\n## 5. Axioms used by the theorems\n\nPrint Assumptions of every theorem of MANIFEST.json gives one of these sets (the number is the column "Ax" of section 6):\n')
for i, (a, ts) in enumerate(sorted(groups, key=lambda g: len(g[0]))):
    out.append('* Ax %d: %s – %d theorems' % (i, ', '.join('`%s`' % x for x in a) or 'none (closed under the global context)', len(ts)))
out.append('\n## 6. Status of the properties\n\n| id | property | status | file: theorems (Ax) | remarks |\n|----|----|----|----|----|')
for c in claims:
    by = {}
    for t in c['theorems']:
        by.setdefault(where[t], []).append('%s (%s)' % (t, ax.get(t, '?')))
    th = '; '.join('%s: %s' % (f, ', '.join(ts)) for f, ts in by.items())
    out.append('| %s | %s | %s | %s | %s |' % (c['property'], cell(props[c['property']]['title']), c['status'], th, cell(c['note'])))
out.append('\n## 7. Findings\n\nStatements a user would expect which are false of the code (each with a proof that a counterexample exists):\n\n| theorem | finding |\n|----|----|')
for c in claims:
    for t in c['theorems']:
        if 'refuted' in t:
            out.append('| %s | %s |' % (t, cell(comment[t] or props[c['property']]['title'] + ': see the statement of ' + c['property'])))
out.append(open(os.path.join(ROOT, 'scripts', 'design_findings.md')).read())
open(os.path.join(ROOT, 'DESIGN.md'), 'w').write('\n'.join(out))
