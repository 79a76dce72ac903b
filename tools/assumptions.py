#!/usr/bin/env python3
"""Rewrites the generated part of DESIGN.md: what Print Assumptions lists for each theorem of MANIFEST.json.
Needs the built rocq/ directory."""
import json, re, os, subprocess, tempfile
root = os.path.dirname(os.path.dirname(os.path.abspath(__file__)))
files = [l.strip() for l in open(root + '/rocq/_CoqProject') if l.startswith('theories/')]
where = {}
for f in files:
    for m in re.finditer(r'^\s*Theorem\s+(C\d\d\d?_\w+)', open(root + '/rocq/' + f).read(), re.M):
        where.setdefault(m.group(1), f[9:-2])
mods = sorted(set(where.values()))
res = {}
for mod in mods:
    names = [n for n in where if where[n] == mod]
    with tempfile.TemporaryDirectory() as d:
        open(d + '/q.v', 'w').write('From Verif Require %s.\n' % mod + ''.join('Redirect "%s/%s" Print Assumptions %s.%s.\n' % (d, n, mod, n) for n in names))
        r = subprocess.run(['coqc', '-Q', root + '/rocq/theories', 'Verif', d + '/q.v'], capture_output=True, text=True)
        if r.returncode: raise SystemExit(r.stderr)
        for n in names:
            t = open('%s/%s.out' % (d, n)).read()
            res[n] = () if 'Closed under' in t else tuple(sorted(set(re.findall(r'^([\w.]+)\s*:', t, re.M))))
groups = {}
for n in res: groups.setdefault(res[n], []).append(n)
out = []
for g in sorted(groups, key=lambda g: (len(g), g)):
    out.append(('*Closed under the global context*' if not g else '*' + ', '.join('`%s`' % a for a in g if not a.startswith('Axioms')) + '*') + ' (%d theorems): ' % len(groups[g]) + ', '.join(sorted(groups[g])) + '.\n')
p = root + '/DESIGN.md'; s = open(p).read()
a, b = '<!-- assumptions begin -->', '<!-- assumptions end -->'
s = s[:s.index(a) + len(a)] + '\n' + '\n'.join(out) + s[s.index(b):]
open(p, 'w').write(s)
print({', '.join(g) or 'closed': len(v) for g, v in groups.items()})
