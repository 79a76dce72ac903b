#!/usr/bin/env python3
"""Rewrites the list of refutations in DESIGN.md from the comments in front of the theorems *_refuted."""
import re, os
root = os.path.dirname(os.path.dirname(os.path.abspath(__file__)))
out = []
for f in [l.strip() for l in open(root + '/rocq/_CoqProject') if l.startswith('theories/')]:
    s = open(root + '/rocq/' + f).read()
    for m in re.finditer(r'^\s*Theorem\s+(C\d\d\d?_\w*refuted\w*)', s, re.M):
        pre = s[:m.start()]; i = pre.rfind('(**'); c = ' '.join(pre[i + 3:pre.index('*)', i)].split())
        c = re.sub(r'^(FINDING|Finding|Findings)[:.]? *', '', c)
        out.append((m.group(1), c))
out.sort()
p = root + '/DESIGN.md'; s = open(p).read()
a, b = '<!-- findings begin -->', '<!-- findings end -->'
s = s[:s.index(a) + len(a)] + '\n' + ''.join('* `%s`: %s\n' % x for x in out) + s[s.index(b):]
open(p, 'w').write(s)
print(len(out), 'findings')
