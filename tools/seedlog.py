#!/usr/bin/env python3
"""Turn results of mutate.py into lines of seeded/LOG.jsonl.

usage: seedlog.py VERDICTS.json OUT... >> seeded/LOG.jsonl
       seedlog.py --recompute < LOG.jsonl          the same log with "failed" and "claim" of killed edits computed again
VERDICTS maps "FILE:DEF" to {"claim": ..., "tightened": [...]} or {"equivalent": reason}; it is needed for
mutations that survived.  For the others "failed" are all theorems whose statement or proof refers, directly or
through others, to the lemma that failed, according to the references in the .glob files of the build in rocq/."""
import sys, re, json, glob, os, bisect, collections
root = '/verif/rocq/theories/'
users = collections.defaultdict(set); known = set(); theorems = set()
ltac = re.compile(rb'^\s*(?:Local |Global )?Ltac\s+([\w\']+)', re.M)
for f in glob.glob(root + '*.glob'):
    lib = os.path.basename(f)[:-5]; src = open(root + lib + '.v', 'rb').read()
    decls = []; refs = []
    for l in open(f, errors='replace'):
        w = l.split()
        if not w: continue
        m = re.match(r'R(\d+):(\d+)$', w[0])
        if m:
            if w[1].startswith('Verif.') and len(w) >= 5 and w[4] not in ('lib', 'var', 'binder', 'mod'): refs.append((int(m.group(1)), (w[1][6:], w[3])))
        elif w[0] in ('prf', 'def', 'thm', 'ax', 'ind', 'rec', 'constr', 'proj', 'scheme', 'inst', 'abbrev', 'not', 'coe', 'var') and len(w) >= 4:
            m = re.match(r'(\d+):(\d+)$', w[1])
            if m and w[0] not in ('var', 'not', 'constr', 'proj'): decls.append((int(m.group(1)), (lib, w[3])))
            if m and w[0] in ('constr', 'proj'): users[(lib, w[3])]
    tacs = {}
    for m in ltac.finditer(src): tacs[m.group(1)] = (lib, 'Ltac ' + m.group(1).decode()); decls.append((m.start(), tacs[m.group(1)]))
    decls.sort(); starts = [d[0] for d in decls]
    for d in decls:
        known.add(d[1])
        if re.match(r'C\d\d_', d[1][1]): theorems.add(d[1])
    for pos, target in refs:
        i = bisect.bisect_right(starts, pos) - 1
        if i >= 0 and decls[i][1] != target: users[target].add(decls[i][1])
    for i, (pos, d) in enumerate(decls):
        body = set(re.findall(rb"[\w']+", src[pos: starts[i + 1] if i + 1 < len(decls) else len(src)]))
        for t in tacs:
            if t in body and tacs[t] != d: users[tacs[t]].add(d)
def dependents(n):
    seen = {n}; todo = [n]
    while todo:
        for u in users[todo.pop()]:
            if u not in seen: seen.add(u); todo.append(u)
    return sorted((t for t in seen if t in theorems and not re.search(r'example|witness|_refuted$', t[1])), key=lambda t: t[1])
titles = {json.loads(l)['id']: json.loads(l)['title'] for l in open('/verif/properties.jsonl')}
def attribute(definition, by):
    """claim and failed theorems; None if the lemma no longer exists."""
    f, lemma = by.split(':'); n = (f[:-2], lemma)
    if n not in known: return None
    ts = dependents(n); topic = definition.split('_')[0]
    ids = sorted({(0 if t[0].split('_')[0] == topic else 1, t[1][:3]) for t in ts}); first = []
    for _, i in ids:
        if i not in first: first.append(i)
    claim = '; '.join(i + ' ' + titles.get(i, '') for i in first[:4])
    if len(first) > 4: claim += '; and ' + ', '.join(first[4:])
    return claim, [t[1] for t in ts]
if sys.argv[1] == '--recompute':
    lost = same = changed = empty = 0
    for l in sys.stdin:
        e = json.loads(l)
        if 'failed_lemma' in e:
            a = attribute(e['definition'], e['failed_lemma'])
            if a is None: lost += 1; print('gone', e['failed_lemma'], file=sys.stderr)
            elif not a[1]: empty += 1; print('no dependents', e['failed_lemma'], e['definition'], file=sys.stderr)
            else:
                if a[1] == e['failed']: same += 1
                else: changed += 1
                e['claim'], e['failed'] = a
        print(json.dumps(e))
    print('same', same, 'changed', changed, 'gone', lost, 'without dependents', empty, file=sys.stderr); sys.exit()
verdicts = json.load(open(sys.argv[1]))
for out in sys.argv[2:]:
    for l in open(out):
        m = json.loads(l)
        if m['result'] in ('invalid', 'stale'): continue
        e = {'definition': m['file'] + ':' + m['def'], 'edit': m['old'].strip() + '  ==>  ' + m['new'].strip()}
        v = verdicts.get(e['definition'], {})
        if m['result'] == 'killed':
            claim, ts = attribute(e['definition'], m['by']) or ('?', [])
            if not ts: print('no theorem for', m['by'], file=sys.stderr)
            e.update(claim=claim, failed=ts, failed_lemma=m['by'], tightened=[])
        elif 'equivalent' in v:
            e.update(claim='none: ' + v['equivalent'], failed=[], tightened=[])
        else:
            e.update(claim=v.get('claim', m.get('claim', '?')), failed=[], tightened=v.get('tightened', []))
            if not v: print('no verdict for', e['definition'], m['result'], file=sys.stderr)
        if m.get('examples'): e['failed_examples'] = m['examples']
        print(json.dumps(e))
