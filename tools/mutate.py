#!/usr/bin/env python3
"""Mutation runs on a scratch copy of rocq/.

usage: mutate.py gen SEED N [FILE_REGEX]     write N random mutations (JSON lines) to stdout
       mutate.py run BASE WORK OUT < muts    try each mutation: BASE is a built copy, WORK a work directory,
                                             results are appended to OUT (JSON lines)
A mutation is {"file","def","line","old","new"} (line is the number in the file; old/new whole lines).
Examples and refutations that fail are cut out and the run goes on, so that "killed" means a lemma or a
theorem that claims something in general failed.
"""
import sys, re, json, random, subprocess, os, glob

def strip_comments_mask(src):
    """True for characters outside comments and strings."""
    mask = [True] * len(src); d = 0; i = 0; s = False
    while i < len(src):
        if not s and src.startswith('(*', i): d += 1; mask[i] = mask[i+1] = False; i += 2; continue
        if not s and d and src.startswith('*)', i): d -= 1; mask[i] = mask[i+1] = False; i += 2; continue
        if d == 0 and src[i] == '"': s = not s; mask[i] = False
        if d or s: mask[i] = False
        i += 1
    return mask

OPS = [
  (r'<\?', '<=?'), (r'<=\?', '<?'),
  (r' \+ 1\b', ''), (r' - 1\b', ''), (r' \+ ', ' - '), (r' - ', ' + '), (r' \* ', ' + '),
  (r'\b0\b', '1'), (r'\b1\b', '0'), (r'\b1\b', '2'), (r'\b2\b', '1'), (r'\b3\b', '2'),
  (r'\btrue\b', 'false'), (r'\bfalse\b', 'true'), (r'\bnegb ', ''),
  (r'\bfst\b', 'snd'), (r'\bsnd\b', 'fst'), (r'&&', '||'), (r'\|\|', '&&'),
  (r'\bwidth\b', 'height'), (r'\bheight\b', 'width'), (r'\bmaps\b', 'samples'), (r'\bsamples\b', 'maps'),
  (r'\bx\b', 'y'), (r'\by\b', 'x'), (r'\bw\b', 'h'), (r'\bh\b', 'w'),
  (r'\bif ([^;]*?) then', 'if true then'), (r'\bif ([^;]*?) then', 'if false then'),
  (r'\bOk\b', 'Fatal'), (r'\bFatal\b', 'UB'), (r'\bFatal\b', 'Ok tt'),
  (r' \+\+ \[[^\]]*\]', ''), (r'\bS \(', '('), (r'\bZ\.max\b', 'Z.min'), (r'\bNat\.max\b', 'Nat.min'),
  (r'\bfgt\b', 'fge'), (r'\bfadd\b', 'fsub'), (r'\bfmul\b', 'fadd'), (r'\bnadd\b', 'nmul'), (r'\bnmul\b', 'nadd'),
  (r'\bfor_ \(?(\w+)', None), (r'\bseq 0\b', 'seq 1'), (r' / ', ' * '), (r'\brev ', ''), (r'=\?', '<=?'),
  (r'\bskipn\b', 'firstn'), (r'\bfirstn\b', 'skipn'), (r'\bhd\b', 'last'), (r'\bSome\b (\w+)', 'None'),
]

def candidates(path):
    src = open(path).read(); mask = strip_comments_mask(src)
    lines = []; pos = 0; cur = None
    for n, ln in enumerate(src.split('\n')):
        m = re.match(r'\s*(?:Local |Global )?(Definition|Fixpoint|Function|with|Record|Inductive|Section|Variable|Context|Notation|Arguments|Local|From|End|Hypothesis|Lemma|Theorem|Class|Instance)\b\s*(\S+)?', ln)
        if m and mask[pos + len(ln) - len(ln.lstrip())]:
            cur = m.group(2) if m.group(1) in ('Definition', 'Fixpoint', 'Function', 'with') else None
        if cur:
            for k, (pat, rep) in enumerate(OPS):
                if rep is None: continue
                for mm in re.finditer(pat, ln):
                    if not all(mask[pos + mm.start(): pos + mm.end()]): continue
                    head = ln[:mm.start()]
                    if ':=' not in ln and m: pass
                    if m and ':=' in ln and mm.start() < ln.index(':='): continue
                    if rep == 'Ok tt' : continue
                    new = ln[:mm.start()] + rep + ln[mm.end():]
                    lines.append({'file': os.path.basename(path), 'def': cur, 'line': n, 'old': ln, 'new': new})
        pos += len(ln) + 1
    return lines

def gen(seed, count, rx='.'):
    random.seed(int(seed)); by = {}
    for f in sorted(glob.glob('/verif/rocq/theories/*_Model.v')):
        if re.search(rx, os.path.basename(f)):
            for c in candidates(f): by.setdefault((c['file'], c['def']), []).append(c)
    keys = sorted(by); out = []; random.shuffle(keys); i = 0
    while len(out) < int(count) and any(by.values()):
        k = keys[i % len(keys)]; i += 1
        if by[k]: out.append(by[k].pop(random.randrange(len(by[k]))))
    for o in out: print(json.dumps(o))

DECL = re.compile(r'^\s*(?:Local |Global |#\[[^\]]*\] )?(Lemma|Theorem|Example|Corollary|Fact|Remark|Proposition|Definition|Fixpoint|Function|Record|Inductive|Instance|Ltac|Notation|Let)\b\s*(\S+)')
def enclosing(path, line):
    ls = open(path).read().split('\n')
    for i in range(min(line, len(ls)) - 1, -1, -1):
        m = DECL.match(ls[i])
        if m: return m.group(1), m.group(2).rstrip(':'), i
    return None, None, 0

def cut(path, name, start):
    """Comment the declaration out."""
    ls = open(path).read().split('\n')
    j = start
    while j < len(ls) and not re.search(r'\b(Qed|Defined)\.\s*$', ls[j]): j += 1
    body = ls[:start] + ls[j+1:]
    body = [l for l in body if l.strip() != 'Print Assumptions %s.' % name]
    open(path, 'w').write('\n'.join(body))

def run(base, work, out):
    for raw in sys.stdin:
        mu = json.loads(raw)
        subprocess.run(['rm', '-rf', work]); subprocess.run(['cp', '-a', base, work], check=True)
        p = work + '/theories/' + mu['file']; ls = open(p).read().split('\n')
        if ls[mu['line']] != mu['old']: mu['result'] = 'stale'; open(out, 'a').write(json.dumps(mu) + '\n'); continue
        ls[mu['line']] = mu['new']; open(p, 'w').write('\n'.join(ls))
        examples = []; result = None
        for _ in range(25):
            try:
                r = subprocess.run('ulimit -v 9000000; make -f Makefile -j%s' % os.environ.get('J', '1'), shell=True, cwd=work, stdout=subprocess.PIPE, stderr=subprocess.STDOUT, text=True, errors='replace', timeout=1500)
            except subprocess.TimeoutExpired:
                subprocess.run(['pkill', '-f', work]); result = 'timeout'; break
            if r.returncode == 0: result = 'survived'; break
            m = re.search(r'File "\./theories/([^"]+)", line (\d+)', r.stdout)
            if not m: result = 'error: ' + r.stdout[-300:]; break
            f, ln = m.group(1), int(m.group(2)); kind, name, st = enclosing(work + '/theories/' + f, ln)
            if f == mu['file'] : result = 'invalid'; break
            if kind == 'Example' or (name and name.endswith('_refuted')) or (kind == 'Theorem' and name and 'example' in name):
                examples.append(name); cut(work + '/theories/' + f, name, st); continue
            result = 'killed'; mu['by'] = f + ':' + str(name); break
        mu['result'] = result; mu['examples'] = examples
        open(out, 'a').write(json.dumps(mu) + '\n')

if sys.argv[1] == 'gen': gen(*sys.argv[2:])
else: run(*sys.argv[2:])
