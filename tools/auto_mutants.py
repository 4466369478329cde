#!/usr/bin/env python3
"""Small mechanical edits of the model, taken at random for each definition, each followed until a property
theorem fails.  A lemma that fails counts for the property theorems whose proofs refer to it, as recorded in
the .glob files of BASE.

usage: auto_mutants.py BASE WORKDIR PER_DEFINITION [seed]      (BASE: a built copy of rocq/, not below /verif)

Results go to WORKDIR/auto.jsonl; an edit without a failed theorem is a survivor."""
import sys, os, re, json, shutil, subprocess, random
from concurrent.futures import ThreadPoolExecutor
BASE, WORK, PER = sys.argv[1], sys.argv[2], int(sys.argv[3])
rnd = random.Random(int(sys.argv[4]) if len(sys.argv) > 4 else 1)
PICK = os.environ.get('FILES', '').split()
MODEL = ['Base', 'Decimal', 'Dates', 'Amount', 'Balance', 'Compare', 'Scanner', 'History', 'Pool', 'Account', 'Journal', 'Xact', 'Parser', 'Report',
         'Options', 'Lib', 'Shell', 'OldReport', 'Unfinished', 'Memory', 'Heap']
PROOFS = ('Lemma', 'Theorem', 'Example', 'Corollary', 'Fact', 'Remark')
HEAD = re.compile(r'^\s*(?:Local |Global )?(Lemma|Theorem|Example|Corollary|Fact|Remark|Definition|Fixpoint|Inductive|Record|Notation|Ltac|Section|End|Scheme|Instance)\s+([\w\']+)', re.M)
files = [l.strip()[len('theories/'):-2] for l in open(os.path.join(BASE, '_CoqProject')) if l.startswith('theories/')]
deps = {}
out = subprocess.run(['coqdep', '-Q', 'theories', 'Verif'] + ['theories/%s.v' % f for f in files], cwd=BASE, capture_output=True, text=True).stdout
for l in out.splitlines():
    m = re.match(r'theories/(\w+)\.vo .*?: (.*)', l)
    if m: deps[m.group(1)] = set(re.findall(r'theories/(\w+)\.vo\b', m.group(2))) - {m.group(1)}
import glob
USING = {}
for g in glob.glob('/tmp/mut/using_*.txt'):
    t = re.sub(r'\s+', ' ', open(g).read())
    for m in re.finditer(r'The proof of ([\w\']+) should start with one of the following commands: Proof using ([^.]*)\.', t):
        USING[(os.path.basename(g)[6:-4], m.group(1))] = m.group(2).strip()

def users():
    """For every lemma the property theorems that refer to it, directly or not."""
    uses = {}
    for f in files:
        cur = None
        for l in open(os.path.join(BASE, 'theories', f + '.glob')):
            m = re.match(r'(\w+) \d+:\d+ (\S+) (\S+)$', l)
            if m and m.group(1) in ('prf', 'def', 'ind', 'thm', 'lem', 'fix'): cur = (f, m.group(3)); continue
            m = re.match(r'R\d+:\d+ Verif\.(\w+) \S+ (\S+) \w+$', l)
            if m and cur: uses.setdefault((m.group(1), m.group(2)), set()).add(cur)
    res = {}
    def of(x):
        if x in res: return res[x]
        res[x] = set()
        acc = {x[1]} if x[0].startswith('Properties') and re.match(r'C\d+_', x[1]) and not x[1].endswith('_case') else set()
        for y in uses.get(x, ()):
            if y != x: acc |= of(y)
        res[x] = acc
        return acc
    return of
USERS = users()

def plan(file):
    """The files to rebuild, those before the cheapest property files first."""
    dirty = {file}
    while True:
        more = {f for f in files if f not in dirty and deps[f] & dirty}
        if not more: break
        dirty |= more
    def need(f, acc):
        for d in deps[f]:
            if d in dirty and d not in acc: acc.add(d); need(d, acc)
        return acc
    size = {f: os.path.getsize(os.path.join(BASE, 'theories', f + '.v')) for f in files}
    props = sorted((f for f in dirty if f.startswith('Properties')), key=lambda f: sum(size[x] for x in need(f, set()) | {f}))
    res, seen = [], set()
    def visit(f):
        if f in seen or f not in dirty: return
        seen.add(f)
        for d in sorted(deps[f]): visit(d)
        res.append(f)
    visit(file)
    for f in props: visit(f)
    return res

def sites(file):
    s = open(os.path.join(BASE, 'theories', file + '.v')).read()
    mask = re.sub(r'\(\*.*?\*\)', lambda m: ' ' * len(m.group(0)), s, flags=re.S)
    mask = re.sub(r'"[^"]*"', lambda m: '"' + '_' * (len(m.group(0)) - 2) + '"', mask)
    heads = [h for h in re.finditer(r'^(Definition|Fixpoint|with|Inductive|Record|Open|From|Import|Lemma|Notation|Section|End)\b\s*([\w\']*)', mask, re.M)]
    for i, h in enumerate(heads):
        if h.group(1) not in ('Definition', 'Fixpoint', 'with'): continue
        end = heads[i + 1].start() if i + 1 < len(heads) else len(s)
        b = mask.find(':=', h.start(), end)
        if b < 0: continue
        body, found = mask[b:end], []
        def add(m, new, kind): found.append((b + m.start(), b + m.end(), new, kind))
        for m in re.finditer(r'\bif\b((?:(?!\bif\b|\bthen\b|\blet\b|\bmatch\b).)+?)\bthen\b', body, re.S):
            c = s[b + m.start(1):b + m.end(1)].strip()
            add(m, 'if negb (%s) then' % c, 'condition negated'); add(m, 'if true || (%s) then' % c, 'condition always true'); add(m, 'if false && (%s) then' % c, 'condition never true')
        for m in re.finditer(r'&&', body): add(m, '||', 'and/or')
        for m in re.finditer(r'\|\|', body): add(m, '&&', 'or/and')
        for m in re.finditer(r'<\?', body): add(m, '<=?', 'bound')
        for m in re.finditer(r'<=\?', body): add(m, '<?', 'bound')
        for m in re.finditer(r'\btrue\b', body): add(m, 'false', 'constant')
        for m in re.finditer(r'\bfalse\b', body): add(m, 'true', 'constant')
        for m in re.finditer(r'(?<![\w\'.%])(\d+)(?![\w\'.])', body):
            n = int(m.group(1)); add(m, str(n + 1), 'number')
            if n: add(m, str(n - 1), 'number')
        for m in re.finditer(r'\bSome (\w+|\([^()]*\))', body): add(m, 'None', 'Some dropped')
        for m in re.finditer(r'\bOk (\w+|\([^()]*\))', body): add(m, '(Panic PTodo)', 'panics')
        for m in re.finditer(r'\bPanic \w+', body): add(m, '(Panic PIo)' if 'PTodo' in m.group(0) else '(Panic PTodo)', 'other panic')
        for m in re.finditer(r'\bfst\b', body): add(m, 'snd', 'component')
        for m in re.finditer(r'\bsnd\b', body): add(m, 'fst', 'component')
        for m in re.finditer(r'\bfirstn\b', body): add(m, 'skipn', 'part of a list')
        for m in re.finditer(r'\bskipn\b', body): add(m, 'firstn', 'part of a list')
        for m in re.finditer(r'\bnegb\b', body): add(m, '(fun b : bool => b)', 'not dropped')
        for m in re.finditer(r' \+ ', body): add(m, ' - ', 'arithmetic')
        for m in re.finditer(r' - ', body): add(m, ' + ', 'arithmetic')
        for m in re.finditer(r' \* ', body): add(m, ' + ', 'arithmetic')
        for m in re.finditer(r'(\w+|\)) \+\+ ', body): add(m, m.group(1) + ' ++ rev (', 'xx')
        for m in re.finditer(r'(\w+|\([^()]*\)) \+\+ (\w+|\[[^][]*\])', body): add(m, '%s ++ %s' % (s[b + m.start(2):b + m.end(2)], s[b + m.start(1):b + m.end(1)]), 'order of a list')
        for m in re.finditer(r'(\w+|\([^()]*\)) \+\+ (\w+|\[[^][]*\])', body): add(m, s[b + m.start(1):b + m.end(1)], 'part of a list dropped')
        for m in re.finditer(r'\b(trim|trim_start|trim_end|sort_key \w+|rev)\b', body): add(m, '(fun x => x)', 'call dropped')
        for m in re.finditer(r'"(_+)"', body): add(m, '"x%s"' % s[b + m.start(1):b + m.end(1)], 'text')
        found = [x for x in found if x[3] != 'xx']
        yield h.group(2), found, s

def compile(d, f, t=900):
    try:
        p = subprocess.run(['coqc', '-q', '-w', 'none', '-set', 'Default Timeout=60', '-Q', 'theories', 'Verif', 'theories/%s.v' % f], cwd=d, capture_output=True, text=True, timeout=t)
        return p.returncode, p.stdout, p.stderr
    except subprocess.TimeoutExpired: return 124, '', 'timeout'

def follow(d, file):
    broken, failed = {}, []
    open(os.path.join(d, 'theories', 'Mut.v'), 'w').write('Axiom MUT : forall P : Type, P.\n')
    compile(d, 'Mut')
    for f in plan(file):
        bad = [x for x in deps[f] if x in broken]
        if bad:
            broken[f] = 'needs ' + bad[0]
            if f.startswith('Properties'): return [f + ' (file)'], failed, broken
            continue
        p = os.path.join(d, 'theories', f + '.v')
        while True:
            rc, so, se = compile(d, f)
            if rc == 0: break
            if f == file: return None, failed, se[-300:]
            m = None
            for m in re.finditer(r'line (\d+), characters (\d+)-(\d+):\s*Error', se, re.S): pass
            if not m: broken[f] = se[-300:]; break
            line, col = int(m.group(1)), int(m.group(2))
            t = open(p).read(); lines = t.split('\n')
            pos = sum(len(x) + 1 for x in lines[:line - 1]) + 1
            endline = pos + len(lines[line - 1]); h = None
            for x in HEAD.finditer(t):
                if x.start() < endline and (x.start() <= pos + col): h = x
            if h is None or h.group(1) not in PROOFS: broken[f] = '%s %s' % (h.group(2) if h else '?', se[-300:]); break
            pm = re.compile(r'\bProof\b').search(t, h.end()); qm = re.compile(r'\b(Qed|Defined|Abort)\.').search(t, h.end())
            if not pm or not qm or pm.start() > qm.start() or pos + col < pm.start() or 'Mut.MUT' in t[pm.start():qm.end()]:
                broken[f] = '%s: %s' % (h.group(2), se[-300:]); break
            u = USING.get((f, h.group(2)))
            t = t[:pm.start()] + ('Proof using %s. ' % u if u is not None else 'Proof. ') + 'apply Mut.MUT. ' + qm.group(1) + '.' + t[qm.end():]
            if 'Require Mut' not in t: t = 'From Verif Require Mut. ' + t
            open(p, 'w').write(t); failed.append('%s.%s' % (f, h.group(2)))
            if h.group(1) != 'Example' and USERS((f, h.group(2))): return sorted(USERS((f, h.group(2)))), failed, broken
        if f.startswith('Properties'):
            if f in broken: return [f + ' (file)'], failed, broken
            names = re.findall(r'^Print Assumptions ([\w\']+)\.', open(p).read(), re.M)
            res = re.findall(r'^(Closed under the global context|Axioms:(?:\n.*?)*?)(?=\n(?:Closed|Axioms)|\Z)', so.strip(), re.M)
            dead = [n for n, r in zip(names, res) if 'MUT' in r]
            if dead: return dead, failed, broken
    return [], failed, broken

def job(k):
    i, (file, name, a, e, new, kind, s) = k
    d = os.path.join(WORK, 'a%04d' % i)
    shutil.rmtree(d, ignore_errors=True); shutil.copytree(BASE, d, symlinks=True)
    open(os.path.join(d, 'theories', file + '.v'), 'w').write(s[:a] + new + s[e:])
    try: dead, failed, broken = follow(d, file)
    except Exception as x: dead, failed, broken = None, [], repr(x)
    shutil.rmtree(d)
    l = s.count('\n', 0, a) + 1
    r = dict(id='a%04d' % i, file=file, definition=name, line=l, kind=kind, edit='%s.v:%d: %s  ==>  %s' % (file, l, s[a:e], new),
             context=s[s.rfind('\n', 0, a) + 1:s.find('\n', e)].strip(), dead=dead and dead[:12], failed=failed[:6], broken=broken)
    with open(os.path.join(WORK, 'auto.jsonl'), 'a') as o: o.write(json.dumps(r) + '\n')
    print(r['id'], r['edit'], '->', 'no type' if dead is None else dead[:3] or 'SURVIVOR', flush=True)

os.makedirs(WORK, exist_ok=True)
todo = []
for file in PICK or MODEL:
    for name, found, s in sites(file):
        for x in rnd.sample(found, min(PER, len(found))): todo.append((file, name) + x + (s,))
done = {json.loads(l)['id'] for l in open(os.path.join(WORK, 'auto.jsonl'))} if os.path.exists(os.path.join(WORK, 'auto.jsonl')) else set()
print(len(todo), 'edits', flush=True)
work = [k for k in enumerate(todo) if 'a%04d' % k[0] not in done]
rnd.shuffle(work)
if os.environ.get('DRY'): sys.exit()
with ThreadPoolExecutor(int(os.environ.get('JOBS', '2'))) as ex: list(ex.map(job, work))
