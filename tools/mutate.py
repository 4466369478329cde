#!/usr/bin/env python3
"""Mutation testing: apply an edit to a copy of the model, rebuild, and see which theorems depend on
lemmas that no longer hold.

usage: mutate.py BASE WORKDIR [id ...]      (BASE: a built copy of rocq/, not below /verif)

A proof that fails is replaced by an axiom, so that the build goes on; a property theorem has failed if it
depends on that axiom.  Results go to WORKDIR/results.jsonl, one JSON object per mutant.  With CONE=1 only
the property files of the claims that the edit breaks, and what they need, are rebuilt."""
import sys, os, re, json, shutil, subprocess, glob
from concurrent.futures import ThreadPoolExecutor
sys.path.insert(0, os.path.dirname(os.path.abspath(__file__)))
from mutants import MUTANTS

BASE, WORK = sys.argv[1], sys.argv[2]
ONLY = set(sys.argv[3:])
HEAD = re.compile(r'^\s*(?:Local |Global )?(Lemma|Theorem|Example|Corollary|Fact|Remark|Definition|Fixpoint|Inductive|Record|Notation|Ltac|Section|End|Scheme|Instance)\s+([\w\']+)', re.M)
PROOFS = ('Lemma', 'Theorem', 'Example', 'Corollary', 'Fact', 'Remark')
files = [l.strip()[len('theories/'):-2] for l in open(os.path.join(BASE, '_CoqProject')) if l.startswith('theories/')]
deps = {}
out = subprocess.run(['coqdep', '-Q', 'theories', 'Verif'] + ['theories/%s.v' % f for f in files], cwd=BASE, capture_output=True, text=True).stdout
for l in out.splitlines():
    m = re.match(r'theories/(\w+)\.vo .*?: (.*)', l)
    if m: deps[m.group(1)] = set(re.findall(r'theories/(\w+)\.vo\b', m.group(2))) - {m.group(1)}
order, seen = [], set()
def visit(f):
    if f in seen: return
    seen.add(f)
    for d in sorted(deps[f]): visit(d)
    order.append(f)
for f in files: visit(f)
# section variables used by each lemma
USING = {}
for g in glob.glob('/tmp/mut/using_*.txt'):
    t = re.sub(r'\s+', ' ', open(g).read())
    for m in re.finditer(r'The proof of ([\w\']+) should start with one of the following commands: Proof using ([^.]*)\.', t):
        USING[(os.path.basename(g)[6:-4], m.group(1))] = m.group(2).strip()

def cone(claims):
    """The files needed for the theorems of the given claims, and all of the theorems' files."""
    if not claims or os.environ.get('CONE') != '1': return set(files)
    todo = [f for f in files if f.startswith('Properties') and
            set(re.findall(r'^Theorem (C\d+)_', open(os.path.join(BASE, 'theories', f + '.v')).read(), re.M)) & set(claims)]
    need = set()
    while todo:
        f = todo.pop()
        if f not in need: need.add(f); todo += deps[f]
    return need

def compile(d, f):
    try:
        p = subprocess.run(['coqc', '-q', '-w', 'none', '-set', 'Default Timeout=100', '-Q', 'theories', 'Verif', 'theories/%s.v' % f],
                           cwd=d, capture_output=True, text=True, timeout=2400)
        return p.returncode, p.stdout, p.stderr
    except subprocess.TimeoutExpired:
        return 124, '', 'timeout of the whole file'

def run(mu):
    mid, file, old, new, what, why, claims = mu
    d = os.path.join(WORK, mid)
    shutil.rmtree(d, ignore_errors=True)
    shutil.copytree(BASE, d, symlinks=True)
    path = os.path.join(d, 'theories', file + '.v')
    s = open(path).read()
    if s.count(old) != 1: return dict(id=mid, error='edit matches %d times' % s.count(old))
    open(path, 'w').write(s.replace(old, new))
    open(os.path.join(d, 'theories', 'Mut.v'), 'w').write('Axiom MUT : forall P : Type, P.\n')
    compile(d, 'Mut')
    dirty, broken, failed, dead, alive = {file}, {}, [], [], []
    wanted = cone(claims)
    for f in order:
        if f not in wanted: continue
        if f != file and not (deps[f] & dirty): continue
        dirty.add(f)
        bad = [x for x in deps[f] if x in broken]
        if bad: broken[f] = 'needs ' + bad[0]; continue
        p = os.path.join(d, 'theories', f + '.v')
        while True:
            rc, so, se = compile(d, f)
            if rc == 0: break
            m = None
            for m in re.finditer(r'line (\d+), characters (\d+)-(\d+):\s*Error', se, re.S): pass
            if not m:
                m2 = re.findall(r'line (\d+), characters', se)
                if not m2: broken[f] = se[-300:]; break
                line = int(m2[-1]); col = 0
            else: line, col = int(m.group(1)), int(m.group(2))
            t = open(p).read()
            lines = t.split('\n')
            pos = sum(len(x) + 1 for x in lines[:line - 1]) + 1
            endline = pos + len(lines[line - 1])
            h = None
            for x in HEAD.finditer(t):
                if x.start() < endline and (x.start() <= pos + col): h = x
            if h is None or h.group(1) not in PROOFS:
                broken[f] = '%s %s' % (h.group(2) if h else '?', se[-300:]); break
            pm = re.compile(r'\bProof\b').search(t, h.end())
            qm = re.compile(r'\b(Qed|Defined|Abort)\.').search(t, h.end())
            if not pm or not qm or pm.start() > qm.start() or pos + col < pm.start() - 1 and 'MUT' in t[pm.start():qm.end()]:
                broken[f] = 'statement of %s: %s' % (h.group(2), se[-300:]); break
            if pos + col < pm.start():
                broken[f] = 'statement of %s: %s' % (h.group(2), se[-300:]); break
            if 'Mut.MUT' in t[pm.start():qm.end()]:
                broken[f] = 'proof of %s: %s' % (h.group(2), se[-300:]); break
            u = USING.get((f, h.group(2)))
            t = t[:pm.start()] + ('Proof using %s. ' % u if u is not None else 'Proof. ') + 'apply Mut.MUT. ' + qm.group(1) + '.' + t[qm.end():]
            if 'Require Mut' not in t: t = 'From Verif Require Mut. ' + t
            open(p, 'w').write(t)
            failed.append('%s.%s' % (f, h.group(2)))
        if f.startswith('Properties') and f not in broken:
            names = re.findall(r'^Print Assumptions ([\w\']+)\.', open(p).read(), re.M)
            res = re.findall(r'^(Closed under the global context|Axioms:(?:\n.*?)*?)(?=\n(?:Closed|Axioms)|\Z)', so.strip(), re.M)
            if len(res) != len(names): broken[f] = 'assumptions: %d names, %d results' % (len(names), len(res))
            else:
                for n, r in zip(names, res): (dead if 'MUT' in r else alive).append(n)
    for f in broken:
        if f.startswith('Properties'): dead += [n + ' (file)' for n in re.findall(r'^Print Assumptions ([\w\']+)\.', open(os.path.join(d, 'theories', f + '.v')).read(), re.M)]
    shutil.rmtree(d)
    return dict(id=mid, definition=what, edit='%s.v: %s  ==>  %s' % (file, old, new), breaks=why, claims=claims, dead=sorted(set(dead)),
                alive_of_claims=[n for n in alive if n.split('_')[0] in claims], failed_lemmas=failed, broken=broken)

os.makedirs(WORK, exist_ok=True)
todo = [m for m in MUTANTS if not ONLY or m[0] in ONLY]
done = set()
rf = os.path.join(WORK, 'results.jsonl')
if os.path.exists(rf): done = {json.loads(l)['id'] for l in open(rf)}
todo = [m for m in todo if m[0] not in done or m[0] in ONLY]
def job(m):
    try: r = run(m)
    except Exception as e: r = dict(id=m[0], error=repr(e))
    with open(rf, 'a') as o: o.write(json.dumps(r) + '\n')
    print(r['id'], r.get('error') or '%d dead; claims %s; alive %s; broken %s' % (len(r['dead']), r['claims'], r['alive_of_claims'], list(r['broken'])[:3]), flush=True)
with ThreadPoolExecutor(int(os.environ.get("JOBS", "3"))) as ex: list(ex.map(job, todo))
