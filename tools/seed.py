#!/usr/bin/env python3
"""Run seeded bugs against the model.

usage: seed.py MUTANTS.py [name ...]

MUTANTS.py defines M = [dict(name, file, definition, old, new, claim), ...].  Every mutant is applied to a
copy of the development (built with vos/vok in /tmp/seed/base by `seed.py --base`).  Statements are then
compiled without their proofs (vos) and every proof is checked on its own (vok), so that a failing proof
does not hide others: a failing proof is replaced by Admitted in the file that is being checked and the
check goes on.  The result, appended to /tmp/seed/results.jsonl, lists the proofs that fail (`broken`) and
all theorems Cnn_... that depend on one of them (`failed`), from the dependency graph of the .glob files
of the unmodified development."""
import json, os, queue, re, runpy, shutil, subprocess, sys, threading, time
from concurrent.futures import ThreadPoolExecutor

TMP = '/tmp/seed'
BASE = f'{TMP}/base'
JOBS = os.environ.get('SEED_JOBS', '3')
DECL = re.compile(r'^[ \t]*(?:Local |Global |#\[\w+\] )?(Theorem|Lemma|Corollary|Example|Remark|Fact|Definition|Fixpoint|Inductive|Instance|Record|Notation|Ltac|CoFixpoint)\s+(\w+)', re.M)
OPTS = ['-q', '-w', '-all', '-Q', 'theories', 'Verif']


def sh(cmd, cwd, timeout=3000):
    try:
        r = subprocess.run(cmd, cwd=cwd, capture_output=True, text=True, timeout=timeout)
        return r.returncode, r.stdout + r.stderr
    except subprocess.TimeoutExpired as e:
        return -1, 'timeout'


def base():
    shutil.rmtree(BASE, ignore_errors=True)
    os.makedirs(TMP, exist_ok=True)
    shutil.copytree('/verif/rocq', BASE)
    for x in os.listdir(f'{BASE}/theories'):
        if x.endswith(('.vos', '.vok')):
            os.remove(f'{BASE}/theories/{x}')
    sh(['coq_makefile', '-f', '_CoqProject', '-o', 'Makefile'], BASE)
    print(sh(['make', '-j4', 'vos'], BASE)[1][-200:])
    for x in os.listdir(f'{BASE}/theories'):      # the unmodified files are known to check
        if x.endswith('.v'):
            open(f'{BASE}/theories/{x}ok', 'w').close()


def graph():
    """name -> set of names used by its statement or proof"""
    deps = {}
    for x in os.listdir(f'{BASE}/theories'):
        if not x.endswith('.glob'):
            continue
        mod = 'Verif.' + x[:-5]
        cur = None
        decls, refs = [], []
        for l in open(f'{BASE}/theories/{x}', errors='replace'):
            m = re.match(r'R(\d+):\d+ (\S+) (\S+) (\S+) (\w+)$', l)
            if m:
                refs.append((int(m.group(1)), m.group(2) + '.' + m.group(4)))
                continue
            m = re.match(r'(\w+) (\d+):\d+ (\S+) (\S+)$', l)
            if m and m.group(1) in ('prf', 'def', 'thm', 'lem', 'ind', 'inst', 'rec', 'ex', 'coe', 'scheme'):
                decls.append((int(m.group(2)), mod + '.' + m.group(4)))
        decls.sort()
        i = 0
        for pos, r in sorted(refs):
            while i + 1 < len(decls) and decls[i + 1][0] <= pos:
                i += 1
            if decls and decls[i][0] <= pos:
                deps.setdefault(decls[i][1], set()).add(r)
        for _, d in decls:
            deps.setdefault(d, set())
    return deps


def dependants(deps, broken):
    rev = {}
    for d, us in deps.items():
        for u in us:
            rev.setdefault(u, set()).add(d)
    seen, todo = set(broken), list(broken)
    while todo:
        for d in rev.get(todo.pop(), ()):
            if d not in seen:
                seen.add(d)
                todo.append(d)
    return seen


def admit(path, line):
    """replace the proof of the statement containing this line by Admitted; returns its name"""
    s = open(path).read()
    pos = 0
    for _ in range(line - 1):
        pos = s.index('\n', pos) + 1
    end = s.find('\n', pos)
    ds = [m for m in DECL.finditer(s) if m.start() < end]
    if not ds:
        return None
    m = ds[-1]
    rest = s[m.start():]
    q = re.search(r'\b(Qed|Defined)\.', rest)
    p = re.search(r'\bProof\b[^.]*\.', rest)
    if m.group(1) in ('Inductive', 'Record', 'Notation', 'Ltac', 'Fixpoint') or not q or not p or p.start() > q.start():
        return None
    if rest[q.start():].startswith('Defined'):
        return None
    open(path, 'w').write(s[:m.start()] + rest[:p.start()] + 'Admitted.' + rest[q.end():])
    return m.group(2)


def check_file(d, x):
    """-vok of one file, admitting failing proofs; returns (names, note)"""
    names = []
    while True:
        rc, out = sh(['coqc', *OPTS, '-vok', f'theories/{x}.v'], d, 600)
        if rc == 0:
            return names, None
        m = re.search(r'File "(?:\./)?theories/(\w+)\.v", line (\d+)', out)
        if not m:
            return names, f'{x}: ' + (out.strip().splitlines() or ['?'])[-1][:120]
        # not found because the declaration is elsewhere: give up
        if m.group(1) != x:
            return names, f'{x}: {out.strip()[:200]}'
        n = admit(f'{d}/theories/{x}.v', int(m.group(2)))
        if n is None or n in names:
            return names, f'{x}: line {m.group(2)} ' + ' '.join(out.split())[:200]
        names.append(n)


def theorems_in(d, x):
    s = open(f'{d}/theories/{x}.v').read()
    names = re.findall(r'^Theorem (\w+)', s, re.M) or \
        [m.group(2) for m in DECL.finditer(s) if m.group(1) in ('Lemma', 'Corollary', 'Example')]
    return {f'Verif.{x}.{n}' for n in names}


def run(m, deps, slot=0):
    d = f'{TMP}/work{slot}'
    shutil.rmtree(d, ignore_errors=True)
    subprocess.run(['cp', '-a', BASE, d], check=True)
    f = f'{d}/theories/{m["file"]}'
    s = open(f).read()
    if s.count(m['old']) != 1:
        return dict(name=m['name'], error=f'old text occurs {s.count(m["old"])} times')
    t0 = time.time()
    open(f, 'w').write(s.replace(m['old'], m['new']))
    for other, old, new in m.get('also', []):     # the same edit in a lemma that repeats the code
        g = f'{os.path.dirname(f)}/{other}'
        s2 = open(g).read()
        if s2.count(old) != 1:
            return dict(name=m['name'], error=f'old text occurs {s2.count(old)} times in {other}')
        open(g, 'w').write(s2.replace(old, new))
    notes, broken = [], []
    # the files that depend on the edited one, in dependency order: statements first (vos), then every
    # proof (vok); a file all of whose theorems rest on a proof that is known to fail is not checked, and
    # nothing more is once a theorem of the claim is known to fail
    order = [l.strip()[9:-2] for l in open(f'{d}/_CoqProject') if l.startswith('theories/')]
    claims = set(re.findall(r'C\d\d', m['claim']))
    partial = False
    stale, dead = {m['file'][:-2]}, set()
    for x in order:
        if x == 'Audit':
            continue
        req = set(re.findall(r'\b\w+\b', ' '.join(re.findall(r'^From Verif Require[^.]*\.', open(f'{d}/theories/{x}.v').read(), re.M))))
        if x not in stale and not req & stale:
            continue
        stale.add(x)
        if broken and claims & {n.split('.')[-1][:3] for n in dependants(deps, broken)}:
            partial = True
            break
        if req & dead:
            dead.add(x)
            continue
        while True:
            rc, out = sh(['coqc', *OPTS, '-vos', f'theories/{x}.v'], d, 900)
            if rc == 0:
                break
            # a statement that no longer typechecks, or a proof in a section (these are run even for vos)
            mm = re.search(r'File "(?:\./)?theories/(\w+)\.v", line (\d+)[^\n]*\n(Error[^\n]*\n?[^\n]*)', out)
            n = mm and admit(f'{d}/theories/{x}.v', int(mm.group(2)))
            if not n or f'Verif.{x}.{n}' in broken:
                notes.append(f'statement: {x}: ' + ' '.join(out.split())[:200])
                dead.add(x)
                break
            broken.append(f'Verif.{x}.{n}')
        if x in dead:
            continue
        th = theorems_in(d, x)
        if th and broken and th <= dependants(deps, broken):
            continue
        ns, note = check_file(d, x)
        broken += [f'Verif.{x}.{n}' for n in ns]
        if note:
            notes.append(note)
    dep = dependants(deps, broken)
    failed = sorted(n.split('.')[-1] for n in dep if re.match(r'C\d\d', n.split('.')[-1]))
    return dict(name=m['name'], claim=m['claim'], survived=not broken and not notes,
                broken=[b[6:] for b in sorted(broken)],
                failed=[x for x in failed if 'example' not in x],
                examples=[x for x in failed if 'example' in x], notes=notes, stopped_early=partial,
                seconds=int(time.time() - t0))


if __name__ == '__main__':
    if sys.argv[1] == '--base':
        base()
        sys.exit()
    M = runpy.run_path(sys.argv[1])['M']
    only = set(sys.argv[2:])
    deps = graph()
    M = [m for m in M if not only or m['name'] in only]
    try:
        done = {json.loads(l)['name'] for l in open(f'{TMP}/results.jsonl')}
    except FileNotFoundError:
        done = set()
    M = [m for m in M if m['name'] not in done or only]
    slots = queue.Queue()
    for i in range(int(JOBS)):
        slots.put(i)
    lock = threading.Lock()

    def job(m):
        slot = slots.get()
        try:
            r = run(m, deps, slot)
        finally:
            slots.put(slot)
        with lock:
            with open(f'{TMP}/results.jsonl', 'a') as o:
                o.write(json.dumps(r) + '\n')
            print(r['name'], 'SURVIVED' if r.get('survived') else r.get('error', 'killed'), len(r.get('failed', [])),
                  r.get('seconds'), flush=True)
    with ThreadPoolExecutor(int(JOBS)) as ex:
        list(ex.map(job, M))
