#!/usr/bin/env python3
"""Build the development with one definition edited, in a scratch copy.

usage: mutate.py SPEC.json OUTDIR
SPEC.json: list of {"id", "file", "old", "new", ...}; with "check": ["PropPkt", ...] only these files are rebuilt, with what
they need.  Every proof that no longer goes through is replaced by Admitted in
the scratch copy, so that everything after it is still checked; the theorems named Cnn_... that then depend on such a
proof (Print Assumptions) are the ones that failed.
"""
import json, os, re, shutil, subprocess, sys
SRC = os.environ.get('SRC', '/verif/rocq')   # point it at a built snapshot to keep editing meanwhile

def sh(cmd, cwd, timeout=1500):
    try:
        p = subprocess.run(cmd, cwd=cwd, shell=True, capture_output=True, text=True, timeout=timeout)
        return p.returncode, p.stdout + p.stderr
    except subprocess.TimeoutExpired:
        return 124, 'TIMEOUT'

HEAD = re.compile(r'^\s*(?:Global |Local )?(Lemma|Theorem|Example|Corollary|Fact|Remark|Definition|Fixpoint|Inductive|Instance|Record)\s+([A-Za-z0-9_\']+)')

def files():
    fs = [l.strip()[len('theories/'):-2] for l in open(SRC + '/_CoqProject') if l.strip().endswith('.v')]
    deps = {}
    for f in fs:
        t = open(f'{SRC}/theories/{f}.v').read()
        ds = set()
        for m in re.finditer(r'From Verif Require (?:Import |Export )?\s*([^.]*)\.', t):
            ds |= set(m.group(1).split())
        deps[f] = ds
    order, seen = [], set()
    def visit(f):
        if f in seen: return
        seen.add(f)
        for d in sorted(deps[f]): visit(d)
        order.append(f)
    for f in fs: visit(f)
    return order, deps

def admit_at(path, line):
    ls = open(path).read().split('\n')
    i = line - 1
    while i >= 0 and not HEAD.match(ls[i]): i -= 1
    if i < 0: return None
    kind, name = HEAD.match(ls[i]).groups()
    if kind not in ('Lemma', 'Theorem', 'Example', 'Corollary', 'Fact', 'Remark'): return None
    text = '\n'.join(ls[i:])
    m = re.search(r'\bProof\.', text)
    q = re.search(r'\b(Qed|Defined)\.', text)
    if not m or not q or m.start() > q.start(): return None
    if line - 1 < i + text[:m.start()].count('\n'): return None   # the statement itself fails
    new = text[:m.start()] + 'Admitted.' + '\n' * text[m.start():q.end()].count('\n') + text[q.end():]
    open(path, 'w').write('\n'.join(ls[:i]) + '\n' + new if i else new)
    return name

def run(mut, out):
    d = f'{out}/{mut["id"]}'
    shutil.rmtree(d, ignore_errors=True)
    shutil.copytree(SRC + '/theories', d)
    order, deps = files()
    edits = mut.get('edits') or [[mut['old'], mut['new']]]
    for old, new, *where in edits:               # a third component names another file
        path = f'{d}/{where[0] if where else mut["file"]}'
        t = open(path).read()
        if t.count(old) != 1:
            return {'id': mut['id'], 'error': f'{old!r} occurs {t.count(old)} times'}
        open(path, 'w').write(t.replace(old, new))
    wanted = set(mut.get('check') or [f for f in order if f.startswith('Prop')])
    need = set()
    def want(f):
        if f in need: return
        need.add(f)
        for x in deps[f]: want(x)
    for f in wanted: want(f)
    order = [f for f in order if f in need]
    dirty = {mut['file'][:-2]} | {e[2][:-2] for e in edits if len(e) > 2}
    failed = []
    for f in order:
        if f not in dirty and not (deps[f] & dirty): continue
        dirty.add(f)
        p = f'{d}/{f}.v'
        t = open(p).read()
        if f != mut['file'][:-2] or True:
            open(p, 'w').write('Set Default Timeout 200. ' + t)
        for _ in range(60):
            rc, o = sh(f'coqc -q -Q . Verif {f}.v', d)
            if rc == 0: break
            m = re.findall(r'File "\./[^"]*", line (\d+)', o)
            if not m: return {'id': mut['id'], 'error': o[-500:], 'failed': failed}
            n = admit_at(p, int(m[-1]))
            if n is None: return {'id': mut['id'], 'error': f'{f}: ' + o[-700:], 'failed': failed}
            failed.append(f'{f}.{n}')
    ths = []
    for f in order:
        if f in wanted and f in dirty:
            ths += [(f, n) for n in re.findall(r'^Theorem (C\d+_[A-Za-z0-9_\']+)', open(f'{d}/{f}.v').read(), re.M)]
    with open(f'{d}/Zall.v', 'w') as z:
        z.write('From Verif Require Import ' + ' '.join(sorted({f for f, _ in ths})) + '.\n')
        for f, n in ths:
            z.write(f'Goal True. idtac "@@ {n}". Abort. Print Assumptions {f}.{n}.\n')
    rc, o = sh('coqc -q -Q . Verif Zall.v', d)
    bad, via = [], {}
    for part in o.split('@@ ')[1:]:
        n, rest = part.split('\n', 1)
        if 'Closed under the global context' not in rest:
            bad.append(n)
            via[n] = re.findall(r'^([A-Za-z0-9_.\']+)\s*:', rest, re.M)
    if rc: return {'id': mut['id'], 'error': 'Zall: ' + o[-500:], 'failed': failed}
    shutil.rmtree(d, ignore_errors=True)
    return {'id': mut['id'], 'failed': failed, 'theorems': bad, 'via': via}

if __name__ == '__main__':
    muts = json.load(open(sys.argv[1])); out = sys.argv[2]
    os.makedirs(out, exist_ok=True)
    for m in muts:
        r = run(m, out)
        with open(out + '/results.jsonl', 'a') as f: f.write(json.dumps(r) + '\n')
        print(m['id'], r.get('error') or r['theorems'], flush=True)
