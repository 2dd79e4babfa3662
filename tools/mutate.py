#!/usr/bin/env python3
"""Test the theorems against wrong programs.

usage: mutate.py WORKDIR MUTANTS.json [OUT.jsonl]

MUTANTS.json is a list of objects with file, old, new, definition, edit, claim.
For each of them a copy of rocq/ is edited and rebuilt.  A proof that fails is
replaced by Admitted and the build goes on, so in the end Print Assumptions
tells which property theorems rest on a broken proof.
"""
import json, os, re, shutil, subprocess, sys

def sh(cmd, cwd, timeout=3000):
    p = subprocess.run(cmd, shell=True, cwd=cwd, stdout=subprocess.PIPE, stderr=subprocess.STDOUT, timeout=timeout)
    return p.stdout.decode(errors='replace')

HEAD = re.compile(r'^\s*(?:Local |Global )?(Lemma|Theorem|Example|Corollary|Fact|Remark)\s+(\w+)', re.M)

def admit(path, line):
    """replace the proof that contains the line by Admitted; return the name"""
    src = open(path).read()
    pos = sum(len(l) + 1 for l in src.split('\n')[:line - 1])
    last = None
    for m in HEAD.finditer(src):
        if m.start() > pos + 200 and src.count('\n', 0, m.start()) + 1 > line: break
        if src.count('\n', 0, m.start()) + 1 <= line: last = m
    if last is None: return None
    p = re.compile(r'\bProof\b[^.]*\.').search(src, last.end())
    q = re.compile(r'\b(Qed|Defined|Admitted)\.').search(src, last.end())
    if not p or not q or p.start() > q.start(): return None
    if q.group(1) == 'Admitted': return None
    src = src[:p.start()] + 'Proof. Admitted.' + '\n' * src.count('\n', p.start(), q.end()) + src[q.end():]
    open(path, 'w').write(src)
    return last.group(2)

def uses(work):
    """names of lemmas and theorems with the names their text mentions"""
    g, where = {}, {}
    for f in os.listdir(os.path.join(work, 'theories')):
        if not f.endswith('.v'): continue
        src = open(os.path.join(work, 'theories', f)).read()
        ms = list(HEAD.finditer(src))
        for a, b in zip(ms, ms[1:] + [None]):
            body = src[a.end(): b.start() if b else len(src)]
            body = re.sub(r'Print Assumptions \w+\.', '', body)
            body = re.split(r'\b(?:Qed|Defined|Admitted)\.', body)[0]
            g.setdefault(a.group(2), set()).update(re.findall(r"[\w']+", body))
    return g

def reached(g, broken):
    """everything that uses a broken proof, directly or not"""
    bad = {b.split('.')[-1] for b in broken} - {'unfold'}
    while True:
        more = {n for n, u in g.items() if n not in bad and u & bad}
        if not more: return bad
        bad |= more

def settled(claim, names):
    """does a theorem of every claimed property fail? (slash: of one of them)"""
    ids = re.findall(r'C\d\d', claim)
    hit = [any(n.startswith(i + '_') for n in names) for i in ids]
    return any(hit) if '/' in claim else all(hit)

def run(work, m):
    # BASE: a built copy of rocq/
    sh('rm -rf %s; cp -a %s %s' % (work, os.environ.get('BASE', '/tmp/mut/base'), work), '/')
    path = os.path.join(work, 'theories', m['file'])
    src = open(path).read()
    if src.count(m['old']) != 1:
        return {'error': 'pattern occurs %d times' % src.count(m['old'])}
    open(path, 'w').write(src.replace(m['old'], m['new']))
    sh('coq_makefile -f _CoqProject -o Makefile', work)
    broken, failed, outputs = [], [], {}
    graph = uses(work)
    for rnd in range(60):
        out = sh('timeout 2400 make -k -j3 2>&1', work)
        # keep the latest Print Assumptions output per file via separate compile at the end
        errs = re.findall(r'File "\./(theories/\w+\.v)", line (\d+), characters', out)
        errs = [(f, int(l)) for f, l in errs]
        real = re.findall(r'File "\./(theories/\w+\.v)", line (\d+), characters [^\n]*\n(?:In environment|Error)', out)
        real = [(f, int(l)) for f, l in real]
        if not real:
            if 'Error' in out and 'make' in out and re.search(r'Error \d+', out):
                # unknown failure
                failed.append(out[-400:])
            break
        progress = False
        for f, l in sorted(set(real)):
            n = admit(os.path.join(work, f), l)
            if n: broken.append(f[9:-2] + '.' + n); progress = True
            else: failed.append('%s:%d' % (f, l))
        if not progress: break
        names = sorted(n for n in reached(graph, broken) if re.match(r'C\d\d_', n) and not n.endswith('_case'))
        if settled(m['claim'], names):
            return {'broken': broken, 'theorems': names, 'failed': failed, 'rounds': rnd + 1}
    theorems = []
    for f in sorted(os.listdir(os.path.join(work, 'theories'))):
        if not f.startswith('Properties_') or not f.endswith('.v'): continue
        src = open(os.path.join(work, 'theories', f)).read()
        names = re.findall(r'^Theorem (\w+)', src, re.M)
        if not os.path.exists(os.path.join(work, 'theories', f + 'o')):
            theorems.append('(%s does not build)' % f); continue
        t = 'From Verif Require Import %s.\n' % f[:-2] + ''.join('Print Assumptions %s.\n' % n for n in names)
        open(os.path.join(work, 'Chk.v'), 'w').write(t)
        out = sh('timeout 1500 coqc -Q theories Verif Chk.v 2>&1', work)
        parts = re.findall(r'(Closed under the global context|Axioms:\n(?:.+\n?)+?(?=Closed|Axioms:|\Z))', out)
        if len(parts) != len(names): theorems.append('(%s: %d answers for %d)' % (f, len(parts), len(names)))
        for n, a in zip(names, parts):
            if a.startswith('Axioms'): theorems.append(n)
    return {'broken': broken, 'theorems': theorems, 'failed': failed, 'complete': True}

def main():
    work, muts = sys.argv[1], json.load(open(sys.argv[2]))
    out = sys.argv[3] if len(sys.argv) > 3 else '/tmp/mutants.out'
    done = set()
    if os.path.exists(out):
        done = {json.loads(l)['id'] for l in open(out)}
    for m in muts:
        if m['id'] in done: continue
        try: r = run(work, m)
        except Exception as e: r = {'error': repr(e)}
        with open(out, 'a') as f: f.write(json.dumps({**m, **r}) + '\n')

main()
