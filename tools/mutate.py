#!/usr/bin/env python3
"""Tests the theorems against wrong programs.

usage: mutate.py BASE MUTANTS.json [LOG.jsonl]

BASE is a compiled copy of /verif/rocq outside of /verif. Every mutant is an object {file, def, old, new, claim}: the text `old` inside of
definition `def` of theories/`file`.v is replaced by `new`. The tree is rebuilt in a scratch copy and the statements (Theorem, Lemma, Example) in
which coqc stops are reported, together with the Theorems of the Props files which depend on them.
"""
import json, os, re, shutil, subprocess, sys, collections

HEAD = re.compile(r'^\s*(?:Local |Global )?(Theorem|Lemma|Corollary|Example|Definition|Fixpoint|Record|Class|Instance|Inductive|Remark)\s+([A-Za-z0-9_\']+)')

def enclosing(path, line):
    name = '?'
    for i, l in enumerate(open(path), 1):
        if i > line: break
        m = HEAD.match(l)
        if m: name = m.group(2)
    return name

def graph(base):
    """name -> names used by it (statements and definitions), textual: by identifiers."""
    bodies, kind = {}, {}
    d = os.path.join(base, 'theories')
    for f in sorted(os.listdir(d)):
        if not f.endswith('.v'): continue
        cur = None
        for l in open(os.path.join(d, f)):
            m = HEAD.match(l)
            if m:
                cur = m.group(2); kind[cur] = (m.group(1), f[:-2]); bodies.setdefault(cur, set())
            if cur: bodies[cur] |= set(re.findall(r"[A-Za-z_][A-Za-z0-9_']*", l))
    names = set(bodies)
    return {n: (b & names) - {n} for n, b in bodies.items()}, kind

def dependents(g, bad):
    rev = collections.defaultdict(set)
    for n, us in g.items():
        for u in us: rev[u].add(n)
    seen, todo = set(bad), list(bad)
    while todo:
        for m in rev[todo.pop()]:
            if m not in seen: seen.add(m); todo.append(m)
    return seen

def main():
    base, mf = sys.argv[1], sys.argv[2]
    log = sys.argv[3] if len(sys.argv) > 3 else None
    g, kind = graph(base)
    for n, m in enumerate(json.load(open(mf))):
        work = '/tmp/mut_work_%d' % os.getpid()
        shutil.rmtree(work, ignore_errors=True)
        subprocess.run(['cp', '-a', base, work], check=True)
        p = os.path.join(work, 'theories', m['file'] + '.v')
        s = open(p).read()
        at = re.search(r'(Definition|Fixpoint|Instance)\s+' + re.escape(m['def']) + r'\b', s)
        assert at, m
        k = s.find(m['old'], at.start())
        assert k >= 0, m
        s = s[:k] + m['new'] + s[k + len(m['old']):]
        open(p, 'w').write(s)
        r = subprocess.run('coq_makefile -f _CoqProject -o Makefile >/dev/null; timeout 1500 make -j2 COQC="timeout 300 coqc" 2>&1', shell=True, cwd=work,
                           stdout=subprocess.PIPE, text=True)
        failed = []
        for f, line in re.findall(r'File "\./theories/([A-Za-z0-9_]+)\.v", line (\d+), characters [0-9-]+:\s*\nError', r.stdout):
            failed.append(f + '.' + enclosing(os.path.join(work, 'theories', f + '.v'), int(line)))
        bad = [f.split('.')[1] for f in failed]
        deps = sorted(x for x in dependents(g, bad) if kind.get(x, ('', ''))[0] == 'Theorem' and re.match(r'C\d\d', x))
        rec = {'definition': m['def'], 'file': 'theories/' + m['file'] + '.v', 'edit': m['old'] + '  ==>  ' + m['new'], 'claim_broken': m['claim'],
               'stopped_at': failed, 'theorems_failed': deps, 'theorems_tightened': m.get('tightened', [])}
        if 'note' in m: rec['note'] = m['note']
        print(('KILLED  ' if failed else 'SURVIVED'), m['def'], '|', m['new'][:60].replace('\n', ' '), '|', failed, len(deps), flush=True)
        if not failed and r.returncode: print(r.stdout[-1500:], flush=True)
        if log and (failed or 'log_survivor' in m): open(log, 'a').write(json.dumps(rec) + '\n')
        shutil.rmtree(work, ignore_errors=True)
main()
