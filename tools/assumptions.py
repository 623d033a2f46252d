#!/usr/bin/env python3
"""Regenerates ASSUMPTIONS.md: what Print Assumptions lists for each theorem. Needs a built tree. usage: assumptions.py [processes]"""
import re, glob, os, subprocess, collections, sys
root = os.path.dirname(os.path.dirname(os.path.abspath(__file__)))
th = os.path.join(root, 'rocq', 'theories')
groups = collections.OrderedDict()
n = 0
from concurrent.futures import ThreadPoolExecutor
os.makedirs('/tmp/asm_out', exist_ok=True)
def compiled(f):
    return subprocess.run(['coqc', '-Q', '.', 'Verif', os.path.basename(f), '-o', '/tmp/asm_out/' + os.path.basename(f) + 'o'], cwd=th,
                          stdout=subprocess.PIPE, text=True, check=True).stdout
files = sorted(glob.glob(os.path.join(th, 'Props_*.v')))
with ThreadPoolExecutor(int(sys.argv[1]) if len(sys.argv) > 1 else 1) as ex:
    outs = list(ex.map(compiled, files))
for f, out in zip(files, outs):
    src = open(f).read()
    names = re.findall(r'^Print Assumptions (\w+)\.', src, re.M)
    blocks, cur = [], None
    for l in out.splitlines():
        if l.startswith('Closed under the global context'): blocks.append([]); cur = None
        elif l.startswith('Axioms:'): cur = []; blocks.append(cur)
        elif cur is not None:
            m = re.match(r'^([A-Za-z_][\w.\']*)\s*(:|$)', l)
            if m: cur.append(m.group(1))
    assert len(blocks) == len(names), (f, len(blocks), len(names))
    for nm, b in zip(names, blocks):
        groups.setdefault(tuple(sorted(b)), []).append(nm); n += 1
with open(os.path.join(root, 'ASSUMPTIONS.md'), 'w') as o:
    o.write('# What `Print Assumptions` lists for each theorem\n\nGenerated by tools/assumptions.py: %d theorems.\n' % n)
    for g in sorted(groups, key=len):
        o.write('\n## %s\n\n' % ('No axioms (closed under the global context)' if not g else ', '.join('`%s`' % a for a in g)))
        o.write(', '.join(sorted(groups[g])) + '\n')
