#!/usr/bin/env python3
"""writes ASSUMPTIONS.md: what Print Assumptions lists for each property theorem (needs a built tree)"""
import re, os, subprocess, tempfile, collections
here = os.path.dirname(os.path.abspath(__file__)); root = os.path.join(here, '..', 'rocq')
P = os.path.join(root, 'theories', 'Properties')
out = []
for f in sorted(os.listdir(P)):
    if not f.endswith('.v'): continue
    s = open(os.path.join(P, f)).read()
    names = re.findall(r'^(?:Theorem|Corollary)\s+(C\d\d\w*)', s, re.M)
    if not names: continue
    t = 'From Verif Require Import Properties.%s.\n' % f[:-2]
    for n in names: t += 'Goal True. idtac "=== %s". Abort.\nPrint Assumptions %s.\n' % (n, n)
    d = tempfile.mkdtemp(); open(d + '/t.v', 'w').write(t)
    r = subprocess.run(['coqc', '-Q', 'theories', 'Verif', d + '/t.v'], cwd=root, capture_output=True, text=True)
    assert r.returncode == 0, r.stderr
    for b in r.stdout.split('=== ')[1:]:
        n, body = b.split('\n', 1)
        ax = tuple(sorted(set(re.findall(r'^([A-Za-z_][\w.\']*)\s*(?::|$)', body, re.M)) - {'Axioms'})) if 'Axioms:' in body else ()
        out.append((n, f, ax))
cl = collections.OrderedDict()
for n, f, ax in sorted(out): cl.setdefault(ax, []).append(n)
with open(os.path.join(here, '..', 'ASSUMPTIONS.md'), 'w') as o:
    o.write('# What `Print Assumptions` lists for each property theorem\n\nGenerated by `tools/assumptions.py`. All names are of Coq\'s standard library.\n')
    for ax in sorted(cl, key=len):
        o.write('\n## %s\n\n' % ('Closed under the global context' if not ax else ', '.join('`%s`' % a for a in ax)))
        o.write(', '.join('`%s`' % n for n in cl[ax]) + '\n')
print(len(out), [(len(a), len(cl[a])) for a in cl])
