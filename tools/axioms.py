#!/usr/bin/env python3
# Groups the property theorems by what Print Assumptions lists for them.
# usage: axioms.py: run in /verif/rocq after make; re-runs coqc on the Prop files.
import re, subprocess, glob, os
groups = {}
for f in sorted(glob.glob('theories/Prop*.v')):
    names = re.findall(r'^Print Assumptions (\w+)\.', open(f).read(), re.M)
    out = subprocess.run(['coqc', '-Q', 'theories', 'Verif', '-o', '/tmp/axioms_tmp/' + os.path.basename(f) + 'o', f], capture_output=True, text=True).stdout
    parts = re.split(r'^(?=Axioms:|Closed under)', out, flags=re.M)
    parts = [p for p in parts if p.startswith(('Axioms:', 'Closed under'))]
    assert len(parts) == len(names), (f, len(parts), len(names))
    for n, p in zip(names, parts):
        ax = () if p.startswith('Closed') else tuple(sorted(re.findall(r'^(\w[\w.]*)(?: :|$)', p, re.M)[0:]))
        ax = tuple(a for a in ax if a != 'Axioms')
        groups.setdefault(ax, []).append(n)
for ax, ns in sorted(groups.items(), key=lambda x: len(x[0])):
    print('* ' + (', '.join('`%s`' % a for a in ax) if ax else 'no axioms') + ' (%d): ' % len(ns) + ', '.join(sorted(ns)))
