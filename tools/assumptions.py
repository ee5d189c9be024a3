#!/usr/bin/env python3
"""Run Print Assumptions on every property theorem and rewrite the list in DESIGN.md
(between the markers).  Run after a complete build:  python3 tools/assumptions.py"""
import re, glob, os, subprocess, collections
R = os.path.join(os.path.dirname(os.path.abspath(__file__)), '..')
fs = sorted(glob.glob(R + '/rocq/theories/Properties/*.v'))
names = [(os.path.basename(f)[:-2], m) for f in fs for m in re.findall(r'^\s*Theorem (C\d\d\w*)', open(f).read(), re.M)]
src = ''.join('From Verif Require Properties.%s.\n' % os.path.basename(f)[:-2] for f in fs)
for b, n in names:
    src += 'Goal True. idtac "@@ %s.%s". Abort.\nPrint Assumptions Verif.Properties.%s.%s.\n' % (b, n, b, n)
open('/tmp/assum.v', 'w').write(src)
if not os.environ.get('REUSE'):
    with open('/tmp/assum.log', 'w') as o:
        subprocess.run(['coqtop', '-q', '-w', 'none', '-Q', R + '/rocq/theories', 'Verif', '-batch', '-l', '/tmp/assum.v'], stdout=o, stderr=subprocess.STDOUT)
cur = None; d = collections.OrderedDict()
for l in open('/tmp/assum.log'):
    m = re.match(r'@@ (\S+)', l)
    if m: cur = m.group(1); d[cur] = []
    elif cur: d[cur].append(l.rstrip())
groups = collections.OrderedDict()
for k, v in d.items():
    ax = tuple(sorted({re.match(r'(\S+)', x).group(1) for x in v if re.match(r'\S', x) and x != 'Axioms:' and not x.startswith('Closed')}))
    groups.setdefault(ax, []).append(k)
out = ['%d theorems.\n' % len(d)]
for ax in sorted(groups, key=len):
    out.append('\n**%s** (%d theorems)\n\n' % ('Closed under the global context' if not ax else 'Axioms: ' + ', '.join('`%s`' % a for a in ax), len(groups[ax])))
    by = collections.OrderedDict()
    for k in groups[ax]: by.setdefault(k.split('.')[0], []).append(k.split('.')[1])
    for b in by: out.append('* `Properties/%s.v`: %s\n' % (b, ', '.join(by[b])))
p = R + '/DESIGN.md'; s = open(p).read()
a, b = '<!-- assumptions -->\n', '<!-- end assumptions -->\n'
s = s[:s.index(a) + len(a)] + ''.join(out) + s[s.index(b):]
open(p, 'w').write(s)
print({len(k): len(v) for k, v in groups.items()})
