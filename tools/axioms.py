#!/usr/bin/env python3
"""Compiles the files theories/P*.v and writes what Print Assumptions says for each theorem
into DESIGN.md, between the two marker lines.  Build rocq/ first.  With arguments (Stat ...)
only the files PStat.v ... are compiled and the other rows are kept."""
import glob, os, re, subprocess, sys
ROOT = os.path.join(os.path.dirname(os.path.abspath(__file__)), '..')
SHORT = {'ClassicalDedekindReals.sig_not_dec': 'N', 'ClassicalDedekindReals.sig_forall_dec': 'F',
         'FunctionalExtensionality.functional_extensionality_dep': 'E', 'functional_extensionality_dep': 'E', 'Classical_Prop.classic': 'C'}

def assumptions(path):
    thms = re.findall(r'^Print Assumptions (\w+)\.', open(path).read(), re.M)
    out = subprocess.run(['coqc', '-Q', 'theories', 'Verif', os.path.relpath(path, os.path.join(ROOT, 'rocq'))],
                         cwd=os.path.join(ROOT, 'rocq'), capture_output=True, text=True, check=True).stdout
    blocks = []
    for line in out.splitlines():
        if line.startswith('Closed under'):
            blocks.append([])
        elif line.startswith('Axioms:'):
            blocks.append([])
        elif line and not line.startswith(' '):
            blocks[-1].append(line.split(':')[0].strip())
    assert len(blocks) == len(thms), (path, len(blocks), len(thms))
    return list(zip(thms, blocks))

rows = []
for p in sorted(glob.glob(os.path.join(ROOT, 'rocq', 'theories', 'P*.v'))):
    if re.match(r'P(y|ow2mul)\.v', os.path.basename(p)):
        continue
    if len(sys.argv) < 2 or os.path.basename(p)[1:-2] in sys.argv[1:]:
        rows += assumptions(p)
d = open(os.path.join(ROOT, 'DESIGN.md')).read()
a, b = '<!-- axioms -->\n', '<!-- end of axioms -->\n'
i, j = d.index(a) + len(a), d.index(b)
lines = {}
if len(sys.argv) > 1:
    for line in d[i:j].splitlines()[2:]:
        lines[line.split()[1]] = line
for t, ax in rows:
    lines[t] = '| %s | %s |' % (t, ''.join(SHORT.get(a, a) for a in ax) or 'none')
lines = [lines[t] for t in sorted(lines)]
d = d[:i] + '| theorem | axioms |\n|---|---|\n' + '\n'.join(lines) + '\n' + d[j:]
open(os.path.join(ROOT, 'DESIGN.md'), 'w').write(d)
print(len(rows), 'theorems')
