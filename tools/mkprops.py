#!/usr/bin/env python3
"""Write theories/PX.v from theories/LX.v.

Every lemma of LX.v whose name starts with c<number>_ is a property.  PX.v repeats its
comment and its statement, closes it with `exact`, and prints its assumptions.  Lemmas
with _ex at the end of their name become the Example that stands beside the theorem.
The line (* P: A B C *) of LX.v names the only modules that PX.v imports: the model, the
specifications and the example meshes.
Usage: mkprops.py NAME...   (for example: mkprops.py Read)
"""
import re, sys, os
ROOT = os.path.join(os.path.dirname(os.path.abspath(__file__)), '..', 'rocq', 'theories')

def make(name):
    src = open(os.path.join(ROOT, 'L%s.v' % name)).read()
    coq = re.search(r'^From Coq Require Import (.*?)\.$', src, re.S | re.M).group(1)
    coq = ' '.join(w for w in coq.split() if w not in ('Lra', 'Lia'))
    mods = re.search(r'^\(\* P: (.*?) \*\)$', src, re.M).group(1)
    opens = re.findall(r'^(?:Local )?Open Scope \w+\.', src, re.M)[:1]
    out = ['(** Properties proved in L%s.v, generated from it by tools/mkprops.py.' % name,
           '    Nothing but statements: each proof is one lemma of that file. *)',
           'From Coq Require Import %s.' % coq, 'From Verif Require Import %s.' % mods,
           'From Verif Require L%s.' % name, 'Import ListNotations.'] + opens + ['']
    pat = re.compile(r'((?:\(\*\*(?:(?!\*\)).)*\*\)\n)?)Lemma (c(\d+)_\w+)((?:(?!\nProof\.).)*)\nProof\.', re.S)
    names = []
    for mt in pat.finditer(src):
        comment, lem, num, stmt = mt.group(1), mt.group(2), mt.group(3), mt.group(4)
        thm = 'C' + lem[1:]
        kind = 'Example' if re.search(r'_ex\d*$', lem) else 'Theorem'
        out.append(comment + '%s %s%s\nProof. exact L%s.%s. Qed.' % (kind, thm, stmt, name, lem))
        if kind == 'Theorem':
            out.append('Print Assumptions %s.' % thm)
            names.append(thm)
        out.append('')
    open(os.path.join(ROOT, 'P%s.v' % name), 'w').write('\n'.join(out))
    return names

if __name__ == '__main__':
    for n in sys.argv[1:]:
        print(n, make(n))
