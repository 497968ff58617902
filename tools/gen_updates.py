#!/usr/bin/env python3
"""Translates the unrolled `k0[...] += ...` statements of /repo into Gallina.

The right hand sides are copied verbatim: the notations of Num.v have the same
precedence and associativity as Python's + - * / and unary minus.  Only integer
numerals (2 -> #2) and the five decimal literals (0.166666666666667 -> L6) are
rewritten, and `i1*dof+0` becomes the integer i1*5+0."""
import re,os
SRC='/repo/meshless/espim/'
OUT=os.path.join(os.path.dirname(os.path.abspath(__file__)),'..','rocq','theories')
LIT={'0.166666666666667':'l6 L','0.0833333333333333':'l12 L','0.0416666666666667':'l24 L',
     '0.0277777777777778':'l36 L','0.0138888888888889':'l72 L'}
def entries(f,lo,hi):
    out=[]
    for n,l in enumerate(open(SRC+f),1):
        if lo<=n<=hi and re.match(r'\s*k[0G]\[',l):
            m=re.match(r'\s*k[0G]\[i(\d)\*dof\+(\d), i(\d)\*dof\+(\d)\] \+= (.*)$',l.rstrip())
            assert m,(f,n)
            out.append((n,)+m.groups())
    return out
def expr(e):
    def lit(m):
        t=m.group(0)
        if '.' in t: return '(%s)'%LIT[t]
        return '#'+t
    assert re.fullmatch(r'[\w\s.+\-*/()]*',e) and '**' not in e
    return re.sub(r'(?<![\w.])\d+(\.\d+)?(?![\w.])',lit,e)
F4=' '.join('f%d%d'%(i,j) for i in range(1,5) for j in range(1,5))
SEG=' '.join('nx%d ny%d le%d'%(i,i,i) for i in range(1,5))
ABD=' '.join('%s%s'%(m,k) for m in 'ABD' for k in ('11','12','16','22','26','66'))
def gen(mod,name,f,lo,hi,idx,params,lits):
    ents=entries(f,lo,hi)
    used=set(re.findall(r'[A-Za-z]\w*',' '.join(e[5] for e in ents)))
    ps=params.split()
    assert used<=set(ps),used-set(ps)
    with open(os.path.join(OUT,mod+'.v'),'w') as o:
        o.write('(** Generated by tools/gen_updates.py from\n    meshless/espim/%s, lines %d-%d (%d statements).\n    Do not edit.  One element (row, column, increment) per statement, in source order;\n    right hand sides verbatim. *)\n'%(f,ents[0][0],ents[-1][0],len(ents)))
        o.write('From Coq Require Import ZArith List.\nFrom Verif Require Import Num.\nImport ListNotations.\n\n')
        o.write('Section Gen.\n  Context {T : Type} {N : Num T}.\n')
        o.write('  Declare Scope gen_scope.\n  Delimit Scope gen_scope with gen.\n')
        for op,fn in [('+','nadd'),('-','nsub'),('*','nmul'),('/','ndiv')]:
            o.write('  Local Notation "a %s b" := (@%s T N a b) : gen_scope.\n'%(op,fn))
        o.write('  Local Notation "- a" := (@nopp T N a) : gen_scope.\n')
        o.write('  Local Notation "# k" := (@nofZ T N k%Z) (at level 1, format "# k") : gen_scope.\n')
        o.write('  Local Notation U i a j b e := ((i * 5 + a)%Z, (j * 5 + b)%Z, e%gen) (only parsing).\n\n')
        o.write('  (** meshless/espim/%s:%d-%d *)\n'%(f,ents[0][0],ents[-1][0]))
        o.write('  Definition %s%s (%s : Z)\n    (%s : T) : list (Z * Z * T) := [\n'%(name,' (L : lits T)' if lits else '',idx,params))
        for k,(n,a,al,b,be,e) in enumerate(ents):
            o.write('    (* %d *) U i%s %s i%s %s (%s)%s\n'%(n,a,al,b,be,expr(e),';' if k+1<len(ents) else ''))
        o.write('  ].\nEnd Gen.\n')
gen('GenK0','k0_entries','plate2d_calc_k0.py',253,508,'i1 i2 i3 i4',' '.join(['Ac',ABD,SEG,F4]),False)
gen('GenKG','kG_entries','plate2d_calc_kG.py',159,174,'i1 i2 i3 i4',' '.join(['Ac Nxx Nyy Nxy',SEG,F4]),False)
gen('GenCell','cell_entries','plate2d_add_k0s_cell_based.py',94,174,'i1 i2 i3','Ac Ac1 Ac2 Ac3 E44 E45 E55 a1 b1 c1 d1 a2 b2 c2 d2 a3 b3 c3 d3',True)
gen('GenCellNS','cellns_entries','plate2d_add_k0s_cell_based_no_smoothing.py',62,142,'i1 i2 i3','Ac E44 E45 E55 a1 b1 c1 d1',False)
gen('GenEdgeB','edgeb_entries','plate2d_add_k0s_edge_based.py',59,139,'i1 i2 i3','Ac E44 E45 E55 a1 b1 c1 d1',True)
gen('GenEdgeI','edgei_entries','plate2d_add_k0s_edge_based.py',209,352,'i1 i2 i3 i4','Ac Ac1 Ac2 E44 E45 E55 a1 b1 c1 d1 a2 b2 c2 d2',True)
