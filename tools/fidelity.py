#!/usr/bin/env python3
"""Runs the Coq model in IEEE doubles on the mesh of the project's own tests and
compares the results with the numbers asserted there.

This is a test of the model (not a proof): it shows that the Gallina functions,
instantiated with primitive floats instead of real numbers, reproduce the values
that meshless/espim/tests and meshless/tests expect of the Python code.  The float
instance is written to a temporary directory; no theorem depends on it.

Usage: build rocq/ first, then   python3 tools/fidelity.py
"""
import os, re, subprocess, sys, tempfile

ROOT = os.path.dirname(os.path.dirname(os.path.abspath(__file__)))
REPO = '/repo'

FLOAT = r'''
From Coq Require Import ZArith List Bool String Floats Uint63.
From Verif Require Import Num Py Mesh Utils CalcK0 CalcKG AddK0s Interp.
Import ListNotations.
Definition fofZ (z : Z) : float :=
  match z with
  | Z0 => 0%float
  | Zpos _ => PrimFloat.of_uint63 (Uint63.of_Z z)
  | Zneg p => PrimFloat.opp (PrimFloat.of_uint63 (Uint63.of_Z (Zpos p)))
  end.
#[global] Instance NumF : Num float := {|
  nofZ := fofZ; nadd := PrimFloat.add; nsub := PrimFloat.sub; nmul := PrimFloat.mul;
  ndiv := PrimFloat.div; nopp := PrimFloat.opp; nabs := PrimFloat.abs;
  nsqrt := PrimFloat.sqrt; nltb := PrimFloat.ltb; neqb := PrimFloat.eqb |}.
Definition okl (r : res (list (Z * Z * float))) := match r with Ok l => l | Raise _ => [(0%Z, 0%Z, nan)] end.
(* The statements executed by the assembly loops, in order.  They are summed in
   Python because the matrices of the model are functions (slow to tabulate). *)
Definition run_k0 (m : mesh float) (pfn : bool) :=
  let (m', _) := calc_k0 m pfn in
  flat_map (fun ke => okl (k0_edge m' pfn (snd ke))) (edges m').
Definition run_k0s (m : mesh float) (pfn : bool) (meth : string) (alpha : float) :=
  if String.eqb meth "cell-based" then flat_map (fun kt => okl (cell_tria lits_src m pfn alpha false (snd kt))) (elements m)
  else if String.eqb meth "edge-based" then flat_map (fun ke => okl (edge_shear lits_src m pfn alpha false (snd ke))) (edges m)
  else flat_map (fun kt => okl (cellns_tria m pfn alpha false (snd kt))) (elements m).
Definition run_kG (m : mesh float) (pfn : bool) (d : list float) :=
  flat_map (fun ke => okl (kG_edge m pfn d (snd ke))) (edges m).
Definition set_props (p : prop float) (m : mesh float) : mesh float :=
  {| nodes := map (fun kn => (fst kn, let n := snd kn in
        {| nid := nid n; nxyz := nxyz n; nprop := Some p; nindex := nindex n;
           nedges := nedges n; ntrias := ntrias n |})) (nodes m);
     elements := map (fun kt => (fst kt, let t := snd kt in
        {| eid := eid t; tn1 := tn1 t; tn2 := tn2 t; tn3 := tn3 t;
           tprop := Some p; tedges := tedges t |})) (elements m);
     edges := edges m |}.
Definition okm (r : res (mesh float)) : mesh float :=
  match r with Ok m => m | Raise _ => {| nodes := []; elements := []; edges := [] |} end.
Definition okk (r : res (matrix float)) : matrix float :=
  match r with Ok m => m | Raise _ => zeros 0 end.
'''


def hexf(x):
    h = float(x).hex()
    return '(%s)%%float' % h


def coq(src, d):
    f = os.path.join(d, 'Run.v')
    open(f, 'w').write(src)
    out = subprocess.run(['coqc', '-Q', os.path.join(ROOT, 'rocq/theories'), 'Verif', f],
                         capture_output=True, text=True, cwd=d)
    if out.returncode:
        sys.exit(out.stderr[-3000:])
    return out.stdout


def floats(txt):
    return [float(s) for s in re.findall(r'-?(?:\d+\.?\d*(?:e[+-]?\d+)?|infinity|nan)', txt)]


def parse_dat():
    grids, trias = {}, {}
    for line in open(REPO + '/meshless/espim/tests/nastran_plate_16_nodes.dat'):
        c = [line[i:i + 8].strip() for i in range(0, 72, 8)]
        if c[0] == 'GRID':
            grids[int(c[1])] = tuple(float(v) for v in c[3:6])
        if c[0] == 'CTRIA3':
            trias[int(c[1])] = tuple(int(v) for v in c[3:6])
    return grids, trias


def solve(K, f):
    """Gaussian elimination; rows and columns that are zero are dropped."""
    n = len(K)
    act = [i for i in range(n) if any(K[i])]
    A = [[K[i][j] for j in act] + [f[i]] for i in act]
    m = len(act)
    for c in range(m):
        p = max(range(c, m), key=lambda r: abs(A[r][c]))
        A[c], A[p] = A[p], A[c]
        for r in range(c + 1, m):
            w = A[r][c] / A[c][c]
            if w:
                for k in range(c, m + 1):
                    A[r][k] -= w * A[c][k]
    x = [0.0] * m
    for c in reversed(range(m)):
        x[c] = (A[c][m] - sum(A[c][k] * x[k] for k in range(c + 1, m))) / A[c][c]
    u = [0.0] * n
    for i, v in zip(act, x):
        u[i] = v
    return u


def inv_power(K, G):
    """smallest positive lambda of (K + lambda G) x = 0: power iteration on
    -K^-1 G with a shift"""
    n = len(K)
    act = [i for i in range(n) if any(K[i])]
    m = len(act)
    # dense inverse times G
    cols = []
    A = [[K[i][j] for j in act] for i in act]
    B = [[-G[i][j] for j in act] for i in act]
    for c in range(m):
        p = max(range(c, m), key=lambda r: abs(A[r][c]))
        A[c], A[p] = A[p], A[c]; B[c], B[p] = B[p], B[c]
        for r in range(m):
            if r != c and A[r][c]:
                w = A[r][c] / A[c][c]
                A[r] = [a - w * b for a, b in zip(A[r], A[c])]
                B[r] = [a - w * b for a, b in zip(B[r], B[c])]
    M = [[B[r][k] / A[r][r] for k in range(m)] for r in range(m)]
    shift = max(sum(abs(v) for v in row) for row in M)
    x = [1.0 + 0.01 * i for i in range(m)]
    # two stages: find largest positive eigenvalue of M via power iteration on
    # M + s I with s small
    s = 0.2 * shift
    lam = 0
    for it in range(6000):
        y = [sum(a * b for a, b in zip(row, x)) + s * xi for row, xi in zip(M, x)]
        nrm = max(y, key=abs)
        x = [v / nrm for v in y]
        lam = nrm - s
    return 1 / lam


def main():
    grids, trias = parse_dat()
    order = list(grids)
    E, nu, h = 71.e9, 0.33, 0.007
    q = E / (1 - nu * nu); G = E / (2 * (1 + nu))
    Q = [q, nu * q, 0, nu * q, q, 0, 0, 0, G]
    A = ' '.join(hexf(v * h) for v in Q)
    D = ' '.join(hexf(v * h**3 / 12) for v in Q)
    Z = ' '.join(hexf(0) for v in Q)
    Es = ' '.join(hexf(v * h) for v in (G, 0, 0, G))
    src = FLOAT
    src += 'Definition grids := [%s].\n' % '; '.join(
        '(%d, V3 %s %s %s)' % ((k,) + tuple(map(hexf, grids[k]))) for k in order)
    src += 'Definition cards := [%s].\n' % '; '.join(
        '(%d, Ctria3 %d %d %d)' % ((k,) + trias[k]) for k in trias)
    src += 'Definition lam := Prop_ (M3 %s) (M3 %s) (M3 %s) (M2 %s) %s %s %s.\n' % (
        A, Z, D, Es, hexf(h), hexf(5 / 6), hexf(5 / 6))
    src += 'Definition m0 := set_props lam (okm (read_mesh grids cards)).\n'
    ans = {'edge-based': 41.85273, 'cell-based': 6.98852939,
           'cell-based-no-smoothing': 4.921956}
    ref = [[float(v) for v in l.split()] for l in
           open(REPO + '/meshless/espim/tests/nastran_plate_16_nodes.result.txt') if l.strip()]
    ok = True
    index = {k: i for i, k in enumerate(order)}
    n5 = 5 * len(order)

    def total(txt):
        K = [[0.0] * n5 for _ in range(n5)]
        pat = r'\(\(?(-?\d+)\)?(?:%Z)?, \(?(-?\d+)\)?(?:%Z)?, \(?(-?[\d.e+-]+|nan|infinity)\)?(?:%float)?\)'
        for r, c, v in re.findall(pat, txt):
            K[int(r)][int(c)] += float(v)
        return K

    with tempfile.TemporaryDirectory() as d:
        for pfn in ('true', 'false'):
            for meth in ans:
                s = src
                s += ('Definition ks := let (m, k) := calc_k0 m0 %s in '
                      '(run_k0 m0 %s ++ run_k0s m %s "%s" %s)%%list.\n'
                      % (pfn, pfn, pfn, meth, hexf(0.2)))
                s += 'Set Printing Width 1000000.\nSet Printing Depth 1000000.\nEval vm_compute in ks.\n'
                K = total(coq(s, d))

                def bc(K):
                    for i in (1, 10, 11, 12):
                        for j in (0, 1, 2):
                            zero(K, index[i] * 5 + j)
                    for i in range(2, 10):
                        for j in (1, 2):
                            zero(K, index[i] * 5 + j)

                def zero(K, r):
                    for k in range(n5):
                        K[r][k] = 0.0
                        K[k][r] = 0.0
                if meth != 'edge-based':
                    K1 = [row[:] for row in K]
                    for i in (1, 10, 11, 12):
                        for j in (0, 1, 2, 3):
                            zero(K1, index[i] * 5 + j)
                    f = [0.0] * n5
                    for nid, v in ((4, 500.), (7, 500.), (5, 1000.), (6, 1000.)):
                        f[index[nid] * 5 + 2] = v
                    u = solve(K1, f)
                    ind = sorted(order, key=lambda k: (grids[k][0], grids[k][1]))
                    w = [u[index[k] * 5 + 2] for k in ind]
                    got = [[w[4 * c + r] for c in range(4)] for r in range(4)]
                    good = all(abs(a - b) <= 1e-8 + 0.05 * abs(b)
                               for ra, rb in zip(got, ref) for a, b in zip(ra, rb))
                    print('static ', pfn, meth, 'ok' if good else 'MISMATCH')
                    ok &= good
                bc(K)
                f = [0.0] * n5
                for nid, v in ((4, -500.), (7, -500.), (5, -1000.), (6, -1000.)):
                    f[index[nid] * 5] = v
                u = solve(K, f)
                s = src + ('Definition dd := [%s].\nDefinition kg := run_kG (fst (calc_k0 m0 %s)) %s dd.\n' % ('; '.join(map(hexf, u)), pfn, pfn))
                s += 'Set Printing Width 1000000.\nSet Printing Depth 1000000.\nEval vm_compute in kg.\n'
                KG = total(coq(s, d))
                bc(KG)
                lam = inv_power(K, KG)
                good = abs(lam - ans[meth]) <= 1e-8 + 1e-5 * abs(ans[meth])
                print('buckling', pfn, meth, lam, 'expected', ans[meth], 'ok' if good else 'MISMATCH')
                ok &= good
        # interpolation
        t = open(REPO + '/meshless/tests/test_interpolate.py').read()
        arrs = [floats(m) for m in re.findall(r'ans = np\.array\(\[(.*?)\]\)', t, re.S)]
        lin = lambda a, b, n: [a + (b - a) * i / (n - 1) for i in range(n)]
        xs = lin(0, 1, 12); ys = lin(0, .5, 12)
        X = [x for y in ys for x in xs]; Y = [y for y in ys for x in xs]
        lst = lambda v: '[' + '; '.join(map(hexf, v)) + ']'
        s = FLOAT + ('Definition F := NdArray [3;3] (fun ij => match ij with [1; _] => %s | _ => 0%%float end).\n'
             'Set Printing Width 1000000.\nSet Printing Depth 1000000.\n'
             'Eval vm_compute in interpolate_lagrange_2D (Array %s) (Array %s) %s %s F.\n'
             % (hexf(45), lst(X), lst(Y), lst([0, .5, 1]), lst([0, .25, .5])))
        got = floats(coq(s, d).split(': res')[0])
        good = len(got) == len(arrs[0]) and all(abs(a - b) < 1e-5 for a, b in zip(got, arrs[0]))
        print('interpolate 2D', 'ok' if good else 'MISMATCH'); ok &= good
        xs = lin(0, 1, 4); ys = lin(0, 2, 4); zs = lin(0, 3, 3)
        # np.array(np.meshgrid(xs, ys, zs)).swapaxes(0, -1).reshape(-1, 3)
        P = [(x, y, z) for z in zs for x in xs for y in ys]
        P = []
        for k in range(3):
            for j in range(4):
                for i in range(4):
                    # meshgrid arrays have shape (ny, nx, nz); after swapaxes (nz, nx?, ...)
                    P.append((i, j, k))
        # shape of np.array(meshgrid) is (3, ny, nx, nz); swapaxes(0,-1): (nz, ny, nx, 3)
        P = [(xs[i], ys[j], zs[k]) for k in range(3) for j in range(4) for i in range(4)]
        s = FLOAT + ('Definition F := NdArray [4;3;3] (fun ij => match ij with [1; _; 0] => %s | [2; _; 0] => %s | _ => 0%%float end).\n'
             'Set Printing Width 1000000.\nSet Printing Depth 1000000.\n'
             'Eval vm_compute in interpolate_lagrange_3D (Array %s) (Array %s) (Array %s) %s %s %s F.\n'
             % (hexf(45), hexf(45), lst([p[0] for p in P]), lst([p[1] for p in P]), lst([p[2] for p in P]),
                lst([0, 1/3, 2/3, 1]), lst([0, 1, 2]), lst([0, 1.5, 3])))
        got = floats(coq(s, d).split(': res')[0])
        good = len(got) == len(arrs[1]) and all(abs(a - b) < 1e-5 for a, b in zip(got, arrs[1]))
        print('interpolate 3D', 'ok' if good else 'MISMATCH'); ok &= good
    sys.exit(0 if ok else 1)


main()
