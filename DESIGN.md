# Formal model of saullocastro/meshless in Rocq (Coq 8.16.1)

`properties.jsonl` lists the properties, `MANIFEST.json` the theorems for each of
them, `seeded/LOG.jsonl` the wrong programs the theorems were tested against.

For a wrong program the files that mention the changed definition, and some of those
that depend on them, are checked again in a scratch copy; a lemma whose proof fails is
replaced by an unproved one to find the next failure.  `theorems_failed` lists the
theorems whose proof fails or uses, directly or through others, a lemma whose proof
fails.  The latter have lost their proof; that they are false is not shown.  Files
outside the checked part of the development do not count, so the list can be short.

## Shape of the model

Every definition cites the file and lines in /repo it models; simplifications are
stated there and repeated below.

| module | contents |
|---|---|
| `Num.v` | numbers: the numeric code is written once over a record of operations `Num T`; most theorems are about the instance `NumR` (real numbers); those about connectivity, numbering, exceptions and histories (C01-C07, C18, C24-C27, C30, C71, C73-C75) hold for every `Num T` |
| `Float.v` | the instance `NumF`: IEEE doubles, with the operations of Coq's `SpecFloat` (no axioms) |
| `Py.v` | exceptions as values (`res`), indexing with negative indices, insertion-ordered dictionaries, sets, `sorted`, loops whose effects survive an exception |
| `Mesh.v` | `espim/classes.py`, `espim/read_mesh.py` (`read_mesh` after pyNastran's parser, `read_delaunay`) |
| `Utils.v`, `Vec.v` | `utils.py`, `constants.py`, the pyNastran element methods used, numpy matrices updated in place |
| `CalcK0.v`, `CalcKG.v`, `AddK0s.v` | `espim/plate2d_calc_k0.py`, `plate2d_calc_kG.py`, `plate2d_add_k0s*.py`, complete |
| `Gen*.v` | the 659 unrolled statements `k0[...] += ...`, translated mechanically from /repo by `tools/gen_updates.py` (right hand sides verbatim) |
| `Ops.v` | histories: sequences of calls and of the assignments users make between them |
| `Interp.v` | `interpolate.py`, complete |
| `Logger.v` | `logger.py`, complete |
| `Pow2mul.v`, `Mprint.v`, `MprintOpt.v` | `dev/sympytools.py`; the second has the printers with the default options, the third with `subs`, `collect_for` and `use_cse` |
| `EdgeOps.v` | the methods of `Edge` in `espim/classes.py` |

Specifications are in `Spec*.v` and do not refer to how the code computes.
`Ex*.v` are the concrete meshes used to show that hypotheses are met.  `F*.v` are
facts, `L*.v` the lemmas behind the properties.  `P*.v` hold nothing but the
property theorems and, beside them, the Examples; they are generated from `L*.v` by
`tools/mkprops.py`, each theorem is closed by one `exact`, and `Print Assumptions`
follows each.  The P files import only model, specification and example modules, so
the statements cannot use a helper of the proofs.

Naming: a theorem `Cnn_..._refuted` shows that the property as stated in
`properties.jsonl` is false of the code, by a concrete witness.  The theorem
`Cnn_..._partial` proves what is true of it; what is missing is the refuted part.

## Properties: what is modelled and how it is proved

| id | model | proof |
|----|-------|-------|
| C01-C07 | readers over lists of points / simplices / deck cards | induction over the lists, invariants of the dictionaries |
| C08-C13 | interpolation over lists, numpy scalar/array values, shape assertions | algebra of the Lagrange basis; root counting for uniqueness; C11 refuted (`enumerate(y_nodes)` for z), C12 refuted for one node per direction |
| C14, C15 | loop over Python indices -1..n-2; vectors of any length | sums over cyclic lists |
| C16, C17 | per-edge set-up of calc_k0 | real algebra per edge, double counting over the mesh |
| C18-C29 | calc_k0 on meshes of any size | the update list of an edge is a bilinear form of unit strains (entry by entry, `field`), then sums over edges; C27 by invariants over histories; C28 by permutation of sums |
| C30-C39 | add_k0s, three methods | the same; refuted: C35 without smoothing, C36 and C39 edge-based (decimals), C37 edge-based (`x1, y1, y1 = n1.xyz`), C38 edge-based |
| C40-C45 | calc_kG on meshes prepared by calc_k0 | the same |
| C46-C48, C53, C55, C56 | regular expression search and replacement on character lists | induction on strings, a grammar of printed expressions with values; witnesses for the refuted ones |
| C49-C52, C57 | printers as functions to text and files; a small interpreter of the printed statements | induction over the matrix; the text determines the statements |
| C54 | printed lines as a list | computation and induction on the level |
| C58, C59 | the matrices of calc_k0 and calc_kG applied to affine fields | unit strains of hat functions summed over the domains of a node telescope to the boundary edges (closed polygon per triangle) |
| C60-C63 | the matrices of a mesh in other coordinates or with other laminates | the energy formulas of C19, C32, C41 under an orthonormal change of variables; C62 refuted without smoothing for reflections |
| C64, C65 | the kernels of the matrices of calc_k0 and add_k0s | energy zero makes all domain means of the strains vanish; a set of triangles has a side that belongs to one of them only, so the strains vanish triangle by triangle; then go from triangle to triangle |
| C66 | linear systems with the matrix of add_k0s and supported rows | positive definite on the free rows by C65; existence by elimination, by induction on the free rows |
| C67 | the quadratic form of calc_k0 | convexity of the energy density, each triangle belongs to three domains |
| C68 | eigenvalue problem of the matrices of add_k0s and calc_kG with supported rows | symmetry and positive definiteness (C65); the smallest factor is the supremum of the loads with non-negative energy, positive definite forms are bounded below by Cauchy-Schwarz and C66 |
| C69 | linear systems with the matrix of add_k0s | symmetry, completing the square |
| C70 | the forms of calc_k0 and add_k0s for two assignments of laminates | linearity of k0 in the laminates, monotone averages; compliance by the minimum principle |
| C71 | calc_k0 over an arbitrary arithmetic (`Num T`) | every exit of the function followed on a well-formed mesh, by cases on the triangles of each edge |
| C72 | the model run in doubles (`Float.v`: the operations of the standard library's SpecFloat) on a mesh of two triangles | refuted by computation inside the kernel (`vm_compute`): one entry and its mirror image differ, for calc_k0, the three methods of add_k0s and calc_kG |
| C73 | add_k0s and calc_kG over an arbitrary arithmetic, after calc_k0 and assignments | calc_k0 leaves every edge with its domain (the invariant `shape`), assignments keep it, and with it no call raises |
| C74 | the same before calc_k0 | nodes without a number and edges without a domain are what is read, assignments keep it, and the first element or edge raises |
| C75 | the same after assignments | the cell-based methods look at nodes and elements only, the numbers stay; refuted for edge-based and calc_kG in doubles by computation |
| C76 | calc_k0 on a mesh of size h, the displacement vector samples a smooth motion | the gradient of the interpolant on a triangle solves a 2x2 system whose right side is the first-order remainder; the error of the smoothed strain is at most 12 M h / kappa, the energy follows from the representation C19; the unit square cut into 2 n^2 triangles (built by read_delaunay, for every n) shows that the hypotheses can be met for every h |
| C77 | calc_kG, static solution and mode sample smooth motions | the same from the representation C41 |
| C78 | add_k0s, the two cell-based methods | the shear gap is an integral of the shear strain up to remainders; the mean over the three parts of a triangle is the gradient of the interpolant of the gaps from the centroid, so the deflection in the centroid (and its decimals) drops out; the correction factor tends to 1. Not covered: edge-based (its decimals, see C36, C39) |
| C79 | add_k0s, edge-based | with exact fractions the unrolled statements are a tensor of unit shear strains; these are the discrete shear gap strains of the parts of the domain if z = y in the first node, and on a rigid rotation (y - z) times a vector that is not zero otherwise. Refuted for the code (unbounded force of a rotation of a moved plate) |
| C80 | add_k0s, edge-based | the unrolled statements are instantiated with syntax trees in place of numbers (FTree.v); a magnitude and an error bound, both homogeneous in length, stiffness and shape parameter, are computed along the trees and proved sound; the kernel evaluates them for all entries (FEdge2.v), and the sum over the edges gives the bound on the matrix |
| C81 | calc_k0 instantiated with IEEE doubles (`NumF`) and with the reals | the operations of `SpecFloat` are related to Flocq's rounding (FFloat.v); a bound on the absolute error is carried through set-up, areas, normals, weights, the unrolled entries (as syntax trees, the kernel evaluating the error bounds) and the assembly loop, in step with the real run (FRound*.v) |
| C82-C84 | mprint_as_*, options; SymPy's answers are arguments of the model | the loops with substitutions are the loops of C49-C52 on the substituted matrix; insertion sort; strong induction for the groups of nine declarations |
| C85 | Edge.getMid, str(Edge) | the ends of an edge of a mesh are nodes; decimal numbers determine the text |
| C86 | add_k0s (cell-based, with and without smoothing) instantiated with IEEE doubles and with the reals | relative errors for lengths, thicknesses and the correction factor (products, quotients and square roots of positive numbers, FRound16); the sign of the orientation test is decided by an area that exceeds its error (FRound17); the entries as in C81 (FRound14), the products by 2 and 4 being exact; the loop over the triangles keeps an invariant relative to the matrix before (FRound15); (FRound14-21) |
| C87 | calc_kG after calc_k0 instantiated with IEEE doubles and with the reals | the strains are a fixed tree over the displacements of the element's nodes (FRound22, FRound23); membrane forces and entries as in C81; both runs read the same five components because the dictionary of indices does not depend on the numbers (FRound24); the energy statements follow from C40 and C43 |
| C88 | add_k0s (edge-based) after calc_k0 instantiated with IEEE doubles and with the reals | both runs take the same branches (orientation test, boundary or interior edge, index order; FRound26, FRound27); positions, lengths and the correction factor as in C86; entries as in C81, the decimals of the source being doubles next to the written numbers (FRound25); C80 bounds the decimals against fractions, which gives the energy statement |
| C89 | interpolate_lagrange_2D instantiated with IEEE doubles and with the reals | differences of doubles have a relative error even when they underflow; a quotient of differences of equal doubles is 1 and of a zero difference 0, so nodal values are exact; products and quotients carry a number of roundings (FRel), the sum a bound by the absolute values of the terms (FInterp2, FInterp3) |
| C90, C91 | calc_k0, add_k0s, calc_kG instantiated with IEEE doubles and with the reals | the entry bounds of C81, C86, C87 bound the energy by the row sums (Schur's test, FRound29); a coercive form stays coercive, so elimination succeeds; the exact problems by C66 and C68 |
| C92 | area_of_polygon, unitvec_array instantiated with IEEE doubles and with the reals | the tools of C89; sums of squares and square roots keep relative errors (FUtil2); the exact results by C14 and C15 |
| C93 | calc_k0, add_k0s (cell-based methods), calc_kG over the reals | minimum of the potential over a smaller set of displacements and comparison of energies (FMono); smallest factors by C68, comparison in alpha by C36 and in the laminates by C70 |
| C94 | calc_k0, add_k0s (all three methods), calc_kG over the reals | the stored geometry and every term of the loops scale with the unit (FUnits); the edge-based method as it is in the code |
| C95 | calc_k0 over the reals | the displacement along a side is the same in both triangles, so the smoothed strain of an edge stretches it as the strains of its triangles do; the stretches of three sides determine the strain of a triangle, with constants from kappa (FSol) |
| C96, C97 | calc_k0, calc_kG over the reals | consistency (as in C76 and C77), Galerkin orthogonality of the solution and stability C95 (Strang's lemma, FSol2); `loads_of` states which loads belong to a motion, C96_loads that every motion has some |
| C98 | calc_k0, add_k0s (cell-based methods), calc_kG over the reals | minimum of the potential and of the Rayleigh quotient over admissible displacements (C66, C68), evaluated in samples of smooth motions (C76-C78); C97 for the computed solution |
| C99 | calc_k0, add_k0s (cell-based), calc_kG over the reals | terms of the energy vanish unless the domain has both nodes, the others agree (FLocal) |
| C100 | calc_k0, add_k0s (cell-based), calc_kG over the reals | energies scale with the thickness, the corrected shear factor h^2/(h^2 + alpha l^2) is bounded both ways (FThin); minimum of the potential and Rayleigh quotients compare the answers |
| C101 | calc_k0, add_k0s (cell-based methods) over the reals | the shear strains of the methods are near those of the test displacement (FSol3); Strang's lemma with bending and shear (FSol4); Korn's inequality by cancellation along the edges of the triangles (FKorn) |
| C102 | calc_k0, add_k0s (cell-based methods) over the reals | C101 for the energy, Korn and Poincare for zero values on the boundary (FKorn) |
| C103 | calc_k0, add_k0s (cell-based methods) over the reals | Korn and Poincare from below, inverse estimates for gradients from above, sums over vertices against sums over nodes (FCond) |
| C104 | calc_k0, add_k0s (cell-based methods), calc_kG over the reals | smoothed gradients by Jensen's inequality against gradients, these against the energy (as C103) |
| C105 | calc_k0, add_k0s (cell-based methods) in double precision | rounding errors of the matrices (C86) by row sums against the stiffness C h^2 of C103, error of the exact solution by C102, nodes against areas by inverse estimates |
| C106 | calc_k0 over the reals | C96 for the strains, Korn for one pair of components held along the boundary and Poincare (FKorn) |
| C107 | calc_k0, add_k0s (cell-based methods), calc_kG in double precision | rounding errors of both matrices by row sums against C103 and C104 |
| C108 | calc_k0, add_k0s (cell-based methods), calc_kG over the reals | energy of the error from C101 bounds the smoothed strains, these the membrane forces; Rayleigh quotients as in C98 |
| C109 | calc_k0, add_k0s (cell-based methods) over the reals | Cauchy's inequality for the energy of the error (C101) and of the motion (C76, C78) |
<!-- more properties -->

## Trusted base

* Coq 8.16.1's kernel (with `coqchk` run over the compiled files).  No plugin, no
  native or VM reduction is trusted beyond the kernel's `vm_compute`, which closes
  some Examples and some statements about concrete texts.
* The axioms of Coq's standard library that `Print Assumptions` lists (table below):
  N = `ClassicalDedekindReals.sig_not_dec`, F = `ClassicalDedekindReals.sig_forall_dec`
  (both come with the real numbers), E = `FunctionalExtensionality.functional_extensionality_dep`,
  C = `Classical_Prop.classic`.
  No axiom is added by this development; there is no `Admitted`, `Axiom`, `Parameter`,
  section-less `Variable` or `Hypothesis`, module type or functor.  Loading the standard
  library also brings `Classical_Prop.classic` and the opaque definitions of the reals
  into the context of `coqchk -o`; of the theorems here only C68_critical and those of C81 and C86 to C88 (through
  Flocq's rounding functions) depend on `classic`.
* The correspondence of the model with the code: reading of /repo (comments with line
  numbers), the mechanical translation of the unrolled statements, and
  `tools/fidelity.py`, which instantiates the same Gallina functions with IEEE doubles
  and compares the results with the numbers asserted by the project's own tests.  No
  theorem depends on that run.

### Modelled, with these simplifications

* Numbers are exact real numbers, except where a theorem is stated for any arithmetic (C71 ...) or for IEEE doubles (C72, C81, C86-C92).  Elsewhere
  rounding, overflow, nan and inf are not modelled; theorems exclude division by zero by their hypotheses.  The decimal literals of the
  source (0.166666666666667 ...) are kept as they are written.
* Python objects that refer to each other are records that refer to each other by key.
* `calc_k0`: if the body of the first loop raises, an assignment to `edge.othernode1` made
  just before in the same iteration is not kept.
* `calc_kG`: a vector d that is too short raises ValueError.
* `read_mesh` starts from the dictionaries that pyNastran's `read_bdf` returns.
* Text is ASCII.  In the printing functions `dofpernode` is not negative; an entry of a SymPy matrix is
  known by whether it is zero and by its text.  What SymPy's `subs`, `collect` and `cse` return for the options
  `subs`, `collect_for` and `use_cse` are arguments of the model, functions of the texts; theorems hold for all of them,
  or for those that keep the values (C82_values).

### Not modelled

rounding errors outside calc_k0 (C81), add_k0s (C86, C88), calc_kG (C87), interpolate_lagrange_2D (C89), area_of_polygon and unitvec (C92); pyNastran's parser, SciPy's Delaunay triangulation, SymPy, `composites`
(laminates are given by their matrices), `structsolve` (solvers, eigenvalues); plotting;
`setup.py`, `doc`, and the scripts in `theory`, `scratch`
and `notebooks`, which are not part of the package.

## Findings about the code

1. `interpolate.py:103` takes the z basis from `y_nodes`: three-dimensional interpolation
   is wrong unless the z nodes are the first y nodes (C11).
2. `interpolate.py` returns a number instead of an array for one node per direction (C12).
3. `plate2d_add_k0s_edge_based.py:160`, `x1, y1, y1 = n1.xyz`: on interior edges y1 is the z
   coordinate.  The stiffness depends on where the plate is (C37).
4. The same function pairs k13 with E44 and k23 with E55, the others the reverse (C38), and
   couples the two shear strains (E45), which the others set to zero.
5. The decimals of the edge-based entries make the matrix not symmetric and its energy
   negative for some fields, by about 1e-16 relative (C36, C39); those of the cell-based
   method give a rigid rotation forces of relative size 1e-15 (C33).
6. Without smoothing the cell-based shear stiffness depends on which vertex of a triangle
   comes last (C35).
7. `pow2mul` breaks powers of calls, nested powers, zeroth powers, decimal numbers, and calls of
   functions whose name ends in pow (C48, C56); the replacement in `mprint_as_array` rewrites
   parts of other powers (C53).
8. `mprint_as_sparse(is_symmetric=True, dofpernode=d)` compares degrees of freedom inside the
   nodes instead of rows and columns (C51).  With a header the count line comes before the name.
- C62: without smoothing the shear gaps are measured from the first node of an anticlockwise triangle and from the second
  node of a clockwise one, so a reflection of the plate changes the matrix.
- C63: the cell-based methods set E45 = 0: a coupling of the two transverse shear directions is ignored without notice.
- C65, C66: with u, v and w supported in all nodes the system is singular for a single triangle ("cell-based") and for a
  square of two triangles ("cell-based-no-smoothing"): a twist of the rotations costs no energy.
- C72: in double precision none of the matrices is exactly symmetric: `(i, j)` and `(j, i)` are
  evaluated by different expressions and differ in the last bit.
- C75: after moving a node, `add_k0s(..., 'edge-based')` and `calc_kG` silently use the smoothing domains
  of the last `calc_k0`; call `calc_k0` again first.
- C79: edge-based, interior edges: `x1, y1, y1 = n1.xyz` (z taken for y) makes rigid rotations cost energy without bound as the
  plate is moved in y.
- C82: with `subs`, `mprint_as_sparse` puts a line `subs` before the definitions that is neither a comment nor a statement.  Both
  printers list every substitution whose new symbol is found anywhere in the text, also as a part of a word.
- C83: with `collect_for` the printed text is not a program: a line that ends in `+=` and the terms on lines of their own.
- C84: `mprint_as_array(m, use_cse=True)` replaces the caller's matrix by the one with the common subexpressions taken out.
<!-- more findings -->

## Print Assumptions

<!-- axioms -->
| theorem | axioms |
|---|---|
| C01_read_delaunay | none |
| C02_edges_are_sides | none |
| C03_edge_trias | none |
| C04_back_references | none |
| C05_side_count | none |
| C06_readers_agree | none |
| C06_vertex_order | none |
| C07_triangles_only | none |
| C08_nodal | NFE |
| C09_exact | NFE |
| C100_buckling | NFEC |
| C100_locking | NFE |
| C100_thin | NFE |
| C101_korn | FE |
| C101_loads | FE |
| C101_natural | NFE |
| C101_strains | NFE |
| C102_convergence | NFE |
| C102_displacements | NFE |
| C103_bounded | NFE |
| C103_condition | NFE |
| C103_loads | NFE |
| C103_stiff | NFE |
| C104_buckling | NFE |
| C104_work | NFE |
| C105_displacements | NFEC |
| C105_stiff | NFEC |
| C106_pairs | NFE |
| C107_buckling | NFEC |
| C108_factor | NFEC |
| C108_natural | NFE |
| C108_work | NFE |
| C109_natural | NFE |
| C109_work | NFE |
| C10_linear | NFE |
| C10_order | NFE |
| C11_exact_partial | NFE |
| C11_nodal_partial | NFE |
| C11_nodal_refuted | NFE |
| C11_one_node_partial | NFE |
| C12_length_3D_partial | NFE |
| C12_length_3D_refuted | NFE |
| C12_length_partial | NFE |
| C12_length_refuted | NFE |
| C12_pointwise | NFE |
| C12_pointwise_3D | NFE |
| C13_2D | NFE |
| C13_3D | NFE |
| C14_area | NFE |
| C14_close | NFE |
| C14_cut | FE |
| C14_direction | NFE |
| C14_linear | NFE |
| C14_nonneg | NFE |
| C14_single | NFE |
| C14_start | NFE |
| C14_translate | NFE |
| C14_triangle | NFE |
| C15_three | NFE |
| C15_unit | NFE |
| C16_tiling | NFE |
| C17_boundary | NFE |
| C18_numbering | none |
| C19_average | NFE |
| C19_energy | NFE |
| C20_symmetric | NFE |
| C21_psd | NFE |
| C22_rigid | NFE |
| C23_constant_strain | NFE |
| C24_missing_properties | none |
| C25_non_manifold | none |
| C26_any_arithmetic | none |
| C26_sparsity | NFE |
| C27_history | none |
| C27_twice | none |
| C27_well_formed | none |
| C28_renumbering | NFE |
| C29_linear | NFE |
| C30_known | NFE |
| C30_unknown | none |
| C31_coupling | NFE |
| C31_increment | NFE |
| C32_energy | NFE |
| C33_rotation | NFE |
| C33_translation | NFE |
| C34_constant | NFE |
| C34_uniform | NFE |
| C35_cell_based | NFE |
| C35_no_smoothing_partial | NFE |
| C35_no_smoothing_refuted | NFE |
| C36_cell_monotone | NFE |
| C36_cell_zero | NFE |
| C36_edge_factor | NFE |
| C36_edge_partial | NFE |
| C36_edge_refuted | NFE |
| C37_cell | NFE |
| C37_edge_partial | NFE |
| C37_edge_refuted | NFE |
| C38_cell | NFE |
| C38_edge_refuted | NFE |
| C39_edge_partial | NFE |
| C39_edge_refuted | NFE |
| C40_symmetric | NFE |
| C41_average | NFE |
| C41_work | NFE |
| C42_linear | NFE |
| C43_rigid | NFE |
| C44_uniform | NFE |
| C45_dummy_k0 | NFE |
| C45_dummy_kG | NFE |
| C46_unchanged | none |
| C47_symbols | none |
| C47_text | none |
| C47_unambiguous | none |
| C47_value | FE |
| C48_call_refuted | FE |
| C48_decimal_refuted | none |
| C48_nested_refuted | none |
| C48_zero_refuted | FE |
| C49_consecutive | FE |
| C49_dense | FE |
| C49_nodes | FE |
| C49_numbers | none |
| C49_unambiguous | none |
| C50_nodes | F |
| C50_sparse | F |
| C50_unambiguous | none |
| C51_dof_partial | F |
| C51_partial | F |
| C51_refuted | none |
| C52_columns | none |
| C52_order | none |
| C52_places | none |
| C52_rows | none |
| C53_exponent_refuted | none |
| C53_partial | FE |
| C53_refuted | FE |
| C54_log | none |
| C55_calls | none |
| C56_argument_refuted | none |
| C56_exponent_refuted | none |
| C56_name_refuted | none |
| C57_file | none |
| C58_equilibrium | NFE |
| C58_patch | NFE |
| C59_equilibrium | NFE |
| C60_frame | NFE |
| C60_similar | NFE |
| C61_frame | NFE |
| C62_cell | NFE |
| C62_nosmooth_partial | NFE |
| C62_nosmooth_refuted | NFE |
| C63_cell | NFE |
| C63_edge | NFE |
| C64_modes | NFE |
| C65_lone_refuted | NFE |
| C65_no_smoothing_refuted | NFE |
| C65_rigid_partial | NFE |
| C66_clamped | FE |
| C66_six | FE |
| C66_unbraced_refuted | NFE |
| C66_unique | NFE |
| C67_softer | NFE |
| C68_buckling | NFE |
| C68_critical | NFEC |
| C68_proportional | NFE |
| C69_minimum | NFE |
| C69_reciprocity | NFE |
| C70_stiffer | NFE |
| C71_outcome | none |
| C72_add_refuted | none |
| C72_k0_refuted | none |
| C72_kG_refuted | none |
| C73_progress | none |
| C74_order | none |
| C75_cell | none |
| C75_edge_refuted | none |
| C75_kG_refuted | none |
| C76_convergence | NFE |
| C76_energy | NFE |
| C77_convergence | NFE |
| C77_work | NFE |
| C78_convergence | NFE |
| C78_energy | NFE |
| C79_constant_partial | NFE |
| C79_energy_partial | NFE |
| C79_rotation_partial | NFE |
| C79_rotation_refuted | NFE |
| C80_constant | NFE |
| C80_decimals | NFE |
| C80_energy | NFE |
| C80_monotone | NFE |
| C80_symmetry | NFE |
| C81_energy | NFEC |
| C81_error | NFEC |
| C81_rigid | NFEC |
| C81_symmetric | NFEC |
| C82_comments | none |
| C82_dense | none |
| C82_plain | none |
| C82_sparse_partial | none |
| C82_sparse_refuted | none |
| C82_values | FE |
| C83_dense_partial | none |
| C83_refuted | none |
| C83_sparse_partial | none |
| C84_cse | none |
| C84_refuted | none |
| C85_mid | NFE |
| C85_names | none |
| C86_energy | NFEC |
| C86_error | NFEC |
| C86_plate | NFEC |
| C87_error | NFEC |
| C87_rigid | NFEC |
| C87_symmetric | NFEC |
| C87_work | NFEC |
| C88_energy | NFEC |
| C88_error | NFEC |
| C88_plate | NFEC |
| C88_symmetric | NFEC |
| C89_error | NFEC |
| C89_nodal | NFEC |
| C89_polynomial | NFEC |
| C90_static | NFEC |
| C91_buckling | NFEC |
| C92_area | NFEC |
| C92_unit | NFEC |
| C93_alpha | NFEC |
| C93_stiffer | NFEC |
| C93_supports | NFEC |
| C94_answers | NFE |
| C94_matrices | NFE |
| C95_fraction | NFE |
| C95_stable | NFE |
| C96_convergence | NFE |
| C96_loads | NFE |
| C96_strains | NFE |
| C97_convergence | NFE |
| C97_work | NFE |
| C98_buckling | NFEC |
| C98_computed | NFEC |
| C98_deflection | NFE |
| C99_k0 | NFE |
| C99_kG | NFE |
| C99_shear | NFE |
<!-- end of axioms -->
