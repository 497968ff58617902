{
 "C11": {
  "note": "Refuted: line 103 of interpolate.py takes the z basis from y_nodes. Proved when the z nodes are the first y nodes or there is one z node; polynomial exactness when both node lists are equal."
 },
 "C12": {
  "note": "Refuted for one node per direction (a number is returned whatever K is). Proved: an array of length K exactly when one direction has two different nodes (2-D), and the value at a point depends on that point only."
 },
 "C20": {
  "note": "Meshes with a smoothing domain of zero area are excluded: there the code divides by zero (numpy gives nan)."
 },
 "C24": {
  "note": "For meshes made by the readers from triangles with distinct vertices, after any history (C27_well_formed)."
 },
 "C25": {
  "note": "For meshes made by the readers from triangles with distinct vertices, after any history (C27_well_formed)."
 },
 "C35": {
  "note": "Proved with smoothing; refuted without smoothing (the strains depend on which vertex comes third), where the order of the first two vertices is free."
 },
 "C36": {
  "note": "Proved for the cell-based methods. Edge-based: the code's decimals make the energy of some fields negative (of the size of their rounding errors); proved with exact fractions. C80 bounds the effect of the decimals."
 },
 "C37": {
  "note": "Proved for the cell-based methods. Edge-based: refuted for translations in y (x1, y1, y1 = n1.xyz in interior_edge assigns z to y1); proved for translations in x."
 },
 "C38": {
  "note": "Proved for the cell-based methods; refuted for edge-based, whose interior edges pair k13 with E00 and k23 with E11."
 },
 "C39": {
  "note": "Refuted for the decimals of the code, with differences of the size of their rounding errors; proved with exact fractions in their place. C80 bounds the effect of the decimals."
 },
 "C46": {
  "note": "pow2mul is the identity on texts without powers."
 },
 "C47": {
  "note": "For any text split into plain text and powers, and for printed expression trees with their value; reading a printed text back is unambiguous."
 },
 "C48": {
  "note": "Refuted: powers of calls, powers inside powers, zeroth powers and decimal numbers."
 },
 "C53": {
  "note": "Refuted if a power is part of another one; proved for powers of symbols none of which is part of another."
 },
 "C55": {
  "note": "For any text split into plain text and calls of pow."
 },
 "C56": {
  "note": "Refuted: negative and symbolic exponents, functions whose name ends in pow, arguments that hold the letters pow."
 },
 "C49": {
  "note": "The options subs and collect_for, which call SymPy, are not modelled; dofpernode >= 0."
 },
 "C50": {
  "note": "The options subs and collect_for are not modelled; dofpernode >= 0. With a header the count line comes before the name line (C50_sparse states the actual order)."
 },
 "C51": {
  "note": "False with dofpernode: the degrees of freedom within the nodes are compared instead of the rows and columns (C51_refuted: an entry above the diagonal is left out, one below is printed). C51_partial is the property without dofpernode, C51_dof_partial says which entries are printed with it."
 },
 "C52": {
  "note": "The options use_cse and collect_for are not modelled."
 },
 "C62": {
  "note": "Proved for method cell-based and all axes, and for cell-based-no-smoothing and axes of the same handedness; for reflections the latter is refuted (C62_nosmooth_refuted)."
 },
 "C65": {
  "note": "Proved when the plate is braced (cell-based: every triangle has a neighbour; no smoothing: some triangle of every part has a neighbour across from its gap node). Refuted for a single triangle (C65_lone_refuted) and, without smoothing, for a square of two triangles (C65_no_smoothing_refuted). For cell-based the slopes of the free motions are (1 + 1e-15) times the rotations because of the decimals in the code."
 },
 "C66": {
  "note": "Proved for braced plates, as stated; C66_unbraced_refuted shows that the bracing cannot be dropped."
 },
 "C72": {
  "note": "Refuted by computation in doubles for calc_k0, every method of add_k0s and calc_kG. Over the reals the symmetry is C20, C32, C39, C40."
 },
 "C75": {
  "note": "Proved for the cell-based methods in any arithmetic; refuted for the method edge-based and for calc_kG, which use stale smoothing domains."
 },
 "C79": {
  "note": "Refuted for the code: the force of a rigid rotation has no bound, because interior edges take z in place of y. Proved with exact fractions in place of the decimals: rotations with a slope in y are free of energy if and only if all interior edges start in nodes with y = z; on such plates the energy is that of the discrete shear strains and constant shear is reproduced. C80 transfers this to the code's decimals up to an explicit error."
 },
 "C82": {
  "note": "SymPy is an argument. Dense format as stated; sparse format: the same text after a list that is not in comments (C82_sparse_refuted)."
 },
 "C83": {
  "note": "Refuted; the partial theorems give the exact text for the dense and the sparse format."
 },
 "C84": {
  "note": "The text is as stated (order 'C'); C84_refuted: the caller's matrix is replaced."
 }
}