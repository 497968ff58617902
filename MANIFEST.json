{
 "claims": [
  {
   "property": "C01",
   "status": "proved",
   "theorems": [
    "C01_read_delaunay"
   ],
   "note": ""
  },
  {
   "property": "C02",
   "status": "proved",
   "theorems": [
    "C02_edges_are_sides"
   ],
   "note": ""
  },
  {
   "property": "C03",
   "status": "proved",
   "theorems": [
    "C03_edge_trias"
   ],
   "note": ""
  },
  {
   "property": "C04",
   "status": "proved",
   "theorems": [
    "C04_back_references"
   ],
   "note": ""
  },
  {
   "property": "C05",
   "status": "proved",
   "theorems": [
    "C05_side_count"
   ],
   "note": ""
  },
  {
   "property": "C06",
   "status": "proved",
   "theorems": [
    "C06_readers_agree",
    "C06_vertex_order"
   ],
   "note": ""
  },
  {
   "property": "C07",
   "status": "proved",
   "theorems": [
    "C07_triangles_only"
   ],
   "note": ""
  },
  {
   "property": "C08",
   "status": "proved",
   "theorems": [
    "C08_nodal"
   ],
   "note": ""
  },
  {
   "property": "C09",
   "status": "proved",
   "theorems": [
    "C09_exact"
   ],
   "note": ""
  },
  {
   "property": "C10",
   "status": "proved",
   "theorems": [
    "C10_linear",
    "C10_order"
   ],
   "note": ""
  },
  {
   "property": "C11",
   "status": "partial",
   "theorems": [
    "C11_nodal_refuted",
    "C11_nodal_partial",
    "C11_one_node_partial",
    "C11_exact_partial"
   ],
   "note": "Refuted: line 103 of interpolate.py takes the z basis from y_nodes. Proved when the z nodes are the first y nodes or there is one z node; polynomial exactness when both node lists are equal."
  },
  {
   "property": "C12",
   "status": "partial",
   "theorems": [
    "C12_length_refuted",
    "C12_length_3D_refuted",
    "C12_length_partial",
    "C12_length_3D_partial",
    "C12_pointwise",
    "C12_pointwise_3D"
   ],
   "note": "Refuted for one node per direction (a number is returned whatever K is). Proved: an array of length K exactly when one direction has two different nodes (2-D), and the value at a point depends on that point only."
  },
  {
   "property": "C13",
   "status": "proved",
   "theorems": [
    "C13_2D",
    "C13_3D"
   ],
   "note": ""
  },
  {
   "property": "C14",
   "status": "proved",
   "theorems": [
    "C14_area",
    "C14_single",
    "C14_nonneg",
    "C14_triangle",
    "C14_start",
    "C14_direction",
    "C14_translate",
    "C14_linear",
    "C14_close",
    "C14_cut"
   ],
   "note": ""
  },
  {
   "property": "C15",
   "status": "proved",
   "theorems": [
    "C15_unit",
    "C15_three"
   ],
   "note": ""
  },
  {
   "property": "C16",
   "status": "proved",
   "theorems": [
    "C16_tiling"
   ],
   "note": ""
  },
  {
   "property": "C17",
   "status": "proved",
   "theorems": [
    "C17_boundary"
   ],
   "note": ""
  },
  {
   "property": "C18",
   "status": "proved",
   "theorems": [
    "C18_numbering"
   ],
   "note": ""
  },
  {
   "property": "C19",
   "status": "proved",
   "theorems": [
    "C19_energy",
    "C19_average"
   ],
   "note": ""
  },
  {
   "property": "C20",
   "status": "proved",
   "theorems": [
    "C20_symmetric"
   ],
   "note": "Meshes with a smoothing domain of zero area are excluded: there the code divides by zero (numpy gives nan)."
  },
  {
   "property": "C21",
   "status": "proved",
   "theorems": [
    "C21_psd"
   ],
   "note": ""
  },
  {
   "property": "C22",
   "status": "proved",
   "theorems": [
    "C22_rigid"
   ],
   "note": ""
  },
  {
   "property": "C23",
   "status": "proved",
   "theorems": [
    "C23_constant_strain"
   ],
   "note": ""
  },
  {
   "property": "C24",
   "status": "proved",
   "theorems": [
    "C24_missing_properties"
   ],
   "note": "For meshes made by the readers from triangles with distinct vertices, after any history (C27_well_formed)."
  },
  {
   "property": "C25",
   "status": "proved",
   "theorems": [
    "C25_non_manifold"
   ],
   "note": "For meshes made by the readers from triangles with distinct vertices, after any history (C27_well_formed)."
  },
  {
   "property": "C26",
   "status": "proved",
   "theorems": [
    "C26_sparsity",
    "C26_any_arithmetic"
   ],
   "note": ""
  },
  {
   "property": "C27",
   "status": "proved",
   "theorems": [
    "C27_history",
    "C27_twice",
    "C27_well_formed"
   ],
   "note": ""
  },
  {
   "property": "C28",
   "status": "proved",
   "theorems": [
    "C28_renumbering"
   ],
   "note": ""
  },
  {
   "property": "C29",
   "status": "proved",
   "theorems": [
    "C29_linear"
   ],
   "note": ""
  },
  {
   "property": "C30",
   "status": "proved",
   "theorems": [
    "C30_unknown",
    "C30_known"
   ],
   "note": ""
  },
  {
   "property": "C31",
   "status": "proved",
   "theorems": [
    "C31_increment",
    "C31_coupling"
   ],
   "note": ""
  },
  {
   "property": "C32",
   "status": "proved",
   "theorems": [
    "C32_energy"
   ],
   "note": ""
  },
  {
   "property": "C33",
   "status": "proved",
   "theorems": [
    "C33_translation",
    "C33_rotation"
   ],
   "note": ""
  },
  {
   "property": "C34",
   "status": "proved",
   "theorems": [
    "C34_constant",
    "C34_uniform"
   ],
   "note": ""
  },
  {
   "property": "C35",
   "status": "partial",
   "theorems": [
    "C35_cell_based",
    "C35_no_smoothing_refuted",
    "C35_no_smoothing_partial"
   ],
   "note": "Proved with smoothing; refuted without smoothing (the strains depend on which vertex comes third), where the order of the first two vertices is free."
  },
  {
   "property": "C36",
   "status": "partial",
   "theorems": [
    "C36_cell_zero",
    "C36_cell_monotone",
    "C36_edge_factor",
    "C36_edge_refuted",
    "C36_edge_partial"
   ],
   "note": "Proved for the cell-based methods. Edge-based: the code's decimals make the energy of some fields negative (of the size of their rounding errors); proved with exact fractions. C80 bounds the effect of the decimals."
  },
  {
   "property": "C37",
   "status": "partial",
   "theorems": [
    "C37_cell",
    "C37_edge_refuted",
    "C37_edge_partial"
   ],
   "note": "Proved for the cell-based methods. Edge-based: refuted for translations in y (x1, y1, y1 = n1.xyz in interior_edge assigns z to y1); proved for translations in x."
  },
  {
   "property": "C38",
   "status": "partial",
   "theorems": [
    "C38_cell",
    "C38_edge_refuted"
   ],
   "note": "Proved for the cell-based methods; refuted for edge-based, whose interior edges pair k13 with E00 and k23 with E11."
  },
  {
   "property": "C39",
   "status": "partial",
   "theorems": [
    "C39_edge_partial",
    "C39_edge_refuted"
   ],
   "note": "Refuted for the decimals of the code, with differences of the size of their rounding errors; proved with exact fractions in their place. C80 bounds the effect of the decimals."
  },
  {
   "property": "C40",
   "status": "proved",
   "theorems": [
    "C40_symmetric"
   ],
   "note": ""
  },
  {
   "property": "C41",
   "status": "proved",
   "theorems": [
    "C41_work",
    "C41_average"
   ],
   "note": ""
  },
  {
   "property": "C42",
   "status": "proved",
   "theorems": [
    "C42_linear"
   ],
   "note": ""
  },
  {
   "property": "C43",
   "status": "proved",
   "theorems": [
    "C43_rigid"
   ],
   "note": ""
  },
  {
   "property": "C44",
   "status": "proved",
   "theorems": [
    "C44_uniform"
   ],
   "note": ""
  },
  {
   "property": "C45",
   "status": "proved",
   "theorems": [
    "C45_dummy_k0",
    "C45_dummy_kG"
   ],
   "note": ""
  },
  {
   "property": "C46",
   "status": "proved",
   "theorems": [
    "C46_unchanged"
   ],
   "note": "pow2mul is the identity on texts without powers."
  },
  {
   "property": "C47",
   "status": "proved",
   "theorems": [
    "C47_text",
    "C47_unambiguous",
    "C47_value",
    "C47_symbols"
   ],
   "note": "For any text split into plain text and powers, and for printed expression trees with their value; reading a printed text back is unambiguous."
  },
  {
   "property": "C48",
   "status": "partial",
   "theorems": [
    "C48_call_refuted",
    "C48_nested_refuted",
    "C48_zero_refuted",
    "C48_decimal_refuted"
   ],
   "note": "Refuted: powers of calls, powers inside powers, zeroth powers and decimal numbers."
  },
  {
   "property": "C49",
   "status": "proved",
   "theorems": [
    "C49_dense",
    "C49_nodes",
    "C49_consecutive",
    "C49_numbers",
    "C49_unambiguous"
   ],
   "note": "The options subs and collect_for, which call SymPy, are not modelled; dofpernode >= 0."
  },
  {
   "property": "C50",
   "status": "proved",
   "theorems": [
    "C50_sparse",
    "C50_nodes",
    "C50_unambiguous"
   ],
   "note": "The options subs and collect_for are not modelled; dofpernode >= 0. With a header the count line comes before the name line (C50_sparse states the actual order)."
  },
  {
   "property": "C51",
   "status": "partial",
   "theorems": [
    "C51_partial",
    "C51_dof_partial",
    "C51_refuted"
   ],
   "note": "False with dofpernode: the degrees of freedom within the nodes are compared instead of the rows and columns (C51_refuted: an entry above the diagonal is left out, one below is printed). C51_partial is the property without dofpernode, C51_dof_partial says which entries are printed with it."
  },
  {
   "property": "C52",
   "status": "proved",
   "theorems": [
    "C52_rows",
    "C52_columns",
    "C52_places",
    "C52_order"
   ],
   "note": "The options use_cse and collect_for are not modelled."
  },
  {
   "property": "C53",
   "status": "partial",
   "theorems": [
    "C53_refuted",
    "C53_exponent_refuted",
    "C53_partial"
   ],
   "note": "Refuted if a power is part of another one; proved for powers of symbols none of which is part of another."
  },
  {
   "property": "C54",
   "status": "proved",
   "theorems": [
    "C54_log"
   ],
   "note": ""
  },
  {
   "property": "C55",
   "status": "proved",
   "theorems": [
    "C55_calls"
   ],
   "note": "For any text split into plain text and calls of pow."
  },
  {
   "property": "C56",
   "status": "partial",
   "theorems": [
    "C56_exponent_refuted",
    "C56_name_refuted",
    "C56_argument_refuted"
   ],
   "note": "Refuted: negative and symbolic exponents, functions whose name ends in pow, arguments that hold the letters pow."
  },
  {
   "property": "C57",
   "status": "proved",
   "theorems": [
    "C57_file"
   ],
   "note": ""
  },
  {
   "property": "C58",
   "status": "proved",
   "theorems": [
    "C58_equilibrium",
    "C58_patch"
   ],
   "note": ""
  },
  {
   "property": "C59",
   "status": "proved",
   "theorems": [
    "C59_equilibrium"
   ],
   "note": ""
  },
  {
   "property": "C60",
   "status": "proved",
   "theorems": [
    "C60_frame",
    "C60_similar"
   ],
   "note": ""
  },
  {
   "property": "C61",
   "status": "proved",
   "theorems": [
    "C61_frame"
   ],
   "note": ""
  },
  {
   "property": "C62",
   "status": "partial",
   "theorems": [
    "C62_cell",
    "C62_nosmooth_refuted",
    "C62_nosmooth_partial"
   ],
   "note": "Proved for method cell-based and all axes, and for cell-based-no-smoothing and axes of the same handedness; for reflections the latter is refuted (C62_nosmooth_refuted)."
  },
  {
   "property": "C63",
   "status": "proved",
   "theorems": [
    "C63_cell",
    "C63_edge"
   ],
   "note": ""
  },
  {
   "property": "C64",
   "status": "proved",
   "theorems": [
    "C64_modes"
   ],
   "note": ""
  },
  {
   "property": "C65",
   "status": "partial",
   "theorems": [
    "C65_rigid_partial",
    "C65_lone_refuted",
    "C65_no_smoothing_refuted"
   ],
   "note": "Proved when the plate is braced (cell-based: every triangle has a neighbour; no smoothing: some triangle of every part has a neighbour across from its gap node). Refuted for a single triangle (C65_lone_refuted) and, without smoothing, for a square of two triangles (C65_no_smoothing_refuted). For cell-based the slopes of the free motions are (1 + 1e-15) times the rotations because of the decimals in the code."
  },
  {
   "property": "C66",
   "status": "partial",
   "theorems": [
    "C66_unique",
    "C66_six",
    "C66_clamped",
    "C66_unbraced_refuted"
   ],
   "note": "Proved for braced plates, as stated; C66_unbraced_refuted shows that the bracing cannot be dropped."
  },
  {
   "property": "C67",
   "status": "proved",
   "theorems": [
    "C67_softer"
   ],
   "note": ""
  },
  {
   "property": "C68",
   "status": "proved",
   "theorems": [
    "C68_buckling",
    "C68_critical",
    "C68_proportional"
   ],
   "note": ""
  },
  {
   "property": "C69",
   "status": "proved",
   "theorems": [
    "C69_reciprocity",
    "C69_minimum"
   ],
   "note": ""
  },
  {
   "property": "C70",
   "status": "proved",
   "theorems": [
    "C70_stiffer"
   ],
   "note": ""
  },
  {
   "property": "C71",
   "status": "proved",
   "theorems": [
    "C71_outcome"
   ],
   "note": ""
  },
  {
   "property": "C72",
   "status": "partial",
   "theorems": [
    "C72_k0_refuted",
    "C72_add_refuted",
    "C72_kG_refuted"
   ],
   "note": "Refuted by computation in doubles for calc_k0, every method of add_k0s and calc_kG. Over the reals the symmetry is C20, C32, C39, C40."
  },
  {
   "property": "C73",
   "status": "proved",
   "theorems": [
    "C73_progress"
   ],
   "note": ""
  },
  {
   "property": "C74",
   "status": "proved",
   "theorems": [
    "C74_order"
   ],
   "note": ""
  },
  {
   "property": "C75",
   "status": "partial",
   "theorems": [
    "C75_cell",
    "C75_edge_refuted",
    "C75_kG_refuted"
   ],
   "note": "Proved for the cell-based methods in any arithmetic; refuted for the method edge-based and for calc_kG, which use stale smoothing domains."
  },
  {
   "property": "C76",
   "status": "proved",
   "theorems": [
    "C76_energy",
    "C76_convergence"
   ],
   "note": ""
  },
  {
   "property": "C77",
   "status": "proved",
   "theorems": [
    "C77_work",
    "C77_convergence"
   ],
   "note": ""
  },
  {
   "property": "C78",
   "status": "proved",
   "theorems": [
    "C78_energy",
    "C78_convergence"
   ],
   "note": ""
  },
  {
   "property": "C79",
   "status": "partial",
   "theorems": [
    "C79_energy_partial",
    "C79_constant_partial",
    "C79_rotation_partial",
    "C79_rotation_refuted"
   ],
   "note": "Refuted for the code: the force of a rigid rotation has no bound, because interior edges take z in place of y. Proved with exact fractions in place of the decimals: rotations with a slope in y are free of energy if and only if all interior edges start in nodes with y = z; on such plates the energy is that of the discrete shear strains and constant shear is reproduced. C80 transfers this to the code's decimals up to an explicit error."
  },
  {
   "property": "C80",
   "status": "proved",
   "theorems": [
    "C80_decimals",
    "C80_energy",
    "C80_constant",
    "C80_symmetry",
    "C80_monotone"
   ],
   "note": ""
  },
  {
   "property": "C81",
   "status": "proved",
   "theorems": [
    "C81_error",
    "C81_symmetric",
    "C81_energy",
    "C81_rigid"
   ],
   "note": ""
  },
  {
   "property": "C82",
   "status": "partial",
   "theorems": [
    "C82_plain",
    "C82_dense",
    "C82_sparse_partial",
    "C82_comments",
    "C82_sparse_refuted",
    "C82_values"
   ],
   "note": "SymPy is an argument. Dense format as stated; sparse format: the same text after a list that is not in comments (C82_sparse_refuted)."
  },
  {
   "property": "C83",
   "status": "partial",
   "theorems": [
    "C83_dense_partial",
    "C83_sparse_partial",
    "C83_refuted"
   ],
   "note": "Refuted; the partial theorems give the exact text for the dense and the sparse format."
  },
  {
   "property": "C84",
   "status": "partial",
   "theorems": [
    "C84_cse",
    "C84_refuted"
   ],
   "note": "The text is as stated (order 'C'); C84_refuted: the caller's matrix is replaced."
  },
  {
   "property": "C85",
   "status": "proved",
   "theorems": [
    "C85_names",
    "C85_mid"
   ],
   "note": ""
  },
  {
   "property": "C86",
   "status": "proved",
   "theorems": [
    "C86_error",
    "C86_plate",
    "C86_energy"
   ],
   "note": ""
  },
  {
   "property": "C87",
   "status": "proved",
   "theorems": [
    "C87_error",
    "C87_symmetric",
    "C87_work",
    "C87_rigid"
   ],
   "note": ""
  },
  {
   "property": "C88",
   "status": "proved",
   "theorems": [
    "C88_error",
    "C88_plate",
    "C88_energy",
    "C88_symmetric"
   ],
   "note": ""
  },
  {
   "property": "C89",
   "status": "proved",
   "theorems": [
    "C89_error",
    "C89_nodal",
    "C89_polynomial"
   ],
   "note": ""
  },
  {
   "property": "C90",
   "status": "proved",
   "theorems": [
    "C90_static"
   ],
   "note": ""
  },
  {
   "property": "C91",
   "status": "proved",
   "theorems": [
    "C91_buckling"
   ],
   "note": ""
  },
  {
   "property": "C92",
   "status": "proved",
   "theorems": [
    "C92_area",
    "C92_unit"
   ],
   "note": ""
  },
  {
   "property": "C93",
   "status": "proved",
   "theorems": [
    "C93_supports",
    "C93_alpha",
    "C93_stiffer"
   ],
   "note": ""
  },
  {
   "property": "C94",
   "status": "proved",
   "theorems": [
    "C94_matrices",
    "C94_answers"
   ],
   "note": ""
  },
  {
   "property": "C95",
   "status": "proved",
   "theorems": [
    "C95_stable",
    "C95_fraction"
   ],
   "note": ""
  },
  {
   "property": "C96",
   "status": "proved",
   "theorems": [
    "C96_strains",
    "C96_loads",
    "C96_convergence"
   ],
   "note": ""
  },
  {
   "property": "C97",
   "status": "proved",
   "theorems": [
    "C97_work",
    "C97_convergence"
   ],
   "note": ""
  },
  {
   "property": "C98",
   "status": "proved",
   "theorems": [
    "C98_deflection",
    "C98_buckling",
    "C98_computed"
   ],
   "note": ""
  },
  {
   "property": "C99",
   "status": "proved",
   "theorems": [
    "C99_k0",
    "C99_kG",
    "C99_shear"
   ],
   "note": ""
  },
  {
   "property": "C100",
   "status": "proved",
   "theorems": [
    "C100_thin",
    "C100_locking",
    "C100_buckling"
   ],
   "note": ""
  },
  {
   "property": "C101",
   "status": "proved",
   "theorems": [
    "C101_strains",
    "C101_natural",
    "C101_korn",
    "C101_loads"
   ],
   "note": ""
  },
  {
   "property": "C102",
   "status": "proved",
   "theorems": [
    "C102_displacements",
    "C102_convergence"
   ],
   "note": ""
  },
  {
   "property": "C103",
   "status": "proved",
   "theorems": [
    "C103_stiff",
    "C103_bounded",
    "C103_condition",
    "C103_loads"
   ],
   "note": ""
  },
  {
   "property": "C104",
   "status": "proved",
   "theorems": [
    "C104_work",
    "C104_buckling"
   ],
   "note": ""
  },
  {
   "property": "C105",
   "status": "proved",
   "theorems": [
    "C105_displacements",
    "C105_stiff"
   ],
   "note": ""
  },
  {
   "property": "C106",
   "status": "proved",
   "theorems": [
    "C106_pairs"
   ],
   "note": ""
  },
  {
   "property": "C107",
   "status": "proved",
   "theorems": [
    "C107_buckling"
   ],
   "note": ""
  },
  {
   "property": "C108",
   "status": "proved",
   "theorems": [
    "C108_work",
    "C108_natural",
    "C108_factor"
   ],
   "note": ""
  },
  {
   "property": "C109",
   "status": "proved",
   "theorems": [
    "C109_work",
    "C109_natural"
   ],
   "note": ""
  }
 ]
}