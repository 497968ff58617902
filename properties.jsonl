{"id": "C01", "title": "read_delaunay keeps the point cloud and the triangulation", "statement": "read_delaunay(points, tri) returns a mesh with exactly one node per input point: point number k (0-based) becomes the node with id k+1 and the same coordinates (a 2-D point gets z=0), and exactly one element per simplex: simplex number t becomes the triangle with id t+1 whose three vertices are the nodes of the three input points, in the input order. A simplex that names a point that does not exist, or that does not have three vertices, makes the call raise instead of returning a mesh.", "quantifier": "every list of points and every list of simplices, of any size", "why_tests_cant": "the test checks three counts on one 3x3 grid", "anchors": ["meshless/espim/read_mesh.py:read_delaunay"]}
{"id": "C02", "title": "mesh.edges is exactly the set of triangle sides", "statement": "After read_delaunay or read_mesh, mesh.edges has exactly one entry per unordered pair of vertices that is a side of at least one triangle, keyed by the pair in increasing order, and no other entry; the edge stored under (a, b) joins node a and node b.", "quantifier": "every triangulation", "why_tests_cant": "the tests check only the number of edges on two meshes", "anchors": ["meshless/espim/read_mesh.py:read_delaunay", "meshless/espim/read_mesh.py:read_mesh", "meshless/espim/classes.py:Edge"]}
{"id": "C03", "title": "edge.trias lists exactly the triangles on the edge", "statement": "For every edge of the mesh, edge.trias contains exactly the triangles that have both end nodes of the edge as vertices, each once, in element order. Hence a side of one triangle has one entry and a side shared by two triangles has two.", "quantifier": "every triangulation whose triangles have three distinct vertices", "why_tests_cant": "no test looks at edge.trias", "anchors": ["meshless/espim/read_mesh.py:read_delaunay", "meshless/espim/read_mesh.py:read_mesh"]}
{"id": "C04", "title": "triangle and node back references are complete", "statement": "For every triangle, tria.edges contains exactly the three edges of that triangle, each once. For every node, node.edges contains exactly the edges that end in the node and node.trias exactly the ids of the triangles that have it as a vertex.", "quantifier": "every triangulation whose triangles have three distinct vertices", "why_tests_cant": "no test looks at tria.edges, node.edges or node.trias, and add_k0s takes the longest side from tria.edges", "anchors": ["meshless/espim/read_mesh.py:read_delaunay", "meshless/espim/read_mesh.py:read_mesh"]}
{"id": "C05", "title": "every triangle side is counted once", "statement": "The lengths of edge.trias over all the edges add up to three times the number of triangles; if no edge has more than two triangles, 3*T = B + 2*I where B and I are the numbers of edges with one and with two triangles.", "quantifier": "every triangulation", "why_tests_cant": "a global count over meshes of any size", "anchors": ["meshless/espim/read_mesh.py:read_delaunay"]}
{"id": "C06", "title": "read_mesh and read_delaunay build the same mesh", "statement": "Reading a Nastran deck whose grids are numbered 1..N in order and whose CTRIA3 elements are numbered 1..T in order gives the same nodes, elements, edges and back references as read_delaunay on the same points and connectivity. Rotating or reflecting the vertex order of triangles changes neither the set of edges nor the triangles on each edge.", "quantifier": "every triangulation, every per-triangle vertex order", "why_tests_cant": "needs both readers on all meshes", "anchors": ["meshless/espim/read_mesh.py:read_mesh", "meshless/espim/read_mesh.py:read_delaunay"]}
{"id": "C07", "title": "read_mesh accepts triangles only", "statement": "read_mesh raises NotImplementedError if the deck contains any element that is not a CTRIA3, wherever it is in the deck, and returns a mesh otherwise.", "quantifier": "every deck", "why_tests_cant": "no test has such a deck", "anchors": ["meshless/espim/read_mesh.py:read_mesh"]}
{"id": "C08", "title": "2-D Lagrange interpolation reproduces the nodal values", "statement": "interpolate_lagrange_2D evaluated at (x_nodes[m], y_nodes[n]) returns field_nodes[m, n] for distinct x nodes and distinct y nodes.", "quantifier": "any number M, N of nodes in any order, any field, every m and n", "why_tests_cant": "the test samples one 3x3 field", "anchors": ["meshless/interpolate.py:interpolate_lagrange_2D"]}
{"id": "C09", "title": "2-D Lagrange interpolation is exact for polynomials", "statement": "If field_nodes[m, n] = p(x_nodes[m], y_nodes[n]) for a polynomial p of degree less than M in x and less than N in y, then interpolate_lagrange_2D returns p(x, y) at every point (x, y), inside or outside the range of the nodes.", "quantifier": "any M, N >= 1, any distinct nodes, any polynomial of the stated degrees, every point", "why_tests_cant": "quantifies over all polynomials, nodes and points", "anchors": ["meshless/interpolate.py:interpolate_lagrange_2D"]}
{"id": "C10", "title": "2-D Lagrange interpolation is linear in the field and ignores node order", "statement": "The interpolated value is linear in field_nodes, and permuting the nodes of a direction together with the rows (columns) of field_nodes does not change it.", "quantifier": "any nodes, fields, scalars, permutations and points", "why_tests_cant": "an algebraic law over all inputs", "anchors": ["meshless/interpolate.py:interpolate_lagrange_2D"]}
{"id": "C11", "title": "3-D Lagrange interpolation reproduces the nodal values", "statement": "interpolate_lagrange_3D evaluated at (x_nodes[m], y_nodes[n], z_nodes[p]) returns field_nodes[m, n, p] for distinct nodes in each direction.", "quantifier": "any M, N, P, any nodes, any field", "why_tests_cant": "the only test fixes expected numbers that were produced by the code itself", "anchors": ["meshless/interpolate.py:interpolate_lagrange_3D"]}
{"id": "C12", "title": "interpolation returns one value per evaluation point", "statement": "For x and y of length K (and z in 3-D) the result of the interpolation is an array of length K whose entry k depends on point k only.", "quantifier": "every K and every number of nodes, including one node per direction", "why_tests_cant": "tests use one shape", "anchors": ["meshless/interpolate.py:interpolate_lagrange_2D", "meshless/interpolate.py:interpolate_lagrange_3D"]}
{"id": "C13", "title": "interpolation rejects fields of the wrong shape", "statement": "If field_nodes does not have the shape (M, N) (2-D) or (M, N, P) (3-D) given by the node vectors the call raises AssertionError, and it raises no error otherwise if the coordinates of the evaluation points are numbers or arrays of one length.", "quantifier": "every combination of shapes, every set of evaluation points", "why_tests_cant": "tests use one matching shape", "anchors": ["meshless/interpolate.py:interpolate_lagrange_2D", "meshless/interpolate.py:interpolate_lagrange_3D"]}
{"id": "C14", "title": "area_of_polygon is the geometric area", "statement": "For a polygon with any number n != 1 of vertices, area_of_polygon returns the absolute shoelace area: it is non-negative, equals half the absolute cross product for triangles, does not depend on the starting vertex or the direction of traversal, is invariant under translation, is multiplied by |det M| under a linear map M, and repeating the first vertex at the end changes nothing. A single vertex raises IndexError.", "quantifier": "polygons with any number of vertices", "why_tests_cant": "laws over all polygons and all sizes", "anchors": ["meshless/utils.py:area_of_polygon"]}
{"id": "C15", "title": "unitvec returns the unit vector of the same direction", "statement": "For every non-zero vector v, unitvec(v) has Euclidean norm 1 and is a positive multiple of v.", "quantifier": "every non-zero vector", "why_tests_cant": "no test", "anchors": ["meshless/utils.py:unitvec"]}
{"id": "C16", "title": "smoothing domains tile the plate", "statement": "After calc_k0 on a valid planar triangulation the areas edge.Ac are all positive and add up to the total area of the triangles; each edge.Ac is one third of the areas of the triangles on the edge.", "quantifier": "every valid planar triangulation", "why_tests_cant": "global geometric identity over all meshes", "anchors": ["meshless/espim/plate2d_calc_k0.py:calc_k0", "meshless/utils.py:area_of_polygon"]}
{"id": "C17", "title": "integration points describe a closed outward boundary", "statement": "After calc_k0 every integration point lies in the middle of its segment of the smoothing domain boundary, its three weights add up to 1, (nx, ny) is a unit vector that points out of the domain, le is the length of the segment, and for every edge the vectors le*(nx, ny) add up to zero.", "quantifier": "every valid planar triangulation, every edge", "why_tests_cant": "no test looks at the integration points", "anchors": ["meshless/espim/plate2d_calc_k0.py:calc_k0", "meshless/espim/classes.py:IntegrationPoint"]}
{"id": "C18", "title": "calc_k0 numbers the nodes bijectively and returns a 5n x 5n matrix", "statement": "calc_k0 gives the n nodes the indices 0..n-1, each exactly once, in the order of mesh.nodes, and returns a 5n x 5n matrix.", "quantifier": "every mesh on which calc_k0 returns", "why_tests_cant": "holds for all meshes and orders; a duplicate index would silently merge two nodes", "anchors": ["meshless/espim/plate2d_calc_k0.py:calc_k0"]}
{"id": "C19", "title": "k0 is the smoothed strain energy", "statement": "For displacement vectors u and v, u^T k0 v equals the sum over the edges of Ac times the product of the smoothed membrane and bending strains of u and v with the A, B, D matrices of the edge, where the smoothed strain is the boundary integral (1/Ac) * sum over the segments of value(midpoint) * outward normal * length of the linearly interpolated field.", "quantifier": "every valid mesh, all property assignments, all u and v", "why_tests_cant": "256 hand-unrolled matrix entries over all meshes; tests compare one displacement field at 5 percent", "anchors": ["meshless/espim/plate2d_calc_k0.py:calc_k0"]}
{"id": "C20", "title": "k0 is symmetric", "statement": "The matrix returned by calc_k0 is symmetric.", "quantifier": "every mesh on which calc_k0 returns, with any (even non-symmetric) A, B, D", "why_tests_cant": "all entries for all meshes", "anchors": ["meshless/espim/plate2d_calc_k0.py:calc_k0"]}
{"id": "C21", "title": "k0 is positive semi-definite", "statement": "If the 6x6 matrix [[A,B],[B,D]] of every property is symmetric positive semi-definite then u^T k0 u >= 0 for every u.", "quantifier": "every valid mesh, every such property assignment, every u", "why_tests_cant": "quantifies over all displacement vectors", "anchors": ["meshless/espim/plate2d_calc_k0.py:calc_k0"]}
{"id": "C22", "title": "rigid body motions are in the null space of k0", "statement": "k0 applied to a rigid motion of the plate (in-plane translation, in-plane infinitesimal rotation, any out-of-plane displacement w with zero rotations, constant rotations phi_x, phi_y) is zero.", "quantifier": "every valid planar mesh, every property assignment", "why_tests_cant": "needs exact cancellation for all meshes", "anchors": ["meshless/espim/plate2d_calc_k0.py:calc_k0"]}
{"id": "C23", "title": "constant strain is reproduced exactly", "statement": "For a displacement field whose u, v, phi_x, phi_y are affine functions of x and y, the smoothed strain of every edge is the exact constant strain, so that with one property for the whole plate the energy of k0 is total area times the energy density of that strain.", "quantifier": "every valid planar mesh, every affine field", "why_tests_cant": "patch test over all meshes", "anchors": ["meshless/espim/plate2d_calc_k0.py:calc_k0"]}
{"id": "C24", "title": "missing properties are rejected before anything is changed", "statement": "calc_k0 raises ValueError if some node of an edge (prop_from_node) or some triangle (otherwise) has no property, and then leaves the mesh unchanged; if all of them have one it does not fail for lack of a property.", "quantifier": "every mesh and every subset of missing properties", "why_tests_cant": "all subsets on all meshes", "anchors": ["meshless/espim/plate2d_calc_k0.py:calc_k0"]}
{"id": "C25", "title": "non-manifold edges are rejected", "statement": "calc_k0 raises NotImplementedError if some edge has three or more triangles, and on a mesh with complete properties in which every edge has one or two triangles it does not.", "quantifier": "every triangulation", "why_tests_cant": "no test", "anchors": ["meshless/espim/plate2d_calc_k0.py:calc_k0"]}
{"id": "C26", "title": "k0 couples only nodes of a common smoothing domain and leaves w free", "statement": "An entry of k0 that couples nodes i and j is zero unless both are vertices of the one or two triangles on some common edge; the rows and columns of the w degree of freedom (index 2) are zero; rows of nodes that belong to no triangle are zero. In any arithmetic, also in double precision, an entry that no edge reaches is exactly the zero of np.zeros; an edge reaches the vertices of its triangles and, if it has only one triangle, also the last node, whose rows serve as a place-holder.", "quantifier": "every valid mesh", "why_tests_cant": "every entry of every matrix", "anchors": ["meshless/espim/plate2d_calc_k0.py:calc_k0"]}
{"id": "C27", "title": "calc_k0 does not depend on earlier calls", "statement": "Whatever sequence of calc_k0, add_k0s, calc_kG calls, property assignments and node moves happened before, calc_k0 returns the matrix that a freshly read mesh with the current coordinates and properties would give; in particular calling it twice gives the same matrix.", "quantifier": "every history of operations", "why_tests_cant": "the results of earlier calls are stored on the mesh objects (ipts, Ac, sdomain, index, othernode)", "anchors": ["meshless/espim/plate2d_calc_k0.py:calc_k0"]}
{"id": "C28", "title": "k0 does not depend on element order or triangle orientation", "statement": "Permuting the elements of the mesh or the vertex order inside triangles does not change k0 (with prop_from_node, or with the properties permuted along).", "quantifier": "every valid mesh and every permutation", "why_tests_cant": "all permutations", "anchors": ["meshless/espim/plate2d_calc_k0.py:calc_k0", "meshless/espim/read_mesh.py:read_delaunay"]}
{"id": "C29", "title": "k0 is linear in the laminate stiffness", "statement": "Multiplying all A, B and D by c multiplies k0 by c, and k0 of the sum of two property fields is the sum of the two matrices.", "quantifier": "every valid mesh, all property fields", "why_tests_cant": "algebraic law", "anchors": ["meshless/espim/plate2d_calc_k0.py:calc_k0"]}
{"id": "C30", "title": "add_k0s selects the method and rejects unknown ones", "statement": "add_k0s applies the cell-based, cell-based-no-smoothing or edge-based shear stiffness according to method, and raises ValueError for every other string without modifying k0.", "quantifier": "every string", "why_tests_cant": "all strings", "anchors": ["meshless/espim/plate2d_add_k0s.py:add_k0s"]}
{"id": "C31", "title": "add_k0s only adds, and only to w and rotation entries", "statement": "add_k0s returns k0 plus a matrix that does not depend on k0, changes no entry in a row or column of the u and v degrees of freedom, and couples only nodes of a common element (cell-based methods) or of a common edge domain (edge-based).", "quantifier": "every k0, every mesh, every method", "why_tests_cant": "all entries", "anchors": ["meshless/espim/plate2d_add_k0s.py:add_k0s", "meshless/espim/plate2d_add_k0s_cell_based.py:add_k0s", "meshless/espim/plate2d_add_k0s_cell_based_no_smoothing.py:add_k0s", "meshless/espim/plate2d_add_k0s_edge_based.py:add_k0s"]}
{"id": "C32", "title": "the cell-based shear stiffness is a shear energy", "statement": "For the cell-based methods u^T (k0_after - k0_before) v is the sum over the elements of area times the product of the discrete shear strains of u and v with the corrected shear stiffness; the added matrix is symmetric, and positive semi-definite for non-negative shear stiffness and alpha.", "quantifier": "every valid planar mesh, all property assignments, all u and v", "why_tests_cant": "81 hand-unrolled entries per method", "anchors": ["meshless/espim/plate2d_add_k0s_cell_based.py:add_k0s", "meshless/espim/plate2d_add_k0s_cell_based_no_smoothing.py:add_k0s"]}
{"id": "C33", "title": "rigid body motions carry no shear energy (cell-based)", "statement": "The matrix added by the cell-based methods maps a rigid translation in w to zero, and a rigid rotation w = t*x + s*y with phi_x = -t, phi_y = -s to zero (no smoothing) or to 10^-15 times the forces of a constant shear strain (with smoothing: the code has 0.166666666666667 for 1/6).", "quantifier": "every valid planar mesh", "why_tests_cant": "exact cancellation over all meshes; decimal literals in the code make it a question", "anchors": ["meshless/espim/plate2d_add_k0s_cell_based.py:add_k0s", "meshless/espim/plate2d_add_k0s_cell_based_no_smoothing.py:add_k0s"]}
{"id": "C34", "title": "constant transverse shear is reproduced (cell-based)", "statement": "For w affine in x and y and constant phi_x, phi_y the added matrix does the work of the constant shear strain (w,x + phi_x, w,y + phi_y), exactly without smoothing and with a relative error of 10^-15 in the rotations with smoothing; for one laminate and alpha = 0 the energy is the area times the energy density of that strain.", "quantifier": "every valid planar mesh", "why_tests_cant": "patch test over all meshes", "anchors": ["meshless/espim/plate2d_add_k0s_cell_based.py:add_k0s", "meshless/espim/plate2d_add_k0s_cell_based_no_smoothing.py:add_k0s"]}
{"id": "C35", "title": "shear stiffness does not depend on the node numbering inside an element", "statement": "Permuting the three vertices of elements does not change the matrix added by the cell-based methods.", "quantifier": "every valid mesh and every vertex permutation", "why_tests_cant": "all permutations", "anchors": ["meshless/espim/plate2d_add_k0s_cell_based.py:add_k0s", "meshless/espim/plate2d_add_k0s_cell_based_no_smoothing.py:add_k0s"]}
{"id": "C36", "title": "alpha reduces the shear stiffness monotonically", "statement": "alpha=0 leaves the shear stiffness uncorrected; for alpha >= 0 the added energy is non-increasing in alpha and never negative.", "quantifier": "all alpha >= 0, all meshes with non-negative shear stiffness", "why_tests_cant": "all alpha", "anchors": ["meshless/espim/plate2d_add_k0s_cell_based.py:add_k0s", "meshless/espim/plate2d_add_k0s_cell_based_no_smoothing.py:add_k0s", "meshless/espim/plate2d_add_k0s_edge_based.py:add_k0s"]}
{"id": "C37", "title": "shear stiffness is translation invariant", "statement": "Translating all nodes by the same in-plane vector does not change the matrix added by add_k0s.", "quantifier": "every valid mesh, every translation, every method", "why_tests_cant": "tests use one position of the plate", "anchors": ["meshless/espim/plate2d_add_k0s_cell_based.py:add_k0s", "meshless/espim/plate2d_add_k0s_cell_based_no_smoothing.py:add_k0s", "meshless/espim/plate2d_add_k0s_edge_based.py:interior_edge", "meshless/espim/plate2d_add_k0s_edge_based.py:boundary_edge"]}
{"id": "C38", "title": "shear correction factors are used consistently by the methods", "statement": "All the methods pair the two shear correction factors scf_k13, scf_k23 with the same shear stiffness components.", "quantifier": "every property with scf_k13 != scf_k23", "why_tests_cant": "the tests use isotropic properties", "anchors": ["meshless/espim/plate2d_add_k0s_cell_based.py:add_k0s", "meshless/espim/plate2d_add_k0s_cell_based_no_smoothing.py:add_k0s", "meshless/espim/plate2d_add_k0s_edge_based.py:interior_edge", "meshless/espim/plate2d_add_k0s_edge_based.py:boundary_edge"]}
{"id": "C39", "title": "the edge-based shear stiffness is symmetric and free of w translations", "statement": "The matrix added by the edge-based method is symmetric, and a rigid translation in w is mapped to zero.", "quantifier": "every mesh", "why_tests_cant": "225 hand-unrolled entries with rounded decimal constants", "anchors": ["meshless/espim/plate2d_add_k0s_edge_based.py:boundary_edge", "meshless/espim/plate2d_add_k0s_edge_based.py:interior_edge"]}
{"id": "C40", "title": "kG is symmetric and acts on w only", "statement": "The matrix returned by calc_kG is symmetric and has non-zero entries only between w degrees of freedom.", "quantifier": "every mesh prepared by calc_k0 and every d", "why_tests_cant": "all entries for all meshes", "anchors": ["meshless/espim/plate2d_calc_kG.py:calc_kG"]}
{"id": "C41", "title": "kG is the work of the membrane forces", "statement": "u^T kG v is the sum over the edges of Ac times grad(w_u)^T [[Nxx,Nxy],[Nxy,Nyy]] grad(w_v) with the smoothed gradients of the edge and the membrane forces N = A em + B eb of the smoothed strains of d.", "quantifier": "every mesh prepared by calc_k0, every d, u, v", "why_tests_cant": "16 hand-unrolled entries and dictionary bookkeeping, all meshes", "anchors": ["meshless/espim/plate2d_calc_kG.py:calc_kG"]}
{"id": "C42", "title": "kG is linear in the static solution", "statement": "calc_kG(a*d1 + b*d2) = a*calc_kG(d1) + b*calc_kG(d2).", "quantifier": "all d1, d2, a, b", "why_tests_cant": "algebraic law; the linear buckling load factor relies on it", "anchors": ["meshless/espim/plate2d_calc_kG.py:calc_kG"]}
{"id": "C43", "title": "rigid motions do no work in kG", "statement": "If d is a rigid in-plane motion kG is zero; and a constant w is mapped to zero by kG for every d.", "quantifier": "every valid planar mesh", "why_tests_cant": "exact cancellation", "anchors": ["meshless/espim/plate2d_calc_kG.py:calc_kG"]}
{"id": "C44", "title": "uniform membrane force", "statement": "If d is the affine field of a constant membrane strain e and the plate has one property (B = 0) then N = A e on every edge and for affine w the energy of kG is total area times grad(w)^T N grad(w).", "quantifier": "every valid planar mesh", "why_tests_cant": "patch test", "anchors": ["meshless/espim/plate2d_calc_kG.py:calc_kG"]}
{"id": "C45", "title": "the dummy fourth node of boundary edges has no effect", "statement": "The index appended to complete the four node positions of a boundary edge (-1 in calc_k0, 0 in calc_kG) never changes an entry of the matrix, also when node 0 or the last node belongs to the edge.", "quantifier": "every mesh, every boundary edge", "why_tests_cant": "depends on which nodes are on the edge", "anchors": ["meshless/espim/plate2d_calc_k0.py:calc_k0", "meshless/espim/plate2d_calc_kG.py:calc_kG"]}
{"id": "C46", "title": "pow2mul leaves text without powers alone", "statement": "pow2mul returns a string unchanged if it contains neither \"**\" nor \"pow(\".", "quantifier": "every string", "why_tests_cant": "all strings", "anchors": ["meshless/dev/sympytools.py:pow2mul"]}
{"id": "C47", "title": "pow2mul expands powers without changing the value", "statement": "For an expression whose powers have a symbol, a number or a parenthesis (without powers, parentheses and calls inside) as base and an integer exponent >= 1, pow2mul replaces every power by the parenthesised product of that many copies of the base and nothing else, so that the value of the expression is unchanged.", "quantifier": "all such expressions, any symbols (including symbols that are suffixes of others) and exponents", "why_tests_cant": "substring replacement can hit other symbols; all expressions", "anchors": ["meshless/dev/sympytools.py:pow2mul"]}
{"id": "C48", "title": "pow2mul does not change the meaning of powers of calls, nested powers and zeroth powers", "statement": "pow2mul applied to any expression printed by SymPy returns an expression of the same value: f(x)**2, (x**2 + 1)**2, x**0, x**2.5.", "quantifier": "all expressions", "why_tests_cant": "the test has one string", "anchors": ["meshless/dev/sympytools.py:pow2mul"]}
{"id": "C49", "title": "mprint_as_dense prints the matrix", "statement": "Executing the assignments printed by mprint_as_dense on a zero matrix produces the input matrix (with or without dofpernode), and the printed count is the number of non-zero entries.", "quantifier": "all matrices of any size, all dofpernode", "why_tests_cant": "the tests use a 1x2 matrix", "anchors": ["meshless/dev/sympytools.py:mprint_as_dense"]}
{"id": "C50", "title": "mprint_as_sparse prints the matrix", "statement": "Executing the statements printed by mprint_as_sparse gives the triplets of exactly the non-zero entries of the matrix, in row-major order, and the printed count equals the number of triplets.", "quantifier": "all matrices, with or without dofpernode", "why_tests_cant": "the comparisons in the test have no assert", "anchors": ["meshless/dev/sympytools.py:mprint_as_sparse"]}
{"id": "C51", "title": "mprint_as_sparse(is_symmetric) prints the upper triangle", "statement": "With is_symmetric=True exactly the non-zero entries of the upper triangle (column >= row) are printed.", "quantifier": "all matrices, with or without dofpernode", "why_tests_cant": "the comparisons in the test have no assert", "anchors": ["meshless/dev/sympytools.py:mprint_as_sparse"]}
{"id": "C52", "title": "mprint_as_array enumerates in the requested order", "statement": "Statement pos+k printed by mprint_as_array holds entry (k div ncols, k mod ncols) for order C and entry (k mod nrows, k div nrows) for order F; every non-zero entry is printed exactly once.", "quantifier": "all matrices", "why_tests_cant": "tests use a single row", "anchors": ["meshless/dev/sympytools.py:mprint_as_array"]}
{"id": "C53", "title": "mprint_as_array expands powers without changing the value", "statement": "The power expansion of mprint_as_array does not change the value of the printed expressions.", "quantifier": "all expressions with powers of several symbols", "why_tests_cant": "substring replacement", "anchors": ["meshless/dev/sympytools.py:mprint_as_array"]}
{"id": "C54", "title": "silent functions print nothing and return the message", "statement": "msg, warn and error return the (prefixed) message whatever level and silent are, print exactly one line with level tabs if not silent, and print nothing if silent.", "quantifier": "every message, level and flag", "why_tests_cant": "all strings", "anchors": ["meshless/logger.py"]}
{"id": "C55", "title": "pow2mul expands calls of pow", "statement": "In a text without \"**\", pow2mul replaces every call pow(v, n) with an integer n >= 0 by the parenthesised product of n copies of (v) and changes nothing else.", "quantifier": "every text with any number of such calls whose arguments hold neither a comma nor the letters pow", "why_tests_cant": "the test has one string", "anchors": ["meshless/dev/sympytools.py:pow2mul"]}
{"id": "C56", "title": "pow2mul keeps the meaning of all calls of pow and of other functions", "statement": "pow2mul leaves every call of pow an expression of the same value, whatever its exponent and argument, and does not touch calls of other functions.", "quantifier": "all texts with calls", "why_tests_cant": "all texts", "anchors": ["meshless/dev/sympytools.py:pow2mul"]}
{"id": "C57", "title": "the printing functions write the text they return", "statement": "With print_file the functions mprint_as_sparse, mprint_as_dense and mprint_as_array write exactly the returned text to print_<name>.txt or print_<name>_<sufix>.txt; without it they write nothing.", "quantifier": "all matrices, names, sufixes and options", "why_tests_cant": "the tests do not look at the files", "anchors": ["meshless/dev/sympytools.py:mprint_as_sparse", "meshless/dev/sympytools.py:mprint_as_dense", "meshless/dev/sympytools.py:mprint_as_array"]}
{"id": "C58", "title": "calc_k0 passes the patch test", "statement": "On a plate of one laminate, a displacement field that is affine in x and y produces with the matrix of calc_k0 exactly the nodal forces of the constant laminate forces and moments acting on the outer boundary, half of each boundary edge to each of its two ends; in every interior node all five nodal forces vanish, and no nodal force acts on w.", "quantifier": "all valid meshes of any size and shape with one property, all affine displacement fields, all nodes, both property modes", "why_tests_cant": "a test uses one mesh and one field", "anchors": ["meshless/espim/plate2d_calc_k0.py:calc_k0"]}
{"id": "C59", "title": "calc_kG is in equilibrium for constant membrane forces", "statement": "When the membrane forces that calc_kG derives from the given displacements are the same everywhere, a deflection that is affine in x and y produces with kG exactly the nodal forces of the transverse components of the membrane forces on the outer boundary, half of each boundary edge to each end, and zero in every interior node.", "quantifier": "all prepared meshes of one property, all affine displacement vectors, all affine deflections, all nodes", "why_tests_cant": "a test uses one mesh and one field", "anchors": ["meshless/espim/plate2d_calc_kG.py:calc_kG"]}
{"id": "C60", "title": "k0 does not depend on the coordinate system", "statement": "If the same plate is described in coordinates that are turned, reflected, shifted or measured in another unit of length (with the laminate stiffnesses given in these coordinates), the matrix of calc_k0 represents the same strain energy for the same displacements; a mere shift or change of the unit of length leaves every entry unchanged.", "quantifier": "all valid meshes, all laminates, all orthonormal changes of axes with any scale factor and translation, all pairs of displacements", "why_tests_cant": "a test uses one orientation", "anchors": ["meshless/espim/plate2d_calc_k0.py:calc_k0"]}
{"id": "C61", "title": "kG does not depend on the coordinate system", "statement": "If the same plate under the same displacements is described in coordinates that are turned, reflected, shifted or measured in another unit of length, calc_kG returns the same matrix.", "quantifier": "all prepared meshes, all displacement vectors, all orthonormal changes of axes with any scale factor and translation", "why_tests_cant": "a test uses one orientation", "anchors": ["meshless/espim/plate2d_calc_kG.py:calc_kG"]}
{"id": "C62", "title": "The cell-based shear terms do not depend on the orientation of the axes", "statement": "For laminates whose transverse shear stiffness is the same in all directions, the matrix added by the cell-based methods represents the same energy for the same displacements in turned, reflected and shifted coordinates.", "quantifier": "all prepared meshes, laminates, orthonormal axes, pairs of displacements, both cell-based methods", "why_tests_cant": "a test uses one orientation", "anchors": ["meshless/espim/plate2d_add_k0s_cell_based.py:add_k0s", "meshless/espim/plate2d_add_k0s_cell_based_no_smoothing.py:add_k0s"]}
{"id": "C63", "title": "Which laminate data add_k0s depends on", "statement": "The matrix added by add_k0s depends on the laminates only through the shear correction factors k13 and k23, the thickness h and the transverse shear stiffness E; the cell-based methods use only the diagonal of E.", "quantifier": "all prepared meshes and all pairs of assignments of laminates that agree in these data, all methods and options", "why_tests_cant": "all pairs of laminates", "anchors": ["meshless/espim/plate2d_add_k0s.py:add_k0s"]}
{"id": "C64", "title": "Energy-free displacements of k0", "statement": "For positive definite laminates the matrix of calc_k0 gives zero energy (and zero forces) exactly for the displacements in which, on every part of the plate that hangs together over common edges, u and v are a rigid motion in the plane and phi_x and phi_y are of the same form, whatever w is. There are no spurious zero-energy modes.", "quantifier": "all valid meshes, laminates and displacement vectors, both values of prop_from_nodes", "why_tests_cant": "a test sees the rank of single matrices in floating point", "anchors": ["meshless/espim/plate2d_calc_k0.py:calc_k0"]}
{"id": "C65", "title": "Energy-free displacements of k0 with shear", "statement": "After add_k0s with a cell-based method, positive definite laminates and positive shear stiffness, the energy vanishes exactly when every part of the plate moves as a rigid body.", "quantifier": "all valid meshes, laminates, alpha, displacement vectors, both cell-based methods", "why_tests_cant": "ranges over all meshes and all displacements", "anchors": ["meshless/espim/plate2d_add_k0s.py:add_k0s", "meshless/espim/plate2d_add_k0s_cell_based.py:add_k0s_cell_based"]}
{"id": "C66", "title": "Static problems have exactly one solution", "statement": "On a plate whose triangles brace each other (every triangle has a neighbour for cell-based), with supports that allow no rigid motion, for every load vector there is exactly one displacement vector that is zero in the supports and in balance with the loads elsewhere; for a plate in one piece six suitable supports are enough.", "quantifier": "all valid meshes, laminates, supports, load vectors", "why_tests_cant": "a test solves single systems; existence and uniqueness for all loads needs a proof", "anchors": ["meshless/espim/plate2d_calc_k0.py:calc_k0", "meshless/espim/plate2d_add_k0s.py:add_k0s"]}
{"id": "C67", "title": "Edge smoothing never stiffens", "statement": "In a plate of one laminate with positive semi-definite stiffness the energy that k0 gives to a displacement vector is at most the strain energy of the linear triangles with these nodal values.", "quantifier": "all valid meshes, laminates, displacement vectors", "why_tests_cant": "an inequality between energies for all displacements", "anchors": ["meshless/espim/plate2d_calc_k0.py:calc_k0"]}
{"id": "C68", "title": "Linear buckling is well posed", "statement": "On a braced plate of positive definite laminates, with supports that allow no rigid motion and any prestressing displacements: all load factors of (k0 + factor kG) x = 0 are real, in each mode the strain energy is minus the load factor times the work of the membrane forces, modes of different load factors are orthogonal, positive load factors exist exactly if the membrane forces do negative work on some supported displacement, then there is a smallest one, below it the plate is stable and above it it is not. Scaling the prestressing displacements by c divides the load factors by c.", "quantifier": "all valid meshes, laminates, supports, prestressing displacement vectors, complex load factors and modes", "why_tests_cant": "a test computes some eigenvalues of some matrices numerically; realness, orthogonality, existence of a smallest factor and stability below it are claims for all plates and all displacements", "anchors": ["meshless/espim/plate2d_calc_k0.py:calc_k0", "meshless/espim/plate2d_calc_kG.py:calc_kG", "meshless/espim/plate2d_add_k0s.py:add_k0s"]}
{"id": "C69", "title": "Reciprocity and minimum of the potential energy", "statement": "Two solutions of static problems with the same supports satisfy Betti's theorem (the work of the loads of either on the displacements of the other is the same), and a solution is the only displacement respecting the supports with the least potential energy, which is minus half of the work of the loads.", "quantifier": "all valid meshes, laminates, supports, load vectors, displacement vectors", "why_tests_cant": "a minimum over all displacement vectors for all loads", "anchors": ["meshless/espim/plate2d_calc_k0.py:calc_k0", "meshless/espim/plate2d_add_k0s.py:add_k0s"]}
{"id": "C70", "title": "Stiffer laminates never soften the plate", "statement": "If in every node and triangle the laminate is replaced by one of the same thickness that is at least as stiff, then the energy of every displacement vector grows or stays, and under any loads and supports the work of the loads on the displacements they cause (compliance) does not grow.", "quantifier": "all valid meshes, pairs of laminates in all nodes and triangles, supports, loads", "why_tests_cant": "an inequality for all meshes, pairs of laminates and loads", "anchors": ["meshless/espim/plate2d_calc_k0.py:calc_k0", "meshless/espim/plate2d_add_k0s.py:add_k0s"]}
{"id": "C71", "title": "The outcome of calc_k0 depends on connectivity and properties only", "statement": "On every well-formed mesh and in every arithmetic (whatever the coordinates, also infinite or NaN ones, and whatever rounding does) calc_k0 returns a matrix exactly if every property that is asked for is there, the mesh has a node, no edge has three or more triangles and no two elements have the same three vertices; it raises ValueError if a property is missing, NotImplementedError if an edge has three or more triangles, ValueError if there is no node or if two elements have the same vertices, and never anything else.", "quantifier": "all well-formed meshes, all coordinates and laminates, any arithmetic", "why_tests_cant": "all connectivities and all floating point values", "anchors": ["meshless/espim/plate2d_calc_k0.py:calc_k0"]}
{"id": "C72", "title": "The matrices are exactly symmetric in double precision", "statement": "In IEEE double precision, entry (i, j) of the matrix returned by calc_k0, of what add_k0s adds, and of the matrix returned by calc_kG equals entry (j, i) bit for bit. (Refuted: the symmetry that C20, C32, C39 and C40 prove over the reals is only up to rounding in the program, so code that relies on exact symmetry has to symmetrise first.)", "quantifier": "all meshes, laminates, methods and displacements, in double precision", "why_tests_cant": "floating point evaluation order of 81 to 400 generated expressions; a test with small integers finds symmetric matrices", "anchors": ["meshless/espim/plate2d_calc_k0.py:calc_k0", "meshless/espim/plate2d_add_k0s.py:add_k0s", "meshless/espim/plate2d_calc_kG.py:calc_kG"]}
{"id": "C73", "title": "After calc_k0 the other matrices can always be computed", "statement": "Once calc_k0 has returned a matrix, and after any assignments of properties or coordinates, add_k0s with any of its three methods and calc_kG succeed, in every arithmetic, if the properties they ask for are there and the matrix or displacement vector passed is at least as large as the matrix of calc_k0; add_k0s keeps the size of the matrix and calc_kG returns one of the size of the vector, rounded down to a multiple of five.", "quantifier": "all well-formed meshes, assignments, methods, alpha, displacement vectors, any arithmetic", "why_tests_cant": "no exception for any mesh, history and floating point values", "anchors": ["meshless/espim/plate2d_add_k0s.py:add_k0s", "meshless/espim/plate2d_calc_kG.py:calc_kG", "meshless/espim/plate2d_calc_k0.py:calc_k0"]}
{"id": "C74", "title": "Calls before calc_k0 are refused", "statement": "On a mesh with elements for which calc_k0 has not been called, add_k0s and calc_kG raise an exception, whatever has been assigned to nodes and elements, and add_k0s leaves the matrix it was passed as it was.", "quantifier": "all meshes read, all histories without calc_k0, all arguments, any arithmetic", "why_tests_cant": "all histories; a wrong order that is silently accepted gives a wrong matrix", "anchors": ["meshless/espim/plate2d_add_k0s.py:add_k0s", "meshless/espim/plate2d_calc_kG.py:calc_kG"]}
{"id": "C75", "title": "add_k0s and calc_kG use the current coordinates", "statement": "If nodes are moved or properties assigned after calc_k0, then add_k0s and calc_kG give what they would give after another calc_k0. (Proved for the cell-based methods of add_k0s; refuted for the method edge-based and for calc_kG, which use the smoothing domains stored by the last calc_k0 without noticing that they are out of date.)", "quantifier": "all meshes, assignments after calc_k0, methods, any arithmetic", "why_tests_cant": "all histories of assignments", "anchors": ["meshless/espim/plate2d_add_k0s.py:add_k0s", "meshless/espim/plate2d_add_k0s_edge_based.py:add_k0s", "meshless/espim/plate2d_calc_kG.py:calc_kG"]}
{"id": "C76", "title": "calc_k0 converges under mesh refinement", "statement": "For a smooth motion of the plate sampled in the nodes, the strain energy u^T k0 u computed with calc_k0 differs from the Riemann sum of the exact energy density over the smoothing domains by at most an explicit multiple of the mesh size h, and becomes smaller than any eps below some mesh size, uniformly over all meshes with triangles of area at least kappa h^2, all bounded laminates and all motions with bounded derivatives.", "quantifier": "all regions, valid meshes of any number of nodes and triangles, mesh sizes, bounded laminates, both property sources, all motions with bounded first derivatives and bounded first-order remainder", "why_tests_cant": "A limit statement: a test can only look at a few mesh sizes and motions, and rounding hides the rate; the uniform bound over all meshes and motions needs a proof.", "anchors": ["meshless/espim/plate2d_calc_k0.py:calc_k0"]}
{"id": "C77", "title": "calc_kG converges under mesh refinement", "statement": "If the static solution passed to calc_kG and the mode are samples of smooth motions F and G, the work u^T kG u differs from the Riemann sum of the exact work of the membrane forces of F on the slopes of G by at most an explicit multiple of the mesh size, and becomes smaller than any eps below some mesh size, uniformly over meshes, laminates and motions.", "quantifier": "all meshes prepared by calc_k0, mesh sizes, bounded laminates, both property sources, all pairs of smooth motions", "why_tests_cant": "A limit statement over all refinements and all pairs of motions.", "anchors": ["meshless/espim/plate2d_calc_kG.py:calc_kG"]}
{"id": "C78", "title": "Cell-based shear stiffness converges under mesh refinement", "statement": "For a smooth motion sampled in the nodes, what add_k0s adds with method 'cell-based' or 'cell-based-no-smoothing' differs from the Riemann sum of the energy of the true shear strains (w_x + phi_x, w_y + phi_y) by at most an explicit multiple of the mesh size, including the effect of the correction factor with alpha, up to the decimal 0.166666666666667 in 'cell-based'; calc_k0 followed by add_k0s converges to the energy of the Mindlin plate.", "quantifier": "all meshes, mesh sizes, alpha >= 0, both size measures, both property sources, bounded laminates with thickness bounded below, all smooth motions", "why_tests_cant": "A limit statement over all refinements and motions; the influence of the truncated decimals is below what a floating-point test can separate from rounding.", "anchors": ["meshless/espim/plate2d_add_k0s_cell_based.py:add_k0s", "meshless/espim/plate2d_add_k0s_cell_based_no_smoothing.py:add_k0s", "meshless/espim/plate2d_add_k0s.py:add_k0s"]}
{"id": "C79", "title": "Edge-based shear stiffness: rigid rotations are free of energy and constant shear is reproduced", "statement": "What add_k0s adds with method 'edge-based' is the energy of the discrete shear strains of the smoothing domains of the edges: a rigid rotation of the plate (deflection a plane, rotations opposite to its slopes) causes no force, and a constant shear strain gives exactly its energy, wherever the plate lies. The code violates this: on an interior edge it takes the z coordinate of the first node in place of y.", "quantifier": "all meshes and positions of the plate, all rigid rotations and constant shear fields, alpha >= 0, both size measures, both property sources", "why_tests_cant": "Depends on the position of every interior edge and the orientation of the first triangle on it; a test on a plate at y = z = 0 or with a single triangle passes.", "anchors": ["meshless/espim/plate2d_add_k0s_edge_based.py:add_k0s", "meshless/espim/plate2d_add_k0s.py:add_k0s"]}
{"id": "C80", "title": "The truncated decimals of the edge-based shear stiffness have a bounded effect", "statement": "The edge-based generated statements use decimals such as 0.166666666666667 in place of 1/6. What add_k0s adds differs from what it would add with the exact fractions by at most 1.1e-12 per edge, times the shear correction factor, the stiffness, the cube of the shape parameter of the mesh (h^2 over a third of the smallest area) and the sizes of the two fields, for every mesh and every pair of fields; so symmetry, freedom of force in w translations, positive energy and monotony in alpha hold up to that amount, and so do the reproduction of rigid rotations and constant shear on plates with y = z in the first nodes of the interior edges.", "quantifier": "all meshes of triangles, sizes h, shape parameters, laminates, alpha >= 0, both size measures, both property sources, all fields", "why_tests_cant": "A bound for all meshes and all fields on cancellations in about 400 generated expressions; a test samples a few meshes and sees the error mixed with floating-point rounding.", "anchors": ["meshless/espim/plate2d_add_k0s_edge_based.py:add_k0s"]}
{"id": "C81", "title": "Rounding errors of calc_k0 in double precision are bounded", "statement": "In IEEE double precision (round to nearest even, the precision numpy uses) calc_k0 returns on every plate of which calc_k0 would return in exact arithmetic and whose sizes are moderate, every entry of the returned matrix is finite (no overflow, inf or nan), and it differs from the entry of exact arithmetic for the same coordinates and stiffnesses by at most 2^20 c^2 kappa 2^-53 rho^3 s: s is the largest stiffness, rho the shape parameter of the triangles, kappa the largest coordinate over the mesh size h, c the number of edges whose domain has the nodes of the row and the column. So entries of unrelated nodes are exactly zero, the matrix is symmetric and free of forces under rigid motions up to that size, and its energies are the exact ones up to that size.", "quantifier": "all meshes of doubles with any number of triangles up to 2^32 edges, sizes between 2^-64 and 2^64, kappa rho^2 <= 2^33, both property sources, all laminates, all pairs of fields", "why_tests_cant": "A bound on the accumulated rounding of hundreds of operations for all coordinates and all meshes; a test compares a few numbers to a tolerance.", "anchors": ["meshless/espim/plate2d_calc_k0.py:calc_k0", "meshless/utils.py:area_of_polygon", "meshless/utils.py:getMid"]}
{"id": "C82", "title": "Printing with substitutions prints the substituted matrix", "statement": "With subs, mprint_as_dense and mprint_as_sparse print the statements of the matrix with the substitutions made, so executing them gives the values of the original matrix if the new symbols have the values of the old expressions; before them come, in comments and sorted by new symbol, exactly the substitutions whose new symbol occurs in the text. With an empty dictionary or None nothing changes. The sparse format violates it: the list starts with a bare line 'subs'.", "quantifier": "all matrices, dictionaries, substitution results of SymPy, headers, suffixes, dofpernode, both values of pow_by_mul, print_file and is_symmetric", "why_tests_cant": "A statement about the text for every matrix and dictionary, and about the meaning of the text when executed; tests compare one printed string.", "anchors": ["meshless/dev/sympytools.py:mprint_as_sparse", "meshless/dev/sympytools.py:mprint_as_dense"]}
{"id": "C83", "title": "Printing with collect_for prints statements that add the entry", "statement": "With collect_for the printed text is still a list of comments and statements whose execution adds every entry of the matrix. The code violates this: it prints a line that ends in '+=' and the collected terms, each after a comment, on lines of their own; all terms of all nonzero entries are there, in order.", "quantifier": "all matrices, results of SymPy's collect, headers, suffixes, dofpernode", "why_tests_cant": "Whether a text is a program is not visible by comparing it with a stored text.", "anchors": ["meshless/dev/sympytools.py:mprint_as_sparse", "meshless/dev/sympytools.py:mprint_as_dense"]}
{"id": "C84", "title": "Printing with common subexpressions declares and defines each symbol once, before use", "statement": "With use_cse, mprint_as_array declares every symbol of SymPy's cse exactly once, in order and at most nine in a line, then defines all of them in SymPy's order, and then prints the statements of the reduced matrix at the right places; the caller's matrix is not changed. The code violates the last part: the caller's matrix is replaced by the reduced one.", "quantifier": "all matrices, results of SymPy's cse with any number of symbols, headers, suffixes, operators, both values of pow_by_mul and print_file", "why_tests_cant": "The grouping in nines is only exercised by expressions with many common parts, at each length around a multiple of nine.", "anchors": ["meshless/dev/sympytools.py:mprint_as_array"]}
{"id": "C85", "title": "Edge midpoints and names", "statement": "Edge.getMid of every edge of a mesh returns the point half way between its two nodes, at half the length of the edge from both, and the centroid of each triangle on the edge lies two thirds of the way from the third vertex to it; str of two edges of a mesh is the same only if they are the same edge.", "quantifier": "all meshes made by the readers, whatever happened to them afterwards, all edges and triangles", "why_tests_cant": "getMid catches every exception and falls back to another formula; a test sees one edge and cannot see that no edge raises.", "anchors": ["meshless/espim/classes.py:Edge"]}
{"id": "C86", "title": "Rounding errors of add_k0s with the cell-based methods are bounded", "statement": "With the cell-based methods, add_k0s in double precision succeeds on every plate of moderate scales: added to any matrix, every entry stays finite and differs from exact arithmetic by at most the difference before plus 2^18 c^2 kappa 2^-53 rho^4 s h^q (2^12 c^2 kappa 2^-53 rho^2 s h^q without smoothing) and two roundings of the old entry per triangle, c being the number of triangles with both nodes, q the number of rotations among row and column, h the size of a triangle, rho its distortion, kappa h the largest coordinate, s the largest stiffness. Hence the energies of calc_k0 followed by add_k0s are the smoothed and the shear energy up to that bound.", "quantifier": "all valid plates of doubles within the scales, matrices, alpha, both values of prop_from_node and maxl_from_area, both cell-based methods, displacements", "why_tests_cant": "A test compares a few entries with a tolerance; whether the orientation test, the areas, the correction factor and the cancellations in the entries amplify rounding errors on some plate is a statement about all plates.", "anchors": ["meshless/espim/plate2d_add_k0s_cell_based.py:add_k0s", "meshless/espim/plate2d_add_k0s_cell_based_no_smoothing.py:add_k0s", "meshless/espim/plate2d_add_k0s.py:add_k0s"]}
{"id": "C87", "title": "Rounding errors of calc_kG are bounded", "statement": "calc_kG after calc_k0 in double precision succeeds on every plate and displacement vector of moderate scales: every entry is finite and differs from exact arithmetic on the same plate and displacements by at most 2^30 c^2 kappa 2^-53 rho^4 s w, c being the number of edges whose domain has both nodes, h the size of a triangle, rho its distortion, kappa h the largest coordinate, s the largest stiffness, w h the largest displacement; entries outside of the rows and columns of w are zero. Hence the matrix is symmetric up to twice that bound, its work is that of the membrane forces up to it, and a rigid motion prestresses nothing up to it.", "quantifier": "all valid plates of doubles within the scales, displacement vectors, both values of prop_from_node (also different ones in the two calls)", "why_tests_cant": "A test compares a few entries with a tolerance; whether the strains, the membrane forces and the sums over an edge's domain amplify rounding errors on some plate is a statement about all plates.", "anchors": ["meshless/espim/plate2d_calc_kG.py:calc_kG"]}
{"id": "C88", "title": "Rounding errors of the edge-based shear stiffness are bounded", "statement": "With the method edge-based, add_k0s in double precision succeeds on every plate of moderate scales: added to any matrix, every entry stays finite and differs from exact arithmetic by at most the difference before plus 2^19 c^2 kappa 2^-53 rho^6 s h^q and two roundings of the old entry per edge, c being the number of edges whose domain has both nodes, q the number of rotations among row and column, h the size of a triangle, rho its distortion, kappa h the largest coordinate, s the largest stiffness. On plates whose interior edges start at nodes with y = z the energies of calc_k0 followed by add_k0s are the smoothed energy and the energy of the discrete shear strains, up to that bound and the effect of the truncated decimals; on all plates the matrix is symmetric up to both.", "quantifier": "all valid plates of doubles within the scales, matrices, alpha, both values of prop_from_node and maxl_from_area, displacements", "why_tests_cant": "A test compares a few entries with a tolerance; whether the orientation test, the areas, the correction factor and the cancellations in the sums over an edge's four segments amplify rounding errors on some plate is a statement about all plates.", "anchors": ["meshless/espim/plate2d_add_k0s_edge_based.py:add_k0s", "meshless/espim/plate2d_add_k0s.py:add_k0s"]}
{"id": "C89", "title": "Rounding errors of the interpolation are bounded", "statement": "interpolate_lagrange_2D in double precision returns a finite number at every point, which differs from exact arithmetic on the same nodes, points and values by at most (4 (M + N) + M N + 3) 2^-53 times the sum of the absolute values of the terms of the interpolation (M and N nodes per direction). At the nodes the given values come back without any rounding error. A field that is a polynomial of the degree of the nodes up to errors of its nodal values is reproduced up to these errors, weighted with the Lagrange polynomials, and the rounding errors.", "quantifier": "all numbers of nodes, nodes and points of doubles with distances from d to 2^e d where e (M + N) <= 500, values that are zero or between 2^-400 and 2^400, any number of points", "why_tests_cant": "A test compares a few values with a tolerance. Whether the quotients of differences amplify rounding errors for some nodes and points, whether products overflow, and whether nodal values are exact for all node positions is a statement about all inputs.", "anchors": ["meshless/interpolate.py:interpolate_lagrange_2D"]}
{"id": "C90", "title": "Static problems with the matrix in double precision have one solution near the exact one", "statement": "With a cell-based method and supports that allow no rigid motion, the smallest stiffness mu of the exactly assembled plate is positive. If mu exceeds the largest sum eps of the rounding errors (C86) in a row, the static problem with the matrix assembled in double precision has exactly one solution for every load, and any displacements x that vanish in the supports differ from the exact solution d of the exact problem by at most (eps |d| + |r|) / (mu - eps), r being the residual of x in the problem in double precision.", "quantifier": "all valid plates of doubles within the scales with positive definite laminates whose triangles brace each other, all supports without rigid motions, all loads, all approximate solutions", "why_tests_cant": "A test solves one problem. Whether rounding in the assembly can make the matrix singular or move the solution far away is a statement about all plates, supports and loads.", "anchors": ["meshless/espim/plate2d_calc_k0.py:calc_k0", "meshless/espim/plate2d_add_k0s.py:add_k0s"]}
{"id": "C91", "title": "Critical load factors with the matrices in double precision", "statement": "If the exact buckling problem of calc_k0, add_k0s (cell-based methods) and calc_kG has a critical load factor a, then with the matrices assembled in double precision the energy form of k + b kG is positive on all supported displacements for the load factors b with eps + b epsG < (1 - b/a) mu and negative for the exact mode for those with eps + b epsG < (b/a - 1) mu, where eps and epsG are the largest sums of rounding errors in a row of k and kG and mu is the smallest stiffness; without a critical load factor it is positive for eps + b epsG < mu.", "quantifier": "all valid plates of doubles within the scales with positive definite laminates whose triangles brace each other, all displacement vectors for kG, all supports without rigid motions, all load factors", "why_tests_cant": "A test compares one load factor with a tolerance; whether rounding in the assembly can move the critical load factor by more than its share is a statement about all plates.", "anchors": ["meshless/espim/plate2d_calc_k0.py:calc_k0", "meshless/espim/plate2d_add_k0s.py:add_k0s", "meshless/espim/plate2d_calc_kG.py:calc_kG"]}
{"id": "C92", "title": "Rounding errors of area_of_polygon and unitvec are bounded", "statement": "area_of_polygon in double precision returns for every polygon of n != 1 vertices a finite number that is not negative and differs from the enclosed area by at most (n + 5) 2^-53 times half the sum of the absolute values of the products x (y' - y'') that are added. unitvec returns for every non-zero vector of n components a vector each component of which has the sign of the given one (zero for zero) and the relative error (n + 4) 2^-53 at most, and whose length differs from 1 by at most (n + 4) 2^-53.", "quantifier": "all polygons with coordinates and differences, and vectors with components, that are zero or neither extremely small nor extremely large; up to 2^25 vertices or components", "why_tests_cant": "no test; a test would compare single values with a tolerance", "anchors": ["meshless/utils.py:area_of_polygon", "meshless/utils.py:unitvec"]}
{"id": "C93", "title": "Supports, alpha and bending stiffness move deflections and buckling loads in the right direction", "statement": "With a cell-based method, positive definite laminates and supports that allow no rigid motion: adding supports does not increase the work of a load in its static solution, and if the plate with more supports buckles, the plate with fewer buckles at a critical load factor that is not larger. Increasing alpha does not decrease the work of a load in its solution and does not increase the critical load factor, and both plates have a critical load factor or neither has. Replacing laminates by others that are at least as stiff, with the same A, B and thickness, does not decrease the critical load factor for the same reference displacements, and again both have one or neither.", "quantifier": "all valid meshes, methods, property sets, alphas, support sets, loads and reference displacements", "why_tests_cant": "comparisons of solutions and of smallest eigenvalues over all meshes, supports and loads", "anchors": ["meshless/espim/plate2d_calc_k0.py:calc_k0", "meshless/espim/plate2d_add_k0s.py:add_k0s", "meshless/espim/plate2d_calc_kG.py:calc_kG"]}
{"id": "C94", "title": "Results do not depend on the units of length and force", "statement": "Measuring lengths in a unit smaller by the factor c and forces in one smaller by the factor f (coordinates and thickness times c, A and E times f/c, B times f, D times f c, displacements times c, rotations unchanged) turns the matrices of calc_k0, add_k0s (all three methods) and calc_kG into the same matrices in the new units. The static solutions for the converted loads are the converted solutions, the buckling modes the converted modes, and the critical load factors the same.", "quantifier": "all valid plates with positive thickness, all three methods, alpha >= 0, all c, f > 0, all displacements, loads and supports", "why_tests_cant": "A test converts one plate. A dimensionally wrong term (such as a length added to its square in the shear correction) may be invisible on the meshes tested.", "anchors": ["meshless/espim/plate2d_calc_k0.py:calc_k0", "meshless/espim/plate2d_add_k0s.py:add_k0s", "meshless/espim/plate2d_calc_kG.py:calc_kG"]}
{"id": "C95", "title": "Edge smoothing is stable", "statement": "If the stiffness of the laminates is at least lam and every triangle has at least the area kappa h^2 for its extent h, the energy form of the matrix of calc_k0 is at least (8/81) lam kappa^4 times the integral of the squares of the strains of the linear triangles, whatever the size and number of triangles. For one laminate it is at least lam kappa^4 / (365 c) times the energy of the linear triangles. So smoothing has no spurious modes, not even in the limit of fine meshes.", "quantifier": "all valid meshes, all displacements, both sources of laminates", "why_tests_cant": "a lower bound uniform in the mesh and for all displacements; a test evaluates a few modes on a few meshes", "anchors": ["meshless/espim/plate2d_calc_k0.py:calc_k0"]}
{"id": "C96", "title": "Strains of static solutions converge under mesh refinement", "statement": "For loads that belong to a smooth motion F respecting the supports (the work of stresses that are close to those of F), the strains of every solution of the static problem with the matrix of calc_k0 differ from those of F by a multiple of the mesh size h in the mean square, and so does the solution from F in the energy norm; for every tolerance one mesh size serves all meshes of bounded area with well-shaped triangles, all laminates within bounds, and all such motions, supports and loads. Every smooth motion has such loads.", "quantifier": "all plates of one laminate with lower and upper bounds of its stiffness, all meshes of triangles with area at least kappa h^2, all motions with bounded second derivatives, all supports", "why_tests_cant": "convergence is a statement on infinitely many meshes; tests compare a few of them", "anchors": ["meshless/espim/plate2d_calc_k0.py:calc_k0"]}
{"id": "C97", "title": "The stress stiffness of computed solutions converges under mesh refinement", "statement": "If the displacements given to calc_kG are the solution of the static problem with the matrix of calc_k0 and loads that belong to a smooth motion F, the stress stiffness in a smooth mode G differs from the work of the membrane forces of F on the slopes of G by a multiple of the mesh size; for every tolerance one mesh size serves all meshes, laminates, motions, supports and loads within the bounds.", "quantifier": "as in C96, and all smooth modes", "why_tests_cant": "convergence of a composition of two calculations over infinitely many meshes", "anchors": ["meshless/espim/plate2d_calc_k0.py:calc_k0", "meshless/espim/plate2d_calc_kG.py:calc_kG"]}
{"id": "C98", "title": "Deflections and critical load factors are bounded by the values of smooth motions", "statement": "With the cell-based methods and up to a tolerance that holds on all sufficiently fine meshes (and an explicit term for the rounded decimals in the code): the work of the loads on the computed solution is at least twice their work on any smooth motion that respects the supports minus the energy of the motion as a Mindlin plate (Ritz). The critical load factor is at most the Rayleigh quotient of any smooth motion that respects the supports, and exists if the membrane forces do negative work on one; this also when the membrane forces come from a computed solution.", "quantifier": "all plates within bounds of stiffness, thickness, area and shape of the triangles, all alpha >= 0, smooth motions, supports and loads", "why_tests_cant": "bounds for all motions, loads and meshes below some size", "anchors": ["meshless/espim/plate2d_calc_k0.py:calc_k0", "meshless/espim/plate2d_add_k0s.py:add_k0s", "meshless/espim/plate2d_calc_kG.py:calc_kG"]}
{"id": "C99", "title": "Entries of the matrices depend on the neighbourhood only", "statement": "The entries of the matrix of calc_k0 for two nodes (and of calc_kG, for displacements that agree there) depend only on the smoothing domains that contain both nodes, whatever else the plates contain and however their nodes are numbered. What the cell-based methods of add_k0s add for two nodes depends only on the triangles with both nodes. So a change of the mesh or of the laminates elsewhere leaves the entries as they are.", "quantifier": "all pairs of valid plates that agree around two nodes, all displacements, both sources of laminates, alpha >= 0", "why_tests_cant": "compares two arbitrary plates; a test fixes the part of the plate that is not shared", "anchors": ["meshless/espim/plate2d_calc_k0.py:calc_k0", "meshless/espim/plate2d_add_k0s.py:add_k0s", "meshless/espim/plate2d_calc_kG.py:calc_kG"]}
{"id": "C100", "title": "Thin plates do not lock with alpha > 0, they do with alpha = 0 (cell-based methods)", "statement": "When all thicknesses of a plate are multiplied by s <= 1 (A and E by s, B by s^2, D by s^3; transverse loads and moments by s^3, loads in the plane by s^2), with alpha > 0 the work of the loads, divided by s^3, stays between 1/(1+r) and 1 times what it was, with r from the thickness and the sizes of the triangles before and not from s: however thin the plate, it does not lock. The critical load factor, for membrane displacements reduced by s, becomes between s and s(1+r) times what it was. With alpha = 0 and supports that allow no bending without shear strains, the work of transverse loads and moments, divided by s^3, is at most a multiple of s^2: the plate locks.", "quantifier": "all valid plates with positive definite laminates and positive shear stiffness, both cell-based methods, 0 < s <= 1, all loads, supports and displacements", "why_tests_cant": "a statement for all thicknesses down to 0; tests try a few", "anchors": ["meshless/espim/plate2d_calc_k0.py:calc_k0", "meshless/espim/plate2d_add_k0s.py:add_k0s", "meshless/espim/plate2d_calc_kG.py:calc_kG"]}
{"id": "C101", "title": "Solutions with shear converge under mesh refinement (cell-based methods)", "statement": "The solution of a static problem with the matrix of calc_k0 and a cell-based method of add_k0s converges to a smooth motion of the plate whose loads it carries: the mean square errors of the strains, of the shear strains and of the energy are at most C (h + delta + e)^2 times the area, where h is the size of the triangles, delta how far the loads are from those of the motion and e at most 1e-15 (rounded decimals in the code). The loads may work on the shear strains as the methods see them (any supports), or on the true shear strains at the centroids, if Korn's inequality holds for the supported rotations; it does when the rotations are held along the boundary. Every motion has such loads.", "quantifier": "all plates of one laminate within bounds of stiffness and thickness, of triangles within bounds of shape, 0 < h <= 1 with 16 alpha h^2 <= thickness^2, all smooth motions, supports and loads", "why_tests_cant": "a bound for all meshes, motions and loads with one constant", "anchors": ["meshless/espim/plate2d_calc_k0.py:calc_k0", "meshless/espim/plate2d_add_k0s.py:add_k0s"]}
{"id": "C102", "title": "Displacements of plates held along their boundary converge", "statement": "For a plate with all degrees of freedom held along its boundary the displacements and rotations of the solution (matrix of calc_k0 with a cell-based method of add_k0s) converge in the mean square: the error is at most C (h + delta + e)^2 times the area, with C from the bounds of laminate, shapes, motion and width of the plate. So for every tolerance there is a mesh size below which every mesh meets it, up to the 1e-15 of the rounded decimals.", "quantifier": "all plates as in C101 in a strip of some width, all smooth motions with zero displacements along the boundary, all loads near those of the motion", "why_tests_cant": "a bound for all meshes, motions and loads with one constant", "anchors": ["meshless/espim/plate2d_calc_k0.py:calc_k0", "meshless/espim/plate2d_add_k0s.py:add_k0s"]}
{"id": "C103", "title": "The stiffness matrix is well conditioned for the size of the mesh", "statement": "For a plate with all degrees of freedom held along its boundary, the matrix of calc_k0 with a cell-based method of add_k0s resists every displacement with a stiffness of at least C h^2, and no displacement (whatever the supports) with more than C' N if no node has more than N triangles; so the condition number of the free part is at most C'' N / h^2. Every load has exactly one solution, and errors in the loads change it by at most their length over C h^2. The constants depend only on the bounds of the laminate, the shape of the triangles, alpha and the width of the plate.", "quantifier": "all plates of one laminate within the bounds, all whose nodes belong to triangles, 0 < h <= 1 with 16 alpha h^2 <= thickness^2, all loads and displacements", "why_tests_cant": "constants that hold for all meshes", "anchors": ["meshless/espim/plate2d_calc_k0.py:calc_k0", "meshless/espim/plate2d_add_k0s.py:add_k0s"]}
{"id": "C104", "title": "Plates held along their boundary do not buckle below a load that does not depend on the mesh", "statement": "If no membrane force of the displacements given to calc_kG is larger than f, the work of the stress stiffness matrix is at most f/C times the energy of the stiffness matrix (calc_k0 with a cell-based method of add_k0s), for every displacement of a plate held along its boundary. So every load factor a of a buckling mode has |a| f >= C, the critical load factor is at least C/f and for |a| f < C the matrix k0 + a kG is positive definite. C depends only on the bounds of the laminate, the shape of the triangles, alpha and the width of the plate, not on the mesh.", "quantifier": "all plates of one laminate within the bounds, 0 < h <= 1 with 16 alpha h^2 <= thickness^2, all displacements, all load factors and modes", "why_tests_cant": "a lower bound for all meshes and modes", "anchors": ["meshless/espim/plate2d_calc_k0.py:calc_k0", "meshless/espim/plate2d_add_k0s.py:add_k0s", "meshless/espim/plate2d_calc_kG.py:calc_kG"]}
{"id": "C105", "title": "Displacements computed with matrices in double precision", "statement": "For a plate held along its boundary, whose stiffness matrix is computed in double precision by calc_k0 and a cell-based method of add_k0s, every vector x of displacements that respects the supports is near the motion to which the loads belong: its mean square error is at most C (h + delta + e)^2 times the area plus C1 N ((length of the residual of x + eps length of x)/h)^2, where eps bounds the row sums of the rounding errors of the matrix, N the triangles of a node, h their size, delta the distance of the loads from those of the motion and e <= 1e-15. The matrix resists every supported displacement with at least C' h^2 - eps, so that every load has exactly one solution if eps < C' h^2. The constants do not depend on the mesh.", "quantifier": "all meshes of doubles within the bounds of C102 and of the rounding errors (C86), all smooth motions, loads, supports and all vectors x, however they were computed", "why_tests_cant": "a bound for all meshes, motions and approximate solutions with one constant", "anchors": ["meshless/espim/plate2d_calc_k0.py:calc_k0", "meshless/espim/plate2d_add_k0s.py:add_k0s"]}
{"id": "C106", "title": "In-plane displacements and rotations of plates without shear stiffness converge", "statement": "If the supports hold the two in-plane displacements along the boundary of the plate, those displacements of the solution with the matrix of calc_k0 alone converge in the mean square to those of the smooth motion to which the loads belong: the error is at most (4 (1 + 4 X^2) (36 c L eta)^2 + 4 (2 (s + M) h)^2) times the area, with eta = delta + 204 M h / kappa and L = 2592 / (lam kappa^4). The same bound holds for the two rotations if the supports hold these along the boundary.", "quantifier": "all plates of one laminate within bounds c and lam, of triangles of size h <= 1 and shape kappa, in a strip of half width X; all smooth motions, supports and loads", "why_tests_cant": "a bound for all meshes, motions and loads with explicit constants", "anchors": ["meshless/espim/plate2d_calc_k0.py:calc_k0"]}
{"id": "C107", "title": "No buckling below a load that does not depend on the mesh, with matrices in double precision", "statement": "For a plate held along its boundary and the matrices computed in double precision by calc_k0, a cell-based method of add_k0s and calc_kG: if no membrane force of the given displacements is larger than f, then k0 + a kG is positive definite and has no buckling mode for every load factor a with |a| f < C1 and eps + |a| epsG < (1 - |a| f / C1) C2 h^2, where eps and epsG bound the row sums of the rounding errors of the two matrices. C1 and C2 depend only on the bounds of the laminate, the shape of the triangles, alpha and the width of the plate.", "quantifier": "all meshes of doubles within the bounds of C104 and of the rounding errors, all given displacements, load factors and modes", "why_tests_cant": "a lower bound for all meshes, load factors and modes", "anchors": ["meshless/espim/plate2d_calc_k0.py:calc_k0", "meshless/espim/plate2d_add_k0s.py:add_k0s", "meshless/espim/plate2d_calc_kG.py:calc_kG"]}
{"id": "C108", "title": "Stress stiffness and critical load factors from static solutions with shear converge", "statement": "If the displacements given to calc_kG are the solution of the static problem with the matrix of calc_k0 and a cell-based method of add_k0s, for loads that belong to a smooth motion F, the stress stiffness in a smooth mode G differs from the work of the membrane forces of F on the slopes of G by at most C (h + delta + e) times the area (h size of the triangles, delta distance of the loads from those of F, e <= 1e-15 for rounded decimals). The critical load factor of the buckling problem with these matrices is at most the Rayleigh quotient of every smooth motion G that respects the supports, up to these errors and a tolerance that holds on all fine meshes; it exists if the work on G is negative enough.", "quantifier": "all plates of one laminate within the bounds, all smooth motions F and G, static and buckling supports, loads and solutions", "why_tests_cant": "a bound for all meshes, motions and loads with one constant", "anchors": ["meshless/espim/plate2d_calc_k0.py:calc_k0", "meshless/espim/plate2d_add_k0s.py:add_k0s", "meshless/espim/plate2d_calc_kG.py:calc_kG"]}
{"id": "C109", "title": "The work of the loads on computed displacements converges", "statement": "With the matrix of calc_k0 and a cell-based method of add_k0s and loads that belong to a smooth motion F respecting the supports, the work of the loads on the computed displacements (for a single unit force: the deflection under it) differs from the energy E of F as a Mindlin plate by at most (h + delta + e) (E + C area), where h is the size of the triangles, delta how far the loads are from those of F, e <= 1e-15 (rounded decimals in the code) and C depends on the bounds of laminate, shapes and motion only.", "quantifier": "all plates of one laminate within the bounds, all smooth motions, supports and loads; loads on the shear strains of the methods, or on the true ones if Korn's inequality holds for the supported rotations", "why_tests_cant": "a bound for all meshes, motions and loads with one constant", "anchors": ["meshless/espim/plate2d_calc_k0.py:calc_k0", "meshless/espim/plate2d_add_k0s.py:add_k0s"]}
