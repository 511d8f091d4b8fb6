# Formal model of TDycore in Rocq

## Approach
Each part of the C code in /repo that carries a property is transcribed, function by
function, to small total Gallina functions under `rocq/theories/`; every definition cites
the file and lines it models. Properties are stated in `Prop_*.v` files against small
specifications that do not mention the model's helpers; each is closed by `exact lemma`
and followed by `Print Assumptions` and by an `Example` showing a concrete case that
meets the hypotheses. Where the code violates a property, a `*_refuted` theorem gives a
witness and a `*_partial` theorem states what does hold.

## General modelling decisions
* `PetscReal` is modelled by Coq's real numbers `R`: rounding, overflow and signed zeros
  are not modelled. Operations that would give a NaN or an infinity in C (division by
  zero, powers of negative numbers, logarithms...) are partial in the model (`None`), so no
  theorem rests on Coq's totalised `/` or `Rpower`.
* `PetscInt` is modelled by `Z` or `nat`; overflow is not modelled.
* A pointer out-parameter becomes a returned value; where a function may leave an
  out-parameter unwritten, the prior memory content is an explicit argument.
* Out-of-range array accesses are a distinct outcome (`UB`).
* PETSc, MPI and LAPACK calls are modelled by their documented specification, named in
  the comments and listed in the trusted base.

## Plan per property
* **C01 Saturation stays between residual and full, and is monotone**. Model: CharCurves.v: Gardner/van Genuchten functions over R with partial pow/div (None = not finite). Proof: bounds and monotonicity by exp/Rpower lemmas.
* **C02 Reported saturation derivatives are the derivatives of the reported saturation**. Model: same. Proof: Coquelicot is_derive on a neighbourhood; Gardner's kink at Pc=0 from the right.
* **C03 Relative permeability is a normalised monotone function with the right derivative**. Model: CharCurves.v: Irmay and unsmoothed Mualem. Proof: Rpower bounds, monotonicity and is_derive.
* **C04 Mualem smoothing joins smoothly**. Model: CharCurves.v: the 4x4 matrix handed to dgesv, the Horner evaluation; dgesv enters as its specification A*x=b. Proof: from the four equations to value/slope at both ends.
* **C05 Each point gets the curve that was last assigned to it, and nothing else is touched**. Model: CharCurveSet.v: per-type point lists, parameters, hash point maps (bucket growth included), whole-mesh and on-points loops over arrays with bounds. Proof: induction over the loops and over call histories; the index slip in the whole-mesh relative permeability loop is refuted by a witness.
* **C06 Water density is positive, monotone and has the reported derivatives**. Model: Eos.v: all selectors, outputs as optional writes into the caller's memory. Proof: case analysis, is_derive; refutation for outputs never written.
* **C07 Salinity mass fraction is a fraction**. Model: Eos.v. Proof: algebra over R.
* **C08 3x3 inverse is the inverse**. Model: Geom.v: determinant, inverse with the clean-up of small entries. Proof: field; refutation for small entries.
* **C09 Plane, projection and normal computations satisfy their geometry**. Model: Geom.v: all vector routines. Proof: ring/field/nsatz/nra.
* **C10 Polar angle is the polar angle**. Model: Geom.v: ComputeTheta with atan branches. Proof: trigonometric lemmas.
* **C11 Index lookup finds the element or reports failure**. Model: Lookup.v. Proof: list induction.
* **C12 Running to a time ends exactly at that time or reports an error**. Model: TimeInt.v: the SNES branch as a step machine fed by a list/stream of solver outcomes. Proof: invariant over steps.
* **C13 No simulated time is skipped**. Model: same, with the list of accepted steps as history variable. Proof: invariant; refutation by a 2-outcome schedule.
* **C14 Step sizes stay positive and below the maximum**. Model: same. Proof: invariant.
* **C15 The run loop terminates and gives up after a bounded number of failures**. Model: same. Proof: measure on failures and remaining time.
* **C16 Every checkpoint and output interval is honoured**. Model: same, with the list of output/checkpoint events. Proof: invariant; refutation where a failed attempt repeats output.
* **C17 Calls out of order are refused without side effects**. Model: Lifecycle.v: setup flags, mode, discretization, method table as a state machine returning an error code. Proof: induction over call histories.
* **C18 Only supported mode/discretization pairs are ever active**. Model: Lifecycle.v. Proof: invariant over histories.
* **C19 Shutdown functions run exactly once, in reverse order of registration**. Model: Registry.v: shutdown array with capacity doubling; globals survive finalize. Proof: refinement to a stack; refutation over two cycles.
* **C20 Named function registry behaves like a map**. Model: Registry.v. Proof: refinement to a finite map.
* **C21 Every user context is released exactly once**. Model: Slots.v: eight slots with context/destructor, heap of destroyed contexts. Proof: multiset invariant over histories; refutation for the two kinds never released.
* **C22 Conditions and properties evaluate to what was last set**. Model: Slots.v. Proof: refinement to last-write map.
* **C23 Tensor-valued properties fill the whole matrix**. Model: Tensor.v: wrapper loops over an output array. Proof: index arithmetic; refutation for off-diagonals on a dirty buffer.
* **C24 Each command-line option sets its own parameter**. Model: Options.v: table option name -> field, as read by ReadCommandLineOptions. Proof: case analysis over the table; refutation for the thermal conductivity option.
* **C25 Regression output samples distinct existing cells on every process**. Model: Regression.v. Proof: integer arithmetic; refutation for TH with many cells requested.
* **C26 Mesh redistribution loses nothing**. Model: UGrid.v: record packing and reading. Proof: list induction.
* **C27 Local and ghost numbering is a bijection**. Model: UGrid.v: ghost detection, sort with permutation, unique, rank, inverse permutation. Proof: invariants over the array loops.
* **C28 Vertex renumbering is a bijection that preserves connectivity**. Model: UGrid.v: vertex sort/unique/rank. Proof: same.
* **C29 Matrix preallocation is exact**. Model: UGrid.v: neighbour sign encoding and nnz loops. Proof: induction; refutation where cell 0 is a neighbour.
* **C30 Natural, global and local orderings are mutually inverse**. Model: Scatter.v: index sets and forward/reverse scatter over lists. Proof: permutation lemmas.
* **C31 Two-point flux scheme conserves mass**. Model: Fvtpf.v: face loop over arbitrary connectivity. Proof: sum over cells exchanged with sum over faces.
* **C32 Two-point flux Jacobian is the derivative of the residual**. Model: Fvtpf.v: residual and Jacobian of a face as functions of the two states. Proof: chain rule with is_derive; refutation for the boundary variants.
* **C33 Effective face permeability is a mean**. Model: Fvtpf.v. Proof: nra/field.
* **C34 No flow in equilibrium, and flow goes down the potential**. Model: Fvtpf.v. Proof: sign analysis.
* **C35 The residual is a function of the state**. Model: Fvtpf.v: out-parameter with prior memory content. Proof: refutation for dry faces, proof for all others.
* **C36 Boundary faces use their own boundary values**. Model: Fvtpf.v: index map of boundary faces. Proof: refutation with a face index, proof for the seepage routine.
* **C37 Seepage faces never let water in**. Model: Fvtpf.v, Mpfao.v. Proof: sign analysis.
* **C38 A failed step leaves no trace**. Model: Fvtpf.v + TimeInt.v. Proof: state equality after any number of cuts.
* **C39 Uniform pressure causes no multi-point flux**. Model: Mpfao.v: C/F matrices, block extraction, local solve as a specification, transmissibility rows. Proof: linear algebra over finite sums.
* **C40 Multi-point fluxes are continuous and vanish on Neumann faces**. Model: Mpfao.v. Proof: same.
* **C41 Multi-point flux residual conserves mass**. Model: Mpfao.v: vertex/face loop. Proof: sum exchange.
* **C42 Multi-point Jacobian is the derivative of the flux**. Model: Mpfao.v. Proof: is_derive.
* **C43 All time formulations solve the same mass balance**. Model: Mpfao.v + Fvtpf.v: accumulation terms of each formulation. Proof: algebra; refutation for the doubled volume.
* **C44 Reported liquid mass is the stored mass**. Model: Diagnostics in Fvtpf.v/Mpfao.v. Proof: refutation; proof of the relation that does hold.
* **C45 Dissolved salt moves with the water**. Model: Salinity.v. Proof: refutation; what does hold.
* **C46 Cells can be grouped into regions**. Model: Region.v. Proof: refutation of add; same-region on valid ids.
* **C47 Splitting interleaved fields is exact**. Model: Fields.v: stride gather and interleaved loops. Proof: index arithmetic.
* **C48 Symmetry check is exact up to its tolerance**. Model: Fields.v: dense matrix check. Proof: list induction.
* **C49 Multi-dimensional work arrays are consistent**. Model: Memory.v: nested allocation. Proof: address arithmetic.
* **C50 A named timer is created once and shared**. Model: Registry.v: timer and stage tables. Proof: refinement to a finite map with distinct handles.
* **C51 Temperature- and salt-dependent water properties follow their correlation**. Model: Eos.v. Proof: exp/Rpower monotonicity; refutations against the published formulas stated in SpecEos.v.
* **C52 The configured reduction factor is what a failed step is cut by**. TimeInt.v carries the configured factor in its config record; compare with the size law of C14.
* **C53 A simulator can be destroyed at any point of its life**. Life-cycle model: the destructor is called whenever its pointer is set; theorem for programs that leave mode and discretization alone after reading the options, refutation in the window between choosing and reading.
* **C54 The timing profile describes the simulator that was set up**. Registry model with a metadata table; theorem for one setup, refutation for repeated setups.
* **C55 Faces between different connected regions are closed and no others**. Region.v models the loop over faces and sub-faces; C55_faces_between_regions_closed states the exact new contents of every row.
* **C56 Disconnected regions exchange no water**. Region.v clears the matrix rows, MpfaoTs.v uses them in the flux. Proof: zero potential difference without gravity term; refutation with a gravity term, which is not cleared.
* **C57 Water flow obeys Darcy's law with gravity in every mode**. Model: Transport.v, against is_flux of SpecMpfaoTs.v. Proof: the cases where the copies agree with the law; refutations for upwinding, seepage and gravity.
* **C58 Energy is conserved when water and heat flow together**. Model: Transport.v. Proof: loop invariants over vertices and cells; the ghost-cell read as undefined behaviour.
* **C59 The state of a cell is a function of the solution in that cell**. Model: State.v. Proof: curve containers of C05, loop invariants over cells; the default curves satisfy the hypotheses.
* **C60 The stored derivatives are derivatives of the stored state**. Model: State.v. Proof: C02, C04 and C06 composed by the chain rule; histories of updates for the refutation.
* **C61 The state before a time step is computed from the previous solution on every process**. Model: State.v. Out-of-range reads are undefined behaviour; refuted for every process with ghost cells.
* **C62 The energy of water follows pressure and temperature**. Model: State.v. Invariant over sequences of updates: the derivatives of the internal energy stay 0.
* **C63 Every boundary face gets the prescribed value and the curves of its cell**. Model: Boundary.v. Proof: loop over faces as a fold over boundary faces, distinct numbers, on-point evaluation of C05; undefined behaviour of the lookup for mixed curves.
* **C64 Water entering through the boundary has the properties prescribed there**. Model: Boundary.v. Invariant over sequences of evaluations: the water never changes after allocation; refuted for every variable density.
* **C65 Basis functions of the mixed finite elements carry water through one face only**. Model: Hdiv.v (the polynomials, the Piola transform, the quadrature). Spec: SpecHdiv.v. Theorems: C65_quadrilateral, C65_hexahedron, C65_quadrature.
* **C66 Linear pressure gives exact Darcy velocities in the Wheeler-Yotov method**. Model: Wy.v. Spec: SpecWy.v (good_star, parallelepiped, darcy, linear). Theorem: C66_patch_test; the local matrix is shown positive definite, so that the solution is unique.
* **C67 The Wheeler-Yotov stencil is symmetric, conservative and consistent with the velocities**. Model: Wy.v (vertex_system, FormStencil, velocity_system). Theorems: C67_symmetric, C67_flow, C67_uniform, C67_conserves.
* **C68 The transient Wheeler-Yotov residual is the mass balance of each cell**. Model: Wy.v (residual). Theorems: C68_conservation, C68_outflow, C68_unit_cells_partial, C68_volume_refuted (the storage term is not multiplied by the cell volume).
* **C69 The Wheeler-Yotov method uses the prescribed material of every cell**. Model: WyState.v over State.v. Theorems: C69_state_partial (residual saturation zero), C69_residual_saturation_refuted.
* **C70 Compressing the mesh tables keeps every row**. `Mesh.v` models the conversion as the code does it, in place; loop invariant: the first part of the array is the concatenation of the rows done, the rows still to come are where they were. On a process without elements the first access is outside the array (refuted).
* **C71 The connectivity tables contain exactly the incidences of the mesh**. Invariant over the points visited so far: the row of a vertex is the list of places where it occurred. The access functions are applied to the compressed tables. The cells of an edge are only recorded up to two (refuted).
* **C72 The tables of the faces contain exactly the incidences of the mesh**. Same invariant for the loop over the faces. The number of cells of a face is refuted: the offset behind the last face is never set, and boundary faces are said to have two cells.
* **C73 The sub-cells of the multi-point scheme have the right geometry**. Model of SetupSubcell over the mesh arrays (points as triples of reals). Cramer's rule gives the dual basis; the sign follows from the orientation step if the plane through the three face centres separates vertex and cell centre, which is proved for parallelepipeds and prisms and refuted for a cube with a pushed-in corner. The array index is treated by a loop invariant.
* **C74 Multi-point fluxes are exact for linear pressures**. Combination of C40 (the fluxes are continuous for some interface pressures) with C73 (each side is exact): the difference of two sets of interface pressures that satisfy the scheme's demands is in the kernel of A, hence zero.
* **C75 The two-point variant of the G matrices gives two-point fluxes**. Formula for the diagonal entry; opposite on both sides for all tensors; exact for isotropic homogeneous permeability. Refuted: arithmetic instead of harmonic mean; the heat entry multiplies the normal with kappa(1,1,1) and has the wrong sign on faces whose normal points along a negative axis; the salt entry stays zero.
* **C76 The faces around a vertex are numbered consistently**. Model both functions on one vertex with its surroundings (`corner`). Spec: `conforming` surroundings, a `round` of two levels, `connected` (one connection per face), and the `well_numbered`/`two_sided` conditions assumed by C36-C39 and C74, which are thereby proved of what the mesh setup produces. Refutations: a face missed by the traversal corrupts the list of faces while success is reported; undetermined levels lead to a write before the array.
* **C77 The cells around a vertex are put in order**. Model Traversal.v; SpecTraversal describes a layered neighbourhood (each cell has two upright faces and one other, columns continue); prove that the greedy chain finds a path or ring in any listing, and that the rows satisfy the hypothesis of C76. Refute it for tilted columns (side faces are not recognised) and for uneven levels (out-of-bounds read).
* **C78 The cells above and below every vertex are found**. Model Levels.v with the tables cellsAbove and cellsBelow as state; prove by induction over the visits that rows are unset or right and stay so, and that all rows of visited vertices get right. Refute the bounds for meshes with one layer (a row has no room for all cells of the vertex and their number) and the refusal of unsupported meshes (the error is not looked at).
* **C79 The unknowns of the finite elements belong to the right faces and vertices**. FeMap.v models the counting of vertices with closures, the maps cell-vertex, cell-vertex-direction-face and face-vertex, and the numbering of the BDM unknowns; `boxes` in SpecFeMap.v says what a mesh of images of the cube is, without fixing any order. Proved: the maps of every such mesh; equal numbers exactly for equal face and vertex; the hypotheses of the Wheeler-Yotov theorems about elements. Refuted: refusal of mixed meshes (the error code becomes a count) and detection of corners that miss their vertex by rounding.
* **C80 The BDM system is the weak form of Darcy's law**. Model `Bdm.v` (loops over quadrature points, vertices and directions; assembly by global numbers). Spec `SpecBdm.v`: fields, integrals, bilinear and linear form, independent of the loops. Proof: the loops build sums (`BdmLocalProofs.v`), assembly adds cell contributions (`BdmGlobalProofs.v`).
* **C81 BDM solutions conserve mass in every cell**. Test function q of one cell in the weak form; regrouping of the local unknowns by faces with the maps of C79; the traces of the basis functions from C65.
* **C82 The BDM system has exactly one solution**. A kernel vector has zero energy, so zero velocity at all quadrature points; these determine the velocity (unisolvence of the basis for both quadratures); then the pressure is the same on both sides of every face and zero at the boundary. Square systems with trivial kernel are solvable (own elimination argument).
* **C83 The BDM method reproduces linear pressures**. First moments of the basis functions under both quadratures; each cell's form becomes a sum over its faces of pressures between centroid and vertices; inner faces cancel; boundary faces agree with the boundary term for the full quadrature only.
* **C84 The transmissibilities are stored where they are used**. Model the whole setup (`Transmit.v`) as a run over the vertices that fills both the array and the matrix; an invariant over that run says what each row and column holds; join it with C40 and C42.
* **C85 The steady multi-point flux system is a balance**. Model the three loops of `tdympfao_steady.c` (`Steady.v`) on top of the stored array of C84, and show that each row of K P - F is the balance of the matrix fluxes.
* **C86 Recovered face velocities of the multi-point flux scheme**. Model the three loops over vertices with the arrays of the setup, show that each adds minus Trans times the heads, divided by the area, and use the link between Trans and the matrix from C84.
* **C87 The Jacobian of the coupled water and heat mode**. Model the Jacobian entry by entry; derive the residual model of Transport.v with Coquelicot.
* **C88 Ownership flags and the numbers of boundary faces**. Loop invariants over the arrays; the numbers are the ranks of the faces among the boundary faces; the order is a stable partition proved row by row.
* **C89 Orientation of faces**. Triple products: the four triangles of a convex quadrilateral and its centre have the same normal; case analysis on the side of the first cell.
* **C90 Distances and projected areas of faces**. The plane equation is a positive multiple of the height above the face; similar triangles; the stores are array writes with explicit bounds.
* **C91 Volumes and centres of cells read from a mesh file**. Convexity makes all tetrahedra of the decomposition positively oriented; the volume identity is then polynomial. Loop invariants for the arrays.
* **C92 Faces of a mesh read from a file**. `MeshFaces.v` follows the five functions with their tables and searches; `SpecMeshFaces.v` says what a conforming mesh is and when two cells have a common side. The proofs carry one invariant through the removal of duplicates (which side has which number, and the two cells of a face) and use ranks for the renumbering. The freed table is an explicit outcome; a flag gives the variant in which the new table is handed back.
* **C93 Cells around a vertex of a mesh read from a file**. `VertexCells.v` is the double loop with the test as it is written; `SpecVertexCells.v` lists the cells of a vertex. The proof shows that every step either keeps the invariant (the column of a vertex holds the cells met so far) or writes outside the table because of a vertex with too many cells.
* **C94 Areas and distances of faces of a mesh read from a file**. `FaceAttr.v` follows the two functions; `SpecFaceAttr.v` defines the vector area of a polygon, a solid mesh and what describes a face. The theorem runs the models of C91 and C92 first, so that it speaks about the mesh in the file.
* **C95 Natural and region numbers of cells after distribution**. Model the natural vector, its scatter to the distributed order and the local ghosted vector on any number of processes; compare with the original places of the cells.
* **C96 Gravity term of the multi-point scheme**. Model the functions as in the source, with every access checked. State "at rest" as the hydrostatic pressure in the cells and on the boundary, and combine with the exactness of the multi-point fluxes for linear pressures (C76, C77).
* **C97 Closures of mesh points and the sizes of the mesh tables**. induction over the loops with an invariant about the table
* **C98 Test problems with known solution in the demonstrations**. Point-wise derivatives with Coquelicot's is_derive, array loops over points with an invariant.
* **C99 Output files hold the fields of the right cells and describe themselves correctly**. Model vectors, the order conversion, the XML token list and the dataset map; induct over the sequence of calls.
* **C100 The driver starts every supported run with matching equations, state and materials**. The switches over mode, discretization and method as functions to names of call-backs; states as lists of reals; materials as a map from properties to sources; case analysis and loop invariants.
* **C101 Materials read from a file reach the right cells**. Reading as composition of the scatters of C30 with copying loops; evaluation functions of C23.
* **C102 The regression file reports the fields**. Lines of the file as data; splitting loops with invariants; cells as pairs interleaved into the vector; sampled numbers from C25.
* **C103 Functions handed over from Fortran are the ones used**. The registry is a list of 32 slots and one shared counter; invariant over histories of calls that slots and choices agree; witnesses for mixed histories.
* **C104 The assembled Wheeler-Yotov system balances the water in every cell**. Model the loop over vertices that adds the stencils to the matrix with its tolerance test, and the storing of recovered velocities; prove that the row of an owned cell equals the divergence of the stored velocities by summing the vertex identities of C76 over the corners of the cell.
* **C105 Destroying a simulator gives its memory back**. Heap of live blocks, pointers with rows; the allocating and freeing statements as a small language with symbolic extents; a checker of ownership proved sound for all sizes and run on the statement lists for every mode and material combination.
* **C106 A passing regression test means that the results agree**. Characters of lines, regular expression, dictionaries and the comparison as in the script; float() and int() are parameters. The verdict is shown equivalent to agreement of blocks, then of the fields of two runs by way of C102.
* **C107 The printed velocity error measures the error of the velocities**. The loops of C86 with the accumulated error and count; refinement to the model of C86, and the sums expressed by the fluxes of the stored matrix.
* **C108 Reading a mesh file keeps every cell and vertex**. Model the reading loops with their running counter, the matrix in compressed rows and the graph of cells sharing three vertices; invariants of the loops; concatenating the parts of all processes gives the file back. Refuted: the number of vertices is three times the right one, and vertex 1 is not counted when the number of columns is determined, so neighbours are missed.
* **C109 Areas and centres of the faces of a mesh read from a file**. Model the loop over cells and sides with its accumulation and its test whether a face was treated before; the invariant says which faces are treated. The sum of triangles is the area of a flat convex polygon (SpecFaceGeo). Refuted: faces of ghost cells only stay untreated, the mean of the corners of a trapezium is not its centroid, and the area of a warped face depends on the first corner.
* **C110 Access to the arrays of the sub-cells**. Counts and offsets as allocated, the eleven compressions in order with the shared offsets, the eleven functions with the offsets they use; rows are shown to be handed back from the offsets being multiples of the row length, and the two wrong functions are described exactly.
* **C111 Room for cells and boundary faces in the matrix of transmissibilities**. The counts, the number of columns, the columns of cells and boundary faces and the stores, on the flags and numbers of C88; the columns fit exactly when the ghost cells are not more than the faces without an owned cell, shown by counting; a double count of faces gives a sufficient condition, a block with an enclosed ghost cell a failure.
* **C112 Boundary faces given to callers**. The label as it is built (marking, completion) and the two functions with the references to the index set; the points of the label are shown to be the closures of the boundary faces, so the points given include edges and vertices.

## Trusted base
* The kernel of Coq 8.16.1 (and `coqchk`). No native or virtual-machine checks are switched off; no own axioms, no admitted proofs.
* The axioms reported by `Print Assumptions` (each `Prop_*.v` prints them; `tools/axioms.json` has the list for every theorem). They all come from the standard library of real numbers:
  * no axioms ("Closed under the global context"): 179 theorems: C11_found, C11_not_found_partial, C11_not_found_refuted, C17_refused, C17_errors_change_nothing_partial, C17_errors_change_nothing_refuted, C17_frozen_after_setup_refuted, C17_options_first_refuted, C17_no_crash_partial, C18_unsupported_refused, C18_supported_accepted, C18_operations_match_partial, C18_operations_match_refuted, C18_number_of_fields_refuted, C19_reverse_order_partial, C19_reverse_order_timing_partial, C19_never_overflows, C19_every_cycle_refuted, C20_lookup, C20_after_finalize_refuted, C21_destroyed_exactly_once, C21_replaced_are_destroyed, C21_nothing_else_destroyed, C21_own_contexts_never_twice, C21_forgotten_kinds, C21_every_kind_destroyed_refuted, C21_same_context_set_again_refuted, C22_last_function_and_context, C22_last_constant, C22_last_spatial_function, C22_absent_when_never_set, C22_reported_present, C22_kinds_independent, C23_off_diagonal_entries_kept, C24_option_sets_its_quantity_partial, C24_option_changes_nothing_else_partial, C24_thermal_conductivity_sets_porosity, C24_driver_uses_option_for_unset_property, C24_driver_keeps_set_property, C24_boundary_values_installed, C25_samples_distinct_and_in_range, C25_samples_belong_to_their_process, C25_TH_few_cells_refuted, C25_salinity_cells_refuted, C25_empty_process_refuted, C26_pack, C26_redistribution, C26_max_neighbours, C26_max_vertices_partial, C26_max_vertices_refuted, C27_to_local, C27_injective, C27_owned_once, C28_vertices, C28_empty_refuted, C29_preallocation, C30_natural_position, C30_round_trip, C30_local, C30_local_round_trip, C30_restart, C30_mesh_numbers_partial, C30_mesh_numbers_refuted, C44_refused, C46_same_region_test_exact, C46_last_addition_wins, C46_additions_accumulate_refuted, C46_cell_beyond_region, C46_invalid_cell_is_error_refuted, C47_prognostic_refused, C49_integer_array, C49_integer_array_freed, C50_timers, C50_stages, C53_destroy_partial, C53_destroy_refuted, C54_footer_partial, C54_footer_refuted, C70_compressed, C70_shared_offsets, C70_no_elements_refuted, C71_cells, C71_vertices, C71_faces, C71_room, C71_edges_refuted, C72_face_vertices, C72_cell_count_partial, C72_cell_count_refuted, C76_connected, C76_numbered, C76_vertex, C76_missed_face_refuted, C76_no_levels_refuted, C77_circular, C77_circular_found, C88_cells, C88_vertices, C88_faces, C88_not_skipped, C88_order, C92_faces_partial, C92_memory_refuted, C92_tables, C93_map_partial, C93_too_many_refuted, C95_one_field_partial, C95_one_process_refuted, C95_collision_refuted, C95_regions_partial, C95_regions_refuted, C96_subface, C97_saved_partial, C97_growth_refuted, C97_number, C97_sizes, C97_most, C97_mixed_refuted, C97_unsupported_refuted, C99_getters, C99_getters_refuted, C99_pressure, C99_saturation_partial, C99_saturation_refuted, C99_exodus_refuted, C99_ascii_refuted, C99_format, C99_fields_refuted, C99_document_partial, C99_references, C99_processes_refuted, C99_other_format_refuted, C99_kept, C99_header_partial, C99_shapes_refuted, C99_header_refuted, C100_residual_refuted, C102_name, C103_functions_partial, C103_functions_refuted, C103_many_refuted, C103_names_partial, C103_short_names_refuted, C103_two_names_refuted, C103_name_again_refuted, C103_points_partial, C103_mesh_partial, C103_c_constructors, C103_mesh_refuted, C105_left_partial, C105_fields, C105_many, C105_all_released_refuted, C105_before_setup_refuted, C105_dae_refuted, C105_fvtpf, C105_fvtpf_before_setup, C108_cells, C108_unsupported, C108_vertices, C108_vertex_count_refuted, C108_adjacency, C108_neighbours_partial, C108_neighbours_refuted, C110_own_entries, C110_kept, C110_centroids_refuted, C110_corners_refuted, C110_no_cells_refuted, C111_counts, C111_room_partial, C111_one_process, C111_two_faces, C111_room_refuted, C111_enclosed_refuted, C112_given_partial, C112_only_faces_refuted, C112_none_refuted, C112_references_refuted.
  * `ClassicalDedekindReals.sig_forall_dec`: 25 theorems: C23_constant_scalar_times_identity, C23_scalar_function_times_identity, C23_constant_diagonal, C23_diagonal_function, C23_fortran_diagonal_function, C23_diagonals_from_file, C23_constant_matrix, C23_matrix_function, C23_file_clears_array_refuted, C39_no_overrun, C44_saturation, C47_extracted_field_exact, C47_prognostic_field_exact, C47_missing_field_is_error, C49_real_array, C49_real_array_freed, C98_constant2D_refuted, C98_transient_refuted, C101_porosity_partial, C101_porosity_error_refuted, C101_permeability_partial, C101_permeability_refuted, C101_permeability_error, C101_name_refuted, C103_points_refuted.
  * `ClassicalDedekindReals.sig_forall_dec`, `FunctionalExtensionality.functional_extensionality_dep`: 195 theorems: C07_fraction_range, C07_fraction_increasing, C08_inverse, C08_input_unchanged_partial, C08_input_unchanged_refuted, C09_plane_through_points, C09_intercept, C09_intercept_parallel, C09_projection, C09_tetrahedron_volume, C09_volume_invariant, C09_volumes_agree, C12_run_ends_at_target, C12_clock_monotone, C12_past_target, C12_ts_first_run, C12_ts_second_run_refuted, C13_no_time_skipped_partial, C13_no_time_skipped_refuted, C13_run_after_error_refuted, C14_step_sizes, C14_initial_step_refuted, C15_terminates, C15_bounded_failures, C15_bounded_successes, C15_shrinking_steps_refuted, C16_outputs_partial, C16_outputs_refuted, C16_checkpoints, C16_final_checkpoint, C16_checkpoints_off, C16_interval_zero_refuted, C22_constant_velocity_refuted, C23_any_prior_content_refuted, C24_thermal_conductivity_refuted, C24_driver_keeps_molecular_weight_refuted, C31_cell_balance, C31_conservation, C31_conservation_serial, C31_residual_defined, C33_harmonic_mean, C33_symmetric, C34_flow_direction, C34_equilibrium, C35_wet_residual, C35_wet_jacobian, C35_dry_refuted, C36_own_values, C36_dirichlet_shifted, C36_dirichlet_refuted, C37_fvtpf, C37_fvtpf_outflow, C37_mpfao_up, C37_mpfao_down, C38_failed_step_no_trace, C39_uniform, C39_corner, C40_continuous, C41_balance, C41_interior_cancels, C41_closed_domain, C41_flux_exists, C42_regions_refuted, C43_transient_variable_partial, C43_dae_partial, C43_dae_refuted, C43_step_partial, C43_step_refuted, C43_fvtpf_step_refuted, C44_mass_partial, C44_mass_refuted, C45_balance, C45_presolve, C45_flux_exists, C45_carried_partial, C45_fresh_water_refuted, C45_gravity_refuted, C48_symmetry_check_exact, C51_brine_denser_partial, C51_brine_excess_refuted, C51_brine_excess_partial, C51_fresh_density, C52_reduction_factor_refuted, C52_reduction_factor_unused, C55_faces_between_regions_closed, C56_level_faces_partial, C56_gravity_refuted, C57_salinity_partial, C57_salinity_upwind_refuted, C57_salinity_seepage_refuted, C57_th_partial, C57_th_gravity_refuted, C58_balance_partial, C58_parallel_refuted, C58_energy_flux, C65_quadrature, C66_patch_test, C67_symmetric, C67_flow, C67_uniform, C67_conserves, C68_conservation, C68_outflow, C68_unit_cells_partial, C68_volume_refuted, C73_parallelepiped, C73_prism, C73_subface_areas, C74_determined, C75_two_point, C75_salinity_refuted, C77_order, C77_order_found, C77_vertex, C77_tilted_refuted, C77_uneven_levels_refuted, C78_levels, C78_sound, C78_vertex, C78_setup_partial, C78_one_layer_refuted, C78_uneven_refuted, C79_maps, C79_shared, C79_wheeler_yotov, C79_mixed_refuted, C79_tolerance_refuted, C80_inverse, C80_setup, C81_walls, C81_between, C81_normal_flux, C84_setup, C84_setup_partial, C84_overrun_refuted, C84_rows, C84_temperature_rows, C84_flux, C84_placed, C84_corner_columns_partial, C84_corner_columns_refuted, C84_salt_refuted, C85_balance_partial, C85_conservation_partial, C85_corner_refuted, C85_repeated_refuted, C85_closed_refuted, C86_velocity_partial, C86_conservative_partial, C86_signs, C86_corner_refuted, C86_rest_refuted, C87_temperature_refuted, C91_cells_partial, C91_warped_refuted, C98_constant, C98_constant2D_partial, C98_lower2, C99_times, C99_times_refuted, C100_combinations, C100_residual, C100_jacobian_partial, C100_jacobian_refuted, C100_random_field, C100_default_field_refuted, C100_file_field_partial, C100_file_field_refuted, C100_initial_conditions_partial, C100_initial_conditions_refuted, C100_previous_partial, C100_previous_refuted, C100_materials_partial, C100_materials_refuted, C101_porosity_unknowns_refuted, C102_one_unknown, C102_two_unknowns_partial, C102_salinity_refuted, C102_fields_refuted, C102_numbers_refuted, C104_balance_partial, C104_balance_bound, C104_balance_refuted, C104_symmetric, C106_verdict_partial, C106_reports, C106_runs, C106_missing, C106_unreadable, C106_nan_refuted, C106_skip_refuted, C106_tolerances, C106_case_refuted, C106_discrete, C107_velocities.
  * `ClassicalDedekindReals.sig_forall_dec`, `ClassicalDedekindReals.sig_not_dec`, `FunctionalExtensionality.functional_extensionality_dep`: 73 theorems: C06_density_positive, C06_density_law, C09_unit_normal_triangle, C09_normal_quadrilateral, C09_normal_parallelogram, C09_unit_vector, C09_triangle_area, C09_area_invariant, C09_quadrilateral_area, C09_parallelogram_area, C43_pressure_formulation, C73_faces, C73_dual_basis, C73_oriented, C73_distorted_refuted, C73_gradient, C73_setup, C73_centroid_refuted, C73_three_faces_refuted, C74_patch_test, C75_opposite, C75_orthogonal_partial, C75_series_refuted, C75_heat_axis_partial, C75_heat_refuted, C80_local, C80_system, C80_open_boundary, C80_again, C80_repeated_refuted, C80_singular_refuted, C81_cell, C82_solvable, C83_linear, C83_lumped_refuted, C89_rearranged, C89_each, C89_inner_partial, C89_boundary_partial, C89_diagonal_refuted, C89_warped_refuted, C90_inner_partial, C90_boundary_partial, C90_store_partial, C90_store_refuted, C94_faces_partial, C94_room_refuted, C96_places, C96_complete, C96_rest_partial, C96_tilted_refuted, C96_layers, C96_layers_two_point, C96_axes_two_point, C96_tiny_refuted, C96_negative_refuted, C96_two_point_partial, C96_two_point_refuted, C98_wheeler2012_1_refuted, C98_permeability, C98_unknown_refuted, C107_error_partial, C107_mean, C107_zero_partial, C107_units_refuted, C107_wrong_refuted, C107_corner_refuted, C109_sides, C109_meshes, C109_ghosts_refuted, C109_centre_partial, C109_centre_refuted, C109_warped_refuted.
  * `ClassicalDedekindReals.sig_forall_dec`, `ClassicalDedekindReals.sig_not_dec`, `Classical_Prop.classic`, `FunctionalExtensionality.functional_extensionality_dep`: 86 theorems: C01_saturation_bounds, C01_saturation_monotone, C02_saturation_derivatives, C02_saturation_derivative_at_reference, C03_rel_perm_bounds, C03_rel_perm_monotone, C03_rel_perm_derivative, C03_mualem_dry_derivative_refuted, C04_smoothing_determined, C04_smoothed_derivative, C04_junction_values, C04_smoothed_end, C04_smoothed_bounds, C05_saturation_compute, C05_saturation_on_points_partial, C05_rel_perm_on_points_partial, C05_rel_perm_compute_partial, C05_rel_perm_compute_refuted, C05_on_points_refuted, C05_double_assignment_refuted, C06_density_monotone, C06_density_continuous, C06_density_derivatives, C06_density_derivative_at_reference, C06_outputs_defined_partial, C06_outputs_defined_refuted, C06_unknown_model_refused, C06_constant_models, C10_polar_angle, C32_assembled_jacobian, C32_dirichlet_outflow_partial, C32_seepage_partial, C32_dirichlet_inflow_refuted, C32_dirichlet_gravity_refuted, C32_seepage_gravity_refuted, C42_transient_jacobian, C42_step_jacobian, C42_free_boundary_refuted, C43_transient_variable_refuted, C51_viscosity_positive, C51_viscosity_temperature_refuted, C51_viscosity_cold_partial, C58_storage, C59_state, C59_local, C59_salt, C59_default_curves, C60_consistent_partial, C60_brine_refuted, C61_serial_partial, C61_ghosts_refuted, C61_salinity_ghosts_refuted, C62_internal_energy, C62_never_assigned, C62_rate_refuted, C62_temperature_refuted, C63_boundary_partial, C63_error_reported, C63_mixed_curves_refuted, C63_default_curves, C64_reference_water, C64_constant_partial, C64_pressure_refuted, C64_salt_refuted, C65_quadrilateral, C65_hexahedron, C69_state_partial, C69_residual_saturation_refuted, C80_quadrature, C84_jacobian, C87_pressure_partial, C87_storage, C87_temperature_partial, C87_boundary_refuted, C87_gravity_refuted, C98_quadratic2D, C98_wheeler2006_1, C98_wheeler2006_2, C98_wheeler2012_1_partial, C98_wheeler2012_2, C98_problem3, C98_quadratic3D_partial, C98_quadratic3D_refuted, C98_selected, C98_smooth2, C98_smooth3.
* That the Gallina definitions transcribe the C code. Each definition cites file and lines. The transcription was done by reading; the code was never run. How far the theorems pin the definitions down was tested by mutation (`tools/mutate.py`, results in `seeded/LOG.jsonl`).

### Assumed about libraries
PETSc, MPI and LAPACK are not modelled; the calls that matter enter through what their
documentation says:
* `dgesv` returns some solution of the linear system if the matrix is invertible (C04, C39-C40, C66-C67, C74).
* `VecScatter`, `ISLocalToGlobalMapping`, `AO` and partitioners are functions on index lists (C26-C30);
  a partition is an arbitrary assignment of cells to processes.
* `MatSetValues(..., ADD_VALUES)` and `VecSetValues` add to or overwrite entries; negative indices are ignored.
* `SNESSolve`, `TSSolve` and `TSStep` are oracles: any sequence of outcomes is allowed (C12-C16, C38).
* `DMPlex` is given by the cone/closure lists it returns and by coordinates, volumes and centroids
  (C71-C78); hypotheses of the theorems say which meshes are meant.
* `PetscCalloc`/`malloc` succeed; arrays from `PetscCalloc` are zero, from `PetscMalloc` unspecified.
* `MatMeshToCellGraph` connects cells with at least the given number of common columns; `VecLoad` gives each process consecutive blocks of the vector (C108).
* `DMPlexMarkBoundaryFaces` marks the faces with one cell, `DMPlexLabelComplete` gives the points of the closure of a marked point the same value, `DMLabelGetStratumIS` hands out a new reference, or no index set for an empty stratum, and `ISGetIndices` fails without an index set (C112); `MatSetValues` fails for columns beyond the last (C111).

### Modelled parts of the code
* `Arrays.v`: C arrays and counted loops.
* `Bdm.v`: Model of the system of the mixed finite element method BDM, src/fe/tdybdm.c:282-552: TDyKDotADotB, Inverse, IntegratePressureBoundary and TDyBDMComputeSystem. Simplifications: DMPlexComputeCellGeometryFEM is a function of the reference point that yields the image of the point, the Jacobian matrix and its determinant (for faces the surface element); the permeability (array K) is a list with one matrix per cell. LAPACK's getrf and getri yield the inverse of an invertible matrix; of a singular one they leave factors [b_lu] behind. Quadrature points and weights are the exact ones. Cells with J = 0 at a quadrature point, for which the basis is not a number, end with [Err]. The matrix and the vector are functions of the global numbers; assembly adds up.
* `Boundary.v`: Model of the state on the boundary faces: TDyMPFAO_SetBoundaryPressure, _SetBoundaryTemperature and _SetBoundarySalineConcentration (src/fv/mpfao/tdympfao_utils.c:690-883), TDyFVTPFSetBoundaryPressure (src/fv/fvtpf/tdyfvtpf.c:574-624), TDyMPFAOUpdateBoundaryState (tdympfao_utils.c:24-99) and its copy TDyFVTPFUpdateBoundaryState (tdyfvtpf.c:498-573), and of the allocation of the boundary arrays (tdympfao.c:297-362, tdyfvtpf.c:276-309). Simplifications: a boundary condition is [None] (not set) or a function from the centroid of a face to a value or an error; the arrays S_bnd, dS_dP_bnd, d2S_dP2_bnd, Kr_bnd, dKr_dS_bnd, which have the same length, are one array.
* `BoundaryLabel.v`: Model of the label of boundary faces and of the functions that hand it out, src/tdycore.c:697-703 and 448-484. [plex] is what a DMPlex answers: the range of the faces, the size of the support of a face, and the transitive closure of a point. A label is modelled by its stratum of value 1; PETSc keeps the points of a stratum sorted, here they are in the order of their entry. The number of references to the index set of the stratum is counted.
* `CellGeo.v`: Model of the cells of a mesh that is read from a file in PFLOTRAN's format (src/fv/share/tdymeshcustom.c:49-207). [coords] and [cv] are ugrid->vertices and the rows of ugrid->cell_vertices, [cnv] is ugrid->cell_num_vertices and [nat_ids] ugrid->cell_ids_natural. Of AllocateCells only the lengths of the arrays are modelled.
* `CharCurveSet.v`: Model of the curve containers (Saturation, RelativePermeability) in src/materials/tdycharacteristiccurves.c: which point uses which curve. Both containers have the same layout (two curve types; per type a list of points, an array of parameters, and a lazily built hash map from point to position), so the loops are written once, over the number of parameters per point and the evaluation of one point, and instantiated twice below. Simplifications: the output arrays S, dSdP, d2SdP2 (resp. Kr, dKrdSe) are one array of tuples; so are the input arrays Sr, Pc. Point indices are [nat] (negative ones are not modelled). Storage of replaced arrays is garbage collected (the C code leaks it when the number of points does not change, lines 88-93 and 300-305).
* `CharCurves.v`: Model of the scalar characteristic curves in src/materials/tdycharacteristiccurves.c. Simplifications: PetscReal is [fl] (see Prelude.v). The optional output pointers are modelled as always present, which is how every caller in the library uses them; absence only suppresses the corresponding output.
* `Closures.v`: Model of the table of closures of the mesh points (src/tdyutils.c:7-236) and of the sizes that the mesh set-up derives from it (src/fv/share/tdymeshplex.c:3725-3755, src/fv/share/tdymesh.c:21-70, 90-150, 320-751). A closure is the list of points DMPlexGetTransitiveClosure gives, each with its orientation. The table belongs to the caller; [freed] says that its memory has been given back. Error codes of PETSc: PETSC_ERR_SUP is 56, PETSC_ERR_USER is 83.
* `Demo.v`: Model of the test problems with known solution of demo/steady/steady.c (and the forcing of demo/transient/transient.c): permeability, pressure, velocity and forcing at the first [n] of a list of points, as the library calls them, the selection of the functions in main, and the deformations of the mesh. An entry of an output array is [None] before it is set. The arrays K of the size 4n or 9n are local and not set before the permeability function runs. f[i] += ... is written as one sum.
* `DemoFields.v`: Proofs about Demo: the velocities and forcings.
* `DemoFields2.v`: Proofs about Demo: the remaining problems.
* `DemoMesh.v`: Proofs about Demo: the selection of the functions and the deformations of the mesh.
* `DemoRest.v`: Proofs about Demo: constants, the wrong functions, the selection and the meshes.
* `Diagnostics.v`: Model of the diagnostic fields: TDyUpdateDiagnostics_MPFAO (src/fv/mpfao/tdympfao.c:2759-2786), TDyUpdateDiagnostics_FVTPF (src/fv/fvtpf/tdyfvtpf.c:361-389), whose loops are identical, and ExtractDiagnosticField (src/tdycore.c:1745-1763) as used by TDyGetLiquidSaturation and TDyGetLiquidMass (lines 1794-1825). The communicator-wide reordering of the extracted field is Scatter.global_to_natural; it is not repeated here.
* `Driver.v`: Model of the start of the driver: TDyDriverInitializeTDy (src/tdydriver.c:10-230), the functions that hand the residuals and Jacobians to the solvers (src/tdycore.c:1868-2047) and the initial states of the modes (src/tdyrichards.c:5-29, src/tdyth.c:5-45, src/tdysalinity.c:4-40). Call-backs are represented by their names. TDySetup, the creation of vectors and matrices and all calls into PETSc are assumed to succeed.
* `Eos.v`: Model of src/materials/tdyeos.c: equations of state of water. Out-parameters are modelled by the memory cells they point to: a function takes the cells' previous contents and returns their new contents, so an output that is not written keeps what the caller had there. [pow(x,2)] and [pow(x,3)], total in C for every finite x, are Coq's powers with a natural exponent.
* `F90.v`: Model of the functions that Fortran programs hand to the library: the registry of functions (src/f90-mod/tdycoremod.F90:51-59, 343-448, 461-811), the call of a registered function (tdycoremod.F90:306-341, src/f90-mod/tdycoref.c:259-325) and the constructors of meshes (src/tdycore.c:341-366, 664-676). Functions are named by numbers. The arrays of Fortran begin at 1. A character variable that has not been set holds something: [junk] says what.
* `FaceAttr.v`: Model of the geometric attributes of the internal faces of a mesh that is read from a file (src/fv/share/tdymeshcustom.c:987-1141). [coords], [cents]: ugrid->vertices and cells->centroid. [fv], [k]: the table face_to_vertex and the connections ([MeshFaces]). faces->cell_offset of a connection is twice its number (lines 934-936).
* `FaceCentre.v`: Model of the areas and centres of the faces of a mesh that is read from a file (src/fv/share/tdymeshcustom.c:952-984 and 1143-1216). [cf], [fv]: the tables cell_to_face and face_to_vertex ([MeshFaces]); [cnv], [coords]: the number of vertices of the cells and ugrid->vertices. max_face_per_cell is 6 and max_vert_per_face 4 (src/fv/share/tdyugrid.c:50-51). Simplification: the loops over the three coordinates are additions of vectors.
* `FaceCentreMesh.v`: The areas and centres of the faces of a conforming mesh, with the tables that the program itself sets up.
* `FaceGeo.v`: Model of the orientation of faces and of their geometric attributes (src/fv/share/tdymeshplex.c:3061-3172 and 3519-3677). dim = 3. A face is a record; its row of the compressed table of vertices (see [Mesh]) is a list, of which faces->num_vertices is the length. [coords] and [cents] are vertices->coordinate and cells->centroid.
* `FeMap.v`: Model of the maps between local and global numbers in the finite element discretisations: CreateCellVertexMap and CreateCellVertexDirFaceMap (src/fe/tdyfe.c:19-147), the counts of vertices (src/tdycore.c:1478-1527), and the numbering of the velocity unknowns in TDySetup_BDM (src/fe/tdybdm.c:188-243). Simplifications: points of the mesh (DMPlex) are natural numbers, cells first (cStart = 0); the closure of a point is the list of its points without their orientations; X and N have [dim] components per point. The checks that are only compiled with PETSC_USE_DEBUG are left out.
* `Fields.v`: Model of ExtractSubVectors (src/tdyutils.c:638-659), ExtractPrognosticField (src/tdycore.c:1827-1843) and CheckSymmetric (src/tdydebug.c:21-34).
* `Fvtpf.v`: Model of the two-point flux (FV-TPF) residual and Jacobian, src/fv/fvtpf/tdyfvtpf_snes.c and src/fv/fvtpf/tdyfvtpf.c. The state arrays (fvtpf->pressure, rho, ...) hold finite numbers; divisions can still produce non-finite results (see [fl]). Out-parameters are modelled by their previous contents, as in Eos.v. Timers, VecGetArray/RestoreArray and the communication of TDyGlobalToLocal are not modelled: the functions start from the local arrays.
* `Geom.v`: Model of the geometry routines of src/tdyutils.c.
* `GoldTest.v`: Model of the comparison of a regression file with its gold file: regression_tests/regression_tests.py, class RegressionTest, lines 75-136 (tolerances), 406-424 (_check_gold), 468-541 (_compare_regression_files), 779-1029 (_get_sections to _compare_discrete) and 1090-1144 (settings and _set_criteria). Files are lists of lines as readlines gives them, with characters of one byte; a line break occurs at the end of a line only. float() and int() are parameters (the float of a text may be infinite or nan); arithmetic is that of the real numbers. The criteria of a configuration file are given as parsed (_validate_criteria); their numbers are finite. Not modelled: the comparison of other files, restarts and realisations.
* `GoldText.v`: The text of a regression file: the fprintf calls of TDyRegressionOutput, src/tdyregression.c:241-270. The conversions %21.13e and %9d are parameters apart from the padding.
* `Gravity.v`: Model of the gravity term of the multi-point flux scheme (src/fv/mpfao/tdympfao.c:1869-2275 and tdympfao_utils.c:11-22). dim = 3. The mesh is that of [Subcell]; a face knows the cells on its two sides (negative: outside). Numbers that are not finite are [None].
* `GravityDiagonal.v`: Two-point gravity terms between cells with permeabilities along the axes.
* `GravityLayers.v`: Gravity terms of single faces: two permeabilities, tiny permeabilities, two-point fluxes.
* `Hdiv.v`: Model of the H(div) basis functions and of the reference quadrature of the finite element discretisations, src/fe/tdyfe.c:149-314. The writes B[k] = ... are the entries of a list in the same order. A quotient by J = 0 is not a number.
* `Levels.v`: Model of how the cells above and below each vertex are found: FindCellsAboveAndBelowVertices and the functions it uses (src/fv/share/tdymeshplex.c:1716-1949, 2694-2827, called by SetupSubcells in lines 3039-3052).
* `Lifecycle.v`: Model of the life cycle of a simulator object: src/tdycore.c (TDyCreate, TDySetMode, TDySetDiscretization, TDySetDMConstructor, TDySetFromOptions, TDySetup, the calls that require a finished setup, TDyDestroy). Functions behind the operation pointers are represented by their names; calls into PETSc and into the implementations are assumed to succeed.
* `Memory.v`: Model of the multi-dimensional work arrays of src/tdymemory.c. The heap is a list of blocks; an address is the block's position. [V] is the element type (PetscInt or PetscReal), [zero] its calloc'ed value. PetscCalloc1 already multiplies by the element size, so TDyAlloc(n*sizeof(T)) reserves more than n elements; the model gives every block exactly n, so that the theorems do not rely on the surplus.
* `Mesh.v`: Model of the connectivity tables of the mesh: their allocation and the access functions (src/fv/share/tdymesh.c), the way they are filled from the closures of a DMPlex, and their conversion to compressed format (src/fv/share/tdymeshplex.c). A table has one row per element; the entries of row i start at offset[i] in the array of identifiers. Identifiers and offsets are integers (-1: not set); counts are natural numbers, because the code only sets them to 0 or to a positive constant and increments them. c_start is 0, as in every DMPlex.
* `MeshFaces.v`: Model of the faces of a mesh that is read from a file in PFLOTRAN's format (src/fv/share/tdymeshcustom.c:209-950 and 1231-1286). [cnv] and [cv] are ugrid->cell_num_vertices and the rows of ugrid->cell_vertices, [nbs] holds for every local cell the number of neighbours and its row of ugrid->cell_neighbors_local_ghosted (see [UGrid]). max_face_per_cell is 6 and max_vert_per_face 4 (src/fv/share/tdyugrid.c:50-51). Simplifications: an unknown number of vertices makes GetCellType return an error code as if it were a cell type; here it is [Err]. face_to_vertex_natural is left out: it is written and never read.
* `MeshFacesPairs.v`: RemoveDuplicateFaces: the number of the smaller cell is kept for a common side.
* `MeshFacesRenumber.v`: UpdateMapsC2F_F2C_F2V: the faces that are left are numbered again.
* `MeshFacesSetup.v`: The numbering of the sides of all cells, SetupMaps_C2F_F2C_F2V.
* `MeshFacesTables.v`: Tables with two subscripts as functions, searches, and the sides of cells.
* `MeshFile.v`: The reading of a mesh file and the graph of neighbouring cells, src/fv/share/tdyugrid.c. The file holds two blocked vectors: "Cells", each block a cell type followed by vertex numbers (from 1, 0 for unused entries), and "Vertices", each block the three coordinates of a vertex. Cell entries are integers stored as reals, taken as integers here.
* `Mpfao.v`: Model of the transmissibility matrices of the multi-point flux scheme (MPFA-O), src/fv/mpfao/tdympfao.c. Numbers are reals. A two-dimensional work array is a function of row and column together with its dimensions; writes outside the dimensions are [UB]. The one-dimensional work arrays are lists, filled in column-major order exactly as the running index [idx] of the code does. LAPACK's getrf/getrs is represented by its contract (see [solves]); BLAS's gemm by its definition.
* `MpfaoTs.v`: Model of the residuals and the Jacobian of the multi-point flux scheme: src/fv/mpfao/tdympfao_ts.c, tdympfao_ts_dae.c, tdympfao_ts_transientvar.c and tdympfao_snes.c. As in Fvtpf.v the functions start from the local arrays: the state left by TDyUpdateState, the boundary arrays, the product TtimesP_vec and GravDisVec. The state holds finite numbers; divisions can produce non-finite results.
* `NaturalIds.v`: Model of the natural numbers of cells and of the region numbers read from a file (SaveNaturalIDs, src/fv/share/tdymeshplex.c:604-713). [owned]: for each process the cells it owns, named by their place in the original mesh; [locals]: for each process the cells of its local vector, ghosts included. A vector is one array per process. Integers are unbounded; the numbers go through PetscScalar, which is exact for numbers of cells.
* `Numbering.v`: Model of how the faces around a vertex are numbered for the multi-point flux scheme: SetUpToDownConnections and SetupUpwindFacesForSubcell (src/fv/share/tdymeshplex.c:2484-2569 and 1531-1713). Positions: the cells around the vertex are 0 .. ncells-1 (their positions in internal_cell_ids), its boundary faces ncells .. ncells+nfaces_bnd-1 (behind the cells, their positions in boundary_face_ids). -1 marks an unused entry.
* `Options.v`: Model of the numeric options: SetDefaultOptions (src/tdycore.c:260-296), ReadCommandLineOptions (src/tdycore.c:504-621) and of the defaults the driver gives to material properties (src/tdydriver.c:39-92).
* `Output.v`: Model of the output of fields: src/tdyio.c:361-463, 479-507, 570-704, with the field getters of src/tdycore.c:1748-1862 it uses. Vectors are lists. [ao] holds the natural number of every cell (cells in the global order), [nls] the numbers of cells of the processes, as in Scatter.v; on one process PETSc keeps no such order and the conversion is a copy. HDF5 files are association lists from the time as printed and the variable name to the stored values: VecView replaces a dataset of the same name. The XML file is a list of opening tags, text and closing tags. Meshes managed by TDycore itself have no diagnostics (tdycore.c:756-758), so TDyIOWriteVec refuses them and they are left out; for DMPlex meshes TDySetDM always asks for the natural order (tdycore.c:683), so DMGetUseNatural is true. Exodus output is only modelled as far as the vectors passed to it.
* `OutputFile.v`: The files of a run.
* `OutputHead.v`: The header of the XML file, and outputs whose printed times agree.
* `OutputWrite.v`: What TDyIOWriteVec writes.
* `Owners.v`: Model of the ownership flags and the numbers of the boundary faces of a mesh made from a DMPlex, and of the order of the faces around a vertex (src/fv/share/tdymeshplex.c). Arrays are lists and the tables are those of [Mesh]: the entries of row i start at offset[i]. c_start is 0, as in every DMPlex. [gref] lists what DMPlexGetPointGlobal returns for the cells. IdentifyLocalEdges is not modelled: nothing reads edges->is_local.
* `Prelude.v`: Shared vocabulary of the model.
* `ReadMat.v`: Model of reading material properties from a file: TDyIOReadPermeability, TDyIOReadPorosity and TDyIOReadVariable (src/tdyio.c:101-257 and 301-331), on one process of a run with a mesh managed by TDycore itself (the reordering is the one of Scatter.v). The file is the map from names of data sets to vectors in natural order; opening the file and finding the data set are one step. PetscCalloc1 multiplies by the size of the elements, so that TDyAlloc(n,…) reserves n numbers. Memory that is never released (u and u_local, the viewer's) is not modelled.
* `RegOut.v`: Model of the regression file: TDyRegressionOutput, src/tdyregression.c:141-288. The chosen cells are those of Regression.v. U is given by the parts of the processes. Numbers are written without rounding; a line of the file is a constructor.
* `Region.v`: Model of src/fv/mpfao/tdyregion.c and of its use in UpdateTransmissibilityMatrix (src/fv/mpfao/tdympfao.c:1758-1799).
* `Registry.v`: Model of the process-wide registries: shutdown functions and named functions (src/tdycore.c:80-258), timers, profiling stages and timing metadata (src/tdytimers.c, include/tdytimers.h:26-88). Simplifications: PETSc calls succeed; PetscLogEventRegister and PetscLogStageRegister hand out fresh numbers; a khash table is an association list (the string keys are kept by pointer in C, so callers must not change them); user shutdown functions do not call the library.
* `Regression.v`: Model of the choice of cells for regression output: src/tdyregression.c:6-139. [sizes] are the local sizes of the global vector on each process (cells times degrees of freedom per cell), in rank order.
* `Release.v`: Model of the memory a simulator's discretization takes and gives back: the allocations of TDySetup and the releases of TDyDestroy for the MPFA-O and FV-TPF methods on a DMPlex mesh. Only the allocations the methods keep in their context and in the mesh are modelled; temporaries of the mesh construction, the material-property, condition and characteristic-curve objects, and the rest of the TDy object are not. The closures are taken to fit the room first given to them (the other case is C97). A PETSc Mat or Vec counts as one block.
* `Scatter.v`: Model of the index sets and vector scatters of src/fv/share/tdyugdm.c, of the order conversions in src/tdydiscretization.c, and of checkpoints (src/tdyio.c) read back as initial conditions. Only meshes managed by TDycore itself (TDYCORE_DM_TYPE) are modelled; for DMPlex meshes the conversions are PETSc's. A VecScatter is represented by the list of (source, target) positions of all processes, which is what PETSc documents it to copy; the order of the copies does not matter in the theorems. A distributed vector is the concatenation of its parts, its layout being the one of the global vector.
* `Slots.v`: Model of the condition and material-property slots: src/tdyconditions.c, src/materials/tdymaterialproperties.c:24-375 and 543-760, the wrappers of src/tdycore.c:1290-1396. A user context is a number; a context allocated by the library carries its (never modified) payload and a serial number. Destructor calls are recorded in a log. Function values are names; what they compute is the [world].
* `State.v`: Model of the functions that compute the state of every cell from the solution: TDyUpdateState_Richards_MPFAO, _TH_MPFAO and _Salinity_MPFAO (src/fv/mpfao/tdympfao.c:2527-2757), TDyUpdateState_Richards_FVTPF (src/fv/fvtpf/tdyfvtpf.c:391-446), and of their callers before a time step (tdympfao_snes.c:32-63, tdyfvtpf_snes.c:44-76). The four functions differ only in the numbers of unknowns per cell, in the salt content passed to the equations of state, and in the heat state, so they are one function of the mode here. Simplifications: the arrays with one entry per cell (TDyAlloc'ed with the same number of cells, tdympfao.c:645-690) are one array of records; a non-finite effective saturation gives a non-finite relative permeability.
* `Steady.v`: Model of the steady system of the multi-point flux scheme: src/fv/mpfao/tdympfao_steady.c and TDyMPFAOComputeSystem, src/fv/mpfao/tdympfao.c:2788-2830. The boundary pressure is a function of the boundary number of a face, the forcing of the number of a cell (the code evaluates both at the centroid). A missing boundary function is a NULL pointer that is called.
* `Subcell.v`: Model of the sub-cells of the multi-point flux scheme: SetupSubcells and its helpers (src/fv/share/tdymeshplex.c) and the G matrices (src/fv/mpfao/tdympfao.c). The mesh has three dimensions. Points are triples of reals; a division by zero is not finite.
* `SubcellAccess.v`: Model of the arrays of the sub-cells and of the functions that hand them out, src/fv/share/tdymesh.c:85-140, 1336-1560 and src/fv/share/tdymeshplex.c:969-1035. Simplification: the entries of all arrays have one type [A] (numbers, vectors and coordinates are treated alike), [blank] is what unused entries are set to.
* `Tensor.v`: Model of the wrapper functions that evaluate tensor-valued material properties: src/materials/tdymaterialproperties.c:378-537, and the Fortran versions of src/f90-mod/tdycoref.c:325-365. A spatial function is the list of values it writes to the array it is given.
* `ThJac.v`: Model of the Jacobian of the water and heat mode of the multi-point flux scheme: src/fv/mpfao/tdympfao_th_ts.c:300-886. The state is that of Transport.v; [thermal] has the further arrays. The matrix is the list of the values added to it, by rows and columns 2 i for the water and the pressure and 2 i + 1 for the energy and the temperature of cell i.
* `ThJacTemp.v`: The temperature columns of the blocks of the water and heat mode.
* `TimeInt.v`: Model of src/tdyti.c: the time integrator, as a small-step machine. One machine step is one pass through a marked point of the SNES loop of TDyTimeIntegratorRunToTime. The non-linear solver is an oracle: the outcome of the k-th call of SNESSolve (converged or not, and the vector it leaves in tdy->soln) is arbitrary. Printing is left out. PetscReal arithmetic is exact (no rounding).
* `TransSize.v`: Model of the size of the matrix of transmissibilities and of the vector of pressures it is multiplied with: the counts of faces of src/fv/share/tdymesh.c:753-808, the number of columns chosen in src/fv/mpfao/tdympfao.c:2299-2315 (the same in lines 2408-2433 and 2477-2493), the columns that are used in lines 1417-1466 and 1580-1645, and the storing of the boundary pressures, src/fv/mpfao/tdympfao_utils.c:728-753. The flags and numbers of the faces are those of [Owners].
* `Transmit.v`: Model of how the transmissibilities of the multi-point flux scheme are stored, src/fv/mpfao/tdympfao.c: the allocation in the Setup functions, the loop over the vertices (ComputeTransmissibilityMatrix) and the arrays Trans, Temp_Trans and Psi_Trans that it fills beside the matrices Trans_mat, Temp_Trans_mat and Psi_Trans_mat. The values themselves are those of Mpfao.v. A face of the boundary is identified by its boundary number, as in Mpfao.v. UpdateTransmissibilityMatrix (regions) is in Region.v and left out here.
* `Transport.v`: Model of the residuals with two unknowns per cell of the multi-point flux scheme: src/fv/mpfao/tdympfao_snes_salinity.c (water and salt) and src/fv/mpfao/tdympfao_th_ts.c:19-297 (water and heat). As in MpfaoTs.v the functions start from the local arrays: the state, the boundary arrays and the products TtimesP_vec, TtimesPsi_vec, Temp_TtimesP_vec, GravDisVec. Vectors hold entry 2 i for the water and 2 i + 1 for the second equation of cell i.
* `Traversal.v`: Model of how the cells and boundary faces around a vertex are put in order for the multi-point flux scheme: DetermineUpwindFacesForSubcell_PlanarVerticalFaces and the functions it uses (src/fv/share/tdymeshplex.c:1716-1731, 1952-2482, 2571-2692).
* `UGrid.v`: Model of the mesh redistribution in src/fv/share/tdyugrid.c and of the index sets and matrix layout in src/fv/share/tdyugdm.c. A mesh read from a PFLOTRAN file is packed, one fixed-length record per cell, into a distributed vector, moved to the processes chosen by the partitioner, and renumbered there. Vector entries are doubles holding integers and are read back with a cast; they are modelled as integers (exact below 2^53). PetscInt is unbounded. PETSc calls are represented by what they are documented to do: [PetscSortIntWithPermutation] by a parameter [sort] that returns a sorting permutation, an AO by the list of application numbers in PETSc order, a VecScatter by the copy it performs.
* `Velocity.v`: Model of the recovery of face velocities in the multi-point flux scheme: TDyMPFAORecoverVelocity and its three parts, src/fv/mpfao/tdympfao_utils.c:103-687. Only mpfao->vel is modelled: vel_count is never reset nor used, and vel_error is printed and forgotten. The areas of faces are taken to be non-zero in the theorems. As in Steady.v the boundary pressure is a function of the boundary number of a face.
* `VelocityError.v`: Model of the velocity error that the velocity recovery of the multi-point flux scheme accumulates and prints: the parts of TDyMPFAORecoverVelocity and its three callees, src/fv/mpfao/tdympfao_utils.c:103-687, that Velocity.v leaves out. The sub-cell that lines 182-183, 363-364, 402-403, 455-456 and 491-492 look up only serves to find the centroid and the area of the sub-face; both are functions of the vertex and the row here (at corners: of the vertex and the number of the sub-face). vel_count is still left out.
* `VelocityZero.v`: When the printed velocity error vanishes.
* `VertexCells.v`: Model of SetupMap_V2C (src/fv/share/tdymeshcustom.c:795-825), the map from vertices to cells of a mesh that is read from a file. [cnv], [cv]: as in [MeshFaces]. [nv]: ugrid->num_verts_local. max_cells_sharing_a_vertex is 24 (src/fv/share/tdyugrid.c:49); vertex_to_cell has 24 rows of [nv] entries (line 1271).
* `Wy.v`: Model of the Wheeler-Yotov (multipoint flux mixed finite element) method, src/fe/tdywy.c: the local matrices of the elements, the small system around every vertex, the stencil, the recovered velocities and the residual. Simplifications: the points of the mesh (DMPlex) are natural numbers, cells first; the closure of a vertex is the list of its points; the label "boundary" and the boundary pressure are one function [bc] (the pressure at the centre of a face that has label 1, if there is a pressure condition). LAPACK's getrf, getri and getrs are represented by their contracts, as in Mpfao.v. The buffers A[144] and B[144] (column-major, leading dimension nA) are matrices; a vertex with more rows or columns than fit overruns the buffers.
* `WyGlobal.v`: Model of the loops over all vertices of the Wheeler-Yotov method, src/fe/tdywy.c: the assembly of the matrix and of the right hand side (TDyWYComputeSystem, lines 679-817) and the storing of the recovered velocities (TDyWYRecoverVelocity, lines 858-965). The systems around the vertices are those of Wy.v. Simplifications: [star v] is the closure of vertex [v] (the points in it, in order); the results of FormStencil and RecoverVelocity at vertex [v] are given as [C v], [D v] and [Z v] and are tied to the local systems by the contracts of Wy.v. MatSetValue and VecSetValue with ADD_VALUES are recorded as the list of the calls; the entry of the assembled matrix is the sum of its calls. [gid c] is the number DMPlexGetPointGlobal gives: that of the cell if the process owns it, otherwise minus that number minus one.
* `WyState.v`: Model of the state of the cells in the Wheeler-Yotov method: the material arrays of TDySetup_WY (src/fe/tdywy.c:453-514) and TDyUpdateState_WY (lines 973-1017). Simplification: as in State.v, the arrays with one entry per cell are one array of records; of a record only the saturation, the relative permeability and K are used by this method. The stride of K and K0 is that of the matrix.

### Parts of the code that are not modelled
* Floating point: rounding, overflow, signed zeros. Integers do not overflow.
* `src/fe/tdybdm.c` beyond C65 and C79-C83 (options).
* `src/fv/share/tdymeshcustom.c` except cells (C91), the numbering of faces (C92), the cells around a vertex (C93), the attributes of faces (C94) and the areas and centres of faces (C109).
* The reading and writing of HDF5 and exodus files: `src/tdyio.c` except the output of fields (C99), the reading of
  materials (C101), of mesh files (C108) and what C16 and C30 say.
* The interpolation of face velocities to cell centres.
* The Fortran interface except for the property functions of `Tensor.v` and the functions handed over from Fortran (C103).
* Python scripts except the comparison of regression files with gold files (C106); the demonstrations other than the test problems and mesh perturbations of C98; options that only concern printing.
* Parallel execution is modelled only where data moves between processes (C25-C30, C95);
  elsewhere the functions are modelled on one process with its ghost cells.
* Errors of PETSc calls (`CHKERRQ` after calls that cannot fail in the model).

## Findings
Claims that are false of the faithful model. Each has a theorem with a witness; the comment of the theorem is quoted.
* **C03 Relative permeability is a normalised monotone function with the right derivative**
  * `C03_mualem_dry_derivative_refuted`: C03, finding: at a completely dry point the Mualem model reports a derivative that is not a number (0/0 at tdycharacteristiccurves.c:482).
* **C05 Each point gets the curve that was last assigned to it, and nothing else is touched**
  * `C05_rel_perm_compute_refuted`: The same statement is false for other point lists: RelativePermeabilityCompute uses the loop counter as the point, so with only point 1 assigned it writes point 0 and leaves point 1 as it was.
  * `C05_on_points_refuted`: Looking up a point of the second type among seven points of the first reads past the hash table's flag array.
  * `C05_double_assignment_refuted`: A point listed under both types is evaluated as type 1 over the array and as type 0 on a list, whichever was assigned last.
* **C06 Water density is positive, monotone and has the reported derivatives**
  * `C06_outputs_defined_refuted`: The Batzle-Wang models leave both pressure derivatives as they were.
* **C08 3x3 inverse is the inverse**
  * `C08_input_unchanged_refuted`: Whatever the positive machine epsilon, some invertible matrix is overwritten.
* **C11 Index lookup finds the element or reports failure**
  * `C11_not_found_refuted`: With 77 elements, a missing value gives a position in the list.
* **C12 Running to a time ends exactly at that time or reports an error**
  * `C12_ts_second_run_refuted`: With PETSc's TS a second run can stop short of its target.
* **C13 No simulated time is skipped**
  * `C13_no_time_skipped_refuted`: Steps adding up to 1/8 are accepted while the clock moves from 0 to 1/2.
  * `C13_run_after_error_refuted`: After a run that ended with an error, the next run jumps to its target after one accepted step, even if none of its own solves fails.
* **C14 Step sizes stay positive and below the maximum**
  * `C14_initial_step_refuted`: The initial step is not compared with the maximum.
* **C15 The run loop terminates and gives up after a bounded number of failures**
  * `C15_shrinking_steps_refuted`: With a growth factor of 1/2, which the options accept, a run never returns.
* **C16 Every checkpoint and output interval is honoured**
  * `C16_outputs_refuted`: One failed solve before the only accepted step: "step 0" is written as well.
  * `C16_interval_zero_refuted`: A checkpoint interval of 0 divides by zero after the first step.
* **C17 Calls out of order are refused without side effects**
  * `C17_errors_change_nothing_refuted`: Refused mode changes have already changed the mode; a refused combination of initial conditions and a refused mesh output leave changes behind too.
  * `C17_frozen_after_setup_refuted`: After a successful setup the mode and the discretization can still be changed, without an error; the next diagnostics call or setup is then undefined.
  * `C17_options_first_refuted`: Reading the options before a discretization is chosen is not refused: it calls through a null pointer.
* **C18 Only supported mode/discretization pairs are ever active**
  * `C18_operations_match_refuted`: With -tdy_mode TH the options are read without an error although the pair is not supported, and the Richards operations stay active; the same happens after an error of TDySetMode that the caller ignores.
  * `C18_number_of_fields_refuted`: The number of fields is the previous pair's in TH mode (none at all when there was no previous pair, which then crashes on a PFLOTRAN mesh), and BDM's for WY.
* **C19 Shutdown functions run exactly once, in reverse order of registration**
  * `C19_every_cycle_refuted`: A second cycle is undefined: the tables and the array were freed but are still pointed to. So is finalizing twice, and finalizing with profiling switched on but no simulator set up.
* **C20 Named function registry behaves like a map**
  * `C20_after_finalize_refuted`: After finalization lookups read a freed table.
* **C21 Every user context is released exactly once**
  * `C21_every_kind_destroyed_refuted`: The context of the boundary pressure type is never destroyed.
  * `C21_same_context_set_again_refuted`: Setting a slot again with the context it already holds destroys the context and keeps it installed; it is destroyed a second time at the end.
* **C22 Conditions and properties evaluate to what was last set**
  * `C22_constant_velocity_refuted`: A constant boundary velocity has three components per point; only the first entry of the caller's vector is written.
* **C23 Tensor-valued properties fill the whole matrix**
  * `C23_any_prior_content_refuted`: So the claim fails for an array that is not zero: re-evaluating a property after a full tensor was replaced by a scalar leaves the old off-diagonal entries in place.
  * `C23_file_clears_array_refuted`: The file reader tries to clear the array first but clears n/2 entries of 9n.
* **C24 Each command-line option sets its own parameter**
  * `C24_thermal_conductivity_refuted`: With both options given, the value for the thermal conductivity ends as the porosity.
  * `C24_driver_keeps_molecular_weight_refuted`: The molecular weight set by the user is replaced by the default.
* **C25 Regression output samples distinct existing cells on every process**
  * `C25_TH_few_cells_refuted`: TH with more requested cells than a process has: duplicates.
  * `C25_salinity_cells_refuted`: SALINITY has two unknowns per cell but is sampled as if it had one, so the sampled entries need not belong to different cells.
  * `C25_empty_process_refuted`: A process without cells, or a request for none: integer division by zero.
* **C26 Mesh redistribution loses nothing**
  * `C26_max_vertices_refuted`: The first vertex of the file (number 0) is not counted: a mesh of one tetrahedron gets records of three vertices, and the fourth vertex is lost.
* **C28 Vertex renumbering is a bijection that preserves connectivity**
  * `C28_empty_refuted`: A process without cells reads the first element of an empty array.
* **C30 Natural, global and local orderings are mutually inverse**
  * `C30_mesh_numbers_refuted`: With two unknowns per cell it takes the indices of unknowns for numbers of cells: the second cell gets the number 1 of the first cell's second unknown and the ghost cell 7 does not appear.
* **C32 Two-point flux Jacobian is the derivative of the residual**
  * `C32_dirichlet_inflow_refuted`: Inflow through a Dirichlet face: the reported derivative is 0.
  * `C32_dirichlet_gravity_refuted`: With gravity and compressible water the Jacobian entry of a Dirichlet face is -25/8, the derivative -7/2.
  * `C32_seepage_gravity_refuted`: So it is for a seepage face.
* **C35 The residual is a function of the state**
  * `C35_dry_refuted`: On a dry face the residual can be any number.
* **C36 Boundary faces use their own boundary values**
  * `C36_dirichlet_refuted`: Two states that agree on face 0 but not on face 2 give different Dirichlet residuals of face 0.
* **C42 Multi-point Jacobian is the derivative of the flux**
  * `C42_free_boundary_refuted`: Without a boundary pressure function the boundary takes the pressure of the cell, and the Jacobian misses that dependence.
  * `C42_regions_refuted`: Between two connected regions the matrix is cleared, the array that the Jacobian uses is not.
* **C43 All time formulations solve the same mass balance**
  * `C43_transient_variable_refuted`: The mass of the lone cell (volume 2) grows at rate 1; the residual has 2.
  * `C43_dae_refuted`: For the lone cell of volume 2 the algebraic equation holds and the rate of the mass unknown is 1, but the balance contains 2.
  * `C43_step_refuted`: A unit source in the lone cell of volume 2 enters as 1 instead of 2, with both schemes.
  * `C43_fvtpf_step_refuted`: The same with the two-point scheme: a unit source in a cell of volume 2 enters as 1.
* **C44 Reported liquid mass is the stored mass**
  * `C44_mass_refuted`: A unit cell with porosity 1/4, half saturated with water of density 1000, holds 125 units of mass and reports 1000: porosity and saturation are missing.
* **C45 Dissolved salt moves with the water**
  * `C45_fresh_water_refuted`: Fresh water flows from cell 0 to cell 1: there is no salt anywhere, no diffusion and no source, and yet a salt flux of 1.
  * `C45_gravity_refuted`: Water of concentration 1 moved by gravity alone takes no salt along.
* **C46 Cells can be grouped into regions**
  * `C46_additions_accumulate_refuted`: ... so cells added earlier are gone, and their array is leaked.
  * `C46_invalid_cell_is_error_refuted`: A cell number beyond the region passes as being in the same region; a negative one is used as an index.
* **C51 Temperature- and salt-dependent water properties follow their correlation**
  * `C51_viscosity_temperature_refuted`: Warming fresh water raises the computed viscosity, at every temperature.
  * `C51_brine_excess_refuted`: The density added by salt is not the published one (times 1000, kg/m3).
* **C52 The configured reduction factor is what a failed step is cut by**
  * `C52_reduction_factor_refuted`: The configured factor is 1/2; a failed step of 1/2 is followed by one of 1/8.
* **C53 A simulator can be destroyed at any point of its life**
  * `C53_destroy_refuted`: Between choosing the discretization and reading the options, and after a late change of the discretization, destruction is undefined.
* **C54 The timing profile describes the simulator that was set up**
  * `C54_footer_refuted`: Setting a simulator up again (for instance after changing its mode) keeps the metadata of the first setup.
* **C56 Disconnected regions exchange no water**
  * `C56_gravity_refuted`: Two cells in different regions, no pressure or storage change: the gravity term still moves water from one to the other.
* **C57 Water flow obeys Darcy's law with gravity in every mode**
  * `C57_salinity_upwind_refuted`: The pressure drives the water down, gravity more strongly up, and the lower side has no mobile water: Darcy's flux is -1, the residual has none.
  * `C57_salinity_seepage_refuted`: Water enters through a dry seepage face.
  * `C57_th_gravity_refuted`: Gravity does not move the water.
* **C58 Energy is conserved when water and heat flow together**
  * `C58_parallel_refuted`: With ghost cells the function reads behind the end of the rate vector, which holds the owned cells only.
* **C60 The stored derivatives are derivatives of the stored state**
  * `C60_brine_refuted`: With the Batzle-Wang density the stored derivative is 0 after any sequence of evaluations, although the density varies with pressure.
* **C61 The state before a time step is computed from the previous solution on every process**
  * `C61_ghosts_refuted`: On any process with ghost cells it reads beyond the end of an array: the curves cover all cells, the array of capillary pressures only the owned ones.
  * `C61_salinity_ghosts_refuted`: So does the salinity mode, which reads the solution of all cells from a vector that holds the owned ones.
* **C62 The energy of water follows pressure and temperature**
  * `C62_rate_refuted`: ... so that the rate of change of energy in the residual is not that of the stored energy when the pressure of a cell changes (constant density, any curves).
  * `C62_temperature_refuted`: Density, viscosity, enthalpy and internal energy of water do not depend on the temperature unknown, whichever equations of state are selected.
* **C63 Every boundary face gets the prescribed value and the curves of its cell**
  * `C63_mixed_curves_refuted`: With seven or more Gardner cells, a boundary face of any other cell leads to a read outside the lookup table.
* **C64 Water entering through the boundary has the properties prescribed there**
  * `C64_pressure_refuted`: It is not for compressible water under any pressure above the reference,
  * `C64_salt_refuted`: nor for salt water of any prescribed content.
* **C68 The transient Wheeler-Yotov residual is the mass balance of each cell**
  * `C68_volume_refuted`: A cell of volume 2 that loses water through its boundary: the residual is zero although the balance of the cell is not.
* **C69 The Wheeler-Yotov method uses the prescribed material of every cell**
  * `C69_residual_saturation_refuted`: The residual saturation of the material is never read: the saturation can fall below it.
* **C70 Compressing the mesh tables keeps every row**
  * `C70_no_elements_refuted`: On a process without elements the conversion reads outside its arrays.
* **C71 The connectivity tables contain exactly the incidences of the mesh**
  * `C71_edges_refuted`: The cells of an edge are not listed: only two entries are ever filled.
* **C72 The tables of the faces contain exactly the incidences of the mesh**
  * `C72_cell_count_refuted`: It is not the number of cells of the face: faces 0 and 19 are boundary faces and have one cell each, the functions say 2 and -39.
* **C73 The sub-cells of the multi-point scheme have the right geometry**
  * `C73_distorted_refuted`: In a strongly distorted cell it need not: then the sub-cell's G matrix has the wrong sign.
  * `C73_centroid_refuted`: The centroids of the sub-faces end up in the array variable_continuity_coordinates; the array that is read back as face_centroid keeps its zeros.
  * `C73_three_faces_refuted`: A vertex of a cell with other than three faces (the apex of a pyramid) is not refused.
* **C75 The two-point variant of the G matrices gives two-point fluxes**
  * `C75_series_refuted`: Different permeabilities: the arithmetic mean is used where layers in series need the harmonic one.
  * `C75_heat_refuted`: … on a boundary face whose normal points along a negative axis it has the wrong sign.
  * `C75_salinity_refuted`: The entry of the saline concentration is never written: no diffusion.
* **C76 The faces around a vertex are numbered consistently**
  * `C76_missed_face_refuted`: If the way round misses a boundary face (its other vertices are not straight above or below), the numbering is wrong and success is reported: a face of the vertex disappears from its list of faces.
  * `C76_no_levels_refuted`: If the cells above and below were not determined, memory before the array is written.
* **C77 The cells around a vertex are put in order**
  * `C77_tilted_refuted`: Columns that are not vertical: success is reported, but a face of the vertex is lost.
  * `C77_uneven_levels_refuted`: One cell above and two below: the order of the single cell is read beyond its end.
* **C78 The cells above and below every vertex are found**
  * `C78_one_layer_refuted`: On every mesh where some local vertex has the largest number of cells, all on one side (such as a mesh with one layer of cells), memory behind a row is written.
  * `C78_uneven_refuted`: A vertex with unequal levels is refused, but the refusal is not looked at: all vertices stay without cells above and below, and the numbering then uses -1 as an index.
* **C79 The unknowns of the finite elements belong to the right faces and vertices**
  * `C79_mixed_refuted`: Cells of different kinds are not refused: the error code becomes the number of vertices per cell, and a buffer is read far beyond its end.
  * `C79_tolerance_refuted`: If the images of the corners are off by more than 10^-12, as by rounding where coordinates are around 10^5, no vertex is found and no error reported; the setup then reads before the start of an array.
* **C80 The BDM system is the weak form of Darcy's law**
  * `C80_repeated_refuted`: "Two assemblies of one problem give the same system": false. On two squares with permeability 2 and pressure x on the boundary the first system has the flux -1 through half the left edge, the second one -1/4.
  * `C80_singular_refuted`: "A permeability that has no inverse is reported": false, the result of [Inverse] is dropped. The assembly succeeds for any tensors, also for the zeros that stand there if no permeability was given.
* **C83 The BDM method reproduces linear pressures**
  * `C83_lumped_refuted`: "... also with lumped quadrature": false, even on two unit squares with permeability 1: the boundary term is integrated with the full quadrature, the other terms with the corners only, so the pressure y along the left edge is taken at different places.
* **C84 The transmissibilities are stored where they are used**
  * `C84_overrun_refuted`: Temp_Trans and Psi_Trans are allocated with nfv columns, Trans with nfv+ncv (tdympfao.c:2313, 2434, 2505), but the three are filled alike. In a column of cells, the vertices between two cells have 5 faces, 2 cells and 4 boundary faces: the sixth column is written outside the array. With a single cell, the same happens at its corners.
  * `C84_corner_columns_refuted`: Lines 1723-1735 store [T_2[row][col] = Told[row][j]] where [T_2[row][j] = Told[row][col]] is needed. When the faces of the vertex are those of the sub-cell rotated, the columns are mixed up: a unit pressure on the boundary face whose flux is 2 is taken for that of another face. (The matrix is right. Whether a mesh generator produces this order was not examined.)
  * `C84_salt_refuted`: In SALINITY mode the rows of Psi_Trans_mat of all vertices but the corners stay empty: lines 1815-1819 compute variable 0, and variable 1 in TH mode, but never variable 2. The product of lines 258-259 of tdympfao_snes_salinity.c, the diffusive flux of salt, is zero there whatever the concentrations, although the same G matrices give a flux of pressure of 8/3.
* **C85 The steady multi-point flux system is a balance**
  * `C85_corner_refuted`: At corners the system does not contain the multi-point fluxes: tdympfao_steady.c: 337-424 still reads the three boundary columns of Trans as columns 0 to 2, where the setup now stores the cell and two of the boundary faces. A cell whose three sub-faces have transmissibilities 1, 2 and 3, at pressure 1 against a boundary at 0: the fluxes sum to 6, the row of the system gives 3.
  * `C85_repeated_refuted`: The call is not repeatable: K is cleared, F is not, so the second system has the sources and boundary terms twice.
  * `C85_closed_refuted`: With a closed boundary the boundary pressures do not matter, but the function is called all the same (lines 189-195): without one, a NULL pointer.
* **C86 Recovered face velocities of the multi-point flux scheme**
  * `C86_corner_refuted`: The velocity at a corner has the wrong sign. tdympfao_utils.c:629-638 multiplies the value twice by the sign of the face and so leaves G (u - pB), which is minus the flux; everywhere else the value is minus Trans times the pressures. A single cell at pressure 1, boundary at 0: the flux of the matrix is -3, the velocity 3.
  * `C86_rest_refuted`: Water at rest gets a velocity. The head of a cell is its pressure plus the weight of the column below it, but prescribed boundary pressures are used as they are (lines 329-331). All cells and boundary faces at the height where that weight is 1, and all at pressure -1: nothing should flow.
* **C87 The Jacobian of the coupled water and heat mode**
  * `C87_temperature_refuted`: The temperature columns are wrong: the term [T * (1.0 + dden_dT * gz)] that belongs to the pressure is used for the temperature as well. Here nothing depends on the temperature of cell 0, but the entry of its water equation for it is 1.
  * `C87_boundary_refuted`: Fluxes through the boundary are left out: a boundary face gets its cell as both sides, so that the block is added and subtracted in the same row (and vertices with one cell are skipped). Here water leaves cell 0 through an inner face and through the boundary; the derivative of its residual by its pressure is 2, the entry 1.
  * `C87_gravity_refuted`: With gravity the pressure columns have the factor [1 + dden_dP * gz], but the residual of this mode has no gravity term. Here the derivative is 2, the entry 2.75.
* **C89 Orientation of faces**
  * `C89_diagonal_refuted`: The corners of the unit square in an order in which the first two are opposite to each other: the order is not repaired and the normal is not a number.
  * `C89_warped_refuted`: A warped face: the normal has length 1/3.
* **C90 Distances and projected areas of faces**
  * `C90_store_refuted`: AllocateFaces gives the rows of unit_vec_up_dn two numbers, and three are written: every mesh whose first face is well-formed writes outside of its array.
* **C91 Volumes and centres of cells read from a mesh file**
  * `C91_warped_refuted`: Two cells that fill a box of volume 2, with a warped face between them: the faces of the box are flat, each of them is made up of faces of the two cells, and the face between the cells is the same for both. The volumes add up to 23/12, because the two cells split the common face along different diagonals.
* **C92 Faces of a mesh read from a file**
  * `C92_memory_refuted`: The code as it is uses freed memory for every conforming mesh in which a local cell has a neighbour with a larger number: UpdateMapsC2F_F2C_F2V frees face_to_cell and keeps the new table to itself (tdymeshcustom.c:744-745), and CreateInternalFaces reads the freed one.
* **C93 Cells around a vertex of a mesh read from a file**
  * `C93_too_many_refuted`: Whenever more than 24 cells share a vertex, the set-up writes past the table before it could report the error: the test comes after the write, and it looks at the vertex with the number of the position within the cell (tdymeshcustom.c:814-820).
* **C94 Areas and distances of faces of a mesh read from a file**
  * `C94_room_refuted`: AllocateFaces gives unit_vec_up_dn rows of two numbers and three are written (tdymeshcustom.c:1135-1137): every such mesh with a local cell that has a neighbour with a larger number writes outside of the array.
* **C95 Natural and region numbers of cells after distribution**
  * `C95_one_process_refuted`: With several unknowns per cell (water and heat: two) the number stored is wrong already on one process: [nf] times the place of the cell.
  * `C95_collision_refuted`: With several unknowns per cell and several processes different cells get the same number whenever the number of cells of the first process is a multiple of the number of unknowns: the cells [k] and [nf * k], if the first process owns [nf * k] cells (tdymeshplex.c:631 adds the place in the vector, which counts unknowns, to a number of cells).
  * `C95_regions_refuted`: In all other cases memory outside the vector read from the file is accessed: the vector is created without the layout of the mesh (tdymeshplex.c:674-681).
* **C96 Gravity term of the multi-point scheme**
  * `C96_tilted_refuted`: A permeability that lets a vertical gradient drive flow along x (a tilted layer), on a face across the x axis: the pressure of water at rest gives a flux and the gravity term is zero, so water at rest starts to flow.
  * `C96_tiny_refuted`: A permeability below 2^-52 square metres (clay, unfractured rock) is taken for zero: no gravity at all (tdympfao.c:2044).
  * `C96_negative_refuted`: Negative entries of a permeability are dropped too: on a face at 45 degrees the term is twice what balances water at rest (C96_rest_partial: area·|g|·(K n)_z).
  * `C96_two_point_refuted`: … but never between two layers of equal thickness and different permeability, however regular the mesh: the pressure uses the arithmetic mean, gravity the harmonic one.
* **C97 Closures of mesh points and the sizes of the mesh tables**
  * `C97_growth_refuted`: One closure with more than 432 points (a vertex with many cells around it) is enough for the program to use memory it has given back: the function that makes the table larger frees the table of the caller and keeps the new one to itself (tdyutils.c:29-38).
  * `C97_mixed_refuted`: A mesh with cells of different kinds is not refused: the error code comes back as the number of vertices, and all tables are made with 83 entries per cell.
  * `C97_unsupported_refuted`: Nor is a mesh of tetrahedra, pyramids or anything else that is not supported: 83 corners per cell, with 83 faces each, and 83 vertices per face.
* **C98 Test problems with known solution in the demonstrations**
  * `C98_wheeler2012_1_refuted`: Asked for several points, the velocity of that problem is only ever written to the first two entries; the entries of all other points keep what they were (steady.c:240-241).
  * `C98_constant2D_refuted`: With an array of two entries per point the velocity function always writes outside of it, as it takes three entries per point in the plane too (steady.c:33-35).
  * `C98_quadratic3D_refuted`: The forcing of the program is another one: it takes entry 3 of the tensor for entry 4 (steady.c:98).
  * `C98_transient_refuted`: The forcing of the transient demonstration sets the first of its points only (transient.c:25).
  * `C98_unknown_refuted`: But problem 4 in space, problem 0 and problems from 5 on are not refused without -paper: the program goes on with none of its functions set.
* **C99 Output files hold the fields of the right cells and describe themselves correctly**
  * `C99_getters_refuted`: With several unknowns per cell the getter of the pressure is refused, because the vector it extracts into has all unknowns, and on several processes the getter of the saturation reads beyond the end of its vector.
  * `C99_saturation_refuted`: It is not otherwise: it is converted to the natural order twice, so for every distribution that changes the order of the cells there is a saturation field that is written to the wrong cells.
  * `C99_exodus_refuted`: In Exodus format the pressure is written in the global and the saturation in the natural order: the two variables of a file belong to different cells for every distribution that changes the order of the cells.
  * `C99_ascii_refuted`: In ASCII format the file name of the saturation does not fit into its buffer, whatever the time.
  * `C99_fields_refuted`: With several unknowns per cell nothing is written in HDF5 format on one process (an error), and on several processes in any format memory outside the saturation is read; in Exodus format on one process all unknowns are written under the name of the pressure.
  * `C99_processes_refuted`: On several processes each of them appends the closing tags: the file is never well-formed.
  * `C99_other_format_refuted`: A run that never asks for HDF5 output still appends the closing tags: it leaves a file that is not well-formed, also when an earlier run left a well-formed one.
  * `C99_times_refuted`: Other times may print alike, and then the later output replaces the earlier one: 100000 s and 100000.4 s for example.
  * `C99_shapes_refuted`: Meshes of pyramids or of mixed shapes, and processes without cells, read outside the table of shapes or print a null pointer.
  * `C99_header_refuted`: In two dimensions the header says there are no vertices, and with several unknowns per cell it multiplies the number of cells.
* **C100 The driver starts every supported run with matching equations, state and materials**
  * `C100_residual_refuted`: The functions called by the driver also accept, on their own, a steady solve of the coupled water and heat mode, with the residual of the water-only mode.
  * `C100_jacobian_refuted`: In all other combinations it is not: a run with salt gets the Jacobian of the water-only mode, and the two further time formulations get none.
  * `C100_default_field_refuted`: The default initial field is 101325 everywhere: also for temperatures and mass fractions, where that is not a possible value.
  * `C100_file_field_refuted`: The other two modes ignore that file, readable or not.
  * `C100_initial_conditions_refuted`: A file of initial conditions that is missing or of the wrong length is not reported: the run starts as if the option had not been given.
  * `C100_previous_refuted`: With PETSc's time stepper it is zero unless the initial field comes from a file; the output of the initial state shows these zeros (C99).
  * `C100_materials_refuted`: The molecular weight of salt set by the caller is always replaced by the option's.
* **C101 Materials read from a file reach the right cells**
  * `C101_porosity_error_refuted`: A missing file or data set, or one of the wrong length, is not reported when porosities are read: an uninitialised pointer is used when they are needed.
  * `C101_porosity_unknowns_refuted`: With several unknowns per cell the file must have as many values per cell, and cell number j*ndof+k of the process gets the k-th value of its cell number j.
  * `C101_permeability_refuted`: Without that option the values of the first three cells of the process become the diagonal of the tensor of all its cells, so that the result depends on the distribution; with fewer than three cells the array is read out of bounds.
  * `C101_name_refuted`: The name of a permeability data set of the greatest length the option accepts (one less than the longest path) overflows the buffer it is copied to.
* **C102 The regression file reports the fields**
  * `C102_salinity_refuted`: With salt the file takes every unknown for the pressure of a cell of its own: the statistics are over pressures and mass fractions together.
  * `C102_fields_refuted`: On a mesh whose section does not tell the two fields apart, the temperatures of the statistics are zeros.
  * `C102_numbers_refuted`: The cells are identified by their position in the global order, which depends on the distribution of the mesh, and not by their natural number, as the name of the array says: here cell 0 of the mesh has the value 10 and the file gives 30 for it.
* **C103 Functions handed over from Fortran are the ones used**
  * `C103_functions_refuted`: Both kinds of functions share the counter of the last number, and the first function for the type sets it back to 1: with functions for the porosity, the boundary pressure, its type and then the residual saturation, the boundary pressure is computed with the function for the residual saturation.
  * `C103_many_refuted`: With the 32nd different function the search reads behind the end of the registry of 32 entries (it is enlarged only later), for any functions.
  * `C103_short_names_refuted`: The selection by a name of fewer than 32 characters always reads behind the end of the name, after any history.
  * `C103_two_names_refuted`: A function registered under two names is not found by the first one: the selection uses a null pointer.
  * `C103_name_again_refuted`: A name given to one function and then to another one that was registered before may still mean the first.
  * `C103_points_refuted`: The array of the 3n coordinates is passed with n elements: the boundary pressure of the demonstration, which reads x(3i+1), x(3i+2) and x(3i+3), reads outside of it for every number of points.
  * `C103_mesh_refuted`: The Fortran constructor belongs to no simulator: one set for simulator 1 makes the mesh of simulator 0.
* **C104 The assembled Wheeler-Yotov system balances the water in every cell**
  * `C104_balance_refuted`: The entries of a nearly impermeable cell beside a permeable one are left out of the matrix but its boundary pressure stays in the right hand side: with pressure 1 in all cells and on the boundary there is no flow, and yet the equation of that cell is not satisfied.
* **C105 Destroying a simulator gives its memory back**
  * `C105_all_released_refuted`: C105, refuted: that all memory is given back.
  * `C105_before_setup_refuted`: C105, refuted: that a simulator may be destroyed before its setup; the mesh is read through a NULL pointer, always.
  * `C105_dae_refuted`: C105, refuted: that a simulator of the DAE formulation, whose setup returns at once, may be destroyed.
* **C106 A passing regression test means that the results agree**
  * `C106_nan_refuted`: A run whose results are all nan passes every test that has the same blocks and keys: no comparison with nan is true, in particular not the one that reports a failure.
  * `C106_skip_refuted`: The setting skip_check_regression leaves out the comparison whatever its value is, also with "False" or "no": the text that is not true stays a text, which counts as true.
  * `C106_case_refuted`: A type of tolerance that is not in small letters is accepted when the configuration is read, but then every comparison fails, even of equal values.
* **C107 The printed velocity error measures the error of the velocities**
  * `C107_units_refuted`: A solution whose fluxes are all right has a non-zero error: velocity times area of sub-face is compared with flux over area of face (tdympfao_utils.c:192, 202).
  * `C107_wrong_refuted`: A solution whose fluxes are all twice the right ones has error zero.
  * `C107_corner_refuted`: At corners the sign is wrong (see C86_corner_refuted), so that faces of area one with the right fluxes have an error as well.
* **C108 Reading a mesh file keeps every cell and vertex**
  * `C108_vertex_count_refuted`: The number of vertices of the mesh is the number of coordinates: every non-empty mesh is given three times as many vertices as its file has.
  * `C108_neighbours_refuted`: Two tetrahedra with the common face 1-2-3, vertex 1 being the first of the file, are not neighbours: only three entries per cell are looked at, and these share two vertices.
* **C109 Areas and centres of the faces of a mesh read from a file**
  * `C109_ghosts_refuted`: Faces that are sides of ghost cells only get no area and stay at the origin.
  * `C109_centre_refuted`: A flat convex trapezium whose mean of corners is not where its area balances.
  * `C109_warped_refuted`: The area of a side that is not flat depends on the corner its list starts with.
* **C110 Access to the arrays of the sub-cells**
  * `C110_centroids_refuted`: The function for the centroids of the faces hands out the points of continuity instead, whatever the centroids are.
  * `C110_corners_refuted`: The function for the corners takes its offsets from the faces, but every sub-cell has eight corners: it hands out three of them, and those of every sub-cell but the first belong to sub-cells before it.
  * `C110_no_cells_refuted`: A process without cells: the compression reads the count of a sub-cell that does not exist.
* **C111 Room for cells and boundary faces in the matrix of transmissibilities**
  * `C111_room_refuted`: In every other case, as soon as there is a boundary face, the matrix refuses a column and the boundary pressures are stored outside the vector.
  * `C111_enclosed_refuted`: Such a case: a block of 3 x 3 x 3 cells, of which another process owns the one in the middle. All six faces of the ghost cell have an owned cell.
* **C112 Boundary faces given to callers**
  * `C112_only_faces_refuted`: The label was completed with the closures of the faces under the same value: edges and vertices of the boundary are given as faces, and the number is larger than that of the boundary faces.
  * `C112_none_refuted`: A process without boundary faces gets an error instead of an empty list.
  * `C112_references_refuted`: Handing back takes another reference instead of returning the first: after [k] rounds 2k references are left over, and the index set outlives the mesh.

## What is proved, what is missing
* **C01** (proved). Bounds, monotonicity and saturation value at full wetting for both curve types, for all admissible parameters and pressures.
* **C02** (proved). First and second derivatives with respect to pressure, including the one-sided values at the reference pressure.
* **C03** (partial). Bounds, monotonicity and derivative proved; C03_mualem_dry_derivative_refuted shows that the Mualem derivative is 0/0 at effective saturation 0.
* **C04** (proved). The smoothing polynomial is determined by its four conditions; values, slopes and bounds on the smoothed interval.
* **C05** (partial). Whole-array saturation: proved for every history. On-point evaluation: proved unless a hash table of 7 or more points is asked about a point it does not hold (C05_on_points_refuted: out-of-range read). Whole-array relative permeability: proved when one type covers points 0..n-1; refuted otherwise (loop counter used as point index). A point assigned to both types gets different curves from the two evaluators (C05_double_assignment_refuted).
* **C06** (partial). Positivity, continuity, monotonicity and derivatives for the pressure-only models; the Batzle-Wang models leave the derivative outputs unwritten (C06_outputs_defined_refuted).
* **C07** (proved). Range, zero only for fresh water, strict monotonicity.
* **C08** (partial). Two-sided inverse for every invertible matrix; the caller's matrix is kept only if no non-zero entry is below machine epsilon (refuted otherwise).
* **C09** (proved). All clauses proved, for triangles and for flat convex quadrilaterals in order; C89 says what happens to warped or crossed ones.
* **C10** (proved). Range and defining equations of the polar angle for every non-zero vector.
* **C11** (partial). First position when present; a missing value returns 76, outside the list only for lists of at most 76 elements (refuted beyond).
* **C12** (partial). SNES branch: proved for every schedule of solver outcomes and every growth factor > 0. TS branch (PETSc's TSSolve taken from its documentation): the first run reaches the target, a second one need not (C12_ts_second_run_refuted).
* **C13** (partial). Equality proved when no attempt that would have reached the target fails; in general the clock never lags behind the accepted steps. Refuted otherwise: a failed target step, or an earlier run that ended with an error, makes the clock jump.
* **C14** (proved). Bounds and the exact size of every attempt; refuted when the initial step exceeds the maximum.
* **C15** (proved). Termination with explicit bounds for growth factors >= 1; a growth factor below 1 is accepted by the options and need not terminate (refuted).
* **C16** (partial). Checkpoints: exact list of step numbers and contents, final state included. Outputs: exact for runs without failed solves; with failures every due step is written and nothing off-interval, but steps are repeated and step 0 is written (refuted). Interval 0 divides by zero (refuted).
* **C17** (partial). Missing prerequisites are refused with nothing changed, for every state. Other errors can leave changes behind, mode and discretization are not frozen by the setup, and reading the options first crashes (refuted with witnesses); no undefined behaviour for programs that choose first and stop at errors.
* **C18** (partial). Unsupported pairs refused, supported accepted, and operations match after any successful calls without command-line override. Refuted: the return codes of the command-line override are ignored; the field-count function is stale in TH mode and BDM's for WY.
* **C19** (partial). Exactly once in reverse order for the first cycle of a process, any number of registrations, and no array overflow. Refuted for later cycles (freed globals are reused), for finalizing twice and for profiling without a setup.
* **C20** (proved). For every history of a cycle. C20_after_finalize_refuted records that lookups after finalization read freed memory.
* **C21** (partial). Every context of a kind the code tracks is destroyed exactly once, replaced contexts included, nothing else is. Refuted: two kinds are forgotten by the destructor; setting the same context again for the same kind destroys it while in use.
* **C22** (partial). Proved for every kind and every history of settings. Refuted only for constant boundary velocity.
* **C23** (partial). Proved for clean result arrays; refuted when the result arrays hold earlier content.
* **C24** (partial). Proved for all options except the thermal conductivity one, which sets porosity (refuted); the driver keeps every property the user set except the saline molecular weight (refuted).
* **C25** (partial). Proved for Richards mode with non-empty processes; TH with few cells, SALINITY and empty processes refuted.
* **C26** (partial). C26_pack and C26_redistribution cover the whole path from packing to local cells, ghosts, neighbours, vertices and coordinates, for every mesh, distribution, numbering and sorting routine; the width of the neighbour field is right (C26_max_neighbours). Refuted part: the width of the vertex field is computed without counting vertex 0 (tdyugrid.c:175), so a mesh whose largest cell contains the first vertex loses a vertex (C26_max_vertices_refuted); C26_max_vertices_partial covers meshes where no cell uses vertex 0. The end-to-end theorem assumes the width is right (fits) and that every process receives at least one cell.
* **C27** (proved). C27_to_local is the renumbering on one process for neighbour lists with any repetitions; C26_redistribution shows the resulting numbering is right on every process; C27_injective and C27_owned_once give the bijection.
* **C28** (partial). C28_vertices, and the coordinates in C26_redistribution. Refuted for a process that received no cells: it reads the first element of an empty array (C28_empty_refuted, tdyugrid.c:981).
* **C29** (proved). C29_preallocation, for the neighbour tables that C26_redistribution shows are produced. Cell graphs list a neighbour once (MatMeshToCellGraph), so neighbours and distinct neighbours coincide.
* **C30** (partial). C30_natural_position, C30_round_trip, C30_local, C30_local_round_trip and C30_restart hold for every permutation, partition, block size and vector. Refuted part: the mesh's table of global cell numbers (tdymeshcustom.c:36-44) copies indices of unknowns, so it is wrong as soon as there is more than one unknown per cell (C30_mesh_numbers_refuted); with one unknown it is right (C30_mesh_numbers_partial). DMPlex orderings are PETSc's and not modelled; layouts of vectors read from files are assumed to match the global vector.
* **C31** (proved). FV-TPF residual assembly: per-cell balance, sum over a process, cancellation on one process, definedness. The MPFA-O side is C41.
* **C32** (partial). Assembled matrix proved equal to the derivative for columns of cells without open boundary faces, away from switching points. Open boundary faces: Dirichlet Jacobian wrong on inflow (ukvr left 0) and, with gravity and compressibility, wrong gravity derivative (also seepage): refuted; the remaining cases are the _partial theorems. Boundary pressure is held fixed (faces whose boundary pressure follows the cell are not covered).
* **C33** (proved). Diagonal of the permeability tensors only, as in the code.
* **C34** (proved). Interior faces and closed reservoirs of the FV-TPF scheme.
* **C35** (partial). Proved when every interior face can conduct; refuted for dry faces: Res, Jup and Jdn are automatic variables that the flux routines leave unwritten when both relative permeabilities are below 1e-8.
* **C36** (partial). Seepage residual and both boundary Jacobians proved; the Dirichlet residual uses index -id+1 (two faces further) instead of -id-1: refuted.
* **C37** (proved). Both schemes: C37_fvtpf* for the two-point scheme, C37_mpfao_* for the multi-point scheme, with strict outflow when the potential drives it.
* **C38** (proved). Every call of the solver starts from the last accepted solution with its stored mass at the call's step size.
* **C39** (proved). C39_uniform holds for every vertex whose faces are numbered as SetupUpwindFacesForSubcell numbers them (well_numbered), every G matrix and every boundary type; LAPACK is represented by its contract A X = B and the local matrix is assumed non-singular. C39_no_overrun: all array writes stay in bounds. C39_corner covers vertices with a single cell. bc_type is one value for the whole mesh, so a vertex never mixes Dirichlet and Neumann faces.
* **C40** (proved). C40_continuous: the flux stored for every sub-face is the flux computed inside each adjacent sub-cell for one common set of interface pressures; Neumann sub-faces carry none. LAPACK by contract.
* **C41** (proved). C41_balance gives every entry and the sum for any partition (the fluxes across the boundary of the owned cells remain); C41_interior_cancels and C41_closed_domain are the one-process cases. Volumes, porosities and sources are arbitrary; the flux itself is characterised by is_flux in SpecMpfaoTs.v.
* **C42** (partial). Proved for the transient and the one-step Jacobian, all cells, any uninitialised memory, where boundary pressures are prescribed, the state family is consistent (fluid functions of pressure with the reported derivatives) and the upwind direction is decided. Refuted without a boundary pressure function (the boundary copies the cell pressure) and with connected regions (the array used by the Jacobian is not cleared).
* **C43** (partial). Pressure formulation proved for every fluid, volume and source. Transient-variable and DAE formulations hold for unit volumes only and multiply the mass rate by the volume a second time; the one-step residual of both schemes omits the volume of the source.
* **C44** (partial). The saturation diagnostic is exact for the owned cells in their order, and the vector is completely overwritten. The mass diagnostic is density times volume: it equals the stored mass only where porosity times saturation is 1; refuted otherwise (tdympfao.c and tdyfvtpf.c use the same expression).
* **C45** (partial). Both equations of a salinity step are proved to be net outflow plus change of storage minus source, for every mesh and state. The statement itself is refuted: the advective salt flux is the pressure-driven part of the water flux whatever the concentration (fresh water carries salt) and the gravity-driven part carries none. It holds where the concentration upstream is 1 and gravity does not act (C45_carried_partial).
* **C46** (partial). The same-region test is exact; a second addition replaces the first (refuted) and a cell beyond the region array reads out of bounds instead of being an error (refuted).
* **C47** (proved). Proved for every block size and vector.
* **C48** (proved). Proved for every matrix and tolerance.
* **C49** (proved). Proved for any number of dimensions, extents and prior heap; deallocation frees exactly the array's blocks.
* **C50** (proved). Timers and stages, within a cycle: equal answers exactly for equal names, one PETSc registration per distinct name.
* **C51** (partial). Viscosity positive; brine denser than fresh water in a physical range; fresh-water viscosity increases with temperature (refuted, sign of 0.045) and the density excess is not the published one (refuted, 80*3*T instead of 80+3*T).
* **C52** (partial). Refuted: the factor is hard-coded to 1/4 and the configured value is never used.
* **C53** (partial). Safe before a discretization is chosen and after the options are read, if mode and discretization are not changed later; refuted in the window between and after late changes.
* **C54** (partial). Proved when the simulator is set up once; repeated setups keep the first metadata (refuted).
* **C55** (proved). Proved for every mesh and region assignment.
* **C56** (partial). Holds for sub-faces without gravity term; refuted with gravity because the gravity vector is not cleared between regions.
* **C57** (partial). Salinity: Darcy's law where the sign of the pressure term agrees with that of the full drive and no seepage face is dry; refuted otherwise (upwinding by the pressure term alone, seepage test missing). Water and heat: Darcy's law up to rounding on level faces; gravity is missing altogether. The Richards mode is C41.
* **C58** (partial). Balance of both equations without ghost cells (or if reading behind the rate vector were harmless); energy flux and storage rates proved. With ghost cells the function always reads beyond the end of U_t (C58_parallel_refuted, for every mesh with ghosts). The storage rate is that of the stored energy only if the stored derivatives are right; du_dP and du_dT are never assigned (C62).
* **C59** (proved). All four update functions, any number of cells and any history of curve assignments in which every cell has one saturation curve and relative permeability curves of one type are assigned in order (C05); the curves set up by default satisfy this (C59_default_curves). Independence of earlier states for the constant and exponential density and constant viscosity; for brine, C59_salt gives the values.
* **C60** (partial). Discharges the hypothesis 'consistent' of the Jacobian theorems C32 and C42 for constant or exponential density and constant viscosity, at pressures other than the reference pressure (a kink) and 101325 Pa (exponential density). Refuted for the Batzle-Wang density: the stored derivative is 0 after any history.
* **C61** (partial). Proved without ghost cells. Refuted on every process with ghost cells: out-of-range reads in the Richards (both schemes) and salinity modes.
* **C62** (partial). Internal energy as documented. Refuted: du_dP and du_dT are never assigned, so the energy rate is not the derivative of the stored energy; no water property depends on the temperature unknown (density and viscosity use Tref, the only enthalpy model is constant).
* **C63** (partial). Proved for all meshes with distinctly numbered boundary faces and all boundary functions, in all modes, provided the cells with a Gardner curve are all cells or at most six; otherwise the lookup of another cell's curve is out of range (C63_mixed_curves_refuted).
* **C64** (partial). Boundary density, viscosity and enthalpy are computed once at setup, at the reference pressure and temperature and zero salt content, and never updated: right for constant properties, refuted for exponential and Batzle-Wang density.
* **C65** (proved). All 8 functions on quadrilaterals and all 24 on hexahedra, at all points and for all maps: flux on every face, divergence, and the numbering of the lumped quadrature.
* **C66** (proved). Proved for every star of affine cells. LAPACK is represented by its contract; that the local matrix is nonsingular is proved, not assumed.
* **C67** (proved). For exact solutions of the local systems. Entries below 1e4 eps of the largest, which the assembly drops, are not dropped in the model.
* **C68** (partial). Flows cancel on every mesh and the divergence is the outflow; refuted as a mass balance because the storage term lacks the cell volume (true for cells of volume one).
* **C69** (partial). Proved for residual saturation zero; refuted otherwise: Sr is allocated but never filled, so the saturation can fall below the residual one.
* **C70** (partial). Proved for tables with at least one row. Refuted for a process without cells, vertices or faces: the conversion reads num[0].
* **C71** (partial). Cells, vertices and faces proved for every mesh of uniform cells whose closures fit their arrays. Refuted for the cells of an edge: only the first two are stored.
* **C72** (partial). Vertices of faces and (boundary) faces around vertices proved. Refuted for the number of cells of a face returned by the access functions.
* **C73** (partial). Faces, dual basis, sign, exactness for linear pressures, sub-face areas and storage proved. Refuted: in a cell with a pushed-in corner the sign is wrong (C73_distorted_refuted); the sub-face centroids are written to another array than the one they are read from (C73_centroid_refuted); a vertex with other than three faces in a cell leads to undefined behaviour instead of an error (C73_three_faces_refuted).
* **C74** (proved). Proved for every vertex whose numbering is as SetupUpwindFacesForSubcell makes it (well_numbered, two_sided) and whose sub-cells are as in C73; C74_determined says that the interface pressures are determined by the scheme's demands. The example is two unit cubes with a full tensor.
* **C75** (partial). Opposite entries, two-point form and exactness for orthogonal faces and homogeneous isotropic permeability proved. Refuted: layers in series (C75_series_refuted), heat on faces with negative normals (C75_heat_refuted; right for positive axes), salt (C75_salinity_refuted).
* **C76** (partial). Proved for every vertex with conforming surroundings and a way round it in two levels (C77 is about how that is found): every face gets exactly one connection, and the numbers satisfy well_numbered and two_sided, the hypotheses of the theorems about the local systems (C36-C39, C74). Refuted without a complete way round: a missed boundary face keeps is_face_up = -1, is not counted as upwind (test == 1) but placed as upwind (test != 0), so that a face disappears from the vertex although success is reported; without levels the unknown -1 is used as index.
* **C77** (partial). Proved for every conforming vertex with at least two cells whose neighbourhood is layered (vertical prisms, columns not ending at the vertex): any result is a way round the vertex, a result exists if the cells of each level are side by side, and the numbering of C76 follows. Simplification: a face of the vertex outside the table of faces counts as not belonging to a cell. Refuted outside these meshes: with tilted columns side faces are not recognised and a face is lost although success is reported; with one cell above and two below the second entry of a list of length one is read.
* **C78** (partial). Proved for every mesh of vertical columns with enough room in the rows, for every numbering; combined with C77 it gives well formed local systems. Partial for the row size of the code: proved where no level has as many cells as the vertex with most cells. Refuted otherwise: on every mesh with a local vertex of the largest number of cells all on one side of it (all meshes of one layer) an integer is written behind a row; a vertex with unequal numbers above and below is refused, but the caller ignores the error and the numbering then indexes with -1. Rows are modelled as optional lists with a capacity (None for the initial -1).
* **C79** (partial). Proved for every mesh whose cells are images of the square or cube (`boxes`), in every order of closures and global numbering: vertices, faces with signs, unknowns; sharing; the link to the hypotheses of the Wheeler-Yotov theorems. Refuted: mixed meshes are not refused, the error code 56 becomes the number of vertices per cell and a buffer is overrun; corners whose computed image misses the vertex by more than 1e-12 are silently mapped to point 0 and the setup then reads before an array. Checks compiled only with PETSC_USE_DEBUG are left out.
* **C80** (partial). Proved: local system, inverse, global system as weak form, one-dimensional quadrature, what a missing boundary pressure means (pressure zero, not no flow), what a second assembly does. Refuted: the permeability is inverted in place, so a second assembly solves another problem; singular permeabilities pass unnoticed. One process owns all cells in the global theorem; the local one has no such restriction.
* **C81** (proved). Proved for every solution of the assembled system.
* **C82** (proved). Proved for full and lumped quadrature; in exact arithmetic, with the solution as a vector of numbers 0..size-1.
* **C83** (partial). Proved for full quadrature: the solution exists, is unique and exact. Refuted for lumped quadrature: two unit squares, pressure y.
* **C84** (partial). Proved for RICHARDS; TH and SALINITY overrun Temp_Trans and Psi_Trans on some meshes (refuted, with the condition under which they do not). The columns of corners are permuted wrongly for rotated orders (refuted, proved for the others), and the salt matrix stays empty (refuted). The numbering of the mesh setup is a hypothesis (good_tmesh).
* **C85** (partial). Proved for meshes and conditions without flux through corners; refuted at corners, for repeated calls and for a closed boundary without a pressure function.
* **C86** (partial). Proved: no fault; on local faces away from the corners of the mesh, velocity times area equals the multi-point flux of the stored matrix; without gravity and corners, the velocities of a solution of the steady system balance the sources; exact formula with the sign -1 at corners (C86_signs). Refuted: the sign at corners; water at rest gets a velocity because boundary pressures carry no gravity term. The error that the same loops accumulate is C107.
* **C87** (partial). Proved for the pressure columns of cells away from the boundary without gravity, and for all storage terms when the stored derivatives are those of the state. For the temperature columns it is proved exactly which term of each sub-face is wrong and that the rest is the derivative of the two fluxes. Refuted: temperature columns of neighbouring cells, boundary faces, gravity factor. The arrays drho_dT, dS_dT, dvis_dT, du_dP and du_dT are never assigned by the code (see C62).
* **C88** (proved). Proved. What DMPlexGetPointGlobal returns (number, or -(number+1) for ghosts) is a hypothesis; the rows of the tables are those of C70-C72. edges->is_local is not modelled, nothing reads it.
* **C89** (partial). Proved for flat convex faces whose vertices are in order or with the last two exchanged; refuted when the first two vertices are opposite to each other (normal not a number) and for warped faces (length below one).
* **C90** (partial). Values proved after the orientation of C89. Refuted: unit_vec_up_dn has rows of two numbers and three are written, on every mesh; with rows of three the attributes are stored correctly (C90_store_partial).
* **C91** (partial). Proved for convex cells with flat faces; refuted for warped faces: neighbouring hexahedra split a common face along different diagonals, so volumes do not add up. Of AllocateCells only the sizes are modelled.
* **C92** (partial). C92_memory_refuted: UpdateMapsC2F_F2C_F2V frees face_to_cell and hands nothing back, so CreateInternalFaces reads freed memory for every mesh with two neighbouring cells. C92_faces_partial: with the table handed back everything is as it should be (also the renumbering of cell_to_face in place, and the search over as many faces as a cell has vertices). Not stated: num_boundary_faces is set to the number of all faces although no boundary faces are created, so boundary conditions have no effect on such meshes; face_to_vertex_natural and the map from vertices to cells are not modelled.
* **C93** (partial). C93_too_many_refuted: whenever more than 24 cells share a vertex, the set-up writes past the last row of vertex_to_cell; the test comes after the write and looks at the wrong vertex. C93_map_partial: up to 24 cells the map is exact.
* **C94** (partial). C94_room_refuted: unit_vec_up_dn has rows of two numbers and three are written, for every mesh with a connection. C94_faces_partial: given room (and the table of C92 handed back), all attributes are right for convex cells with flat faces; the two cells of a common side must run through it in opposite directions, which says that they do not overlap. ComputeGeoAttrOfUGridFaces, whose results nothing reads, is not modelled.
* **C95** (partial). C95_one_field_partial: with one unknown per cell the numbers are right for every distribution. C95_one_process_refuted, C95_collision_refuted: with several unknowns per cell they are multiples of the right ones, and different cells share a number on several processes. C95_regions_partial / C95_regions_refuted: region numbers are right exactly when PETSc's default split of the file agrees with the distribution of the mesh; otherwise memory outside the vector is accessed.
* **C96** (partial). C96_rest_partial: constant density, one symmetric permeability around the vertex with no negative or tiny entries, and faces whose K-normal lies along the line between the centres. C96_tilted_refuted: with an off-diagonal permeability water at rest flows. C96_tiny_refuted: permeability below 2^-52 m^2 gets no gravity. C96_negative_refuted: negative entries are dropped. C96_two_point_partial / C96_two_point_refuted: with two-point fluxes, layers of different permeability are never at rest.
* **C97** (partial). C97_saved_partial: closures are kept whole while none has more than 432 points. C97_growth_refuted: a longer one makes the code free the table of its caller and go on with the freed memory. C97_mixed_refuted and C97_unsupported_refuted: meshes with mixed or unsupported cells are not refused; the error code 83 is used as a size.
* **C98** (partial). Refuted parts: the velocity of Wheeler2012 problem 1 writes only the first two entries of the output array whatever the number of points; the constant velocity writes three entries per point although two-dimensional callers pass two; the quadratic three-dimensional forcing uses entry 3 of the permeability instead of 4; the transient forcing sets only the first point; unknown problem numbers are not refused. Not modelled: the uninitialised problem number when the option is absent, the random perturbation, the column geometry and the error norms.
* **C99** (partial). Refuted parts: the saturation is converted to the natural order twice in HDF5 output; Exodus output mixes the global and the natural order; the ASCII file name of the saturation overruns its buffer by one byte; with several unknowns per cell the getters and the output fail or read outside a vector; on several processes, or without HDF5 output, the XML description is malformed; times that agree to six digits replace each other's output; pyramids, mixed meshes, two-dimensional meshes and several unknowns give a wrong or undefined XML header. Not modelled: Exodus and HDF5 file contents beyond names and values, the local numbers of vertices on several processes, races between processes writing the same XML file.
* **C100** (partial). Refuted parts: runs with salt get the Jacobian of the water-only mode and two time formulations get none; the default initial field sets temperatures and mass fractions to 101325; -tdy_init_file is ignored with heat or salt; an unusable -ic_file is not reported; with PETSc's time stepper the previous solution starts as zero; the caller's molecular weight of salt is replaced. Not modelled: TDySetup, line-search and convergence call-backs, profiling.
* **C101** (partial). Refuted parts: errors while reading porosities are ignored and an uninitialised pointer is used; with several unknowns per cell values go to the wrong cells; without -anisotropic_perm the values of the first three cells of each process become the diagonal of all its tensors (undefined with fewer than three cells); a data set name of maximal length overflows its buffer. Only meshes managed by TDycore itself; two-dimensional tensors are those of C23.
* **C102** (partial). Refuted parts: with salt the statistics mix pressures and mass fractions; temperatures are reported as zero when the mesh has one field; cells are identified by positions in the global order. Rounding of the printed numbers is not modelled.
* **C103** (partial). Holds when functions of one kind are handed over before the other kind and there are at most 31 of each. Refuted: mixed orders (shared counter), 32 or more functions, names shorter than 32 characters, two names, functions that read the coordinates, constructors of several simulators.
* **C104** (partial). Refuted when an entry of a stencil is less than 10^4/2^52 of the greatest entry of the same vertex: it is dropped from the matrix although the right hand side keeps its boundary pressure. The size of the difference is bounded. The solvers of the small dense systems are taken to return solutions.
* **C105** (partial). Proved for MPFA-O: no double release, no access through NULL, exact count and names of the blocks left over, additive over successive simulations. Missing from full release, and refuted with one hexahedron: TDyDestroy_MPFAO never frees K, K0, porosity, Kappa, Kappa0; TDyMeshDestroy never frees bc_type, projected_area, dist, dist_wt_up, dist_up_dn, unit_vec_up_dn of the faces nor the connected region. Refuted: destroying an MPFA-O simulator before TDySetup, or one with the DAE formulation (whose setup returns at once), passes a NULL mesh to TDyMeshDestroy. TDyDestroy_FVTPF is safe at any time but frees only thirteen arrays and neither the mesh nor the context. Temporaries of the mesh construction, closures that outgrow their first room (C97) and the other parts of the TDy object are not in this model.
* **C106** (partial). Proved: the verdict is equivalent to the agreement of all blocks, keys and values (values that are numbers, one per line); for files written by TDycore it means agreement of the sampled cells and of maximum, minimum, mean and samples of every field; missing files fail; which tolerance is used for which kind. Refuted: a result that is NaN passes every comparison; setting skip_check_regression to any value, also False, skips the comparison; a tolerance type is accepted in capitals but then not recognised. Not modelled: comparison of HDF5, ASCII and restart files, several values per line, solution blocks, running the program.
* **C107** (partial). Proved: the velocities are those of C86; on meshes without corners the accumulated error is the sum of the squares of flux over area of the whole face minus prescribed flux through the sub-face; the printed number is the root of the mean over all processes; it is zero exactly if every flux is the prescribed flux times the area of the face. Refuted: it does not vanish for exact fluxes, and vanishes for fluxes that are twice too large, because a velocity is compared with a flux; the sign at corners; without a prescribed velocity 0/0 is printed.
* **C108** (partial). Cells and vertices: proved for all files and distributions. Refuted: the number of vertices kept is the number of coordinates. Neighbours: proved when no cell uses vertex 1 of the file; refuted otherwise, since that vertex (number 0) is not counted as a vertex when the number of columns is determined. MatMeshToCellGraph is taken to connect cells with at least three common columns.
* **C109** (partial). Areas and centres of the sides of local cells are proved from a hypothesis on the tables of faces; C109_meshes derives that hypothesis for conforming meshes from C92_tables, with face_to_cell handed back as in C92. Refuted: faces of ghost cells only, centres of quadrilaterals that are not parallelograms, areas of warped faces. The two arrays are not read anywhere else in the code.
* **C110** (partial). Own entries are proved for nine of the eleven functions. Refuted: the function for the face centroids hands out the points of continuity (also C73), the function for the corners uses the offsets of the faces and hands out three corners, of other sub-cells but for the first; a process without cells reads outside an array (also C70). Entries of all arrays have one type in the model; that the arrays are filled with full rows is the result of C73 for the sub-cells themselves.
* **C111** (partial). Proved for processes with at most as many ghost cells as faces without an owned cell (always on one process; C111_two_faces gives a condition on each ghost cell). Refuted otherwise: a ghost cell enclosed by owned cells (C111_enclosed_refuted) makes the matrix refuse a column and the boundary pressures are stored outside the vector. The flags and numbers come from C88.
* **C112** (partial). Proved: all boundary faces are given, nothing twice, with their number. Refuted: edges and vertices of the boundary are given as well, because the label was completed with closures under the same value; a process without boundary faces gets an error; every round of asking and handing back leaves two references. What the PETSc functions do is assumed (external.md); the order of the points is not modelled.
