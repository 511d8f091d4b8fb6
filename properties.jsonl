{"id": "C01", "title": "Saturation stays between residual and full, and is monotone", "statement": "Whatever saturation model is selected, the liquid saturation reported for a cell lies in [residual saturation, 1], is exactly 1 when the cell is at or above the reference pressure, is strictly above residual otherwise, and never increases when the capillary pressure increases.", "quantifier": "every capillary pressure, residual saturation in [0,1] and admissible parameter set of the Gardner and van Genuchten models", "why_tests_cant": "a continuum of pressures and parameters; tests sample a handful of points", "anchors": ["src/materials/tdycharacteristiccurves.c:PressureSaturation_Gardner, PressureSaturation_VanGenuchten"]}
{"id": "C02", "title": "Reported saturation derivatives are the derivatives of the reported saturation", "statement": "The first and second derivatives of saturation with respect to liquid pressure that the library reports are the mathematical derivatives of the saturation it reports, at every pressure except the kink at the reference pressure; at the kink the reported first derivative is a one-sided derivative.", "quantifier": "every pressure and admissible parameter set of both saturation models", "why_tests_cant": "a wrong exponent can agree with finite differences at the sampled points within tolerance; the claim is about all of them", "anchors": ["src/materials/tdycharacteristiccurves.c:PressureSaturation_Gardner, PressureSaturation_VanGenuchten, SaturationCompute"]}
{"id": "C03", "title": "Relative permeability is a normalised monotone function with the right derivative", "statement": "Relative permeability is 0 in a dry medium and 1 in a saturated one, lies in [0,1], never decreases with effective saturation, and its reported derivative is the derivative of the reported value.", "quantifier": "every effective saturation in [0,1] and admissible parameter of the Irmay and (unsmoothed) Mualem models", "why_tests_cant": "continuum of saturations and exponents", "anchors": ["src/materials/tdycharacteristiccurves.c:RelativePermeability_Irmay, RelativePermeability_Mualem_Unsmoothed"]}
{"id": "C04", "title": "Mualem smoothing joins smoothly", "statement": "The cubic used to smooth the Mualem relative permeability near full saturation agrees with the unsmoothed curve in value and slope at the start of the smoothing interval, and reaches value 1 with slope 0 at the end of it, so the smoothed curve has no jump in value or slope at the junction.", "quantifier": "every smoothing interval and every Mualem parameter for which the setup succeeds", "why_tests_cant": "the coefficients come from a linear solve; only an algebraic argument covers all intervals", "anchors": ["src/materials/tdycharacteristiccurves.c:RelativePermeability_Mualem_GetSmoothingCoeffs, CubicPolynomialSetup, CubicPolynomialEvaluate, RelativePermeability_Mualem"]}
{"id": "C05", "title": "Each point gets the curve that was last assigned to it, and nothing else is touched", "statement": "After any history of curve assignments, evaluating saturation (or relative permeability) for the whole mesh stores at each assigned point the value of the curve most recently assigned there with that point's parameters and that point's input, leaves unassigned points untouched, and evaluating on a list of points gives the same answers.", "quantifier": "every history of curve-assignment calls, every disjoint assignment of points and every input array", "why_tests_cant": "histories and assignments are unbounded; existing tests assign one curve to all cells in order", "anchors": ["src/materials/tdycharacteristiccurves.c:SaturationSetType, RelativePermeabilitySetType, SaturationCompute, SaturationComputeOnPoints, RelativePermeabilityCompute, RelativePermeabilityComputeOnPoints"]}
{"id": "C06", "title": "Water density is positive, monotone and has the reported derivatives", "statement": "For every selectable density model that depends only on pressure, the density is positive, continuous and non-decreasing in pressure, and the reported first and second derivatives are the derivatives of the reported density; every selectable model defines all of its outputs.", "quantifier": "every pressure, temperature and salinity, every density/viscosity/enthalpy model selector", "why_tests_cant": "continuum of states; an output that is never written looks fine whenever the memory happened to hold zero", "anchors": ["src/materials/tdyeos.c:ComputeWaterDensity, ComputeWaterViscosity, ComputeWaterEnthalpy"]}
{"id": "C07", "title": "Salinity mass fraction is a fraction", "statement": "The mass fraction computed from a solute concentration is 0 for fresh water, lies in [0,1) and strictly increases with concentration.", "quantifier": "every non-negative concentration and positive molecular weight", "why_tests_cant": "continuum of inputs", "anchors": ["src/materials/tdyeos.c:ComputeSalinityFraction"]}
{"id": "C08", "title": "3x3 inverse is the inverse", "statement": "Inverting a 3x3 matrix with non-zero determinant yields a matrix whose product with the input, as the caller passed it, is the identity on both sides, and leaves the caller's matrix unchanged.", "quantifier": "every 3x3 real matrix with non-zero determinant", "why_tests_cant": "nine-dimensional continuum; the clean-up of tiny entries only shows for badly scaled matrices", "anchors": ["src/tdyutils.c:ComputeInverseOf3by3Matrix, ComputeDeterminantOf3by3Matrix"]}
{"id": "C09", "title": "Plane, projection and normal computations satisfy their geometry", "statement": "The plane through three points contains them; the intercept of a segment with the plane lies on both; the projection of a point lies on the plane and moves only along its normal; unit normals have length 1 and are perpendicular to the face; areas and volumes are non-negative, do not depend on where the origin is, and the two tetrahedron-volume routines agree.", "quantifier": "every non-degenerate set of points in 3-D", "why_tests_cant": "continuum of configurations", "anchors": ["src/tdyutils.c:ComputePlaneGeometry, GeometryGetPlaneIntercept, GeometryProjectPointOnPlane, TDyUnitNormalToTriangle, TDyComputeLength, TDyTriangleArea, VolumeOfTetrahedron, VolumeofTetrahedron"]}
{"id": "C10", "title": "Polar angle is the polar angle", "statement": "The angle computed for a non-zero planar vector lies in [0, 2*pi) and the vector is its length times (cos, sin) of it.", "quantifier": "every point of the plane except the origin", "why_tests_cant": "quadrant and axis cases on a continuum", "anchors": ["src/tdyutils.c:ComputeTheta"]}
{"id": "C11", "title": "Index lookup finds the element or reports failure", "statement": "Looking up a value in a list yields a position holding that value (the first one) when it occurs, and reports failure, never a usable-looking position, when it does not.", "quantifier": "every list and value", "why_tests_cant": "lists are unbounded", "anchors": ["src/tdyutils.c:TDyReturnIndexInList"]}
{"id": "C12", "title": "Running to a time ends exactly at that time or reports an error", "statement": "Asking the time integrator to run to a target either returns an error or returns with the simulation time equal to the target; along the way the simulation time never decreases and never passes the target.", "quantifier": "every sequence of non-linear solver outcomes, every initial step, maximum step, growth factor >= 1 and target time", "why_tests_cant": "solver failures form an unbounded schedule that tests cannot enumerate", "anchors": ["src/tdyti.c:TDyTimeIntegratorRunToTime, TDyTimeIntegratorSetTargetTime, TDyTimeIntegratorUpdateDT"]}
{"id": "C13", "title": "No simulated time is skipped", "statement": "The time by which the clock advances during a run equals the sum of the step sizes that the non-linear solver actually accepted.", "quantifier": "every sequence of solver outcomes", "why_tests_cant": "needs a failure exactly on a step that had been shortened to hit the target", "anchors": ["src/tdyti.c:TDyTimeIntegratorRunToTime, TDyTimeIntegratorUpdateDT"]}
{"id": "C14", "title": "Step sizes stay positive and below the maximum", "statement": "Every step size given to the solver is positive, never exceeds the configured maximum, and is never longer than the time left to the target; after a failed solve the retried step is strictly smaller.", "quantifier": "every sequence of solver outcomes, positive initial step not above the maximum, growth factor >= 1", "why_tests_cant": "unbounded schedules", "anchors": ["src/tdyti.c:TDyTimeIntegratorRunToTime, TDyTimeIntegratorUpdateDT, TDyTimeIntegratorSetTargetTime"]}
{"id": "C15", "title": "The run loop terminates and gives up after a bounded number of failures", "statement": "A run performs finitely many solves: at most 25 failing ones, after which it reports an error, and a number of successful ones bounded in terms of the span and the smallest step.", "quantifier": "every sequence of solver outcomes; growth factor >= 1", "why_tests_cant": "termination over all schedules is not testable", "anchors": ["src/tdyti.c:TDyTimeIntegratorRunToTime"]}
{"id": "C16", "title": "Every checkpoint and output interval is honoured", "statement": "With output every n steps, the result is written after exactly those accepted steps whose number is a multiple of n; a checkpoint is written after every accepted step whose number is a multiple of the checkpoint interval, and the final state is always checkpointed when checkpointing is on.", "quantifier": "every sequence of solver outcomes, every pair of intervals", "why_tests_cant": "unbounded schedules and interval combinations", "anchors": ["src/tdyti.c:TDyTimeIntegratorRunToTime", "src/tdyio.c:TDyIOOutputCheckpoint"]}
{"id": "C17", "title": "Calls out of order are refused without side effects", "statement": "Every call that requires mode, discretization, options or setup to be in place returns an error when it is not, and an erroring call leaves the simulator's configuration unchanged; once set up, the mode, discretization and options can no longer change.", "quantifier": "every finite sequence of API calls on a simulator object", "why_tests_cant": "call histories are unbounded", "anchors": ["src/tdycore.c:TDySetMode, TDySetDiscretization, TDySetFromOptions, TDySetup, TDySetDMConstructor"]}
{"id": "C18", "title": "Only supported mode/discretization pairs are ever active", "statement": "In every reachable configuration the active solver implementation is the one belonging to the selected mode and discretization, and unsupported pairs are refused.", "quantifier": "every finite sequence of mode and discretization selections", "why_tests_cant": "histories include re-selection of the mode after the discretization", "anchors": ["src/tdycore.c:TDySetMode, TDySetDiscretization"]}
{"id": "C19", "title": "Shutdown functions run exactly once, in reverse order of registration", "statement": "Finalizing the library runs every function registered since initialization exactly once, most recent first, and no other; this holds for every initialize/finalize cycle of the process.", "quantifier": "every sequence of initialize, register and finalize calls, any number of registrations", "why_tests_cant": "numbers of registrations (array growth) and cycles are unbounded", "anchors": ["src/tdycore.c:TDyOnFinalize, TDyFinalize, TDyInitSubsystems"]}
{"id": "C20", "title": "Named function registry behaves like a map", "statement": "Looking up a name returns the function most recently registered under that name, and reports an error for a name never registered.", "quantifier": "every sequence of registrations and lookups", "why_tests_cant": "histories are unbounded", "anchors": ["src/tdycore.c:TDyRegisterFunction, TDyGetFunction"]}
{"id": "C21", "title": "Every user context is released exactly once", "statement": "A context handed over with a destructor, for a condition or a material property, is destroyed exactly once: when it is replaced or when the simulator is destroyed; a context without destructor is never touched.", "quantifier": "every sequence of set calls followed by destruction, all eight condition kinds and all eight property kinds", "why_tests_cant": "leaks and double frees depend on the history of calls", "anchors": ["src/tdyconditions.c:ConditionsSet*, ConditionsDestroy", "src/materials/tdymaterialproperties.c:MaterialPropSet*, MaterialPropDestroy"]}
{"id": "C22", "title": "Conditions and properties evaluate to what was last set", "statement": "After any history, evaluating a condition or property calls the function last set for that kind with the context last set for it; kinds never set are reported as absent; constant conditions give the constant at every point; setting one kind does not affect another.", "quantifier": "every history of set calls, every number of points", "why_tests_cant": "histories and array sizes are unbounded", "anchors": ["src/tdyconditions.c", "src/materials/tdymaterialproperties.c"]}
{"id": "C23", "title": "Tensor-valued properties fill the whole matrix", "statement": "Setting a tensor property as a constant or spatially varying scalar, diagonal or full tensor makes the evaluated property at each point the corresponding dim x dim matrix (scalar times identity, diagonal matrix, or the given matrix), with every entry defined.", "quantifier": "every dimension, number of points, point index and prior content of the output array", "why_tests_cant": "array sizes are unbounded; entries never written keep whatever was there before", "anchors": ["src/materials/tdymaterialproperties.c:ConstantIsotropicTensorWrapperFunction, IsotropicTensorWrapperFunction, ConstantDiagonalTensorWrapperFunction, DiagonalTensorWrapperFunction, ConstantFullTensorWrapperFunction, FullTensorWrapperFunction"]}
{"id": "C24", "title": "Each command-line option sets its own parameter", "statement": "Every numeric material option given by the user changes the default value of the quantity it names and of nothing else; options not given leave the defaults.", "quantifier": "every set of options and every value", "why_tests_cant": "combinations of options are exponentially many and values are unbounded", "anchors": ["src/tdycore.c:ReadCommandLineOptions, SetDefaultOptions"]}
{"id": "C25", "title": "Regression output samples distinct existing cells on every process", "statement": "The cells sampled for regression output are distinct, belong to the process that reports them and lie within the global vector.", "quantifier": "every partition of cells over processes and every requested number of cells per process, all modes", "why_tests_cant": "partitions and requests are unbounded", "anchors": ["src/tdyregression.c:TDyRegressionInitialize"]}
{"id": "C26", "title": "Mesh redistribution loses nothing", "statement": "Packing a cell's connectivity and its neighbour list into the natural-order record and reading it back on the receiving process yields the same cell number, vertices and neighbours.", "quantifier": "every mesh, every cell, any number of vertices and neighbours within the maxima", "why_tests_cant": "mesh sizes are unbounded", "anchors": ["src/fv/share/tdyugrid.c:PackNatOrderVector, SaveNaturalCellIDs, CellAndDualIDs_FromNatOrder_To_GlobalOrder"]}
{"id": "C27", "title": "Local and ghost numbering is a bijection", "statement": "On every process the owned cells get local numbers 0..n-1 in global order and the off-process neighbours get the numbers n..n+g-1, each distinct neighbour exactly one number, and translating a neighbour reference to its local number and back gives the original global number.", "quantifier": "every partition and every neighbour list, with any repetitions", "why_tests_cant": "unbounded lists with duplicates", "anchors": ["src/fv/share/tdyugrid.c:DualIDs_FromPetscOrder_To_LocalOrder, DetermineNeigbhorsCellIDsInGhostedOrder"]}
{"id": "C28", "title": "Vertex renumbering is a bijection that preserves connectivity", "statement": "Renumbering mesh vertices locally assigns to each distinct vertex used by the process exactly one local number, numbers are contiguous, and the renumbered connectivity refers to the same vertices.", "quantifier": "every connectivity list", "why_tests_cant": "unbounded lists with duplicates", "anchors": ["src/fv/share/tdyugrid.c:ChangeVertexNatOrderToLocalOrder"]}
{"id": "C29", "title": "Matrix preallocation is exact", "statement": "For each owned cell the reserved number of matrix entries equals one (itself) plus the number of its distinct on-process neighbours in the diagonal block, and the number of off-process neighbours in the off-diagonal block.", "quantifier": "every neighbour table", "why_tests_cant": "unbounded neighbour tables", "anchors": ["src/fv/share/tdyugdm.c:TDyUGDMCreateMatrix", "src/fv/share/tdyugrid.c:DetermineNeigbhorsCellIDsInGhostedOrder"]}
{"id": "C30", "title": "Natural, global and local orderings are mutually inverse", "statement": "Converting a vector from global to natural order and back yields the same vector, for every distribution over processes; consequently a checkpoint written by one run and used as initial condition by another restores the same cell values whatever the partition.", "quantifier": "every permutation and partition, every vector", "why_tests_cant": "partitions are unbounded", "anchors": ["src/tdydiscretization.c:TDyGlobalToNatural, TDyNaturalToGlobal", "src/tdyio.c:TDyIOOutputCheckpoint, TDyIOReadIC"]}
{"id": "C31", "title": "Two-point flux scheme conserves mass", "statement": "In the residual of the two-point flux discretization, the sum over all cells equals the change of stored mass minus sources plus the flux through the domain boundary: every internal face removes from one cell exactly what it gives to the other.", "quantifier": "every mesh connectivity, every state", "why_tests_cant": "meshes and states are unbounded", "anchors": ["src/fv/fvtpf/tdyfvtpf_snes.c:TDyFVTPFSNESFunction, RichardsResidual"]}
{"id": "C32", "title": "Two-point flux Jacobian is the derivative of the residual", "statement": "The Jacobian contribution of a face is the derivative of its flux contribution with respect to the pressures on both sides; the accumulation Jacobian is the derivative of the accumulation term.", "quantifier": "every pair of cell states at which the upwind direction is decided, all boundary condition kinds", "why_tests_cant": "continuum of states; finite-difference tests have tolerances", "anchors": ["src/fv/fvtpf/tdyfvtpf_snes.c:RichardsJacobian, RichardsBCJacobian, RichardsSeepageBCJacobian, TDyFVTPFSNESJacobianAccumulation"]}
{"id": "C33", "title": "Effective face permeability is a mean", "statement": "The effective permeability between two cells is positive, does not change when the two cells are swapped, lies between the directional permeabilities of the two cells, and equals the common value when both are equal.", "quantifier": "every pair of positive permeabilities and distances", "why_tests_cant": "continuum", "anchors": ["src/fv/fvtpf/tdyfvtpf.c:FVTPFComputeFacePermeabililtyValueTPF, FVTPFCalculateDistances", "src/fv/mpfao/tdympfao.c:ComputeFacePermeabilityValueTPF"]}
{"id": "C34", "title": "No flow in equilibrium, and flow goes down the potential", "statement": "Between two cells in hydrostatic equilibrium the flux is zero; otherwise mass flows from the higher to the lower potential; with equal pressure and no gravity there is no flow.", "quantifier": "every pair of states with non-negative mobility", "why_tests_cant": "continuum", "anchors": ["src/fv/fvtpf/tdyfvtpf_snes.c:RichardsResidual", "src/fv/mpfao/tdympfao_ts.c:TDyMPFAOIFunction_Vertices"]}
{"id": "C35", "title": "The residual is a function of the state", "statement": "Evaluating the residual twice for the same state gives the same value, whatever was in memory before: every face contributes a defined amount.", "quantifier": "every state, including completely dry neighbouring cells, and every prior memory content", "why_tests_cant": "uninitialised memory usually happens to be zero in tests", "anchors": ["src/fv/fvtpf/tdyfvtpf_snes.c:RichardsResidual, TDyFVTPFSNESFunction, TDyFVTPFSNESJacobian"]}
{"id": "C36", "title": "Boundary faces use their own boundary values", "statement": "A boundary face's flux is computed from the boundary pressure, density, permeability and viscosity stored for that face.", "quantifier": "every number of boundary faces and every face", "why_tests_cant": "an index slip shows only for particular faces", "anchors": ["src/fv/fvtpf/tdyfvtpf_snes.c:RichardsBCResidual, RichardsSeepageBCResidual, RichardsBCJacobian", "src/fv/fvtpf/tdyfvtpf.c:TDyFVTPFUpdateBoundaryState"]}
{"id": "C37", "title": "Seepage faces never let water in", "statement": "Through a face with a seepage condition, water can leave the domain but never enters from a boundary at or below atmospheric pressure.", "quantifier": "every state, both finite-volume schemes", "why_tests_cant": "continuum", "anchors": ["src/fv/fvtpf/tdyfvtpf_snes.c:RichardsSeepageBCResidual", "src/fv/mpfao/tdympfao_ts.c:TDyMPFAOIFunction_Vertices"]}
{"id": "C38", "title": "A failed step leaves no trace", "statement": "After a failed non-linear solve, the retry starts from the last accepted solution, and the stored-mass reference used by the retry is that of the last accepted solution with the new step size.", "quantifier": "every state and every number of consecutive failures", "why_tests_cant": "unbounded failure sequences", "anchors": ["src/fv/fvtpf/tdyfvtpf_snes.c:TDyFVTPFSNESPreSolve, TDyFVTPFSNESTimeCut", "src/tdycore.c:TDyTimeCut", "src/tdyti.c"]}
{"id": "C39", "title": "Uniform pressure causes no multi-point flux", "statement": "With the multi-point flux discretization, a pressure that is the same in all cells and on all Dirichlet faces around a vertex produces zero pressure-driven flux on every sub-face of that vertex, whatever the permeabilities, the cell shapes and the mix of boundary conditions.", "quantifier": "every interior, boundary or Neumann-touching vertex with a non-singular local system", "why_tests_cant": "every mesh, tensor and boundary configuration", "anchors": ["src/fv/mpfao/tdympfao.c:ComputeTransmissibilityMatrix_ForNonCornerVertex, ComputeTransmissibilityMatrix_ForBoundaryVertex_NotSharedWithInternalVertices, ComputeCandFmatrix"]}
{"id": "C40", "title": "Multi-point fluxes are continuous and vanish on Neumann faces", "statement": "The sub-face flux computed from the up side equals the one computed from the down side for the interface pressures eliminated by the local system, and no flux crosses a Neumann sub-face.", "quantifier": "every vertex with a non-singular local system, every cell and boundary pressure", "why_tests_cant": "every mesh and tensor", "anchors": ["src/fv/mpfao/tdympfao.c:ComputeTransmissibilityMatrix_ForNonCornerVertex"]}
{"id": "C41", "title": "Multi-point flux residual conserves mass", "statement": "Summed over all cells, the multi-point residual contains only accumulation, sources and boundary fluxes: internal sub-face fluxes cancel.", "quantifier": "every mesh, state and set of boundary conditions", "why_tests_cant": "unbounded", "anchors": ["src/fv/mpfao/tdympfao_ts.c:TDyMPFAOIFunction_Vertices"]}
{"id": "C42", "title": "Multi-point Jacobian is the derivative of the flux", "statement": "For every sub-face, the Jacobian entries assembled for it are the derivatives of its flux with respect to each cell pressure.", "quantifier": "every state where the upwind direction is decided", "why_tests_cant": "continuum", "anchors": ["src/fv/mpfao/tdympfao_ts.c:TDyMPFAOIJacobian_Vertices, TDyMPFAOIJacobian_Accumulation"]}
{"id": "C43", "title": "All time formulations solve the same mass balance", "statement": "The fully discrete, differential-algebraic and transient-variable formulations of the same problem express the same balance: rate of change of (density x porosity x saturation x volume) plus net outflow minus source x volume.", "quantifier": "every state, cell volume and source", "why_tests_cant": "shows only for non-unit cell volumes", "anchors": ["src/fv/mpfao/tdympfao_ts.c:TDyMPFAOIFunction", "src/fv/mpfao/tdympfao_ts_dae.c:TDyMPFAOIFunction_DAE", "src/fv/mpfao/tdympfao_ts_transientvar.c", "src/fv/mpfao/tdympfao_snes.c:TDyMPFAOSNESFunction", "src/fv/fvtpf/tdyfvtpf_snes.c"]}
{"id": "C44", "title": "Reported liquid mass is the stored mass", "statement": "The liquid mass diagnostic of a cell equals the mass whose change enters the residual: density x porosity x saturation x volume.", "quantifier": "every state", "why_tests_cant": "continuum", "anchors": ["src/fv/fvtpf/tdyfvtpf.c:TDyUpdateDiagnostics_FVTPF", "src/fv/mpfao/tdympfao.c:TDyUpdateDiagnostics_MPFAO"]}
{"id": "C45", "title": "Dissolved salt moves with the water", "statement": "The advective salt flux through a face is the water mass flux times the upstream salt concentration; fresh water carries no salt.", "quantifier": "every state", "why_tests_cant": "continuum", "anchors": ["src/fv/mpfao/tdympfao_snes_salinity.c:TDyMPFAOSNESFunction_Salinity"]}
{"id": "C46", "title": "Cells can be grouped into regions", "statement": "After adding lists of cells to a region, the region contains exactly the cells added; two cells are reported to be in the same region exactly when both are, and an invalid cell is an error.", "quantifier": "every sequence of additions and every pair of cells", "why_tests_cant": "histories are unbounded", "anchors": ["src/fv/mpfao/tdyregion.c"]}
{"id": "C47", "title": "Splitting interleaved fields is exact", "statement": "Extracting one field from a vector of interleaved fields returns for each cell that field's value of that cell.", "quantifier": "every number of cells and fields", "why_tests_cant": "unbounded", "anchors": ["src/tdyutils.c:ExtractSubVectors"]}
{"id": "C48", "title": "Symmetry check is exact up to its tolerance", "statement": "The symmetry check of an assembled matrix reports a failure exactly when some pair of mirrored entries differs by more than its tolerance.", "quantifier": "every square matrix", "why_tests_cant": "unbounded sizes", "anchors": ["src/tdydebug.c"]}
{"id": "C49", "title": "Multi-dimensional work arrays are consistent", "statement": "After allocating a 2-, 3- or 4-dimensional work array every in-range element exists, is distinct from every other element and holds the documented initial value.", "quantifier": "every combination of extents", "why_tests_cant": "unbounded sizes", "anchors": ["src/tdymemory.c"]}
{"id": "C50", "title": "A named timer is created once and shared", "statement": "Asking for a timer or profiling stage by name creates it at most once: every later request with the same name yields the same timer, different names yield different timers.", "quantifier": "every sequence of requests", "why_tests_cant": "histories are unbounded", "anchors": ["src/tdytimers.c", "include/tdytimers.h"]}
{"id": "C51", "title": "Temperature- and salt-dependent water properties follow their correlation", "statement": "With the Batzle-Wang models, the viscosity is positive and, as in the published correlation, falls when water is warmed; dissolved salt raises the density by the published amount.", "quantifier": "every temperature, pressure and salt mass fraction in the range of the correlation", "why_tests_cant": "a sign or a missing plus in a correlation changes the trend only in part of the range; samples near reference conditions look plausible", "anchors": ["src/materials/tdyeos.c: ComputeWaterDensity_BatzleWang, ComputeWaterViscosity_BatzleWang"]}
{"id": "C52", "title": "The configured reduction factor is what a failed step is cut by", "statement": "After a failed solve the retried step size is the failed one multiplied by the reduction factor configured with -tdy_dt_reduction_factor.", "quantifier": "every configured factor and every schedule of solver failures", "why_tests_cant": "needs a solver failure at run time together with a non-default factor", "anchors": ["src/tdyti.c:TDyTimeIntegratorRunToTime, TDyTimeIntegratorCreate"]}
{"id": "C53", "title": "A simulator can be destroyed at any point of its life", "statement": "Destroying a simulator after any sequence of calls uses only objects that exist and belong to the active implementation.", "quantifier": "every finite sequence of API calls followed by destruction", "why_tests_cant": "the set of call sequences is infinite, and a test that destroys at one point says nothing about the others", "anchors": ["src/tdycore.c:TDyDestroy, TDySetDiscretization, TDySetFromOptions"]}
{"id": "C54", "title": "The timing profile describes the simulator that was set up", "statement": "With profiling enabled, the footer of the timing profile carries the mode, discretization and size the simulator had at its last setup.", "quantifier": "every sequence of calls of a process with one simulator", "why_tests_cant": "histories are unbounded", "anchors": ["src/tdytimers.c:TDySetTimingMetadata, TDyWriteTimingProfile"]}
{"id": "C55", "title": "Faces between different connected regions are closed and no others", "statement": "When connected regions are in use, after updating the transmissibilities every interior face whose two cells lie in different regions transmits nothing (its flux row is zero), and the rows of every other face are exactly what they were.", "quantifier": "every mesh, every region assignment and every transmissibility matrix", "why_tests_cant": "the set of meshes and region assignments is unbounded; a test inspects a handful of faces", "anchors": ["src/fv/mpfao/tdympfao.c:UpdateTransmissibilityMatrix", "src/fv/mpfao/tdyregion.c"]}
{"id": "C56", "title": "Disconnected regions exchange no water", "statement": "When connected regions are in use, no water flows between two cells of different regions, whatever their pressures and whatever gravity.", "quantifier": "every mesh, region assignment and state", "why_tests_cant": "shows only with gravity and several regions; the set of meshes and states is unbounded", "anchors": ["src/fv/mpfao/tdympfao.c:UpdateTransmissibilityMatrix, ComputeGravityDiscretizationFor8CornerHex", "src/fv/mpfao/tdympfao_ts.c:TDyMPFAOIFunction_Vertices"]}
{"id": "C57", "title": "Water flow obeys Darcy's law with gravity in every mode", "statement": "Whether water flows alone, with salt or with heat, the water flux through a face is density x upstream mobility x (pressure drive + gravity), the upstream side being the one the water comes from, and a dry seepage face admits no water.", "quantifier": "every mesh, state and flow mode", "why_tests_cant": "continuum of states; the modes are separate copies of the same loop", "anchors": ["src/fv/mpfao/tdympfao_snes_salinity.c:TDyMPFAOIFunction_Vertices_Salinity", "src/fv/mpfao/tdympfao_th_ts.c:TDyMPFAOIFunction_Vertices_TH"]}
{"id": "C58", "title": "Energy is conserved when water and heat flow together", "statement": "The energy residual of every owned cell is net outflow of heat (water flux x upstream enthalpy, minus conduction) plus rate of change of the energy stored in water and rock minus sources; fluxes between owned cells cancel; it can be evaluated on any number of processes.", "quantifier": "every mesh, state and distribution", "why_tests_cant": "continuum of states; reads beyond an array may go unnoticed", "anchors": ["src/fv/mpfao/tdympfao_th_ts.c:TDyMPFAOIFunction_TH"]}
{"id": "C59", "title": "The state of a cell is a function of the solution in that cell", "statement": "After a state update every cell holds the saturation, relative permeability, permeability, density and viscosity belonging to its own curves, material and unknowns; neither values of other cells nor the state left by earlier updates matter.", "quantifier": "every number of cells, curve assignment, material, solution and previous state, in all four modes", "why_tests_cant": "a dependence on the previous state or on a neighbour shows only for particular sequences of updates", "anchors": ["src/fv/mpfao/tdympfao.c:TDyUpdateState_Richards_MPFAO", "src/fv/mpfao/tdympfao.c:TDyUpdateState_TH_MPFAO", "src/fv/mpfao/tdympfao.c:TDyUpdateState_Salinity_MPFAO", "src/fv/fvtpf/tdyfvtpf.c:TDyUpdateState_Richards_FVTPF"]}
{"id": "C60", "title": "The stored derivatives are derivatives of the stored state", "statement": "Density, viscosity, saturation and relative permeability of a cell change with its pressure at exactly the rates stored beside them, so that Jacobians built from them are Jacobians of the residual.", "quantifier": "every cell, material, curve, equation of state and pressure", "why_tests_cant": "difference quotients only test single pressures and hide small errors", "anchors": ["src/fv/mpfao/tdympfao.c:TDyUpdateState_Richards_MPFAO", "src/fv/fvtpf/tdyfvtpf.c:TDyUpdateState_Richards_FVTPF"]}
{"id": "C61", "title": "The state before a time step is computed from the previous solution on every process", "statement": "The state update at the start of a time step reads only values of the previous solution, on any number of processes.", "quantifier": "every mesh, distribution and solution", "why_tests_cant": "reads beyond an array usually go unnoticed", "anchors": ["src/fv/mpfao/tdympfao_snes.c:TDyMPFAOSNESPreSolve", "src/fv/mpfao/tdympfao_snes_salinity.c:TDyMPFAOSNESPreSolve_Salinity", "src/fv/fvtpf/tdyfvtpf_snes.c:TDyFVTPFSNESPreSolve"]}
{"id": "C62", "title": "The energy of water follows pressure and temperature", "statement": "In the thermal mode the internal energy of water is enthalpy minus P/rho, density, viscosity and energy depend on the temperature of the cell, and the rate of change of energy in the residual is that of the stored energy.", "quantifier": "every cell, material, equation of state, solution and sequence of updates", "why_tests_cant": "continuum of states and sequences", "anchors": ["src/fv/mpfao/tdympfao.c:TDyUpdateState_TH_MPFAO", "src/materials/tdyeos.c:EOSComputeWaterEnthalpy"]}
{"id": "C63", "title": "Every boundary face gets the prescribed value and the curves of its cell", "statement": "Before every residual evaluation each boundary face holds the pressure (temperature, salinity) prescribed at its centroid, or that of its cell if none is prescribed, and the saturation and relative permeability of its cell's curves at that pressure; the values of the cells are unaffected, and an error in a user's boundary function is reported.", "quantifier": "every mesh and numbering of boundary faces, boundary function, assignment of curves, solution and previous state", "why_tests_cant": "index slips and lookup failures depend on mesh, numbering and assignment; the histories are unbounded", "anchors": ["src/fv/mpfao/tdympfao_utils.c:TDyMPFAOUpdateBoundaryState, TDyMPFAO_SetBoundaryPressure, TDyMPFAO_SetBoundaryTemperature, TDyMPFAO_SetBoundarySalineConcentration", "src/fv/fvtpf/tdyfvtpf.c:TDyFVTPFUpdateBoundaryState, TDyFVTPFSetBoundaryPressure"]}
{"id": "C64", "title": "Water entering through the boundary has the properties prescribed there", "statement": "Density and viscosity of water on a boundary face are those of the equation of state at the pressure, temperature and salt content of that face.", "quantifier": "every equation of state, boundary condition and sequence of evaluations", "why_tests_cant": "must hold at all pressures and after every history", "anchors": ["src/fv/mpfao/tdympfao.c:AllocateMemoryForBoundaryValues, AllocateMemoryForEnergyBoundaryValues", "src/fv/fvtpf/tdyfvtpf.c:AllocateMemoryForBoundaryValues"]}
{"id": "C65", "title": "Basis functions of the mixed finite elements carry water through one face only", "statement": "Each H(div) basis function has a normal flux on exactly one face of its cell, where it is the multilinear function of its corner; the flux is preserved by every map of the reference cell, and the divergence is constant with unit total outflow, as the assembled pressure coupling assumes. The lumped quadrature points are the corners in the same numbering.", "quantifier": "all points of the cell, all 8 and 24 basis functions, all invertible maps", "why_tests_cant": "polynomial identities for all points and maps; 88 hand-written polynomials of which a test samples a few values", "anchors": ["src/fe/tdyfe.c:HdivBasisQuad, HdivBasisHex, Piola, SetQuadrature", "src/fe/tdybdm.c:TDyBDMComputeSystem"]}
{"id": "C66", "title": "Linear pressure gives exact Darcy velocities in the Wheeler-Yotov method", "statement": "Around any vertex of affine cells, if the pressure is linear in each cell, agrees at face centres, has equal normal fluxes, and the boundary faces carry its values, then the velocities recovered by the multipoint flux method are exactly the Darcy velocities.", "quantifier": "all dimensions, numbers of cells, affine shapes, full permeability tensors, gradients and pressures", "why_tests_cant": "an identity over all shapes and tensors; convergence tests only sample a few meshes", "anchors": ["src/fe/tdywy.c:Pullback, TDyWYLocalElementCompute, TDyWYRecoverVelocity"]}
{"id": "C67", "title": "The Wheeler-Yotov stencil is symmetric, conservative and consistent with the velocities", "statement": "The cell-centred stencil of a vertex is symmetric and positive semidefinite, its action on any pressures equals the outflow of the velocities recovered from them, uniform pressure causes no flow, and away from the boundary nothing is lost between the cells of the stencil.", "quantifier": "all stars of cells, tensors, pressures and boundary values", "why_tests_cant": "must hold for every mesh and tensor; tests compare two separately coded routines only at sampled solutions", "anchors": ["src/fe/tdywy.c:FormStencil, TDyWYComputeSystem, TDyWYRecoverVelocity"]}
{"id": "C68", "title": "The transient Wheeler-Yotov residual is the mass balance of each cell", "statement": "The residual of a cell is the rate of change of the water in it plus the outflow through its faces less the sources, and flows between cells cancel in the sum.", "quantifier": "all meshes, velocities, storage coefficients and rates", "why_tests_cant": "a missing factor is invisible on unit cells; cancellation must hold on all meshes", "anchors": ["src/fe/tdywy.c:TDyWYResidual"]}
{"id": "C69", "title": "The Wheeler-Yotov method uses the prescribed material of every cell", "statement": "Saturation, relative permeability and permeability of every cell follow from its curves, its permeability and its residual saturation at its own pressure.", "quantifier": "all materials, curve assignments and solutions", "why_tests_cant": "no test sets a residual saturation for this method, and the relation must hold at all pressures", "anchors": ["src/fe/tdywy.c:TDySetup_WY, TDyUpdateState_WY"]}
{"id": "C70", "title": "Compressing the mesh tables keeps every row", "statement": "Moving the rows of a table to the front of its array, in place, leaves every row as it was and makes the offsets point to it; arrays that share their offsets stay consistent with each other.", "quantifier": "all tables, row lengths and reserved sizes", "why_tests_cant": "the copy is in place and its sources and destinations overlap, depending on all the row lengths before it; tests use meshes with a handful of row patterns", "anchors": ["src/fv/share/tdymeshplex.c:725-918 ConvertMeshElementToCompressedFormat*", "src/fv/share/tdymeshplex.c:925-1122", "src/fv/share/tdymesh.c:16-318"]}
{"id": "C71", "title": "The connectivity tables contain exactly the incidences of the mesh", "statement": "After setup the tables list, for every cell, its vertices, edges and faces in order; for every vertex, the cells around it, each with the position of the vertex in the cell; for every face, its cells.", "quantifier": "all DMPlex meshes of uniform cells", "why_tests_cant": "the tables are filled incrementally over all cells with a search for free slots, so what a row contains depends on the whole mesh; tests use box meshes", "anchors": ["src/fv/share/tdymeshplex.c:3174-3271 DetermineConnectivity", "src/tdyutils.c:164-182"]}
{"id": "C72", "title": "The tables of the faces contain exactly the incidences of the mesh", "statement": "For every face the tables list its vertices; for every vertex the faces around it, each with the position of the vertex in the face, and the boundary faces around it; and the access functions say how many there are.", "quantifier": "all meshes", "why_tests_cant": "as for the cells; the number of entries is derived from offsets set elsewhere, and only the last face is wrong", "anchors": ["src/fv/share/tdymeshplex.c:3320-3403 DetermineConnectivity", "src/fv/share/tdymesh.c:259-318 AllocateFaces", "src/fv/share/tdymesh.c:1225-1250 TDyMeshGetFaceCells, TDyMeshGetFaceNumCells"]}
{"id": "C73", "title": "The sub-cells of the multi-point scheme have the right geometry", "statement": "For every cell and every vertex of it the sub-cell consists of the vertex's faces in that cell, whatever the order in which the mesh lists them; its nu vectors are dual to the vectors from the cell centre to the face centres; with them the flux of a linear pressure is exact for every tensor; sub-faces share the area of their face; every sub-cell is stored in its place.", "quantifier": "all meshes, cells, vertices, tensors and linear pressures", "why_tests_cant": "a wrong sign or a wrong order shows only in particular orientations of particular cells, and the sum over sub-cells can hide it; tests use a few regular meshes", "anchors": ["src/fv/share/tdymeshplex.c:2829-3036 SetupSubcells", "src/fv/share/tdymeshplex.c:236-275 FindFaceIDsOfACellCommonToAVertex", "src/fv/share/tdymeshplex.c:1384-1413 UpdateFaceOrientationAroundAVertex", "src/fv/mpfao/tdympfao.c:13-126 ComputeEntryOfGMatrix, ComputeGMatrix_MPFAO", "src/fv/share/tdymesh.c:1531-1539 TDyMeshGetSubcellFaceCentroids"]}
{"id": "C74", "title": "Multi-point fluxes are exact for linear pressures", "statement": "Around a vertex with one permeability tensor, if the pressure varies linearly in space and the Dirichlet values agree with it, the multi-point flux through every sub-face is exactly the sub-face's area times n\u00b7K grad p, for full tensors and distorted cells; with no-flow boundaries the same holds if the field does not cross them.", "quantifier": "all vertices with a regular local system, all tensors, all linear pressures, all LAPACK answers", "why_tests_cant": "convergence tests show a rate for one family of meshes; exactness on every mesh and every tensor is a statement about all of them, and it needs that the local elimination has no other solution", "anchors": ["src/fv/mpfao/tdympfao.c:13-126 ComputeGMatrix_MPFAO", "src/fv/mpfao/tdympfao.c:700-1160 ComputeTransmissibilityMatrix_ForNonCornerVertex", "src/fv/share/tdymeshplex.c:2829-3036 SetupSubcells"]}
{"id": "C75", "title": "The two-point variant of the G matrices gives two-point fluxes", "statement": "With -tdy_mpfao_gmatrix_method MPFAO_GMATRIX_TPF the flux between two cells depends only on their two values, is the same seen from both, is exact where two-point fluxes are (orthogonal faces), takes permeabilities of different cells in series, and has the right sign for heat and for salt as well.", "quantifier": "all cells, normals, tensors", "why_tests_cant": "the regression tests of this option use the flow equation with one permeability; the errors appear for normals along negative axes, for layers, and for salt", "anchors": ["src/fv/mpfao/tdympfao.c:128-274 ComputeGMatrix_TPF", "src/fv/share/tdymeshplex.c:2985-3034 nu_star"]}
{"id": "C76", "title": "The faces around a vertex are numbered consistently", "statement": "For every vertex of a conforming mesh whose cells and boundary faces have been ordered into two levels, each face of the vertex gets exactly one up-to-down connection, and from them unknown, flux and upwind numbers with which the local linear systems are well formed: two sub-cells share an unknown exactly where they share a face, one of them is upwind and the other downwind, the faces of the vertex are listed in the order of these numbers, and each with its own sub-face.", "quantifier": "all vertices with any number of cells and boundary faces", "why_tests_cant": "the numbers are derived by searching small permutation tables built for each vertex; box meshes have only eight kinds of vertices; a wrong number shows up only as a slightly wrong flux", "anchors": ["src/fv/share/tdymeshplex.c:1531-1713 SetupUpwindFacesForSubcell", "src/fv/share/tdymeshplex.c:2484-2569 SetUpToDownConnections"]}
{"id": "C77", "title": "The cells around a vertex are put in order", "statement": "On a mesh of vertical columns whose columns do not end at the vertex, the cells above and below a vertex and its boundary faces are put into two rows that go round the vertex: neighbours in a row share a face, cells one above the other are at the same place, the boundary faces follow the cells they belong to, nothing is left out and nothing occurs twice; from them the local systems get well formed (C76). If the cells of a level can be put in a row at all, the code finds such an order.", "quantifier": "all vertices, any number of cells of a level, any order in which the mesh lists them", "why_tests_cant": "the order in which a mesh lists cells and faces is arbitrary; tests see a few box meshes with at most four cells per level", "anchors": ["src/fv/share/tdymeshplex.c:1977-2093 ArrangeCellsInCircularOrder", "src/fv/share/tdymeshplex.c:2224-2482", "src/fv/share/tdymeshplex.c:2571-2692 DetermineUpwindFacesForSubcell_PlanarVerticalFaces"]}
{"id": "C78", "title": "The cells above and below every vertex are found", "statement": "On a mesh of vertical columns every local vertex ends with exactly the cells that lie above it and the cells that lie below it, although most of these lists are not computed but copied from the vertex at the other end of a vertical edge or obtained as the remaining cells; the order in which vertices are visited does not matter, no memory outside the tables is written, and meshes the method does not support are refused.", "quantifier": "all meshes of columns, all numberings of their vertices and cells", "why_tests_cant": "which rows are computed, copied or completed depends on the numbering of the vertices; the overflow of a row by one integer is usually absorbed by the padding of the allocator", "anchors": ["src/fv/share/tdymeshplex.c:1716-1949 DetermineCellsAboveAndBelow", "src/fv/share/tdymeshplex.c:2694-2827 FindCellsAboveAndBelowVertices", "src/fv/share/tdymeshplex.c:3039-3052", "src/tdyutils.c:164-200 TDyMaxNumberOfCellsSharingAVertex"]}
{"id": "C79", "title": "The unknowns of the finite elements belong to the right faces and vertices", "statement": "Setting up the BDM and Wheeler-Yotov methods yields, for every cell, corner and direction, the vertex at this corner, the face there with the sign of its normal and the number of the unknown of this vertex of this face, whatever the order in which the closures list their points; two cells on both sides of a face get the same unknowns for it, different faces and vertices never share one, and meshes the method does not support are refused.", "quantifier": "all meshes of quadrilaterals or hexahedra, all orders of the closures, all global numberings", "why_tests_cant": "the orders of closures and the coordinates come from the mesh; tests use boxes near the origin, where the comparison of coordinates is exact", "anchors": ["src/tdycore.c:1478-1556 TDyGetNumberOfCellVertices", "src/fe/tdyfe.c:19-147 CreateCellVertexMap, CreateCellVertexDirFaceMap", "src/fe/tdybdm.c:188-243 TDySetup_BDM", "src/fe/tdywy.c:405-425"]}
{"id": "C80", "title": "The BDM system is the weak form of Darcy's law", "statement": "The assembled BDM system, multiplied by any test function, is the sum over the cells of (K^-1 u, v) - (p, div v) - (q, div u) on the left and of the boundary pressure and source terms on the right, with the quadrature in use; so its solutions are those of the discrete weak form. This holds each time the system is assembled, and a permeability without an inverse is reported.", "quantifier": "all meshes of regular quadrilaterals or hexahedra, all permeability tensors, forcing and boundary functions, both quadratures", "why_tests_cant": "tests compare a few solutions with a manufactured one up to discretisation error; a wrong entry of the system that vanishes in these cases, a second assembly and singular tensors are not covered", "anchors": ["src/fe/tdybdm.c:282-321 TDyKDotADotB, Inverse", "src/fe/tdybdm.c:328-415 IntegratePressureBoundary", "src/fe/tdybdm.c:422-552 TDyBDMComputeSystem"]}
{"id": "C81", "title": "BDM solutions conserve mass in every cell", "statement": "In every solution of the BDM system, the flow out of each cell equals the source in it; it is the sum of the flows through the faces, what leaves one cell through a common face enters its neighbour, and the unknowns of a face are the parts of the normal flow that belong to its vertices, at each point of the face.", "quantifier": "all meshes, tensors, sources and boundary pressures; all cells, faces and points of faces", "why_tests_cant": "tests measure an error norm of the velocity; conservation cell by cell depends on signs and numbers of every local unknown", "anchors": ["src/fe/tdybdm.c:422-552 TDyBDMComputeSystem", "src/fe/tdybdm.c:17-186 HdivBasisQuad, HdivBasisHex"]}
{"id": "C82", "title": "The BDM system has exactly one solution", "statement": "If the permeability is symmetric and positive definite in every cell, the cells are not turned inside out and each is connected to the boundary, the BDM system has exactly one solution.", "quantifier": "all such meshes and permeabilities, all right-hand sides, both quadratures", "why_tests_cant": "a singular matrix shows for particular meshes and quadratures only; an argument over all test functions is needed", "anchors": ["src/fe/tdybdm.c:422-552 TDyBDMComputeSystem"]}
{"id": "C83", "title": "The BDM method reproduces linear pressures", "statement": "On meshes of parallelepipeds with constant permeability and no source, a linear boundary pressure gives a solution with exactly that pressure in the cells and exactly the flow -K grad p through every face, with either quadrature.", "quantifier": "all meshes of parallelograms or parallelepipeds, all constant tensors, all linear pressures", "why_tests_cant": "tests show convergence rates on sequences of meshes; exactness for every mesh and tensor, and its loss at the boundary with the lumped quadrature, hide within the error", "anchors": ["src/fe/tdybdm.c:328-415 IntegratePressureBoundary", "src/fe/tdybdm.c:422-552 TDyBDMComputeSystem", "src/fe/tdyfe.c SetQuadrature"]}
{"id": "C84", "title": "The transmissibilities are stored where they are used", "statement": "The setup of the multi-point flux method writes the transmissibilities of every vertex inside the arrays, and the array (used by the Jacobian and the steady system) and the matrix (used by the residual) hold the same fluxes, those of C40; so the Jacobian of the whole method is the derivative of its residual.", "quantifier": "all meshes with the numbering of the mesh setup, all kinds of boundary conditions, modes RICHARDS, TH and SALINITY, all answers of LAPACK", "why_tests_cant": "whether a store hits its array depends on the largest counts of faces and cells of a vertex in the mesh, and a wrong column shows only as slower convergence of Newton's method", "anchors": ["src/fv/mpfao/tdympfao.c:1126-1512 ComputeTransmissibilityMatrix_ForNonCornerVertex", "src/fv/mpfao/tdympfao.c:1515-1755 ComputeTransmissibilityMatrix_ForBoundaryVertex_NotSharedWithInternalVertices", "src/fv/mpfao/tdympfao.c:1801-1860 ComputeTransmissibilityMatrix", "src/fv/mpfao/tdympfao.c:2277-2520 TDySetup_Richards_MPFAO, TDySetup_TH_MPFAO, TDySetup_Salinity_MPFAO"]}
{"id": "C85", "title": "The steady multi-point flux system is a balance", "statement": "The matrix and right-hand side that TDyComputeSystem assembles state for every owned cell that the multi-point fluxes out of it equal its source, for any pressure; summed over cells, only fluxes through the boundary remain.", "quantifier": "all meshes, boundary conditions and functions, all pressures, all earlier contents of the right-hand side", "why_tests_cant": "tests look at convergence rates on a few meshes; that each flux enters two rows with opposite signs, and every boundary value the right-hand side, is a statement about all cells of all meshes", "anchors": ["src/fv/mpfao/tdympfao_steady.c:11-84 TDyMPFAOComputeSystem_InternalVertices", "src/fv/mpfao/tdympfao_steady.c:87-303 TDyMPFAOComputeSystem_BoundaryVertices_SharedWithInternalVertices", "src/fv/mpfao/tdympfao_steady.c:306-424 TDyMPFAOComputeSystem_BoundaryVertices_NotSharedWithInternalVertices", "src/fv/mpfao/tdympfao.c:2788-2830 TDyMPFAOComputeSystem"]}
{"id": "C86", "title": "Recovered face velocities of the multi-point flux scheme", "statement": "After the setup, TDyMPFAORecoverVelocity reads and writes only inside its arrays, and the velocity it stores for a face, times the area of the face, is the sum of the multi-point fluxes through the sub-faces of that face for the given pressures. If the pressures solve the steady system, the velocities out of an owned cell add up to the source of the cell.", "quantifier": "All meshes with consistent connectivity, all orders of faces and sub-cell faces, all transmissibilities that the setup computes, all pressures, densities, heights, areas and boundary pressures, with or without a boundary pressure function.", "why_tests_cant": "The demos only print the norm of the error against a manufactured velocity, over meshes with one shape of cell. Sign errors at the few corner sub-faces and a missing gravity term in the boundary values disappear in such a norm or do not occur in the manufactured problems.", "anchors": ["src/fv/mpfao/tdympfao_utils.c:103-216", "src/fv/mpfao/tdympfao_utils.c:219-531", "src/fv/mpfao/tdympfao_utils.c:534-658", "src/fv/mpfao/tdympfao_utils.c:661-687"]}
{"id": "C87", "title": "The Jacobian of the coupled water and heat mode", "statement": "The matrix that the water and heat mode hands to the nonlinear solver holds the derivatives of its residual: the storage terms of water and energy by pressure and temperature, and the fluxes of water and energy by the pressures and temperatures of all cells around a vertex.", "quantifier": "every mesh, cell state, transmissibilities, shift and rates", "why_tests_cant": "A wrong Jacobian usually still lets Newton's method converge, only slower or not at all far from the tested states; and each entry depends on the upwind side, the position of the cell and the boundary.", "anchors": ["src/fv/mpfao/tdympfao_th_ts.c:300-574", "src/fv/mpfao/tdympfao_th_ts.c:577-841", "src/fv/mpfao/tdympfao_th_ts.c:844-886"]}
{"id": "C88", "title": "Ownership flags and the numbers of boundary faces", "statement": "When a mesh is made from a DMPlex, a cell is marked local exactly when the process owns it, a vertex or face exactly when an owned cell touches it, so that no flux of an owned cell is skipped; cells keep their global numbers; the outer sides of boundary faces get the numbers -1 to minus the number of boundary faces, each once; and around every vertex internal faces come before boundary faces, each with its sub-face.", "quantifier": "every partition of the cells, every connectivity, any number of boundary faces, any order of faces around vertices", "why_tests_cant": "A test sees a handful of meshes and process counts; a face dropped or numbered twice on one process shows up as a small error near a partition boundary that depends on the partitioner.", "anchors": ["src/fv/share/tdymeshplex.c:277-313", "src/fv/share/tdymeshplex.c:315-339", "src/fv/share/tdymeshplex.c:395-443", "src/fv/share/tdymeshplex.c:1266-1321"]}
{"id": "C89", "title": "Orientation of faces", "statement": "After the mesh is set up, the normal of every face has length one, is the normal of the face for the stored order of its vertices, and points from its first cell to its second; on boundary faces the outside is the first cell and the normal points into the domain; cells and vertices are only rearranged.", "quantifier": "every flat convex face with three or four vertices in any position, either order of the cells, any order of the vertices", "why_tests_cant": "Fluxes get the wrong sign only for orders of cells and vertices that the mesh generator of the test happens not to produce.", "anchors": ["src/fv/share/tdymeshplex.c:3061-3172", "src/tdyutils.c:383-439"]}
{"id": "C90", "title": "Distances and projected areas of faces", "statement": "For every face the stored distances are those from the two cell centres to the point where the line between them meets the face (for a boundary face, from the cell to the plane of the face), the stored unit vector is the direction of that line, the weight is the share of the first distance, the projected area is the area times the cosine, and everything is stored inside its arrays.", "quantifier": "every mesh with flat convex faces and cell centres on opposite sides of each face", "why_tests_cant": "Geometry is continuous; and a write just behind an array is invisible to tests because the allocator rounds sizes up.", "anchors": ["src/fv/share/tdymeshplex.c:3519-3677", "src/fv/share/tdymesh.c:259-318", "src/tdymemory.c:149-160", "src/tdyutils.c:720-783"]}
{"id": "C91", "title": "Volumes and centres of cells read from a mesh file", "statement": "Every cell of a mesh that TDycore reads itself gets its volume, the mean of its corners as its centre, which lies inside the cell, its natural number and the right flag for local cells; the volumes of the cells add up to the volume of the domain.", "quantifier": "every mesh of tetrahedra, pyramids, wedges and hexahedra in any mixture and position", "why_tests_cant": "Positions are real numbers; the decomposition into tetrahedra is right for the shapes that occur in a test and can still be wrong for another kind of cell or for warped faces.", "anchors": ["src/fv/share/tdymeshcustom.c:49-207 ComputeVolume, TDySetupCellsFromDiscretization", "src/tdyutils.c:786-807 VolumeofTetrahedron"]}
{"id": "C92", "title": "Faces of a mesh read from a file", "statement": "For a conforming mesh that TDycore reads itself, the set-up of faces creates exactly one connection for each pair of neighbouring cells, between these two cells and with the number, the number of vertices and the vertices of their common side; sides are numbered without gaps, and two sides share a number only if they are the same side. It does so without touching memory it must not use.", "quantifier": "every conforming mesh of tetrahedra, pyramids, wedges and hexahedra in any mixture, with any numbering of cells and vertices and any split into local and ghost cells", "why_tests_cant": "Meshes are arbitrary combinations of four kinds of cells; use of freed memory usually goes unnoticed because the allocator happens to hand out the same block again.", "anchors": ["src/fv/share/tdymeshcustom.c:209-786 GetFaceVertices, SetupMaps_C2F_F2C_F2V, RemoveDuplicateFaces, UpdateMapsC2F_F2C_F2V", "src/fv/share/tdymeshcustom.c:836-950 CreateInternalFaces", "src/fv/share/tdymeshcustom.c:1231-1286 TDySetupFacesFromDiscretization", "src/fv/share/tdymesh.c:324-656 cell and face types"]}
{"id": "C93", "title": "Cells around a vertex of a mesh read from a file", "statement": "For a mesh that TDycore reads itself, the set-up records for every vertex exactly the cells that have it; if a vertex has more cells than the table can hold, it stops with an error instead of writing outside the table.", "quantifier": "every mesh of cells with different vertices, with any number of cells around a vertex", "why_tests_cant": "Small test meshes of hexahedra have at most eight cells around a vertex; an overwritten neighbouring block usually goes unnoticed.", "anchors": ["src/fv/share/tdymeshcustom.c:795-825 SetupMap_V2C", "src/fv/share/tdymeshcustom.c:1268-1273", "src/fv/share/tdyugrid.c:49"]}
{"id": "C94", "title": "Areas and distances of faces of a mesh read from a file", "statement": "For a conforming mesh of convex cells with flat faces that TDycore reads itself, every connection between two cells gets the area of their common side, the lengths of the two parts into which this side cuts the line between the centres, their sum and the share of the first, the unit vector along this line, and the area projected along it; all of this is stored without writing outside the arrays.", "quantifier": "every conforming mesh of convex tetrahedra, pyramids, wedges and hexahedra in any mixture, numbering and split into local and ghost cells", "why_tests_cant": "The properties hold for real-valued coordinates of arbitrary meshes; a write past a row of two numbers lands in the next allocation and usually goes unnoticed.", "anchors": ["src/fv/share/tdymeshcustom.c:987-1141 ComputeTriAreasAndIntercpet, ComputeGeoAttrOfInternalFaces", "src/fv/share/tdymeshcustom.c:146-207 TDySetupCellsFromDiscretization", "src/fv/share/tdymesh.c:290-295 AllocateFaces"]}
{"id": "C95", "title": "Natural and region numbers of cells after distribution", "statement": "After the mesh has been distributed over the processes, every process knows for each of its cells and ghost cells the number the cell had in the original mesh, different cells have different numbers, and region numbers read from a file reach the cells they are meant for; no memory outside the arrays is accessed.", "quantifier": "every mesh size, every distribution over any number of processes, every set of ghost cells, any number of unknowns per cell, every file of region numbers", "why_tests_cant": "A wrong number only shows on several processes or with several unknowns per cell, and depends on where the partitioner puts the cells.", "anchors": ["src/fv/share/tdymeshplex.c:604-713 SaveNaturalIDs", "src/fv/share/tdymeshplex.c:631", "src/fv/share/tdymeshplex.c:674-681"]}
{"id": "C96", "title": "Gravity term of the multi-point scheme", "statement": "Every sub-face of a process gets its gravity term at its own place in the matrix, computed without access outside the tables; the term balances the pressure of water at rest, so that water at rest stays at rest; between two layers it uses the permeability of the layers in series.", "quantifier": "every mesh, permeability field, position of the sub-face, boundary condition, direction and strength of gravity along the vertical axis, pressure level and density", "why_tests_cant": "Tests compare a few meshes with stored numbers; that no flow arises at rest must hold for every geometry and every permeability, and the exceptions (tilted tensors, very tight rock) are not in the test suite.", "anchors": ["src/fv/mpfao/tdympfao.c:1869-2275 TDyMPFAOComputeGravityDiscretization", "src/fv/mpfao/tdympfao_utils.c:11-22 ComputeGtimesZ", "src/fv/share/tdymeshplex.c:503-536 TDyMeshGetSubcellIDGivenCellIdVertexIdFaceId"]}
{"id": "C97", "title": "Closures of mesh points and the sizes of the mesh tables", "statement": "The mesh setup keeps the closure of every cell, vertex and face (the points that make it up or touch it) whole, without access outside its table; from it the numbers of vertices per cell and of cells, edges and faces around a vertex come out right, the other tables are sized for the kind of cells the mesh has, and meshes with unsupported or mixed cells are refused.", "quantifier": "every mesh: any number and kind of points, closures of any length and in any order", "why_tests_cant": "The test meshes have hexahedra and wedges with few cells around a vertex, so the growth of the table and the checks for unsupported cells never run.", "anchors": ["src/tdyutils.c:7-236 TDySaveClosures", "src/fv/share/tdymesh.c:324-715", "src/fv/share/tdymeshplex.c:3725-3755"]}
{"id": "C98", "title": "Test problems with known solution in the demonstrations", "statement": "The manufactured problems of the steady and transient demonstrations are consistent: the velocity each problem sets is minus the permeability times the gradient of the pressure it sets, and its forcing is the divergence of that velocity, at every point, and every function writes all entries of all points it is asked for and nothing else; the mesh perturbations keep the boundary of the unit square in place and the problem asked for on the command line is the one run.", "quantifier": "all points, all numbers of points, all contents of the output arrays before the call, all problem numbers", "why_tests_cant": "A convergence test compares errors at a few resolutions on one mesh; a forcing term that disagrees with the pressure on part of the domain, or entries that are never written, only show up as a changed convergence rate.", "anchors": ["demo/steady/steady.c:6-381, 438-447, 642-648, 763-863", "demo/transient/transient.c:23-27"]}
{"id": "C99", "title": "Output files hold the fields of the right cells and describe themselves correctly", "statement": "Every field written or returned is listed in the natural order of the cells, all variables of a file in the same order; file names fit their buffers; the description of the HDF5 file is well-formed XML that lists exactly the outputs made, with the right cell shape, number of cells and of vertices; no output replaces an earlier one.", "quantifier": "all fields, all distributions of cells over processes, all sequences of calls, all times, all meshes", "why_tests_cant": "Regression tests run the drivers on few processes and compare statistics, which do not change under a permutation of the cells; buffer overruns by one byte rarely show.", "anchors": ["src/tdyio.c:361-463, 479-507, 570-704", "src/tdycore.c:1478-1502, 1687-1707, 1748-1862"]}
{"id": "C100", "title": "The driver starts every supported run with matching equations, state and materials", "statement": "Exactly the supported combinations of mode, discretization and solver can be started; the residual and the Jacobian given to the solver belong to the combination in use; the initial field is physically plausible or the one of the given file; the previous solution starts as the initial one; properties set by the caller are kept and all others needed are filled from files or options; unusable files are reported.", "quantifier": "all modes, discretizations, solvers, options, random fields, file contents, vector lengths and prior material settings", "why_tests_cant": "The regression tests run a few combinations with one set of options; a Jacobian of the wrong mode only slows down convergence and an ignored option goes unnoticed.", "anchors": ["src/tdydriver.c:10-230", "src/tdycore.c:1868-2056", "src/tdyrichards.c:5-29", "src/tdyth.c:5-45", "src/tdysalinity.c:4-40"]}
{"id": "C101", "title": "Materials read from a file reach the right cells", "statement": "Porosities and permeabilities read from a file are assigned to the cells the file gives them for, owned and ghost, on every process; errors are reported; names of data sets fit their buffers.", "quantifier": "all distributions of the mesh over processes, all numbers of unknowns, all file contents and names", "why_tests_cant": "Tests use constant or smooth fields on one or two processes; a permuted or repeated field looks plausible.", "anchors": ["src/tdyio.c:101-257", "src/tdyio.c:301-331"]}
{"id": "C102", "title": "The regression file reports the fields", "statement": "The regression file gives for every field the greatest, least and mean value over all cells of all processes and the values of the chosen cells under their own numbers.", "quantifier": "all solutions, all partitions over processes, all requested numbers of cells, all modes", "why_tests_cant": "The regression file is what the tests compare; whether its statistics describe the fields they name cannot be seen from a comparison with an older file.", "anchors": ["src/tdyregression.c:141-288"]}
{"id": "C103", "title": "Functions handed over from Fortran are the ones used", "statement": "A Fortran program that hands over functions for material properties, boundary conditions and the mesh, directly or by name, gets each property evaluated at all points with the function it set last for this property, and each simulator's mesh made by its own constructor.", "quantifier": "all histories of registrations, settings and selections by name, all numbers of points, all simulators", "why_tests_cant": "Tests set a few functions in one order; mix-ups between functions appear only for certain orders, numbers of functions and names.", "anchors": ["src/f90-mod/tdycoremod.F90:306-448", "src/f90-mod/tdycoremod.F90:461-811", "src/tdycore.c:341-366", "src/tdycore.c:664-676"]}
{"id": "C104", "title": "The assembled Wheeler-Yotov system balances the water in every cell", "statement": "The matrix and right hand side assembled from the stencils of all vertices are, row by row, the balance of each cell: applied to any pressures, a row gives the outflow of the velocities recovered from these pressures, as the residual function sums it, less the source of the cell. The matrix is symmetric.", "quantifier": "all meshes of any dimension, all numbers of cells around a vertex, all processes with any ghost cells, all permeabilities, pressures and sources", "why_tests_cant": "Tests compare a few solutions; whether the two separate computations of the flow agree on every mesh and whether dropping small entries matters shows only for certain permeabilities.", "anchors": ["src/fe/tdywy.c:657-820", "src/fe/tdywy.c:822-972", "src/fe/tdywy.c:1018-1080"]}
{"id": "C105", "title": "Destroying a simulator gives its memory back", "statement": "Creating, setting up and destroying a simulator frees no block twice and reads no NULL or freed structure, whatever the flow mode, the material properties and the mesh; afterwards exactly the blocks named are still allocated, and those of successive simulations add up. Destroying a simulator that was not set up is safe.", "quantifier": "all flow modes of the MPFA-O and FV-TPF methods, all combinations of material properties, all numbers of cells, faces, edges, vertices and boundary faces (zero included), all prior heaps, any number of simulations in a row", "why_tests_cant": "Leaks and double frees do not change results; the tests set every simulator up before destroying it and end the process right after.", "anchors": ["src/fv/mpfao/tdympfao.c:297-410", "src/fv/mpfao/tdympfao.c:428-572", "src/fv/mpfao/tdympfao.c:630-690", "src/fv/mpfao/tdympfao.c:2277-2516", "src/fv/share/tdymesh.c:16-322", "src/fv/share/tdymesh.c:809-905", "src/fv/share/tdymeshplex.c:3685-3777", "src/fv/fvtpf/tdyfvtpf.c:12-53", "src/fv/fvtpf/tdyfvtpf.c:157-325", "src/tdymemory.c:117-286"]}
{"id": "C106", "title": "A passing regression test means that the results agree", "statement": "The regression test driver reports a pass exactly if the current regression file and the gold file have the same blocks with the same keys and every value agrees with its gold value within the tolerance configured for its kind; for files written by TDycore this means that the same cells are sampled and that the greatest, least and mean value of every field and the values of these cells agree. A missing file, a result that is not a number and an unreadable value make the test fail, and the comparison is left out only if the configuration asks for it.", "quantifier": "For all pairs of regression files, all fields and distributions over processes, all tolerances of the three types and all thresholds.", "why_tests_cant": "The driver decides what the project's own regression tests can notice; a test suite run by it passes just as well when the driver overlooks differences, and no finite set of files shows for which values it does.", "anchors": ["regression_tests/regression_tests.py:468-541", "regression_tests/regression_tests.py:779-1029", "regression_tests/regression_tests.py:1124-1144", "src/tdyregression.c:241-270"]}
{"id": "C107", "title": "The printed velocity error measures the error of the velocities", "statement": "When a velocity is prescribed, recovering the velocities of a multi-point flux solution prints the root mean square, over all sub-faces of all processes, of the difference between the computed and the prescribed flux through the sub-face: it is zero exactly if all fluxes are the prescribed ones. Computing it does not change the velocities, and a number is printed in any case.", "quantifier": "For all meshes, transmissibilities, solutions, boundary pressures, prescribed velocities, normals, areas of faces and sub-faces, and all distributions over processes.", "why_tests_cant": "The number is only printed, and on the meshes of the demonstrations a wrong norm still decreases when the mesh is refined; whether it vanishes exactly for exact solutions on every mesh is a statement about all of them.", "anchors": ["src/fv/mpfao/tdympfao_utils.c:103-216", "src/fv/mpfao/tdympfao_utils.c:219-531", "src/fv/mpfao/tdympfao_utils.c:534-687"]}
{"id": "C108", "title": "Reading a mesh file keeps every cell and vertex", "statement": "Reading the cells and vertices of an unstructured mesh file on any number of processes keeps every cell and every vertex exactly once and in order, with vertices numbered from 0; files with cells that are not tetrahedra, pyramids, prisms or hexahedra are refused. The number of vertices kept with the mesh is the number of vertices of the file. Cells that share a face are neighbours in the graph the mesh is partitioned with.", "quantifier": "For all lists of cells and vertices, block sizes of the file, and distributions of cells and vertices over processes.", "why_tests_cant": "The test meshes have few shapes and numberings of cells; whether a face between cells is missed depends on the numbering of the vertices and on the distribution, of which there are unboundedly many.", "anchors": ["src/fv/share/tdyugrid.c:60-158", "src/fv/share/tdyugrid.c:195-230", "src/fv/share/tdyugrid.c:1151-1166", "src/fv/share/tdymeshcustom.c:858"]}
{"id": "C109", "title": "Areas and centres of the faces of a mesh read from a file", "statement": "Every face of a mesh read from a file gets the area and the centre of its polygon, whichever and however many cells it belongs to, without reading or writing outside the arrays.", "quantifier": "For all tables of faces, all coordinates of vertices, all numbers of cells and faces, and all initial contents of the array of areas.", "why_tests_cant": "The test meshes have flat and mostly parallelogram faces, for which the mean of the corners is the centroid; the claim is about every face of every mesh.", "anchors": ["src/fv/share/tdymeshcustom.c:952-984", "src/fv/share/tdymeshcustom.c:1143-1216"]}
{"id": "C110", "title": "Access to the arrays of the sub-cells", "statement": "After the arrays of the sub-cells are compressed, every access function for a sub-cell hands out the entries stored for that sub-cell in the array named by the function, as many as were stored, and nothing stored is lost.", "quantifier": "For all numbers of sub-cells, all types and values of entries, all arrays with full rows, all sub-cells.", "why_tests_cant": "A test sees the arrays of one mesh through the functions the solver happens to call; one of the eleven functions is never called, and three take the start and the end of a row from different offsets, which is right only because two constants agree.", "anchors": ["src/fv/share/tdymesh.c:85-141", "src/fv/share/tdymesh.c:681-755", "src/fv/share/tdymesh.c:1336-1560", "src/fv/share/tdymeshplex.c:966-1036"]}
{"id": "C111", "title": "Room for cells and boundary faces in the matrix of transmissibilities", "statement": "The matrix of transmissibilities and the vector of pressures have a column and an entry for every cell and every boundary face of the process, different for different cells and faces, so that setup does not fail and boundary pressures are stored inside the vector and leave those of the cells alone.", "quantifier": "For all meshes, all distributions of the cells over processes, all numbers of ghost cells, all boundary pressures.", "why_tests_cant": "The number of columns is the owned cells plus the faces without an owned cell plus the boundary faces, while the columns are numbered by all cells plus boundary faces; the tests run on partitions where the first is larger, which one pass cannot tell from always.", "anchors": ["src/fv/share/tdymesh.c:753-808", "src/fv/mpfao/tdympfao.c:2299-2315", "src/fv/mpfao/tdympfao.c:1417-1466", "src/fv/mpfao/tdympfao_utils.c:728-753"]}
{"id": "C112", "title": "Boundary faces given to callers", "statement": "TDyGetBoundaryFaces gives exactly the faces of the domain boundary on this process, each once, and their number, also when there are none; TDyRestoreBoundaryFaces gives back what was taken.", "quantifier": "For all meshes (closures and supports), all processes, all numbers of calls.", "why_tests_cant": "No test calls the two functions; a test on one mesh cannot show that the number is never that of the boundary faces, nor see references that are left over.", "anchors": ["src/tdycore.c:448-484", "src/tdycore.c:697-703"]}
