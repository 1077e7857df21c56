{"id": "C01", "title": "Scalar parameter lookup returns the first matching line, else the default", "statement": "For every .txt parameter file whose lines are newline terminated, shorter than 999 bytes and contain a space, asking for an integer or real parameter by name returns the number written after the first '=' of the first line whose text before the first space equals the name exactly, and the caller's default if there is no such line. A final line that is not newline terminated is never consulted.", "quantifier": "all byte sequences of that shape as file content, all parameter names, all defaults", "why_tests_cant": "the space of input files is infinite; the behaviour on the last unterminated line, on prefix-sharing names and on duplicated names depends on byte-level fgets/feof interaction that a handful of sample files does not cover", "anchors": ["MDLIB/InputOutput.c:ReadInt2 (1899-1966)", "MDLIB/InputOutput.c:ReadDou2 (1972-2038)"]}
{"id": "C02", "title": "Scalar lookups are independent of each other and of unrelated lines", "statement": "The value returned for a scalar parameter does not depend on which parameters were read before it, on the current file position, or on lines defining other names: inserting, deleting or permuting lines with other names leaves it unchanged.", "quantifier": "all files, all sequences of previous lookups, all insertions of other-key lines", "why_tests_cant": "the number of lookup orders and line orders is unbounded; a test fixes one order", "anchors": ["MDLIB/InputOutput.c:ReadInt2 (1899-1966)", "MDLIB/InputOutput.c:ReadDou2 (1972-2038)", "MDLIB/InputOutput.c:ReadInputFile (1009-1674)"]}
{"id": "C03", "title": "Scalar lookup stays inside its line buffer", "statement": "Reading a scalar parameter never inspects a byte outside the text of the current line, for every file whose lines are newline terminated, shorter than 999 bytes and contain a space. Without the space requirement the guarantee fails: for every file whose first line contains no space the reader runs past the end of the text.", "quantifier": "all file contents and keys", "why_tests_cant": "out-of-bounds reads of a stack/heap buffer usually return plausible bytes, so tests pass; whether some input triggers one is a universally quantified question", "anchors": ["MDLIB/InputOutput.c:ReadInt2 (1899-1966)", "MDLIB/InputOutput.c:ReadDou2 (1972-2038)"]}
{"id": "C04", "title": "Material properties are read from the block of the requested phase only", "statement": "For every material file, the value returned for a property of phase p is the one on the first line with that exact name inside the block that starts at the 'ID' line of phase p and ends at the next 'ID' line or end of file; if the block does not define the name the default is returned and no other phase's value is ever used.", "quantifier": "all files, all phase numbers, all property names, all defaults", "why_tests_cant": "leaking one phase's value into another needs specific block layouts (missing key, last block, key before first block); tests sample few layouts", "anchors": ["MDLIB/InputOutput.c:ReadMatProps (2044-2181)"]}
{"id": "C05", "title": "String parameter lookup: prefix matching and position dependence", "statement": "A string parameter lookup returns the value of the first line at or after the current file position whose beginning equals the requested name; a line whose name merely starts with the requested name is therefore accepted, and a line located before the current position is never found.", "quantifier": "all file contents, file positions and names", "why_tests_cant": "the wrong-value case needs two names one of which is a prefix of the other in a specific order (import_file / import_files_dir); tests with the documented order never see it", "anchors": ["MDLIB/InputOutput.c:ReadChar (1719-1808)", "MDLIB/InputOutput.c:ReadInputFile (1038-1050)"]}
{"id": "C06", "title": "Solver options are made mutually consistent whatever the input file says", "statement": "After reading an input file, for every combination of user-set switches: interpolation stencil is 1 or 9 (the program stops otherwise), shear style 1 switches lateral periodicity on and shear style 0 switches it off, anisotropy implies finite strain tracking, Newton off implies no Picard-to-Newton switching, Newton on implies line search on, and solver type 0, Newton or anisotropy imply the Killer solver; all other switches are left as the user set them and applying the rules twice changes nothing.", "quantifier": "all integer values of all switches", "why_tests_cant": "the combination space is exponential; consistency is a universally quantified implication", "anchors": ["MDLIB/InputOutput.c:ReadInputFile (1225-1236)"]}
{"id": "C07", "title": "Scaling units are dimensionally coherent", "statement": "For every choice of the four characteristic scales (viscosity, length, velocity, temperature), each derived unit equals the product of powers of the base units prescribed by its physical dimension, so that the momentum, energy and constitutive equations have the same form in scaled and SI variables.", "quantifier": "all positive characteristic viscosities, lengths, velocities and temperatures", "why_tests_cant": "a wrong exponent is invisible to tests that use unit scales or only one scale; coherence is an algebraic identity over all scales", "anchors": ["MDLIB/InputOutput.c:ScaleMe (1681-1695)"]}
{"id": "C08", "title": "Checkpoint save/restore round trip for markers and chains", "statement": "For every program state, restoring a checkpoint under the same switches, grid size, phase count and final step number as when it was written leaves no unread bytes and makes every marker, surface, grid and time-series field bit-identical to that of the run that continued after writing, whatever the rounding of the unit conversions; with exact unit conversions it reproduces the state before writing, including the model clock and domain bounds. (The clock of the continuing run is not converted, so in floating point it can differ from the restarted one by rounding.)", "quantifier": "all marker counts, field values, grid sizes and combinations of switches", "why_tests_cant": "writer and reader are two independent ~400-line sequences with conditional sections; a misordered pair corrupts only under particular switch combinations", "anchors": ["MDLIB/InputOutput.c:MakeBreakpointParticles (502-1002)", "MDLIB/InputOutput.c:LoadBreakpointParticles (145-495)"]}
{"id": "C09", "title": "Checkpoint round trip of the old-stress mesh fields", "statement": "After restoring a checkpoint, the mesh fields holding the old deviatoric stresses have the values they had when the checkpoint was written. (The code restores these bytes into the current-stress fields instead; the model shows the exact mapping of written to restored fields.)", "quantifier": "all mesh states and grid sizes", "why_tests_cant": "the restored fields are recomputed from markers in most set-ups so regression tests do not see the mismatch", "anchors": ["MDLIB/InputOutput.c:MakeBreakpointParticles (mesh section)", "MDLIB/InputOutput.c:LoadBreakpointParticles (mesh section)"]}
{"id": "C10", "title": "Checkpoint restart under a different final step number", "statement": "A checkpoint written by a run with Nt steps can be restored by a run with a different Nt. (The stored time series have length Nt+1 and no length header, so each series is read from shifted positions; the model gives the exact bytes read and shows that all sections before the series are unaffected.)", "quantifier": "all pairs of Nt values and all series contents", "why_tests_cant": "extending a run is the usual reason for restarting, but a unit test restarts with the same file", "anchors": ["MDLIB/InputOutput.c:MakeBreakpointParticles (502-1002)", "MDLIB/InputOutput.c:LoadBreakpointParticles (145-495)"]}
{"id": "C11", "title": "A usable checkpoint survives a crash at any point", "statement": "In the numbered-file modes, for every output interval and crash point, once one checkpoint has been completed the most recently completed one is on disk, complete, and holds the step in its name; the checkpoint a run was restarted from stays usable until a newer one is complete; this holds through any number of crashed and restarted sessions. The model also exhibits the crash window in which the newest-named file contains older data, and the single-file mode in which a crash leaves no usable checkpoint.", "quantifier": "all run lengths, output intervals and crash points between file-system operations", "why_tests_cant": "crash points are a schedule quantifier; tests do not kill the process between rename and rewrite", "anchors": ["MDLIB/InputOutput.c:DeletePreviousBreakpoint (124-139)", "MDLIB/InputOutput.c:MakeBreakpointParticles (502-560)", "MDLIB/Main_DOODZ.c:output section (1204-1216)"]}
{"id": "C12", "title": "Bounded number of retained checkpoints", "statement": "With deletion enabled, the set of checkpoint files after any number of outputs is exactly determined: only the newest two plus those whose step number is too small to be removed remain, so disk usage is bounded independently of the run length.", "quantifier": "all run lengths and output intervals", "why_tests_cant": "requires induction over an unbounded number of outputs", "anchors": ["MDLIB/InputOutput.c:DeletePreviousBreakpoint (124-139)", "MDLIB/Main_DOODZ.c:output section (1204-1216)"]}
{"id": "C13", "title": "Interrupted and uninterrupted runs execute the same steps and outputs", "statement": "Running to step Nt directly, or running to any checkpointed step, stopping and restarting from it, executes the same sequence of step numbers and writes outputs at the same step numbers; the initial output is written exactly once.", "quantifier": "all Nt, all output intervals, all restart steps, any number of restarts", "why_tests_cant": "number of restart histories is unbounded", "anchors": ["MDLIB/Main_DOODZ.c:time loop (400-440, 1204-1232)"]}
{"id": "C14", "title": "The nonlinear iteration always terminates with a bounded number of solves", "statement": "For every outcome of the inner solves (residuals, stagnation flags), the nonlinear loop of one time step terminates after at most (nit_max+1) times max_num_stag linear solves, in exactly one of: converged (tolerances met), iteration limit, stagnated, program stop; all indices used for the residual logs are in range. (The model also shows that in safe mode a step that meets the relative tolerances on the last allowed iteration still stops the program.)", "quantifier": "all sequences of residuals and stagnation outcomes, all settings of the iteration controls", "why_tests_cant": "the loop resets its own counter when the time step is reduced; termination for every residual history is not testable", "anchors": ["MDLIB/Main_DOODZ.c:nonlinear loop (650-840)"]}
{"id": "C15", "title": "Picard-to-Newton switching is decided by initialised data", "statement": "In every time step, the decision to switch from Picard to Newton iterations depends only on values computed in this run. (The model tracks initialisation and exhibits the two-step history in which an indeterminate flag is read; it proves single-step and always-switching histories are safe.)", "quantifier": "all multi-step histories of convergence outcomes", "why_tests_cant": "reading an indeterminate local usually yields the old stack value; only specific histories reach it", "anchors": ["MDLIB/Main_DOODZ.c:nonlinear loop (650-692)"]}
{"id": "C16", "title": "Model time equals the sum of the time steps actually used", "statement": "After any number of steps, the model time equals its initial value plus the sum of the time-step lengths used in the mechanical solves. This holds for every run in which no step is repeated with a reduced time step; when a step is repeated the clock is ahead by exactly the difference between the first and the last attempted length.", "quantifier": "all step counts, all step lengths, all patterns of repeated steps", "why_tests_cant": "drift only appears in stagnating runs; the identity ranges over all histories", "anchors": ["MDLIB/Main_DOODZ.c:time loop (446-460, 813-836)"]}
{"id": "C17", "title": "Advection sub-steps cover the solve step exactly and respect the Courant limit", "statement": "Whatever the velocity field, the sub-steps used to move the markers add up to the time step of the mechanical solve, each is at most the step the Courant evaluation returned (up to the documented 5 percent tolerance for a single step), their number is the least one for which this holds, and the model time step is unchanged afterwards. With adaptive stepping a sub-step therefore crosses at most the Courant fraction of a cell; with fixed stepping (and below the user's minimum step) the Courant limit is not enforced, which the model exhibits.", "quantifier": "all solve steps, Courant steps and velocities", "why_tests_cant": "rounding up and the 0.95 threshold create boundary cases over a continuum", "anchors": ["MDLIB/Main_DOODZ.c:advection (1013-1177)", "MDLIB/AdvectionRoutines.c:Check_dt_for_advection (689-747)"]}
{"id": "C18", "title": "Adaptive time step respects its limits", "statement": "For every velocity field and settings with dt_min <= dt_max, the adaptive step lies between dt_min and dt_max; unless raised to dt_min or reset because of negligible motion, no velocity component crosses more than the Courant fraction of a cell, and the step does not exceed 1.25 (elastic) or 2 (viscous) times the previous step; with fixed stepping the step is always the initial one.", "quantifier": "all velocity fields, grid spacings, previous steps and limits", "why_tests_cant": "maximum over arbitrary fields with interacting clamps", "anchors": ["MDLIB/AdvectionRoutines.c:EvaluateCourantCriterion (563-683)"]}
{"id": "C19", "title": "Time-step evaluation reads only existing cells", "statement": "Evaluating the adaptive time step never reads outside the cell-centred temperature arrays. (With thermal coupling the code loops over a larger index range; the model computes the exact overrun for every grid.)", "quantifier": "all grid sizes", "why_tests_cant": "heap over-reads return plausible data; the result is only printed so tests cannot see it", "anchors": ["MDLIB/AdvectionRoutines.c:EvaluateCourantCriterion (590-599)"]}
{"id": "C20", "title": "Only memory obtained in a step is released in that step", "statement": "In every time step the memory released at the end of the step was allocated in the same step. This holds when the mechanical solve is active; with the mechanical solve switched off the end-of-step cleanup releases pointers that were never set.", "quantifier": "all combinations of the mechanical/thermal switches and number of steps", "why_tests_cant": "freeing indeterminate pointers may silently succeed", "anchors": ["MDLIB/Main_DOODZ.c:allocation (615-645), cleanup (1180-1199)"]}
{"id": "C21", "title": "Grid numbering is a bijection", "statement": "For every grid, the node number of each of the four staggered grids and its two indices determine each other: every pair in range has exactly one number, every number below the count has exactly one pair, and the tables built at start-up return that pair.", "quantifier": "all grid sizes and all nodes", "why_tests_cant": "must hold for every grid size", "anchors": ["MDLIB/GridRoutines.c:GridIndices (541-584)"]}
{"id": "C22", "title": "Vertex and centre averaging preserves constants and bounds", "statement": "Away from air, averaging cell-centre values to vertices and vertex values to centres reproduces constant fields exactly and never produces a value outside the range of the four values averaged; boundary vertices use the nearest cells; next to air the average is not renormalised, and the deficit is exactly the air fraction.", "quantifier": "all grid sizes, fields and air patterns", "why_tests_cant": "ranges over all fields and air masks", "anchors": ["MDLIB/GridRoutines.c:ExpandCentroidArray (38-100)", "MDLIB/GridRoutines.c:InterpCentroidsToVerticesDouble (106-207)", "MDLIB/GridRoutines.c:InterpVerticesToCentroidsDouble (213-236)"]}
{"id": "C23", "title": "Grid coordinates tile the domain", "statement": "For every domain and resolution, vertices start at the lower bound, end at the upper bound and are equally spaced; centres lie midway between vertices; ghost nodes lie half a cell outside; all coordinates are strictly increasing.", "quantifier": "all domain bounds and resolutions", "why_tests_cant": "continuum of bounds and unbounded resolutions; accumulation indices must line up for all", "anchors": ["MDLIB/GridRoutines.c:SetGridCoordinates (244-324)"]}
{"id": "C24", "title": "Min/max diagnostics do not depend on the number of threads or their schedule", "statement": "The reported minimum and maximum of a field are attained values bounding all values, and are the same for every number of threads, every distribution of iterations and every order in which threads merge their results. For the tag-filtered variant this additionally requires the first entry to be a non-air entry.", "quantifier": "all arrays, all partitions of the index range among threads, all merge orders", "why_tests_cant": "schedule quantifier", "anchors": ["MDLIB/MiscFunctions.c:MinMaxArray (183-217)", "MDLIB/MiscFunctions.c:MinMaxArrayTag (223-256)"]}
{"id": "C25", "title": "Work partition covers every row exactly once", "statement": "For every number of rows and every positive number of threads, the contiguous blocks given to threads are disjoint, ordered, and cover all rows.", "quantifier": "all row counts and thread counts", "why_tests_cant": "remainder handling must be right for every pair", "anchors": ["MDLIB/StokesAssemblyDecoupled.c:DomainDecomposition (1226-1245)"]}
{"id": "C26", "title": "The assembled matrix does not depend on the number of threads", "statement": "Parallel assembly with any number of threads produces exactly the same row pointers, column indices and values as sequential assembly.", "quantifier": "all systems, all thread counts, all interleavings of the row loops", "why_tests_cant": "schedule and thread-count quantifier", "anchors": ["MDLIB/StokesAssemblyDecoupled.c:BuildStokesOperatorDecoupled (1293-1623)", "MDLIB/StokesAssemblyDecoupled.c:MergeParallelMatrixDecoupled (1149-1196)"]}
{"id": "C27", "title": "Per-thread assembly buffers are large enough", "statement": "During parallel assembly no thread writes beyond its temporary buffer. The model gives a sufficient condition relating grid size and thread count and exhibits a grid and thread count for which the buffer is exceeded.", "quantifier": "all grid sizes and thread counts", "why_tests_cant": "heap overflow depends on arithmetic relation of grid and core count of the machine", "anchors": ["MDLIB/StokesAssemblyDecoupled.c:AllocateTempMatArraysDecoupled (1251-1266)", "MDLIB/StokesAssemblyDecoupled.c:BuildStokesOperatorDecoupled (1340-1350)"]}
{"id": "C28", "title": "Every unknown has exactly one equation number", "statement": "For every boundary-type map, the equation numbers given to free velocity and pressure nodes are 0..neq-1 without gaps or duplicates, velocities before pressures; constrained and air nodes get none; the east copy of a periodic node shares the number of its west partner.", "quantifier": "all grids and boundary-type maps", "why_tests_cant": "ranges over all boundary-type maps (topography makes them arbitrary)", "anchors": ["MDLIB/StokesRoutines.c:EvalNumberOfEquations (1125-1178)"]}
{"id": "C29", "title": "Solution scatter/gather are inverse and touch only free nodes", "statement": "Copying the solution vector back to the grids updates every free node with its own entry and no constrained or air node, for all type maps using the documented codes; the reading and numbering predicates agree exactly on these codes.", "quantifier": "all grids, type maps, solution vectors", "why_tests_cant": "two independent predicates over an open set of integer codes", "anchors": ["MDLIB/StokesRoutines.c:ExtractSolutions2 (534-574)", "MDLIB/StokesRoutines.c:EvalNumberOfEquations (1125-1178)", "MDLIB/StokesRoutines.c:InitialiseSolutionVector (1185-1217)"]}
{"id": "C30", "title": "Diagonal scaling does not change the solution", "statement": "Solving the scaled system and scaling back gives exactly a solution of the original system, and every solution of the original arises this way, provided no scale factor is zero.", "quantifier": "all matrices (any sparsity), right-hand sides and non-zero scale vectors", "why_tests_cant": "algebraic identity over all matrices", "anchors": ["MDLIB/StokesRoutines.c:ExtractDiagonalScale (1223-1261)", "MDLIB/StokesRoutines.c:ScaleMatrix (1267-1333)", "MDLIB/StokesRoutines.c:ScaleVelocitiesRHSBack (1339-1354)"]}
{"id": "C31", "title": "Ghost velocities encode the boundary condition", "statement": "After boundary conditions are applied, for every field: a free-slip (Neumann) ghost equals its inner neighbour, a prescribed tangential velocity is the mean of ghost and inner neighbour, and an east periodic node equals its west partner; inner nodes are unchanged. (The corner ghosts are right only if the periodic sides agreed before, as after a solution update; otherwise one is stale.)", "quantifier": "all velocity fields, grids and boundary maps", "why_tests_cant": "order-dependence at corners ranges over all maps", "anchors": ["MDLIB/StokesRoutines.c:ApplyBC (413-508)"]}
{"id": "C32", "title": "Matrix rows and residual agree for the Stokes equations", "statement": "For a run without prescribed pressures: changing the unknown velocities and pressures by any amount (boundary conditions re-applied) changes the momentum residual computed from the stresses by exactly the assembled matrix row times the change, at every node that owns an equation: interior, periodic and normal-stress boundary nodes, with or without air, compressible or not; so an exact linear solve annihilates the residual. The same holds for the continuity rows up to the compressibility term that the solver adds. (With a prescribed-pressure cell, as several published set-ups have at the top corners, it fails: the model gives the witness.)", "quantifier": "all grids, viscosity, velocity, pressure fields, boundary maps of the documented kinds, all nodes", "why_tests_cant": "eleven coefficients must match an independently written residual for all real inputs and all boundary maps", "anchors": ["MDLIB/StokesAssemblyDecoupled.c:Xmomentum_InnerNodesDecoupled (60-210)", "MDLIB/StokesAssemblyDecoupled.c:Zmomentum_InnerNodesDecoupled (560-723)", "MDLIB/StokesAssemblyDecoupled.c:Continuity_InnerNodesDecoupled (1088-1143)", "MDLIB/RheologyDensity.c:StrainRateComponents (1661-1757)"]}
{"id": "C33", "title": "Discrete velocity operator is symmetric, dissipative and blind to rigid translation", "statement": "For isotropic viscosity and a box with prescribed, free-slip or periodic sides and any air region, the global velocity block A satisfies w.A z = z.A w and w.A w >= 0 for all vectors (as needed by the Cholesky factorisation), the pressure-gradient block is minus the transposed divergence block (up to the factor 3/2 of the out-of-plane option), and uniform translation produces no force at a node without prescribed neighbours. (Symmetry fails at free-slip stress boundaries and, for compressible flow, beside prescribed-pressure cells.)", "quantifier": "all grids, viscosity fields, boundary maps, vectors", "why_tests_cant": "statement about a matrix of arbitrary size for all real viscosity fields", "anchors": ["MDLIB/StokesAssemblyDecoupled.c:Xmomentum_InnerNodesDecoupled (126-160)", "MDLIB/StokesAssemblyDecoupled.c:Zmomentum_InnerNodesDecoupled (624-660)", "MDLIB/StokesAssemblyDecoupled.c:Continuity_InnerNodesDecoupled (1088-1143)"]}
{"id": "C34", "title": "Anisotropic Picard operator is the rotated transversely isotropic law", "statement": "For every director orientation and anisotropy factor the stiffness used is the isotropic one rotated by the director, is symmetric, reduces to the isotropic law for factor one, maps deviatoric strain rates to deviatoric stress and dissipates non-negative energy.", "quantifier": "all unit directors, factors >= 1 (positive), strain rates, viscosities", "why_tests_cant": "trigonometric identity over all angles", "anchors": ["MDLIB/StokesRoutines.c:RheologicalOperators (87-244)"]}
{"id": "C35", "title": "Line search never accepts a step without the decrease it requires", "statement": "For every residual function, the accepted step is one of six trial steps; it is the one with the smallest total residual whenever any trial lowers the total residual, and otherwise lowers at least one of the momentum residuals; when none does, the step is zero and stagnation is reported (or, if the residual is allowed to grow, the positive minimum step is returned). The residual is evaluated at the six trials only. The model exhibits an accepted step which increases the total residual, and a read of an uninitialised index exactly when the first trial has the smallest pressure residual.", "quantifier": "all residual functions, settings", "why_tests_cant": "for all residual landscapes", "anchors": ["MDLIB/StokesRoutines.c:LineSearchDecoupled (580-770)"]}
{"id": "C36", "title": "Every boundary node is classified into exactly one side or corner", "statement": "The position reported to user boundary callbacks is a corner exactly at the corners of the respective grid, a side exactly on that side, and internal elsewhere, for every grid.", "quantifier": "all grid sizes and nodes of the Vx, Vz and P grids", "why_tests_cant": "all sizes", "anchors": ["MDLIB/Setup.c:SetBCs (228-251,446-469,571-595)"]}
{"id": "C37", "title": "Pure-shear and simple-shear templates are globally mass conserving", "statement": "With the built-in pure-shear or simple-shear boundary templates, the prescribed normal velocities have zero net flux through the domain boundary for every domain and strain rate, and every node gets a valid type code.", "quantifier": "all domains (any bounds), strain rates, grids", "why_tests_cant": "continuum of domains", "anchors": ["MDLIB/Setup.c:SetPureShearBCVx/Vz, SetSimpleShearBCVx/Vz (906-1007)"]}
{"id": "C38", "title": "Balancing of boundary inflow", "statement": "When boundary balancing is requested, the corrected side velocities on the physical rows sum to minus the corner values, i.e. to zero exactly when the corner entries vanish (the corner is counted in the excess but not among the corrected rows). (Full zero net flux of what is finally stored is refuted: the smoothing sweeps that follow change the flux by the end slopes, the south side keeps a fraction of the corner values, and the south spacing mixes x and z bounds.)", "quantifier": "all boundary profiles", "why_tests_cant": "depends on a corner value being exactly zero", "anchors": ["MDLIB/Setup.c:SetBCs (275-413,495-553)"]}
{"id": "C39", "title": "Inflow profile smoothing obeys a maximum principle", "statement": "Smoothing the boundary velocity profile keeps the end values and never exceeds the range of the original profile.", "quantifier": "all profiles and lengths", "why_tests_cant": "all real profiles", "anchors": ["MDLIB/Setup.c:SetBCs (326-334)"]}
{"id": "C40", "title": "Geometric helpers recognise their shapes", "statement": "The ellipse and rectangle helpers accept exactly the points of the rotated shape about its own centre. (True for rotation zero; for rotated shapes off the origin the model gives the exact accepted set and a centre that is rejected.)", "quantifier": "all points, centres, axes and rotation angles", "why_tests_cant": "continuum", "anchors": ["MDLIB/Setup.c:IsEllipseCoordinates (1013-1024)", "MDLIB/Setup.c:IsRectangleCoordinates (1030-1038)"]}
{"id": "C41", "title": "User-set phases are validated before use", "statement": "A phase returned by a user callback that is not a defined phase stops the program before it is used as an index. (The model shows which invalid phases pass.)", "quantifier": "all phase values and phase counts", "why_tests_cant": "out-of-range index reads neighbouring memory silently", "anchors": ["MDLIB/Setup.c:ValidatePhase (34-39), SetParticles (45-181)"]}
{"id": "C42", "title": "Default input file name fits its buffer", "statement": "Deriving the parameter-file name from the set-up file name never writes past the allocated buffer. (The model shows it always does, by the exact number of bytes.)", "quantifier": "all set-up file names", "why_tests_cant": "heap overflow of a few bytes usually goes unnoticed because of allocator rounding", "anchors": ["MDLIB/Setup.c:DefaultTextFilename (1044-1082)"]}
{"id": "C43", "title": "Marker domain check", "statement": "After a marker has been moved, a non-periodic marker is active iff it was active and lies inside the domain; with lateral periodicity a marker that overshoots by at most one domain width re-enters at the opposite side at the same distance, and is deactivated iff outside vertically.", "quantifier": "all marker positions, domains", "why_tests_cant": "continuum; large overshoot case", "anchors": ["MDLIB/AdvectionRoutines.c:isout (273-312)", "MDLIB/AdvectionRoutines.c:isoutPart (318-339)"]}
{"id": "C44", "title": "Fourth-order Runge-Kutta marker advection", "statement": "A marker that stays inside is displaced by dt times the weighted mean (1,2,2,1)/6 of the velocities at the four stages; uniform flow displaces it exactly, and linear flow reproduces the Taylor series to fourth order; a marker leaving at an intermediate stage is deactivated even if the final position is inside.", "quantifier": "all velocity fields and steps", "why_tests_cant": "all fields", "anchors": ["MDLIB/AdvectionRoutines.c:RogerGuntherII (345-402)"]}
{"id": "C45", "title": "Pure-shear mesh deformation moves the sides with the boundary velocity", "statement": "With pure-shear boundary velocities each solve step of strain h, whatever its number of advection sub-steps, multiplies the domain width by (1 - h) and the height by (1 + h); after any sequence of steps the area is the initial one times the product of (1 - h^2). A marker inside the domain is carried along with the sides (refuted: because the sides are moved first and the markers are checked against the new sides at the first half step, markers within a strip next to a side that moves inwards are deactivated).", "quantifier": "all domains, strain rates, steps and step counts", "why_tests_cant": "induction over unbounded step counts", "anchors": ["MDLIB/AdvectionRoutines.c:PureShearALE (408-507)", "MDLIB/GridRoutines.c:SetGridCoordinates (244-324)"]}
{"id": "C46", "title": "Restoring a checkpoint leaves fields that are not stored alone", "statement": "A field that is not part of the checkpoint file has the same value before and after restoring. (The model shows the exact exceptions: the advection velocities, and the viscosities when elasticity is off, are divided by their unit although they were not read.)", "quantifier": "all memory states, grids, switches", "why_tests_cant": "requires comparing the complete memory image before and after for every switch combination", "anchors": ["MDLIB/InputOutput.c:LoadBreakpointParticles (344-494)"]}
{"id": "C47", "title": "Jacobian storage exists whenever it is used", "statement": "With the documented values 0 and 1 of the Newton switch, Jacobian matrices are assembled and used in a time step only if their storage was set up at program start, for every sequence of convergence outcomes over all time steps.", "quantifier": "all multi-step histories of convergence outcomes, all settings", "why_tests_cant": "needs a run whose convergence history switches between Picard and Newton in a particular order; tests use single short runs", "anchors": ["MDLIB/Main_DOODZ.c:nonlinear loop (97-102, 627-645, 681-700, 762)", "MDLIB/InputOutput.c:ReadInputFile (1231)"]}
{"id": "C48", "title": "Layer orientation stays a unit vector, follows the flow and means the same thing everywhere", "statement": "The director of every marker is a unit vector initially and after every update, for every velocity gradient and time step; it turns at the rate of a material line along the layer (a rigid rotation at rate w turns it by atan(w dt) in the sense of the flow); a director and its opposite describe the same material; the viscosity does not depend on the orientation, and the stress evaluated in the local rheology uses the same layers as the matrix. (The last part is true for directors pointing up; the model exhibits a downward director for which the local rheology uses mirrored layers.)", "quantifier": "all directors, velocity gradients, time steps, viscosities, anisotropy factors", "why_tests_cant": "continuum of orientations; mirrored layers give plausible stresses of the same magnitude", "anchors": ["MDLIB/AnisotropyRoutines.c:InitialiseDirectorVector (815-846)", "MDLIB/AnisotropyRoutines.c:ViscosityConciseAniso (96, 184-190, 264-306)", "MDLIB/RheologyParticles.c:UpdateParticleStress (1438-1457)", "MDLIB/ParticleRoutines.c:P2Mastah (2111-2125)"]}
{"id": "C49", "title": "Stored elastic stresses rotate with the material", "statement": "With a stress rotation option on, the stress carried by a marker in a rotating flow is rotated by the rotation of the flow during the step, and the grid vorticity is not altered. (The code violates this: the model proves that no marker stress is ever rotated, for every option and flow, and that the grid vorticity is overwritten by zero; moreover the analytical option would rotate in the opposite sense to the Jaumann option.)", "quantifier": "all options, spins, time steps, stresses, grids and marker distributions", "why_tests_cant": "a missing rotation only shows in large rotations with stored stress, and no reference result is available", "anchors": ["MDLIB/RheologyParticles.c:UpdateParticleStress (1622-1648)", "MDLIB/ParticleRoutines.c:P2Mastah (1982-2328)"]}
{"id": "C50", "title": "Marker-to-grid interpolation is an average of nearby markers", "statement": "For markers inside the domain the value a node receives is the weighted mean (arithmetic, harmonic or geometric) of the markers whose hat function covers the node, hence lies between their extreme values; unreached and air nodes keep their value; phase proportions are between 0 and 1 and sum to 1; the result does not depend on the number of threads. (For vertices of a laterally periodic grid the code wraps with the wrong period; the model exhibits the wrong weights.)", "quantifier": "all node families, stencils, marker sets, grids, thread counts", "why_tests_cant": "the set of marker distributions is infinite; boundary and periodic nodes need special positions", "anchors": ["MDLIB/ParticleRoutines.c:P2Mastah (1982-2328)"]}
{"id": "C51", "title": "Marker velocities are interpolated from existing fluid nodes", "statement": "The velocity given to an active marker is determined by existing nodes only, wherever the marker is; linear velocity fields are reproduced exactly and the result never leaves the range of the nodal values (also with the conservative correction); next to the surface the velocity is an average of fluid values as long as one corner of the cell is fluid - for the vertical component only if no fluid node lies above an air node (otherwise refuted).", "quantifier": "all grids, fields, tags and marker positions", "why_tests_cant": "continuum of positions and fields; the faulty corner needs a diagonal air pattern", "anchors": ["MDLIB/ParticleRoutines.c:V2P (60-253)"]}
{"id": "C52", "title": "The grid is divided consistently into rock and air along the free surface", "statement": "A cell is part of the model exactly if the broken line of surface heights passes at or above its centre in its column (except cells pinched between lower neighbours); a cell in the model never touches a cell outside it except through the marking layer; every velocity on a face of a model cell is solved for and every other is not; an interior shear point is solved for exactly if its four cells are; mirrored topography gives mirrored cells; the surface density weight of the topmost rock cell is the filled fraction and lies in [0,1] where the surface does not climb more than a cell per column. (Refuted parts: the free-surface boundary position for pressure is never reported to the user callback; the shear points on the two sides are not mirrored; weights above one on spikes; reads past the grid for rock in the top line.)", "quantifier": "all topographies, grids, cells", "why_tests_cant": "the surface can cut the grid in unboundedly many ways", "anchors": ["MDLIB/FreeSurface.c:CellFlagging", "MDLIB/FreeSurface.c:MarkerChainPolyFit", "MDLIB/FreeSurface.c:SurfaceDensityCorrection", "MDLIB/Setup.c:SetBCs (590)"]}
{"id": "C53", "title": "Surface heights follow the surface chain", "statement": "Every chain marker east of the western side and not beyond the eastern one contributes to an existing column; if every column is covered, surface heights (or their increments, with incremental update) lie within the range of the chain, so flat stays flat and uniform uplift is uniform; the surface used everywhere is the continuous broken line through the heights. (Refuted: a marker exactly on the western side indexes column -1; a vertex whose columns have no markers drops to height zero.)", "quantifier": "all chains, grids, topographies", "why_tests_cant": "continuum of chain configurations", "anchors": ["MDLIB/FreeSurface.c:InterpTopoPart2Grid (317-388)", "MDLIB/FreeSurface.c:MarkerChainPolyFit"]}
{"id": "C54", "title": "Remeshing keeps the surface chain populated", "statement": "Remeshing leaves every chain marker inside the box untouched, puts two new markers at the quarter points of every half column with fewer than four markers, exactly on the surface, never exceeds the allocated number, and succeeds whenever four markers per column still fit; at the end of a step the chain lies on the surface. (Refuted: new markers reusing the slot of one that left stay marked as having left and are ignored by the next projection.)", "quantifier": "all chains, grids, surfaces", "why_tests_cant": "needs chains with particular holes and departures", "anchors": ["MDLIB/FreeSurface.c:RemeshMarkerChain (188-311)"]}
{"id": "C55", "title": "Surface processes: diffusion, sedimentation, incision", "statement": "Hillslope diffusion over a time step is a sequence of explicit steps within the stability limit that add up to the time step; without source it creates no new extremes, keeps the end heights and leaves an even slope alone; constant-rate sedimentation raises exactly the vertices below base level by rate times time; valley incision removes exactly width x rate x time of section. (Refuted: the diffusivity applied is half the one given, for every profile with more than three vertices; sedimentation may overshoot base level.)", "quantifier": "all topographies, time steps, diffusivities, spacings", "why_tests_cant": "unbounded number of sub-steps; a factor of two in diffusivity looks plausible", "anchors": ["MDLIB/FreeSurface.c:DiffuseAlongTopography (903-985)", "MDLIB/FreeSurface.c:SurfaceProcesses"]}
{"id": "C56", "title": "Eroded markers disappear and deposited ones fill the gap", "statement": "After the surface has been updated a marker in the box is active iff it was active and is not above the surface; new sediment markers lie strictly inside the box and strictly between the old and the new surface, one at every eighth point of a column where the surface rose, with the phase alternating every million years. (Refuted: the new markers start from a singular deformation gradient; they are written past the end of the marker arrays if those are full.)", "quantifier": "all marker positions, surfaces, array sizes", "why_tests_cant": "continuum; overflow needs nearly full arrays", "anchors": ["MDLIB/FreeSurface.c:CleanUpSurfaceParticles (805-834)", "MDLIB/FreeSurface.c:AddPartSed (96-182)"]}
{"id": "C57", "title": "Surface motion does not depend on the number of advection sub-steps", "statement": "A flat chain uplifted n times by v rises by n v, on the grid and on the chain (total update); with incremental update a single sub-step is exact on any relief; the zero-mean option yields heights with mean zero and keeps differences. (Refuted: with incremental update - the default - and several sub-steps only the last increment is kept; the zero-mean option reads chain entries never written.)", "quantifier": "all sub-step numbers, reliefs, chains covering all columns", "why_tests_cant": "needs runs cut into several sub-steps and a reference", "anchors": ["MDLIB/Main_DOODZ.c (469, 1080-1132)", "MDLIB/FreeSurface.c:InterpTopoPart2Grid (317-388)", "MDLIB/FreeSurface.c:RemeshMarkerChain (188-311)", "MDLIB/FreeSurface.c:KeepZeroMeanTopo (1067-1092)"]}
{"id": "C58", "title": "The local viscoelastic solve returns the viscosity at which all strain rates add up", "statement": "For every combination of constant-viscosity, dislocation, diffusion and Peierls creep and elasticity with stress exponents between 1 and 8, the viscosity at which the strain rates of all enabled mechanisms sum to the imposed one exists, is unique and does not exceed that of any mechanism alone; the local iteration returns it to a relative accuracy of 1e-13 and never takes its failure exit. For larger exponents all intermediate viscosities decrease towards it, and if the call returns the result is right to 1e-11. Whatever the parameters, on return the strain rates account for the imposed one to 1e-11. (Refuted: grain-boundary sliding, when enabled, contributes nothing; enabled alone, the iteration divides by zero.)", "quantifier": "all material parameters, strain rates, exponents", "why_tests_cant": "convergence and uniqueness of a nonlinear scalar solve over a continuum of parameters", "anchors": ["MDLIB/RheologyDensity.c:LocalIterationViscoElastic (82-127)", "MDLIB/RheologyDensity.c:ViscosityConcise (360-808)"]}
{"id": "C59", "title": "Plasticity brings the stress back to the yield stress", "statement": "Below the Mohr-Coulomb strength plasticity changes nothing. Above it, with rate-independent or linear viscoplasticity and either no dilation feedback or the default tolerance, the returned stress equals the strength at the returned pressure plus the viscous overstress, the pressure correction is bulk modulus x time step x plastic dilation, viscoelastic and plastic strain rates sum to the imposed one, and stress and viscosity are lowered. Stress and viscosity never turn negative. (Refuted: a tighter tolerance moves the result off the yield surface for every dilatant frictional material; power-law viscoplasticity with exponent other than 1 misses the yield surface; in tension the stress can be raised; reported creep rates plus plastic rate exceed the imposed rate.)", "quantifier": "all material parameters, pressures, strain rates", "why_tests_cant": "continuum of parameters; the errors cancel at the default tolerance", "anchors": ["MDLIB/RheologyDensity.c:ViscosityConcise (590-720)"]}
{"id": "C60", "title": "Work rates balance", "statement": "Without plasticity the reported total work rate is twice stress times strain rate and equals elastic plus dissipated work rate to 1e-11; dissipation is positive. (Refuted: at yield the reported total work rate is below the work done; elastic work is reported although elasticity is off.)", "quantifier": "all material parameters, strain rates", "why_tests_cant": "an energy balance over a continuum of rheologies", "anchors": ["MDLIB/RheologyDensity.c:ViscosityConcise (720-808)"]}
{"id": "C61", "title": "Material parameters of a cell lie between those of its phases", "statement": "Whatever the phase fractions and the averaging option (arithmetic, harmonic, geometric), viscosity, shear modulus and compressibility of a cell lie between the smallest and the largest value among the phases present, hence viscosity stays within the user's limits; harmonic <= geometric <= arithmetic; the order of phases does not matter. Mixtures of two phases, densities with reaction kinetics and the reaction progress stay between their end members, and progress moves monotonically to equilibrium. (Refuted: an unknown averaging option silently yields viscosity zero; the deformation maps show the lower viscosity limit everywhere.)", "quantifier": "all phase numbers, fractions, parameter values, options", "why_tests_cant": "continuum of mixtures; unbounded number of phases", "anchors": ["MDLIB/RheologyDensity.c:NonNewtonianViscosityGrid (865-1002)", "MDLIB/RheologyDensity.c:ShearModCompExpGrid (1299-1350)", "MDLIB/RheologyDensity.c:ViscosityConcise", "MDLIB/RheologyDensity.c:GenerateDeformationMaps (1763-1975)"]}
{"id": "C62", "title": "Strain softening goes from the initial to the final strength", "statement": "Linear softening that starts at zero strain is the ramp from initial to final value, and below the start strain and beyond the end strain the values are always the initial and the final one; smooth softening starts at the initial value, decreases with strain and stays above the final value. (Refuted: when softening starts at a positive strain the parameter jumps at the start strain, and undershoots the final value, possibly to a negative friction angle.)", "quantifier": "all initial and final values, start and end strains, strains", "why_tests_cant": "continuum of strains; usual tests look at the ends of the ramp, where the value is right", "anchors": ["MDLIB/RheologyDensity.c:Softening (1106-1200)"]}
{"id": "C63", "title": "Density tables are interpolated linearly", "statement": "Inside the table the density is the (bi)linear interpolant of the surrounding nodes, for one- and two-dimensional tables; any other pressure and temperature are brought inside first; the result always lies within the range of the entries. (Refuted: exactly at the lowest pressure or temperature memory before the table is read; beyond the end the value is not the last entry but one hundredth of a cell short of it.)", "quantifier": "all tables, sizes, pressures and temperatures", "why_tests_cant": "continuum of queries; the failing queries are isolated points", "anchors": ["MDLIB/RheologyDensity.c:ItpRho1D (1595-1613)", "MDLIB/RheologyDensity.c:Interpolate2Ddata (1618-1656)"]}
{"id": "C64", "title": "Strain rates are the symmetric velocity gradient", "statement": "For velocity fields that are quadratic in the coordinates, divergence, deviatoric strain rates and rotation rate at cell centres and shear points are exactly those of the continuous field, away from the surface; adding a rigid motion changes no strain rate; the deviatoric strain rate has no trace in every cell of the model. (Refuted: the shear strain rate of a cell that touches the surface is averaged with missing corners counted as zero; the rotation rate of points in air is never reset.)", "quantifier": "all grids, velocity fields and flag patterns", "why_tests_cant": "accuracy order of a discretisation is a statement about all fields", "anchors": ["MDLIB/RheologyDensity.c:StrainRateComponents (1661-1755)"]}
{"id": "C65", "title": "Flow laws deliver the strain rate of the published law, in any unit system", "statement": "With a law of the data base (dislocation, diffusion, grain-boundary sliding) read in any system of units, temperature at least 0 degrees C, the viscosity the model computes for one mechanism satisfies the published law strain rate = A stress^n d^-m f^r exp(-(Q+PV)/RT) with the experiment-type correction; the physical result does not depend on the units; below 0 degrees C the 0 degrees C value is used; viscosity does not increase with temperature or strain rate and does not decrease with pressure and grain size. Every law of the data base has admissible parameters. The user law with given viscosity does what it says; Peierls creep equals the tangent law at the reference stress. (Refuted: the user law with reference stress is wrong and unit dependent; linear law 1 overwrites the dislocation law, unscaled; a negative Peierls number has no effect.)", "quantifier": "all laws of the data base, unit systems, temperatures, pressures, strain rates, grain sizes", "why_tests_cant": "a continuum of conditions times arbitrary unit systems; unit errors vanish in tests run with one set of units", "anchors": ["MDLIB/FlowLaws.c:ReadDataPowerLaw (44-573)", "MDLIB/FlowLaws.c:ReadDataLinear (575-704)", "MDLIB/FlowLaws.c:ReadDataGBS (706-769)", "MDLIB/FlowLaws.c:ReadDataExponential (775-838)", "MDLIB/RheologyDensity.c:ViscosityConcise (448-500)", "MDLIB/InputOutput.c (1387-1395)"]}
{"id": "C66", "title": "Mixed-phase creep laws lie between their end members", "statement": "The mixed law of two phases equals the law of a phase when only that phase is present; its stress exponent and activation energy lie between those of the phases; for equal exponents the viscosity is the weighted geometric mean of the two viscosities, hence between them. (Refuted: the mixture ignores pressure - activation volume and grain size, water and melt terms are dropped.)", "quantifier": "all pairs of laws, fractions, temperatures, strain rates", "why_tests_cant": "continuum of mixtures", "anchors": ["MDLIB/RheologyDensity.c:HuetAveragingModel (1550-1592)"]}
{"id": "C67", "title": "The local viscoelastic solve is independent of the unit system", "statement": "Reading the creep laws, scaling, choice of the starting viscosity, the local iteration and its failure exit together give the same viscosity in Pa s and the same stress in Pa whatever length, time, viscosity and temperature units the run uses; the failure exit is taken in all unit systems or in none.", "quantifier": "all unit systems, all combinations of creep laws with elasticity and constant viscosity, all temperatures from 0 C to 10000 K, pressures, grain sizes, strain rates", "why_tests_cant": "needs the same point solved in all unit systems; a relation between two executions", "anchors": ["MDLIB/RheologyDensity.c:ViscosityConcise (448-616)", "MDLIB/RheologyDensity.c:LocalIterationViscoElastic (82-127)", "MDLIB/FlowLaws.c", "MDLIB/InputOutput.c:ScaleMe (1681)"]}
{"id": "C68", "title": "One diffusion step balances heat (or composition) in every cell", "statement": "After a step of the thermal (or chemical) solver the change of heat of every rock cell over the step equals the conduction through its four sides, evaluated with the new field, plus the sources: to a neighbouring rock cell over one spacing, to a prescribed wall or surface temperature over half a spacing, a prescribed bottom flux, nothing through closed sides; cells in air get the surface value; the step has exactly one outcome. (Refuted: the bottom flux is divided by the horizontal instead of the vertical spacing, so it is right only on square cells; with periodic sides the conductivities of the two end faces are computed separately, the matrix is then not symmetric, and an isolated body of uniform temperature heats up.)", "quantifier": "all grid sizes, flag patterns with air, conductivities, capacities, sources, old fields", "why_tests_cant": "all flag patterns and coefficients; tests use one set-up and compare to a tolerance", "anchors": ["MDLIB/ThermalRoutines.c:EnergyDirectSolve (72-494)", "MDLIB/ThermalRoutines.c:EvalNumEqTemp (39-55)", "MDLIB/ChemicalRoutines.c:ChemicalDirectSolve (72-416)", "MDLIB/ThermalSolver.c (197-258)"]}
{"id": "C69", "title": "Diffusion creates no new extremes and keeps order", "statement": "With non-negative prescribed values and heating sources, no temperature falls below the smallest of old and prescribed values, so the 'negative temperature' stop cannot be reached; without heating none rises above the largest; this holds over any number of consecutive solves; a hotter start with stronger sources ends nowhere colder.", "quantifier": "all grids, flags, coefficients, fields, time steps and numbers of solves", "why_tests_cant": "a bound over all inputs for arbitrarily large time steps", "anchors": ["MDLIB/ThermalRoutines.c:EnergyDirectSolve (72-494)", "MDLIB/ChemicalRoutines.c:ChemicalDirectSolve (72-416)"]}
{"id": "C70", "title": "Diffusion conserves heat and hands a positive definite matrix to the Cholesky solver", "statement": "The total heat of the rock changes only by the exchange with walls, surface and bottom and by the sources; exchange between cells, also across periodic sides, cancels exactly. The matrix is symmetric positive definite, has at most five entries per equation (the allocated size) and refers only to existing equations. (Refuted: a periodic line with air at one end refers to equation -1.)", "quantifier": "all grids, flag patterns, coefficients and fields", "why_tests_cant": "conservation and definiteness are statements about all vectors; out-of-range columns need unusual flag patterns", "anchors": ["MDLIB/ThermalRoutines.c:EnergyDirectSolve (72-494)", "MDLIB/ThermalSolver.c (197-258)"]}
{"id": "C71", "title": "Initial cooling takes exactly ten steps", "statement": "The initial cooling splits the requested duration into ten equal steps; although both the step and the quotient that gives the number of steps are rounded and the quotient is truncated, the number of steps is ten for every duration, never nine.", "quantifier": "all binary64 durations from 2^-1017 upwards, IEEE rounding to nearest even", "why_tests_cant": "2^63 inputs; the quotient falls just below ten before rounding for about half of them", "anchors": ["MDLIB/ThermalRoutines.c:ThermalSteps (500-511)"]}
{"id": "C72", "title": "Grid values carried back to markers stay within the surrounding values", "statement": "The value a marker takes from cell centres or vertices lies within the range of the rock values around it whenever every one of the two surrounding columns has a rock cell; where there is no air it reproduces fields that are linear in the coordinates exactly; with periodic sides the two ends give the same value; inactive markers get zero. (Refuted: if both cells of a column are air, the value standing in air reaches markers in the neighbouring rock cell.)", "quantifier": "all meshes, fields, flag patterns, marker positions", "why_tests_cant": "continuum of positions times all air patterns", "anchors": ["MDLIB/ParticleRoutines.c:Interp_Grid2P", "MDLIB/ParticleRoutines.c:Interp_Grid2P_centroids2"]}
{"id": "C73", "title": "A newly created marker gets values within the surrounding rock values", "statement": "A marker created inside a rock cell receives a value within the range of the surrounding rock cells (or vertices), whatever stands in the air; without air it is the same value an existing marker would get. (A marker created where all surrounding cells are air gets zero, i.e. absolute zero for temperature.)", "quantifier": "all meshes, fields, flag patterns, positions", "why_tests_cant": "all air patterns around all positions", "anchors": ["MDLIB/ParticleRoutines.c:Centers2Particle", "MDLIB/ParticleRoutines.c:Vertices2Particle"]}
{"id": "C74", "title": "Strain increments on markers stay within those of the surrounding cells", "statement": "The strain increment handed to a marker is a mean of the surrounding cell values wherever there is no air, and of the surrounding rock cells for markers more than one and a half cells from the sides. (Refuted: next to a free surface in the outer one and a half columns or lines the increment is divided twice by the weight and amplified up to a factor of two.)", "quantifier": "all meshes with at least three cells per side, fields, flag patterns, positions", "why_tests_cant": "continuum of positions; the wrong branch needs air beside a wall", "anchors": ["MDLIB/ParticleRoutines.c:Interp_Grid2P_strain"]}
{"id": "C75", "title": "Reseeding fills depleted cells and leaves existing markers alone", "statement": "Provided the marker counts are still readable, reseeding (new method) adds exactly one marker, in the middle, to every rock quarter-cell with fewer than two markers and none elsewhere; it copies the phase of the closest marker within two quarter-cells; active markers are unchanged; slots of inactive markers are used first; the array never overflows; a depleted cell without any marker nearby stops the run. (Refuted: the counts are read after they were freed, so by the C standard no marker can ever be added; the topography has no influence, so markers are created above the free surface.)", "quantifier": "all box sizes, marker sets, flag patterns, capacities, topographies", "why_tests_cant": "all marker configurations; the freed memory usually still holds the counts in tests", "anchors": ["MDLIB/ParticleRoutines.c:CountPartCell (2334-2585)", "MDLIB/ParticleRoutines.c:AssignMarkerProperties (688-752)"]}
{"id": "C76", "title": "Inflow through the sides adds one copy per entering marker", "statement": "When material enters through the sides, every marker that moved from the half-cell next to a side into the following half-cell is copied exactly once, half a cell nearer to the side with the same properties, and nothing else is added; all markers present keep position, phase and properties; slots of lost markers are used first. (Refuted: when the marker array is full the first copy is written to an index that was never set, and later copies silently overwrite the previous copy.)", "quantifier": "all marker sets, motions, capacities, boxes of at least two cells; markers exactly on a cell side excluded", "why_tests_cant": "the loop bound grows while the loop runs and recycled slots are visited again; all marker configurations", "anchors": ["MDLIB/ParticleRoutines.c:ParticleInflowCheck (549-682)", "MDLIB/ParticleRoutines.c:AssignMarkerPropertiesInflow (758-828)"]}
{"id": "C77", "title": "Initial markers cover the box evenly", "statement": "The initial layout puts exactly one active marker into every tile (cell divided by the requested number of markers per direction) whose middle lies below the surface and none elsewhere; random noise moves it at most a tenth of a tile, so all markers stay strictly inside the box; without surface the number of markers is the requested one, and the arrays have room for four times as many. (Refuted: noise can place markers above the surface.)", "quantifier": "all grid sizes, numbers of markers per cell, surfaces, random numbers", "why_tests_cant": "all random sequences and all surfaces", "anchors": ["MDLIB/ParticleRoutines.c:PutPartInBox (1261-1353)", "MDLIB/AdvectionRoutines.c:isoutPart (318-339)", "MDLIB/InputOutput.c (1141-1145)"]}
{"id": "C78", "title": "Phase transmutation applies the rule of each phase once", "statement": "Each time step every marker, except the last of the array, changes to the target phase of its phase (phase and dual phase together) exactly if its temperature is beyond the threshold in the configured direction, once per step, independently of thread order; nothing else changes. (Refuted: the last marker never changes; any marker that has left the model makes the routine read outside the material tables.)", "quantifier": "all marker sets, tables, temperatures, loop orders", "why_tests_cant": "the failing cases (last marker, inactive markers) do not show in small tests; all thread schedules", "anchors": ["MDLIB/ParticleRoutines.c:TransmutateMarkers (3570-3587)", "MDLIB/Main_DOODZ.c (443)"]}
{"id": "C79", "title": "Melt fraction is a fraction and grows with temperature", "statement": "For every implemented melting law the melt fraction lies between 0 and 1, is never smaller for a hotter rock at the same pressure and history, is 0 below the solidus and 1 above the liquidus once the kinetics allow, and in between relaxes to an equilibrium value which is the linear interpolation up to a factor that tends to 1; mixtures and marker values stay between 0 and 1. (Refuted: the equilibrium value depends on the temperature unit; a decimal comma in one law and a division in another shift their solidus; an unknown law number reads uninitialised memory.)", "quantifier": "all laws, pressures, temperatures, previous fractions, kinetic times, time steps, mixtures", "why_tests_cant": "continuous inputs; the errors need particular laws or units", "anchors": ["MDLIB/MeltingRoutines.c:PartialMelting", "MDLIB/MeltingRoutines.c:MeltFractionGrid", "MDLIB/RheologyParticles.c:UpdateParticlePhi (811-842)"]}
{"id": "C80", "title": "Latent heat only raises the effective heat capacity", "statement": "The effective heat capacity of a melting cell is at least that of the mixture of its rocks and equals it where nothing melts, likewise the thermal expansivity; the routine is defined for all known laws; the thermal volume source is the expansivity times the temperature rate. (Refuted: whether any cell is updated is decided by the flag of the first cell only.)", "quantifier": "all mixtures, laws, pressures, temperatures, flags", "why_tests_cant": "monotonicity over continuous inputs; the flag mistake shows only with air in the first cell", "anchors": ["MDLIB/MeltingRoutines.c:UpdateAlphaCp", "MDLIB/MeltingRoutines.c:MassSourceTerm"]}
{"id": "C81", "title": "Accumulated strain on markers is the sum of its parts and does not decrease", "statement": "In each step the total strain of a marker grows by the sum of what its mechanisms add (elastic, plastic, power law, exponential, linear, grain boundary sliding) plus constant-viscosity creep, which is not kept separately; for markers between the first and last line of cell centres each increment is between zero and the largest increment of the surrounding rock cells; a uniform strain rate gives exactly its product with the time step everywhere; recorded peak pressure and temperature never decrease. (Refuted: in the half-cell next to a side the increment is extrapolated and can be negative.)", "quantifier": "all meshes of at least two cells, fields, flag patterns, positions, time steps", "why_tests_cant": "continuum of positions; the extrapolation shows only beside the walls", "anchors": ["MDLIB/RheologyParticles.c:AccumulatedStrainII (188-530)", "MDLIB/RheologyParticles.c:UpdateMaxPT (752-765)", "MDLIB/Main_DOODZ.c (1069)"]}
{"id": "C82", "title": "Deformation gradient follows material lines", "statement": "Each step changes the image of every material line by the time step times the velocity gradient applied to it; in a homogeneous flow without air every marker anywhere in the box gets exactly the gradient of the flow; simple shear is followed exactly however the time is divided; area is multiplied by the determinant of the increment. (Refuted: area is conserved in incompressible flow: pure shear loses and rotation gains area in every step.)", "quantifier": "all meshes, homogeneous flows, markers, tensors, numbers and sizes of steps", "why_tests_cant": "all flows and step sequences; index arithmetic of three staggered grids", "anchors": ["MDLIB/RheologyParticles.c:DeformationGradient (536-615)"]}
{"id": "C83", "title": "Finite strain aspect ratio is the ratio of the principal stretches", "statement": "For every invertible deformation gradient the reported aspect ratio is the largest stretch of any line divided by the smallest, at least 1, independent of rotation; any sequence of rotation steps leaves it exactly 1. (Refuted: the ratio is a division by zero for every marker created as sediment, whose gradient is singular from the start and stays so under any deformation.)", "quantifier": "all 2x2 gradients; all deformation histories", "why_tests_cant": "extremum over all directions and all real matrices", "anchors": ["MDLIB/RheologyParticles.c:FiniteStrainAspectRatio (621-665)"]}
{"id": "C84", "title": "Markers follow the change of the grid without growing scatter", "statement": "Without subgrid diffusion every marker keeps its distance to the interpolated grid value exactly, and nothing moves where the grid does not change; with subgrid diffusion markers that agree with the grid are updated in the same way, any other marker is first moved towards the grid value by an exponential factor, never beyond, and if all markers were within D of the old grid all are within D of the new one (equal relaxation times; at most 2D otherwise). Melt fractions of markers stay between 0 and 1. (Refuted: with subgrid diffusion and an unchanged grid, for example with the thermal solver off, markers keep their temperature; markers keep their own grain size.)", "quantifier": "all meshes, marker sets, fields at cells or vertices, relaxation times, time steps", "why_tests_cant": "two interpolations over all marker configurations; a bound over real exponentials", "anchors": ["MDLIB/RheologyParticles.c:UpdateParticleEnergy (1187-1268)", "MDLIB/RheologyParticles.c:UpdateParticlePressure (1276-1375)", "MDLIB/RheologyParticles.c:UpdateParticleStress (1465-1618)", "MDLIB/RheologyParticles.c:UpdateParticlePhi (811-842)", "MDLIB/RheologyParticles.c:UpdateParticleGrainSize (1143-1180)"]}
{"id": "C85", "title": "Subgrid diffusion options and units", "statement": "Option 0 adds grid changes directly, 1 diffuses temperature only, 2 temperature, pressure and stress; the amount of subgrid diffusion of temperature and stress is independent of the system of units. (Refuted: an option above 2 silently stops the update of marker stresses; the relaxation time of pressure is viscosity divided by compressibility, so its exponent is multiplied by the square of the stress unit and the result depends on the units.)", "quantifier": "all option values, fields, units and material parameters", "why_tests_cant": "a scaling law over all unit systems", "anchors": ["MDLIB/RheologyParticles.c:UpdateParticleEnergy (1187-1268)", "MDLIB/RheologyParticles.c:UpdateParticlePressure (1276-1375)", "MDLIB/RheologyParticles.c:UpdateParticleStress (1465-1618)", "MDLIB/InputOutput.c (1267)"]}
{"id": "C86", "title": "Output files contain every field completely, in SI units, under a unique name", "statement": "Every dataset of the grid and the marker output file has the number of values its location implies (vertices, cells, velocity nodes, markers, steps, chain points), is read entirely inside the array it comes from, comes from the field its name says, and each value read back is the value of the run times the coherent unit of its physical dimension, to single-precision accuracy; names inside a group are unique and every group used is created; the parameter array lists time, lengths, node numbers, spacings and step in SI; chunk sizes are between 1 and the number of values; different steps give different file names, which sort like the steps up to 99999. (Refuted: the order of names continues beyond 99999.)", "quantifier": "all grid sizes, marker and step counts, units, field values within single-precision range, option combinations", "why_tests_cant": "more than a hundred datasets whose size, unit and switch are given by hand; errors are silent unit or length mistakes in single fields", "anchors": ["MDLIB/HDF5Output.c:WriteOutputHDF5 (256-960)", "MDLIB/HDF5Output.c:WriteOutputHDF5Particles (968-1236)", "MDLIB/HDF5Output.c:AddFieldToGroup (139-250)", "MDLIB/HDF5Output.c:ScaleBack (62-92)", "MDLIB/MemoryAllocFree.c:GridAlloc"]}
{"id": "C87", "title": "Phase maps show the marker nearest to the centre", "statement": "Each cell of a phase map, at any resolution, shows the value carried by an active marker lying in that cell and in rock that is at least as close to the cell centre as every other such marker, and -1 exactly when there is none; a cell with one kind of markers shows that kind. (Refuted: the map at normal resolution shows the auxiliary phase instead of the phase of the markers; with one marker per cell and fewer than ten cells the routine reads outside the marker arrays.)", "quantifier": "all grids, resolutions, flag patterns, marker sets inside the box", "why_tests_cant": "all marker configurations; ties and cell borders; the stray read returns plausible memory", "anchors": ["MDLIB/ParticleRoutines.c:Interp_Phase2VizGrid (1883-1970)", "MDLIB/HDF5Output.c (292-325)", "MDLIB/InputOutput.c (1144-1145)"]}
{"id": "C88", "title": "Time series record one SI entry per step", "statement": "Entry n of each series is written in step n, never changed later, inside the arrays; time and thermal energy are sums over the steps so far; means are arithmetic means over the rock cells for any distribution of cells over threads, hence between the extreme values, and the mean stress (strain-rate) invariant is at least the size of the mean shear component; all entries are in coherent units; the thermal energy telescopes to the heat content. (Refuted: with no rock left the means are 0/0; the series of work and elastic energy are always zero; the shortening of entry n is that of the box before step n while its time is that after step n.)", "quantifier": "all step sequences, fields, flag patterns, thread distributions and units", "why_tests_cant": "all histories and all thread schedules", "anchors": ["MDLIB/RheologyDensity.c:LogTimeSeries (1983-2001)", "MDLIB/RheologyDensity.c:ComputeMeanQuantitesForTimeSeries (2007-2070)", "MDLIB/ThermalRoutines.c:EnergyDirectSolve (82, 174-175, 407-432)", "MDLIB/Main_DOODZ.c (79, 392-393, 435, 454, 1006-1007, 1047)"]}
{"id": "C89", "title": "Saving does not disturb the run", "statement": "Writing checkpoints multiplies the numbers of the running program by their units and divides them again, in binary64: however many checkpoints are written, a number changes at most once, by at most two roundings, and order is kept; with units that are powers of two nothing changes. (Refuted: numbers are never changed at all; the residual files, which multiply by the rounded reciprocal, can change a number again and again.)", "quantifier": "all doubles and units of moderate size, any number of files", "why_tests_cant": "2^106 pairs of doubles; one differing last bit is invisible in any tolerance-based test", "anchors": ["MDLIB/InputOutput.c:MakeBreakpointParticles (502-1003)", "MDLIB/HDF5Output.c:WriteResiduals (1242-1301)", "MDLIB/MiscFunctions.c:ArrayTimesScalar (171-177)"]}
{"id": "C90", "title": "The Krylov solver never makes the solution worse and means what it reports", "statement": "When the Krylov solver of the linear system reports convergence, the true residual of the vector it returns is below the tolerance times that of the initial guess; in every case the returned vector is at least as good as the guess, the printed norms never grow and the last one is the norm of the true residual; the iteration count exceeds the requested maximum by at most six, and a return without success has reached it. In the first cycle of six no combination of the preconditioned residuals gives a smaller residual, and if the preconditioned operator is definite with bounds alpha and beta each iteration reduces the squared residual by the factor 1-(alpha/beta)^2 and cannot break down. (Refuted: a guess that already solves the system is returned intact; a solvable system with an indefinite operator never breaks down: both give NaN.)", "quantifier": "all sizes, matrices, preconditioners, right-hand sides, guesses, tolerances and maxima", "why_tests_cant": "universal over matrices and vectors; minimality quantifies over all combinations", "anchors": ["MDLIB/Solvers.c:kspgcr (122-231)"]}
{"id": "C91", "title": "Powell-Hestenes iterations converge to the solution of the coupled system for every penalty", "statement": "After each iteration the momentum residual equals the residual left by the velocity solver, the continuity equation of compressible cells holds exactly, and with exact velocity solves and a positive velocity operator the divergence left in incompressible cells never grows; under an inf-sup bound beta it shrinks by 1+penalty*beta per iteration; when it vanishes the pair of velocity and pressure solves both equations.", "quantifier": "all velocity operators, divergence operators (gradient its negative transpose), mixtures of compressible and incompressible cells, penalties, right-hand sides, numbers of iterations", "why_tests_cant": "a convergence rate for all matrices and all iteration counts", "anchors": ["MDLIB/Solvers.c:KillerSolver (1046-1438)"]}
{"id": "C92", "title": "An accepted linear solution is divergence-free to tolerance", "statement": "If the solver accepts and the largest residual of its first iteration was positive, no cell has a continuity residual above max(absolute tolerance, relative tolerance times that largest one), and when the residuals cancel over the box none is below minus the number of cells times that; the program exits only if some cell violates the absolute tolerance; a stop before the last iteration comes after at least three and also bounds the momentum residual from above. (Refuted: the size of the residual is tested: any negative residual is accepted, any residual after a first iteration with only negative ones, NaN, and at the last iteration any momentum residual; with zero iterations allowed the outcome is undefined.)", "quantifier": "all residual histories, tolerances, sizes and iteration limits", "why_tests_cant": "the sign mistakes need residuals of one sign or NaN, which regression tests never see", "anchors": ["MDLIB/Solvers.c:KillerSolver (1279-1320)", "MDLIB/MiscFunctions.c:MinMaxArrayVal (340-370)"]}
{"id": "C93", "title": "Every pressure unknown gets the block entries of its own cell", "statement": "In the default solver every cell in the flow, in whatever order the threads visit the cells, gets compressibility coefficient 0 and penalty if incompressible, its own coefficient and its inverse if compressible, so that the blocks meet what convergence needs; the two other compressible solvers do so when cells and unknowns have the same numbers. (Refuted: they do so with air cells: entries come from other cells, depend on the order of threads, or are read outside the diagonal.)", "quantifier": "all grids, air patterns, numberings, compressibility patterns, coefficients and thread orders", "why_tests_cant": "all thread orders and all air patterns", "anchors": ["MDLIB/Solvers.c:KillerSolver (1085-1103)", "MDLIB/Solvers.c:DirectStokesDecoupledComp (724-735)", "MDLIB/Solvers.c:KSPStokesDecoupled (1482-1500)"]}
{"id": "C94", "title": "Cells are treated as compressible exactly where the material is", "statement": "After detection every rock cell whose compressibility exceeds the threshold is treated as compressible and no other cell changes its treatment. (Refuted: a cell into which incompressible material moves becomes incompressible again; it keeps its mark and its inverse coefficient is then a division by zero.)", "quantifier": "all grids, compressibilities and previous marks", "why_tests_cant": "needs a history of moving materials", "anchors": ["MDLIB/StokesRoutines.c:DetectCompressibleCells (514-528)", "MDLIB/Main_DOODZ.c (544)"]}
{"id": "C95", "title": "Vectors and matrices reach the linear solver and come back in the numbering of the equations", "statement": "The solution of the velocity and pressure solves is returned at exactly the equation number of each unknown; the initial guess of the horizontal velocity and of the pressure is the current field; the row numbers given to the factorisation are those of the assembled matrix. (Refuted: the initial guess of the vertical velocity is the current vertical velocity: it is an entry of the horizontal velocity, read outside the array in boxes at least 2Nx+3 nodes high; in boxes not higher than wide it is read inside.)", "quantifier": "all grid sizes, boundary types, air patterns, fields and sparsity patterns", "why_tests_cant": "index arithmetic over all grids; a wrong guess only changes the number of iterations", "anchors": ["MDLIB/SparseTools.c:BuildInitialSolutions (150-191)", "MDLIB/SparseTools.c:BackToSolutionVector (193-239)", "MDLIB/SparseTools.c:DecompressCSRtoTriplets (316-334)"]}
{"id": "C96", "title": "The lithostatic pressure is the weight of the rock above", "statement": "Between two rock cells on top of each other the lithostatic pressure differs by exactly the weight between their centres; in a column covered by air it is the confining pressure plus the weight up to the first air cell, it is zero in the air and grows with depth. With the density correction at the free surface, pressure differences between columns of uniform rock are exactly density times gravity times the difference of surface heights. (Refuted: it is the full overburden under a free surface: half a cell of rock is missing below the surface cell, and in the surface cell half the weight; rock up to the top of the model: the weight of the top row is missing and its own pressure is negative; the surface correction stays inside its arrays when rock reaches the top row.)", "quantifier": "all grid sizes, densities, air patterns, gravities, cell sizes, confining pressures, surface heights", "why_tests_cant": "exact identity for all columns; tests compare single profiles with tolerances larger than half a cell", "anchors": ["MDLIB/GridRoutines.c:ComputeLithostaticPressure (415-465)", "MDLIB/FreeSurface.c:SurfaceDensityCorrection (841-871)", "MDLIB/Main_DOODZ.c (267-280, 552-558)"]}
{"id": "C97", "title": "Layered rock at rest stays at rest", "statement": "The body force at every unknown velocity node is gravity times the mean of the two neighbouring densities and zero elsewhere; with vertical gravity, density depending on height only, no motion, no stored stress and the lithostatic pressure, every residual of the momentum equations between rock cells and every horizontal one vanishes exactly, and so does the continuity residual, for any viscosity and compressibility; at a node under the air the remainder is half the weight of the air cell.", "quantifier": "all grids, boundary types, layerings, viscosities, gravities, time steps", "why_tests_cant": "a well-balancedness identity over all discretisations; a test sees only small numbers", "anchors": ["MDLIB/StokesRoutines.c:EvaluateRHS (924-1091)", "MDLIB/GridRoutines.c:ComputeLithostaticPressure (415-465)", "MDLIB/StokesAssemblyDecoupled.c:Xmomentum_InnerNodesDecoupled (183-208)", "MDLIB/StokesAssemblyDecoupled.c:Zmomentum_InnerNodesDecoupled (688-714)"]}
{"id": "C98", "title": "In polar geometry gravity points to the centre", "statement": "With polar = 1, at every place above the height of the origin and beside it gravity has the strength given in the input and points along the line to the origin. (Refuted: below the origin, where it points the opposite way; at the height of the origin, where the components of the input file are used.)", "quantifier": "all places off the vertical axis, all strengths", "why_tests_cant": "direction for all places of the plane", "anchors": ["MDLIB/StokesRoutines.c:EvaluateRHS (965-971, 1035-1041)"]}
{"id": "C99", "title": "The density of a cell is the volume average of its phases", "statement": "Outside the air the density of a cell is the average of the densities of its phases weighted by their volume fractions: exactly if no present fraction is below 1e-13, otherwise between the lightest (up to the skipped fractions) and the densest phase; cells of type air have density zero before the surface correction.", "quantifier": "all phase fractions, densities and numbers of phases", "why_tests_cant": "universal over mixtures", "anchors": ["MDLIB/RheologyDensity.c:UpdateDensity (1498-1535)"]}
{"id": "C100", "title": "The default reseeding puts one marker in the middle of each depleted quarter cell under the surface", "statement": "With reseed_mode 0, every quarter of a mesh cell that is rock, holds fewer than a quarter of min_part_cell live markers and whose middle lies under the surface gets exactly one new marker in its middle; all other quarters keep their markers and no live marker changes; dead slots are used before the arrays grow, and the marker count rises by exactly what dead slots do not cover. The new marker copies the closest live marker within two quarter cells, or above the initial surface the closest sediment marker there. Nothing happens if nothing is depleted or min_part_cell is below 4; a depleted quarter without live markers around stops the run. (Refuted: the number of new markers may exceed the number of markers: the list overflows; the run stops before the marker arrays overflow; a marker above the initial surface is always sediment; markers across a periodic side are taken into account.)", "quantifier": "all marker arrays with the live markers inside the box, grids, surfaces, air patterns, parameters", "why_tests_cant": "universal over marker clouds; overflows depend on the cloud and need not crash", "anchors": ["MDLIB/ParticleRoutines.c:CountPartCell_OLD (2628-3560)", "MDLIB/ParticleRoutines.c:AddPartCell2 (1082-1130)", "MDLIB/ParticleRoutines.c:FindClosestPhase2 (951-990)", "MDLIB/Main_DOODZ.c (1113, 1156)"]}
{"id": "C101", "title": "The Newton tangent operator of a material point is the derivative of its stress", "statement": "For a material point made of any mixture of phases, with arithmetic, harmonic or geometric averaging, the finite differences of the averaged viscosity and of the plastic divergence converge, as the perturbation shrinks, to their derivatives with respect to Exx, Ezz, Gxz and P; and the twelve coefficients D11..D34 computed from them give the change of the total normal stresses and of the shear stress along every direction of change of strain rate and pressure, with isotropic and with transversely isotropic viscosity. With the finite perturbation used, each difference equals the slope at a state inside the perturbed interval, and the perturbation is never zero.", "quantifier": "all numbers of phases and fractions adding up to one, all differentiable phase viscosities and plastic divergences, all states and directions, the three averages, all anisotropy factors and directors", "why_tests_cant": "a test of a Jacobian checks one state with one rheology; a missing factor (for instance 2 for Gxz = 2 Exz, or the averaging weight) only slows convergence and is hidden by the line search", "anchors": ["MDLIB/FD_Jacobian.c:PhaseRheologyLoop_v1 (46-96)", "MDLIB/FD_Jacobian.c:DerivativesOnTheFly_n (98-210)", "MDLIB/FD_Jacobian.c:DerivativesOnTheFly_s (212-321)", "MDLIB/StokesRoutines.c:RheologicalOperators (246-369)"]}
{"id": "C102", "title": "The Newton matrix rows are the derivative of the momentum residual", "statement": "For both boundary templates of the library (pure shear and periodic simple shear), on every grid with rock within two cells, if the tangent operators are the derivatives of the stresses, then the Newton matrix row of every horizontal and vertical velocity unknown applied to any change of the unknowns is the derivative of the residual of that equation along this change, for every rheology. (Refuted: with free-slip walls when the shear stress on the wall depends on pressure; beside no-slip side walls; at boundary nodes with a prescribed normal stress, whose rows are empty so that the matrix is singular; beside air cells, where rows use weights 1/3 and 1/2 but the fields a quarter of the sum.)", "quantifier": "all grids, spacings, states, increments, numberings, rheologies, all positions of the node including beside walls and across the periodic side", "why_tests_cant": "a row has up to 27 coefficients with 25 masks; an error in one of them shows only as slower convergence at particular nodes, never as a wrong converged solution", "anchors": ["MDLIB/StokesAssemblyDecoupled.c:Xjacobian_InnerNodesDecoupled3 (217-555)", "MDLIB/StokesAssemblyDecoupled.c:Zjacobian_InnerNodesDecoupled3 (730-1083)", "MDLIB/StokesAssemblyDecoupled.c:BuildJacobianOperatorDecoupled (1903-2060)", "MDLIB/StokesRoutines.c:RheologicalOperators (246-369)"]}
{"id": "C103", "title": "A run gives back the memory it obtained, once", "statement": "Whatever the options, the releases at the end of a run only concern blocks the run obtained before the time loop and that are still live, and no table of pointers is read out of bounds; the only exception is a setup-file string kept as the literal of its default (parameter name present without an equals sign), whose release is undefined. When the run is defined, no block is left at the end except the two lateral stresses of a free-surface run, which are never released.", "quantifier": "all grid sizes, numbers of phases, density models and combinations of the options free_surface, anisotropy, finite_strain, track_T_P_x_z, marker_aniso_angle, kinetics, phase diagrams, user conductivity", "why_tests_cant": "a test runs one combination of options; freeing twice, freeing a literal or leaking is usually silent", "anchors": ["MDLIB/MemoryAllocFree.c:GridAlloc, GridFree, PartAlloc, PartFree, NmodelAlloc, NmodelFree, AllocatePhaseDiagrams, FreePhaseDiagrams", "MDLIB/Main_DOODZ.c:51-119, 1243-1286", "MDLIB/FreeSurface.c:AllocateMarkerChain, FreeMarkerChain", "MDLIB/InputOutput.c:ReadInputFile, ReadChar"]}
{"id": "C104", "title": "Checkpoints stay inside the memory obtained at startup", "statement": "With the arrays allocated at startup, as long as the numbers of markers and of surface markers do not exceed their capacities, every object written to or read from a checkpoint and every rescaling loop around it stays inside its array; writing and restarting are therefore always defined and the restarted run has the saved state.", "quantifier": "all grid sizes, numbers of phases, combinations of options, contents of memory and roundings of the unit conversions", "why_tests_cant": "an overrun of a few bytes in one of about a hundred arrays under one option combination does not crash", "anchors": ["MDLIB/MemoryAllocFree.c:GridAlloc, PartAlloc", "MDLIB/FreeSurface.c:AllocateMarkerChain", "MDLIB/InputOutput.c:MakeBreakpointParticles, LoadBreakpointParticles"]}
{"id": "C105", "title": "The surface at the start is the surface the user gave", "statement": "At the start of a run with a free surface every column carries 23 evenly spaced surface markers, strictly inside the column and inside the allocated storage, placed at the height (and with the phase) the user's functions return at their position, or one kilometre above zero without such a function. The surface heights of all vertices then lie within the range of the user's surface, and a plane surface of any slope is reproduced exactly at all inner vertices, with either way of updating the surface. (At the two sides the height of the neighbouring vertex is used, which cuts a slope off.)", "quantifier": "all grids with at least three vertices per row, spacings, user functions and slopes", "why_tests_cant": "tests use one flat surface on one grid", "anchors": ["MDLIB/FreeSurface.c:SetTopoChainHorizontalCoords (50-67), InterpTopoPart2Grid (317-388)", "MDLIB/Setup.c:BuildInitialTopography (12-28)"]}
{"id": "C106", "title": "The first velocity field is the background flow and meets the boundary conditions", "statement": "Before the iterations of the first step, every velocity node that is not a ghost is zero in the air, has the prescribed value where one is prescribed, and elsewhere the velocity of the background pure or simple shear; the divergence of every rock cell is then the same, two thirds of the background divergence rate; ghost and periodic nodes meet their conditions; at later steps only air and prescribed nodes are changed. The pressure is the background pressure at first and later unchanged in the rock and zero in the air. (Two exceptions: with a divergence rate but zero strain rate the first field is at rest, and at the first step the air gets the background pressure.)", "quantifier": "all grids, node types, prescribed values, background rates and previous fields", "why_tests_cant": "an initial guess that is wrong in some cells only costs iterations or shortens the first time step", "anchors": ["MDLIB/GridRoutines.c:InitialiseSolutionFields (331-408)", "MDLIB/StokesRoutines.c:ApplyBC (413-508)"]}
{"id": "C107", "title": "The first time step resolves the stress relaxation", "statement": "In an elastic run with adaptive steps the time step after initialisation is at most the given one and at most the relaxation time (viscosity over shear modulus) of every rock vertex, it is one of these values and positive; otherwise it is the given one. The step of the first solution then exceeds no relaxation time by more than a quarter, provided something moves and the user's lower limit does not rule. (When nothing moves at first, as in a model driven by gravity alone, the given step is used however short the relaxation times.)", "quantifier": "all grids, viscosities, moduli, velocities and time-step options", "why_tests_cant": "continuum of material fields", "anchors": ["MDLIB/AdvectionRoutines.c:DefineInitialTimestep (513-557), EvaluateCourantCriterion (563-683)", "MDLIB/Main_DOODZ.c:382, 450-458"]}
{"id": "C108", "title": "Reported surface velocities", "statement": "After a solution the horizontal velocity stored for each surface vertex is that of the highest rock node of its column, and a column without air keeps its previous value; the surface markers get the linear interpolation of the two neighbouring vertices, exact for velocities linear in x and never beyond the two values. (The vertical velocity stored is that of the node one row below the highest rock node, so it misses the surface velocity by the vertical gradient times the spacing, and with a single row of rock or an all-air column the arrays are read before their start.)", "quantifier": "all grids, surfaces, velocity fields and marker positions", "why_tests_cant": "the off-by-one row is invisible for uniform uplift; the out-of-bounds read rarely crashes", "anchors": ["MDLIB/FreeSurface.c:SurfaceVelocity (991-1062)"]}
{"id": "C109", "title": "The anisotropy factor of a node is the mean over its phases", "statement": "Before the iterations of a step every rock cell and vertex of an anisotropic run receives the arithmetic, harmonic or geometric mean (by ani_average) of the factors of its phases, weighted by its own phase fractions; the factor of a strain-dependent phase is the local aspect ratio of the finite strain, up to the given maximum. The result lies between the factors of the phases; air nodes get 0; with periodic sides both ends of a row agree. With the arithmetic and the harmonic mean the program never stops if the fractions add up to one. (With the geometric mean it stops, reporting a cell without particles, exactly if some rock node is isotropic, and factor 1 is the default.)", "quantifier": "all grids, node types, phase fractions, materials, aspect ratios and means", "why_tests_cant": "continuum of mixtures; the stop needs the rarely used geometric mean", "anchors": ["MDLIB/AnisotropyRoutines.c:UpdateAnisoFactor (351-476), AnisoFactorEvolv (44-53)"]}
{"id": "C110", "title": "Strength of a node", "statement": "Friction, dilation and cohesion of every rock cell and vertex are the means over its phases, weighted by its fractions, of the values softened by the local plastic strain, the cohesion times one plus the noise; air nodes get 0 and nothing is written outside the grids. With smooth softening, or linear softening from zero strain, they lie between the values given for the materials, so the cohesion is not negative for noise of at least -1. (With linear softening at the default strains and a final friction below half the initial one, friction becomes negative before softening ends.)", "quantifier": "all grids, node types, phase fractions, materials, strain and noise fields", "why_tests_cant": "continuum of strains and mixtures", "anchors": ["MDLIB/RheologyDensity.c:CohesionFrictionDilationGrid (1206-1293), Softening (1106-1199)"]}
{"id": "C111", "title": "Grain size and composition of markers", "statement": "At the start every active marker has the grain size of its phase. After every step the composition X of every marker lies between 0 and 1; markers in a grid without air change by the change of the grid composition at their place, cut off at 0 and 1; where the grid composition did not change no marker changes.", "quantifier": "all marker sets, phases, positions and composition fields", "why_tests_cant": "unbounded marker sets and fields", "anchors": ["MDLIB/RheologyParticles.c:InitialiseGrainSizeParticles (44-51), UpdateParticleX (848-920)"]}
{"id": "C112", "title": "Density of a phase", "statement": "The density of a phase is defined for density_model 0 to 5. Constant and closed-form models follow their formulas, are positive for positive reference densities where the formula is exponential, and lie between the end members for partial reaction or melt. A phase that names one of the ten phase diagrams has, when the ten files are complete, a density between the smallest and largest entry of its file at every temperature and pressure (the exact lower ends excepted), whatever the units of the run. (A file that is too short is not noticed: the density at the highest temperature and pressure is then read from memory never written. Only the diagram index -1 is refused; other indices outside 0..9 are read outside the tables. Unknown density_model numbers return an uninitialised variable.)", "quantifier": "all table files, units, materials, temperatures, pressures, compositions and melt fractions", "why_tests_cant": "continuum of states; truncated files and bad indices give plausible-looking densities", "anchors": ["MDLIB/InputOutput.c:ReadInputFile (1476-1663), ReadBin (1701-1714)", "MDLIB/RheologyDensity.c:EvaluateDensity (1426-1491), Interpolate2Ddata (1618-1656)"]}
{"id": "C113", "title": "Smoothing of the quartz-coesite table", "statement": "The one-dimensional density table is smoothed once when it is read. The two end values are those of the file, no value leaves the range of the file, an increasing table stays increasing, the steepest step does not grow, a straight line is unchanged, and the smoothed densities in kg/m3 do not depend on the units of the run. The run stops exactly if the file is missing. With a complete file the density at every pressure (the exact lower end excepted) lies in the range of the file. (A short file is accepted; the missing densities are zero, and so is the density at the highest pressure.)", "quantifier": "all tables, units, pressures and numbers of smoothing steps", "why_tests_cant": "the weight 1/2.1 is just below the stability limit 1/2: overshoot shows only for particular tables", "anchors": ["MDLIB/InputOutput.c:ReadInputFile (1398-1474)", "MDLIB/RheologyDensity.c:EvaluateDensity (1486-1489)"]}
{"id": "C114", "title": "Grain-size evolution", "statement": "With grain-size evolution (gs = 1), if a viscosity is returned for a rock with dislocation creep and one of the growth laws 9, 10, 40, 41, 42, then the strain rates of all mechanisms at the returned stress and grain size add up to the given strain rate (to 1e-11), and the returned grain size is the one at which grain growth and reduction by dislocation creep balance at the returned stress. Exactly one viscosity has a matching steady grain size, and the returned viscosity equals it to 2e-11. The derivative used by the iteration is the exact one from the third iteration on. The steady size in metres does not depend on the units of the run. (The iteration need not find the solution: the run then ends with exit status 0. The two paleopiezometer laws 11 and 12 of the data base, and rocks without dislocation creep, give a viscosity that is not a number.)", "quantifier": "all rocks with positive strengths and exponents of at least one, strain rates, temperatures, elastic moduli, time steps and units", "why_tests_cant": "the implicit dependence of grain size on stress must be checked at every state; the iteration fails only for some time steps", "anchors": ["MDLIB/RheologyDensity.c:LocalIterationViscoElasticGrainSize (133-354), ViscosityConcise (537-615)", "MDLIB/FlowLaws.c:ReadDataGSE (839-938)"]}
{"id": "C115", "title": "Kinetics of phase changes", "statement": "With kinetics on, the density of a phase with kinetic law 1 or 9 lies between the density at the previous conditions and the equilibrium density, and its distance to equilibrium shrinks in one step by tau/(tau + dt). For law 9 tau is the time at which all but 0.3333334 of the volume has been transformed at the interface growth rate; it is positive and decreases with the driving force, and in seconds does not depend on the units of the run; without driving force the density is the equilibrium one at once. The reader accepts exactly the laws 1 and 9, with either sign. (With a negative sign the law is read but not applied.)", "quantifier": "all temperatures, driving forces, densities, time steps and units", "why_tests_cant": "continuum of states; a wrong sign or unit in the growth rate changes the density only slightly", "anchors": ["MDLIB/RheologyDensity.c:ViscosityConcise (683-705)", "MDLIB/FlowLaws.c:ReadDataKinetics (944-966)"]}
{"id": "C116", "title": "Direct solver of the velocity-pressure system (lin_solver = -1)", "statement": "With an exact factorisation, after every update of the direct solver the momentum equation A u - C'p = b_u holds exactly, the continuity equation holds exactly in compressible cells, and the divergence left in the other cells never grows (for non-negative A); with an inf-sup bound beta it shrinks by the factor 1 + penalty*beta per update, from any start. A state that an update does not change solves both equations. The iteration is that of the Newton solver (C91) with exact velocity solves, and the matrix factorised is A + C'DC when A is symmetric. If a result is returned, at least two and at most twenty updates were made and the last tested residual is at most the larger of the absolute tolerance and the relative one times the first residual, if some first residual is positive; the run ends only if some cell violates the absolute tolerance. (Negative divergence of any size, residuals that are not numbers and any momentum residual are accepted; for a matrix that is not symmetric the iteration can diverge and is accepted; with the out-of-plane option the pressure found is two thirds of that of the assembled equations.)", "quantifier": "all matrix sizes, blocks, right-hand sides, starting states, tolerances and penalties", "why_tests_cant": "statement about matrices of arbitrary size; the wrong acceptances need particular signs of the residual", "anchors": ["MDLIB/Solvers.c:DirectStokesDecoupledComp (681-1040)"]}
{"id": "C117", "title": "Coupled Krylov solver (lin_solver = 1), choice of the solver and correction", "statement": "If the coupled Krylov solver reports convergence, the residual of the whole system [A B; C D1] at the returned pair is below the tolerance times its residual at the start; otherwise it is at least not larger than that. Its preconditioner solves A u - C'p = f_u, C u + p/D = f_p exactly, and for a compressible Picard system one iteration gives the exact solution. A correction that solves the (possibly diagonally scaled) linear system exactly makes the linearised residual vanish, and a line search multiplies it by 1 + alpha. Newton iterations, anisotropy and lin_solver = 0 always run the Newton solver, so the solver for lin_solver = 0 is never called. (The start is the current velocity although the unknown is a correction: a correction can be accepted that leaves a residual 1000 times larger than the one to be removed, and a model at rest gives numbers that are not numbers. Any other value of lin_solver is accepted and leaves velocity and pressure unchanged; diag_scaling = 2 gives a wrong correction.)", "quantifier": "all matrix sizes, blocks, right-hand sides, starts, tolerances, scalings and switches", "why_tests_cant": "arbitrary matrices; the wrong acceptance shows only when the velocity is large against its correction", "anchors": ["MDLIB/Solvers.c:KSPStokesDecoupled (1441-1900)", "MDLIB/StokesRoutines.c:SolveStokesDefectDecoupled (799-826)", "MDLIB/InputOutput.c:ReadInputFile (1233-1236)"]}
{"id": "C118", "title": "Viscosity, stress and yielding of an anisotropic material", "statement": "With creep exponents up to 8, at least one active mechanism, a deforming point and usable grain size the local viscosity function of an anisotropic run returns. Whenever it returns, the viscosity below yield is, to 1e-11, the one at which the flow laws of all active mechanisms together give the imposed strain rate, that viscosity is unique, and the strain rates of the mechanisms at the trial stress add up to the imposed one. The stress in the frame of the layer is twice the viscosity times the strain rate, with the shear component divided by the anisotropy factor; with factor 1 it is isotropic; orientation and factor change no other output. Below yield the weighted stress invariant is at most the yield stress plus 1e-17; at yield it is exactly the Drucker-Prager yield stress at the corrected pressure plus the overstress. Work splits into elastic and dissipated parts. The cell viscosity lies between those of the phases present, for each average. (The viscosity limits of the input are ignored; in tension the viscosity is negative; with dilation the von Mises limit is exceeded; the elastic rate reported is squared; a point at rest or a material without mechanism ends the run; with density_variations the density stored is zero; the reaction progress is reset to zero.)", "quantifier": "all materials, states, orientations, anisotropy factors, phase mixtures and averages within the stated hypotheses", "why_tests_cant": "the anisotropic tests use constant viscosity or a single power law with density_variations off; neither a tensile point nor a dilating one at the limit occurs", "anchors": ["MDLIB/AnisotropyRoutines.c:ViscosityConciseAniso (80-345)", "MDLIB/AnisotropyRoutines.c:NonNewtonianViscosityGridAniso (509-686)"]}
{"id": "C119", "title": "A run needs exactly the documented functions of the set-up", "statement": "A new run of any number of steps uses no missing function of the set-up if and only if the particle and boundary structures, both velocity functions, the topography (with a free surface) and the temperature function (with fix_temperature = 1) are given; a complete set-up is also enough for a restart. The check of the set-up would reject every other set-up apart from a missing temperature function, within its message tables. (The check is not called: every incomplete set-up makes the run use a NULL pointer instead of ending with code 144.)", "quantifier": "all set-ups, options and numbers of steps", "why_tests_cant": "every test uses a complete set-up; a missing function crashes the test program", "anchors": ["MDLIB/Setup.c:ValidateSetup (783-898)", "MDLIB/Main_DOODZ.c:RunMDOODZ (78, 144-170, 211, 237, 627, 1057, 1066)"]}
{"id": "C120", "title": "Thermal and chemical boundary functions are asked for the right places", "statement": "After the boundary conditions are set, the ghost point beside each rock cell of a side holds exactly the type and value the user's function returned for that side, cell and cell temperature; a rock cell below air holds the answer for the surface; every other cell holds its own type; ghost points beside air, the four corners and everything outside the arrays are left alone; without a function the frame is left alone. For composition the sides are set in the same way. (For composition no cell is ever marked as air: air cells get an equation and take part in the diffusion, and under a free surface the surface is never asked for; the function is given the temperature instead of the composition. With fix_temperature every cell gets the temperature belonging to the pressure of the first cell.)", "quantifier": "all grid sizes, cell flags, temperatures, user functions and previous contents of the arrays", "why_tests_cant": "an unbounded family of grids and flags; tests with chemical diffusion have no free surface", "anchors": ["MDLIB/Setup.c:SetBCs (618-773)", "MDLIB/ChemicalRoutines.c:EvalNumEqChem (38-56)", "MDLIB/MemoryAllocFree.c:GridAlloc (504)"]}
{"id": "C121", "title": "Diffusion of heat and composition in polar mode", "statement": "With polar = 1 the answer of the linear solver satisfies the assembled system whatever the matrix is (without polar mode only if the matrix is symmetric), an answer exists for every regular matrix, and each solve has exactly one outcome. Every cell then balances its heat as in Cartesian mode, plus a prescribed exchange of the cells of the two sides: with the cell above if there is one, with nothing on the west side below air, and with a body at zero temperature otherwise. A body of uniform temperature stays uniform if no heat can pass the sides of the uppermost side cells. (Otherwise it does not: the uppermost rock cell of the east side always cools towards zero. The two weights of the ghost value are interchanged: a closed side loses more heat than the interpolation along the circle asks for.)", "quantifier": "all matrices and right-hand sides; all grids, flags, conductivities, coordinates, sources and fields", "why_tests_cant": "no test runs with polar = 1; the property concerns every grid and field, and existence and uniqueness of the answer", "anchors": ["MDLIB/ThermalSolver.c:TransposeA, FactorEnergyCHOLMOD, SolveEnergyCHOLMOD (188-331)", "MDLIB/ThermalRoutines.c:EnergyDirectSolve (319-338, 363-371, 395-402)", "MDLIB/ChemicalRoutines.c:ChemicalDirectSolve (289-311, 335-343, 366-373)"]}
{"id": "C122", "title": "The surface seen by the reseeding of markers, and its ends", "statement": "For every column of its twice finer grid the reseeding of markers reads the height of the surface at the centre of that column, that is, the straight line between the two grid nodes around it; exactly the 2 Nx - 2 entries of the array are written. Inner nodes have the height computed from the marker chain; the two ends repeat their neighbours, or with polar = 1 lie on the circle of radius 6370 km, provided the box is not wider than the circle.", "quantifier": "all grid sizes, spacings, heights and scales", "why_tests_cant": "an unbounded family of grids and surfaces; no test has polar = 1 together with a free surface", "anchors": ["MDLIB/FreeSurface.c:InterpTopoPart2Grid (348-385)", "MDLIB/ParticleRoutines.c:CountPartCell (2466-2467)"]}
{"id": "C123", "title": "Elastic moduli of all cells and vertices", "statement": "With positive moduli and complete fractions the function returns; every rock cell and vertex then holds the harmonic mean of the shear moduli and of the compressibilities of its materials (so a value between the smallest and the largest), every rock cell the arithmetic mean of the expansivities, every air node zero; in periodic models the first and the last vertex of every row hold the mean of their two values; nothing outside the grid is written. The program stops exactly if some rock cell contains no material. (For a vertex without material it does not stop: the vertex gets an infinite shear modulus, and with a single phase the message about it reads outside an array. A material with zero compressibility makes the compressibility of every cell without it not a number.)", "quantifier": "all grids, tags, fractions, materials, numbers of phases, periodic or not", "why_tests_cant": "an unbounded family of grids and fractions; no test has a vertex without material or an incompressible material", "anchors": ["MDLIB/RheologyDensity.c:ShearModCompExpGrid (1299-1420)"]}
{"id": "C124", "title": "Viscosity and stress of all cells and vertices", "statement": "With complete fractions and positive viscosities of the phases the function returns; every rock cell and vertex then holds the chosen mean of the viscosities of its phases at the effective strain rate e + s0/(2 G dt) (e alone without elasticity), the harmonic mean of the grain sizes, the arithmetic means of all other quantities, and the stress 2 eta times the effective strain rate, which does non-negative work on it; the viscosity of a phase is stored where the phase is present and is left as it was elsewhere; air nodes hold zeros. The program stops exactly if some rock cell, or with the harmonic mean some rock vertex, contains no material. (With the other means such a vertex silently gets viscosity 0 or 1.)", "quantifier": "all grids, tags, fractions, viscosity laws with positive values, strain rates, old stresses, averages 0 to 2, with and without elasticity", "why_tests_cant": "an unbounded family of grids, fractions and laws; vertices without material do not occur in the tests", "anchors": ["MDLIB/RheologyDensity.c:NonNewtonianViscosityGrid (813-1100)"]}
{"id": "C125", "title": "Deformation maps", "statement": "For every phase a file is written that holds the three axes in physical units, evenly spaced in temperature and in the logarithms of strain rate and grain size from the minimum to the maximum, and at entry ix + nT (iy + nE iz) the stress and the viscosity of that phase at that temperature, strain rate and grain size, with the correction factors switched off, and the number of the viscous mechanism that is faster than all others, if there is one. Afterwards all materials are as they were. (Where no mechanism is fastest the map repeats the mechanism of the previous strain rate, and the first entry of the first map is then indeterminate. Plastic and elastic deformation never appear in a map.)", "quantifier": "all numbers of phases and points, axis bounds, positive scales, rheological laws, materials", "why_tests_cant": "no test asks for deformation maps", "anchors": ["MDLIB/RheologyDensity.c:GenerateDeformationMaps (1763-1977)", "MDLIB/HDF5Output.c:ScaleBackD (74-79)"]}
{"id": "C126", "title": "File of initial markers", "statement": "Markers written to the initial-marker file by one run and read by another run with the same number of markers have bit by bit the same coordinates and phases; markers beyond that number and all other marker data stay as they were, and reading does not change the file. The program stops exactly if the file cannot be opened. (A file with a different number of markers is accepted: horizontal coordinates then become vertical ones. Phases read from the file are not validated, and temperature, density and all other properties remain those computed for the replaced position and phase.)", "quantifier": "all marker numbers, 64-bit patterns of coordinates, 32-bit phases, options, file states", "why_tests_cant": "no test writes or reads initial markers; a wrong number of markers or phase is silent", "anchors": ["MDLIB/Setup.c:SetParticles (142-173)"]}
{"id": "C127", "title": "Conversions between sparse-matrix formats keep the matrix", "statement": "For every assembled matrix with at least one entry, the triplets handed to CSparse have the same entry in every row and column, and no array is overrun; a matrix with compressed columns copied to CHOLMOD, into an allocation of its size, is entry by entry the same; so is the pressure block, whose compressed columns are taken for triplets, because each of its columns holds one entry; vector copies and sums are exact. (A matrix without entries overruns an array; for a matrix with other columns the treatment of the pressure block would be wrong.)", "quantifier": "all matrices, sizes, allocations", "why_tests_cant": "a shifted index moves one coefficient of a large matrix and shows as slow convergence only", "anchors": ["MDLIB/Solvers.c:copy_cholmod_matrix_to_cs (51-65), KillerSolver (1117-1135, 1193-1212)", "MDLIB/SparseTools.c:copy_cs_to_cholmod_matrix, copy_cholmod_to_cs_matrix, copy_vec_to_cholmod_dense, cholmod_dense_plus_cholmod_dense (241-309), DecompressCSRtoTriplets (316-334)"]}
{"id": "C128", "title": "Residual norms and reported extremes", "statement": "For at least one equation the reported residual norm is non-negative, is zero exactly if all residuals are, is at most the largest residual, and bounds every residual by the norm times the square root of the number of equations. The extremes of a marker quantity bound the value of every active marker and are attained by active markers, if marker 0 is active. (If marker 0 has left the model its value is counted.) The printed sum is the sum of the entries.", "quantifier": "all residuals, sizes, marker values and phases", "why_tests_cant": "an unbounded family; the tests do not compare printed norms", "anchors": ["MDLIB/SparseTools.c:NormResidualCholmod (109-144)", "MDLIB/MiscFunctions.c:SumArray (119-128), MinMaxArrayPart (496-525)"]}
{"id": "C129", "title": "Right-hand sides stand in the rows of their equations", "statement": "With the documented node types, the momentum right-hand side holds, in the row of the equation of every velocity unknown, the body force of that node, and the continuity right-hand side, in the row of every pressure unknown, the source term of that cell; exactly as many entries are written as there are equations.", "quantifier": "all grids, node types, body forces, with and without periodicity", "why_tests_cant": "the counters and the equation numbers come from different functions with different tests of the node types; a mismatch shifts all rows after it", "anchors": ["MDLIB/StokesAssemblyDecoupled.c:BuildStokesOperatorDecoupled (1357-1388), BuildJacobianOperatorDecoupled (1870-1901)", "MDLIB/StokesRoutines.c:EvalNumberOfEquations (1125-1178)"]}
{"id": "C130", "title": "Column and row numbers of the nodes", "statement": "For every vertex, Vx node, Vz node and cell the stored column and row numbers are those the node is addressed with, so that they recover the flat number, and nothing is written beyond the last node.", "quantifier": "all grid sizes", "why_tests_cant": "all grid sizes", "anchors": ["MDLIB/GridRoutines.c:GridIndices (540-586)"]}
