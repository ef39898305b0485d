{"id": "C01", "title": "Memoisation is transparent", "statement": "A decorated function returns, for every call, exactly what the undecorated function would return for those arguments (or raises what it would raise), whatever calls and cache_clear()s happened before and whichever caching mode (sized LRU, memory-limited, unbounded, disabled) is configured.", "quantifier": "all caching modes, all maxsize values, all sequences of calls / clears / memory readings, all deterministic functions (including ones that raise)", "why_tests_cant": "the number of histories is infinite and errors only show after particular hit/evict/clear patterns", "anchors": ["cosmic_profiles/common/caching.py:lru_cache", "cosmic_profiles/common/caching.py:_make_key"]}
{"id": "C02", "title": "Cache size is bounded by maxsize", "statement": "With a positive maxsize, cache_info().currsize never exceeds maxsize; with maxsize 0 it is always 0; nothing else than a completed miss increases it.", "quantifier": "all histories of calls and clears, all maxsize >= 0", "why_tests_cant": "a test checks one capacity and one history; the bound is an invariant of all reachable states", "anchors": ["cosmic_profiles/common/caching.py:lru_cache.wrapper", "cosmic_profiles/common/caching.py:lru_cache.cache_info"]}
{"id": "C03", "title": "Eviction is least-recently-used", "statement": "After any history the retained keys are exactly the maxsize most recently used distinct keys since the last clear, and a call is served without running the function exactly when its key is one of them. The doubly linked list implementation refines this.", "quantifier": "all histories, all maxsize >= 1, all key types with decidable equality", "why_tests_cant": "pointer surgery errors (stale prev/next, root rotation) corrupt the order only after specific sequences", "anchors": ["cosmic_profiles/common/caching.py:lru_cache.wrapper"]}
{"id": "C04", "title": "Statistics account for every call", "statement": "hits + misses equals the number of calls that returned since the last cache_clear(); misses equals the number of times the function ran to completion since then; a clear resets both to zero and empties the cache.", "quantifier": "all histories and modes", "why_tests_cant": "counters must agree for every interleaving of hits, misses, exceptions and clears", "anchors": ["cosmic_profiles/common/caching.py:lru_cache.wrapper", "cosmic_profiles/common/caching.py:lru_cache.cache_info", "cosmic_profiles/common/caching.py:lru_cache.cache_clear"]}
{"id": "C05", "title": "Concurrent callers cannot corrupt the cache", "statement": "With any number of threads calling the decorated function (and clearing it) concurrently, for every interleaving of the locked sections: no internal KeyError occurs, the list and the dictionary stay consistent, currsize stays within maxsize, every call returns the right value, and hits+misses counts the completed calls.", "quantifier": "all thread counts, all interleavings of lookup / compute / insert / clear steps", "why_tests_cant": "the number of schedules is unbounded; races appear only when the same key is inserted while the lock is released", "anchors": ["cosmic_profiles/common/caching.py:lru_cache.wrapper"]}
{"id": "C06", "title": "Memory-limited cache stops growing", "statement": "In memory-limited mode, once an insertion sees less available memory than the limit, the number of entries never grows again until cache_clear(); until that moment nothing is ever evicted.", "quantifier": "all histories and all sequences of memory readings", "why_tests_cant": "depends on the history of operating system memory readings, which a test cannot control", "anchors": ["cosmic_profiles/common/caching.py:lru_cache.wrapper"]}
{"id": "C07", "title": "Array-aware keys neither collide nor lose data", "statement": "For functions cached through np_cache_factory, the function receives arrays of the original shape and contents (and the original lists of lists and other arguments), and two calls can share a cached result only if all array shapes, array contents, lists and remaining arguments are equal.", "quantifier": "all numbers of array and list arguments, all shapes (any rank, including empty dimensions), all contents", "why_tests_cant": "flattening loses information that must be recovered from the shape for every shape", "anchors": ["cosmic_profiles/common/caching.py:np_cache_factory"]}
{"id": "C08", "title": "Results cannot be polluted by callers", "statement": "Mutating an array returned by a cached function does not change what later calls return.", "quantifier": "all histories that interleave calls with caller side mutations of returned results", "why_tests_cant": "needs a history of call, mutate, call on the same key", "anchors": ["cosmic_profiles/common/caching.py:lru_cache.wrapper"]}
{"id": "C09", "title": "Failed calls leave no trace", "statement": "If the underlying function raises, the exception propagates, nothing is cached, statistics do not change, and a later call with the same arguments runs the function again.", "quantifier": "all histories with functions that raise on arbitrary calls", "why_tests_cant": "must hold in every reachable cache state, including a full cache", "anchors": ["cosmic_profiles/common/caching.py:lru_cache.wrapper"]}
{"id": "C10", "title": "Group catalogue data follow the configured input units", "statement": "Radii returned by getFoFSHData() are expressed in the unit system configured at the time of the call.", "quantifier": "all sequences of updateInUnitSystem() and getFoFSHData() calls", "why_tests_cant": "depends on the order of configuration changes and (memoised) reads", "anchors": ["cosmic_profiles/gadget/read_fof.py:getFoFSHData", "cosmic_profiles/common/config.py:updateInUnitSystem"]}
{"id": "C11", "title": "Unit conversions are mutually consistent", "statement": "Converting a length or velocity from the input system to internal units and on to the output system multiplies it by the ratio (input unit)/(output unit); conversions never depend on which value is converted (linearity); converting out of and back into identical in/out systems is the identity.", "quantifier": "all values, all admissible or user supplied unit choices, all positive h", "why_tests_cant": "real-valued identities over a continuum of units", "anchors": ["cosmic_profiles/common/config.py:LengthInToInternal", "cosmic_profiles/common/config.py:LengthInternalToOut", "cosmic_profiles/common/config.py:VelInToInternal", "cosmic_profiles/common/config.py:VelInternalToOut"]}
{"id": "C12", "title": "A rejected unit update changes nothing", "statement": "If updateInUnitSystem()/updateOutUnitSystem() raises because a unit is not admissible, the configuration is left as it was.", "quantifier": "all previous configurations, all argument combinations", "why_tests_cant": "concerns every prior state and the failure path", "anchors": ["cosmic_profiles/common/config.py:updateInUnitSystem", "cosmic_profiles/common/config.py:updateOutUnitSystem"]}
{"id": "C13", "title": "Mass conversion helpers work", "statement": "MassInToInternal() and MassInternalToOut() convert any mass between the configured units and internal units.", "quantifier": "all masses and all configurations", "why_tests_cant": "universal over configurations", "anchors": ["cosmic_profiles/common/config.py:MassInToInternal", "cosmic_profiles/common/config.py:MassInternalToOut", "cosmic_profiles/common/config.py:getAdmissibleLMV"]}
{"id": "C14", "title": "Unit labels name the configured unit", "statement": "LMVLabel() returns, for the output length, mass and velocity, the name of an admissible unit whose value equals the configured one whenever there is one, and otherwise a numeric label.", "quantifier": "all output unit systems and all h", "why_tests_cant": "the lookup is by numeric equality over an h dependent table", "anchors": ["cosmic_profiles/common/config.py:LMVLabel", "cosmic_profiles/common/config.py:getAdmissibleLMV"]}
{"id": "C15", "title": "Input and output unit systems are independent", "statement": "Changing the output unit system does not change how input data are converted to internal units, and vice versa.", "quantifier": "all sequences of configuration updates", "why_tests_cant": "hidden coupling through shared state shows only for particular sequences of updates", "anchors": ["cosmic_profiles/common/config.py:updateInUnitSystem", "cosmic_profiles/common/config.py:updateOutUnitSystem", "cosmic_profiles/common/config.py:getLMVInternal"]}
{"id": "C16", "title": "Object selections are validated exactly", "statement": "A selection passed as obj_numbers is accepted if and only if it is non-empty, consists of integers, and all entries are distinct and lie in [0, number of objects).", "quantifier": "all selections of any length, all catalogue sizes", "why_tests_cant": "iff over all lists", "anchors": ["cosmic_profiles/common/python_routines.py:isValidSelection"]}
{"id": "C17", "title": "Sub-catalogue extraction returns exactly the selected objects", "statement": "For a valid selection, the extracted flat index list is the concatenation, in selection order, of the particle lists of the selected objects, so that object k of the result is object obj_numbers[k] of the catalogue.", "quantifier": "all catalogues, all valid selections in any order", "why_tests_cant": "offset arithmetic must be right for all sizes and orders", "anchors": ["cosmic_profiles/common/python_routines.py:getSubSetIdxCat"]}
{"id": "C18", "title": "Catalogue construction keeps everything aligned", "statement": "The direct-input constructors keep exactly the objects with at least MIN_NUMBER_PTCS particles, in order, and the k-th retained object has the right particle indices, particle count and R200.", "quantifier": "all catalogues (any number and sizes of objects), all thresholds", "why_tests_cant": "alignment of three independently filtered arrays for every mask", "anchors": ["cosmic_profiles/shape_profs/shape_profs_classes.pyx:DensShapeProfs.__init__"]}
{"id": "C19", "title": "Gadget halo catalogue matches the group tables", "statement": "calcObjCat() keeps exactly the FoF halos that have a subhalo and whose central subhalo has at least MIN_NUMBER_PTCS particles; the particles listed for a kept halo are the consecutive indices of its central subhalo, starting at the total size of the preceding FoF halos.", "quantifier": "all group tables (any number of halos, subhalos per halo, sizes), all thresholds", "why_tests_cant": "prefix sums over three tables of different lengths", "anchors": ["cosmic_profiles/gadget/gen_catalogues.pyx:calcObjCat", "cosmic_profiles/gadget/gen_catalogues.pyx:calcCSHIdxs"]}
{"id": "C20", "title": "Catalogue generation does not depend on the thread schedule", "statement": "The result of calcObjCat() is the same for every assignment and order in which OpenMP threads process the halos.", "quantifier": "all permutations / schedules of the parallel iterations", "why_tests_cant": "schedules cannot be enumerated by tests", "anchors": ["cosmic_profiles/gadget/gen_catalogues.pyx:calcObjCat"]}
{"id": "C21", "title": "Every group file is read exactly once", "statement": "For any number of MPI ranks and any positive number of group files, the file ranges processed by the ranks are disjoint, in rank order, and together cover all files.", "quantifier": "all rank counts >= 1 and file counts >= 1", "why_tests_cant": "arithmetic over all pairs (including more ranks than files)", "anchors": ["cosmic_profiles/gadget/read_fof.py:getFoFSHData"]}
{"id": "C22", "title": "Collected group tables equal the sequential read", "statement": "After gathering and the chunked broadcast every rank holds the concatenation, in file order, of the per-file tables, whatever the number of ranks and the table length (including tables larger than one broadcast chunk).", "quantifier": "all rank counts, all file counts, all table lengths", "why_tests_cant": "broadcast chunk limit is 3*10^8 entries: not testable", "anchors": ["cosmic_profiles/gadget/read_fof.py:getFoFSHData"]}
{"id": "C23", "title": "Periodic unwrapping gives nearest images", "statement": "respectPBCNoRef() (array version) moves each coordinate by 0, +L or -L only, leaves a non-periodic box (L=0) untouched, and for particles inside the box places every particle within L/2 of the reference point along each axis.", "quantifier": "all particle sets in a box of any side L>0, all choices of the random reference sub-sample", "why_tests_cant": "continuum of positions and random reference", "anchors": ["cosmic_profiles/common/python_routines.py:respectPBCNoRef"]}
{"id": "C24", "title": "Compiled periodic unwrapping gives periodic images", "statement": "The in-place unwrapping used inside the shape and density algorithms replaces each particle by one of its periodic images (coordinates change by integer multiples of L), so that an object straddling the boundary is processed like the same object away from it.", "quantifier": "all particle sets and box sizes", "why_tests_cant": "depends on position relative to box boundary", "anchors": ["cosmic_profiles/cython_helpers/helper_class.pyx:CythonHelpers.respectPBCNoRef"]}
{"id": "C25", "title": "Centre of mass is the mass weighted mean", "statement": "The centre of mass returned is the mass weighted mean of the positions: it lies within the bounding box of the particles for non-negative masses with positive total, moves with a translation of all particles, is unchanged when all masses are rescaled or the particles reordered; the compiled and the array version agree.", "quantifier": "all particle sets with positive total mass", "why_tests_cant": "universally quantified real arithmetic", "anchors": ["cosmic_profiles/common/python_routines.py:calcCoM", "cosmic_profiles/cython_helpers/helper_class.pyx:CythonHelpers.calcCoM"]}
{"id": "C26", "title": "Mode search terminates inside the particle cloud", "statement": "calcMode() terminates for every particle set and returns a point inside the bounding box of the particles.", "quantifier": "all particle sets with positive masses and all initial radii", "why_tests_cant": "termination for all inputs is not testable", "anchors": ["cosmic_profiles/common/python_routines.py:calcMode"]}
{"id": "C27", "title": "Recentring puts object centres into the box", "statement": "recentreObject() maps each coordinate of a centre that is less than one box length outside into [0, L) by adding or subtracting L, and leaves centres already inside alone.", "quantifier": "all centres with coordinates in [-L, 2L)", "why_tests_cant": "boundary behaviour over a continuum", "anchors": ["cosmic_profiles/common/python_routines.py:recentreObject"]}
{"id": "C28", "title": "Shape tensor is the symmetric positive semidefinite second moment", "statement": "The tensor computed for a selection equals the mass weighted mean of the outer products of the displacements from the centre (divided by the squared ellipsoidal radius in the reduced case), is symmetric and positive semidefinite, and depends only on the selected particles, not on previous buffer contents.", "quantifier": "all particle clouds, masses >= 0 with positive total, all selections, plain and reduced", "why_tests_cant": "universal over clouds", "anchors": ["cosmic_profiles/cython_helpers/helper_class.pyx:CythonHelpers.calcShapeTensor"]}
{"id": "C29", "title": "Shape tensor transforms covariantly", "statement": "Rescaling all masses or reordering particles does not change the tensor; scaling displacements by k multiplies it by k^2; rotating cloud and centre conjugates it by the rotation; translating both leaves it unchanged.", "quantifier": "all clouds, all rotations, all scalings", "why_tests_cant": "continuous groups of transformations", "anchors": ["cosmic_profiles/cython_helpers/helper_class.pyx:CythonHelpers.calcShapeTensor"]}
{"id": "C30", "title": "A shape result is either a valid ellipsoid or a failure marker", "statement": "Each run of the iterative shape algorithm (ellipsoid or shell, position or velocity version) ends with either all twelve entries zero, or the requested radius d, axis ratios with 0 <= s <= q <= 1 and an orthonormal triad of principal axes.", "quantifier": "all clouds, tolerances, iteration limits, minimum particle numbers, all choices the eigensolver may make", "why_tests_cant": "infinite inputs, eigensolver nondeterminism, NaN behaviour", "anchors": ["cosmic_profiles/shape_profs/shape_profs_algos.pyx:runEllAlgo", "cosmic_profiles/shape_profs/shape_profs_algos.pyx:runShellAlgo", "cosmic_profiles/shape_profs/shape_profs_algos.pyx:runEllVDispAlgo", "cosmic_profiles/shape_profs/shape_profs_algos.pyx:runShellVDispAlgo"]}
{"id": "C31", "title": "Shape iteration terminates and success means convergence", "statement": "The iteration performs at most IT_WALL tensor evaluations; it reports a non-zero result only if in the last step both axis ratios changed by at most the relative tolerance, and every tensor was computed from at least IT_MIN particles.", "quantifier": "all inputs with tolerance below 1", "why_tests_cant": "termination and exit conditions for all inputs", "anchors": ["cosmic_profiles/shape_profs/shape_profs_algos.pyx:runEllAlgo", "cosmic_profiles/shape_profs/shape_profs_algos.pyx:runShellAlgo"]}
{"id": "C32", "title": "Particle selection keeps exactly the particles inside", "statement": "At every step the particles used are exactly those satisfying the ellipsoid (or shell) inequality, each once and in catalogue order, regardless of what the reused index buffer contained before.", "quantifier": "all clouds and all buffer contents", "why_tests_cant": "in-place compaction with stale buffer contents", "anchors": ["cosmic_profiles/shape_profs/shape_profs_algos.pyx:runEllAlgo", "cosmic_profiles/shape_profs/shape_profs_algos.pyx:runShellAlgo", "cosmic_profiles/cython_helpers/helper_class.pyx:CythonHelpers.calcDensProfBruteForceSph"]}
{"id": "C33", "title": "Converged shapes have unit principal axes", "statement": "In the returned shape catalogue, every entry flagged is_conv has unit-norm, finite principal axis vectors; entries that did not converge are NaN throughout and flagged not converged.", "quantifier": "all objects and radii", "why_tests_cant": "depends on exact zero components in eigenvectors", "anchors": ["cosmic_profiles/shape_profs/shape_profs_algos.pyx:calcMorphLocal", "cosmic_profiles/shape_profs/shape_profs_algos.pyx:calcMorphGlobal", "cosmic_profiles/shape_profs/shape_profs_classes.pyx:getShapeCatLocal"]}
{"id": "C34", "title": "Local velocity shapes depend on velocities", "statement": "The local velocity dispersion tensor shapes are computed from the particle velocities (as the global ones are).", "quantifier": "all particle velocities", "why_tests_cant": "universal: output must vary with the input", "anchors": ["cosmic_profiles/shape_profs/shape_profs_algos.pyx:calcMorphLocalVelDisp", "cosmic_profiles/shape_profs/shape_profs_algos.pyx:calcMorphGlobalVelDisp"]}
{"id": "C35", "title": "Shape catalogue does not depend on the thread schedule", "statement": "The shape of object p is a function of object p's particles and R200 only: it is the same for every assignment of objects to threads, every processing order, and whatever objects a thread processed before.", "quantifier": "all schedules, all catalogues", "why_tests_cant": "schedules and stale per-thread buffers", "anchors": ["cosmic_profiles/shape_profs/shape_profs_algos.pyx:calcMorphLocal", "cosmic_profiles/shape_profs/shape_profs_algos.pyx:calcMorphGlobal"]}
{"id": "C36", "title": "Projected ellipticity is bounded and spin-2", "statement": "The complex ellipticity of an object with non-degenerate projected size has modulus at most 1, and rotating the object by an angle phi about the z axis multiplies it by exp(2 i phi).", "quantifier": "all clouds with positive total mass, all angles", "why_tests_cant": "continuum of clouds and angles", "anchors": ["cosmic_profiles/shape_profs/shape_profs_tools.py:getEpsilon"]}
{"id": "C37", "title": "Dumped shape catalogues are read back unchanged", "statement": "Dumping a local shape catalogue and reading it back (same output units) returns the same numbers for the same object and radius.", "quantifier": "all catalogue sizes: any number of objects and radii", "why_tests_cant": "array rank is lost in the text files; only some sizes trigger it", "anchors": ["cosmic_profiles/common/cosmic_base_class.pyx:_dumpShapeCatLocalBase", "cosmic_profiles/common/cosmic_base_class.pyx:_getShapeCatLocalBase"]}
{"id": "C38", "title": "Shape queries answer the question asked", "statement": "getShapeCatLocal(obj_numbers, katz_config) returns shapes of the requested objects for the requested algorithm settings, whether or not a catalogue was dumped earlier.", "quantifier": "all histories of dump and query calls with all selections and settings", "why_tests_cant": "depends on files left by earlier calls", "anchors": ["cosmic_profiles/common/cosmic_base_class.pyx:_getShapeCatLocalBase", "cosmic_profiles/common/cosmic_base_class.pyx:_getShapeCatGlobalBase"]}
{"id": "C39", "title": "Spherical density bins partition the mass", "statement": "With increasing bin edges each particle contributes to at most one radial bin, and the sum over bins of density times shell volume equals the mass of the particles with distance in [first edge, last edge) of the centre; densities are non-negative and empty bins give 0.", "quantifier": "all clouds, masses, increasing edges, R200 > 0", "why_tests_cant": "conservation law over all inputs", "anchors": ["cosmic_profiles/cython_helpers/helper_class.pyx:CythonHelpers.calcDensProfBruteForceSph", "cosmic_profiles/dens_profs/dens_profs_algos.pyx:calcDensProfsSphDirectBinning"]}
{"id": "C40", "title": "Ellipsoidal density profiles use each object's own particles", "statement": "The ellipsoidal density profile of an object is computed from the particles listed for it in the catalogue, and the catalogue passed in is not modified.", "quantifier": "all catalogues", "why_tests_cant": "aliasing and in-place overwrite of the index array", "anchors": ["cosmic_profiles/dens_profs/dens_profs_algos.pyx:calcDensProfsEllDirectBinning"]}
{"id": "C41", "title": "Enclosed mass is monotone and consistent with densities", "statement": "The spherical enclosed mass profile is non-decreasing in radius, never exceeds the total mass, is additive over particles, and the mass in a density bin is the difference of enclosed masses at its edges.", "quantifier": "all clouds with non-negative masses, all radii", "why_tests_cant": "universal", "anchors": ["cosmic_profiles/cython_helpers/helper_class.pyx:CythonHelpers.calcMenclsBruteForceSph", "cosmic_profiles/cython_helpers/helper_class.pyx:CythonHelpers.calcDensProfBruteForceSph"]}
{"id": "C42", "title": "Ellipsoidal shells partition the mass for nested ellipsoids", "statement": "For concentric similar, aligned ellipsoids with growing semi-axes, each particle is in at most one shell and the sum of density times shell volume over the non-empty shells is the mass between the innermost and the outermost ellipsoid; empty shells are NaN.", "quantifier": "all clouds, all nested aligned ellipsoid sequences", "why_tests_cant": "conservation law over all inputs", "anchors": ["cosmic_profiles/cython_helpers/helper_class.pyx:CythonHelpers.calcDensProfBruteForceEll"]}
{"id": "C43", "title": "Kernel density estimate is non-negative and symmetric", "statement": "The angle averaged Gaussian kernel is symmetric in the two radii, non-negative for positive radii and widths, and the kernel-based density is additive over particles and scales linearly with mass.", "quantifier": "all positive radii and widths", "why_tests_cant": "real analysis", "anchors": ["cosmic_profiles/cython_helpers/helper_class.pyx:CythonHelpers.calcKTilde", "cosmic_profiles/dens_profs/dens_profs_algos.pyx:calcDensProfsKernelBased"]}
{"id": "C44", "title": "Profile models are positive, decreasing and mutually consistent", "statement": "NFW and Hernquist equal the alpha-beta-gamma profile with (1,3,1) and (1,4,1); every profile is positive, strictly decreasing in radius, linear in rho_s and depends on r and r_s only through r/r_s.", "quantifier": "all positive radii and admissible parameters", "why_tests_cant": "functional identities over the reals", "anchors": ["cosmic_profiles/dens_profs/dens_profs_tools.py:getEinastoProf", "cosmic_profiles/dens_profs/dens_profs_tools.py:getAlphaBetaGammaProf", "cosmic_profiles/dens_profs/dens_profs_tools.py:getNFWProf", "cosmic_profiles/dens_profs/dens_profs_tools.py:getHernquistProf"]}
{"id": "C45", "title": "Parameters fixed in the fit method stay fixed", "statement": "Any model parameter the user fixes in method is returned with exactly that value in a successful fit, for any bound-respecting minimiser.", "quantifier": "all profiles, all parameter values, all minimiser behaviours that respect bounds", "why_tests_cant": "universal over minimiser behaviour", "anchors": ["cosmic_profiles/dens_profs/dens_profs_tools.py:fitDensProf", "cosmic_profiles/common/python_routines.py:checkDensFitMethod"]}
{"id": "C46", "title": "Parallel fitting assigns results to the right objects", "statement": "Row p of the fit result is the fit of profile p with R200 p, for any number of objects and worker processes and any completion order.", "quantifier": "all schedules and object counts", "why_tests_cant": "schedules", "anchors": ["cosmic_profiles/dens_profs/dens_profs_tools.py:fitDensProfHelper"]}
{"id": "C47", "title": "Fits are independent of the amplitude unit", "statement": "Multiplying a density profile by k>0 multiplies the fitted rho_s by k and leaves all other fitted parameters unchanged; hence fits do not depend on the mass unit of the output system. NaN bins do not influence the fit.", "quantifier": "all profiles, all k>0, all deterministic minimisers", "why_tests_cant": "universal over profiles and minimisers", "anchors": ["cosmic_profiles/dens_profs/dens_profs_tools.py:fitDensProf", "cosmic_profiles/common/cosmic_base_class.pyx:_fitDensProfsBase"]}
{"id": "C48", "title": "Every object appears in a mass group of the density plots", "statement": "In drawDensProfs() every object contributes to the median profile of a mass group.", "quantifier": "all mass lists and group numbers", "why_tests_cant": "boundary objects", "anchors": ["cosmic_profiles/dens_profs/dens_profs_tools.py:drawDensProfs"]}
{"id": "C49", "title": "Mass splitting partitions the objects", "statement": "M_split() puts every object in exactly one group, groups are consecutive in mass order, all groups except possibly the last have the same size, the group edges bound the group masses, and index groups, mass groups and centre groups refer to the same objects.", "quantifier": "all mass lists, all bin numbers >= 1", "why_tests_cant": "universal over lists", "anchors": ["cosmic_profiles/common/cosmo_tools.py:M_split", "cosmic_profiles/common/cosmo_tools.py:getBlocks"]}
{"id": "C50", "title": "Concentrations are R200 over scale radius", "statement": "estConcentrations() returns R200 divided by the scale radius that fitDensProfs() reports for the same object, independent of the output unit system.", "quantifier": "all objects, profiles, unit systems", "why_tests_cant": "unit conversions cancel for every unit system", "anchors": ["cosmic_profiles/common/cosmic_base_class.pyx:_estConcentrationsBase", "cosmic_profiles/common/cosmic_base_class.pyx:_getConcentrationsBase", "cosmic_profiles/common/cosmic_base_class.pyx:_fitDensProfsBase"]}
{"id": "C51", "title": "Shell coarsening keeps the halo extent and terminates", "statement": "genHalo() coarsening keeps the innermost and outermost shell, only drops intermediate ones, keeps the three axis arrays aligned, and the loop ends with at least one particle in the first proper shell or with the documented ValueError.", "quantifier": "all shell arrays of length >= 2, all resolutions and profiles", "why_tests_cant": "termination for all inputs", "anchors": ["cosmic_profiles/mock_tools/mock_halo_gen.py:genHalo"]}
{"id": "C52", "title": "Mock halo mass is exact", "statement": "The number of generated particles times the returned particle mass equals the requested total mass, and at least one particle is generated.", "quantifier": "all resolutions, profiles and shell arrays for which generation succeeds", "why_tests_cant": "universal, despite rounding in every shell", "anchors": ["cosmic_profiles/mock_tools/mock_halo_gen.py:genHalo"]}
{"id": "C53", "title": "Shell sampling stays inside its shell", "statement": "Points drawn for shell idx lie on an ellipsoid between the inner and the outer ellipsoid: inside or on the outer one and not strictly inside the inner one.", "quantifier": "all axis arrays (positive increasing), all random draws", "why_tests_cant": "random draws, continuum", "anchors": ["cosmic_profiles/common/python_routines.py:drawUniformFromShell", "cosmic_profiles/common/python_routines.py:inShell"]}
{"id": "C54", "title": "Fibonacci points lie on the surface", "statement": "fibonacci_sphere()/fibonacci_ellipsoid() return the requested number of points, all on the unit sphere / on the ellipsoid surface.", "quantifier": "all sample counts, all semi-axes", "why_tests_cant": "universal over counts (including 1, the default)", "anchors": ["cosmic_profiles/common/python_routines.py:fibonacci_sphere", "cosmic_profiles/common/python_routines.py:fibonacci_ellipsoid"]}
{"id": "C55", "title": "Uniform ellipsoid draws lie inside", "statement": "drawUniformFromEllipsoid() returns the requested number of points, all inside the ellipsoid.", "quantifier": "all semi-axes and random draws", "why_tests_cant": "random draws", "anchors": ["cosmic_profiles/common/python_routines.py:drawUniformFromEllipsoid"]}
{"id": "C56", "title": "Format-1 blocks are located correctly", "statement": "For any file consisting of Fortran records (either byte order) find_block() with the number k of an existing record returns the offset and length of the k-th record's payload; for k beyond the last record it reports that the block was not found; a record whose trailing length differs is reported.", "quantifier": "all files, all record counts and lengths, both byte orders", "why_tests_cant": "universal over files", "anchors": ["cosmic_profiles/gadget/readsnap.py:find_block"]}
{"id": "C57", "title": "Format-2 blocks can be found by name", "statement": "For a format-2 file (name records) find_block() called with a block name locates the block with that name.", "quantifier": "all format-2 files", "why_tests_cant": "universal over files", "anchors": ["cosmic_profiles/gadget/readsnap.py:find_block"]}
{"id": "C58", "title": "Format and byte order are detected", "statement": "The header reader identifies format 1/2 and byte order from the first four bytes, rejects everything else, and decodes the header integers to the values that were written for either byte order.", "quantifier": "all header contents, both byte orders", "why_tests_cant": "universal over contents", "anchors": ["cosmic_profiles/gadget/readsnap.py:snapshot_header"]}
{"id": "C59", "title": "Particle IDs are read without loss", "statement": "IDs stored as 64 bit integers are returned unchanged.", "quantifier": "all IDs below 2^64", "why_tests_cant": "only IDs at or above 2^32 reveal truncation", "anchors": ["cosmic_profiles/gadget/readsnap.py:read_block"]}
{"id": "C60", "title": "Multi-file snapshots are assembled by species", "statement": "Reading a block from a snapshot distributed over several files returns, for each requested species in order, the concatenation over files of that species' entries, without gaps or overlaps.", "quantifier": "all file counts, all per-file particle counts of the six species", "why_tests_cant": "offset bookkeeping over unbounded files", "anchors": ["cosmic_profiles/gadget/readsnap.py:read_block", "cosmic_profiles/gadget/readgadget.py:read_block"]}
{"id": "C61", "title": "Snapshot name resolution", "statement": "fname_format() resolves a snapshot base name to an existing file with the right format, preferring in order the name itself, .0, .hdf5, .0.hdf5, and fails exactly when none exists.", "quantifier": "all file systems", "why_tests_cant": "universal over directory contents", "anchors": ["cosmic_profiles/gadget/readgadget.py:fname_format"]}
{"id": "C62", "title": "Binned shape statistics use each measurement once", "statement": "In the averaged shape profiles every non-NaN measurement of the considered objects is used exactly once, in the bin whose normalised radius is nearest, NaN measurements are ignored.", "quantifier": "all catalogues and bin arrays", "why_tests_cant": "universal", "anchors": ["cosmic_profiles/shape_profs/shape_profs_tools.py:getShape", "cosmic_profiles/shape_profs/shape_profs_tools.py:getShapeMs"]}
{"id": "C63", "title": "Method and Katz configuration dictionaries are checked exactly", "statement": "checkDensFitMethod()/checkKatzConfig() accept a dictionary iff it satisfies the documented rules (known profile, only known keys; all required Katz fields) and checkKatzConfig returns the fields unchanged.", "quantifier": "all dictionaries", "why_tests_cant": "iff over all dictionaries", "anchors": ["cosmic_profiles/common/python_routines.py:checkDensFitMethod", "cosmic_profiles/common/python_routines.py:checkKatzConfig"]}
{"id": "C64", "title": "Chi-square statistic is non-negative and vanishes exactly for proportional samples", "statement": "The chi-square statistic is >= 0 for all non-negative count tables, is unaffected by swapping the two samples, and is 0 iff the two samples are proportional.", "quantifier": "all count tables", "why_tests_cant": "universal", "anchors": ["cosmic_profiles/common/cosmo_tools.py:chiSquareToICore"]}
{"id": "C65", "title": "Block splitting is lossless", "statement": "Concatenating the blocks yielded by getBlocks() gives back the list; all blocks but the last have exactly the requested size and the last is non-empty and not larger.", "quantifier": "all lists, all block sizes >= 1", "why_tests_cant": "universal over lists", "anchors": ["cosmic_profiles/common/cosmo_tools.py:getBlocks"]}
{"id": "C66", "title": "Data read back keep their physical value", "statement": "Positions, masses and radii handed to a constructor in the input units and read back with getR200()/getXYZMasses() in the output units denote the same physical quantity (number times unit), as long as h has not been changed in between; if h was changed they are off by exactly the ratio of the two h values.", "quantifier": "all data arrays of any length, all unit systems at construction and at read-back, all h", "why_tests_cant": "the factor depends on the configuration at two different times; tests use one configuration", "anchors": ["cosmic_profiles/shape_profs/shape_profs_classes.pyx:DensShapeProfs.__init__", "cosmic_profiles/dens_profs/dens_profs_classes.pyx:getR200", "cosmic_profiles/dens_profs/dens_profs_classes.pyx:getXYZMasses"]}
{"id": "C67", "title": "Group tables do not depend on directory order", "statement": "With distinct chunk numbers in the file names, the collected group tables are the concatenation of the files' tables in ascending chunk number, whatever order the directory listing returns, and the chunk number is the digit run before '.hdf5' (so chunk 10 comes after chunk 9).", "quantifier": "all directory orders, all numbers of files and ranks, all file names ending in digits and '.hdf5'", "why_tests_cant": "directory order is chosen by the file system; unstable argsort", "anchors": ["cosmic_profiles/gadget/read_fof.py:getFoFSHData"]}
{"id": "C68", "title": "Unwrapped objects are contiguous", "statement": "If all particles of an object are within a small fraction of L of each other in the periodic metric, then after respectPBCNoRef() they are also close to each other in plain coordinates, so that centre and radii are computed from a contiguous object.", "quantifier": "all objects of small periodic extent, all positions of the object relative to the box boundary, all random reference sub-samples", "why_tests_cant": "depends on where the object lies relative to the boundary and on how its particles split across it", "anchors": ["cosmic_profiles/common/python_routines.py:respectPBCNoRef"]}
{"id": "C69", "title": "Masses and centres of all objects", "statement": "calcMassesCenters() returns for every object exactly the sum of its particle masses, and a centre inside [0, L) which for the centre of mass is a periodic image of the mean of the unwrapped object, in every thread schedule.", "quantifier": "all sets of objects with particles in the box, all thread schedules, all random reference sub-samples", "why_tests_cant": "schedules cannot be enumerated by tests", "anchors": ["cosmic_profiles/dens_profs/dens_profs_algos.pyx:calcMassesCenters"]}
{"id": "C70", "title": "A degenerate object does not affect the shapes of other objects", "statement": "If the shape of one object of a catalogue cannot be determined (for instance because its particles lie in a plane), that object gets an unconverged entry and all other objects get the shapes they would get by themselves.", "quantifier": "all catalogues, all positions of the degenerate object, all schedules", "why_tests_cant": "needs all degenerate geometries and all schedules; error propagation out of a parallel loop", "anchors": ["cosmic_profiles/shape_profs/shape_profs_algos.pyx:calcMorphLocal", "cosmic_profiles/shape_profs/shape_profs_algos.pyx:calcMorphGlobal", "cosmic_profiles/shape_profs/shape_profs_algos.pyx:runEllAlgo"]}
{"id": "C71", "title": "Density profiles do not depend on scheduling or on other objects", "statement": "The spherical, ellipsoidal and kernel based density profiles are the same in every execution of the parallel loop, and the spherical profile of an object depends only on its own particles, virial radius and reference draw, not on the other objects of the catalogue or on the order in which the catalogue lists them.", "quantifier": "all catalogues, all thread schedules and assignments of iterations to threads, all initial contents of the per-thread buffers", "why_tests_cant": "schedules and stale buffer contents cannot be enumerated by tests", "anchors": ["cosmic_profiles/dens_profs/dens_profs_algos.pyx:calcDensProfsSphDirectBinning", "cosmic_profiles/dens_profs/dens_profs_algos.pyx:calcDensProfsEllDirectBinning", "cosmic_profiles/dens_profs/dens_profs_algos.pyx:calcDensProfsKernelBased"]}
{"id": "C72", "title": "Density profiles do not depend on where an object lies in the periodic box", "statement": "Moving an object as a whole in the periodic box, so that it may be split by the box boundary, leaves its spherical density profile unchanged.", "quantifier": "all objects small compared to the box, all translations modulo the box length", "why_tests_cant": "needs all positions relative to the boundary and all splittings; the centre and the particles are unwrapped by two different routines", "anchors": ["cosmic_profiles/dens_profs/dens_profs_algos.pyx:calcDensProfsSphDirectBinning", "cosmic_profiles/cython_helpers/helper_class.pyx:CythonHelpers.respectPBCNoRef", "cosmic_profiles/common/python_routines.py:respectPBCNoRef"]}
{"id": "C73", "title": "Empty bins do not spoil a density fit", "statement": "A fit of an exact profile to which bins of zero density have been added (shells without particles) still finds the parameters of the profile; NaN bins are ignored.", "quantifier": "all profiles, radii, positions of the empty bins, all minimisers that return a best vector within the bounds", "why_tests_cant": "universal over minimisers and data; a test sees one minimiser on one profile", "anchors": ["cosmic_profiles/dens_profs/dens_profs_tools.py:toMinimize", "cosmic_profiles/dens_profs/dens_profs_tools.py:fitDensProf"]}
{"id": "C74", "title": "Fitting an exact profile recovers its parameters", "statement": "If the density profile is exactly an NFW or Hernquist profile at two or more distinct radii, or an Einasto profile at three or more, then every minimiser that returns a best vector within the bounds makes fitDensProf() return exactly the parameters of the profile.", "quantifier": "all parameters within bounds, all radii, all minimisers returning a best vector", "why_tests_cant": "uniqueness of the minimum over a continuum of parameters", "anchors": ["cosmic_profiles/dens_profs/dens_profs_tools.py:toMinimize", "cosmic_profiles/dens_profs/dens_profs_tools.py:fitDensProf"]}
{"id": "C75", "title": "Mass splitting gives the requested number of groups", "statement": "M_split() returns NB_BINS groups whenever there are at least NB_BINS objects.", "quantifier": "all mass lists with at least NB_BINS objects, all NB_BINS >= 1", "why_tests_cant": "Tests try a few sizes; the count depends on the arithmetic of every pair of sizes.", "anchors": ["cosmic_profiles/common/cosmo_tools.py:M_split"]}
{"id": "C76", "title": "Triaxiality histograms count every non-spherical object", "statement": "The triaxiality of an ellipsoid with axis ratios 0 <= s <= q <= 1, s < 1 lies in [0, 1], is 0 exactly for q = 1 and 1 exactly for q = s, and every such object enters the triaxiality histograms and the printed average.", "quantifier": "all lists of axis ratios", "why_tests_cant": "Exact values such as q = 1 are unlikely in sampled data; tests look at plots only for crashes.", "anchors": ["cosmic_profiles/shape_profs/shape_profs_tools.py:getLocalTHist", "cosmic_profiles/shape_profs/shape_profs_tools.py:getGlobalTHist"]}
{"id": "C77", "title": "Averages are order independent and lie within the data", "statement": "The mean, median and quartiles of a bin do not depend on the order of the objects, lie between the smallest and the largest value, the median has at most half of the values on either side and lies between the quartiles, and NaN is returned exactly for an empty bin.", "quantifier": "all lists of real numbers", "why_tests_cant": "Quantifies over all samples and all orders.", "anchors": ["cosmic_profiles/common/cosmo_tools.py:getMeanOrMedianAndError"]}
{"id": "C78", "title": "The chi-square test ignores categories in which nothing was counted", "statement": "Adding a category with no count in any sample changes neither the chi-square statistic nor the degrees of freedom.", "quantifier": "all count tables", "why_tests_cant": "The p-value comes out of a library call and looks plausible with any degrees of freedom.", "anchors": ["cosmic_profiles/common/cosmo_tools.py:chiSquareToICore", "cosmic_profiles/common/cosmo_tools.py:chiSquareToIMultiDim"]}
{"id": "C79", "title": "The error of an average vanishes exactly without scatter", "statement": "The 1 sigma error attached to the mean or median of two or more values is 0 if all values are equal, and for the standard error of the mean only then.", "quantifier": "all samples of two or more values, both deterministic error methods", "why_tests_cant": "Tests compare against stored output of the same formula.", "anchors": ["cosmic_profiles/common/cosmo_tools.py:getMeanOrMedianAndError"]}
{"id": "C80", "title": "Mock halos have approximately the requested number of particles", "statement": "The number of particles of a mock halo is between 2/3 of the requested resolution and twice it, up to half a particle per shell.", "quantifier": "all resolutions, masses, profiles and increasing shell arrays for which generation succeeds", "why_tests_cant": "rounding accumulates over an unbounded number of shells; the extreme ratios occur only for particular masses of the first shell", "anchors": ["cosmic_profiles/mock_tools/mock_halo_gen.py:genHalo"]}
{"id": "C81", "title": "Uniform draws in two dimensions", "statement": "drawUniformFromEllipsoid() with dims = 2 and c = None, as documented, returns points of the ellipse.", "quantifier": "all semi-axes, counts and draws", "why_tests_cant": "holds or fails for every input alike; the sources contain no such call", "anchors": ["cosmic_profiles/common/python_routines.py:drawUniformFromEllipsoid"]}
{"id": "C82", "title": "genHalo leaves its arguments alone", "statement": "genHalo() does not change the dictionary of parameters it is given, and its result depends on the documented parameters only.", "quantifier": "all parameters, profiles and shell arrays", "why_tests_cant": "a test would have to compare the argument before and after for every path", "anchors": ["cosmic_profiles/mock_tools/mock_halo_gen.py:genHalo"]}
{"id": "C83", "title": "Mock halos are reproducible", "statement": "genHalo() called twice with the same arguments returns the same halo, and the points of a shell do not depend on what the worker process drew before.", "quantifier": "all arguments, all assignments of shells to worker processes, all states of the random number generators", "why_tests_cant": "the assignment of shells to processes varies from run to run", "anchors": ["cosmic_profiles/mock_tools/mock_halo_gen.py:genHalo", "cosmic_profiles/common/python_routines.py:drawUniformFromShell"]}
{"id": "C84", "title": "Unknown profile names are reported", "statement": "genHalo() raises for a profile name that is none of einasto, alpha_beta_gamma, hernquist and nfw.", "quantifier": "all strings", "why_tests_cant": "infinitely many names", "anchors": ["cosmic_profiles/mock_tools/mock_halo_gen.py:genHalo"]}
{"id": "C85", "title": "HDF5 snapshots with files that lack a species", "statement": "Reading a block of a species from an HDF5 snapshot in several files, some of which hold no particle of the species and hence no dataset for it, returns the entries of the other files.", "quantifier": "all snapshots in several HDF5 files", "why_tests_cant": "needs snapshots with many files and a rare species; the example snapshots have particles of each kind in every file", "anchors": ["cosmic_profiles/gadget/readgadget.py:read_block", "cosmic_profiles/gadget/readgadget.py:read_field"]}
{"id": "C86", "title": "Positions and velocities come from the file", "statement": "If a species has no coordinates or velocities in an HDF5 file, reading them is refused whatever the number of particles.", "quantifier": "all HDF5 files and particle numbers", "why_tests_cant": "depends on broadcasting for particular particle numbers", "anchors": ["cosmic_profiles/gadget/readgadget.py:read_block", "cosmic_profiles/gadget/readgadget.py:read_field"]}
{"id": "C87", "title": "IDs in HDF5 files are returned unchanged", "statement": "Reading the block of IDs from an HDF5 snapshot returns the integers stored there; different particles have different IDs.", "quantifier": "all IDs below 2^64", "why_tests_cant": "only IDs above 2^53 reveal the conversion to floating point", "anchors": ["cosmic_profiles/gadget/readgadget.py:read_field", "cosmic_profiles/gadget/readgadget.py:read_block"]}
{"id": "C88", "title": "Missing particles are noticed", "statement": "If the files of a snapshot together hold fewer particles of a species than the total in the header, reading a block is refused; no array element is returned that was not read from a file.", "quantifier": "all snapshots in several files, binary and HDF5", "why_tests_cant": "the content of uninitialised memory varies; needs inconsistent snapshots", "anchors": ["cosmic_profiles/gadget/readgadget.py:read_block", "cosmic_profiles/gadget/readsnap.py:read_block"]}
{"id": "C89", "title": "Shapes at a radius come from that radius", "statement": "In a local shape profile, entry i belongs to the i-th radius of the profile and starts from the particles of the i-th shell only (distance from the centre at least the previous and less than this radius; for ellipsoid-based profiles, less than this radius). If fewer than IT_MIN particles lie there, the entry is NaN and flagged not converged, however many particles lie elsewhere.", "quantifier": "all catalogues, all profiles of radii, all schedules", "why_tests_cant": "needs all particle distributions over the shells and all profiles of radii", "anchors": ["cosmic_profiles/shape_profs/shape_profs_algos.pyx:calcObjMorphLocal", "cosmic_profiles/shape_profs/shape_profs_algos.pyx:runShellAlgo", "cosmic_profiles/shape_profs/shape_profs_algos.pyx:calcObjMorphLocalVelDisp"]}
{"id": "C90", "title": "Mass labels state the mass", "statement": "The text that eTo10 makes from a number formatted with two decimals in scientific notation (as in the legends of the mass-split plots) denotes that number.", "quantifier": "all mantissas and exponents, both spellings of the exponent letter, both signs", "why_tests_cant": "needs all exponents; the branches are a hand-written table", "anchors": ["cosmic_profiles/common/python_routines.py:eTo10"]}
{"id": "C91", "title": "The particle mass fills the box", "statement": "getMassDMParticle(N, L) is the mass such that N^3 particles in a box of side L have the mean density getRhoCrit; getRhoCrit is the Friedmann value 3 H^2 / (8 pi G) for H = 100 km/s/Mpc in solar masses per cubic Mpc (within 1 % of 2.775e11). Doubling N divides the mass by eight; N = 0 is a division by zero.", "quantifier": "all N and L", "why_tests_cant": "needs all resolutions and box sizes, and exact unit arithmetic", "anchors": ["cosmic_profiles/common/python_routines.py:getRhoCrit", "cosmic_profiles/common/python_routines.py:getMassDMParticle"]}
{"id": "C92", "title": "The virial overdensity follows Bryan and Norman", "statement": "getDelta(z, Om, Ol) is (18 pi^2 + 82 x - 39 x^2) / Omega(z) - 1 with x = Omega(z) - 1. It is 18 pi^2 - 1 at every redshift without dark energy, exceeds it with dark energy, falls strictly with redshift and tends to it.", "quantifier": "all redshifts above -1, all positive matter and non-negative dark energy densities", "why_tests_cant": "monotonicity and the limit are statements about all redshifts", "anchors": ["cosmic_profiles/common/python_routines.py:getDelta"]}
{"id": "C93", "title": "The shape-curve test compares measurements at the right radius", "statement": "chiSquareToIShapeCurve puts each measured value into the radial bin of its own radius over R200, so that the binned statistics at a radius summarise the measurements at that radius.", "quantifier": "all grids, all catalogues, all patterns of missing values", "why_tests_cant": "needs all patterns of non-converged radii and all grids", "anchors": ["cosmic_profiles/common/cosmo_tools.py:chiSquareToIShapeCurve"]}
{"id": "C94", "title": "Periodic images are translations", "statement": "cosmo_tools.respectPBC replaces each particle of an object by the periodic image nearest to the first particle.", "quantifier": "all box lengths and objects", "why_tests_cant": "needs all positions relative to the box boundary", "anchors": ["cosmic_profiles/common/cosmo_tools.py:respectPBC"]}
{"id": "C95", "title": "No public method ends in an argument error", "statement": "Every internal call that a public method of the library can reach passes arguments that Python can bind to the parameters of the function called: none missing, none in excess, none twice. Variables named as a parameter of the callee are passed in the position of that parameter.", "quantifier": "all public methods and all internal calls reachable from them", "why_tests_cant": "a test of one method shows one path; branches that are rarely taken (or that need plotting, MPI or data files) are not run", "anchors": ["cosmic_profiles/common/cosmic_base_class.pyx", "cosmic_profiles/shape_profs/shape_profs_classes.pyx", "cosmic_profiles/dens_profs/dens_profs_classes.pyx", "cosmic_profiles/shape_profs/shape_profs_tools.py"]}
{"id": "C96", "title": "Different results go to different files", "statement": "Two dumps or two plots of different results (another quantity, another scope, another class or particle type, another mass group, another object, another snapshot) never have the same file name within a destination folder, so that none overwrites another.", "quantifier": "all quantities, scopes, classes, particle types, object numbers, mass group edges and snapshot names", "why_tests_cant": "the names are made by formatting; a collision needs a particular pair of calls", "anchors": ["cosmic_profiles/common/cosmic_base_class.pyx:_dumpShapeCatLocalBase", "cosmic_profiles/shape_profs/shape_profs_tools.py:getShapeProfs", "cosmic_profiles/shape_profs/shape_profs_tools.py:getGlobalEpsHist", "cosmic_profiles/dens_profs/dens_profs_tools.py:getDensProfs"]}
{"id": "C97", "title": "Output folders are created", "statement": "If CAT_DEST or VIZ_DEST does not exist, saving creates it where the path points to (relative paths: from the working directory, as documented), and the file is written there.", "quantifier": "all working directories, install locations, destinations and states of the file system", "why_tests_cant": "tests run where the folders have been created beforehand", "anchors": ["cosmic_profiles/shape_profs/shape_profs_tools.py:getShapeProfs", "cosmic_profiles/dens_profs/dens_profs_tools.py:getDensProfs", "cosmic_profiles/common/cosmic_base_class.pyx:_dumpShapeCatLocalBase"]}
{"id": "C98", "title": "Ellipsoidal density profiles use the shapes of their own catalogue", "statement": "estDensProfs with spherical = False uses the shapes that getShapeCatLocal of the same object would return, not those another class has left in the same folder.", "quantifier": "all classes, particle types, destinations and dumps", "why_tests_cant": "depends on files left by objects of another class", "anchors": ["cosmic_profiles/common/cosmic_base_class.pyx:_estDensProfsBase"]}
{"id": "C99", "title": "Data of a Gadget object are in one unit", "statement": "In every analysis of a Gadget object the particle positions, the R200 radii and the box length are the numbers of the files times one common factor, whatever unit updates, constructions and calls came before; getXYZMasses() and getVelXYZ() return the physical values of the snapshot.", "quantifier": "all programs of unit updates, constructions of Gadget objects and calls of their methods, all memo modes", "why_tests_cant": "depends on the order of unit updates, constructions and analyses", "anchors": ["cosmic_profiles/shape_profs/shape_profs_classes.pyx:DensShapeProfsGadget.__init__", "cosmic_profiles/shape_profs/shape_profs_classes.pyx:DensShapeProfsGadget._getXYZMasses", "cosmic_profiles/shape_profs/shape_profs_classes.pyx:DensShapeProfsGadget.getIdxCat", "cosmic_profiles/gadget/readgadget.py:read_block", "cosmic_profiles/gadget/read_fof.py:getFoFSHData"]}
{"id": "C100", "title": "Limits of the caches can be changed", "statement": "After updateCachingMaxGBs(False) and updateCachingMaxSize(n) no memo of a cached function holds more than n entries; in general the limits set last are in force.", "quantifier": "all programs of limit updates and calls of cached functions, all limits", "why_tests_cant": "depends on whether the cached functions were called before the update", "anchors": ["cosmic_profiles/common/config.py:updateCachingMaxGBs", "cosmic_profiles/common/config.py:updateCachingMaxSize", "cosmic_profiles/common/caching.py:np_cache_factory", "cosmic_profiles/gadget/gen_catalogues.pyx:calcObjCat", "cosmic_profiles/gadget/read_fof.py:getFoFSHData"]}
{"id": "C101", "title": "Random points fill the volume uniformly", "statement": "Points drawn by drawUniformFromEllipsoid() fill the ellipsoid, and points drawn by drawUniformFromShell() the shell, uniformly in volume: the part of the draws that lands within a smaller similar ellipsoid equals the part of the volume there.", "quantifier": "all semi-axes, shell arrays, sizes of the smaller ellipsoid, counts and random draws", "why_tests_cant": "a statement about the distribution: a finite sample neither proves nor refutes it, and existing tests look only at whether points are inside", "anchors": ["cosmic_profiles/common/python_routines.py:drawUniformFromEllipsoid", "cosmic_profiles/common/python_routines.py:drawUniformFromShell"]}
{"id": "C102", "title": "Programs finish on every MPI process", "statement": "A program that calls the same methods with the same arguments on every MPI process finishes on the others when it finishes on rank 0: there the methods return None (or a tuple of None), and a method raises on all processes or on none.", "quantifier": "all methods of objects made from arrays or from Gadget files, all arguments, all ranks", "why_tests_cant": "unit tests run on one process; which ranks raise is a statement about all of them", "anchors": ["cosmic_profiles/dens_profs/dens_profs_classes.pyx:DensProfsBase", "cosmic_profiles/shape_profs/shape_profs_classes.pyx:DensShapeProfsGadget.__init__", "cosmic_profiles/common/cosmic_base_class.pyx:_fitDensProfsBase", "example_scripts/gadget3_hdf5.py"]}
{"id": "C103", "title": "Shapes do not depend on where an object lies in the periodic box", "statement": "Moving an object as a whole in the periodic box, so that it may be split by the box boundary, leaves its reported shape (axis ratios, axes, convergence) and mass unchanged; for all four kinds of shape, about the mode or the centre of mass.", "quantifier": "all catalogues, translations, configurations, eigensolver answers and thread schedules", "why_tests_cant": "needs all positions relative to the boundary; the centre and the particles are unwrapped by two different routines", "anchors": ["cosmic_profiles/shape_profs/shape_profs_algos.pyx:calcMorphLocal", "cosmic_profiles/shape_profs/shape_profs_algos.pyx:calcMorphGlobal", "cosmic_profiles/shape_profs/shape_profs_algos.pyx:calcMorphLocalVelDisp", "cosmic_profiles/shape_profs/shape_profs_algos.pyx:calcMorphGlobalVelDisp", "cosmic_profiles/cython_helpers/helper_class.pyx:CythonHelpers.respectPBCNoRef", "cosmic_profiles/common/python_routines.py:respectPBCNoRef"]}
{"id": "C104", "title": "What is drawn of an object belongs together", "statement": "In the figures of vizLocalShapes() and vizGlobalShapes() the marked centre is the centre of the drawn particles, the points of each ellipsoid lie on the surface given by the shape, and the arrows labelled Major, Intermediate and Minor end on the ellipsoid drawn with them.", "quantifier": "all objects, box positions, unit factors and shape profiles", "why_tests_cant": "tests do not look at figures; depends on the position relative to the box boundary and the number of radii", "anchors": ["cosmic_profiles/shape_profs/shape_profs_classes.pyx:ShapeProfs.vizLocalShapes", "cosmic_profiles/shape_profs/shape_profs_classes.pyx:ShapeProfs.vizGlobalShapes", "cosmic_profiles/common/python_routines.py:fibonacci_ellipsoid", "cosmic_profiles/common/python_routines.py:recentreObject"]}
{"id": "C105", "title": "Axes of equal scale hide nothing", "statement": "set_axes_equal() gives the three axes of a figure the same range and the same middle as before, shows everything that was visible before, and enlarges no more than necessary.", "quantifier": "all axis limits, also inverted ones", "why_tests_cant": "all real limits", "anchors": ["cosmic_profiles/common/python_routines.py:set_axes_equal"]}
{"id": "C106", "title": "Objects can be cut at a fraction of R200", "statement": "getCatWithinFracR200, which the local ellipticity histograms (plotLocalEpsHist) use, returns for every catalogue the objects restricted to their particles within frac_r200*r200 of their centre: every such particle is kept, no other particle is kept, the particles of an object stay together, and the order of the objects is unchanged.", "quantifier": "for all particle sets, catalogues, radii, fractions, box sizes, both kinds of centre and every order in which the neighbour search returns its results", "why_tests_cant": "No test calls the function; a test with one catalogue could not show which catalogues are affected, and the order of the neighbour search is unspecified.", "anchors": ["cosmic_profiles/common/python_routines.py:567-609", "cosmic_profiles/shape_profs/shape_profs_tools.py:424"]}
{"id": "C107", "title": "The printed overview counts objects correctly", "statement": "getObjInfoGadget prints the number of objects in the catalogue, of FoF groups with and without subhalos, of all groups and subhalos, and of objects with sufficient resolution; each number equals the number of such objects in the group files and in the catalogue of the object.", "quantifier": "for all group tables and catalogues", "why_tests_cant": "The output is only printed, never compared; tests run on snapshots whose counts nobody states.", "anchors": ["cosmic_profiles/shape_profs/shape_profs_classes.pyx:831-846", "cosmic_profiles/common/cosmic_base_class.pyx:1130-1141"]}
{"id": "C108", "title": "An object has one centre", "statement": "The centre of an object that getMassesCenters returns and about which its density profile is computed is the centre about which its shape is computed and which is written with the shapes, for the same data and the same CENTER setting, whatever rows the random choices inside respectPBCNoRef draw.", "quantifier": "for all particle sets, catalogues, both kinds of centre, box sizes and random choices", "why_tests_cant": "The two centres come from different functions with different starting radii and are never compared; whether they agree depends on how the shrinking sphere happens to cut the particles.", "anchors": ["cosmic_profiles/dens_profs/dens_profs_algos.pyx:36-50", "cosmic_profiles/dens_profs/dens_profs_algos.pyx:99", "cosmic_profiles/dens_profs/dens_profs_algos.pyx:201", "cosmic_profiles/shape_profs/shape_profs_algos.pyx:585-591", "cosmic_profiles/common/python_routines.py:287-306"]}
{"id": "C109", "title": "Shapes turn with the object and do not depend on units", "statement": "If all particles are turned by the same rotation (or reflected), lengths, velocities and masses are given in other units, and every object is moved and given an additional velocity, then the shape catalogues (local and global, position and velocity dispersion, reduced or not, ellipsoid or shell) contain the same axis ratios q and s and the same NaN entries, major axes d in the new unit, masses in the new unit, and eigenvectors and centres turned with the particles; the call raises if and only if the original call does.", "quantifier": "for all objects with positive masses not split by the box, rotations, unit factors, shifts and settings, and every eigensolver that meets its contract", "why_tests_cant": "A test can turn one halo by one angle; degenerate eigenvalues, borderline particles and the start radius of the centre search depend on the orientation.", "anchors": ["cosmic_profiles/shape_profs/shape_profs_algos.pyx:16-145", "cosmic_profiles/shape_profs/shape_profs_algos.pyx:148-262", "cosmic_profiles/shape_profs/shape_profs_algos.pyx:265-383", "cosmic_profiles/shape_profs/shape_profs_algos.pyx:386-514", "cosmic_profiles/shape_profs/shape_profs_algos.pyx:585-613", "cosmic_profiles/common/python_routines.py:287-306", "cosmic_profiles/cython_helpers/helper_class.pyx:62-80"]}
{"id": "C110", "title": "Density profiles turn with the object and do not depend on units", "statement": "If all particles are turned by the same rotation (or reflected), lengths (positions, R200, box) and masses are given in other units and every object is moved, then both density estimators (spherical bins and kernels) return the same table with every density converted to the new unit of mass over length cubed, and they raise if and only if the original call does.", "quantifier": "for all catalogues of objects with positive masses not split by the box, rotations, unit factors, shifts, radii and random reference choices", "why_tests_cant": "A test can convert one catalogue by one factor; the absolute start radius of the centre search and particles on bin edges make the effect depend on the factor.", "anchors": ["cosmic_profiles/dens_profs/dens_profs_algos.pyx:53-109", "cosmic_profiles/dens_profs/dens_profs_algos.pyx:221-281", "cosmic_profiles/cython_helpers/helper_class.pyx:204-241", "cosmic_profiles/cython_helpers/helper_class.pyx:417-428", "cosmic_profiles/common/python_routines.py:287-306"]}
{"id": "C111", "title": "Density figures show the profiles that were handed over, in the unit of the axis", "statement": "plotDensProfs takes densities in the output unit. In every figure the solid line is the median of the numbers handed over for the objects of that figure, the band contains the line and vanishes if all profiles are the same, the dashed curve is the fitted model in the same unit, and another output unit multiplies everything that is drawn by the same factor.", "quantifier": "for all profiles, radii, selections, groups, fit methods, minimisers and unit systems", "why_tests_cant": "The figures are files; a test would have to read numbers back from a drawing, and the detour through internal units cancels only for the units at hand.", "anchors": ["cosmic_profiles/common/cosmic_base_class.pyx:1083-1128", "cosmic_profiles/dens_profs/dens_profs_tools.py:82-213", "cosmic_profiles/dens_profs/dens_profs_classes.pyx:214-235"]}
{"id": "C112", "title": "The density axis states the unit of the densities", "statement": "The label of the density axis, read as it stands, is the output unit of mass over the cube of the output unit of length.", "quantifier": "for all output unit systems and values of h", "why_tests_cant": "A test can look at the label for the default units; the text is assembled by replacements from whatever unit is configured.", "anchors": ["cosmic_profiles/dens_profs/dens_profs_tools.py:166-184", "cosmic_profiles/common/config.py:212-230"]}
{"id": "C113", "title": "The histograms have HIST_NB_BINS bars and account for every object", "statement": "Each of the four histogram methods draws HIST_NB_BINS bars over [0, 1]. Every object with a defined value is in exactly one bin, a bar is the share of the objects in its bin divided by the width of the bin, and the bars have area 1.", "quantifier": "for all catalogues, numbers of bins, angles and centres", "why_tests_cant": "A histogram is a drawing; a test would see neither a missing object nor a missing bar, and values at the edges of bins need exact arithmetic.", "anchors": ["cosmic_profiles/shape_profs/shape_profs_tools.py:232-437", "cosmic_profiles/shape_profs/shape_profs_classes.pyx:319-400"]}
{"id": "C114", "title": "The local triaxiality histogram shows every object that has a shape at the depth asked for", "statement": "plotLocalTHist draws, for every object, the triaxiality at the radius nearest to frac_r200 times R200, if the object has a shape there with q < 1.", "quantifier": "for all objects, radii, settings of the algorithm and depths", "why_tests_cant": "Whether an object is left out depends on radii that the plot is not about; the plot looks plausible without it.", "anchors": ["cosmic_profiles/shape_profs/shape_profs_tools.py:271-286", "cosmic_profiles/shape_profs/shape_profs_algos.pyx:517-628"]}
{"id": "C115", "title": "The shape profile figures show the median of the objects with a shape and their scatter", "statement": "plotShapeProfs draws, for all objects and for each mass group, the median of q, of s and of T over the objects that have a shape at each radius. Objects without a shape at a radius leave no trace there. The groups share out all objects by mass. The band shows the scatter between the objects and stays within the range of the values.", "quantifier": "for all catalogues made by the shape algorithm, all lists of distinct radii, masses and numbers of mass bins", "why_tests_cant": "The figures are written to files and looked at; a wrong bin, a lost object or a wrong band gives a plausible curve.", "anchors": ["cosmic_profiles/shape_profs/shape_profs_tools.py:64-234", "cosmic_profiles/common/cosmo_tools.py:174-207"]}
{"id": "C116", "title": "The Kolmogorov-Smirnov test measures the distance between two samples", "statement": "KSTest returns NaN exactly if a sample is empty. Otherwise its statistic is the largest distance between the two empirical distributions over all real numbers, lies between 0 and 1, is 0 exactly if every value has the same share in both samples and 1 for samples that do not overlap. It depends neither on the order of the values nor on the order of the samples, and a common change of unit leaves the result unchanged.", "quantifier": "for all pairs of finite samples of real numbers and all increasing changes of unit", "why_tests_cant": "A test compares a few samples; that the largest distance over all real numbers is found at the values of the samples, and that a statistic of 0 means equal shares, are statements about all samples.", "anchors": ["cosmic_profiles/common/cosmo_tools.py:153-172"]}
{"id": "C117", "title": "The shape algorithm recovers the shape of an ellipsoidal object", "statement": "Without the reduced tensor and without shells: an object that lies inside the ellipsoid with the axes and axis ratios of its own second moments and the major semi-axis d gets, after at most two passes, exactly the axes and ratios of its second moments. In particular an isotropic set of particles, stretched by a >= b >= c > 0 along any three orthogonal directions around the centre, gets q = b/a and s = c/a, the major, intermediate and minor axis along the directions of stretching (where the factors differ), for its overall shape and at every radius whose ellipsoid holds it.", "quantifier": "for all particle sets and masses, all directions and factors, all tolerances in [0,1), any limit of at least two iterations, any eigensolver", "why_tests_cant": "A test recovers the shape of a few mock objects up to a tolerance; that the iteration stops at the true axis ratios exactly, whatever the eigensolver chooses, is a statement about all objects.", "anchors": ["cosmic_profiles/shape_profs/shape_profs_algos.pyx:148-262", "cosmic_profiles/shape_profs/shape_profs_algos.pyx:975-1100"]}
{"id": "C118", "title": "Velocity centres and shapes are right for objects of any number of particles", "statement": "The compiled code adds up the mass of an object in single precision. The centre of mass (of the velocities, for the velocity dispersion shapes) that it divides by this total is the mass weighted mean up to rounding, whatever the number of particles of the object, and the axis ratios and axes do not depend on the rounding of the total.", "quantifier": "for all particle sets and masses, with rounding of the totals to 24 (and 53) binary digits, ties to even", "why_tests_cant": "The total goes wrong only for objects with more particles than any test has (2^24 of equal mass and more), and then without any error message; that the axis ratios stay right is a statement about all objects.", "anchors": ["cosmic_profiles/cython_helpers/helper_class.pyx:40-57", "cosmic_profiles/cython_helpers/helper_class.pyx:85-105", "cosmic_profiles/shape_profs/shape_profs_algos.pyx:827", "cosmic_profiles/shape_profs/shape_profs_algos.pyx:943"]}
{"id": "C119", "title": "Catalogue indices are right however many particles the simulation has", "statement": "The object catalogue built from the halo tables lists for each kept halo exactly the particles of its central subhalo, and the offsets with which profiles are computed cut it into its objects, for simulations of any size; in particular the C ints of the compiled code never change an index.", "quantifier": "for all halo tables whose single entries fit a C int, thresholds and radii; C ints wrap around at 2^31", "why_tests_cant": "The smallest failing input has 2^31 particles in halos, far beyond what a test can hold; nothing is raised, the wrong particles are used silently.", "anchors": ["cosmic_profiles/gadget/gen_catalogues.pyx:12-91", "cosmic_profiles/dens_profs/dens_profs_algos.pyx:36", "cosmic_profiles/shape_profs/shape_profs_algos.pyx:557"]}
{"id": "C120", "title": "Mock halos have the density of the profile asked for", "statement": "In every shell of a halo made by genHalo, ellipsoidal or spherical, the mass of the particles divided by the volume of the shell is the density of the profile model with the parameters given and the rho_s returned, averaged over the shell, up to the rounding of the particle numbers.", "quantifier": "for all total masses, resolutions, profile models and parameters, increasing shell axes, random number streams and quadrature rules that scale and add", "why_tests_cant": "The density in a shell depends on the whole chain of counts, rounding and placement; a sample of halos shows neither the error bound nor that the ratio is off by exactly the product of the axis ratios for every profile.", "anchors": ["cosmic_profiles/mock_tools/mock_halo_gen.py:16-113", "cosmic_profiles/common/python_routines.py:419-497", "docs/source/index.rst:35"]}
{"id": "C121", "title": "The reduced shape algorithm moves towards the true shape, and only the true shape is reproduced", "statement": "Let an object be a set of particles around the centre whose directions are evenly spread over the sphere (equal second moments of the unit vectors), stretched by x >= y >= z > 0 along any three orthogonal axes. With the reduced tensor (a) a pass over all particles never leaves the shape further from the true one than it was, measured by the factor between the ellipsoidal radii; (b) once the true ellipsoid is reached it is kept, with axis ratios y/x, z/x and the true axes; (c) if a pass reproduces the ellipsoid it started from, this is the true one, unless all particles lie on one line or in the plane across it; (d) if the initial radius is large enough, every pass uses all particles, nothing is raised, and a returned shape has ratios of at least (y/x)(z/x) and (z/x)^2.", "quantifier": "for all particle sets, masses, stretchings, orientations, centres, tolerances, iteration limits and eigensolvers meeting the contract", "why_tests_cant": "A test runs a few halos for a few iterations and compares with a tolerance; it cannot show that no other shape is a fixed point of the iteration, nor that no pass can ever make it worse.", "anchors": ["cosmic_profiles/shape_profs/shape_profs_algos.pyx:148-262", "cosmic_profiles/cython_helpers/helper_class.pyx:19-61", "docs/source/index.rst:21"]}
{"id": "C122", "title": "Fits and concentrations fail exactly for wrong arguments", "statement": "fitDensProfs() and estConcentrations() raise AssertionError exactly if the method dictionary is not a documented one; otherwise ValueError exactly if the number of profiles differs from the number of selected objects or the selection is empty, repeats an object or names one that does not exist; in all other cases they return one entry per selected object, whatever the minimiser answers. The precedence is this one, also for several mistakes at once. Only unusable units change this: h = 0 or output length unit 0 give ZeroDivisionError before the selection is checked; output mass unit 0 lets fitDensProfs() fail after all fits are made, whereas estConcentrations() returns.", "quantifier": "all method dictionaries, profiles, selections, catalogues, unit systems and minimiser behaviours", "why_tests_cant": "The exceptions depend on combinations of method, selection, lengths and global unit state; a test tries a few mistakes one at a time and cannot show that no other input is refused, nor that no wrong input gets through.", "anchors": ["cosmic_profiles/dens_profs/dens_profs_classes.pyx:175-212", "cosmic_profiles/common/cosmic_base_class.pyx:1001-1081", "cosmic_profiles/common/python_routines.py:611-696", "cosmic_profiles/dens_profs/dens_profs_tools.py:232-361"]}
{"id": "C123", "title": "Answers belong to the selected objects and do not depend on the unit systems", "statement": "A DensShapeProfs object is built from the user's arrays in the configured input units. getShapeCatLocal(), getShapeCatGlobal(), getMassesCenters() and estDensProfs() (spherical direct binning) then return one entry per selected number, in the order of the selection. Entry k is what the algorithm gives for the particles, the radius and the centre of object number obj_numbers[k] among the objects with at least MIN_NUMBER_PTCS particles, alone; masses are the sum of the object's own input masses, densities the mass of its own particles in the shell over the shell's volume, lengths, masses and densities in the configured output units. A selection that is empty, repeats or names a missing object raises ValueError in all methods, and nothing else; with a good selection only the object itself (a centre that does not come to rest, a vanishing axis) makes getShapeCat fail. A selected object with a particle index beyond the arrays raises IndexError in all methods, an empty list of radii in estDensProfs(); h = 0 is refused by the constructor, an output unit of zero raises ZeroDivisionError only after the work is done. Giving the same physical data in other input units builds the same object, and two output unit systems give the same physical quantities.", "quantifier": "all particle data, catalogues, minimum sizes, radii, unit systems with h > 0, selections, eigensolvers, random choices and thread schedules", "why_tests_cant": "The claim is about every combination of catalogue, filter, selection and two unit systems across five modules; a test compares some numbers for one catalogue in one unit system, where a swapped index or factor can go unnoticed.", "anchors": ["cosmic_profiles/shape_profs/shape_profs_classes.pyx:75-144", "cosmic_profiles/shape_profs/shape_profs_classes.pyx:466-514", "cosmic_profiles/dens_profs/dens_profs_classes.pyx:96-124", "cosmic_profiles/common/cosmic_base_class.pyx:892-955"]}
{"id": "C124", "title": "Kernel density profiles of whole calls", "statement": "estDensProfs(..., direct_binning = False) on a DensShapeProfs object returns one row per selected number, in the order of the selection. Converted with the configured output units, entry i of row k is the physical density at ROverR200[i] times the radius of object obj_numbers[k]: the sum over the object's own particles of their masses, each smeared out by a normal distribution of width 0.005 R200 sqrt(dist/(0.1 R200)) and averaged over the directions. A selection that is empty, repeats or names a missing object raises ValueError. With a valid selection every object whose profile can be computed alone gets the same profile in any selection.", "quantifier": "all particle data, catalogues, radii, unit systems with h > 0, selections, random choices and thread schedules", "why_tests_cant": "A test evaluates a few objects in one unit system; which objects can be asked for together depends on the positions of all particles relative to the computed centres, which no finite set of catalogues covers.", "anchors": ["cosmic_profiles/common/cosmic_base_class.pyx:868-955", "cosmic_profiles/dens_profs/dens_profs_algos.pyx:221-281", "cosmic_profiles/cython_helpers/helper_class.pyx:417-428"]}
{"id": "C125", "title": "Ellipsoidal density profiles of whole calls", "statement": "estDensProfs(..., direct_binning = True, spherical = False) on a DensShapeProfs object returns, for objects whose shapes converge, the mass of the object's own particles in each ellipsoidal shell over the volume of the shell, in the configured output units. A selection that is empty, repeats or names a missing object raises ValueError, and so do fewer than three radii.", "quantifier": "all particle data, catalogues, radii, unit systems, selections, shapes, interpolants, random choices and thread schedules", "why_tests_cant": "A test can notice a NaN for one catalogue; that no catalogue, radius, shape, selection or setting of CENTER (for objects of five or more particles) leads to a single number is a statement about all of them.", "anchors": ["cosmic_profiles/common/cosmic_base_class.pyx:830-866", "cosmic_profiles/common/cosmic_base_class.pyx:892-955", "cosmic_profiles/dens_profs/dens_profs_algos.pyx:112-218"]}
{"id": "C126", "title": "The header of a snapshot is returned whatever its format", "statement": "getHeader() of an object made with the SNAP_DEST of the documentation, the name of the snapshot files without number and ending or the folder that holds them, returns the numbers written in the header of the first file, the same for Gadget formats 1 and 2 in either byte order and for HDF5, for one file or several; its attribute Hubble is the expansion rate in km/s/(Mpc/h).", "quantifier": "for all headers, formats, byte orders, numbers of files, names of snapshots and contents of the file system in which no other file has a name that is tried", "why_tests_cant": "The tests read one HDF5 snapshot; they cannot go through all headers, formats and byte orders, and they never pass the folder that the documentation passes nor a universe with curvature.", "anchors": ["cosmic_profiles/shape_profs/shape_profs_classes.pyx:847-852", "cosmic_profiles/gadget/readgadget.py:16-71", "cosmic_profiles/gadget/readsnap.py:34-101", "docs/source/density_profiles/index.rst:26"]}
{"id": "C127", "title": "The methods of the documentation can be called as documented", "statement": "Every method that the documentation lists for DensShapeProfs and DensShapeProfsGadget exists, and every call that follows the documented list of parameters, with arguments by position or by the documented names in any order, is accepted and hands each value to the parameter that the documentation describes; the calls shown in the documentation and in the example scripts are accepted as well.", "quantifier": "for all documented methods and all argument lists that bind to the documented parameters", "why_tests_cant": "The tests call each method in one way; the argument lists that follow a documented signature are unboundedly many, and no test reads the documentation.", "anchors": ["docs/source/data_structures/index.rst:54-97", "docs/source/data_structures/index.rst:141-166", "docs/source/shape_estimation/index.rst:138-163", "cosmic_profiles/dens_profs/dens_profs_classes.pyx:141-237", "cosmic_profiles/shape_profs/shape_profs_classes.pyx:75-450"]}
{"id": "C128", "title": "A Gadget object answers like an object made from the numbers in its files", "statement": "For a snapshot whose particles are ordered by group with the central subhalo first, a DensShapeProfsGadget object is the object that DensShapeProfs builds from the positions, masses and box in the snapshot, the index lists of the central subhalos and the radii of the groups. Object number z is the z-th group whose central subhalo has at least MIN_NUMBER_PTCS particles, and shapes, masses, centres and densities returned for it depend only on the particles of this central subhalo, the radius of its group, the box and the units. Without groups there is a ValueError.", "quantifier": "for all snapshots, group tables, units, minimum numbers of at least one particle, thread schedules, selections and both kinds of centre", "why_tests_cant": "The tests read one snapshot and compare no answer with that of an object built from arrays; groups without or with small subhalos, which shift the numbering, are not in it, and thread schedules cannot be enumerated.", "anchors": ["cosmic_profiles/shape_profs/shape_profs_classes.pyx:561-592", "cosmic_profiles/gadget/gen_catalogues.pyx:39-95", "cosmic_profiles/gadget/read_fof.py:65-81", "cosmic_profiles/gadget/readgadget.py:75-122"]}
{"id": "C129", "title": "Velocity shapes of a Gadget object come from the velocities of its objects", "statement": "Entry k of the velocity shape catalogue of a DensShapeProfsGadget object belongs to object number obj_numbers[k], the group with this number among those whose central subhalo is large enough. It depends only on positions, velocities and masses of the particles of this central subhalo, on the radius of the group, the box and the units. A bulk velocity given to all particles changes nothing, relative velocities matter. getShapeCatVelLocal and getShapeCatVelGlobal return the shapes that the dumps write.", "quantifier": "for all snapshots and velocities, group tables, units, bulk velocities, thread schedules, selections, Katz parameters and both kinds of centre", "why_tests_cant": "The tests call the methods on one snapshot and check neither the entries nor which particles they come from; independence of the other particles and of a bulk velocity is a statement about pairs of snapshots.", "anchors": ["cosmic_profiles/shape_profs/shape_profs_classes.pyx:594-728", "cosmic_profiles/shape_profs/shape_profs_classes.pyx:774-784", "cosmic_profiles/common/cosmic_base_class.pyx:250-406", "cosmic_profiles/shape_profs/shape_profs_algos.pyx:739-960"]}
{"id": "C130", "title": "The triaxiality histograms show the shapes of the selected objects", "statement": "plotGlobalTHist(obj_numbers) draws a histogram with one value per selected object: the triaxiality (1-q^2)/(1-s^2) of the global shape of object number obj_numbers[k], computed from the particles of this object, its R200 and the box alone. plotLocalTHist(obj_numbers, frac_r200) draws the triaxiality of its local shape at the radius nearest to frac_r200 times its own R200, and nothing for an object without shape at some radius. Objects without shape and objects with q = 1 are not drawn. The shapes are those that getShapeCatGlobal and getShapeCatLocal return, in whatever units these are set to. An invalid selection raises ValueError and draws nothing.", "quantifier": "for all arrays, catalogues, units, boxes, selections, numbers of bins from two on, Katz parameters, thread schedules and both kinds of centre", "why_tests_cant": "The tests draw figures for one mock halo and look neither at the bars nor at which objects are in them; that an entry depends on one object only is a statement about all catalogues.", "anchors": ["cosmic_profiles/shape_profs/shape_profs_classes.pyx:353-393", "cosmic_profiles/common/cosmic_base_class.pyx:693-763", "cosmic_profiles/shape_profs/shape_profs_tools.py:236-352"]}
{"id": "C131", "title": "The ellipticity histogram shows the ellipticities of the selected objects", "statement": "plotGlobalEpsHist(HIST_NB_BINS, obj_numbers) draws one value per selected object: the absolute value of the projected ellipticity of the particles of object number obj_numbers[k], unwrapped in the box and centred on the centre asked for. With the centre of mass every valid selection is drawn. Objects with positive masses whose particles do not lie on one line of sight are all counted. The figure is the same in whatever units the data are passed. An invalid selection raises ValueError; RecursionError is raised exactly if the mode of a selected object is not found.", "quantifier": "for all arrays, catalogues, units, boxes, selections, numbers of edges, random choices and both kinds of centre", "why_tests_cant": "The tests call the method on one mock halo and do not look at the figure; one value per object from its own particles is a statement about all catalogues, and independence of the units one about pairs of runs.", "anchors": ["cosmic_profiles/shape_profs/shape_profs_classes.pyx:319-333", "cosmic_profiles/shape_profs/shape_profs_tools.py:18-62", "cosmic_profiles/shape_profs/shape_profs_tools.py:355-391"]}
{"id": "C132", "title": "The shape figures show the selected objects", "statement": "vizLocalShapes(obj_numbers) and vizGlobalShapes(obj_numbers) save one figure per selected object. The figure with number z in its name shows the particles of object z of the catalogue (unwrapped in the box), the centre about which its shape was calculated, and the shape its particles alone give with its own radius, all lengths in the output unit. The rows drawn are those getShapeCatLocal or getShapeCatGlobal returns for the same selection. The figure of an object does not depend on what else is selected. An invalid selection raises ValueError before any figure is saved; the output mass unit does not matter.", "quantifier": "for all arrays, catalogues, units, boxes, selections in any order, Katz parameters, random choices and both kinds of centre", "why_tests_cant": "The tests save figures of one mock halo and do not look at them; with one object every mix-up of position in the selection and object number goes unnoticed. The claim is about all catalogues and selections.", "anchors": ["cosmic_profiles/shape_profs/shape_profs_classes.pyx:147-241", "cosmic_profiles/shape_profs/shape_profs_classes.pyx:243-317"]}
{"id": "C133", "title": "Results for an object depend on its own particles only", "statement": "Two calls on two catalogues, with any selections: if object z of the one and object z' of the other have the same particles (positions and masses in the same order), the same radius, box and kind of centre, then getShapeCatLocal, getShapeCatGlobal, getMassesCenters and estDensProfs (spherical, direct binning) return equal entries for them, and vizLocalShapes and vizGlobalShapes save equal figures up to the number in the name. Other objects, other particles, the indices of the particles, the number of the object and its place in the selection do not matter, if the random choices made for the object agree.", "quantifier": "for all pairs of data sets, catalogues, selections, positions in the selection, units, boxes, Katz parameters and radii", "why_tests_cant": "The claim is about pairs of runs on arbitrary catalogues that share one object; the tests compute every object within one fixed catalogue and never compare it with another one.", "anchors": ["cosmic_profiles/shape_profs/shape_profs_classes.pyx:75-145", "cosmic_profiles/dens_profs/dens_profs_classes.pyx:96-160"]}
