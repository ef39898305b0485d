# DESIGN

Formal model of tibordome/cosmic_profiles (source read as text in /repo) in Rocq/Coq 8.16.1.

## Trusted base

* Coq's kernel (coqc; coqchk is run at the end as a second check).
* The axioms printed by `Print Assumptions` below each theorem. Theorems about
  lists, nat, N, Z are closed under the global context. Theorems about real numbers use the
  axioms of the standard library's Reals: `ClassicalDedekindReals.sig_forall_dec`,
  `ClassicalDedekindReals.sig_not_dec`, `FunctionalExtensionality.functional_extensionality_dep`,
  and where classical logic is pulled in by the library `Classical_Prop.classic`.
  No axiom of our own; no axiom of any other library.
* The hand translation of Python/Cython to Gallina. Each definition cites file and lines.

## General modelling rules

* Floating point numbers are modelled as mathematical reals. Rounding, overflow and C `float`
  narrowing are not modelled, except for the single precision totals of C118 (FloatModel). Where NaN and infinities matter (Katz iteration, catalogues) an
  explicit type of extended reals with NaN is used.
* Divisions in .pyx files raise ZeroDivisionError for a zero divisor: no file sets `cdivision`,
  so Cython checks every C division. Functions returning memoryviews propagate the exception,
  and a prange loop re-raises it after the loop. Exact reals make a divisor zero exactly when
  it is mathematically zero; with rounding a coplanar cloud may give a tiny eigenvalue instead.
* Integers are Z or nat (no int32 overflow), except in Cat32Model (C119), where C ints have 32 bits and wrap
  around as python's default compiler flag -fwrapv makes them.
* External code (LAPACK ZHEEVR, scipy.optimize.minimize, scipy.integrate.quad, numpy's random
  generator, os.path.exists, psutil) is a parameter or a nondeterministic relation; theorems
  quantify over all of its behaviours (subject to the stated contract).
* Exceptions are values. Loops are structural recursion; unbounded loops use fuel and the
  theorem states that fuel suffices, or are given as a relation.
* Threads: prange loops are modelled as an arbitrary schedule of iterations over shared
  output rows and per-thread scratch; the RLock-protected sections of the cache are atomic steps.
* Not modelled: plotting, printing, HDF5 decoding (tables are inputs), the MPI library
  (its collective operations are given their standard meaning).

## Layout

`rocq/theories/<Area>Model.v` – model only (every definition with a citation);
`<Area>Spec.v` – small independent specifications where needed;
`<Area>Proofs.v` – lemmas; `<Area>Props.v` – the property theorems, each closed by `exact`,
followed by a satisfiability `Example` and `Print Assumptions`.

## Plan per property

| id | model | proof idea |
|----|-------|------------|
| C01 | lru_cache in four modes, linked list heap + dict, function `A -> res` with exceptions | invariant: every cached (key,result) pair is (key, f key); refinement to recency list |
| C02 | same | invariant length <= maxsize, full -> length = maxsize |
| C03 | same + abstract spec "last maxsize distinct keys of the use trace" | refinement of linked list to list; list = spec by induction |
| C04 | same | induction over history with ghost counters |
| C05 | small-step interleaving of lookup / compute / insert / clear | invariant over all reachable states |
| C06 | memory mode with arbitrary readings | invariant |
| C07 | array = shape + flat row-major contents, nested view | flatten/reshape round trip; key injectivity |
| C08 | cache of references into a heap | refutation by a concrete history, plus what does hold (no mutation -> C01) |
| C09 | as C01 | case analysis on the step |
| C10 | memo of a config dependent reader | refutation; partial: fresh when units unchanged |
| C11 | config record over R | field |
| C12 | update returns (config, ok/assert) | refutation; partial: only h differs |
| C13 | lookup of key 'E+10M_sun/h' | refutation (always KeyError) |
| C14 | LMVLabel with argmin over table | argmin lemma |
| C15 | two updates | refutation; partial for equal h |
| C16 | isValidSelection over Z lists / rationals | iff |
| C17 | getSubSetIdxCat with offsets | concat of segments |
| C18 | constructor filter | zip/filter alignment |
| C19 | calcObjCat | prefix sums spec |
| C20 | calcObjCat as schedule over permutations | independent writes commute |
| C21 | rank ranges over Z | lia with div/mod |
| C22 | gatherv + chunked bcast | list slicing |
| C23 | respectPBCNoRef over R with arbitrary reference sample | lra |
| C24 | Cython version | refutation; partial: identity for compact objects |
| C25 | calcCoM (both) | sums |
| C26 | calcMode as relation/fuel | refuted for 5 coincident particles; termination otherwise by radius shrink |
| C27 | recentreObject | lra |
| C28, C29 | calcShapeTensor on 3x3 | sums, Cauchy/quadratic forms |
| C30, C31 | Katz iteration over extended reals, eigen-solver as relation | invariants of loop |
| C32 | compaction loop into a stale buffer | loop invariant: prefix = filter |
| C33 | zero -> NaN replacement | refutation; partial for vectors without zero components |
| C34 | local velocity dispersion | independence theorem = refutation of the property |
| C35 | prange with per-thread scratch | independence of scratch, permutations |
| C36 | getEpsilon | Cauchy-Schwarz; rotation algebra |
| C37 | dump/load as text rows with lost rank | round trip for >=2 radii (or single object), refutation for 1 radius |
| C38 | query with file system state | refutation; partial: no file -> computed for the request |
| C39, C41 | brute force binning | telescoping of disjoint bins |
| C40 | Ell direct binning catalogue preparation | refutation |
| C42 | ellipsoidal binning, nested ellipsoids | as C39 |
| C43 | kernel | exp monotone |
| C44 | profile models over R (Rpower) | real analysis |
| C45 | fit with minimiser relation respecting bounds | case analysis; refutation for rho_s |
| C46 | pool.map with arbitrary completion order | placement by index |
| C47 | fit with deterministic minimiser | rescaling |
| C48 | strict group membership | refutation |
| C49, C65 | M_split, getBlocks | list lemmas, sort permutation |
| C50 | concentrations | field |
| C51 | coarsening loop | list lemmas, bounded counter |
| C52 | genHalo counts | algebra; N1>=1 |
| C53-C55 | sampling maps with arbitrary random draws | algebra, sin/cos |
| C56-C58 | byte level records, both byte orders | round trip by induction over records |
| C59 | uint32 buffer then uint64 data | refutation; partial for IDs < 2^32 |
| C60 | species offsets | induction over files |
| C61 | file name resolution | case analysis |
| C62 | nearest-bin assignment | permutation / counting |
| C63 | dictionaries as finite maps | iff |
| C64 | chi-square | sums of squares |
| C66-C74 | added while modelling: see `properties.jsonl`; catalogue, unwrapping, shape failure, density and fitting models | as the areas above |
| C75 | M_split | refutation; div/mod arithmetic |
| C76 | triaxiality, nan_to_num, zero_to_nan | refutation; nra |
| C77, C79 | sort, median, quantile, mean, std | sorted permutations are unique; ranks |
| C80 | genHalo with a quad that scales and adds | each count is within 1/2 of its share; first count between 2/3 and 2 of its expectation |
| C81 | drawUniformFromEllipsoid with c = None | computation |
| C82, C84 | genHalo, dictionary as association list | lookups after an update; case analysis |
| C83 | drawUniformFromShell, generator state as argument | the state is overwritten by the seed |
| C78 | chi-square table with an extra zero column | refutation; sums |
| C89 | calcObjMorphLocal, both velocity and position versions | first selection of each run; catalogue entry = per-object result |
| C90 | python_routines.eTo10 on characters | finite check of every mantissa and exponent in range by computation |
| C91, C92 | python_routines getRhoCrit, getMassDMParticle, getDelta | real algebra, bounds on pi |
| C93 | cosmo_tools.chiSquareToIShapeCurve, binning part | index of the reference radius; argmin over the grid; refutations by computation |
| C94 | cosmo_tools.respectPBC | refutation; case analysis |
| C95 | table of all internal calls and signatures (ApiModel.v, extracted from the source text by a script) | Python argument binding decided by computation, closure of reachability |
| C96 | file names of dumps and plots as strings | splitting strings at the first and last underscore; injectivity of decimal numbers |
| C97 | mkdir -p and opening files on a set of folders | refutation; paths as component lists |
| C98 | file name used by _estDensProfsBase | computation on names |
| C99 | GadObjModel: objects on Gadget files as a state machine over unit updates, the memo of getFoFSHData and the attributes kept | invariant over programs: provenance of every kept number |
| C100 | CacheLimitModel: decoration at the first call | invariant over programs; C02 for the bound |
| C101 | MockModel (drawUniformFromEllipsoid, drawUniformFromShell), MockUniProps | exact set of uniform numbers that put a point within a similar ellipsoid, compared with the part of the volume |
| C102 | RankModel: control flow of the public methods by rank; checks and computations are arguments | outcome on rank r compared with rank 0, for all outcomes of checks and computations. Trusted: Cython hands None to memoryview parameters and raises AttributeError for .base of it |
| C103 | ShapeMoveModel: centres of all objects followed by the shapes about them (composition of GeoModel and ShapeModel) | the algorithm depends on positions relative to the centre only; translation of centres (mode and centre of mass); witness with the eigensolver contract only |
| C104, C105 | VizModel: what is handed to matplotlib (points, arrows, limits) by the visualisations of single objects | surfaces, arrow heads, drawn centre against drawn particles. Trusted: matplotlib shows the points it is given, quiver draws length times the vector |
| C106, C107 | CutModel: getCatWithinFracR200 (catalogues as flat index lists with sizes) and the counts printed by getObjInfoGadget | particles inside a radius, object by object; counts of halos and subhalos. Trusted: query_ball_point returns the indices within the closed ball in some order (premise `ball_query`); a numpy integer compared with [] gives an empty, false array (numpy before 2.2; later versions raise). Not modelled: the keyword n_jobs, which SciPy 1.9 removed |
| C108 | no new model: `calcMassesCenters` of GeoModel against `morph_call` of ShapeMoveModel | the two lists of centres compared as they are returned; the random rows of the two calls are independent |
| C109 | no new model: `morph_call` of ShapeMoveModel for an object and its turned, scaled and moved copy | simulation between the two runs of the loop; the eigensolver of the second run is the first one seen in the turned frame and meets the same contract |
| C110 | no new model: the two density drivers of DensModel for a catalogue and its turned, scaled and moved copy | values of the bins and of the kernel terms scale; errors agree; witness from the centre search of C108 seen in another unit |
| C111 | FigModel: `plotDensProfs`, `_plotDensProfsBase`, `drawDensProfs` up to the numbers handed to matplotlib; the fit is the relation of FitModel | medians and quartiles defined by sorting; the two unit factors cancel; scaling of the four profile models; witness of four equal profiles; FigErr: all exceptions |
| C112 | AxisModel: the string of the density axis, with `str.replace` and `in`; `{:.2e}` is an arbitrary function | a grammar for reading a label; named units by computation, formatted masses by a lemma on replacement behind a prefix; witness 2 kpc |
| C113, C114 | HistModel: `plt.hist` through numpy's sorted search over given edges, `getGlobalTHist`, `getLocalTHist`, `getGlobalEpsHist`, `getLocalEpsHist` up to the bar heights | counts between edges as differences of cumulative counts; ellipticities from C36, triaxialities from C76; `argmin` of a list with NaN; rows of `calcObjMorphLocal` with radii that fail; HistOrder: the order of the objects |
| C115 | ShapeFigModel: `getShapeProfs` up to the numbers handed to matplotlib, on top of `getShape`, `getShapeMs` and `M_split`; the catalogue is what `calcObjMorphLocal` returns | each radius is nearest to itself, so that the bins are the radii; medians as in C111, groups as in C49; one object as witness for the band |
| C116 | KsModel: `KSTest` with the statistic of scipy's `ks_2samp`; the p-value is an arbitrary function | empirical distributions as steps; the supremum over the reals is reached at a value of a sample; multisets from cumulative counts |
| C117 | no new model: `katz`, `calcObjMorphLocal`, `calcObjMorphGlobal` (ShapeModel) | RecoverProps: eigenvalues, axes and the ellipsoid of a tensor do not depend on the eigenvectors; all particles stay selected; the error is zero after the second pass; moments of a stretched isotropic set |
| C118 | FloatModel: rounding to p binary digits, the totals of `calcCoM` and `calcShapeTensor` in single precision | relative error per addition, Bernoulli; saturation at 2^24 by a tie to even; shapes of a scaled tensor |
| C119 | Cat32Model: `calcObjCat` and `calcCSHIdxs` with 32-bit ints, the 32-bit offsets | sums wrap only at the end (mod 2^32); a row is right iff it ends before 2^31; linked to C19 |
| C120 | genHalo with the shells' particles (MockModel), volumes of the ellipsoidal shells (MockDens) | counts within 1/2 of their share give the mass of a shell, C53 its place; divided by the volume; witness of constant density; MockBin: the binned estimator of C39 on the particles of a spherical halo |
| C121 | no new model: `katz` with the reduced tensor (ShapeModel) | RedProps: the order of two quadratic forms is reversed by inversion, so bounds on the radii survive a pass; a reproduced form, in the coordinates before the stretching, has its largest eigenvalue attained only if every particle lies along or across its eigenspace (spectral theorem of Spectral.v); selection and failure by C30, C32 |
| C122 | no new model: `fitDensProfs`, `estConcentrations` (FitModel) with all their exceptions | FitErr: case analysis on the relation, `documented` (C63) and `legal` selections (C16); a run exists for every minimiser that answers |
| C123 | EndModel: `make` (DensShapeProfs.__init__), `getShapeCat` (getShapeCatLocal/Global), `getMassesCenters`, `estDensProfs`: whole calls composed of the models of CatModel, ConfigModel, GeoModel, ShapeModel and DensModel | EndProps: `make_ok`, `chosen_ok`/`chosen_bad` reduce a call to the selected objects (C16, C17, C18), then `driver_result` (C35), `masses_ok` (C69), C39; units by cancellation of the factors |
| C124 | EndModel: `estDensProfsKernel` (estDensProfs with direct_binning = False), composed of `make`, `chosen` and `calcDensProfsKernelBased` | EndKernel: `kernel_each`/`kernel_stops` give the objects one by one, `unit_smeared` replaces the model's kernel by a closed formula (with C43), `factor_ok` the units; witness of the refutation: three particles in a row |
| C125 | EndEllModel: `estDensProfsEll` (estDensProfs with spherical = False), composed of `chosen`, the shape driver (`morph_call`) and `calcDensProfsEllDirectBinning`; the interpolation is an arbitrary function | EndEll: `regular_call` turns physical arguments into the hypotheses of C40; `ell_stays` and `ell_returns`: objects collapsed to one particle never divide by zero when the interpolated axes are not zero. Violated: no number is ever returned. |
| C126 | HeaderModel: attributes of HDF5 files by name, folders and files by path, the header class of readgadget.py with its expansion rate on the real numbers of the bit patterns; HeaderSpec: a header in any of the formats, Friedmann's equation with curvature | C126_numbers, C126_failures, C126_rate, C126_no_rate, C126_values; C126_refuted (folder of the documentation; curvature) |
| C127 | DocModel: tables of the methods of the public classes, of the documented entries and of the calls shown, method lookup, Python's order of arguments, argument binding of ApiModel; DocProps: which value reaches which parameter | C127_partial, C127_by_position, C127_shown, C127_enters; C127_refuted (eight names of the documentation) |
| C128 | GadCallModel: `factors`, `make_gadget` (DensShapeProfsGadget.__init__ on rank 0, over CatModel's `calcObjCat` and GadObjModel's `unit_facs`) | GadCallProps: `written` tables group by group, `same_arrays` the arguments of DensShapeProfs with the same content, `objects` the kept groups with their first particle. `large_objects` identifies the two catalogues; `C128_same` uses C19_catalogue and `make_shaped`; the answers follow from C123 |
| C129 | VelCallModel: `read_velocities`, `reread`, `velShapes` (getShapeCatVelLocal, dumpShapeVelCatLocal, dumpShapeVelCatGlobal on rank 0 as whole calls), `getShapeCatVelGlobal` with its wrong number of arguments | VelCallProps: `vstretch` the particles of one subhalo in internal units, `objects` of C128; `reread_ok` the arrays read again are those of C128_same; `call_transfer` carries a call over to velocities that give the same object shapes. C129_objects, C129_frame, C129_never; violated: C129_local_refuted, C129_global_refuted |
| C130 | PlotCallModel: `shapeTables`, `plotted`, `plotGlobalTHist`, `plotLocalTHist` (whole calls on rank 0 over EndModel and HistModel) | PlotCallProps: `drawn_value` the value of one object; `shows` of C113, `nearest` of C114; `tables_own` entry k comes from object k alone; no dumped catalogue exists (C38), matplotlib draws what it is given |
| C131 | EpsCallModel: `plotGlobalEpsHist` (whole call on rank 0 over EndModel, EpsModel and HistModel) | EpsCallProps: one ellipticity per selected object by `obj_epsilon` of its own particles; `shows` of C113; `same_data` of C123 for the units |
| C132 | VizCallModel: `vizLocalShapes` and `vizGlobalShapes` (whole calls on rank 0 over EndModel, PlotCallModel and VizModel: what is drawn for which object) | VizCallProps: figure by figure the object of that number, its own particles, centre and `calcMorph` alone; `reported` of C123 |
| C133 | EndModel, as in C123 | AloneProps: two calls compared, `same_object` on the arrays of the users; no new model |
| C85, C86, C88 | readgadget.read_block on HDF5 files as tables, numpy broadcasting | induction over files and species; computation |
| C87 | conversion of integers to float64 (r53) | log2 bounds; computation |

## Coverage of the code

Per file of /repo/cosmic_profiles: the functions with a model of their results, and what is left out.
"Arguments only" means: ApiModel checks the call against the signature, RankModel follows the
control flow by MPI rank, and the values computed are those of the modelled function that is called.

| file | modelled (model file) | not modelled |
|------|-----------------------|--------------|
| common/caching.py | `_make_key`, `lru_cache` in its four modes with `cache_info` and `cache_clear` (CacheModel), `np_cache_factory` with its wrappers (ArrKeyModel) | `__hash__` of `_HashedSeq` (a dictionary finds equal keys: trusted); time and memory used |
| common/config.py | all conversions, labels, updates (ConfigModel), the moment cache limits take effect (CacheLimitModel) | `initialize` beyond the values it stores |
| common/cosmic_base_class.pyx | constructors as used by the subclasses, `_getShapeCat*Base`, `_dumpShapeCat*Base` (StoreModel), `_plotLocalTHistBase` and `_plotGlobalTHistBase` (PlotCallModel), `_fitDensProfsBase`, `_getConcentrationsBase`, `_estConcentrationsBase` (FitModel), `_getMassesCentersBase`, `_getDensProfs*Base`, `_estDensProfsBase` and the shape calls from the arrays of the object to the returned values (EndModel, EndKernel, EndEllModel), `_getObjInfoBase` (CutModel) | `_plot*Base`: arguments only |
| common/cosmo_tools.py | `calcMode`, `respectPBC` (GeoModel), the chi-square sums (CosmoModel, StatModel), `getMeanOrMedianAndError`, `getBlocks`, `M_split` (StatModel), `KSTest` (KsModel) | the p-values |
| common/python_routines.py | `eTo10` (LabelModel), `getRhoCrit`, `getMassDMParticle`, `getDelta` (CosmoModel), `set_axes_equal` (VizModel), Fibonacci points, draws from ellipsoids and shells, `transformCartToSpher` (MockModel, MockPts), `calcMode`, `respectPBCNoRef`, `calcCoM`, `recentreObject` (GeoModel), `getCatWithinFracR200` (CutModel), `isValidSelection`, `getSubSetIdxCat` (CatModel), `checkKatzConfig`, `checkDensFitMethod` (FitModel) | `print_status` |
| cython_helpers/helper_class.pyx | all functions (ShapeModel, GeoModel, DensModel), the single precision totals of `calcCoM` and `calcShapeTensor` (FloatModel) | the body of LAPACK's zheevr behind `ZHEEVR`: its result is described by `eig_contract` |
| dens_profs/dens_profs_algos.pyx | all four functions, with the prange loops as arbitrary schedules (GeoModel, DensModel, ParModel) | – |
| dens_profs/dens_profs_classes.pyx | constructors, getters (ConfigModel, GadObjModel, CatModel), `getMassesCenters`, `estDensProfs` in its three variants (EndModel, EndEllModel), fits and concentrations with their failures (FitModel) | plot wrappers: arguments only |
| dens_profs/dens_profs_tools.py | the four profiles, `getModelParsDict`, `toMinimize`, `fitDensProf`, `fitDensProfHelper` (FitModel), `drawDensProfs` (StatModel, FigModel, AxisModel, NameModel) | matplotlib calls, colours and legends |
| gadget/gen_catalogues.pyx | all functions (CatModel, CatMpi; with 32-bit ints Cat32Model) | – |
| gadget/read_fof.py | `getPartType` (NameModel), `getFoFSHData` (ConfigModel, GadObjModel) | decoding of HDF5: files are tables of datasets |
| gadget/readgadget.py | all functions (GadgetModel, GadgetReadModel, HeaderModel) | decoding of HDF5 |
| gadget/readsnap.py | all functions on byte lists (GadgetModel) | the struct and numpy decoders below the byte order |
| mock_tools/mock_halo_gen.py | `genHalo` with its integrands (MockModel) | the numerical error of scipy's quad |
| shape_profs/shape_profs_algos.pyx | all functions (ShapeModel, ShapeMoveModel) | – |
| shape_profs/shape_profs_classes.pyx | constructors, getters, dumps (GadObjModel, StoreModel, RankModel), `plotLocalTHist`, `plotGlobalTHist` and `plotGlobalEpsHist` as whole calls (PlotCallModel, EpsCallModel), `getShapeCatLocal` and `getShapeCatGlobal` as whole calls (EndModel) on objects of both classes (GadCallModel), the four velocity shape methods as whole calls (VelCallModel), `getHeader` (HeaderModel), what `viz*Shapes` draws (VizModel) and for which object (VizCallModel), `getObjInfoGadget` (CutModel) | plot wrappers: arguments only |
| shape_profs/shape_profs_tools.py | `getEpsilon` (EpsModel), `getShape`, `getShapeMs`, `getShapeProfs` (StatModel, ShapeFigModel), the bars of `getLocalTHist`, `getGlobalTHist`, `getGlobalEpsHist` and `getLocalEpsHist` (StatModel, HistModel), file names (NameModel) | matplotlib calls, legends and axes |
| docs/source, example_scripts | lists of public methods and the calls of the public classes (DocModel) | everything else |
| tests, for_docs, setup | – | everything |

### What is trusted about code outside the repository

* LAPACK zheevr: real eigenvalues in ascending order with orthonormal eigenvectors of the given
  symmetric matrix, any choice of signs and of bases of eigenspaces (`eig_contract` in ShapeSpec).
* scipy: `quad` is the exact integral (oracle), `interp1d` is linear interpolation, `minimize` returns
  some point of the search space with its value (relation, no optimality), `Rotation` and
  `query_ball_point` as stated at their use; the statistic of `ks_2samp` as in its source.
* numpy: `argmin` returns the first minimum, broadcasting and indexing as in the manual, cholesky, inv
  and arctan2 are exact, the random generator is a stream given by its seed, `choice` without
  replacement returns any distinct rows; `savetxt` followed by `loadtxt` returns the number that the
  decimal format shows.
* Cython: `max`/`min` on C numbers compare with `<`; an unset memoryview attribute `.base` is None;
  zero divisors raise.
* CPython: dictionaries find equal keys; a str is never equal to bytes; the order of `with` and
  `try`; integers in files are little-endian on the host.
* The file system: a path names one file, without links and without `..`; nothing else writes to it.
* MPI: collective operations deliver what the standard says; ranks run in any interleaving.
* The table of signatures and calls in ApiModel was extracted from the sources by a script and is data.

### How the mutation log is made

Each line of seeded/LOG.jsonl is one edit of one definition in a scratch clone. The scratch clone is
rebuilt; a proof that Coq rejects is replaced by Admitted there so that the build goes on.
`rejected_proofs` lists these proofs. `failed_theorems` lists the property theorems that rest on one of
them according to Print Assumptions. An edit survived if that list is empty. `tightened` names
statements added or strengthened because of it.

## Print Assumptions per theorem

Output of `Print Assumptions` for every theorem named in MANIFEST.json, grouped. The build log prints it
below each theorem.

* nothing (closed under the global context) (108):
  C01_key_determines_arguments, C01_memo_transparent, C02_growth_only_on_miss, C02_negative, C02_size_bounded, C03_lru_eviction, C03_recency_all_modes, C04_clear_resets, C04_statistics, C05_concurrent_safe, C06_no_eviction_when_high, C06_no_growth_when_low, C07_array_arguments_round_trip, C07_array_keys_injective, C07_array_keys_total, C08_other_results, C08_results_isolated_partial, C08_results_isolated_refuted, C09_failures_leave_no_trace, C100_first_call, C100_partial, C100_refuted, C100_state, C102_arrays, C102_checks, C102_gadget_refuted, C102_halo, C102_partial, C102_refuted, C102_selection_refuted, C107_partial, C107_refuted, C119_all_refuted, C119_enough, C119_offsets, C119_partial, C119_refuted, C127_by_position, C127_enters, C127_partial, C127_refuted, C127_shown, C16_selection_partial, C16_selection_refuted, C17_out_of_range, C17_subset, C18_constructor, C18_object_k, C19_catalogue, C20_schedule_independent, C21_every_file_once, C22_collected, C32_compact, C56_corrupt, C56_ends, C56_found, C56_not_found, C56_refuted, C57_partial, C57_refuted, C58, C58_reject, C59_mod, C59_partial, C59_refuted, C60_binary, C60_binary_slices, C60_hdf5, C60_hdf5_slices, C60_layout, C60_masses_refuted, C60_partial, C60_past_end, C60_refuted, C60_slices, C61, C63_method, C65_lossless, C65_zero, C67_file_number, C67_order_independent, C85_partial, C85_refuted, C86_partial, C86_refuted, C86_single_refuted, C87_partial, C87_refuted, C88_partial, C88_refuted, C90_partial, C90_refuted, C91_zero, C95_data, C95_order, C95_partial, C95_refuted, C95_signatures, C96_dumps, C96_files, C96_snap_refuted, C97_folders, C97_partial, C97_refuted, C97_relative_refuted, C98_partial, C98_query, C98_refuted.
* `ClassicalDedekindReals.sig_forall_dec` (5):
  C49_aligned, C49_partition, C49_sizes, C49_total, C75_partial.
* `ClassicalDedekindReals.sig_forall_dec`, `FunctionalExtensionality.functional_extensionality_dep` (118):
  C105_axes, C10_radii_frozen, C10_units_followed_partial, C10_units_followed_refuted, C112_partial, C112_refuted, C113_T_partial, C113_bins, C113_missing, C113_order, C113_partial, C113_refuted, C116_apart, C116_nan, C116_order, C116_sup, C116_units, C116_zero, C11_conversions_consistent, C11_named_units, C126_values, C128_refused, C128_same, C128_zero_minimum_refuted, C129_global_refuted, C12_rejected_update_partial, C12_rejected_update_refuted, C13_mass_conversion_partial, C13_mass_helpers_refuted, C14_labels, C15_independent_partial, C15_independent_refuted, C23_no_box, C23_unwrap, C24_image_refuted, C24_partial, C24_z_refuted, C25_bbox, C25_com, C25_equivariant, C25_order, C27_far_refuted, C27_no_box, C27_recentre, C28_psd, C28_selected_only, C28_symmetric, C28_tensor, C29_linear, C29_mass, C29_order, C29_scale, C29_translate, C37_columns, C37_exact, C37_global, C37_local_partial, C37_no_objects, C37_refuted, C38_answered, C38_first_dump, C38_fresh_partial, C38_one_radius, C38_refuted, C38_same_partial, C39_edges, C48_all_empty, C48_edge_dropped, C48_extremes_dropped, C48_partial, C48_refuted, C49_edges, C49_ordered, C51, C51_exact, C51_fails, C51_succeeds, C62_groups, C62_nearest, C62_once, C62_once_group, C63_katz, C63_katz_accepts, C63_katz_missing, C63_katz_values, C63_start, C64_cells, C64_counts, C64_multi, C64_nan, C64_nonneg, C64_swap, C64_symmetric, C64_zero, C64_zero_general, C66_physical_values_preserved, C66_same_h, C68_contiguous_refuted, C68_partial, C75_refuted, C76_partial, C76_range, C76_refuted, C76_sphere, C77_mean, C77_median, C77_quartiles, C78_partial, C78_refuted, C93_values, C94_partial, C94_refuted, C99_analyses, C99_getters, C99_partial, C99_radii, C99_refuted, C99_remade_refuted.
* `ClassicalDedekindReals.sig_forall_dec`, `ClassicalDedekindReals.sig_not_dec`, `FunctionalExtensionality.functional_extensionality_dep` (165):
  C103_partial, C103_refuted, C104_arrows_refuted, C104_global, C104_labels, C104_partial, C104_refuted, C104_rows, C104_special, C104_surfaces, C106_partial, C106_refuted, C106_second_refuted, C108_partial, C108_refuted, C109_partial, C109_refuted, C110_refuted, C113_eps_partial, C113_local_refuted, C114_dropped, C114_partial, C114_refuted, C114_sparse, C115_errors, C115_partial, C115_refuted, C117_fixed, C117_global, C117_local, C117_recovers, C121_axes, C121_close, C121_never_worse, C121_only, C121_result, C121_run, C121_stays, C123_densities, C123_failures, C123_masses_centers, C123_missing, C123_runs, C123_shapes, C123_units, C123_zero_units, C125_blank, C125_fails, C125_mode, C125_nothing, C125_refuted, C125_zero, C126_failures, C126_no_rate, C126_numbers, C126_rate, C126_refuted, C128_densities, C128_masses_centers, C128_shapes, C129_frame, C129_local_refuted, C129_never, C129_objects, C130_failures, C130_global, C130_local, C130_returned, C131_drawn, C131_failures, C131_mode, C131_units, C131_values, C132_alone, C132_catalogue, C132_failures, C132_figures, C132_outcomes, C132_panels, C133_densities, C133_figures, C133_masses_centers, C133_shapes, C26_diverges, C26_few, C26_mode_partial, C26_terminates_refuted, C30_contract_met, C30_partial, C30_plane, C30_principal, C30_raises, C30_refuted, C30_tolerance, C31_converged, C31_limits, C31_terminates, C32_selection, C33_partial, C33_refuted, C33_unit_partial, C34_global_partial, C34_never, C34_raises, C34_refuted, C35_own, C35_schedule, C36_bounded, C36_com, C36_defined, C36_spin2, C39_bins, C39_driver, C39_nonneg, C39_one_bin, C39_total, C40_catalogue, C40_collapsed, C40_collapsed_empty, C40_mode, C40_nan, C40_refuted, C40_single_partial, C41_additive, C41_all, C41_difference, C41_ellipsoid, C41_ellipsoid_monotone, C41_enclosed, C41_monotone, C42_interpolated, C42_one_shell, C42_shells, C42_total, C53_direction, C53_inShell, C53_lower_end, C53_point, C54_ellipsoid, C54_partial, C54_refuted, C69_com_center, C69_com_runs, C69_deterministic, C69_masses_centers, C70_massless, C70_partial, C70_refuted, C71_own, C71_schedule, C71_schedule_ell, C72_partial, C72_refuted, C77_empty, C77_order, C79_no_shift_invariance, C79_partial, C79_refuted, C79_sem, C79_sem_single, C89_radii, C89_sparse, C91_fill, C92_bryan_norman, C92_eds.
* `ClassicalDedekindReals.sig_forall_dec`, `ClassicalDedekindReals.sig_not_dec`, `Classical_Prop.classic`, `FunctionalExtensionality.functional_extensionality_dep` (84):
  C101_partial, C101_refuted, C101_shell, C110_partial, C111_curve, C111_errors, C111_partial, C111_refuted, C111_rows_refuted, C111_units, C118_exact, C118_factor, C118_partial, C118_refuted, C118_shapes, C118_total, C120_binned, C120_ellipsoidal, C120_partial, C120_refuted, C120_shells, C122_concentrations, C122_fits, C122_units, C124_densities, C124_fails, C124_missing, C124_refuted, C43_additive, C43_average, C43_linear, C43_raises, C43_sum, C43_symmetric, C44_at_scale_radius, C44_decreasing, C44_hernquist, C44_linear, C44_nfw, C44_positive, C44_scale, C45_fixed_partial, C45_refuted, C45_scale_radius_refuted, C46_alone, C46_rows, C47_amplitude, C47_nan, C47_units, C50_concentrations, C50_deterministic, C50_units, C52, C52_first_shell, C52_succeeds, C53_shell, C55_inside, C71_schedule_kernel, C73_every_vector_best, C73_objective, C73_refuted, C74_abg_degenerate, C74_einasto, C74_found, C74_hernquist, C74_identifiable, C74_nfw, C80, C81_refuted, C82_partial, C82_refuted, C83_halo, C83_reproducible, C84_refuted, C84_unknown, C91_resolution, C91_value, C92_decreasing, C92_limit, C93_nan_refuted, C93_partial, C93_refuted, C96_partial, C96_refuted.

## Findings (disagreements between code and documentation)

Each has a `_refuted` theorem with a concrete witness.

* C08 (Results cannot be polluted by callers). Refuted: the cache hands out the stored object itself. Holds when callers never write to results or caching is disabled.
* C10 (Group catalogue data follow the configured input units). Refuted: the memo of getFoFSHData is keyed by its arguments only, so after a change of input unit or h the old radii are returned (for ever if memory suffices). Partial: radii are right whenever all earlier reads of the same catalogue used the same scaling, for every cache mode.
* C12 (A rejected unit update changes nothing). Refuted: LittleH is assigned before the arguments are checked. Partial: all six units stay; rejected iff h = 0 or an argument names no unit; unchanged if h is unchanged.
* C13 (Mass conversion helpers work). Refuted: both helpers raise KeyError in every configuration (misspelled key). Partial: constructor plus getXYZMasses convert masses by the unit ratio.
* C15 (Input and output unit systems are independent). Refuted: h is shared, so an output update can change input conversions. Partial: units are independent; conversions are unchanged whenever the same h is passed.
* C16 (Object selections are validated exactly). Refuted: Python lists are truncated to int32 before validation, so [0.7] is accepted as object 0. Partial: exact for arrays and for lists of integers; the indices used are the ones given; every rejection is a ValueError.
* C24 (Compiled periodic unwrapping gives periodic images). Refuted: far coordinates are reflected (L - x), not translated, and the z coordinate is tested with y. Partial: particles stay in the box, the first particle never moves, an object within L/2 of its first particle is unchanged.
* C26 (Mode search terminates inside the particle cloud). Refuted: five or more coincident particles recurse for ever (in Python: RecursionError). Partial: terminates for every radius unless five particles coincide; the result is unique and inside the bounding box.
* C27 (Recentring puts object centres into the box). The bound on the input is necessary (C27_far_refuted).
* C30 (A shape result is either a valid ellipsoid or a failure marker). Refuted: particles in a plane through the centre end the run with ZeroDivisionError. Partial: every run that returns gives zeros or a valid ellipsoid; exactly when a run can raise. Non-negative masses, LAPACK contract eig_contract (met by an exact eigensolver, C30_contract_met).
* C33 (Converged shapes have unit principal axes). Refuted: exact zeros of axis components become NaN in converged entries. Partial: entries are NaN throughout and not converged, or converged with an orthonormal triad shown except for exact zeros. Tolerance below 1, non-negative masses.
* C34 (Local velocity shapes depend on velocities). Refuted for every catalogue: local velocity shapes ignore the velocities, never converge and raise ZeroDivisionError once a radius has enough particles. Partial: the whole-object version uses the velocities.
* C37 (Dumped shape catalogues are read back unchanged). Refuted for a single radius: reading back raises IndexError or ValueError. Partial: with two or more radii every number comes back as printed (8 significant digits); whole-object catalogues always do. Files without numbers are read as no objects for global shapes and raise ValueError for local ones (C37_no_objects); global tables with two columns are refused (C37_columns).
* C38 (Shape queries answer the question asked). Refuted: after a dump every query is answered from the first dump, whatever it asks for. Partial: right without a dump or for what was dumped.
* C40 (Ellipsoidal density profiles use each object's own particles). Refuted: the caller's catalogue is overwritten with one particle per object, repeated (C40_catalogue), and every profile returned with centre of mass centres is NaN throughout (C40_nan); with mode centres five particles in an object suffice for no profile to be returned (C40_mode). Partial: catalogues of one-particle objects are left unchanged. C40_collapsed and C40_collapsed_empty: when an axis of the inner edge is zero, one particle inside the outer edge raises ZeroDivisionError, none gives NaN.
* C45 (Parameters fixed in the fit method stay fixed). Refuted: a fixed rho_s is accepted and ignored (C45_refuted), and a fixed scale radius, taken in Mpc/h, comes back converted to the output unit (C45_scale_radius_refuted). Partial: fixed shape parameters come back exactly and the scale radius comes back as the fixed number of Mpc/h, converted.
* C48 (Every object appears in a mass group of the density plots). Refuted: both comparisons with the group edges are strict and the edges are masses of objects, so the lightest and heaviest object of any catalogue, and every object on an edge, are in no group; with as many groups as objects all groups are empty. Partial: an object off the edges is in exactly the group M_split assigns.
* C54 (Fibonacci points lie on the surface). Refuted for one sample, the default: ZeroDivisionError. Partial: for every other count the requested number of distinct points, all on the surface, from pole to pole.
* C56 (Format-1 blocks are located correctly). Refuted: the second marker of the requested record is not compared with the first. Otherwise the record is found with its size and position, an absent one is reported, and inconsistent markers of an earlier record are reported.
* C57 (Format-2 blocks can be found by name). Refuted: in Python 3 block names read as bytes never equal the str asked for, so that no block of a format 2 file is ever found. Partial: on every well-formed format 2 file the search ends by reporting the block as not found.
* C59 (Particle IDs are read without loss). Refuted: the array has 32 bits per ID although 64 are read; ID 2^32+5 is returned as 5. In general IDs are reduced modulo 2^32; below 2^32 they are unchanged.
* C60 (Multi-file snapshots are assembled by species). Refuted: with 32 bit IDs and no particle in the first file the IDs are taken to have 64 bits and reading exits; the masses of all species together cannot be read if no particle has its own mass. Otherwise the assembly is right for all numbers of files and particles, in binary and HDF5 snapshots, for one species, several, or all.
* C68 (Unwrapped objects are contiguous). Refuted: the reference is the average of raw coordinates, which lies mid-box for objects split evenly across the boundary. Partial: objects of raw extent at most L/2 are left alone, and afterwards any two particles are at most L apart along each axis.
* C70 (A degenerate object does not affect the shapes of other objects). Refuted: one flat object aborts the shapes of all, and so does one object without mass in the velocity versions. Partial: the call raises exactly if some object raises by itself.
* C72 (Density profiles do not depend on where an object lies in the periodic box). Refuted: the centre is unwrapped by translation and the particles by reflection, so an object split by the boundary gets a different profile. Partial: unchanged for objects that the box boundary does not split.
* C73 (Empty bins do not spoil a density fit). Refuted: one bin of zero density makes the objective infinite for every vector of parameters, so that every vector within bounds is best and the data have no influence. What holds: NaN bins are ignored (C47_nan).
* C75 (Mass splitting gives the requested number of groups). Refuted: 5 objects in 4 bins give 3 groups. Partial: between 1 and NB_BINS groups, and exactly NB_BINS if it divides the number of objects or if there are at least NB_BINS*(NB_BINS-1) objects.
* C76 (Triaxiality histograms count every non-spherical object). Refuted: values of exactly 0 are taken for missing, so an oblate object with q = 1 is left out of histogram and average. Partial: all other non-spherical objects are counted, with the right value in [0, 1].
* C78 (The chi-square test ignores categories in which nothing was counted). Refuted: the degrees of freedom count empty categories (chiSquareToIMultiDim always uses ten per bin), so the p-value is too large. Partial: the statistic itself is unchanged and the degrees of freedom grow by the number of samples minus one.
* C79 (The error of an average vanishes exactly without scatter). Refuted for median_quantile, the method of all plots: the error is a quartile itself over sqrt N, not a distance from the median, so N equal values c get the error c/sqrt N. Partial: the standard error of the mean of two or more values is 0 exactly without scatter.
* C81 (Uniform draws in two dimensions). Refuted: c[ell_nb] is evaluated before dims is looked at, so that every two-dimensional call raises TypeError. In three dimensions see C55.
* C82 (genHalo leaves its arguments alone). Refuted: rho_s is added to the caller's dictionary. Partial: no other entry changes and an earlier rho_s has no effect on the result.
* C84 (Unknown profile names are reported). Refuted: any other name, as Einasto or NFW in capitals, is silently taken for nfw.
* C85 (HDF5 snapshots with files that lack a species). Refuted: positions raise ValueError if the header has a mass for the species and Exception if not; masses raise Exception if it has none. Partial: masses are read if it has one.
* C86 (Positions and velocities come from the file). Refuted: one or three particles without coordinates are all put at (m, m, m) with m the mass in the header. Partial: any other number is refused.
* C87 (IDs in HDF5 files are returned unchanged). Refuted: division by 1 converts to float64; 2^53 and 2^53+1 are returned as equal. Partial: IDs up to 2^53 are unchanged.
* C88 (Missing particles are noticed). Refuted for binary snapshots: uninitialised memory is returned. Partial: noticed in HDF5 snapshots of several files.
* C90 (Mass labels state the mass). Refuted: exponents of 20 to 99 end in an AssertionError, and three-digit exponents are shown wrongly. Partial: right for all exponents from -19 to 19.
* C93 (The shape-curve test compares measurements at the right radius). Refuted: one missing value at the reference radius sends all values of the object to the innermost bin, and grids that do not contain R200 take a wrong reference radius. Partial: right if the grid contains R200 and every object has a value there.
* C94 (Periodic images are translations). Refuted: the code reflects (L - x) instead of translating. Partial: the results stay in the box and near the first particle, and objects that do not straddle the boundary are unchanged.
* C95 (No public method ends in an argument error). Refuted: getShapeCatVelGlobal passes two arguments too many and plotLocalEpsHist misses one. Partial: all calls reachable from the other public methods bind, and no variable is passed in the place of another parameter of the same name.
* C96 (Different results go to different files). Refuted: local and global ellipticity histograms, density plots of different particle types and mass groups with edges that agree in two decimals overwrite each other. Partial: all collisions of plots are characterised; dumps never collide if snapshot names have no underscore.
* C97 (Output folders are created). Refuted: the plotting modules create relative folders inside the installed package, and saving then fails. Partial: right for absolute paths and for folders that are there.
* C98 (Ellipsoidal density profiles use the shapes of their own catalogue). Refuted: objects made from Gadget files look for the dump of objects made from arrays. Partial: right for the latter, and without such a dump.
* C99 (Data of a Gadget object are in one unit). Refuted. After the input unit is changed (e.g. for a second simulation), velocity shapes of the first object combine positions in the new unit with a box in the old one. After the units are corrected and the object is made again, positions are in the new unit but the memoised radii in the old one. Proved: exactly which units positions, box and radii are in for every program; everything is in one unit as long as no update changes the input length unit in Mpc/h; getXYZMasses and getVelXYZ always return the physical values.
* C100 (Limits of the caches can be changed). Refuted: a function that has been called keeps the limits in force at its first call; its memo holds and takes more entries than a maximum set later. Proved: the limits at the first call are those in force for ever, so limits set before it are kept.
* C101 (Random points fill the volume uniformly). Refuted for shells: the depth in the shell is uniform in radius, not in volume, so every inner part receives more points than its share (innermost shell: half of the draws land in an eighth of the volume). Proved: exact condition on the draw for landing within any similar ellipsoid, for shells (linear in radius) and for drawUniformFromEllipsoid (equal to the volume part).
* C102 (Programs finish on every MPI process). Refuted: fitDensProfs raises TypeError on every rank but 0 whenever it succeeds on rank 0; a Gadget object cannot be made on any rank but 0 (None is handed to memoryview parameters whose .base is taken); an invalid selection raises on rank 0 alone. Proved: for objects made from arrays every other method finishes without data on the other ranks when it finishes on rank 0, and what another rank raises rank 0 raises too.
* C103 (Shapes do not depend on where an object lies in the periodic box). Refuted for every eigensolver and schedule: six particles with axis ratios 2/3 and 1/3 in the middle of the box lose their shape (not converged) when moved across the boundary, because the centre is computed with translated and the tensor with reflected images. Proved: every object that is not split by the boundary (or any object without box) keeps its shape under any translation; all four kinds, mode and centre of mass.
* C104 (What is drawn of an object belongs together). Refuted: the centre is put back into the box but the particles are not, so centre and ellipsoid may be drawn a box length away from the particles; the labelled arrows of profiles are those of the last radius but one (none with fewer than six radii). Proved: centres inside the box are drawn at the weighted mean of the particles; all 500 surface points lie on the surface; arrows of whole-object figures and of the marked row end on theirs.
* C106 (Objects can be cut at a fraction of R200). Refuted: for every catalogue with at least one object the function raises TypeError, because it writes through centers.base, which is None; a second TypeError waits where respectPBCNoRef is called without the box size. Holds for empty catalogues; with the two lines repaired the result is proved to be exactly the particles within the radius, object by object, where objects left without particles are dropped.
* C107 (The printed overview counts objects correctly). Refuted: the last line always reports 0 objects with sufficient resolution, since it compares the entries of the flat index array with an empty list. The other five counts are proved to be right.
* C108 (An object has one centre). Refuted for CENTER = 'mode': the search starts at radius 1000 for masses, centres and densities and at the extent of the object for shapes, so the spheres shrink through different radii and stop at different sets; six particles on 0.8 length units have centres 0.083 apart in every run. Holds for objects that are not split by the box if CENTER = 'com' or the object has fewer than five particles.
* C109 (Shapes turn with the object and do not depend on units). Refuted for CENTER = 'mode': the search for the centre starts at the largest extent along x, y or z, which changes when the object is turned, so that the sphere stops at another set; six particles on a line of length 0.8 have the centre at 0.383 along the line, and at 0.3 after a turn by 28 degrees, in every run. Holds with CENTER = 'com' for every turn, and with 'mode' for turns by right angles, for objects that the box does not split; SAFE has to be given in the new unit. The eigenvectors are those of some admissible eigensolver, as LAPACK fixes no sign and no basis for equal eigenvalues.
* C110 (Density profiles turn with the object and do not depend on units). Refuted for CENTER = 'mode': the search for the centre starts at the absolute radius 1000 whatever the unit of length, so that the sphere stops at another set in another unit; the innermost bin of six particles in a line holds five of them, and six with lengths in a unit 1250 times smaller, in every run. Holds with CENTER = 'com' for every turn and unit, and with 'mode' for every turn and unit of mass with the unit of length unchanged, for objects that the box does not split. The ellipsoidal bins are left out as they overwrite the catalogue (C40).
* C111 (Density figures show the profiles that were handed over, in the unit of the axis). Refuted for the band: its half-widths are the quartiles divided by the root of the number of objects, so that n equal profiles of value v give a band from v - v/sqrt(n) to v + v/sqrt(n), and one object a band from 0 to 2 v. Refuted too: dens_profs_fit is not compared with obj_numbers, and surplus rows enter the first fit. Holds: the line is the median of the numbers handed over, the band contains it for non-negative densities, the curve is a fit to the medians of the same objects in the same unit, and a change of output unit multiplies all four by one factor. Groups without objects show NaN (C48).
* C112 (The density axis states the unit of the densities). Refuted for an output length without a name: LMVLabel gives 2.00e+00kpc for two kiloparsec, which is not put into brackets, so that the label reads solar masses per 2 kpc^3 while the unit is solar masses per (2 kpc)^3. Holds for every output length that has a name, with any unit of mass.
* C113 (The histograms have HIST_NB_BINS bars and account for every object). Refuted: HIST_NB_BINS, documented as the number of bins, is the number of edges, so that there is always one bar less. Refuted too: plotLocalEpsHist ends in a TypeError for every catalogue with an object, as it cuts the catalogue first (C106). Holds: with two edges or more every value of [0, 1] lies in exactly one bin, each bar is the share of its bin divided by the width, and the area is 1; the histogram of ellipticities contains every object with positive masses that is not on one line of sight; the histogram of whole-object triaxialities contains exactly the objects with q < 1. The bars do not depend on the order of the objects (C113_order), and objects without a value can be left out (C113_missing).
* C114 (The local triaxiality histogram shows every object that has a shape at the depth asked for). Refuted: radii without a shape have d = NaN, and argmin answers the first NaN, so that an object without a shape at any one of its radii is left out at every depth; in particular every object with fewer than IT_MIN particles inside its smallest radius. Six particles with a shape at R200 (T = 5/8) are missing from the histogram at R200 because the inner radius holds no particle. Holds for objects with a shape at all radii.
* C115 (The shape profile figures show the median of the objects with a shape and their scatter). Refuted for the band: its half-widths are the quartiles themselves over the root of the number of objects, not their distances from the median. One object with q = 2/3 has the band from 0 to 4/3. Holds for the lines, for every catalogue that the shape algorithm makes: the median of q, s and T over the objects with a shape at the radius, for all objects and per mass group; spheres have no T; groups are not empty, share out all objects and are ordered by mass. Without objects or without bins there is an exception and no figure.
* C118 (Velocity centres and shapes are right for objects of any number of particles). Refuted for large objects: from 2^24 particles of equal mass on the total stops growing and the centre is too far out by the factor n/2^24 (2^25 particles at (1,1,1) get the centre (2,2,2)). Partial: the centre is the true one times the ratio of the true to the rounded total; that ratio is within n*ulp/(1-n*ulp) of 1 for n particles, ulp just above 2^-24; exact for masses that are multiples of a power of two with a total of at most 2^24 of it. The axes and axis ratios of a tensor never depend on the total. Unbounded exponents; the double precision sums are exact.
* C119 (Catalogue indices are right however many particles the simulation has). Refuted from 2^31 particles in FoF halos on: start_idx is a C int. A central subhalo that crosses particle 2^31 becomes copies of particle 0; later ones get negative indices, which numpy counts from the end of the particle list (with 2^31+10 particles the third halo is read from the first one). Exact condition: the catalogue is right if and only if every kept central subhalo ends before particle 2^31, and the offsets are right if and only if the catalogue has fewer than 2^31 entries; radii and sizes are always right. Assumes -fwrapv and a subhalo table of fewer than 2^31 rows.
* C120 (Mock halos have the density of the profile asked for). Refuted for ellipsoidal halos: the particle numbers of the shells are computed with the spherical volume element 4 pi r^2 of the major axis, the particles are put between ellipsoids. For similar ellipsoids of axis ratios q, s the density in every shell is that of the profile divided by q s, up to an explicit rounding error (C120_ellipsoidal); the witness has density above 3 with a profile of 1. For spherical halos the property holds (C120_partial). C120_shells gives mass and place of the particles of every shell for any axes. C120_binned: the spherical density estimator, with the origin as centre and bins that end at the shells, returns these densities. What is used of quad: it scales, adds up and is positive for the integrand.
* C124 (Kernel density profiles of whole calls). Refuted (C124_refuted): an object with a particle exactly at its centre, e.g. three particles in a row, makes the whole call raise ZeroDivisionError, so that objects which have a profile when asked for alone get none. Proved: the values of every returned row in physical units (C124_densities), and that with a good selection a call fails only for such an object or for a centre that is not found (C124_fails), or for missing particles (C124_missing). Rank 0; the exception of the compiled loop is that of the model of C43.
* C125 (Ellipsoidal density profiles of whole calls). Refuted (C125_refuted): for an object with a finite spherical profile and a converged shape the ellipsoidal profile is NaN at every radius. The overwritten catalogue (C40) is the cause, here shown from the arrays of the user on: with CENTER = 'com' every returned entry is NaN (C125_nothing), with CENTER = 'mode' and an object of five or more particles nothing is returned (C125_mode), and whenever the shapes are found and interpolate to non-zero axes the call does return the NaN table (C125_blank). The failures asked for are proved (C125_fails). Rank 0, no dumped catalogue; scipy's interp1d is an arbitrary function.
* C126 (The header of a snapshot is returned whatever its format). refuted: a folder, as in the documentation of density profiles, raises IsADirectoryError, and in a universe with curvature the attribute Hubble is not the expansion rate (C126_refuted); for names of snapshots all numbers of the header come back in every format, byte order and naming (C126_numbers); the rate shown is the expansion rate exactly without curvature or at z = -1 (C126_rate) and not a number exactly for a negative sum (C126_no_rate); missing files, folders and HDF5 files with other endings fail as stated (C126_failures); rounding of the rate is not modelled
* C127 (The methods of the documentation can be called as documented). refuted: getPartType and getVelXYZMasses do not exist; estDensProfs, fitDensProfs, estConcentrations and plotDensProfs do not accept the documented names ROverR200 and ROverR200_fit as keywords; dumpShapeCatLocal and dumpShapeCatGlobal take no folder, so that a documented call hands the folder over as the numbers of the objects (C127_refuted, each entry of the eight names). All other entries keep the promise for every argument list (C127_partial), the four density methods do when the radii are positional (C127_by_position), and of 32 calls shown all enter but three (C127_shown): two name dumpShapeCatVelLocal and dumpShapeCatVelGlobal, which do not exist, one is a syntax error. Types of the values are not modelled here.
* C128 (A Gadget object answers like an object made from the numbers in its files). make_gadget is a relation over all thread schedules; C128_same states that its only outcome is that of DensShapeProfs on the arrays. For a minimum of zero the two differ (C128_zero_minimum_refuted): a group without subhalo is then an object without particles in the arrays and no object in the catalogue; such minima are outside the property. Single-precision rounding of the stored numbers is not modelled, and the radii are those read in the current units (C10, C99 for the memo).
* C129 (Velocity shapes of a Gadget object come from the velocities of its objects). Refuted in two ways: the local velocity shapes do not depend on the velocities (replacing the velocities by any others leaves every outcome possible that was possible before) and no entry of them is ever marked as converged; getShapeCatVelGlobal raises TypeError for every valid selection, because it passes thirteen arguments to a routine with eleven parameters. What holds: C129_objects (entries, centres and masses belong to the objects asked for and come from their particles alone, global and local) and C129_frame (a bulk velocity changes nothing). Catalogues dumped earlier are C38; radii and rounding as in C128.
