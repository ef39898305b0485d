{
 "claims": [
  {
   "property": "C01",
   "status": "proved",
   "theorems": [
    "C01_memo_transparent",
    "C01_key_determines_arguments"
   ],
   "note": "All modes and histories; the decorated function must be deterministic and depend only on the key."
  },
  {
   "property": "C02",
   "status": "proved",
   "theorems": [
    "C02_size_bounded",
    "C02_growth_only_on_miss",
    "C02_negative"
   ],
   "note": "maxsize >= 0. A negative maxsize is not refused and holds one entry (C02_negative)."
  },
  {
   "property": "C03",
   "status": "proved",
   "theorems": [
    "C03_lru_eviction",
    "C03_recency_all_modes"
   ],
   "note": ""
  },
  {
   "property": "C04",
   "status": "proved",
   "theorems": [
    "C04_statistics",
    "C04_clear_resets"
   ],
   "note": ""
  },
  {
   "property": "C05",
   "status": "proved",
   "theorems": [
    "C05_concurrent_safe"
   ],
   "note": "Modes that take the lock (sized and memory-limited); each locked section is one atomic step."
  },
  {
   "property": "C06",
   "status": "proved",
   "theorems": [
    "C06_no_growth_when_low",
    "C06_no_eviction_when_high"
   ],
   "note": ""
  },
  {
   "property": "C07",
   "status": "proved",
   "theorems": [
    "C07_array_arguments_round_trip",
    "C07_array_keys_injective",
    "C07_array_keys_total"
   ],
   "note": "dtype is not modelled."
  },
  {
   "property": "C08",
   "status": "partial",
   "theorems": [
    "C08_results_isolated_refuted",
    "C08_results_isolated_partial",
    "C08_other_results"
   ],
   "note": "Refuted: the cache hands out the stored object itself. Holds when callers never write to results or caching is disabled."
  },
  {
   "property": "C09",
   "status": "proved",
   "theorems": [
    "C09_failures_leave_no_trace"
   ],
   "note": ""
  },
  {
   "property": "C10",
   "status": "partial",
   "theorems": [
    "C10_units_followed_refuted",
    "C10_radii_frozen",
    "C10_units_followed_partial"
   ],
   "note": "Refuted: the memo of getFoFSHData is keyed by its arguments only, so after a change of input unit or h the old radii are returned (for ever if memory suffices). Partial: radii are right whenever all earlier reads of the same catalogue used the same scaling, for every cache mode."
  },
  {
   "property": "C11",
   "status": "proved",
   "theorems": [
    "C11_conversions_consistent",
    "C11_named_units"
   ],
   "note": "Real arithmetic; the float32 rounding of the factors is not modelled."
  },
  {
   "property": "C12",
   "status": "partial",
   "theorems": [
    "C12_rejected_update_refuted",
    "C12_rejected_update_partial"
   ],
   "note": "Refuted: LittleH is assigned before the arguments are checked. Partial: all six units stay; rejected iff h = 0 or an argument names no unit; unchanged if h is unchanged."
  },
  {
   "property": "C13",
   "status": "partial",
   "theorems": [
    "C13_mass_helpers_refuted",
    "C13_mass_conversion_partial"
   ],
   "note": "Refuted: both helpers raise KeyError in every configuration (misspelled key). Partial: constructor plus getXYZMasses convert masses by the unit ratio."
  },
  {
   "property": "C14",
   "status": "proved",
   "theorems": [
    "C14_labels"
   ],
   "note": "Decimal formatting of the numeric label is not modelled."
  },
  {
   "property": "C15",
   "status": "partial",
   "theorems": [
    "C15_independent_refuted",
    "C15_independent_partial"
   ],
   "note": "Refuted: h is shared, so an output update can change input conversions. Partial: units are independent; conversions are unchanged whenever the same h is passed."
  },
  {
   "property": "C66",
   "status": "proved",
   "theorems": [
    "C66_physical_values_preserved",
    "C66_same_h"
   ],
   "note": ""
  },
  {
   "property": "C16",
   "status": "partial",
   "theorems": [
    "C16_selection_refuted",
    "C16_selection_partial"
   ],
   "note": "Refuted: Python lists are truncated to int32 before validation, so [0.7] is accepted as object 0. Partial: exact for arrays and for lists of integers; the indices used are the ones given; every rejection is a ValueError."
  },
  {
   "property": "C17",
   "status": "proved",
   "theorems": [
    "C17_subset",
    "C17_out_of_range"
   ],
   "note": ""
  },
  {
   "property": "C18",
   "status": "proved",
   "theorems": [
    "C18_constructor",
    "C18_object_k"
   ],
   "note": ""
  },
  {
   "property": "C19",
   "status": "proved",
   "theorems": [
    "C19_catalogue"
   ],
   "note": "For tables that are consistent (one run of subhalo sizes per halo); 32-bit overflow not modelled."
  },
  {
   "property": "C20",
   "status": "proved",
   "theorems": [
    "C20_schedule_independent"
   ],
   "note": "Sequentially consistent interleavings of atomic actions, any assignment of iterations to any number of threads."
  },
  {
   "property": "C21",
   "status": "proved",
   "theorems": [
    "C21_every_file_once"
   ],
   "note": ""
  },
  {
   "property": "C22",
   "status": "proved",
   "theorems": [
    "C22_collected"
   ],
   "note": "MPI Gatherv and Bcast are modelled by their standard semantics."
  },
  {
   "property": "C67",
   "status": "proved",
   "theorems": [
    "C67_file_number",
    "C67_order_independent"
   ],
   "note": ""
  },
  {
   "property": "C23",
   "status": "proved",
   "theorems": [
    "C23_unwrap",
    "C23_no_box"
   ],
   "note": "Real arithmetic."
  },
  {
   "property": "C24",
   "status": "partial",
   "theorems": [
    "C24_image_refuted",
    "C24_z_refuted",
    "C24_partial"
   ],
   "note": "Refuted: far coordinates are reflected (L - x), not translated, and the z coordinate is tested with y. Partial: particles stay in the box, the first particle never moves, an object within L/2 of its first particle is unchanged."
  },
  {
   "property": "C25",
   "status": "proved",
   "theorems": [
    "C25_com",
    "C25_order",
    "C25_bbox",
    "C25_equivariant"
   ],
   "note": "Real arithmetic."
  },
  {
   "property": "C26",
   "status": "partial",
   "theorems": [
    "C26_terminates_refuted",
    "C26_diverges",
    "C26_mode_partial",
    "C26_few"
   ],
   "note": "Refuted: five or more coincident particles recurse for ever (in Python: RecursionError). Partial: terminates for every radius unless five particles coincide; the result is unique and inside the bounding box."
  },
  {
   "property": "C27",
   "status": "proved",
   "theorems": [
    "C27_recentre",
    "C27_no_box",
    "C27_far_refuted"
   ],
   "note": "The bound on the input is necessary (C27_far_refuted)."
  },
  {
   "property": "C68",
   "status": "partial",
   "theorems": [
    "C68_contiguous_refuted",
    "C68_partial"
   ],
   "note": "Refuted: the reference is the average of raw coordinates, which lies mid-box for objects split evenly across the boundary. Partial: objects of raw extent at most L/2 are left alone, and afterwards any two particles are at most L apart along each axis."
  },
  {
   "property": "C69",
   "status": "proved",
   "theorems": [
    "C69_masses_centers",
    "C69_com_center",
    "C69_com_runs",
    "C69_deterministic"
   ],
   "note": ""
  },
  {
   "property": "C28",
   "status": "proved",
   "theorems": [
    "C28_tensor",
    "C28_symmetric",
    "C28_psd",
    "C28_selected_only"
   ],
   "note": "Real arithmetic; the reduced case needs non-zero ellipsoidal radii."
  },
  {
   "property": "C29",
   "status": "proved",
   "theorems": [
    "C29_mass",
    "C29_order",
    "C29_linear",
    "C29_scale",
    "C29_translate"
   ],
   "note": "C29_linear covers every linear map, in particular rotations."
  },
  {
   "property": "C30",
   "status": "partial",
   "theorems": [
    "C30_refuted",
    "C30_partial",
    "C30_raises",
    "C30_plane",
    "C30_principal",
    "C30_tolerance",
    "C30_contract_met"
   ],
   "note": "Refuted: particles in a plane through the centre end the run with ZeroDivisionError. Partial: every run that returns gives zeros or a valid ellipsoid; exactly when a run can raise. Non-negative masses, LAPACK contract eig_contract (met by an exact eigensolver, C30_contract_met)."
  },
  {
   "property": "C31",
   "status": "proved",
   "theorems": [
    "C31_terminates",
    "C31_limits",
    "C31_converged"
   ],
   "note": "Termination and limits without hypotheses; convergence for non-negative masses, tolerance below 1 and the LAPACK contract eig_contract."
  },
  {
   "property": "C32",
   "status": "proved",
   "theorems": [
    "C32_compact",
    "C32_selection"
   ],
   "note": "Selection of every step for non-negative masses and the LAPACK contract eig_contract; the compaction into a stale buffer without hypotheses."
  },
  {
   "property": "C33",
   "status": "partial",
   "theorems": [
    "C33_refuted",
    "C33_partial",
    "C33_unit_partial"
   ],
   "note": "Refuted: exact zeros of axis components become NaN in converged entries. Partial: entries are NaN throughout and not converged, or converged with an orthonormal triad shown except for exact zeros. Tolerance below 1, non-negative masses."
  },
  {
   "property": "C34",
   "status": "partial",
   "theorems": [
    "C34_refuted",
    "C34_never",
    "C34_raises",
    "C34_global_partial"
   ],
   "note": "Refuted for every catalogue: local velocity shapes ignore the velocities, never converge and raise ZeroDivisionError once a radius has enough particles. Partial: the whole-object version uses the velocities."
  },
  {
   "property": "C35",
   "status": "proved",
   "theorems": [
    "C35_schedule",
    "C35_own"
   ],
   "note": "All schedules, any history of the per-thread buffers; centres and R200 given."
  },
  {
   "property": "C36",
   "status": "proved",
   "theorems": [
    "C36_bounded",
    "C36_spin2",
    "C36_defined",
    "C36_com"
   ],
   "note": "Real arithmetic; rotation by scipy modelled as the exact rotation matrix."
  },
  {
   "property": "C37",
   "status": "partial",
   "theorems": [
    "C37_refuted",
    "C37_local_partial",
    "C37_global",
    "C37_exact",
    "C37_no_objects",
    "C37_columns"
   ],
   "note": "Refuted for a single radius: reading back raises IndexError or ValueError. Partial: with two or more radii every number comes back as printed (8 significant digits); whole-object catalogues always do. Files without numbers are read as no objects for global shapes and raise ValueError for local ones (C37_no_objects); global tables with two columns are refused (C37_columns)."
  },
  {
   "property": "C38",
   "status": "partial",
   "theorems": [
    "C38_refuted",
    "C38_first_dump",
    "C38_fresh_partial",
    "C38_same_partial",
    "C38_one_radius",
    "C38_answered"
   ],
   "note": "Refuted: after a dump every query is answered from the first dump, whatever it asks for. Partial: right without a dump or for what was dumped."
  },
  {
   "property": "C70",
   "status": "partial",
   "theorems": [
    "C70_refuted",
    "C70_partial",
    "C70_massless"
   ],
   "note": "Refuted: one flat object aborts the shapes of all, and so does one object without mass in the velocity versions. Partial: the call raises exactly if some object raises by itself."
  },
  {
   "property": "C39",
   "status": "proved",
   "theorems": [
    "C39_bins",
    "C39_total",
    "C39_one_bin",
    "C39_nonneg",
    "C39_edges",
    "C39_driver"
   ],
   "note": "Real arithmetic; all schedules, all objects; the increasing edges used by the driver follow from increasing radii above 1e-8."
  },
  {
   "property": "C40",
   "status": "partial",
   "theorems": [
    "C40_refuted",
    "C40_nan",
    "C40_mode",
    "C40_catalogue",
    "C40_single_partial",
    "C40_collapsed",
    "C40_collapsed_empty"
   ],
   "note": "Refuted: the caller's catalogue is overwritten with one particle per object, repeated (C40_catalogue), and every profile returned with centre of mass centres is NaN throughout (C40_nan); with mode centres five particles in an object suffice for no profile to be returned (C40_mode). Partial: catalogues of one-particle objects are left unchanged. C40_collapsed and C40_collapsed_empty: when an axis of the inner edge is zero, one particle inside the outer edge raises ZeroDivisionError, none gives NaN."
  },
  {
   "property": "C41",
   "status": "proved",
   "theorems": [
    "C41_enclosed",
    "C41_monotone",
    "C41_additive",
    "C41_all",
    "C41_difference",
    "C41_ellipsoid",
    "C41_ellipsoid_monotone"
   ],
   "note": "Real arithmetic. Also for the ellipsoidal version."
  },
  {
   "property": "C42",
   "status": "proved",
   "theorems": [
    "C42_shells",
    "C42_one_shell",
    "C42_total",
    "C42_interpolated"
   ],
   "note": "Real arithmetic; finite axes. C42_interpolated says which ellipsoids are taken from the shape profile of one object; it is about the calculation on the particles it is given, which in a full run are not those of the object (C40)."
  },
  {
   "property": "C43",
   "status": "proved",
   "theorems": [
    "C43_symmetric",
    "C43_average",
    "C43_sum",
    "C43_additive",
    "C43_linear",
    "C43_raises"
   ],
   "note": "Real arithmetic. C43_average identifies the kernel as the angular average of a Gaussian. A particle exactly at the centre makes the computation raise."
  },
  {
   "property": "C71",
   "status": "proved",
   "theorems": [
    "C71_schedule",
    "C71_own",
    "C71_schedule_ell",
    "C71_schedule_kernel"
   ],
   "note": ""
  },
  {
   "property": "C72",
   "status": "partial",
   "theorems": [
    "C72_refuted",
    "C72_partial"
   ],
   "note": "Refuted: the centre is unwrapped by translation and the particles by reflection, so an object split by the boundary gets a different profile. Partial: unchanged for objects that the box boundary does not split."
  },
  {
   "property": "C44",
   "status": "proved",
   "theorems": [
    "C44_nfw",
    "C44_hernquist",
    "C44_positive",
    "C44_decreasing",
    "C44_linear",
    "C44_scale",
    "C44_at_scale_radius"
   ],
   "note": "Real arithmetic; positive radii."
  },
  {
   "property": "C45",
   "status": "partial",
   "theorems": [
    "C45_refuted",
    "C45_scale_radius_refuted",
    "C45_fixed_partial"
   ],
   "note": "Refuted: a fixed rho_s is accepted and ignored (C45_refuted), and a fixed scale radius, taken in Mpc/h, comes back converted to the output unit (C45_scale_radius_refuted). Partial: fixed shape parameters come back exactly and the scale radius comes back as the fixed number of Mpc/h, converted."
  },
  {
   "property": "C46",
   "status": "proved",
   "theorems": [
    "C46_rows",
    "C46_alone"
   ],
   "note": "All completion orders of the pool."
  },
  {
   "property": "C47",
   "status": "proved",
   "theorems": [
    "C47_amplitude",
    "C47_nan",
    "C47_units"
   ],
   "note": "scipy's minimiser is any relation between its arguments and results."
  },
  {
   "property": "C50",
   "status": "proved",
   "theorems": [
    "C50_concentrations",
    "C50_deterministic",
    "C50_units"
   ],
   "note": "Real arithmetic; positive units. A scale radius of NaN gives NaN."
  },
  {
   "property": "C63",
   "status": "proved",
   "theorems": [
    "C63_method",
    "C63_start",
    "C63_katz",
    "C63_katz_accepts",
    "C63_katz_values",
    "C63_katz_missing"
   ],
   "note": "Whole numbers outside the 32-bit range are not modelled. Fields of the documented types come back unchanged; C63_katz_accepts also says which other dictionaries pass."
  },
  {
   "property": "C73",
   "status": "partial",
   "theorems": [
    "C73_refuted",
    "C73_objective",
    "C73_every_vector_best",
    "C47_nan"
   ],
   "note": "Refuted: one bin of zero density makes the objective infinite for every vector of parameters, so that every vector within bounds is best and the data have no influence. What holds: NaN bins are ignored (C47_nan)."
  },
  {
   "property": "C74",
   "status": "proved",
   "theorems": [
    "C74_nfw",
    "C74_hernquist",
    "C74_einasto",
    "C74_found",
    "C74_identifiable",
    "C74_abg_degenerate"
   ],
   "note": "A ValueError from scipy gives NaN instead. C74_abg_degenerate: no such result can hold for the alpha-beta-gamma model, whose parameters are not determined by its values."
  },
  {
   "property": "C48",
   "status": "partial",
   "theorems": [
    "C48_refuted",
    "C48_extremes_dropped",
    "C48_edge_dropped",
    "C48_all_empty",
    "C48_partial"
   ],
   "note": "Refuted: both comparisons with the group edges are strict and the edges are masses of objects, so the lightest and heaviest object of any catalogue, and every object on an edge, are in no group; with as many groups as objects all groups are empty. Partial: an object off the edges is in exactly the group M_split assigns."
  },
  {
   "property": "C49",
   "status": "proved",
   "theorems": [
    "C49_partition",
    "C49_aligned",
    "C49_sizes",
    "C49_edges",
    "C49_ordered",
    "C49_total"
   ],
   "note": "argsort is any sorting permutation. M_split raises exactly for NB_BINS = 0."
  },
  {
   "property": "C62",
   "status": "proved",
   "theorems": [
    "C62_once",
    "C62_once_group",
    "C62_nearest",
    "C62_groups"
   ],
   "note": "Ties go to the first of the nearest bins. C62_groups: the mass groups together use exactly what the overall average uses."
  },
  {
   "property": "C64",
   "status": "proved",
   "theorems": [
    "C64_nonneg",
    "C64_zero",
    "C64_zero_general",
    "C64_symmetric",
    "C64_swap",
    "C64_nan",
    "C64_counts",
    "C64_cells",
    "C64_multi"
   ],
   "note": "Real arithmetic; the p-value is scipy's."
  },
  {
   "property": "C65",
   "status": "proved",
   "theorems": [
    "C65_lossless",
    "C65_zero"
   ],
   "note": "For any element type."
  },
  {
   "property": "C75",
   "status": "partial",
   "theorems": [
    "C75_refuted",
    "C75_partial"
   ],
   "note": "Refuted: 5 objects in 4 bins give 3 groups. Partial: between 1 and NB_BINS groups, and exactly NB_BINS if it divides the number of objects or if there are at least NB_BINS*(NB_BINS-1) objects."
  },
  {
   "property": "C76",
   "status": "partial",
   "theorems": [
    "C76_refuted",
    "C76_range",
    "C76_sphere",
    "C76_partial"
   ],
   "note": "Refuted: values of exactly 0 are taken for missing, so an oblate object with q = 1 is left out of histogram and average. Partial: all other non-spherical objects are counted, with the right value in [0, 1]."
  },
  {
   "property": "C77",
   "status": "proved",
   "theorems": [
    "C77_order",
    "C77_empty",
    "C77_median",
    "C77_quartiles",
    "C77_mean"
   ],
   "note": "Methods SEM and median_quantile; the bootstrap is not modelled."
  },
  {
   "property": "C78",
   "status": "partial",
   "theorems": [
    "C78_refuted",
    "C78_partial"
   ],
   "note": "Refuted: the degrees of freedom count empty categories (chiSquareToIMultiDim always uses ten per bin), so the p-value is too large. Partial: the statistic itself is unchanged and the degrees of freedom grow by the number of samples minus one."
  },
  {
   "property": "C79",
   "status": "partial",
   "theorems": [
    "C79_refuted",
    "C79_sem",
    "C79_sem_single",
    "C79_partial",
    "C79_no_shift_invariance"
   ],
   "note": "Refuted for median_quantile, the method of all plots: the error is a quartile itself over sqrt N, not a distance from the median, so N equal values c get the error c/sqrt N. Partial: the standard error of the mean of two or more values is 0 exactly without scatter."
  },
  {
   "property": "C51",
   "status": "proved",
   "theorems": [
    "C51",
    "C51_exact",
    "C51_succeeds",
    "C51_fails"
   ],
   "note": "The loop allows 1001 passes, enough for 2^1001+1 shells; scipy's quad arbitrary (positive and additive for C51_fails)."
  },
  {
   "property": "C52",
   "status": "proved",
   "theorems": [
    "C52",
    "C52_first_shell",
    "C52_succeeds"
   ],
   "note": "quad is only assumed to scale with the integrand (C52) and to be positive on positive ranges (C52_succeeds). Two or more shells, total mass not 0."
  },
  {
   "property": "C53",
   "status": "proved",
   "theorems": [
    "C53_shell",
    "C53_point",
    "C53_inShell",
    "C53_lower_end",
    "C53_direction"
   ],
   "note": "Includes that the points are in the directions drawn. inShell() itself excludes the inner surface, which has probability 0 (C53_lower_end)."
  },
  {
   "property": "C54",
   "status": "partial",
   "theorems": [
    "C54_refuted",
    "C54_partial",
    "C54_ellipsoid"
   ],
   "note": "Refuted for one sample, the default: ZeroDivisionError. Partial: for every other count the requested number of distinct points, all on the surface, from pole to pole."
  },
  {
   "property": "C55",
   "status": "proved",
   "theorems": [
    "C55_inside"
   ],
   "note": "Three dimensions; semi-axes not 0; contracts of scipy's cholesky and inv stated in inverse_ok; normal deviates not all 0."
  },
  {
   "property": "C80",
   "status": "proved",
   "theorems": [
    "C80"
   ],
   "note": "quad scales, adds and is positive."
  },
  {
   "property": "C81",
   "status": "partial",
   "theorems": [
    "C81_refuted"
   ],
   "note": "Refuted: c[ell_nb] is evaluated before dims is looked at, so that every two-dimensional call raises TypeError. In three dimensions see C55."
  },
  {
   "property": "C82",
   "status": "partial",
   "theorems": [
    "C82_refuted",
    "C82_partial"
   ],
   "note": "Refuted: rho_s is added to the caller's dictionary. Partial: no other entry changes and an earlier rho_s has no effect on the result."
  },
  {
   "property": "C83",
   "status": "proved",
   "theorems": [
    "C83_reproducible",
    "C83_halo"
   ],
   "note": "Holds because every shell seeds the generator with its number."
  },
  {
   "property": "C84",
   "status": "partial",
   "theorems": [
    "C84_refuted",
    "C84_unknown"
   ],
   "note": "Refuted: any other name, as Einasto or NFW in capitals, is silently taken for nfw."
  },
  {
   "property": "C56",
   "status": "partial",
   "theorems": [
    "C56_refuted",
    "C56_found",
    "C56_not_found",
    "C56_corrupt",
    "C56_ends"
   ],
   "note": "Refuted: the second marker of the requested record is not compared with the first. Otherwise the record is found with its size and position, an absent one is reported, and inconsistent markers of an earlier record are reported."
  },
  {
   "property": "C57",
   "status": "partial",
   "theorems": [
    "C57_refuted",
    "C57_partial"
   ],
   "note": "Refuted: in Python 3 block names read as bytes never equal the str asked for, so that no block of a format 2 file is ever found. Partial: on every well-formed format 2 file the search ends by reporting the block as not found."
  },
  {
   "property": "C58",
   "status": "proved",
   "theorems": [
    "C58",
    "C58_reject"
   ],
   "note": "Both byte orders and both formats; the header is read back field by field, other files are refused."
  },
  {
   "property": "C59",
   "status": "partial",
   "theorems": [
    "C59_refuted",
    "C59_partial",
    "C59_mod"
   ],
   "note": "Refuted: the array has 32 bits per ID although 64 are read; ID 2^32+5 is returned as 5. In general IDs are reduced modulo 2^32; below 2^32 they are unchanged."
  },
  {
   "property": "C60",
   "status": "partial",
   "theorems": [
    "C60_refuted",
    "C60_masses_refuted",
    "C60_partial",
    "C60_layout",
    "C60_binary",
    "C60_hdf5",
    "C60_slices",
    "C60_hdf5_slices",
    "C60_binary_slices",
    "C60_past_end"
   ],
   "note": "Refuted: with 32 bit IDs and no particle in the first file the IDs are taken to have 64 bits and reading exits; the masses of all species together cannot be read if no particle has its own mass. Otherwise the assembly is right for all numbers of files and particles, in binary and HDF5 snapshots, for one species, several, or all."
  },
  {
   "property": "C61",
   "status": "proved",
   "theorems": [
    "C61"
   ],
   "note": "All file systems and names."
  },
  {
   "property": "C85",
   "status": "partial",
   "theorems": [
    "C85_refuted",
    "C85_partial"
   ],
   "note": "Refuted: positions raise ValueError if the header has a mass for the species and Exception if not; masses raise Exception if it has none. Partial: masses are read if it has one."
  },
  {
   "property": "C86",
   "status": "partial",
   "theorems": [
    "C86_refuted",
    "C86_single_refuted",
    "C86_partial"
   ],
   "note": "Refuted: one or three particles without coordinates are all put at (m, m, m) with m the mass in the header. Partial: any other number is refused."
  },
  {
   "property": "C87",
   "status": "partial",
   "theorems": [
    "C87_refuted",
    "C87_partial"
   ],
   "note": "Refuted: division by 1 converts to float64; 2^53 and 2^53+1 are returned as equal. Partial: IDs up to 2^53 are unchanged."
  },
  {
   "property": "C88",
   "status": "partial",
   "theorems": [
    "C88_refuted",
    "C88_partial"
   ],
   "note": "Refuted for binary snapshots: uninitialised memory is returned. Partial: noticed in HDF5 snapshots of several files."
  },
  {
   "property": "C89",
   "status": "proved",
   "theorems": [
    "C89_sparse",
    "C89_radii"
   ],
   "note": "Local profiles in both versions (positions and velocities) and both region kinds; C89_radii assumes the eigensolver contract."
  },
  {
   "property": "C90",
   "status": "partial",
   "theorems": [
    "C90_refuted",
    "C90_partial"
   ],
   "note": "Refuted: exponents of 20 to 99 end in an AssertionError, and three-digit exponents are shown wrongly. Partial: right for all exponents from -19 to 19."
  },
  {
   "property": "C91",
   "status": "proved",
   "theorems": [
    "C91_value",
    "C91_fill",
    "C91_zero",
    "C91_resolution"
   ],
   "note": "Exact reals; the constants are those of the code."
  },
  {
   "property": "C92",
   "status": "proved",
   "theorems": [
    "C92_bryan_norman",
    "C92_eds",
    "C92_decreasing",
    "C92_limit"
   ],
   "note": "Exact reals."
  },
  {
   "property": "C93",
   "status": "partial",
   "theorems": [
    "C93_nan_refuted",
    "C93_refuted",
    "C93_partial",
    "C93_values"
   ],
   "note": "Refuted: one missing value at the reference radius sends all values of the object to the innermost bin, and grids that do not contain R200 take a wrong reference radius. Partial: right if the grid contains R200 and every object has a value there."
  },
  {
   "property": "C94",
   "status": "partial",
   "theorems": [
    "C94_refuted",
    "C94_partial"
   ],
   "note": "Refuted: the code reflects (L - x) instead of translating. Partial: the results stay in the box and near the first particle, and objects that do not straddle the boundary are unchanged."
  },
  {
   "property": "C95",
   "status": "partial",
   "theorems": [
    "C95_refuted",
    "C95_partial",
    "C95_order",
    "C95_signatures",
    "C95_data"
   ],
   "note": "Refuted: getShapeCatVelGlobal passes two arguments too many and plotLocalEpsHist misses one. Partial: all calls reachable from the other public methods bind, and no variable is passed in the place of another parameter of the same name."
  },
  {
   "property": "C96",
   "status": "partial",
   "theorems": [
    "C96_refuted",
    "C96_snap_refuted",
    "C96_dumps",
    "C96_files",
    "C96_partial"
   ],
   "note": "Refuted: local and global ellipticity histograms, density plots of different particle types and mass groups with edges that agree in two decimals overwrite each other. Partial: all collisions of plots are characterised; dumps never collide if snapshot names have no underscore."
  },
  {
   "property": "C97",
   "status": "partial",
   "theorems": [
    "C97_refuted",
    "C97_relative_refuted",
    "C97_partial",
    "C97_folders"
   ],
   "note": "Refuted: the plotting modules create relative folders inside the installed package, and saving then fails. Partial: right for absolute paths and for folders that are there."
  },
  {
   "property": "C98",
   "status": "partial",
   "theorems": [
    "C98_refuted",
    "C98_query",
    "C98_partial"
   ],
   "note": "Refuted: objects made from Gadget files look for the dump of objects made from arrays. Partial: right for the latter, and without such a dump."
  },
  {
   "property": "C99",
   "status": "partial",
   "theorems": [
    "C99_refuted",
    "C99_remade_refuted",
    "C99_partial",
    "C99_analyses",
    "C99_getters",
    "C99_radii"
   ],
   "note": "Refuted. After the input unit is changed (e.g. for a second simulation), velocity shapes of the first object combine positions in the new unit with a box in the old one. After the units are corrected and the object is made again, positions are in the new unit but the memoised radii in the old one. Proved: exactly which units positions, box and radii are in for every program; everything is in one unit as long as no update changes the input length unit in Mpc/h; getXYZMasses and getVelXYZ always return the physical values."
  },
  {
   "property": "C100",
   "status": "partial",
   "theorems": [
    "C100_refuted",
    "C100_first_call",
    "C100_state",
    "C100_partial"
   ],
   "note": "Refuted: a function that has been called keeps the limits in force at its first call; its memo holds and takes more entries than a maximum set later. Proved: the limits at the first call are those in force for ever, so limits set before it are kept."
  },
  {
   "property": "C101",
   "status": "partial",
   "theorems": [
    "C101_refuted",
    "C101_shell",
    "C101_partial"
   ],
   "note": "Refuted for shells: the depth in the shell is uniform in radius, not in volume, so every inner part receives more points than its share (innermost shell: half of the draws land in an eighth of the volume). Proved: exact condition on the draw for landing within any similar ellipsoid, for shells (linear in radius) and for drawUniformFromEllipsoid (equal to the volume part)."
  },
  {
   "property": "C102",
   "status": "partial",
   "theorems": [
    "C102_refuted",
    "C102_gadget_refuted",
    "C102_selection_refuted",
    "C102_partial",
    "C102_arrays",
    "C102_halo",
    "C102_checks"
   ],
   "note": "Refuted: fitDensProfs raises TypeError on every rank but 0 whenever it succeeds on rank 0; a Gadget object cannot be made on any rank but 0 (None is handed to memoryview parameters whose .base is taken); an invalid selection raises on rank 0 alone. Proved: for objects made from arrays every other method finishes without data on the other ranks when it finishes on rank 0, and what another rank raises rank 0 raises too."
  },
  {
   "property": "C103",
   "status": "partial",
   "theorems": [
    "C103_refuted",
    "C103_partial"
   ],
   "note": "Refuted for every eigensolver and schedule: six particles with axis ratios 2/3 and 1/3 in the middle of the box lose their shape (not converged) when moved across the boundary, because the centre is computed with translated and the tensor with reflected images. Proved: every object that is not split by the boundary (or any object without box) keeps its shape under any translation; all four kinds, mode and centre of mass."
  },
  {
   "property": "C104",
   "status": "partial",
   "theorems": [
    "C104_refuted",
    "C104_arrows_refuted",
    "C104_partial",
    "C104_labels",
    "C104_rows",
    "C104_surfaces",
    "C104_special",
    "C104_global"
   ],
   "note": "Refuted: the centre is put back into the box but the particles are not, so centre and ellipsoid may be drawn a box length away from the particles; the labelled arrows of profiles are those of the last radius but one (none with fewer than six radii). Proved: centres inside the box are drawn at the weighted mean of the particles; all 500 surface points lie on the surface; arrows of whole-object figures and of the marked row end on theirs."
  },
  {
   "property": "C105",
   "status": "proved",
   "theorems": [
    "C105_axes"
   ],
   "note": ""
  },
  {
   "property": "C106",
   "status": "partial",
   "theorems": [
    "C106_refuted",
    "C106_second_refuted",
    "C106_partial"
   ],
   "note": "Refuted: for every catalogue with at least one object the function raises TypeError, because it writes through centers.base, which is None; a second TypeError waits where respectPBCNoRef is called without the box size. Holds for empty catalogues; with the two lines repaired the result is proved to be exactly the particles within the radius, object by object, where objects left without particles are dropped."
  },
  {
   "property": "C107",
   "status": "partial",
   "theorems": [
    "C107_refuted",
    "C107_partial"
   ],
   "note": "Refuted: the last line always reports 0 objects with sufficient resolution, since it compares the entries of the flat index array with an empty list. The other five counts are proved to be right."
  },
  {
   "property": "C108",
   "status": "partial",
   "theorems": [
    "C108_refuted",
    "C108_partial"
   ],
   "note": "Refuted for CENTER = 'mode': the search starts at radius 1000 for masses, centres and densities and at the extent of the object for shapes, so the spheres shrink through different radii and stop at different sets; six particles on 0.8 length units have centres 0.083 apart in every run. Holds for objects that are not split by the box if CENTER = 'com' or the object has fewer than five particles."
  },
  {
   "property": "C109",
   "status": "partial",
   "theorems": [
    "C109_refuted",
    "C109_partial"
   ],
   "note": "Refuted for CENTER = 'mode': the search for the centre starts at the largest extent along x, y or z, which changes when the object is turned, so that the sphere stops at another set; six particles on a line of length 0.8 have the centre at 0.383 along the line, and at 0.3 after a turn by 28 degrees, in every run. Holds with CENTER = 'com' for every turn, and with 'mode' for turns by right angles, for objects that the box does not split; SAFE has to be given in the new unit. The eigenvectors are those of some admissible eigensolver, as LAPACK fixes no sign and no basis for equal eigenvalues."
  },
  {
   "property": "C110",
   "status": "partial",
   "theorems": [
    "C110_refuted",
    "C110_partial"
   ],
   "note": "Refuted for CENTER = 'mode': the search for the centre starts at the absolute radius 1000 whatever the unit of length, so that the sphere stops at another set in another unit; the innermost bin of six particles in a line holds five of them, and six with lengths in a unit 1250 times smaller, in every run. Holds with CENTER = 'com' for every turn and unit, and with 'mode' for every turn and unit of mass with the unit of length unchanged, for objects that the box does not split. The ellipsoidal bins are left out as they overwrite the catalogue (C40)."
  },
  {
   "property": "C111",
   "status": "partial",
   "theorems": [
    "C111_refuted",
    "C111_rows_refuted",
    "C111_partial",
    "C111_curve",
    "C111_units",
    "C111_errors"
   ],
   "note": "Refuted for the band: its half-widths are the quartiles divided by the root of the number of objects, so that n equal profiles of value v give a band from v - v/sqrt(n) to v + v/sqrt(n), and one object a band from 0 to 2 v. Refuted too: dens_profs_fit is not compared with obj_numbers, and surplus rows enter the first fit. Holds: the line is the median of the numbers handed over, the band contains it for non-negative densities, the curve is a fit to the medians of the same objects in the same unit, and a change of output unit multiplies all four by one factor. Groups without objects show NaN (C48)."
  },
  {
   "property": "C112",
   "status": "partial",
   "theorems": [
    "C112_refuted",
    "C112_partial"
   ],
   "note": "Refuted for an output length without a name: LMVLabel gives 2.00e+00kpc for two kiloparsec, which is not put into brackets, so that the label reads solar masses per 2 kpc^3 while the unit is solar masses per (2 kpc)^3. Holds for every output length that has a name, with any unit of mass."
  },
  {
   "property": "C113",
   "status": "partial",
   "theorems": [
    "C113_refuted",
    "C113_local_refuted",
    "C113_bins",
    "C113_partial",
    "C113_eps_partial",
    "C113_T_partial",
    "C113_order",
    "C113_missing"
   ],
   "note": "Refuted: HIST_NB_BINS, documented as the number of bins, is the number of edges, so that there is always one bar less. Refuted too: plotLocalEpsHist ends in a TypeError for every catalogue with an object, as it cuts the catalogue first (C106). Holds: with two edges or more every value of [0, 1] lies in exactly one bin, each bar is the share of its bin divided by the width, and the area is 1; the histogram of ellipticities contains every object with positive masses that is not on one line of sight; the histogram of whole-object triaxialities contains exactly the objects with q < 1. The bars do not depend on the order of the objects (C113_order), and objects without a value can be left out (C113_missing)."
  },
  {
   "property": "C114",
   "status": "partial",
   "theorems": [
    "C114_refuted",
    "C114_dropped",
    "C114_sparse",
    "C114_partial"
   ],
   "note": "Refuted: radii without a shape have d = NaN, and argmin answers the first NaN, so that an object without a shape at any one of its radii is left out at every depth; in particular every object with fewer than IT_MIN particles inside its smallest radius. Six particles with a shape at R200 (T = 5/8) are missing from the histogram at R200 because the inner radius holds no particle. Holds for objects with a shape at all radii."
  },
  {
   "property": "C115",
   "status": "partial",
   "theorems": [
    "C115_refuted",
    "C115_partial",
    "C115_errors"
   ],
   "note": "Refuted for the band: its half-widths are the quartiles themselves over the root of the number of objects, not their distances from the median. One object with q = 2/3 has the band from 0 to 4/3. Holds for the lines, for every catalogue that the shape algorithm makes: the median of q, s and T over the objects with a shape at the radius, for all objects and per mass group; spheres have no T; groups are not empty, share out all objects and are ordered by mass. Without objects or without bins there is an exception and no figure."
  },
  {
   "property": "C116",
   "status": "proved",
   "theorems": [
    "C116_sup",
    "C116_nan",
    "C116_order",
    "C116_units",
    "C116_zero",
    "C116_apart"
   ],
   "note": "scipy's ks_2samp is modelled after its source, the p-value is an arbitrary function of the statistic and the sizes. The documentation says for each sample that it is irrelevant whether it is normalised; this holds for a common factor only (C116_ex has a pair with one sample rescaled)."
  },
  {
   "property": "C117",
   "status": "proved",
   "theorems": [
    "C117_fixed",
    "C117_recovers",
    "C117_global",
    "C117_local"
   ],
   "note": "Real arithmetic; the eigensolver is any function meeting eig_contract. For the reduced tensor and for shells nothing is claimed here. The centre of the stretching is the centre of the object given to the algorithm; the moments of the isotropic set are taken around it."
  },
  {
   "property": "C118",
   "status": "partial",
   "theorems": [
    "C118_refuted",
    "C118_factor",
    "C118_partial",
    "C118_exact",
    "C118_total",
    "C118_shapes"
   ],
   "note": "Refuted for large objects: from 2^24 particles of equal mass on the total stops growing and the centre is too far out by the factor n/2^24 (2^25 particles at (1,1,1) get the centre (2,2,2)). Partial: the centre is the true one times the ratio of the true to the rounded total; that ratio is within n*ulp/(1-n*ulp) of 1 for n particles, ulp just above 2^-24; exact for masses that are multiples of a power of two with a total of at most 2^24 of it. The axes and axis ratios of a tensor never depend on the total. Unbounded exponents; the double precision sums are exact."
  },
  {
   "property": "C119",
   "status": "partial",
   "theorems": [
    "C119_refuted",
    "C119_all_refuted",
    "C119_partial",
    "C119_enough",
    "C119_offsets"
   ],
   "note": "Refuted from 2^31 particles in FoF halos on: start_idx is a C int. A central subhalo that crosses particle 2^31 becomes copies of particle 0; later ones get negative indices, which numpy counts from the end of the particle list (with 2^31+10 particles the third halo is read from the first one). Exact condition: the catalogue is right if and only if every kept central subhalo ends before particle 2^31, and the offsets are right if and only if the catalogue has fewer than 2^31 entries; radii and sizes are always right. Assumes -fwrapv and a subhalo table of fewer than 2^31 rows."
  },
  {
   "property": "C120",
   "status": "partial",
   "theorems": [
    "C120_refuted",
    "C120_partial",
    "C120_ellipsoidal",
    "C120_shells",
    "C120_binned"
   ],
   "note": "Refuted for ellipsoidal halos: the particle numbers of the shells are computed with the spherical volume element 4 pi r^2 of the major axis, the particles are put between ellipsoids. For similar ellipsoids of axis ratios q, s the density in every shell is that of the profile divided by q s, up to an explicit rounding error (C120_ellipsoidal); the witness has density above 3 with a profile of 1. For spherical halos the property holds (C120_partial). C120_shells gives mass and place of the particles of every shell for any axes. C120_binned: the spherical density estimator, with the origin as centre and bins that end at the shells, returns these densities. What is used of quad: it scales, adds up and is positive for the integrand."
  },
  {
   "property": "C121",
   "status": "proved",
   "theorems": [
    "C121_never_worse",
    "C121_stays",
    "C121_only",
    "C121_close",
    "C121_run",
    "C121_result",
    "C121_axes"
   ],
   "note": "Real arithmetic; the eigensolver is any function meeting eig_contract. Convergence in finitely many passes is not claimed (the algorithm may return the failure marker after IT_WALL passes), nor that a change of q and s below the tolerance means the shape is near the true one. The exception in (c) is real: for particles on the three axes every pass finds a sphere whatever the stretching (C121_axes)."
  },
  {
   "property": "C122",
   "status": "proved",
   "theorems": [
    "C122_fits",
    "C122_concentrations",
    "C122_units"
   ],
   "note": "The minimiser is an arbitrary relation that may answer or raise ValueError; other exceptions of scipy are not modelled. Arguments have the documented types; the selection is a list of integers (conversion: C16)."
  },
  {
   "property": "C123",
   "status": "proved",
   "theorems": [
    "C123_shapes",
    "C123_masses_centers",
    "C123_densities",
    "C123_failures",
    "C123_missing",
    "C123_runs",
    "C123_zero_units",
    "C123_units"
   ],
   "note": "Rank 0, no dumped catalogue present; input and output are made with the same h. The eigensolver and the random choices (one list per position in the selection) are arbitrary; C123_units compares two calls with the same choices. Densities: increasing positive bin edges and positive radii, direct binning in spheres; the shells and particles are those the code sees after its own periodic reflection (C24). If an object has missing particles and the centre of an earlier one is not found, the model names the IndexError, the code raises RecursionError."
  },
  {
   "property": "C124",
   "status": "partial",
   "theorems": [
    "C124_refuted",
    "C124_densities",
    "C124_fails",
    "C124_missing"
   ],
   "note": "Refuted (C124_refuted): an object with a particle exactly at its centre, e.g. three particles in a row, makes the whole call raise ZeroDivisionError, so that objects which have a profile when asked for alone get none. Proved: the values of every returned row in physical units (C124_densities), and that with a good selection a call fails only for such an object or for a centre that is not found (C124_fails), or for missing particles (C124_missing). Rank 0; the exception of the compiled loop is that of the model of C43."
  },
  {
   "property": "C125",
   "status": "partial",
   "theorems": [
    "C125_refuted",
    "C125_nothing",
    "C125_mode",
    "C125_fails",
    "C125_blank",
    "C125_zero"
   ],
   "note": "Refuted (C125_refuted): for an object with a finite spherical profile and a converged shape the ellipsoidal profile is NaN at every radius. The overwritten catalogue (C40) is the cause, here shown from the arrays of the user on: with CENTER = 'com' every returned entry is NaN (C125_nothing), with CENTER = 'mode' and an object of five or more particles nothing is returned (C125_mode), and whenever the shapes are found and interpolate to non-zero axes the call does return the NaN table (C125_blank). The failures asked for are proved (C125_fails). Rank 0, no dumped catalogue; scipy's interp1d is an arbitrary function."
  },
  {
   "property": "C126",
   "status": "partial",
   "theorems": [
    "C126_refuted",
    "C126_numbers",
    "C126_failures",
    "C126_rate",
    "C126_no_rate",
    "C126_values"
   ],
   "note": "refuted: a folder, as in the documentation of density profiles, raises IsADirectoryError, and in a universe with curvature the attribute Hubble is not the expansion rate (C126_refuted); for names of snapshots all numbers of the header come back in every format, byte order and naming (C126_numbers); the rate shown is the expansion rate exactly without curvature or at z = -1 (C126_rate) and not a number exactly for a negative sum (C126_no_rate); missing files, folders and HDF5 files with other endings fail as stated (C126_failures); rounding of the rate is not modelled"
  },
  {
   "property": "C127",
   "status": "partial",
   "theorems": [
    "C127_refuted",
    "C127_partial",
    "C127_by_position",
    "C127_shown",
    "C127_enters"
   ],
   "note": "refuted: getPartType and getVelXYZMasses do not exist; estDensProfs, fitDensProfs, estConcentrations and plotDensProfs do not accept the documented names ROverR200 and ROverR200_fit as keywords; dumpShapeCatLocal and dumpShapeCatGlobal take no folder, so that a documented call hands the folder over as the numbers of the objects (C127_refuted, each entry of the eight names). All other entries keep the promise for every argument list (C127_partial), the four density methods do when the radii are positional (C127_by_position), and of 32 calls shown all enter but three (C127_shown): two name dumpShapeCatVelLocal and dumpShapeCatVelGlobal, which do not exist, one is a syntax error. Types of the values are not modelled here."
  },
  {
   "property": "C128",
   "status": "proved",
   "theorems": [
    "C128_same",
    "C128_refused",
    "C128_shapes",
    "C128_masses_centers",
    "C128_densities",
    "C128_zero_minimum_refuted"
   ],
   "note": "make_gadget is a relation over all thread schedules; C128_same states that its only outcome is that of DensShapeProfs on the arrays. For a minimum of zero the two differ (C128_zero_minimum_refuted): a group without subhalo is then an object without particles in the arrays and no object in the catalogue; such minima are outside the property. Single-precision rounding of the stored numbers is not modelled, and the radii are those read in the current units (C10, C99 for the memo)."
  },
  {
   "property": "C129",
   "status": "partial",
   "theorems": [
    "C129_local_refuted",
    "C129_global_refuted",
    "C129_never",
    "C129_objects",
    "C129_frame"
   ],
   "note": "Refuted in two ways: the local velocity shapes do not depend on the velocities (replacing the velocities by any others leaves every outcome possible that was possible before) and no entry of them is ever marked as converged; getShapeCatVelGlobal raises TypeError for every valid selection, because it passes thirteen arguments to a routine with eleven parameters. What holds: C129_objects (entries, centres and masses belong to the objects asked for and come from their particles alone, global and local) and C129_frame (a bulk velocity changes nothing). Catalogues dumped earlier are C38; radii and rounding as in C128."
  },
  {
   "property": "C130",
   "status": "proved",
   "theorems": [
    "C130_global",
    "C130_local",
    "C130_failures",
    "C130_returned"
   ],
   "note": "tolerances below one and non-negative masses; the eigenvalue routine obeys eig_contract (see C30). The radii of the local shapes are not zero. A run that raises, or does not end within the fuel, draws nothing (shapeTables, plotted). Dumped catalogues are C38; for fewer than two bins see C113."
  },
  {
   "property": "C131",
   "status": "proved",
   "theorems": [
    "C131_values",
    "C131_drawn",
    "C131_units",
    "C131_failures",
    "C131_mode"
   ],
   "note": "The bars are those of C113 for HIST_NB_BINS edges; the ellipticities are those of C36. C131_failures: with the centre of mass the only error of a valid selection is IndexError for zero edges. plotLocalEpsHist always raises TypeError (C113_local_refuted)."
  },
  {
   "property": "C132",
   "status": "proved",
   "theorems": [
    "C132_panels",
    "C132_catalogue",
    "C132_failures",
    "C132_outcomes",
    "C132_alone",
    "C132_figures"
   ],
   "note": "What is made of a row (ellipsoids, arrows, labels) is C104, for finite rows. The random choice of at most 5000 particles for display is left out. Dumped catalogues are C38, the names of the files C96. Runs that do not end within the fuel have no rows."
  },
  {
   "property": "C133",
   "status": "proved",
   "theorems": [
    "C133_shapes",
    "C133_masses_centers",
    "C133_densities",
    "C133_figures"
   ],
   "note": "From the descriptions of C123 of what is returned for an object. For calls that return (failures are C123_failures: an invalid other object makes the whole call raise). Densities for increasing edges and positive radii. C133_figures: the figures of C132, which differ only in the number in their names."
  }
 ]
}