(** The calls between the functions of cosmic_profiles as a table, with the parameters of the callees
    and Python's rules for binding arguments. Files are relative to /repo/cosmic_profiles. Left out:
    print_status (it takes any keywords), the decorators of common/caching.py and the attributes they
    add, calls of other libraries. *)
From Coq Require Import String List ZArith Bool Ascii.
Import ListNotations.
Local Open Scope string_scope.
Local Open Scope Z_scope.

(** A function: where it is defined, and its parameters without self; true: it has a default. *)
Record fn := Fn { f_id : string; f_file : string; f_line : Z; f_params : list (string * bool) }.
(** An argument: positional or by keyword; with the name of the variable or attribute handed over,
    "" for other expressions. An index [obj_numbers], .base and self. are dropped. *)
Inductive arg := P (name : string) | K (kw name : string).
(** A call: its place, the function it is in, the function called and the arguments. A method of self
    is the one of the class of the caller or of the nearest base class. *)
Record call := Call { c_file : string; c_line : Z; c_caller : string; c_callee : string; c_args : list arg }.

(** Python language reference, "Calls": positional arguments first, then keywords. Does the list of
    parameters accept the arguments? If not, the call raises TypeError. *)
Definition pos_args (l : list arg) : list string := flat_map (fun a => match a with P n => [n] | K _ _ => [] end) l.
Definition kw_args (l : list arg) : list string := flat_map (fun a => match a with P _ => [] | K k _ => [k] end) l.
Definition mem (x : string) (l : list string) : bool := existsb (String.eqb x) l.
Fixpoint nodup (l : list string) : bool := match l with [] => true | x :: l' => negb (mem x l') && nodup l' end.
Definition accepts (ps : list (string * bool)) (args : list arg) : bool :=
  let n := List.length (pos_args args) in
  Nat.leb n (List.length ps) && nodup (kw_args args)
  && forallb (fun k => mem k (map fst (skipn n ps))) (kw_args args)
  && forallb (fun p => snd p || mem (fst p) (kw_args args)) (skipn n ps).

(** The definitions. *)
Definition functions : list fn := [
  Fn "CosmicBase.__init__" "common/cosmic_base_class.pyx" 36 [("SNAP", false); ("L_BOX", false); ("MIN_NUMBER_PTCS", false); ("CENTER", false); ("VIZ_DEST", false); ("CAT_DEST", false); ("SUFFIX", false)];
  Fn "CosmicBase._dumpShapeCatGlobalBase" "common/cosmic_base_class.pyx" 482 [("xyz", false); ("masses", false); ("r200", false); ("idx_cat", false); ("obj_size", false); ("IT_TOL", false); ("IT_WALL", false); ("IT_MIN", false); ("suffix", false); ("reduced", false)];
  Fn "CosmicBase._dumpShapeCatLocalBase" "common/cosmic_base_class.pyx" 422 [("xyz", false); ("masses", false); ("r200", false); ("idx_cat", false); ("obj_size", false); ("r_over_r200", false); ("IT_TOL", false); ("IT_WALL", false); ("IT_MIN", false); ("suffix", false); ("reduced", false); ("shell_based", false)];
  Fn "CosmicBase._dumpShapeVelCatGlobalBase" "common/cosmic_base_class.pyx" 597 [("xyz", false); ("velxyz", false); ("masses", false); ("r200", false); ("idx_cat", false); ("obj_size", false); ("IT_TOL", false); ("IT_WALL", false); ("IT_MIN", false); ("suffix", false); ("reduced", false)];
  Fn "CosmicBase._dumpShapeVelCatLocalBase" "common/cosmic_base_class.pyx" 536 [("xyz", false); ("velxyz", false); ("masses", false); ("r200", false); ("idx_cat", false); ("obj_size", false); ("r_over_r200", false); ("IT_TOL", false); ("IT_WALL", false); ("IT_MIN", false); ("suffix", false); ("reduced", false); ("shell_based", false)];
  Fn "CosmicBase._estConcentrationsBase" "common/cosmic_base_class.pyx" 1047 [("r200", false); ("obj_size", false); ("dens_profs", false); ("r_over_r200", false); ("method", false); ("obj_numbers", false)];
  Fn "CosmicBase._estDensProfsBase" "common/cosmic_base_class.pyx" 892 [("xyz", false); ("masses", false); ("r200", false); ("idx_cat", false); ("obj_size", false); ("r_over_r200", false); ("obj_numbers", false); ("direct_binning", false); ("spherical", false); ("reduced", false); ("shell_based", false); ("r_over_r200_shape", false); ("IT_TOL", false); ("IT_WALL", false); ("IT_MIN", false)];
  Fn "CosmicBase._fitDensProfsBase" "common/cosmic_base_class.pyx" 1001 [("r200", false); ("obj_size", false); ("dens_profs", false); ("r_over_r200", false); ("method", false); ("obj_numbers", false)];
  Fn "CosmicBase._getConcentrationsBase" "common/cosmic_base_class.pyx" 785 [("dens_profs", false); ("r_over_r200", false); ("r200", false); ("method", false)];
  Fn "CosmicBase._getDensProfsBestFitsBase" "common/cosmic_base_class.pyx" 765 [("dens_profs", false); ("r_over_r200", false); ("r200", false); ("method", false)];
  Fn "CosmicBase._getDensProfsEllDirectBinningBase" "common/cosmic_base_class.pyx" 830 [("xyz", false); ("masses", false); ("r200", false); ("idx_cat", false); ("obj_size", false); ("r_over_r200", false); ("a", false); ("b", false); ("c", false); ("major", false); ("inter", false); ("minor", false)];
  Fn "CosmicBase._getDensProfsKernelBasedBase" "common/cosmic_base_class.pyx" 868 [("xyz", false); ("masses", false); ("r200", false); ("idx_cat", false); ("obj_size", false); ("r_over_r200", false)];
  Fn "CosmicBase._getDensProfsSphDirectBinningBase" "common/cosmic_base_class.pyx" 806 [("xyz", false); ("masses", false); ("r200", false); ("idx_cat", false); ("obj_size", false); ("r_over_r200", false)];
  Fn "CosmicBase._getMassesCentersBase" "common/cosmic_base_class.pyx" 67 [("xyz", false); ("masses", false); ("idx_cat", false); ("obj_size", false)];
  Fn "CosmicBase._getObjInfoBase" "common/cosmic_base_class.pyx" 1130 [("idx_cat", false); ("obj_size", false); ("obj_type", false)];
  Fn "CosmicBase._getShapeCatGlobalBase" "common/cosmic_base_class.pyx" 160 [("xyz", false); ("masses", false); ("r200", false); ("idx_cat", false); ("obj_size", false); ("IT_TOL", false); ("IT_WALL", false); ("IT_MIN", false); ("reduced", false); ("suffix", false)];
  Fn "CosmicBase._getShapeCatLocalBase" "common/cosmic_base_class.pyx" 83 [("xyz", false); ("masses", false); ("r200", false); ("idx_cat", false); ("obj_size", false); ("r_over_r200", false); ("IT_TOL", false); ("IT_WALL", false); ("IT_MIN", false); ("reduced", false); ("shell_based", false); ("suffix", false)];
  Fn "CosmicBase._getShapeCatVelGlobalBase" "common/cosmic_base_class.pyx" 330 [("xyz", false); ("velxyz", false); ("masses", false); ("r200", false); ("idx_cat", false); ("obj_size", false); ("IT_TOL", false); ("IT_WALL", false); ("IT_MIN", false); ("reduced", false); ("suffix", false)];
  Fn "CosmicBase._getShapeCatVelLocalBase" "common/cosmic_base_class.pyx" 250 [("xyz", false); ("velxyz", false); ("masses", false); ("r200", false); ("idx_cat", false); ("obj_size", false); ("r_over_r200", false); ("IT_TOL", false); ("IT_WALL", false); ("IT_MIN", false); ("reduced", false); ("shell_based", false); ("suffix", false)];
  Fn "CosmicBase._plotDensProfsBase" "common/cosmic_base_class.pyx" 1083 [("r200", false); ("obj_size", false); ("dens_profs", false); ("r_over_r200", false); ("dens_profs_fit", false); ("r_over_r200_fit", false); ("method", false); ("suffix", false); ("nb_bins", false); ("obj_numbers", false)];
  Fn "CosmicBase._plotGlobalTHistBase" "common/cosmic_base_class.pyx" 733 [("xyz", false); ("masses", false); ("r200", false); ("idx_cat", false); ("obj_size", false); ("IT_TOL", false); ("IT_WALL", false); ("IT_MIN", false); ("HIST_NB_BINS", false); ("reduced", false); ("suffix", true)];
  Fn "CosmicBase._plotLocalTHistBase" "common/cosmic_base_class.pyx" 693 [("xyz", false); ("masses", false); ("r200", false); ("idx_cat", false); ("obj_size", false); ("r_over_r200", false); ("IT_TOL", false); ("IT_WALL", false); ("IT_MIN", false); ("HIST_NB_BINS", false); ("frac_r200", false); ("reduced", false); ("shell_based", false); ("suffix", true)];
  Fn "CosmicBase._plotShapeProfsBase" "common/cosmic_base_class.pyx" 655 [("xyz", false); ("masses", false); ("r200", false); ("idx_cat", false); ("obj_size", false); ("r_over_r200", false); ("IT_TOL", false); ("IT_WALL", false); ("IT_MIN", false); ("reduced", false); ("shell_based", false); ("nb_bins", false); ("suffix", true)];
  Fn "CythonHelpers.ZHEEVR" "cython_helpers/helper_class.pyx" 123 [("H", false); ("eigvals", false); ("Z", false); ("nrows", false)];
  Fn "CythonHelpers.calcCoM" "cython_helpers/helper_class.pyx" 85 [("nns", false); ("masses", false); ("com", false)];
  Fn "CythonHelpers.calcDensProfBruteForceEll" "cython_helpers/helper_class.pyx" 246 [("xyz", false); ("xyz_princ", false); ("masses", false); ("center", false); ("r_200", false); ("a", false); ("b", false); ("c", false); ("major", false); ("inter", false); ("minor", false); ("dens_prof", false); ("shell", false)];
  Fn "CythonHelpers.calcDensProfBruteForceSph" "cython_helpers/helper_class.pyx" 204 [("xyz", false); ("masses", false); ("center", false); ("r_200", false); ("bin_edges", false); ("dens_prof", false); ("shell", false)];
  Fn "CythonHelpers.calcKTilde" "cython_helpers/helper_class.pyx" 417 [("r", false); ("r_i", false); ("h_i", false)];
  Fn "CythonHelpers.calcLocalSpread" "cython_helpers/helper_class.pyx" 62 [("nns", false)];
  Fn "CythonHelpers.calcShapeTensor" "cython_helpers/helper_class.pyx" 19 [("nns", false); ("select", false); ("shape_tensor", false); ("masses", false); ("center", false); ("nb_pts", false); ("reduced", false); ("r_ell", true)];
  Fn "CythonHelpers.cython_abs" "cython_helpers/helper_class.pyx" 110 [("x", false)];
  Fn "CythonHelpers.respectPBCNoRef" "cython_helpers/helper_class.pyx" 169 [("xyz", false); ("L_BOX", false)];
  Fn "DensProfsBase.__init__" "dens_profs/dens_profs_classes.pyx" 25 [("xyz", false); ("masses", false); ("idx_cat", false); ("r200", false); ("obj_size", false); ("SNAP", false); ("L_BOX", false); ("MIN_NUMBER_PTCS", false); ("CENTER", false); ("VIZ_DEST", false); ("CAT_DEST", false); ("SUFFIX", false)];
  Fn "DensProfsBase._getMassesCenters" "dens_profs/dens_profs_classes.pyx" 123 [("obj_numbers", false)];
  Fn "DensShapeProfsBase.__init__" "shape_profs/shape_profs_classes.pyx" 46 [("xyz", false); ("masses", false); ("idx_cat", false); ("r200", false); ("obj_size", false); ("SNAP", false); ("L_BOX", false); ("MIN_NUMBER_PTCS", false); ("CENTER", false); ("VIZ_DEST", false); ("CAT_DEST", false); ("SUFFIX", false)];
  Fn "DensShapeProfsGadget._getVelXYZ" "shape_profs/shape_profs_classes.pyx" 774 [];
  Fn "DensShapeProfsGadget._getXYZMasses" "shape_profs/shape_profs_classes.pyx" 747 [];
  Fn "DensShapeProfsGadget.getIdxCat" "shape_profs/shape_profs_classes.pyx" 809 [];
  Fn "caching.np_cache_factory" "common/caching.py" 254 [("nb_arrs", false); ("nb_lists", false)];
  Fn "config.LMVLabel" "common/config.py" 212 [];
  Fn "config.LengthInternalToOut" "common/config.py" 152 [("length_arr", false)];
  Fn "config.getAdmissibleLMV" "common/config.py" 10 [];
  Fn "config.getLMVInternal" "common/config.py" 17 [];
  Fn "cosmo_tools.M_split" "common/cosmo_tools.py" 221 [("m", false); ("center", false); ("start_time", false); ("v", true); ("NB_BINS", true)];
  Fn "cosmo_tools.calcMode" "common/cosmo_tools.py" 15 [("xyz", false); ("masses", false); ("rad", false)];
  Fn "cosmo_tools.chiSquareToICore" "common/cosmo_tools.py" 129 [("occs", false)];
  Fn "cosmo_tools.chiSquareToIMultiDim" "common/cosmo_tools.py" 59 [("x", false); ("y", false)];
  Fn "cosmo_tools.getBlocks" "common/cosmo_tools.py" 209 [("lst", false); ("n", false)];
  Fn "cosmo_tools.getMeanOrMedianAndError" "common/cosmo_tools.py" 174 [("y", false); ("ERROR_METHOD", false); ("N_REAL", true)];
  Fn "dens_profs_algos.calcDensProfsEllDirectBinning" "dens_profs/dens_profs_algos.pyx" 112 [("xyz", false); ("masses", false); ("r200s", false); ("r_over_r200", false); ("a", false); ("b", false); ("c", false); ("major", false); ("inter", false); ("minor", false); ("idx_cat", false); ("obj_size", false); ("L_BOX", false); ("CENTER", false)];
  Fn "dens_profs_algos.calcDensProfsKernelBased" "dens_profs/dens_profs_algos.pyx" 221 [("xyz", false); ("masses", false); ("r200s", false); ("r_over_r200", false); ("idx_cat", false); ("obj_size", false); ("L_BOX", false); ("CENTER", false)];
  Fn "dens_profs_algos.calcDensProfsSphDirectBinning" "dens_profs/dens_profs_algos.pyx" 54 [("xyz", false); ("masses", false); ("r200s", false); ("r_over_r200", false); ("idx_cat", false); ("obj_size", false); ("L_BOX", false); ("CENTER", false)];
  Fn "dens_profs_algos.calcMassesCenters" "dens_profs/dens_profs_algos.pyx" 15 [("xyz", false); ("masses", false); ("idx_cat", false); ("obj_size", false); ("L_BOX", false); ("CENTER", false)];
  Fn "dens_profs_tools.drawDensProfs" "dens_profs/dens_profs_tools.py" 82 [("VIZ_DEST", false); ("SNAP", false); ("r200s", false); ("dens_profs_fit", false); ("ROverR200_fit", false); ("dens_profs", false); ("ROverR200", false); ("obj_masses", false); ("obj_centers", false); ("method", false); ("nb_bins", false); ("start_time", false); ("MASS_UNIT", false); ("suffix", true)];
  Fn "dens_profs_tools.drawDensProfs.getModelParsDict" "dens_profs/dens_profs_tools.py" 120 [("model_pars_arr", false); ("method", false)];
  Fn "dens_profs_tools.fitDensProf" "dens_profs/dens_profs_tools.py" 232 [("ROverR200", false); ("method", false); ("median_r200_obj_nb", false)];
  Fn "dens_profs_tools.fitDensProfHelper" "dens_profs/dens_profs_tools.py" 325 [("dens_profs", false); ("ROverR200", false); ("r200s", false); ("method", false)];
  Fn "dens_profs_tools.getAlphaBetaGammaProf" "dens_profs/dens_profs_tools.py" 37 [("r", false); ("model_pars", false)];
  Fn "dens_profs_tools.getEinastoProf" "dens_profs/dens_profs_tools.py" 22 [("r", false); ("model_pars", false)];
  Fn "dens_profs_tools.getHernquistProf" "dens_profs/dens_profs_tools.py" 68 [("r", false); ("model_pars", false)];
  Fn "dens_profs_tools.getModelParsDict" "dens_profs/dens_profs_tools.py" 215 [("model_pars_arr", false); ("profile", false)];
  Fn "dens_profs_tools.getNFWProf" "dens_profs/dens_profs_tools.py" 54 [("r", false); ("model_pars", false)];
  Fn "gen_catalogues.calcCSHIdxs" "gadget/gen_catalogues.pyx" 12 [("obj_idxs", false); ("start_idx", false); ("nb_shs", false); ("csh_size", false); ("MIN_NUMBER_PTCS", false)];
  Fn "gen_catalogues.calcObjCat" "gadget/gen_catalogues.pyx" 39 [("nb_shs", false); ("sh_len", false); ("fof_sizes", false); ("group_r200", false); ("MIN_NUMBER_PTCS", false)];
  Fn "python_routines._set_axes_radius" "common/python_routines.py" 255 [("ax", false); ("origin", false); ("radius", false)];
  Fn "python_routines.calcCoM" "common/python_routines.py" 530 [("xyz", false); ("masses", false)];
  Fn "python_routines.calcMode" "common/python_routines.py" 287 [("xyz", false); ("masses", false); ("rad", false)];
  Fn "python_routines.checkDensFitMethod" "common/python_routines.py" 678 [("method", false)];
  Fn "python_routines.checkKatzConfig" "common/python_routines.py" 656 [("katz_config", false)];
  Fn "python_routines.drawUniformFromShell.transformCartToSpher" "common/python_routines.py" 479 [("xyz", false)];
  Fn "python_routines.eTo10" "common/python_routines.py" 14 [("st", false)];
  Fn "python_routines.fibonacci_ellipsoid" "common/python_routines.py" 308 [("a", false); ("b", false); ("c", false); ("samples", true)];
  Fn "python_routines.getCatWithinFracR200" "common/python_routines.py" 567 [("cat_in", false); ("obj_size_in", false); ("xyz", false); ("masses", false); ("L_BOX", false); ("CENTER", false); ("r200", false); ("frac_r200", false)];
  Fn "python_routines.getRhoCrit" "common/python_routines.py" 196 [];
  Fn "python_routines.getSubSetIdxCat" "common/python_routines.py" 638 [("idx_cat", false); ("obj_size", false); ("obj_numbers", false)];
  Fn "python_routines.isValidSelection" "common/python_routines.py" 611 [("obj_numbers", false); ("nb_objects", false)];
  Fn "python_routines.recentreObject" "common/python_routines.py" 549 [("xyz", false); ("L_BOX", false)];
  Fn "python_routines.respectPBCNoRef" "common/python_routines.py" 499 [("xyz", false); ("L_BOX", true)];
  Fn "python_routines.set_axes_equal" "common/python_routines.py" 239 [("ax", false)];
  Fn "read_fof.getFoFSHData" "gadget/read_fof.py" 30 [("HDF5_GROUP_DEST", false); ("RVIR_OR_R200", false); ("PART_TYPE", false)];
  Fn "read_fof.getPartType" "gadget/read_fof.py" 15 [("OBJ_TYPE", false)];
  Fn "readgadget.fname_format" "gadget/readgadget.py" 16 [("snapshot", false)];
  Fn "readgadget.read_block" "gadget/readgadget.py" 127 [("snapshot", false); ("block", false); ("ptype", false); ("verbose", true)];
  Fn "readgadget.read_field" "gadget/readgadget.py" 75 [("snapshot", false); ("block", false); ("ptype", false)];
  Fn "readsnap.find_block" "gadget/readsnap.py" 105 [("filename", false); ("format", false); ("swap", false); ("block", false); ("block_num", false); ("only_list_blocks", true)];
  Fn "readsnap.read_block" "gadget/readsnap.py" 169 [("filename", false); ("block", false); ("parttype", true); ("physical_velocities", true); ("arepo", true); ("no_masses", true); ("verbose", true); ("nall", true)];
  Fn "shape_profs_algos.calcMorphGlobal" "shape_profs/shape_profs_algos.pyx" 631 [("xyz", false); ("masses", false); ("r200", false); ("idx_cat", false); ("obj_size", false); ("L_BOX", false); ("IT_TOL", false); ("IT_WALL", false); ("IT_MIN", false); ("CENTER", false); ("SAFE", false); ("reduced", false)];
  Fn "shape_profs_algos.calcMorphGlobalVelDisp" "shape_profs/shape_profs_algos.pyx" 859 [("xyz", false); ("vxyz", false); ("masses", false); ("r200", false); ("idx_cat", false); ("obj_size", false); ("L_BOX", false); ("IT_TOL", false); ("IT_WALL", false); ("IT_MIN", false); ("CENTER", false); ("SAFE", false); ("reduced", false)];
  Fn "shape_profs_algos.calcMorphLocal" "shape_profs/shape_profs_algos.pyx" 517 [("xyz", false); ("masses", false); ("r200", false); ("idx_cat", false); ("obj_size", false); ("L_BOX", false); ("r_over_r200", false); ("IT_TOL", false); ("IT_WALL", false); ("IT_MIN", false); ("CENTER", false); ("reduced", false); ("shell_based", false)];
  Fn "shape_profs_algos.calcMorphLocalVelDisp" "shape_profs/shape_profs_algos.pyx" 739 [("xyz", false); ("vxyz", false); ("masses", false); ("r200", false); ("idx_cat", false); ("obj_size", false); ("L_BOX", false); ("r_over_r200", false); ("IT_TOL", false); ("IT_WALL", false); ("IT_MIN", false); ("CENTER", false); ("reduced", false); ("shell_based", false)];
  Fn "shape_profs_algos.calcObjMorphGlobal" "shape_profs/shape_profs_algos.pyx" 1049 [("morph_info", false); ("r200", false); ("xyz", false); ("xyz_princ", false); ("masses", false); ("ellipsoid", false); ("r_ell", false); ("center", false); ("shape_tensor", false); ("eigval", false); ("eigvec", false); ("IT_TOL", false); ("IT_WALL", false); ("IT_MIN", false); ("SAFE", false); ("reduced", false)];
  Fn "shape_profs_algos.calcObjMorphGlobalVelDisp" "shape_profs/shape_profs_algos.pyx" 1181 [("morph_info", false); ("r200", false); ("xyz", false); ("vxyz", false); ("xyz_princ", false); ("masses", false); ("ellipsoid", false); ("r_ell", false); ("center", false); ("vcenter", false); ("shape_tensor", false); ("eigval", false); ("eigvec", false); ("IT_TOL", false); ("IT_WALL", false); ("IT_MIN", false); ("SAFE", false); ("reduced", false)];
  Fn "shape_profs_algos.calcObjMorphLocal" "shape_profs/shape_profs_algos.pyx" 975 [("morph_info", false); ("r200", false); ("log_d", false); ("xyz", false); ("xyz_princ", false); ("masses", false); ("shell", false); ("r_ell", false); ("center", false); ("shape_tensor", false); ("eigval", false); ("eigvec", false); ("IT_TOL", false); ("IT_WALL", false); ("IT_MIN", false); ("reduced", false); ("shell_based", false)];
  Fn "shape_profs_algos.calcObjMorphLocalVelDisp" "shape_profs/shape_profs_algos.pyx" 1103 [("morph_info", false); ("r200", false); ("log_d", false); ("xyz", false); ("vxyz", false); ("xyz_princ", false); ("masses", false); ("shell", false); ("r_ell", false); ("center", false); ("vcenter", false); ("shape_tensor", false); ("eigval", false); ("eigvec", false); ("IT_TOL", false); ("IT_WALL", false); ("IT_MIN", false); ("reduced", false); ("shell_based", false)];
  Fn "shape_profs_algos.runEllAlgo" "shape_profs/shape_profs_algos.pyx" 148 [("morph_info", false); ("xyz", false); ("xyz_princ", false); ("masses", false); ("ellipsoid", false); ("r_ell", false); ("center", false); ("shape_tensor", false); ("eigval", false); ("eigvec", false); ("d", false); ("IT_TOL", false); ("IT_WALL", false); ("IT_MIN", false); ("reduced", false)];
  Fn "shape_profs_algos.runEllVDispAlgo" "shape_profs/shape_profs_algos.pyx" 265 [("morph_info", false); ("xyz", false); ("vxyz", false); ("xyz_princ", false); ("masses", false); ("ellipsoid", false); ("r_ell", false); ("center", false); ("vcenter", false); ("shape_tensor", false); ("eigval", false); ("eigvec", false); ("d", false); ("IT_TOL", false); ("IT_WALL", false); ("IT_MIN", false); ("reduced", false)];
  Fn "shape_profs_algos.runShellAlgo" "shape_profs/shape_profs_algos.pyx" 16 [("morph_info", false); ("xyz", false); ("xyz_princ", false); ("masses", false); ("shell", false); ("r_ell", false); ("center", false); ("shape_tensor", false); ("eigval", false); ("eigvec", false); ("d", false); ("delta_d", false); ("IT_TOL", false); ("IT_WALL", false); ("IT_MIN", false); ("reduced", false)];
  Fn "shape_profs_algos.runShellVDispAlgo" "shape_profs/shape_profs_algos.pyx" 386 [("morph_info", false); ("xyz", false); ("vxyz", false); ("xyz_princ", false); ("masses", false); ("shell", false); ("r_ell", false); ("center", false); ("vcenter", false); ("shape_tensor", false); ("eigval", false); ("eigvec", false); ("d", false); ("delta_d", false); ("IT_TOL", false); ("IT_WALL", false); ("IT_MIN", false); ("reduced", false)];
  Fn "shape_profs_tools.getEpsilon" "shape_profs/shape_profs_tools.py" 18 [("idx_cat", false); ("obj_size", false); ("xyz", false); ("masses", false); ("L_BOX", false); ("CENTER", false); ("angle", true)];
  Fn "shape_profs_tools.getGlobalEpsHist" "shape_profs/shape_profs_tools.py" 355 [("xyz", false); ("masses", false); ("idx_cat", false); ("obj_size", false); ("L_BOX", false); ("CENTER", false); ("VIZ_DEST", false); ("SNAP", false); ("suffix", true); ("HIST_NB_BINS", true)];
  Fn "shape_profs_tools.getGlobalTHist" "shape_profs/shape_profs_tools.py" 299 [("VIZ_DEST", false); ("SNAP", false); ("start_time", false); ("obj_masses", false); ("obj_centers", false); ("d", false); ("q", false); ("s", false); ("major_full", false); ("HIST_NB_BINS", false); ("MASS_UNIT", false); ("suffix", true)];
  Fn "shape_profs_tools.getLocalEpsHist" "shape_profs/shape_profs_tools.py" 393 [("xyz", false); ("masses", false); ("r200", false); ("idx_cat", false); ("obj_size", false); ("L_BOX", false); ("CENTER", false); ("VIZ_DEST", false); ("SNAP", false); ("frac_r200", false); ("suffix", true); ("HIST_NB_BINS", true)];
  Fn "shape_profs_tools.getLocalTHist" "shape_profs/shape_profs_tools.py" 236 [("VIZ_DEST", false); ("SNAP", false); ("r_over_r200", false); ("r200", false); ("start_time", false); ("obj_masses", false); ("obj_centers", false); ("d", false); ("q", false); ("s", false); ("major_full", false); ("HIST_NB_BINS", false); ("frac_r200", false); ("MASS_UNIT", false); ("suffix", true)];
  Fn "shape_profs_tools.getShape" "shape_profs/shape_profs_tools.py" 64 [("d", false); ("param_interest", false); ("ERROR_METHOD", false); ("r_over_r200", false); ("r200", false)];
  Fn "shape_profs_tools.getShapeMs" "shape_profs/shape_profs_tools.py" 92 [("d", false); ("idx_groups", false); ("group", false); ("param_interest", false); ("ERROR_METHOD", false); ("r_over_r200", false); ("r200", false)];
  Fn "shape_profs_tools.getShapeProfs" "shape_profs/shape_profs_tools.py" 105 [("VIZ_DEST", false); ("SNAP", false); ("r_over_r200", false); ("r200", false); ("start_time", false); ("obj_masses", false); ("obj_centers", false); ("d", false); ("q", false); ("s", false); ("major_full", false); ("nb_bins", false); ("MASS_UNIT", true); ("suffix", true)]].

(** The calls. *)
Definition calls : list call := [
  Call "common/config.py" 18 "config.getLMVInternal" "config.getAdmissibleLMV" [];
  Call "common/config.py" 106 "config.updateInUnitSystem" "config.getAdmissibleLMV" [];
  Call "common/config.py" 138 "config.updateOutUnitSystem" "config.getAdmissibleLMV" [];
  Call "common/config.py" 158 "config.LengthInternalToOut" "config.getAdmissibleLMV" [];
  Call "common/config.py" 168 "config.MassInternalToOut" "config.getAdmissibleLMV" [];
  Call "common/config.py" 178 "config.VelInternalToOut" "config.getAdmissibleLMV" [];
  Call "common/config.py" 188 "config.LengthInToInternal" "config.getAdmissibleLMV" [];
  Call "common/config.py" 198 "config.MassInToInternal" "config.getAdmissibleLMV" [];
  Call "common/config.py" 208 "config.VelInToInternal" "config.getAdmissibleLMV" [];
  Call "common/config.py" 217 "config.LMVLabel" "config.getAdmissibleLMV" [];
  Call "common/cosmic_base_class.pyx" 54 "CosmicBase.__init__" "config.getLMVInternal" [];
  Call "common/cosmic_base_class.pyx" 80 "CosmicBase._getMassesCentersBase" "dens_profs_algos.calcMassesCenters" [P "xyz"; P "masses"; P "idx_cat"; P "obj_size"; P "L_BOX"; P "CENTER"];
  Call "common/cosmic_base_class.pyx" 130 "CosmicBase._getShapeCatLocalBase" "config.getLMVInternal" [];
  Call "common/cosmic_base_class.pyx" 155 "CosmicBase._getShapeCatLocalBase" "shape_profs_algos.calcMorphLocal" [P "xyz"; P "masses"; P "r200"; P "idx_cat"; P "obj_size"; P "L_BOX"; P "r_over_r200"; P "IT_TOL"; P "IT_WALL"; P "IT_MIN"; P "CENTER"; P "reduced"; P "shell_based"];
  Call "common/cosmic_base_class.pyx" 203 "CosmicBase._getShapeCatGlobalBase" "config.getLMVInternal" [];
  Call "common/cosmic_base_class.pyx" 232 "CosmicBase._getShapeCatGlobalBase" "shape_profs_algos.calcMorphGlobal" [P "xyz"; P "masses"; P "r200"; P "idx_cat"; P "obj_size"; P "L_BOX"; P "IT_TOL"; P "IT_WALL"; P "IT_MIN"; P "CENTER"; P "SAFE"; P "reduced"];
  Call "common/cosmic_base_class.pyx" 299 "CosmicBase._getShapeCatVelLocalBase" "config.getLMVInternal" [];
  Call "common/cosmic_base_class.pyx" 324 "CosmicBase._getShapeCatVelLocalBase" "shape_profs_algos.calcMorphLocalVelDisp" [P "xyz"; P "velxyz"; P "masses"; P "r200"; P "idx_cat"; P "obj_size"; P "L_BOX"; P "r_over_r200"; P "IT_TOL"; P "IT_WALL"; P "IT_MIN"; P "CENTER"; P "reduced"; P "shell_based"];
  Call "common/cosmic_base_class.pyx" 375 "CosmicBase._getShapeCatVelGlobalBase" "config.getLMVInternal" [];
  Call "common/cosmic_base_class.pyx" 404 "CosmicBase._getShapeCatVelGlobalBase" "shape_profs_algos.calcMorphGlobalVelDisp" [P "xyz"; P "velxyz"; P "masses"; P "r200"; P "idx_cat"; P "obj_size"; P "L_BOX"; P "IT_TOL"; P "IT_WALL"; P "IT_MIN"; P "CENTER"; P "SAFE"; P "reduced"];
  Call "common/cosmic_base_class.pyx" 453 "CosmicBase._dumpShapeCatLocalBase" "CosmicBase._getShapeCatLocalBase" [P "xyz"; P "masses"; P "r200"; P "idx_cat"; P "obj_size"; P "r_over_r200"; P "IT_TOL"; P "IT_WALL"; P "IT_MIN"; P "reduced"; P "shell_based"; P "suffix"];
  Call "common/cosmic_base_class.pyx" 455 "CosmicBase._dumpShapeCatLocalBase" "config.getLMVInternal" [];
  Call "common/cosmic_base_class.pyx" 508 "CosmicBase._dumpShapeCatGlobalBase" "CosmicBase._getShapeCatGlobalBase" [P "xyz"; P "masses"; P "r200"; P "idx_cat"; P "obj_size"; P "IT_TOL"; P "IT_WALL"; P "IT_MIN"; P "reduced"; P "suffix"];
  Call "common/cosmic_base_class.pyx" 509 "CosmicBase._dumpShapeCatGlobalBase" "config.getLMVInternal" [];
  Call "common/cosmic_base_class.pyx" 569 "CosmicBase._dumpShapeVelCatLocalBase" "CosmicBase._getShapeCatVelLocalBase" [P "xyz"; P "velxyz"; P "masses"; P "r200"; P "idx_cat"; P "obj_size"; P "r_over_r200"; P "IT_TOL"; P "IT_WALL"; P "IT_MIN"; P "reduced"; P "shell_based"; P "suffix"];
  Call "common/cosmic_base_class.pyx" 570 "CosmicBase._dumpShapeVelCatLocalBase" "config.getLMVInternal" [];
  Call "common/cosmic_base_class.pyx" 627 "CosmicBase._dumpShapeVelCatGlobalBase" "CosmicBase._getShapeCatVelGlobalBase" [P "xyz"; P "velxyz"; P "masses"; P "r200"; P "idx_cat"; P "obj_size"; P "IT_TOL"; P "IT_WALL"; P "IT_MIN"; P "reduced"; P "suffix"];
  Call "common/cosmic_base_class.pyx" 628 "CosmicBase._dumpShapeVelCatGlobalBase" "config.getLMVInternal" [];
  Call "common/cosmic_base_class.pyx" 689 "CosmicBase._plotShapeProfsBase" "CosmicBase._getShapeCatLocalBase" [P "xyz"; P "masses"; P "r200"; P "idx_cat"; P "obj_size"; P "r_over_r200"; P "IT_TOL"; P "IT_WALL"; P "IT_MIN"; P "reduced"; P "shell_based"; P "suffix"];
  Call "common/cosmic_base_class.pyx" 690 "CosmicBase._plotShapeProfsBase" "shape_profs_tools.getShapeProfs" [P "VIZ_DEST"; P "SNAP"; P "r_over_r200"; P "r200"; P "start_time"; P "obj_masses"; P "obj_centers"; P "d"; P "q"; P "s"; P "major"; P "nb_bins"; P "MASS_UNIT"; K "suffix" "suffix"];
  Call "common/cosmic_base_class.pyx" 729 "CosmicBase._plotLocalTHistBase" "CosmicBase._getShapeCatLocalBase" [P "xyz"; P "masses"; P "r200"; P "idx_cat"; P "obj_size"; P "r_over_r200"; P "IT_TOL"; P "IT_WALL"; P "IT_MIN"; P "reduced"; P "shell_based"; P "suffix"];
  Call "common/cosmic_base_class.pyx" 730 "CosmicBase._plotLocalTHistBase" "shape_profs_tools.getLocalTHist" [P "VIZ_DEST"; P "SNAP"; P "r_over_r200"; P "r200"; P "start_time"; P "obj_masses"; P "obj_centers"; P "d"; P "q"; P "s"; P "major"; P "HIST_NB_BINS"; P "frac_r200"; P "MASS_UNIT"; K "suffix" "suffix"];
  Call "common/cosmic_base_class.pyx" 761 "CosmicBase._plotGlobalTHistBase" "CosmicBase._getShapeCatGlobalBase" [P "xyz"; P "masses"; P "r200"; P "idx_cat"; P "obj_size"; P "IT_TOL"; P "IT_WALL"; P "IT_MIN"; P "reduced"; P "suffix"];
  Call "common/cosmic_base_class.pyx" 762 "CosmicBase._plotGlobalTHistBase" "shape_profs_tools.getGlobalTHist" [P "VIZ_DEST"; P "SNAP"; P "start_time"; P "obj_masses"; P "obj_centers"; P "d"; P "q"; P "s"; P "major"; P "HIST_NB_BINS"; P "MASS_UNIT"; K "suffix" "suffix"];
  Call "common/cosmic_base_class.pyx" 780 "CosmicBase._getDensProfsBestFitsBase" "dens_profs_tools.fitDensProfHelper" [P "dens_profs"; P "r_over_r200"; P "r200"; P "method"];
  Call "common/cosmic_base_class.pyx" 800 "CosmicBase._getConcentrationsBase" "dens_profs_tools.fitDensProfHelper" [P "dens_profs"; P "r_over_r200"; P "r200"; P "method"];
  Call "common/cosmic_base_class.pyx" 825 "CosmicBase._getDensProfsSphDirectBinningBase" "dens_profs_algos.calcDensProfsSphDirectBinning" [P "xyz"; P "masses"; P "r200"; P "r_over_r200"; P "idx_cat"; P "obj_size"; P "L_BOX"; P "CENTER"];
  Call "common/cosmic_base_class.pyx" 863 "CosmicBase._getDensProfsEllDirectBinningBase" "dens_profs_algos.calcDensProfsEllDirectBinning" [P "xyz"; P "masses"; P "r200"; P "r_over_r200"; P "a"; P "b"; P "c"; P "major"; P "inter"; P "minor"; P "idx_cat"; P "obj_size"; P "L_BOX"; P "CENTER"];
  Call "common/cosmic_base_class.pyx" 887 "CosmicBase._getDensProfsKernelBasedBase" "dens_profs_algos.calcDensProfsKernelBased" [P "xyz"; P "masses"; P "r200"; P "r_over_r200"; P "idx_cat"; P "obj_size"; P "L_BOX"; P "CENTER"];
  Call "common/cosmic_base_class.pyx" 938 "CosmicBase._estDensProfsBase" "python_routines.isValidSelection" [P "obj_numbers"; P "idx_cat_len"];
  Call "common/cosmic_base_class.pyx" 939 "CosmicBase._estDensProfsBase" "python_routines.getSubSetIdxCat" [P "idx_cat"; P "obj_size"; P "obj_numbers"];
  Call "common/cosmic_base_class.pyx" 943 "CosmicBase._estDensProfsBase" "CosmicBase._getShapeCatLocalBase" [P "xyz"; P "masses"; P "r200"; P "subset_idx_cat"; P "obj_size"; P "r_over_r200_shape"; P "IT_TOL"; P "IT_WALL"; P "IT_MIN"; P "reduced"; P "shell_based"; P "suffix"];
  Call "common/cosmic_base_class.pyx" 944 "CosmicBase._estDensProfsBase" "CosmicBase._getDensProfsEllDirectBinningBase" [P "xyz"; P "masses"; P "r200"; P "subset_idx_cat"; P "obj_size"; P "r_over_r200"; P "d"; P ""; P ""; P "major"; P "inter"; P "minor"];
  Call "common/cosmic_base_class.pyx" 946 "CosmicBase._estDensProfsBase" "CosmicBase._getDensProfsSphDirectBinningBase" [P "xyz"; P "masses"; P "r200"; P "subset_idx_cat"; P "obj_size"; P "r_over_r200"];
  Call "common/cosmic_base_class.pyx" 948 "CosmicBase._estDensProfsBase" "CosmicBase._getDensProfsKernelBasedBase" [P "xyz"; P "masses"; P "r200"; P "subset_idx_cat"; P "obj_size"; P "r_over_r200"];
  Call "common/cosmic_base_class.pyx" 949 "CosmicBase._estDensProfsBase" "config.getLMVInternal" [];
  Call "common/cosmic_base_class.pyx" 982 "CosmicBase.estDensProfs" "python_routines.isValidSelection" [P "obj_numbers"; P "nb_objects"];
  Call "common/cosmic_base_class.pyx" 983 "CosmicBase.estDensProfs" "python_routines.getSubSetIdxCat" [P "idx_cat"; P "obj_size"; P "obj_numbers"];
  Call "common/cosmic_base_class.pyx" 987 "CosmicBase.estDensProfs" "CosmicBase._getShapeCatLocalBase" [P "xyz"; P "masses"; P "r200"; P "subset_idx_cat"; P "obj_size"; P "D_LOGSTART"; P "D_LOGEND"; P "D_BINS"; P "IT_TOL"; P "IT_WALL"; P "IT_MIN"; P "reduced"; P "shell_based"; P "suffix"];
  Call "common/cosmic_base_class.pyx" 988 "CosmicBase.estDensProfs" "CosmicBase._getDensProfsEllDirectBinningBase" [P "xyz"; P "masses"; P "r200"; P "subset_idx_cat"; P "obj_size"; P ""; P "d"; P ""; P ""; P "major"; P "inter"; P "minor"];
  Call "common/cosmic_base_class.pyx" 990 "CosmicBase.estDensProfs" "CosmicBase._getDensProfsSphDirectBinningBase" [P "xyz"; P "masses"; P "r200"; P "subset_idx_cat"; P "obj_size"; P ""];
  Call "common/cosmic_base_class.pyx" 992 "CosmicBase.estDensProfs" "CosmicBase._getDensProfsKernelBasedBase" [P "xyz"; P "masses"; P "r200"; P "subset_idx_cat"; P "obj_size"; P ""];
  Call "common/cosmic_base_class.pyx" 993 "CosmicBase.estDensProfs" "config.getLMVInternal" [];
  Call "common/cosmic_base_class.pyx" 1024 "CosmicBase._fitDensProfsBase" "config.getLMVInternal" [];
  Call "common/cosmic_base_class.pyx" 1031 "CosmicBase._fitDensProfsBase" "python_routines.isValidSelection" [P "obj_numbers"; P "idx_cat_len"];
  Call "common/cosmic_base_class.pyx" 1032 "CosmicBase._fitDensProfsBase" "CosmicBase._getDensProfsBestFitsBase" [P "dens_profs"; P "r_over_r200"; P "r200"; P "method"];
  Call "common/cosmic_base_class.pyx" 1070 "CosmicBase._estConcentrationsBase" "config.getLMVInternal" [];
  Call "common/cosmic_base_class.pyx" 1077 "CosmicBase._estConcentrationsBase" "python_routines.isValidSelection" [P "obj_numbers"; P "idx_cat_len"];
  Call "common/cosmic_base_class.pyx" 1078 "CosmicBase._estConcentrationsBase" "CosmicBase._getConcentrationsBase" [P "dens_profs"; P "r_over_r200"; P "r200"; P "method"];
  Call "common/cosmic_base_class.pyx" 1114 "CosmicBase._plotDensProfsBase" "config.getLMVInternal" [];
  Call "common/cosmic_base_class.pyx" 1120 "CosmicBase._plotDensProfsBase" "DensProfsBase._getMassesCenters" [P "obj_numbers"];
  Call "common/cosmic_base_class.pyx" 1124 "CosmicBase._plotDensProfsBase" "python_routines.isValidSelection" [P "obj_numbers"; P "idx_cat_len"];
  Call "common/cosmic_base_class.pyx" 1125 "CosmicBase._plotDensProfsBase" "dens_profs_tools.drawDensProfs" [P "VIZ_DEST"; P "SNAP"; P "r200"; P "dens_profs_fit_"; P "r_over_r200_fit"; P "dens_profs_"; P "r_over_r200"; P "obj_masses"; P "obj_centers"; P "method"; P "nb_bins"; P "start_time"; P "MASS_UNIT"; K "suffix" "suffix"];
  Call "common/cosmo_tools.py" 34 "cosmo_tools.calcMode" "cosmo_tools.calcMode" [P "xyz_constrain"; P "masses_constrain"; P "rad"];
  Call "common/cosmo_tools.py" 85 "cosmo_tools.chiSquareToIMultiDim" "cosmo_tools.chiSquareToICore" [P "occs"];
  Call "common/cosmo_tools.py" 126 "cosmo_tools.chiSquareToIShapeCurve" "cosmo_tools.chiSquareToIMultiDim" [P "y_cdm"; P "y_fdm"];
  Call "common/cosmo_tools.py" 256 "cosmo_tools.M_split" "cosmo_tools.getBlocks" [P ""; P "chunk_size"];
  Call "common/cosmo_tools.py" 257 "cosmo_tools.M_split" "cosmo_tools.getBlocks" [P ""; P "chunk_size"];
  Call "common/cosmo_tools.py" 259 "cosmo_tools.M_split" "cosmo_tools.getBlocks" [P ""; P "chunk_size"];
  Call "common/python_routines.py" 218 "python_routines.getMassDMParticle" "python_routines.getRhoCrit" [];
  Call "common/python_routines.py" 253 "python_routines.set_axes_equal" "python_routines._set_axes_radius" [P "ax"; P "origin"; P "radius"];
  Call "common/python_routines.py" 306 "python_routines.calcMode" "python_routines.calcMode" [P "xyz_constrain"; P "masses_constrain"; P "rad"];
  Call "common/python_routines.py" 487 "python_routines.drawUniformFromShell" "python_routines.drawUniformFromShell.transformCartToSpher" [P "X"];
  Call "common/python_routines.py" 594 "python_routines.getCatWithinFracR200" "python_routines.respectPBCNoRef" [P ""; P "L_BOX"];
  Call "common/python_routines.py" 596 "python_routines.getCatWithinFracR200" "python_routines.calcMode" [P "xyz_"; P ""; P ""];
  Call "common/python_routines.py" 598 "python_routines.getCatWithinFracR200" "python_routines.calcCoM" [P "xyz_"; P ""];
  Call "common/python_routines.py" 602 "python_routines.getCatWithinFracR200" "python_routines.respectPBCNoRef" [P ""];
  Call "cython_helpers/helper_class.pyx" 190 "CythonHelpers.respectPBCNoRef" "CythonHelpers.cython_abs" [P ""];
  Call "cython_helpers/helper_class.pyx" 193 "CythonHelpers.respectPBCNoRef" "CythonHelpers.cython_abs" [P ""];
  Call "cython_helpers/helper_class.pyx" 196 "CythonHelpers.respectPBCNoRef" "CythonHelpers.cython_abs" [P ""];
  Call "dens_profs/dens_profs_algos.pyx" 40 "dens_profs_algos.calcMassesCenters" "python_routines.respectPBCNoRef" [P ""; P "L_BOX"];
  Call "dens_profs/dens_profs_algos.pyx" 42 "dens_profs_algos.calcMassesCenters" "python_routines.calcMode" [P "xyz_"; P ""; P ""];
  Call "dens_profs/dens_profs_algos.pyx" 44 "dens_profs_algos.calcMassesCenters" "python_routines.calcCoM" [P "xyz_"; P ""];
  Call "dens_profs/dens_profs_algos.pyx" 50 "dens_profs_algos.calcMassesCenters" "python_routines.recentreObject" [P "centers"; P "L_BOX"];
  Call "dens_profs/dens_profs_algos.pyx" 97 "dens_profs_algos.calcDensProfsSphDirectBinning" "python_routines.respectPBCNoRef" [P ""; P "L_BOX"];
  Call "dens_profs/dens_profs_algos.pyx" 99 "dens_profs_algos.calcDensProfsSphDirectBinning" "python_routines.calcMode" [P "xyz_"; P ""; P ""];
  Call "dens_profs/dens_profs_algos.pyx" 101 "dens_profs_algos.calcDensProfsSphDirectBinning" "python_routines.calcCoM" [P "xyz_"; P ""];
  Call "dens_profs/dens_profs_algos.pyx" 106 "dens_profs_algos.calcDensProfsSphDirectBinning" "CythonHelpers.respectPBCNoRef" [P ""; P "L_BOX"];
  Call "dens_profs/dens_profs_algos.pyx" 107 "dens_profs_algos.calcDensProfsSphDirectBinning" "CythonHelpers.calcDensProfBruteForceSph" [P ""; P ""; P ""; P ""; P ""; P ""; P ""];
  Call "dens_profs/dens_profs_algos.pyx" 199 "dens_profs_algos.calcDensProfsEllDirectBinning" "python_routines.respectPBCNoRef" [P ""; P "L_BOX"];
  Call "dens_profs/dens_profs_algos.pyx" 201 "dens_profs_algos.calcDensProfsEllDirectBinning" "python_routines.calcMode" [P "xyz_"; P ""; P ""];
  Call "dens_profs/dens_profs_algos.pyx" 203 "dens_profs_algos.calcDensProfsEllDirectBinning" "python_routines.calcCoM" [P "xyz_"; P ""];
  Call "dens_profs/dens_profs_algos.pyx" 214 "dens_profs_algos.calcDensProfsEllDirectBinning" "CythonHelpers.respectPBCNoRef" [P ""; P "L_BOX"];
  Call "dens_profs/dens_profs_algos.pyx" 215 "dens_profs_algos.calcDensProfsEllDirectBinning" "CythonHelpers.calcDensProfBruteForceEll" [P ""; P ""; P ""; P ""; P ""; P ""; P ""; P ""; P ""; P ""; P ""; P ""; P ""];
  Call "dens_profs/dens_profs_algos.pyx" 265 "dens_profs_algos.calcDensProfsKernelBased" "python_routines.respectPBCNoRef" [P ""; P "L_BOX"];
  Call "dens_profs/dens_profs_algos.pyx" 267 "dens_profs_algos.calcDensProfsKernelBased" "python_routines.calcMode" [P "xyz_"; P ""; P ""];
  Call "dens_profs/dens_profs_algos.pyx" 269 "dens_profs_algos.calcDensProfsKernelBased" "python_routines.calcCoM" [P "xyz_"; P ""];
  Call "dens_profs/dens_profs_algos.pyx" 273 "dens_profs_algos.calcDensProfsKernelBased" "CythonHelpers.respectPBCNoRef" [P ""; P "L_BOX"];
  Call "dens_profs/dens_profs_algos.pyx" 278 "dens_profs_algos.calcDensProfsKernelBased" "CythonHelpers.calcKTilde" [P ""; P ""; P ""];
  Call "dens_profs/dens_profs_classes.pyx" 52 "DensProfsBase.__init__" "CosmicBase.__init__" [P "SNAP"; P "L_BOX"; P "MIN_NUMBER_PTCS"; P "CENTER"; P "VIZ_DEST"; P "CAT_DEST"; P "SUFFIX"];
  Call "dens_profs/dens_profs_classes.pyx" 65 "DensProfsBase.getR200" "config.getLMVInternal" [];
  Call "dens_profs/dens_profs_classes.pyx" 89 "DensProfsBase.getXYZMasses" "config.getLMVInternal" [];
  Call "dens_profs/dens_profs_classes.pyx" 109 "DensProfsBase.getMassesCenters" "python_routines.isValidSelection" [P "obj_numbers"; P "idx_cat_len"];
  Call "dens_profs/dens_profs_classes.pyx" 110 "DensProfsBase.getMassesCenters" "python_routines.getSubSetIdxCat" [P "idx_cat"; P "obj_size"; P "obj_numbers"];
  Call "dens_profs/dens_profs_classes.pyx" 111 "DensProfsBase.getMassesCenters" "CosmicBase._getMassesCentersBase" [P "xyz"; P "masses"; P "subset_idx_cat"; P "obj_size"];
  Call "dens_profs/dens_profs_classes.pyx" 112 "DensProfsBase.getMassesCenters" "config.getLMVInternal" [];
  Call "dens_profs/dens_profs_classes.pyx" 134 "DensProfsBase._getMassesCenters" "python_routines.isValidSelection" [P "obj_numbers"; P "idx_cat_len"];
  Call "dens_profs/dens_profs_classes.pyx" 135 "DensProfsBase._getMassesCenters" "python_routines.getSubSetIdxCat" [P "idx_cat"; P "obj_size"; P "obj_numbers"];
  Call "dens_profs/dens_profs_classes.pyx" 136 "DensProfsBase._getMassesCenters" "CosmicBase._getMassesCentersBase" [P "xyz"; P "masses"; P "subset_idx_cat"; P "obj_size"];
  Call "dens_profs/dens_profs_classes.pyx" 158 "DensProfsBase.estDensProfs" "python_routines.checkKatzConfig" [P "katz_config"];
  Call "dens_profs/dens_profs_classes.pyx" 159 "DensProfsBase.estDensProfs" "CosmicBase._estDensProfsBase" [P "xyz"; P "masses"; P "r200"; P "idx_cat"; P "obj_size"; P ""; P "obj_numbers"; P "direct_binning"; P "spherical"; P "REDUCED"; P "SHELL_BASED"; P "r_over_r200_shape"; P "IT_TOL"; P "IT_WALL"; P "IT_MIN"];
  Call "dens_profs/dens_profs_classes.pyx" 175 "DensProfsBase.fitDensProfs" "python_routines.checkDensFitMethod" [P "method"];
  Call "dens_profs/dens_profs_classes.pyx" 176 "DensProfsBase.fitDensProfs" "CosmicBase._fitDensProfsBase" [P "r200"; P "obj_size"; P ""; P ""; P "method"; P "obj_numbers"];
  Call "dens_profs/dens_profs_classes.pyx" 210 "DensProfsBase.estConcentrations" "python_routines.checkDensFitMethod" [P "method"];
  Call "dens_profs/dens_profs_classes.pyx" 211 "DensProfsBase.estConcentrations" "CosmicBase._estConcentrationsBase" [P "r200"; P "obj_size"; P ""; P ""; P "method"; P "obj_numbers"];
  Call "dens_profs/dens_profs_classes.pyx" 234 "DensProfsBase.plotDensProfs" "python_routines.checkDensFitMethod" [P "method"];
  Call "dens_profs/dens_profs_classes.pyx" 235 "DensProfsBase.plotDensProfs" "CosmicBase._plotDensProfsBase" [P "r200"; P "obj_size"; P ""; P ""; P ""; P ""; P "method"; P "SUFFIX"; P "nb_bins"; P "obj_numbers"];
  Call "dens_profs/dens_profs_classes.pyx" 241 "DensProfsBase.getObjInfo" "CosmicBase._getObjInfoBase" [P "idx_cat"; P "obj_size"; P "obj_type"];
  Call "dens_profs/dens_profs_tools.py" 133 "dens_profs_tools.drawDensProfs" "cosmo_tools.M_split" [P ""; P "obj_centers"; P "start_time"; K "NB_BINS" "nb_bins"];
  Call "dens_profs/dens_profs_tools.py" 154 "dens_profs_tools.drawDensProfs" "dens_profs_tools.fitDensProf" [P "ROverR200_fit"; P "method"; P ""];
  Call "dens_profs/dens_profs_tools.py" 155 "dens_profs_tools.drawDensProfs" "dens_profs_tools.drawDensProfs.getModelParsDict" [P "best_fit"; P ""];
  Call "dens_profs/dens_profs_tools.py" 161 "dens_profs_tools.drawDensProfs" "config.getLMVInternal" [];
  Call "dens_profs/dens_profs_tools.py" 166 "dens_profs_tools.drawDensProfs" "config.LMVLabel" [];
  Call "dens_profs/dens_profs_tools.py" 168 "dens_profs_tools.drawDensProfs" "config.getAdmissibleLMV" [];
  Call "dens_profs/dens_profs_tools.py" 199 "dens_profs_tools.drawDensProfs.getModelParsDict" "dens_profs_tools.fitDensProf" [P "ROverR200_fit"; P "method"; P ""];
  Call "dens_profs/dens_profs_tools.py" 200 "dens_profs_tools.drawDensProfs.getModelParsDict" "dens_profs_tools.drawDensProfs.getModelParsDict" [P "best_fit_m"; P ""];
  Call "dens_profs/dens_profs_tools.py" 207 "dens_profs_tools.drawDensProfs.getModelParsDict" "python_routines.eTo10" [P ""];
  Call "dens_profs/dens_profs_tools.py" 207 "dens_profs_tools.drawDensProfs.getModelParsDict" "python_routines.eTo10" [P ""];
  Call "dens_profs/dens_profs_tools.py" 229 "dens_profs_tools.toMinimize" "dens_profs_tools.getModelParsDict" [P "model_pars_arr"; P "profile"];
  Call "gadget/gen_catalogues.pyx" 85 "gen_catalogues.calcObjCat.inner" "gen_catalogues.calcCSHIdxs" [P ""; P "start_idx"; P ""; P ""; P "MIN_NUMBER_PTCS"];
  Call "gadget/gen_catalogues.pyx" 93 "gen_catalogues.calcObjCat.inner" "caching.np_cache_factory" [P ""; P ""];
  Call "gadget/read_fof.py" 65 "read_fof.getFoFSHData.inner" "config.getLMVInternal" [];
  Call "gadget/read_fof.py" 136 "read_fof.getFoFSHData.inner" "caching.np_cache_factory" [P ""; P ""];
  Call "gadget/readgadget.py" 37 "readgadget.fname_format.__init__" "readgadget.fname_format" [P "snapshot"];
  Call "gadget/readgadget.py" 77 "readgadget.read_field" "readgadget.fname_format" [P "snapshot"];
  Call "gadget/readgadget.py" 82 "readgadget.read_field" "config.getLMVInternal" [];
  Call "gadget/readgadget.py" 103 "readgadget.read_field" "readsnap.read_block" [P "filename"; P "block"; K "parttype" "ptype"];
  Call "gadget/readgadget.py" 130 "readgadget.read_block" "readgadget.fname_format" [P "snapshot"];
  Call "gadget/readgadget.py" 140 "readgadget.read_block" "config.getLMVInternal" [];
  Call "gadget/readgadget.py" 153 "readgadget.read_block" "readgadget.read_field" [P "filename"; P "block"; P ""];
  Call "gadget/readgadget.py" 169 "readgadget.read_block" "readsnap.read_block" [P "snapshot"; P "block"; P "pt"; K "verbose" "verbose"];
  Call "gadget/readgadget.py" 174 "readgadget.read_block" "readgadget.read_field" [P "snapshot"; P "block"; P "pt"];
  Call "gadget/readgadget.py" 188 "readgadget.read_block" "readgadget.read_field" [P "filename"; P "block"; P "pt"];
  Call "gadget/readsnap.py" 352 "readsnap.read_block" "readsnap.find_block" [P "curfilename"; P "format"; P "swap"; P "block"; P "block_num"];
  Call "mock_tools/mock_halo_gen.py" 66 "mock_halo_gen.genHalo.getMassIntegrand" "dens_profs_tools.getEinastoProf" [P "r"; P "model_pars"];
  Call "mock_tools/mock_halo_gen.py" 68 "mock_halo_gen.genHalo.getMassIntegrand" "dens_profs_tools.getAlphaBetaGammaProf" [P "r"; P "model_pars"];
  Call "mock_tools/mock_halo_gen.py" 70 "mock_halo_gen.genHalo.getMassIntegrand" "dens_profs_tools.getHernquistProf" [P "r"; P "model_pars"];
  Call "mock_tools/mock_halo_gen.py" 72 "mock_halo_gen.genHalo.getMassIntegrand" "dens_profs_tools.getNFWProf" [P "r"; P "model_pars"];
  Call "shape_profs/shape_profs_algos.pyx" 96 "shape_profs_algos.runShellAlgo" "CythonHelpers.calcShapeTensor" [P "xyz"; P "shell"; P "shape_tensor"; P "masses"; P "center"; P "pts_in_shell"; P "reduced"; P "r_ell"];
  Call "shape_profs/shape_profs_algos.pyx" 100 "shape_profs_algos.runShellAlgo" "CythonHelpers.ZHEEVR" [P ""; P ""; P "eigvec"; P ""];
  Call "shape_profs/shape_profs_algos.pyx" 104 "shape_profs_algos.runShellAlgo" "CythonHelpers.cython_abs" [P ""];
  Call "shape_profs/shape_profs_algos.pyx" 104 "shape_profs_algos.runShellAlgo" "CythonHelpers.cython_abs" [P ""];
  Call "shape_profs/shape_profs_algos.pyx" 221 "shape_profs_algos.runEllAlgo" "CythonHelpers.calcShapeTensor" [P "xyz"; P "ellipsoid"; P "shape_tensor"; P "masses"; P "center"; P "pts_in_ell"; P "reduced"; P "r_ell"];
  Call "shape_profs/shape_profs_algos.pyx" 225 "shape_profs_algos.runEllAlgo" "CythonHelpers.ZHEEVR" [P ""; P ""; P "eigvec"; P ""];
  Call "shape_profs/shape_profs_algos.pyx" 229 "shape_profs_algos.runEllAlgo" "CythonHelpers.cython_abs" [P ""];
  Call "shape_profs/shape_profs_algos.pyx" 229 "shape_profs_algos.runEllAlgo" "CythonHelpers.cython_abs" [P ""];
  Call "shape_profs/shape_profs_algos.pyx" 342 "shape_profs_algos.runEllVDispAlgo" "CythonHelpers.calcShapeTensor" [P "vxyz"; P "ellipsoid"; P "shape_tensor"; P "masses"; P "vcenter"; P "pts_in_ell"; P "reduced"; P "r_ell"];
  Call "shape_profs/shape_profs_algos.pyx" 346 "shape_profs_algos.runEllVDispAlgo" "CythonHelpers.ZHEEVR" [P ""; P ""; P "eigvec"; P ""];
  Call "shape_profs/shape_profs_algos.pyx" 350 "shape_profs_algos.runEllVDispAlgo" "CythonHelpers.cython_abs" [P ""];
  Call "shape_profs/shape_profs_algos.pyx" 350 "shape_profs_algos.runEllVDispAlgo" "CythonHelpers.cython_abs" [P ""];
  Call "shape_profs/shape_profs_algos.pyx" 465 "shape_profs_algos.runShellVDispAlgo" "CythonHelpers.calcShapeTensor" [P "vxyz"; P "shell"; P "shape_tensor"; P "masses"; P "vcenter"; P "pts_in_shell"; P "reduced"; P "r_ell"];
  Call "shape_profs/shape_profs_algos.pyx" 469 "shape_profs_algos.runShellVDispAlgo" "CythonHelpers.ZHEEVR" [P ""; P ""; P "eigvec"; P ""];
  Call "shape_profs/shape_profs_algos.pyx" 473 "shape_profs_algos.runShellVDispAlgo" "CythonHelpers.cython_abs" [P ""];
  Call "shape_profs/shape_profs_algos.pyx" 473 "shape_profs_algos.runShellVDispAlgo" "CythonHelpers.cython_abs" [P ""];
  Call "shape_profs/shape_profs_algos.pyx" 587 "shape_profs_algos.calcMorphLocal" "python_routines.respectPBCNoRef" [P ""; P "L_BOX"];
  Call "shape_profs/shape_profs_algos.pyx" 589 "shape_profs_algos.calcMorphLocal" "python_routines.calcMode" [P "xyz_"; P ""; P ""];
  Call "shape_profs/shape_profs_algos.pyx" 591 "shape_profs_algos.calcMorphLocal" "python_routines.calcCoM" [P "xyz_"; P ""];
  Call "shape_profs/shape_profs_algos.pyx" 599 "shape_profs_algos.calcMorphLocal" "CythonHelpers.respectPBCNoRef" [P ""; P "L_BOX"];
  Call "shape_profs/shape_profs_algos.pyx" 600 "shape_profs_algos.calcMorphLocal" "shape_profs_algos.calcObjMorphLocal" [P ""; P ""; P ""; P ""; P ""; P ""; P ""; P ""; P ""; P ""; P ""; P ""; P "IT_TOL"; P "IT_WALL"; P "IT_MIN"; P "reduced"; P "shell_based"];
  Call "shape_profs/shape_profs_algos.pyx" 627 "shape_profs_algos.calcMorphLocal" "python_routines.recentreObject" [P "centers"; P "L_BOX"];
  Call "shape_profs/shape_profs_algos.pyx" 697 "shape_profs_algos.calcMorphGlobal" "python_routines.respectPBCNoRef" [P ""; P "L_BOX"];
  Call "shape_profs/shape_profs_algos.pyx" 699 "shape_profs_algos.calcMorphGlobal" "python_routines.calcMode" [P "xyz_"; P ""; P ""];
  Call "shape_profs/shape_profs_algos.pyx" 701 "shape_profs_algos.calcMorphGlobal" "python_routines.calcCoM" [P "xyz_"; P ""];
  Call "shape_profs/shape_profs_algos.pyx" 707 "shape_profs_algos.calcMorphGlobal" "CythonHelpers.respectPBCNoRef" [P ""; P "L_BOX"];
  Call "shape_profs/shape_profs_algos.pyx" 708 "shape_profs_algos.calcMorphGlobal" "shape_profs_algos.calcObjMorphGlobal" [P ""; P ""; P ""; P ""; P ""; P ""; P ""; P ""; P ""; P ""; P ""; P "IT_TOL"; P "IT_WALL"; P "IT_MIN"; P "SAFE"; P "reduced"];
  Call "shape_profs/shape_profs_algos.pyx" 735 "shape_profs_algos.calcMorphGlobal" "python_routines.recentreObject" [P "centers"; P "L_BOX"];
  Call "shape_profs/shape_profs_algos.pyx" 814 "shape_profs_algos.calcMorphLocalVelDisp" "python_routines.respectPBCNoRef" [P ""; P "L_BOX"];
  Call "shape_profs/shape_profs_algos.pyx" 816 "shape_profs_algos.calcMorphLocalVelDisp" "python_routines.calcMode" [P "xyz_"; P ""; P ""];
  Call "shape_profs/shape_profs_algos.pyx" 818 "shape_profs_algos.calcMorphLocalVelDisp" "python_routines.calcCoM" [P "xyz_"; P ""];
  Call "shape_profs/shape_profs_algos.pyx" 826 "shape_profs_algos.calcMorphLocalVelDisp" "CythonHelpers.respectPBCNoRef" [P ""; P "L_BOX"];
  Call "shape_profs/shape_profs_algos.pyx" 827 "shape_profs_algos.calcMorphLocalVelDisp" "CythonHelpers.calcCoM" [P ""; P ""; P ""];
  Call "shape_profs/shape_profs_algos.pyx" 828 "shape_profs_algos.calcMorphLocalVelDisp" "shape_profs_algos.calcObjMorphLocalVelDisp" [P ""; P ""; P ""; P ""; P ""; P ""; P ""; P ""; P ""; P ""; P ""; P ""; P ""; P ""; P "IT_TOL"; P "IT_WALL"; P "IT_MIN"; P "reduced"; P "shell_based"];
  Call "shape_profs/shape_profs_algos.pyx" 855 "shape_profs_algos.calcMorphLocalVelDisp" "python_routines.recentreObject" [P "centers"; P "L_BOX"];
  Call "shape_profs/shape_profs_algos.pyx" 931 "shape_profs_algos.calcMorphGlobalVelDisp" "python_routines.respectPBCNoRef" [P ""; P "L_BOX"];
  Call "shape_profs/shape_profs_algos.pyx" 933 "shape_profs_algos.calcMorphGlobalVelDisp" "python_routines.calcMode" [P "xyz_"; P ""; P ""];
  Call "shape_profs/shape_profs_algos.pyx" 935 "shape_profs_algos.calcMorphGlobalVelDisp" "python_routines.calcCoM" [P "xyz_"; P ""];
  Call "shape_profs/shape_profs_algos.pyx" 942 "shape_profs_algos.calcMorphGlobalVelDisp" "CythonHelpers.respectPBCNoRef" [P ""; P "L_BOX"];
  Call "shape_profs/shape_profs_algos.pyx" 943 "shape_profs_algos.calcMorphGlobalVelDisp" "CythonHelpers.calcCoM" [P ""; P ""; P ""];
  Call "shape_profs/shape_profs_algos.pyx" 944 "shape_profs_algos.calcMorphGlobalVelDisp" "shape_profs_algos.calcObjMorphGlobalVelDisp" [P ""; P ""; P ""; P ""; P ""; P ""; P ""; P ""; P ""; P ""; P ""; P ""; P ""; P "IT_TOL"; P "IT_WALL"; P "IT_MIN"; P "SAFE"; P "reduced"];
  Call "shape_profs/shape_profs_algos.pyx" 971 "shape_profs_algos.calcMorphGlobalVelDisp" "python_routines.recentreObject" [P "centers"; P "L_BOX"];
  Call "shape_profs/shape_profs_algos.pyx" 1024 "shape_profs_algos.calcObjMorphLocal" "CythonHelpers.calcLocalSpread" [P "xyz"];
  Call "shape_profs/shape_profs_algos.pyx" 1040 "shape_profs_algos.calcObjMorphLocal" "shape_profs_algos.runShellAlgo" [P ""; P "xyz"; P "xyz_princ"; P "masses"; P "shell"; P "r_ell"; P "center"; P "shape_tensor"; P "eigval"; P "eigvec"; P ""; P ""; P "IT_TOL"; P "IT_WALL"; P "IT_MIN"; P "reduced"];
  Call "shape_profs/shape_profs_algos.pyx" 1042 "shape_profs_algos.calcObjMorphLocal" "shape_profs_algos.runShellAlgo" [P ""; P "xyz"; P "xyz_princ"; P "masses"; P "shell"; P "r_ell"; P "center"; P "shape_tensor"; P "eigval"; P "eigvec"; P ""; P ""; P "IT_TOL"; P "IT_WALL"; P "IT_MIN"; P "reduced"];
  Call "shape_profs/shape_profs_algos.pyx" 1044 "shape_profs_algos.calcObjMorphLocal" "shape_profs_algos.runEllAlgo" [P ""; P "xyz"; P "xyz_princ"; P "masses"; P "shell"; P "r_ell"; P "center"; P "shape_tensor"; P "eigval"; P "eigvec"; P ""; P "IT_TOL"; P "IT_WALL"; P "IT_MIN"; P "reduced"];
  Call "shape_profs/shape_profs_algos.pyx" 1093 "shape_profs_algos.calcObjMorphGlobal" "CythonHelpers.calcLocalSpread" [P "xyz"];
  Call "shape_profs/shape_profs_algos.pyx" 1099 "shape_profs_algos.calcObjMorphGlobal" "shape_profs_algos.runEllAlgo" [P ""; P "xyz"; P "xyz_princ"; P "masses"; P "ellipsoid"; P "r_ell"; P "center"; P "shape_tensor"; P "eigval"; P "eigvec"; P ""; P "IT_TOL"; P "IT_WALL"; P "IT_MIN"; P "reduced"];
  Call "shape_profs/shape_profs_algos.pyx" 1156 "shape_profs_algos.calcObjMorphLocalVelDisp" "CythonHelpers.calcLocalSpread" [P "xyz"];
  Call "shape_profs/shape_profs_algos.pyx" 1172 "shape_profs_algos.calcObjMorphLocalVelDisp" "shape_profs_algos.runShellVDispAlgo" [P ""; P "xyz"; P "vxyz"; P "xyz_princ"; P "masses"; P "shell"; P "r_ell"; P "center"; P "vcenter"; P "shape_tensor"; P "eigval"; P "eigvec"; P ""; P ""; P "IT_TOL"; P "IT_WALL"; P "IT_MIN"; P "reduced"];
  Call "shape_profs/shape_profs_algos.pyx" 1174 "shape_profs_algos.calcObjMorphLocalVelDisp" "shape_profs_algos.runShellVDispAlgo" [P ""; P "xyz"; P "vxyz"; P "xyz_princ"; P "masses"; P "shell"; P "r_ell"; P "center"; P "vcenter"; P "shape_tensor"; P "eigval"; P "eigvec"; P ""; P ""; P "IT_TOL"; P "IT_WALL"; P "IT_MIN"; P "reduced"];
  Call "shape_profs/shape_profs_algos.pyx" 1176 "shape_profs_algos.calcObjMorphLocalVelDisp" "shape_profs_algos.runEllVDispAlgo" [P ""; P "xyz"; P "vxyz"; P "xyz_princ"; P "masses"; P "shell"; P "r_ell"; P "center"; P "vcenter"; P "shape_tensor"; P "eigval"; P "eigvec"; P ""; P "IT_TOL"; P "IT_WALL"; P "IT_MIN"; P "reduced"];
  Call "shape_profs/shape_profs_algos.pyx" 1233 "shape_profs_algos.calcObjMorphGlobalVelDisp" "CythonHelpers.calcLocalSpread" [P "xyz"];
  Call "shape_profs/shape_profs_algos.pyx" 1239 "shape_profs_algos.calcObjMorphGlobalVelDisp" "shape_profs_algos.runEllVDispAlgo" [P ""; P "xyz"; P "vxyz"; P "xyz_princ"; P "masses"; P "ellipsoid"; P "r_ell"; P "center"; P "vcenter"; P "shape_tensor"; P "eigval"; P "eigvec"; P ""; P "IT_TOL"; P "IT_WALL"; P "IT_MIN"; P "reduced"];
  Call "shape_profs/shape_profs_classes.pyx" 73 "DensShapeProfsBase.__init__" "DensProfsBase.__init__" [P "xyz"; P "masses"; P "idx_cat"; P "r200"; P "obj_size"; P "SNAP"; P "L_BOX"; P "MIN_NUMBER_PTCS"; P "CENTER"; P "VIZ_DEST"; P "CAT_DEST"; P "SUFFIX"];
  Call "shape_profs/shape_profs_classes.pyx" 87 "DensShapeProfsBase.getShapeCatLocal" "python_routines.checkKatzConfig" [P "katz_config"];
  Call "shape_profs/shape_profs_classes.pyx" 92 "DensShapeProfsBase.getShapeCatLocal" "python_routines.isValidSelection" [P "obj_numbers"; P "nb_objects"];
  Call "shape_profs/shape_profs_classes.pyx" 93 "DensShapeProfsBase.getShapeCatLocal" "python_routines.getSubSetIdxCat" [P "idx_cat"; P "obj_size"; P "obj_numbers"];
  Call "shape_profs/shape_profs_classes.pyx" 94 "DensShapeProfsBase.getShapeCatLocal" "CosmicBase._getShapeCatLocalBase" [P "xyz"; P "masses"; P "r200"; P "subset_idx_cat"; P "obj_size"; P "ROverR200"; P "IT_TOL"; P "IT_WALL"; P "IT_MIN"; P "REDUCED"; P "SHELL_BASED"; P "SUFFIX"];
  Call "shape_profs/shape_profs_classes.pyx" 95 "DensShapeProfsBase.getShapeCatLocal" "config.getLMVInternal" [];
  Call "shape_profs/shape_profs_classes.pyx" 125 "DensShapeProfsBase.getShapeCatGlobal" "python_routines.checkKatzConfig" [P "katz_config"];
  Call "shape_profs/shape_profs_classes.pyx" 128 "DensShapeProfsBase.getShapeCatGlobal" "python_routines.isValidSelection" [P "obj_numbers"; P "nb_objects"];
  Call "shape_profs/shape_profs_classes.pyx" 129 "DensShapeProfsBase.getShapeCatGlobal" "python_routines.getSubSetIdxCat" [P "idx_cat"; P "obj_size"; P "obj_numbers"];
  Call "shape_profs/shape_profs_classes.pyx" 130 "DensShapeProfsBase.getShapeCatGlobal" "CosmicBase._getShapeCatGlobalBase" [P "xyz"; P "masses"; P "r200"; P "subset_idx_cat"; P "obj_size"; P "IT_TOL"; P "IT_WALL"; P "IT_MIN"; P "REDUCED"; P "SUFFIX"];
  Call "shape_profs/shape_profs_classes.pyx" 131 "DensShapeProfsBase.getShapeCatGlobal" "config.getLMVInternal" [];
  Call "shape_profs/shape_profs_classes.pyx" 157 "DensShapeProfsBase.vizLocalShapes" "python_routines.checkKatzConfig" [P "katz_config"];
  Call "shape_profs/shape_profs_classes.pyx" 161 "DensShapeProfsBase.vizLocalShapes" "python_routines.isValidSelection" [P "obj_numbers"; P "nb_objects"];
  Call "shape_profs/shape_profs_classes.pyx" 162 "DensShapeProfsBase.vizLocalShapes" "python_routines.getSubSetIdxCat" [P "idx_cat"; P "obj_size"; P "obj_numbers"];
  Call "shape_profs/shape_profs_classes.pyx" 164 "DensShapeProfsBase.vizLocalShapes" "CosmicBase._getShapeCatLocalBase" [P "xyz"; P "masses"; P "r200"; P "subset_idx_cat"; P "obj_size"; P "ROverR200"; P "IT_TOL"; P "IT_WALL"; P "IT_MIN"; P "REDUCED"; P "SHELL_BASED"; P "SUFFIX"];
  Call "shape_profs/shape_profs_classes.pyx" 171 "DensShapeProfsBase.vizLocalShapes" "config.LengthInternalToOut" [P "d"];
  Call "shape_profs/shape_profs_classes.pyx" 172 "DensShapeProfsBase.vizLocalShapes" "config.LengthInternalToOut" [P "centers"];
  Call "shape_profs/shape_profs_classes.pyx" 173 "DensShapeProfsBase.vizLocalShapes" "config.LMVLabel" [];
  Call "shape_profs/shape_profs_classes.pyx" 189 "DensShapeProfsBase.vizLocalShapes" "config.LengthInternalToOut" [P ""];
  Call "shape_profs/shape_profs_classes.pyx" 189 "DensShapeProfsBase.vizLocalShapes" "python_routines.respectPBCNoRef" [P "obj"; P "L_BOX"];
  Call "shape_profs/shape_profs_classes.pyx" 203 "DensShapeProfsBase.vizLocalShapes" "python_routines.fibonacci_ellipsoid" [P ""; P ""; P ""; K "samples" ""];
  Call "shape_profs/shape_profs_classes.pyx" 222 "DensShapeProfsBase.vizLocalShapes" "python_routines.fibonacci_ellipsoid" [P ""; P ""; P ""; K "samples" ""];
  Call "shape_profs/shape_profs_classes.pyx" 240 "DensShapeProfsBase.vizLocalShapes" "python_routines.set_axes_equal" [P "ax"];
  Call "shape_profs/shape_profs_classes.pyx" 253 "DensShapeProfsBase.vizGlobalShapes" "python_routines.checkKatzConfig" [P "katz_config"];
  Call "shape_profs/shape_profs_classes.pyx" 256 "DensShapeProfsBase.vizGlobalShapes" "python_routines.isValidSelection" [P "obj_numbers"; P "nb_objects"];
  Call "shape_profs/shape_profs_classes.pyx" 257 "DensShapeProfsBase.vizGlobalShapes" "python_routines.getSubSetIdxCat" [P "idx_cat"; P "obj_size"; P "obj_numbers"];
  Call "shape_profs/shape_profs_classes.pyx" 259 "DensShapeProfsBase.vizGlobalShapes" "CosmicBase._getShapeCatGlobalBase" [P "xyz"; P "masses"; P "r200"; P "subset_idx_cat"; P "obj_size"; P "IT_TOL"; P "IT_WALL"; P "IT_MIN"; P "REDUCED"; P "SUFFIX"];
  Call "shape_profs/shape_profs_classes.pyx" 266 "DensShapeProfsBase.vizGlobalShapes" "config.LengthInternalToOut" [P "d"];
  Call "shape_profs/shape_profs_classes.pyx" 267 "DensShapeProfsBase.vizGlobalShapes" "config.LengthInternalToOut" [P "centers"];
  Call "shape_profs/shape_profs_classes.pyx" 268 "DensShapeProfsBase.vizGlobalShapes" "config.LMVLabel" [];
  Call "shape_profs/shape_profs_classes.pyx" 284 "DensShapeProfsBase.vizGlobalShapes" "config.LengthInternalToOut" [P ""];
  Call "shape_profs/shape_profs_classes.pyx" 284 "DensShapeProfsBase.vizGlobalShapes" "python_routines.respectPBCNoRef" [P "obj"; P "L_BOX"];
  Call "shape_profs/shape_profs_classes.pyx" 298 "DensShapeProfsBase.vizGlobalShapes" "python_routines.fibonacci_ellipsoid" [P ""; P ""; P ""; K "samples" ""];
  Call "shape_profs/shape_profs_classes.pyx" 316 "DensShapeProfsBase.vizGlobalShapes" "python_routines.set_axes_equal" [P "ax"];
  Call "shape_profs/shape_profs_classes.pyx" 331 "DensShapeProfsBase.plotGlobalEpsHist" "python_routines.isValidSelection" [P "obj_numbers"; P "nb_objects"];
  Call "shape_profs/shape_profs_classes.pyx" 332 "DensShapeProfsBase.plotGlobalEpsHist" "python_routines.getSubSetIdxCat" [P "idx_cat"; P "obj_size"; P "obj_numbers"];
  Call "shape_profs/shape_profs_classes.pyx" 333 "DensShapeProfsBase.plotGlobalEpsHist" "shape_profs_tools.getGlobalEpsHist" [P "xyz"; P "masses"; P "subset_idx_cat"; P "obj_size"; P "L_BOX"; P "CENTER"; P "VIZ_DEST"; P "SNAP"; K "suffix" "SUFFIX"; K "HIST_NB_BINS" "HIST_NB_BINS"];
  Call "shape_profs/shape_profs_classes.pyx" 349 "DensShapeProfsBase.plotLocalEpsHist" "python_routines.isValidSelection" [P "obj_numbers"; P "nb_objects"];
  Call "shape_profs/shape_profs_classes.pyx" 350 "DensShapeProfsBase.plotLocalEpsHist" "python_routines.getSubSetIdxCat" [P "idx_cat"; P "obj_size"; P "obj_numbers"];
  Call "shape_profs/shape_profs_classes.pyx" 351 "DensShapeProfsBase.plotLocalEpsHist" "shape_profs_tools.getLocalEpsHist" [P "xyz"; P "masses"; P "r200"; P "subset_idx_cat"; P "obj_size"; P "L_BOX"; P "CENTER"; P "VIZ_DEST"; P "SNAP"; P "frac_r200"; K "suffix" "SUFFIX"; K "HIST_NB_BINS" "HIST_NB_BINS"];
  Call "shape_profs/shape_profs_classes.pyx" 367 "DensShapeProfsBase.plotLocalTHist" "python_routines.checkKatzConfig" [P "katz_config"];
  Call "shape_profs/shape_profs_classes.pyx" 370 "DensShapeProfsBase.plotLocalTHist" "python_routines.isValidSelection" [P "obj_numbers"; P "nb_objects"];
  Call "shape_profs/shape_profs_classes.pyx" 371 "DensShapeProfsBase.plotLocalTHist" "python_routines.getSubSetIdxCat" [P "idx_cat"; P "obj_size"; P "obj_numbers"];
  Call "shape_profs/shape_profs_classes.pyx" 372 "DensShapeProfsBase.plotLocalTHist" "CosmicBase._plotLocalTHistBase" [P "xyz"; P "masses"; P "r200"; P "subset_idx_cat"; P "obj_size"; P "ROverR200"; P "IT_TOL"; P "IT_WALL"; P "IT_MIN"; P "HIST_NB_BINS"; P "frac_r200"; P "REDUCED"; P "SHELL_BASED"; K "suffix" "SUFFIX"];
  Call "shape_profs/shape_profs_classes.pyx" 388 "DensShapeProfsBase.plotGlobalTHist" "python_routines.checkKatzConfig" [P "katz_config"];
  Call "shape_profs/shape_profs_classes.pyx" 391 "DensShapeProfsBase.plotGlobalTHist" "python_routines.isValidSelection" [P "obj_numbers"; P "nb_objects"];
  Call "shape_profs/shape_profs_classes.pyx" 392 "DensShapeProfsBase.plotGlobalTHist" "python_routines.getSubSetIdxCat" [P "idx_cat"; P "obj_size"; P "obj_numbers"];
  Call "shape_profs/shape_profs_classes.pyx" 393 "DensShapeProfsBase.plotGlobalTHist" "CosmicBase._plotGlobalTHistBase" [P "xyz"; P "masses"; P "r200"; P "subset_idx_cat"; P "obj_size"; P "IT_TOL"; P "IT_WALL"; P "IT_MIN"; P "HIST_NB_BINS"; P "REDUCED"; K "suffix" "SUFFIX"];
  Call "shape_profs/shape_profs_classes.pyx" 407 "DensShapeProfsBase.plotShapeProfs" "python_routines.checkKatzConfig" [P "katz_config"];
  Call "shape_profs/shape_profs_classes.pyx" 410 "DensShapeProfsBase.plotShapeProfs" "python_routines.isValidSelection" [P "obj_numbers"; P "nb_objects"];
  Call "shape_profs/shape_profs_classes.pyx" 411 "DensShapeProfsBase.plotShapeProfs" "python_routines.getSubSetIdxCat" [P "idx_cat"; P "obj_size"; P "obj_numbers"];
  Call "shape_profs/shape_profs_classes.pyx" 412 "DensShapeProfsBase.plotShapeProfs" "CosmicBase._plotShapeProfsBase" [P "xyz"; P "masses"; P "r200"; P "subset_idx_cat"; P "obj_size"; P "ROverR200"; P "IT_TOL"; P "IT_WALL"; P "IT_MIN"; P "REDUCED"; P "SHELL_BASED"; P "nb_bins"; K "suffix" "SUFFIX"];
  Call "shape_profs/shape_profs_classes.pyx" 424 "DensShapeProfsBase.dumpShapeCatLocal" "python_routines.checkKatzConfig" [P "katz_config"];
  Call "shape_profs/shape_profs_classes.pyx" 427 "DensShapeProfsBase.dumpShapeCatLocal" "python_routines.isValidSelection" [P "obj_numbers"; P "nb_objects"];
  Call "shape_profs/shape_profs_classes.pyx" 428 "DensShapeProfsBase.dumpShapeCatLocal" "python_routines.getSubSetIdxCat" [P "idx_cat"; P "obj_size"; P "obj_numbers"];
  Call "shape_profs/shape_profs_classes.pyx" 429 "DensShapeProfsBase.dumpShapeCatLocal" "CosmicBase._dumpShapeCatLocalBase" [P "xyz"; P "masses"; P "r200"; P "subset_idx_cat"; P "obj_size"; P "ROverR200"; P "IT_TOL"; P "IT_WALL"; P "IT_MIN"; P "SUFFIX"; P "REDUCED"; P "SHELL_BASED"];
  Call "shape_profs/shape_profs_classes.pyx" 441 "DensShapeProfsBase.dumpShapeCatGlobal" "python_routines.checkKatzConfig" [P "katz_config"];
  Call "shape_profs/shape_profs_classes.pyx" 444 "DensShapeProfsBase.dumpShapeCatGlobal" "python_routines.isValidSelection" [P "obj_numbers"; P "nb_objects"];
  Call "shape_profs/shape_profs_classes.pyx" 445 "DensShapeProfsBase.dumpShapeCatGlobal" "python_routines.getSubSetIdxCat" [P "idx_cat"; P "obj_size"; P "obj_numbers"];
  Call "shape_profs/shape_profs_classes.pyx" 446 "DensShapeProfsBase.dumpShapeCatGlobal" "CosmicBase._dumpShapeCatGlobalBase" [P "xyz"; P "masses"; P "r200"; P "subset_idx_cat"; P "obj_size"; P "IT_TOL"; P "IT_WALL"; P "IT_MIN"; P "SUFFIX"; P "REDUCED"];
  Call "shape_profs/shape_profs_classes.pyx" 510 "DensShapeProfs.__init__" "config.getLMVInternal" [];
  Call "shape_profs/shape_profs_classes.pyx" 515 "DensShapeProfs.__init__" "DensShapeProfsBase.__init__" [P ""; P ""; P "cat_arr"; P "r200"; P ""; P "SNAP"; P ""; P ""; P "CENTER"; P "VIZ_DEST"; P "CAT_DEST"; P "SUFFIX"];
  Call "shape_profs/shape_profs_classes.pyx" 568 "DensShapeProfsGadget.__init__" "config.getLMVInternal" [];
  Call "shape_profs/shape_profs_classes.pyx" 571 "DensShapeProfsGadget.__init__" "read_fof.getFoFSHData" [P "GROUP_DEST"; P "RVIR_OR_R200"; P ""];
  Call "shape_profs/shape_profs_classes.pyx" 571 "DensShapeProfsGadget.__init__" "read_fof.getPartType" [P "OBJ_TYPE"];
  Call "shape_profs/shape_profs_classes.pyx" 573 "DensShapeProfsGadget.__init__" "readgadget.read_block" [P "SNAP_DEST"; P ""; K "ptype" ""];
  Call "shape_profs/shape_profs_classes.pyx" 573 "DensShapeProfsGadget.__init__" "read_fof.getPartType" [P "OBJ_TYPE"];
  Call "shape_profs/shape_profs_classes.pyx" 574 "DensShapeProfsGadget.__init__" "readgadget.read_block" [P "SNAP_DEST"; P ""; K "ptype" ""];
  Call "shape_profs/shape_profs_classes.pyx" 574 "DensShapeProfsGadget.__init__" "read_fof.getPartType" [P "OBJ_TYPE"];
  Call "shape_profs/shape_profs_classes.pyx" 580 "DensShapeProfsGadget.__init__" "gen_catalogues.calcObjCat" [P "nb_shs"; P "sh_len"; P "fof_sizes"; P "group_r200"; P ""];
  Call "shape_profs/shape_profs_classes.pyx" 592 "DensShapeProfsGadget.__init__" "DensShapeProfsBase.__init__" [P "xyz"; P "masses"; P "obj_cat"; P "obj_r200"; P "obj_size"; P "SNAP"; P ""; P ""; P "CENTER"; P "VIZ_DEST"; P "CAT_DEST"; P "SUFFIX"];
  Call "shape_profs/shape_profs_classes.pyx" 606 "DensShapeProfsGadget.getShapeCatVelLocal" "DensShapeProfsGadget._getXYZMasses" [];
  Call "shape_profs/shape_profs_classes.pyx" 607 "DensShapeProfsGadget.getShapeCatVelLocal" "DensShapeProfsGadget._getVelXYZ" [];
  Call "shape_profs/shape_profs_classes.pyx" 608 "DensShapeProfsGadget.getShapeCatVelLocal" "DensShapeProfsGadget.getIdxCat" [];
  Call "shape_profs/shape_profs_classes.pyx" 611 "DensShapeProfsGadget.getShapeCatVelLocal" "python_routines.checkKatzConfig" [P "katz_config"];
  Call "shape_profs/shape_profs_classes.pyx" 614 "DensShapeProfsGadget.getShapeCatVelLocal" "python_routines.isValidSelection" [P "obj_numbers"; P "nb_objects"];
  Call "shape_profs/shape_profs_classes.pyx" 615 "DensShapeProfsGadget.getShapeCatVelLocal" "python_routines.getSubSetIdxCat" [P "idx_cat"; P "obj_size"; P "obj_numbers"];
  Call "shape_profs/shape_profs_classes.pyx" 617 "DensShapeProfsGadget.getShapeCatVelLocal" "CosmicBase._getShapeCatVelLocalBase" [P "xyz"; P "velxyz"; P "masses"; P "r200"; P "subset_idx_cat"; P "obj_size"; P "ROverR200"; P "IT_TOL"; P "IT_WALL"; P "IT_MIN"; P "REDUCED"; P "SHELL_BASED"; P "suffix"];
  Call "shape_profs/shape_profs_classes.pyx" 619 "DensShapeProfsGadget.getShapeCatVelLocal" "config.getLMVInternal" [];
  Call "shape_profs/shape_profs_classes.pyx" 648 "DensShapeProfsGadget.getShapeCatVelGlobal" "DensShapeProfsGadget._getXYZMasses" [];
  Call "shape_profs/shape_profs_classes.pyx" 649 "DensShapeProfsGadget.getShapeCatVelGlobal" "DensShapeProfsGadget._getVelXYZ" [];
  Call "shape_profs/shape_profs_classes.pyx" 650 "DensShapeProfsGadget.getShapeCatVelGlobal" "DensShapeProfsGadget.getIdxCat" [];
  Call "shape_profs/shape_profs_classes.pyx" 653 "DensShapeProfsGadget.getShapeCatVelGlobal" "python_routines.checkKatzConfig" [P "katz_config"];
  Call "shape_profs/shape_profs_classes.pyx" 656 "DensShapeProfsGadget.getShapeCatVelGlobal" "python_routines.isValidSelection" [P "obj_numbers"; P "nb_objects"];
  Call "shape_profs/shape_profs_classes.pyx" 657 "DensShapeProfsGadget.getShapeCatVelGlobal" "python_routines.getSubSetIdxCat" [P "idx_cat"; P "obj_size"; P "obj_numbers"];
  Call "shape_profs/shape_profs_classes.pyx" 659 "DensShapeProfsGadget.getShapeCatVelGlobal" "CosmicBase._getShapeCatVelGlobalBase" [P "xyz"; P "velxyz"; P "masses"; P "r200"; P "subset_idx_cat"; P "obj_size"; P "IT_TOL"; P "IT_WALL"; P "IT_MIN"; P "CENTER"; P "SAFE"; P "REDUCED"; P "suffix"];
  Call "shape_profs/shape_profs_classes.pyx" 661 "DensShapeProfsGadget.getShapeCatVelGlobal" "config.getLMVInternal" [];
  Call "shape_profs/shape_profs_classes.pyx" 688 "DensShapeProfsGadget.dumpShapeVelCatLocal" "python_routines.checkKatzConfig" [P "katz_config"];
  Call "shape_profs/shape_profs_classes.pyx" 689 "DensShapeProfsGadget.dumpShapeVelCatLocal" "DensShapeProfsGadget._getXYZMasses" [];
  Call "shape_profs/shape_profs_classes.pyx" 690 "DensShapeProfsGadget.dumpShapeVelCatLocal" "DensShapeProfsGadget.getIdxCat" [];
  Call "shape_profs/shape_profs_classes.pyx" 693 "DensShapeProfsGadget.dumpShapeVelCatLocal" "python_routines.isValidSelection" [P "obj_numbers"; P "idx_cat_len"];
  Call "shape_profs/shape_profs_classes.pyx" 694 "DensShapeProfsGadget.dumpShapeVelCatLocal" "DensShapeProfsGadget._getVelXYZ" [];
  Call "shape_profs/shape_profs_classes.pyx" 700 "DensShapeProfsGadget.dumpShapeVelCatLocal" "python_routines.getSubSetIdxCat" [P "idx_cat"; P "obj_size"; P "obj_numbers"];
  Call "shape_profs/shape_profs_classes.pyx" 701 "DensShapeProfsGadget.dumpShapeVelCatLocal" "CosmicBase._dumpShapeVelCatLocalBase" [P "xyz"; P "velxyz"; P "masses"; P "r200"; P "subset_idx_cat"; P "obj_size"; P "ROverR200"; P "IT_TOL"; P "IT_WALL"; P "IT_MIN"; P "suffix"; P "REDUCED"; P "SHELL_BASED"];
  Call "shape_profs/shape_profs_classes.pyx" 714 "DensShapeProfsGadget.dumpShapeVelCatGlobal" "python_routines.checkKatzConfig" [P "katz_config"];
  Call "shape_profs/shape_profs_classes.pyx" 715 "DensShapeProfsGadget.dumpShapeVelCatGlobal" "DensShapeProfsGadget._getXYZMasses" [];
  Call "shape_profs/shape_profs_classes.pyx" 716 "DensShapeProfsGadget.dumpShapeVelCatGlobal" "DensShapeProfsGadget.getIdxCat" [];
  Call "shape_profs/shape_profs_classes.pyx" 719 "DensShapeProfsGadget.dumpShapeVelCatGlobal" "python_routines.isValidSelection" [P "obj_numbers"; P "idx_cat_len"];
  Call "shape_profs/shape_profs_classes.pyx" 720 "DensShapeProfsGadget.dumpShapeVelCatGlobal" "DensShapeProfsGadget._getVelXYZ" [];
  Call "shape_profs/shape_profs_classes.pyx" 726 "DensShapeProfsGadget.dumpShapeVelCatGlobal" "python_routines.getSubSetIdxCat" [P "idx_cat"; P "obj_size"; P "obj_numbers"];
  Call "shape_profs/shape_profs_classes.pyx" 727 "DensShapeProfsGadget.dumpShapeVelCatGlobal" "CosmicBase._dumpShapeVelCatGlobalBase" [P "xyz"; P "velxyz"; P "masses"; P "r200"; P "subset_idx_cat"; P "obj_size"; P "IT_TOL"; P "IT_WALL"; P "IT_MIN"; P "suffix"; P "REDUCED"];
  Call "shape_profs/shape_profs_classes.pyx" 736 "DensShapeProfsGadget.getXYZMasses" "readgadget.read_block" [P "SNAP_DEST"; P ""; K "ptype" ""];
  Call "shape_profs/shape_profs_classes.pyx" 736 "DensShapeProfsGadget.getXYZMasses" "read_fof.getPartType" [P "OBJ_TYPE"];
  Call "shape_profs/shape_profs_classes.pyx" 737 "DensShapeProfsGadget.getXYZMasses" "readgadget.read_block" [P "SNAP_DEST"; P ""; K "ptype" ""];
  Call "shape_profs/shape_profs_classes.pyx" 737 "DensShapeProfsGadget.getXYZMasses" "read_fof.getPartType" [P "OBJ_TYPE"];
  Call "shape_profs/shape_profs_classes.pyx" 739 "DensShapeProfsGadget.getXYZMasses" "config.getLMVInternal" [];
  Call "shape_profs/shape_profs_classes.pyx" 752 "DensShapeProfsGadget._getXYZMasses" "readgadget.read_block" [P "SNAP_DEST"; P ""; K "ptype" ""];
  Call "shape_profs/shape_profs_classes.pyx" 752 "DensShapeProfsGadget._getXYZMasses" "read_fof.getPartType" [P "OBJ_TYPE"];
  Call "shape_profs/shape_profs_classes.pyx" 753 "DensShapeProfsGadget._getXYZMasses" "readgadget.read_block" [P "SNAP_DEST"; P ""; K "ptype" ""];
  Call "shape_profs/shape_profs_classes.pyx" 753 "DensShapeProfsGadget._getXYZMasses" "read_fof.getPartType" [P "OBJ_TYPE"];
  Call "shape_profs/shape_profs_classes.pyx" 765 "DensShapeProfsGadget.getVelXYZ" "readgadget.read_block" [P "SNAP_DEST"; P ""; K "ptype" ""];
  Call "shape_profs/shape_profs_classes.pyx" 765 "DensShapeProfsGadget.getVelXYZ" "read_fof.getPartType" [P "OBJ_TYPE"];
  Call "shape_profs/shape_profs_classes.pyx" 767 "DensShapeProfsGadget.getVelXYZ" "config.getLMVInternal" [];
  Call "shape_profs/shape_profs_classes.pyx" 779 "DensShapeProfsGadget._getVelXYZ" "readgadget.read_block" [P "SNAP_DEST"; P ""; K "ptype" ""];
  Call "shape_profs/shape_profs_classes.pyx" 779 "DensShapeProfsGadget._getVelXYZ" "read_fof.getPartType" [P "OBJ_TYPE"];
  Call "shape_profs/shape_profs_classes.pyx" 793 "DensShapeProfsGadget.getR200" "read_fof.getFoFSHData" [P "GROUP_DEST"; P "RVIR_OR_R200"; P ""];
  Call "shape_profs/shape_profs_classes.pyx" 793 "DensShapeProfsGadget.getR200" "read_fof.getPartType" [P "OBJ_TYPE"];
  Call "shape_profs/shape_profs_classes.pyx" 799 "DensShapeProfsGadget.getR200" "gen_catalogues.calcObjCat" [P "nb_shs"; P "sh_len"; P "fof_sizes"; P "group_r200"; P "MIN_NUMBER_PTCS"];
  Call "shape_profs/shape_profs_classes.pyx" 802 "DensShapeProfsGadget.getR200" "config.getLMVInternal" [];
  Call "shape_profs/shape_profs_classes.pyx" 817 "DensShapeProfsGadget.getIdxCat" "read_fof.getFoFSHData" [P "GROUP_DEST"; P "RVIR_OR_R200"; P ""];
  Call "shape_profs/shape_profs_classes.pyx" 817 "DensShapeProfsGadget.getIdxCat" "read_fof.getPartType" [P "OBJ_TYPE"];
  Call "shape_profs/shape_profs_classes.pyx" 823 "DensShapeProfsGadget.getIdxCat" "gen_catalogues.calcObjCat" [P "nb_shs"; P "sh_len"; P "fof_sizes"; P "group_r200"; P "MIN_NUMBER_PTCS"];
  Call "shape_profs/shape_profs_classes.pyx" 835 "DensShapeProfsGadget.getObjInfoGadget" "CosmicBase._getObjInfoBase" [P "idx_cat"; P "obj_size"; P "OBJ_TYPE"];
  Call "shape_profs/shape_profs_classes.pyx" 836 "DensShapeProfsGadget.getObjInfoGadget" "read_fof.getFoFSHData" [P "GROUP_DEST"; P "RVIR_OR_R200"; P ""];
  Call "shape_profs/shape_profs_classes.pyx" 836 "DensShapeProfsGadget.getObjInfoGadget" "read_fof.getPartType" [P "OBJ_TYPE"];
  Call "shape_profs/shape_profs_tools.py" 45 "shape_profs_tools.getEpsilon" "python_routines.respectPBCNoRef" [P ""; P "L_BOX"];
  Call "shape_profs/shape_profs_tools.py" 48 "shape_profs_tools.getEpsilon" "python_routines.calcMode" [P "xyz_"; P "masses_"; P ""];
  Call "shape_profs/shape_profs_tools.py" 50 "shape_profs_tools.getEpsilon" "python_routines.calcCoM" [P "xyz_"; P "masses_"];
  Call "shape_profs/shape_profs_tools.py" 89 "shape_profs_tools.getShape" "cosmo_tools.getMeanOrMedianAndError" [P "y"; P "ERROR_METHOD"];
  Call "shape_profs/shape_profs_tools.py" 102 "shape_profs_tools.getShapeMs" "cosmo_tools.getMeanOrMedianAndError" [P "y"; P ""];
  Call "shape_profs/shape_profs_tools.py" 143 "shape_profs_tools.getShapeProfs" "cosmo_tools.M_split" [P ""; P "obj_centers"; P "start_time"; K "NB_BINS" "nb_bins"];
  Call "shape_profs/shape_profs_tools.py" 156 "shape_profs_tools.getShapeProfs" "shape_profs_tools.getShape" [P "d"; P "q"; P "ERROR_METHOD"; P "r_over_r200"; P "r200"];
  Call "shape_profs/shape_profs_tools.py" 167 "shape_profs_tools.getShapeProfs" "shape_profs_tools.getShape" [P "d"; P "s"; P "ERROR_METHOD"; P "r_over_r200"; P "r200"];
  Call "shape_profs/shape_profs_tools.py" 184 "shape_profs_tools.getShapeProfs" "shape_profs_tools.getShape" [P "d"; P "T"; P "ERROR_METHOD"; P "r_over_r200"; P "r200"];
  Call "shape_profs/shape_profs_tools.py" 199 "shape_profs_tools.getShapeProfs" "shape_profs_tools.getShapeMs" [P "d"; P "idx_groups"; P "group"; P "q"; P "ERROR_METHOD"; P "r_over_r200"; P "r200"];
  Call "shape_profs/shape_profs_tools.py" 202 "shape_profs_tools.getShapeProfs" "python_routines.eTo10" [P ""];
  Call "shape_profs/shape_profs_tools.py" 202 "shape_profs_tools.getShapeProfs" "python_routines.eTo10" [P ""];
  Call "shape_profs/shape_profs_tools.py" 212 "shape_profs_tools.getShapeProfs" "shape_profs_tools.getShapeMs" [P "d"; P "idx_groups"; P "group"; P "s"; P "ERROR_METHOD"; P "r_over_r200"; P "r200"];
  Call "shape_profs/shape_profs_tools.py" 215 "shape_profs_tools.getShapeProfs" "python_routines.eTo10" [P ""];
  Call "shape_profs/shape_profs_tools.py" 215 "shape_profs_tools.getShapeProfs" "python_routines.eTo10" [P ""];
  Call "shape_profs/shape_profs_tools.py" 225 "shape_profs_tools.getShapeProfs" "shape_profs_tools.getShapeMs" [P "d"; P "idx_groups"; P "group"; P "T"; P "ERROR_METHOD"; P "r_over_r200"; P "r200"];
  Call "shape_profs/shape_profs_tools.py" 228 "shape_profs_tools.getShapeProfs" "python_routines.eTo10" [P ""];
  Call "shape_profs/shape_profs_tools.py" 228 "shape_profs_tools.getShapeProfs" "python_routines.eTo10" [P ""];
  Call "shape_profs/shape_profs_tools.py" 384 "shape_profs_tools.getGlobalEpsHist" "shape_profs_tools.getEpsilon" [P "idx_cat"; P "obj_size"; P "xyz"; P "masses"; P "L_BOX"; P "CENTER"];
  Call "shape_profs/shape_profs_tools.py" 424 "shape_profs_tools.getLocalEpsHist" "python_routines.getCatWithinFracR200" [P "idx_cat"; P "obj_size"; P "xyz"; P "L_BOX"; P "CENTER"; P "r200"; P "frac_r200"];
  Call "shape_profs/shape_profs_tools.py" 430 "shape_profs_tools.getLocalEpsHist" "shape_profs_tools.getEpsilon" [P "idx_cat_new"; P "obj_size_new"; P "xyz"; P "masses"; P "L_BOX"; P "CENTER"]].

(** The public methods of the profile classes, dens_profs_classes.pyx and shape_profs_classes.pyx;
    estDensProfs of CosmicBase is overridden in all of them. *)
Definition public : list string := [
  "DensProfsBase.__init__";
  "DensShapeProfsBase.__init__";
  "DensShapeProfs.__init__";
  "DensShapeProfsGadget.__init__";
  "DensProfsBase.estDensProfs";
  "DensProfsBase.getR200";
  "DensShapeProfsGadget.getR200";
  "DensProfsBase.getIdxCat";
  "DensShapeProfsGadget.getIdxCat";
  "DensProfsBase.getXYZMasses";
  "DensShapeProfsGadget.getXYZMasses";
  "DensProfsBase.getMassesCenters";
  "DensProfsBase.fitDensProfs";
  "DensProfsBase.estConcentrations";
  "DensProfsBase.plotDensProfs";
  "DensProfsBase.getObjInfo";
  "DensShapeProfsBase.getShapeCatLocal";
  "DensShapeProfsBase.getShapeCatGlobal";
  "DensShapeProfsBase.vizLocalShapes";
  "DensShapeProfsBase.vizGlobalShapes";
  "DensShapeProfsBase.plotGlobalEpsHist";
  "DensShapeProfsBase.plotLocalEpsHist";
  "DensShapeProfsBase.plotLocalTHist";
  "DensShapeProfsBase.plotGlobalTHist";
  "DensShapeProfsBase.plotShapeProfs";
  "DensShapeProfsBase.dumpShapeCatLocal";
  "DensShapeProfsBase.dumpShapeCatGlobal";
  "DensShapeProfsGadget.getShapeCatVelLocal";
  "DensShapeProfsGadget.getShapeCatVelGlobal";
  "DensShapeProfsGadget.dumpShapeVelCatLocal";
  "DensShapeProfsGadget.dumpShapeVelCatGlobal";
  "DensShapeProfsGadget.getVelXYZ";
  "DensShapeProfsGadget.getObjInfoGadget";
  "DensShapeProfsGadget.getHeader";
  "CosmicBase.__init__"].

(** The parameters of a function. *)
Definition params_of (id : string) : option (list (string * bool)) :=
  match find (fun f => String.eqb (f_id f) id) functions with Some f => Some (f_params f) | None => None end.
Definition ok (c : call) : bool := match params_of (c_callee c) with Some ps => accepts ps (c_args c) | None => false end.
