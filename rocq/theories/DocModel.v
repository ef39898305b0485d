(** The public methods of DensShapeProfs and DensShapeProfsGadget, the methods that the documentation lists
    for them and the calls that it and the example scripts show. The tables were extracted from the files by
    a script and are data; parameters without self; true: it has a default. *)
From Coq Require Import String List ZArith Bool.
From Verif Require Import ApiModel.
Import ListNotations.
Local Open Scope string_scope.
Local Open Scope Z_scope.

(** A method: class, name, file in /repo/cosmic_profiles and line of its definition, parameters. *)
Record method := Method { m_class : string; m_name : string; m_file : string; m_line : Z; m_params : list (string * bool) }.
(** Base classes, dens_profs_classes.pyx line 18 and shape_profs_classes.pyx lines 31, 455, 523. The
    class CosmicBase above is left out: its methods begin with an underscore, except estDensProfs (line 957),
    which DensProfsBase overrides. *)
Definition base_of (c : string) : option string :=
  if String.eqb c "DensShapeProfs" then Some "DensShapeProfsBase" else if String.eqb c "DensShapeProfsGadget" then Some "DensShapeProfsBase"
  else if String.eqb c "DensShapeProfsBase" then Some "DensProfsBase" else None.
(** The definitions in dens_profs_classes.pyx and shape_profs_classes.pyx. *)
Definition methods : list method := [
  Method "DensProfsBase" "__init__" "dens_profs/dens_profs_classes.pyx" 25 [("xyz", false); ("masses", false); ("idx_cat", false); ("r200", false); ("obj_size", false); ("SNAP", false); ("L_BOX", false); ("MIN_NUMBER_PTCS", false); ("CENTER", false); ("VIZ_DEST", false); ("CAT_DEST", false); ("SUFFIX", false)];
  Method "DensProfsBase" "getR200" "dens_profs/dens_profs_classes.pyx" 60 [];
  Method "DensProfsBase" "getIdxCat" "dens_profs/dens_profs_classes.pyx" 71 [];
  Method "DensProfsBase" "getXYZMasses" "dens_profs/dens_profs_classes.pyx" 82 [];
  Method "DensProfsBase" "getMassesCenters" "dens_profs/dens_profs_classes.pyx" 96 [("obj_numbers", false)];
  Method "DensProfsBase" "estDensProfs" "dens_profs/dens_profs_classes.pyx" 141 [("r_over_r200", false); ("obj_numbers", false); ("direct_binning", true); ("spherical", true); ("katz_config", true)];
  Method "DensProfsBase" "fitDensProfs" "dens_profs/dens_profs_classes.pyx" 162 [("dens_profs", false); ("r_over_r200", false); ("method", false); ("obj_numbers", false)];
  Method "DensProfsBase" "estConcentrations" "dens_profs/dens_profs_classes.pyx" 196 [("dens_profs", false); ("r_over_r200", false); ("method", false); ("obj_numbers", false)];
  Method "DensProfsBase" "plotDensProfs" "dens_profs/dens_profs_classes.pyx" 214 [("dens_profs", false); ("r_over_r200", false); ("dens_profs_fit", false); ("r_over_r200_fit", false); ("method", false); ("nb_bins", false); ("obj_numbers", false)];
  Method "DensProfsBase" "getObjInfo" "dens_profs/dens_profs_classes.pyx" 237 [];
  Method "DensShapeProfsBase" "__init__" "shape_profs/shape_profs_classes.pyx" 46 [("xyz", false); ("masses", false); ("idx_cat", false); ("r200", false); ("obj_size", false); ("SNAP", false); ("L_BOX", false); ("MIN_NUMBER_PTCS", false); ("CENTER", false); ("VIZ_DEST", false); ("CAT_DEST", false); ("SUFFIX", false)];
  Method "DensShapeProfsBase" "getShapeCatLocal" "shape_profs/shape_profs_classes.pyx" 75 [("obj_numbers", false); ("katz_config", true)];
  Method "DensShapeProfsBase" "getShapeCatGlobal" "shape_profs/shape_profs_classes.pyx" 111 [("obj_numbers", false); ("katz_config", true)];
  Method "DensShapeProfsBase" "vizLocalShapes" "shape_profs/shape_profs_classes.pyx" 147 [("obj_numbers", false); ("katz_config", true)];
  Method "DensShapeProfsBase" "vizGlobalShapes" "shape_profs/shape_profs_classes.pyx" 243 [("obj_numbers", false); ("katz_config", true)];
  Method "DensShapeProfsBase" "plotGlobalEpsHist" "shape_profs/shape_profs_classes.pyx" 319 [("HIST_NB_BINS", false); ("obj_numbers", false)];
  Method "DensShapeProfsBase" "plotLocalEpsHist" "shape_profs/shape_profs_classes.pyx" 335 [("frac_r200", false); ("HIST_NB_BINS", false); ("obj_numbers", false)];
  Method "DensShapeProfsBase" "plotLocalTHist" "shape_profs/shape_profs_classes.pyx" 353 [("HIST_NB_BINS", false); ("frac_r200", false); ("obj_numbers", false); ("katz_config", true)];
  Method "DensShapeProfsBase" "plotGlobalTHist" "shape_profs/shape_profs_classes.pyx" 374 [("HIST_NB_BINS", false); ("obj_numbers", false); ("katz_config", true)];
  Method "DensShapeProfsBase" "plotShapeProfs" "shape_profs/shape_profs_classes.pyx" 395 [("nb_bins", false); ("obj_numbers", false); ("katz_config", true)];
  Method "DensShapeProfsBase" "dumpShapeCatLocal" "shape_profs/shape_profs_classes.pyx" 414 [("obj_numbers", false); ("katz_config", true)];
  Method "DensShapeProfsBase" "dumpShapeCatGlobal" "shape_profs/shape_profs_classes.pyx" 431 [("obj_numbers", false); ("katz_config", true)];
  Method "DensShapeProfs" "__init__" "shape_profs/shape_profs_classes.pyx" 466 [("xyz", false); ("masses", false); ("idx_cat", false); ("r200", false); ("L_BOX", false); ("SNAP", false); ("VIZ_DEST", false); ("CAT_DEST", false); ("MIN_NUMBER_PTCS", true); ("CENTER", true)];
  Method "DensShapeProfsGadget" "__init__" "shape_profs/shape_profs_classes.pyx" 541 [("SNAP_DEST", false); ("GROUP_DEST", false); ("OBJ_TYPE", false); ("SNAP", false); ("VIZ_DEST", false); ("CAT_DEST", false); ("RVIR_OR_R200", true); ("MIN_NUMBER_PTCS", true); ("CENTER", true)];
  Method "DensShapeProfsGadget" "getShapeCatVelLocal" "shape_profs/shape_profs_classes.pyx" 594 [("obj_numbers", false); ("katz_config", true)];
  Method "DensShapeProfsGadget" "getShapeCatVelGlobal" "shape_profs/shape_profs_classes.pyx" 636 [("obj_numbers", false); ("katz_config", true)];
  Method "DensShapeProfsGadget" "dumpShapeVelCatLocal" "shape_profs/shape_profs_classes.pyx" 678 [("obj_numbers", false); ("katz_config", true)];
  Method "DensShapeProfsGadget" "dumpShapeVelCatGlobal" "shape_profs/shape_profs_classes.pyx" 704 [("obj_numbers", false); ("katz_config", true)];
  Method "DensShapeProfsGadget" "getXYZMasses" "shape_profs/shape_profs_classes.pyx" 730 [];
  Method "DensShapeProfsGadget" "getVelXYZ" "shape_profs/shape_profs_classes.pyx" 760 [];
  Method "DensShapeProfsGadget" "getR200" "shape_profs/shape_profs_classes.pyx" 786 [];
  Method "DensShapeProfsGadget" "getIdxCat" "shape_profs/shape_profs_classes.pyx" 809 [];
  Method "DensShapeProfsGadget" "getObjInfoGadget" "shape_profs/shape_profs_classes.pyx" 831 [];
  Method "DensShapeProfsGadget" "getHeader" "shape_profs/shape_profs_classes.pyx" 847 []].
(** Attribute lookup on an object: the class itself, then its bases (three levels); None: AttributeError. *)
Definition own (c n : string) : option method := find (fun m => String.eqb (m_class m) c && String.eqb (m_name m) n) methods.
Fixpoint lookup (depth : nat) (c n : string) : option method :=
  match own c n with
  | Some m => Some m
  | None => match depth, base_of c with S k, Some b => lookup k b n | _, _ => None end
  end.
Definition method_of (c n : string) : option method := lookup 2 c n.

(** An entry of the lists "Public Methods" in docs/source/data_structures/index.rst. *)
Record entry := Entry { e_class : string; e_name : string; e_line : Z; e_params : list (string * bool) }.
Definition documented : list entry := [
  Entry "DensShapeProfsGadget" "getPartType" 54 [];
  Entry "DensShapeProfsGadget" "getXYZMasses" 55 [];
  Entry "DensShapeProfsGadget" "getVelXYZMasses" 56 [];
  Entry "DensShapeProfsGadget" "getR200" 57 [];
  Entry "DensShapeProfsGadget" "getIdxCat" 58 [];
  Entry "DensShapeProfsGadget" "getMassesCenters" 59 [("obj_numbers", false)];
  Entry "DensShapeProfsGadget" "getObjInfo" 60 [];
  Entry "DensShapeProfsGadget" "getObjInfoGadget" 61 [];
  Entry "DensShapeProfsGadget" "getHeader" 62 [];
  Entry "DensShapeProfsGadget" "estDensProfs" 66 [("ROverR200", false); ("obj_numbers", false); ("direct_binning", true); ("spherical", true); ("katz_config", true)];
  Entry "DensShapeProfsGadget" "fitDensProfs" 67 [("dens_profs", false); ("ROverR200", false); ("method", false); ("obj_numbers", false)];
  Entry "DensShapeProfsGadget" "estConcentrations" 68 [("dens_profs", false); ("ROverR200", false); ("method", false); ("obj_numbers", false)];
  Entry "DensShapeProfsGadget" "plotDensProfs" 69 [("dens_profs", false); ("ROverR200", false); ("dens_profs_fit", false); ("ROverR200_fit", false); ("method", false); ("nb_bins", false); ("obj_numbers", false)];
  Entry "DensShapeProfsGadget" "getShapeCatLocal" 87 [("obj_numbers", false); ("katz_config", true)];
  Entry "DensShapeProfsGadget" "getShapeCatGlobal" 88 [("obj_numbers", false); ("katz_config", true)];
  Entry "DensShapeProfsGadget" "vizLocalShapes" 89 [("obj_numbers", false); ("katz_config", true)];
  Entry "DensShapeProfsGadget" "vizGlobalShapes" 90 [("obj_numbers", false); ("katz_config", true)];
  Entry "DensShapeProfsGadget" "plotGlobalEpsHist" 91 [("HIST_NB_BINS", false); ("obj_numbers", false)];
  Entry "DensShapeProfsGadget" "plotLocalEpsHist" 92 [("frac_r200", false); ("HIST_NB_BINS", false); ("obj_numbers", false)];
  Entry "DensShapeProfsGadget" "plotLocalTHist" 93 [("HIST_NB_BINS", false); ("frac_r200", false); ("obj_numbers", false); ("katz_config", true)];
  Entry "DensShapeProfsGadget" "plotGlobalTHist" 94 [("HIST_NB_BINS", false); ("obj_numbers", false); ("katz_config", true)];
  Entry "DensShapeProfsGadget" "plotShapeProfs" 95 [("nb_bins", false); ("obj_numbers", false); ("katz_config", true)];
  Entry "DensShapeProfsGadget" "dumpShapeCatLocal" 96 [("CAT_DEST", false); ("obj_numbers", false); ("katz_config", true)];
  Entry "DensShapeProfsGadget" "dumpShapeCatGlobal" 97 [("CAT_DEST", false); ("obj_numbers", false); ("katz_config", true)];
  Entry "DensShapeProfs" "getXYZMasses" 141 [];
  Entry "DensShapeProfs" "getR200" 142 [];
  Entry "DensShapeProfs" "getIdxCat" 143 [];
  Entry "DensShapeProfs" "getMassesCenters" 144 [("obj_numbers", false)];
  Entry "DensShapeProfs" "getObjInfo" 145 [];
  Entry "DensShapeProfs" "estDensProfs" 149 [("ROverR200", false); ("obj_numbers", false); ("direct_binning", true); ("spherical", true); ("katz_config", true)];
  Entry "DensShapeProfs" "fitDensProfs" 150 [("dens_profs", false); ("ROverR200", false); ("method", false); ("obj_numbers", false)];
  Entry "DensShapeProfs" "estConcentrations" 151 [("dens_profs", false); ("ROverR200", false); ("method", false); ("obj_numbers", false)];
  Entry "DensShapeProfs" "plotDensProfs" 152 [("dens_profs", false); ("ROverR200", false); ("dens_profs_fit", false); ("ROverR200_fit", false); ("method", false); ("nb_bins", false); ("obj_numbers", false)];
  Entry "DensShapeProfs" "getShapeCatLocal" 156 [("obj_numbers", false); ("katz_config", true)];
  Entry "DensShapeProfs" "getShapeCatGlobal" 157 [("obj_numbers", false); ("katz_config", true)];
  Entry "DensShapeProfs" "vizLocalShapes" 158 [("obj_numbers", false); ("katz_config", true)];
  Entry "DensShapeProfs" "vizGlobalShapes" 159 [("obj_numbers", false); ("katz_config", true)];
  Entry "DensShapeProfs" "plotGlobalEpsHist" 160 [("HIST_NB_BINS", false); ("obj_numbers", false)];
  Entry "DensShapeProfs" "plotLocalEpsHist" 161 [("frac_r200", false); ("HIST_NB_BINS", false); ("obj_numbers", false)];
  Entry "DensShapeProfs" "plotLocalTHist" 162 [("HIST_NB_BINS", false); ("frac_r200", false); ("obj_numbers", false); ("katz_config", true)];
  Entry "DensShapeProfs" "plotGlobalTHist" 163 [("HIST_NB_BINS", false); ("obj_numbers", false); ("katz_config", true)];
  Entry "DensShapeProfs" "plotShapeProfs" 164 [("nb_bins", false); ("obj_numbers", false); ("katz_config", true)];
  Entry "DensShapeProfs" "dumpShapeCatLocal" 165 [("CAT_DEST", false); ("obj_numbers", false); ("katz_config", true)];
  Entry "DensShapeProfs" "dumpShapeCatGlobal" 166 [("CAT_DEST", false); ("obj_numbers", false); ("katz_config", true)]].

(** A call in the documentation or in an example script; a constructor is called by the name of its class. *)
Record snippet := Snippet { sn_file : string; sn_line : Z; sn_class : string; sn_name : string; sn_args : list arg }.
Definition shown : list snippet := [
  Snippet "docs/source/data_structures/index.rst" 34 "DensShapeProfsGadget" "__init__" [P "SNAP_DEST"; P "GROUP_DEST"; P "OBJ_TYPE"; P "SNAP"; P "VIZ_DEST"; P "CAT_DEST"; K "RVIR_OR_R200" "RVIR_OR_R200"; K "MIN_NUMBER_PTCS" "MIN_NUMBER_PTCS"; K "CENTER" "CENTER"];
  Snippet "docs/source/data_structures/index.rst" 118 "DensShapeProfs" "__init__" [P "xyz"; P "mass_array"; P "idx_cat"; P "r_vir"; P "L_BOX"; P "SNAP"; P "VIZ_DEST"; P "CAT_DEST"; K "MIN_NUMBER_PTCS" "MIN_NUMBER_PTCS"; K "CENTER" "CENTER"];
  Snippet "docs/source/density_profiles/index.rst" 37 "DensShapeProfsGadget" "__init__" [P "SNAP_DEST"; P "GROUP_DEST"; P "OBJ_TYPE"; P "SNAP"; P "VIZ_DEST"; P "CAT_DEST"; P "RVIR_OR_R200"; P "MIN_NUMBER_PTCS"; P "CENTER"];
  Snippet "docs/source/density_profiles/index.rst" 41 "DensShapeProfsGadget" "estDensProfs" [P "r_over_r200"; K "obj_numbers" ""; K "direct_binning" ""; K "spherical" ""; K "katz_config" "default_katz_config"];
  Snippet "docs/source/density_profiles/index.rst" 81 "DensShapeProfsGadget" "fitDensProfs" [P "dens_profs"; P "r_over_r200"; P "method"; K "obj_numbers" ""];
  Snippet "docs/source/density_profiles/index.rst" 94 "DensShapeProfsGadget" "estConcentrations" [P "dens_profs"; P "r_over_r200"; P "method"; K "obj_numbers" ""];
  Snippet "docs/source/density_profiles/index.rst" 100 "DensShapeProfsGadget" "plotDensProfs" [P "dens_profs_db"; P "r_over_r200"; P "dens_profs_fit"; P "r_over_r200_fit"; P "method"; K "nb_bins" ""; K "obj_numbers" ""];
  Snippet "docs/source/shape_estimation/index.rst" 46 "DensShapeProfsGadget" "getShapeCatLocal" [P "obj_numbers"; K "katz_config" "default_katz_config"];
  Snippet "docs/source/shape_estimation/index.rst" 86 "DensShapeProfsGadget" "dumpShapeCatLocal" [P "obj_numbers"; K "katz_config" "default_katz_config"];
  Snippet "docs/source/shape_estimation/index.rst" 109 "DensShapeProfsGadget" "getShapeCatGlobal" [P "obj_numbers"; K "katz_config" "default_katz_config"];
  Snippet "docs/source/shape_estimation/index.rst" 113 "DensShapeProfsGadget" "dumpShapeCatGlobal" [P "obj_numbers"; K "katz_config" "default_katz_config"];
  Snippet "docs/source/shape_estimation/index.rst" 136 "DensShapeProfsGadget" "getShapeCatVelLocal" [P "obj_numbers"; K "katz_config" "default_katz_config"];
  Snippet "docs/source/shape_estimation/index.rst" 138 "DensShapeProfsGadget" "getShapeCatVelGlobal" [P "obj_numbers"; K "katz_config" "default_katz_config"];
  Snippet "docs/source/shape_estimation/index.rst" 138 "DensShapeProfsGadget" "dumpShapeCatVelGlobal" [P "obj_numbers"; K "katz_config" "default_katz_config"];
  Snippet "docs/source/shape_estimation/index.rst" 151 "DensShapeProfsGadget" "dumpShapeCatVelLocal" [P "obj_numbers"; K "katz_config" "default_katz_config"];
  Snippet "docs/source/shape_estimation/index.rst" 159 "DensShapeProfsGadget" "plotShapeProfs" [K "nb_bins" ""; P "obj_numbers"; K "katz_config" "default_katz_config"];
  Snippet "docs/source/shape_estimation/index.rst" 163 "DensShapeProfsGadget" "vizLocalShapes" [K "obj_numbers" ""; K "katz_config" "default_katz_config"];
  Snippet "example_scripts/apply_ahf.py" 193 "DensShapeProfs" "__init__" [P "dm_xyz"; P "mass_array"; P "h_indices"; P "r_vir"; P "L_BOX"; P "SNAP"; P "VIZ_DEST"; P "CAT_DEST"; K "MIN_NUMBER_PTCS" "MIN_NUMBER_PTCS"; K "CENTER" "CENTER"];
  Snippet "example_scripts/apply_ahf.py" 195 "DensShapeProfs" "getIdxCat" [];
  Snippet "example_scripts/apply_ahf.py" 202 "DensShapeProfs" "dumpShapeCatLocal" [P "obj_numbers"; P "katz_config"];
  Snippet "example_scripts/apply_ahf.py" 206 "DensShapeProfs" "vizLocalShapes" [P "obj_numbers"; P "katz_config"];
  Snippet "example_scripts/gadget3_hdf5.py" 47 "DensShapeProfsGadget" "__init__" [P "SNAP_DEST"; P "GROUP_DEST"; P "OBJ_TYPE"; P "SNAP"; P "VIZ_DEST"; P "CAT_DEST"; K "RVIR_OR_R200" "RVIR_OR_R200"; K "MIN_NUMBER_PTCS" "MIN_NUMBER_PTCS"; K "CENTER" "CENTER"];
  Snippet "example_scripts/gadget3_hdf5.py" 49 "DensShapeProfsGadget" "getIdxCat" [];
  Snippet "example_scripts/gadget3_hdf5.py" 59 "DensShapeProfsGadget" "dumpShapeCatLocal" [P "obj_numbers"; P "katz_config"];
  Snippet "example_scripts/gadget3_hdf5.py" 62 "DensShapeProfsGadget" "dumpShapeCatGlobal" [P "obj_numbers"; P "katz_config"];
  Snippet "example_scripts/gadget3_hdf5.py" 66 "DensShapeProfsGadget" "vizLocalShapes" [P "obj_numbers"; P "katz_config"];
  Snippet "example_scripts/gadget3_hdf5.py" 69 "DensShapeProfsGadget" "plotGlobalEpsHist" [P "HIST_NB_BINS"; P "obj_numbers"];
  Snippet "example_scripts/gadget3_hdf5.py" 72 "DensShapeProfsGadget" "plotLocalTHist" [P "HIST_NB_BINS"; P "frac_r200"; P "obj_numbers"; P "katz_config"];
  Snippet "example_scripts/gadget3_hdf5.py" 75 "DensShapeProfsGadget" "plotShapeProfs" [K "nb_bins" ""; K "obj_numbers" "obj_numbers"; K "katz_config" "katz_config"];
  Snippet "example_scripts/gadget3_hdf5.py" 79 "DensShapeProfsGadget" "estDensProfs" [P "ROverR200"; P "obj_numbers"; K "direct_binning" ""];
  Snippet "example_scripts/gadget3_hdf5.py" 86 "DensShapeProfsGadget" "fitDensProfs" [P "dens_profs"; P "ROverR200"; P "method"; P "obj_numbers"];
  Snippet "example_scripts/gadget3_hdf5.py" 89 "DensShapeProfsGadget" "plotDensProfs" [P "dens_profs"; P "ROverR200"; P "dens_profs"; P "ROverR200"; K "method" "method"; K "nb_bins" ""; K "obj_numbers" "obj_numbers"]].

(** Python's grammar: no positional argument after a keyword; otherwise the file does not compile. *)
Fixpoint ordered (args : list arg) : bool :=
  match args with
  | [] => true
  | P _ :: l => ordered l
  | K _ _ :: l => forallb (fun a => match a with P _ => false | K _ _ => true end) l
  end.
(** What a call ends in before the body of the method runs. *)
Inductive verdict := SyntaxError | AttributeError | TypeError | Enters.
Definition attempt (c n : string) (args : list arg) : verdict :=
  if ordered args then match method_of c n with
    | None => AttributeError
    | Some m => if accepts (m_params m) args then Enters else TypeError
    end
  else SyntaxError.
