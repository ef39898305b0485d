(** Model of the names of output files and of the folders they go to:
    cosmic_profiles/common/cosmic_base_class.pyx (reads and dumps), shape_profs/shape_profs_classes.pyx,
    shape_profs/shape_profs_tools.py and dens_profs/dens_profs_tools.py (plots). *)
From Coq Require Import Reals ZArith List String Ascii Decimal DecimalString Bool.
From Verif Require Import MockModel.
Import ListNotations.
Local Open Scope string_scope.

(** ** Names of dumped catalogues *)
(** The eight files of a catalogue, cosmic_base_class.pyx 472-479. *)
Inductive quantity := QD | QQ | QS | QMinor | QInter | QMajor | QM | QCenters.
Inductive scope := Local | Global.
(** What getPartType (gadget/read_fof.py 15-30) accepts as OBJ_TYPE. *)
Inductive species := Dm | Stars | Gas.
(** Who reads or writes: a DensShapeProfs object, a DensShapeProfsGadget object, or the methods of the
    latter for velocity shapes. *)
Inductive source := Direct | Gadget (t : species) | GadgetVel (t : species).
Definition quantity_str (q : quantity) : string := match q with QD => "d" | QQ => "q" | QS => "s" | QMinor => "minor" | QInter => "inter" | QMajor => "major" | QM => "m" | QCenters => "centers" end.
Definition scope_str (s : scope) : string := match s with Local => "local" | Global => "global" end.
Definition species_str (t : species) : string := match t with Dm => "dm" | Stars => "stars" | Gas => "gas" end.
(** shape_profs_classes.pyx 513 ('_'), 567 ('_{}_'), 616, 658, 697 and 723 ('_v{}_'). *)
Definition suffix (src : source) : string := match src with Direct => "_" | Gadget t => "_" ++ species_str t ++ "_" | GadgetVel t => "_v" ++ species_str t ++ "_" end.
(** '{0}/d_local{1}{2}.txt'.format(self.CAT_DEST, suffix, self.SNAP), cosmic_base_class.pyx 472-479
    (local), 526-533 (global), 587-594 and 645-652 (velocities); queries look for the same names, 120-128,
    192-201, 289-297, 364-373. *)
Definition dump_file (cat : string) (q : quantity) (sc : scope) (src : source) (snap : string) : string :=
  cat ++ "/" ++ quantity_str q ++ "_" ++ scope_str sc ++ suffix src ++ snap ++ ".txt".
(** _estDensProfsBase, cosmic_base_class.pyx 941-943: the suffix handed to _getShapeCatLocalBase is '_'
    whatever the class of the object. *)
Definition density_shape_file (cat : string) (q : quantity) (src : source) (snap : string) : string := dump_file cat q Local Direct snap.

(** The logic of _getShapeCatLocalBase (119-158) around these names, for catalogues of any type X: a dump
    stores, a query loads if the file of d is there and computes otherwise. Simplification: the eight files
    of a catalogue are one; dumping what was computed, not what an earlier dump contains (C38). *)
Definition dump_shapes (X : Type) (cat : string) (src : source) (snap : string) (x : X) (disk : string -> option X) : string -> option X :=
  fun f => if String.eqb f (dump_file cat QD Local src snap) then Some x else disk f.
Definition query_shapes (X : Type) (cat : string) (src : source) (snap : string) (disk : string -> option X) (computed : X) : X :=
  match disk (dump_file cat QD Local src snap) with Some x => x | None => computed end.
Definition density_shapes (X : Type) (cat : string) (src : source) (snap : string) (disk : string -> option X) (computed : X) : X :=
  match disk (density_shape_file cat QD src snap) with Some x => x | None => computed end.

(** ** Names of plots *)
Inductive axis := Aq | As_ | AT.
Definition axis_str (a : axis) : string := match a with Aq => "q" | As_ => "s" | AT => "T" end.
(** Profiles of q, s, T for all objects and for a mass group (lower edge m); histograms of T and of the
    ellipticity; pictures of object n; density profiles for all objects and for a mass group. *)
Inductive plot := PProf (a : axis) | PGroup (a : axis) (m : R) | PTHist (sc : scope) | PEps (sc : scope) | PObj (sc : scope) (n : nat) | PRho | PRhoGroup (m : R).
(** str(n) of a non-negative integer. *)
Definition dec (n : nat) : string := NilZero.string_of_uint (Nat.to_uint n).
(** np.log10 *)
Definition log10 (x : R) : R := (ln x / ln 10)%R.
(** '{:.2f}'.format(x): the exact value rounded to hundredths, ties to even. Simplification: x is taken
    to be at least 0 (masses of at least one unit); x has not been rounded to a float32 or float64. *)
Definition hundredths (x : R) : nat := Z.to_nat (py_round (100 * x)%R).
Definition two_digits (k : nat) : string := dec (k / 10) ++ dec (k mod 10).
Definition fmt2 (x : R) : string := dec (hundredths x / 100) ++ "." ++ two_digits (hundredths x mod 100).
Definition scope_cap (s : scope) : string := match s with Local => "Local" | Global => "Global" end.
(** shape_profs_tools.py 163, 174, 194 (profiles), 207, 220, 234 (groups), 294, 349 (T histograms), 391,
    437 (ellipticity histograms, local and global), shape_profs_classes.pyx 241, 317 (objects),
    dens_profs_tools.py 186, 211 (densities). *)
Definition plot_base (p : plot) : string :=
  match p with
  | PProf a => axis_str a
  | PGroup a m => axis_str a ++ "M" ++ fmt2 (log10 m)
  | PTHist sc => scope_cap sc ++ "TCount"
  | PEps _ => "EpsCount"
  | PObj sc n => scope_cap sc ++ "Obj" ++ dec n
  | PRho => "RhoProf"
  | PRhoGroup m => "RhoProfM" ++ fmt2 (log10 m)
  end.
(** The same lines: density plots have '_' instead of the suffix. *)
Definition plot_suffix (p : plot) (src : source) : string := match p with PRho | PRhoGroup _ => "_" | _ => suffix src end.
Definition plot_file (viz : string) (p : plot) (src : source) (snap : string) : string := viz ++ "/" ++ plot_base p ++ plot_suffix p src ++ snap ++ ".pdf".

(** ** Folders *)
(** Paths as component lists from the root. Simplification: no symbolic links, no '..'. *)
Definition path := list string.
(** Splitting at '/', without empty components and '.'. *)
Fixpoint split_at (s cur : string) : list string :=
  match s with
  | EmptyString => [cur]
  | String c s => if Ascii.eqb c "/" then cur :: split_at s "" else split_at s (cur ++ String c "")
  end.
Definition components (s : string) : path := filter (fun c => negb (String.eqb c "" || String.eqb c ".")) (split_at s "").
Definition absolute (s : string) : bool := match s with String c _ => Ascii.eqb c "/" | EmptyString => false end.
(** The path a process in directory cwd means by s. *)
Definition resolve (cwd : path) (s : string) : path := if absolute s then components s else (cwd ++ components s)%list.
Fixpoint prefixes {A} (l : list A) : list (list A) := [] :: match l with [] => [] | x :: l => map (cons x) (prefixes l) end.
Record fs := mkFs { dirs : list path; files : list path }.
(** subprocess.call(['mkdir', '-p', dest], cwd=here). Simplification: no permission errors. *)
Definition mkdir_p (here : path) (dest : string) (w : fs) : fs := mkFs (prefixes (resolve here dest) ++ dirs w) (files w).
(** Opening a file for writing (np.savetxt, plt.savefig): FileNotFoundError (None) without its folder. *)
Definition path_eqb (p q : path) : bool := if list_eq_dec string_dec p q then true else false.
Definition write (cwd : path) (dest name : string) (w : fs) : option fs :=
  if existsb (path_eqb (resolve cwd dest)) (dirs w) then Some (mkFs (dirs w) ((resolve cwd dest ++ [name])%list :: files w)) else None.
(** Where mkdir runs: currentdir, the folder of the module that saves. shape_profs_tools.py 12 and
    dens_profs_tools.py 16 are Python modules: the folder of that file in the installed package. The
    compiled modules shape_profs_classes.pyx 17 and cosmic_base_class.pyx 18 have no frame of their own:
    the folder of whatever frame imports them, taken as a parameter here. *)
Inductive saver := ShapeTools | DensTools | Compiled (importer : path).
Definition currentdir (pkg : path) (s : saver) : path :=
  match s with ShapeTools => (pkg ++ ["shape_profs"])%list | DensTools => (pkg ++ ["dens_profs"])%list | Compiled d => d end.
(** shape_profs_tools.py 152, 281, 336, 382, 427, dens_profs_tools.py 158, shape_profs_classes.pyx 168, 263,
    cosmic_base_class.pyx 471, 525, 586, 644, each followed by saving. *)
Definition save (pkg : path) (s : saver) (cwd : path) (dest name : string) (w : fs) : option fs := write cwd dest name (mkdir_p (currentdir pkg s) dest w).
