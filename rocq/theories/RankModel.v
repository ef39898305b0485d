(** What the public methods do on each rank of a run with several MPI processes: control flow of
    shape_profs/shape_profs_classes.pyx (DensShapeProfsBase lines 31-446, DensShapeProfsGadget lines
    541-592), dens_profs/dens_profs_classes.pyx (lines 25-241), the wrappers in
    common/cosmic_base_class.pyx they use and genHalo (mock_tools/mock_halo_gen.py lines 41-112).
    Files are relative to /repo/cosmic_profiles. Every rank runs the same program with the same
    arguments. The checks and the computations are arguments of the model: their outcome is a
    function of the arguments of the call, not of the rank. *)
From Coq Require Import List Bool Arith.
Import ListNotations.

Inductive err := AttributeError | TypeError | ValueError | KeyError | OtherError (n : nat).
Inductive res (A : Type) := Ok (a : A) | Err (e : err).
Arguments Ok {A} a. Arguments Err {A} e.
Definition bind {A B} (m : res A) (f : A -> res B) : res B := match m with Ok a => f a | Err e => Err e end.
Notation "'do' x <- m ; k" := (bind m (fun x => k)) (at level 200, x name, m at level 100, k at level 200).
Notation "m ;; k" := (bind m (fun _ => k)) (at level 199, right associativity).

(** Python values, as far as ranks differ: None, a tuple, anything else. *)
Inductive pyval := PNone | PTup (l : list pyval) | PData (n : nat).
(** v.base of a typed memoryview. A memoryview parameter or attribute may hold None (Cython: parameters
    accept None unless declared not None); its attributes raise AttributeError then. *)
Definition base (v : pyval) : res pyval := match v with PNone => Err AttributeError | _ => Ok v end.
(** v[:, i]. *)
Definition column (v : pyval) : res pyval := match v with PNone => Err TypeError | _ => Ok v end.
(** a, b = v. *)
Definition unpack2 (v : pyval) : res (pyval * pyval) :=
  match v with PTup [a; b] => Ok (a, b) | PTup _ => Err ValueError | _ => Err TypeError end.

(** The memoryviews of an object, dens_profs_classes.pxd lines 9-12 and cosmic_base_class.pxd line 13. *)
Record obj := Obj { o_xyz : pyval; o_masses : pyval; o_idx_cat : pyval; o_obj_size : pyval; o_r200 : pyval }.

(** DensProfsBase.__init__, dens_profs_classes.pyx lines 25-58 (the assertion on the lengths, line 53, is left out; when it sees
    None it raises AttributeError or passes). DensShapeProfsBase.__init__, shape_profs_classes.pyx lines 46-73, hands on the same bases. *)
Definition base_init (xyz masses idx_cat r200 obj_size : pyval) : res obj :=
  do x <- base xyz; do m <- base masses; do i <- base idx_cat; do s <- base obj_size; do r <- base r200;
  Ok (Obj x m i s r).

Inductive method := GetR200 | GetIdxCat | GetXYZMasses | GetMassesCenters | EstDensProfs | FitDensProfs | EstConcentrations
  | PlotDensProfs | GetObjInfo | GetShapeCatLocal | GetShapeCatGlobal | VizLocalShapes | VizGlobalShapes | PlotGlobalEpsHist
  | PlotLocalEpsHist | PlotLocalTHist | PlotGlobalTHist | PlotShapeProfs | DumpShapeCatLocal | DumpShapeCatGlobal.

Section Run.
  (** Outcomes fixed by the arguments of the call:
      katz, dens_method: checkKatzConfig, checkDensFitMethod (python_routines.py lines 656-676, 678-696);
      convert: np.float64(...) of the arguments and their binding to typed parameters;
      lengths: the comparison of len(dens_profs) and len(obj_numbers);
      valid: isValidSelection; compute, centres: the computations on rank 0. *)
  Variables (rank : nat) (katz dens_method convert lengths valid : res unit) (compute centres : res nat).
  (** The guarded part of a method: rank 0 checks the selection and computes, the others take [other]. *)
  Definition on_root (other : pyval) : res pyval :=
    if Nat.eqb rank 0 then valid;; do n <- compute; Ok (PData n) else Ok other.
  (** As above for methods without a result. *)
  Definition do_root : res pyval := do _ <- on_root PNone; Ok PNone.
  (** _getMassesCenters, dens_profs_classes.pyx lines 123-139. *)
  Definition getMassesCenters_ (o : obj) : res pyval :=
    if Nat.eqb rank 0 then base (o_obj_size o);; valid;; base (o_idx_cat o);; base (o_xyz o);; base (o_masses o);; do n <- centres; Ok (PTup [PData n; PData n])
    else Ok (PTup [PNone; PNone]).
  (** The attributes handed to the wrappers. *)
  Definition bases (l : list pyval) : res unit := fold_right (fun v k => base v;; k) (Ok tt) l.
  Definition all_attrs (o : obj) : list pyval := [o_xyz o; o_masses o; o_r200 o; o_idx_cat o; o_obj_size o].
  Definition run (m : method) (o : obj) : res pyval :=
    match m with
    (* dens_profs_classes.pyx lines 60-69, 71-80, 82-94 *)
    | GetR200 => if Nat.eqb rank 0 then base (o_r200 o) else Ok PNone
    | GetIdxCat => if Nat.eqb rank 0 then do i <- base (o_idx_cat o); do s <- base (o_obj_size o); Ok (PTup [i; s]) else Ok (PTup [PNone; PNone])
    | GetXYZMasses => if Nat.eqb rank 0 then do x <- base (o_xyz o); do m <- base (o_masses o); Ok (PTup [x; m]) else Ok (PTup [PNone; PNone])
    (* lines 96-121 *)
    | GetMassesCenters => if Nat.eqb rank 0 then do v <- getMassesCenters_ o; do p <- unpack2 v; Ok (fst p) else Ok (PTup [PNone; PNone])
    (* lines 141-160, cosmic_base_class.pyx lines 892-955 *)
    | EstDensProfs => katz;; bases (all_attrs o);; convert;; on_root PNone
    (* lines 162-194, cosmic_base_class.pyx lines 1001-1045; line 181 takes a column of the result *)
    | FitDensProfs => dens_method;; bases [o_r200 o; o_obj_size o];; convert;; lengths;; do best_fits <- on_root PNone; do _ <- column best_fits; Ok best_fits
    (* lines 196-212, cosmic_base_class.pyx lines 1047-1081 *)
    | EstConcentrations => dens_method;; bases [o_r200 o; o_obj_size o];; convert;; lengths;; on_root PNone
    (* lines 214-235, cosmic_base_class.pyx lines 1083-1128 *)
    | PlotDensProfs => dens_method;; bases [o_r200 o; o_obj_size o];; convert;; lengths;; do v <- getMassesCenters_ o; do _ <- unpack2 v; do_root
    (* lines 237-241, cosmic_base_class.pyx lines 1130-1141 *)
    | GetObjInfo => bases [o_idx_cat o; o_obj_size o];; Ok PNone
    (* shape_profs_classes.pyx lines 75-109, 111-145 *)
    | GetShapeCatLocal | GetShapeCatGlobal => katz;; if Nat.eqb rank 0 then bases (all_attrs o);; on_root PNone else Ok PNone
    (* lines 147-241, 243-317, 353-372, 374-393, 395-412, 414-429, 431-446 *)
    | VizLocalShapes | VizGlobalShapes | PlotLocalTHist | PlotGlobalTHist | PlotShapeProfs | DumpShapeCatLocal | DumpShapeCatGlobal =>
        katz;; if Nat.eqb rank 0 then bases (all_attrs o);; do_root else Ok PNone
    (* lines 319-333, 335-351 *)
    | PlotGlobalEpsHist | PlotLocalEpsHist => if Nat.eqb rank 0 then bases (all_attrs o);; do_root else Ok PNone
    end.
  (** DensShapeProfsGadget.__init__, lines 541-592. [katz] plays no part; [convert]: reading the group and
      snapshot files (on every rank), lines 571-577; [compute]: calcObjCat, line 580. *)
  Definition gadget_init : res obj :=
    convert;;
    do p <- (if Nat.eqb rank 0 then do n <- compute; Ok (PData n, PData n) else Ok (PNone, PNone));
    let (cat, parts) := p in base_init parts parts cat cat cat.
  (** DensShapeProfs.__init__, lines 466-521: the same on every rank. *)
  Definition arrays_init : res obj := convert;; base_init (PData 0) (PData 1) (PData 2) (PData 3) (PData 4).
  (** genHalo, mock_halo_gen.py lines 41 and 110-112. *)
  Definition genHalo : res pyval :=
    if Nat.eqb rank 0 then do n <- compute; Ok (PTup (repeat (PData n) 5)) else Ok (PTup (repeat PNone 5)).
End Run.
