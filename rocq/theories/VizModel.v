(** shape_profs/shape_profs_classes.pyx: what vizLocalShapes (lines 147-241) and vizGlobalShapes (243-317)
    put into a figure, and common/python_routines.py set_axes_equal (lines 239-259). Colours, labels and
    marker sizes are not modelled; matplotlib's scatter shows the points it is given, quiver an arrow from
    its first three arguments along [length] times the next three (normalize=False, pivot='tail'). Shapes
    are finite numbers here (rows with NaN draw nothing). *)
From Coq Require Import List Reals ZArith.
From Verif Require Import XR GeoModel ShapeModel EpsModel MockModel ShapeMoveModel.
Import ListNotations.
Open Scope R_scope.

(** One row of the shape profile of an object in output units: d, q, s and the three axes. *)
Record vshape := mkS { s_d : R; s_q : R; s_s : R; s_major : vec; s_inter : vec; s_minor : vec }.

(** config.LengthInternalToOut(respectPBCNoRef(obj, L_BOX)), lines 189, 284; [k] is the length factor. *)
Definition viz_particles (choose : list nat) (k L : R) (o : list vptc) : list vec :=
  map (vscale k) (respectPBCNoRef choose (map fst (map pm o)) L).
(** The centre as returned by calcMorphLocal/calcMorphGlobal (recentred, shape_profs_algos.pyx lines 627,
    735) and converted, lines 172, 267. *)
Definition viz_center (k L : R) (center : vec) : vec :=
  vscale k (nth 0 (recentreObject [center] L) v0).

(** v/np.linalg.norm(v). *)
Definition unit (v : vec) : vec := vscale (/ norm v) v.
(** np.dot(rot_matrix, p) with the normalised axes as columns, lines 204-206, 223-225, 299-301. *)
Definition frame (major inter minor : vec) (p : pt) : vec :=
  let '(x, y, z) := p in
  vadd (vadd (vscale x (unit major)) (vscale y (unit inter))) (vscale z (unit minor)).
(** The surface points, lines 203-211, 222-229, 298-305. *)
Definition viz_surface (center : vec) (s : vshape) : mres (list vec) :=
  mbind (fibonacci_ellipsoid (s_d s) (s_q s * s_d s) (s_s s * s_d s) 500) (fun pts =>
    MOk (map (fun p => vadd (frame (s_major s) (s_inter s) (s_minor s) p) center) pts)).
(** Heads of the three arrows of a row, lines 214-220, 230-232, 306-308. *)
Definition viz_heads (center : vec) (s : vshape) : list vec :=
  [vadd center (vscale (s_d s) (s_major s));
   vadd center (vscale (s_q s * s_d s) (s_inter s));
   vadd center (vscale (s_s s * s_d s) (s_minor s))].

(** A figure: particles, centre, ellipsoids (green, then red) and arrows with their label, [None] for
    arrows without one. *)
Inductive vlabel := Axis | Special (k : Z).
Record figure := mkFig { f_particles : list vec; f_center : vec; f_green : mres (list vec);
                         f_red : list (mres (list vec)); f_arrows : list (option vlabel * list vec) }.

(** a[i] for an index that may be negative; [x0] stands for IndexError. *)
Definition pyindex {X} (l : list X) (i : Z) (x0 : X) : X :=
  if (i <? - Z.of_nat (length l))%Z then x0
  else if (i <? 0)%Z then nth (Z.to_nat (Z.of_nat (length l) + i)) l x0 else nth (Z.to_nat i) l x0.
(** np.arange(a, b). *)
Definition arange (a b : Z) : list Z := map (fun i => (a + Z.of_nat i)%Z) (seq 0 (Z.to_nat (b - a))).

(** vizLocalShapes, lines 176-241: [rows] has D_BINS + 1 entries (D_BINS = len(ROverR200) - 1, line 159). *)
Definition viz_local (choose : list nat) (k L : R) (center : vec) (rows : list vshape) (o : list vptc) : figure :=
  let s0 := mkS 0 0 0 v0 v0 v0 in
  let D := (Z.of_nat (length rows) - 1)%Z in
  let c := viz_center k L center in
  mkFig (viz_particles choose k L o) c
    (viz_surface c (pyindex rows (-1) s0))
    (map (fun i => viz_surface c (pyindex rows i s0)) (arange ((- D) / 5) ((- D) / 5 + 1)))
    (map (fun i => (if (i =? D - 1)%Z then Some Axis else None, viz_heads c (pyindex rows i s0))) (arange (D - D / 5) D) ++
     map (fun i => (Some (Special i), viz_heads c (pyindex rows i s0))) (arange ((- D) / 5) ((- D) / 5 + 1))).

(** vizGlobalShapes, lines 271-317: one row. *)
Definition viz_global (choose : list nat) (k L : R) (center : vec) (row : vshape) (o : list vptc) : figure :=
  let s0 := mkS 0 0 0 v0 v0 v0 in
  let c := viz_center k L center in
  mkFig (viz_particles choose k L o) c (viz_surface c (pyindex [row] (-1) s0)) []
    [(Some Axis, viz_heads c (pyindex [row] 0 s0))].

(** ** set_axes_equal and _set_axes_radius, python_routines.py lines 239-259 *)
(** Limits of the three axes as pairs. *)
Definition set_axes_equal (lims : list (R * R)) : list (R * R) :=
  let origin := map (fun l => (fst l + snd l) / 2) lims in
  let radius := (1 / 2) * fold_left Rmax (map (fun l => Rabs (snd l - fst l)) (tl lims))
                                         (match lims with [] => 0 | l :: _ => Rabs (snd l - fst l) end) in
  map (fun o => (o - radius, o + radius)) origin.
