(** shape_profs/shape_profs_tools.py: the projected ellipticity getEpsilon, lines 18-62. *)
From Coq Require Import List Reals.
From Verif Require Import XR GeoModel.
Import ListNotations.
Open Scope R_scope.

(** R.from_rotvec(angle*[0,0,1]).as_matrix() applied to a row, lines 42, 52 (scipy). *)
Definition rotz (angle : R) (v : vec) : vec :=
  mkV (cos angle * vx v - sin angle * vy v) (sin angle * vx v + cos angle * vy v) (vz v).

(** max(a) - min(a) of a column, line 47. *)
Definition spread (f : vec -> R) (xyz : list vec) : R :=
  match xyz with
  | [] => 0
  | p :: l => fold_left Rmax (map f l) (f p) - fold_left Rmin (map f l) (f p)
  end.
(** The radius passed to calcMode, line 47. *)
Definition extent (xyz : list vec) : R := Rmax (Rmax (spread vx xyz) (spread vy xyz)) (spread vz xyz).

(** Entry (f, g) of the tensor of an object's centred and rotated rows, line 53. *)
Definition tensor2 (ps : list ptc) (f g : vec -> R) : R :=
  np_sum (map (fun p => snd p * (f (fst p) * g (fst p))) ps) / np_sum (map snd ps).

(** The complex ellipticity of centred rows as a pair (real, imaginary), lines 54-57. A zero
    denominator gives NaN in numpy. *)
Definition epsilon (ps : list ptc) : xr * xr :=
  let qxx := tensor2 ps vx vx in
  let qyy := tensor2 ps vy vy in
  let qxy := tensor2 ps vx vy in
  (xdiv (Fin (qxx - qyy)) (Fin (qxx + qyy)), xdiv (Fin (2 * qxy)) (Fin (qxx + qyy))).

(** One object, lines 44-57; [None]: calcMode does not return within [fuel] recursions. *)
Definition obj_epsilon (fuel : nat) (kind : center_kind) (choose : list nat) (L angle : R) (ps : list ptc) : option (xr * xr) :=
  let xyz_ := respectPBCNoRef choose (map fst ps) L in
  match center_of fuel kind choose (extent xyz_) L ps with
  | None => None
  | Some center =>
      Some (epsilon (combine (map (fun p => rotz angle (vsub p center)) xyz_) (map snd ps)))
  end.

(** Lines 41-58: all objects, in order; [choose p] is the random choice made for object p. *)
Definition getEpsilon (fuel : nat) (kind : center_kind) (choose : nat -> list nat) (L angle : R)
    (objs : list (list ptc)) : list (option (xr * xr)) :=
  map (fun po => obj_epsilon fuel kind (choose (fst po)) L angle (snd po)) (combine (seq 0 (length objs)) objs).
