(** Vocabulary of the density properties. *)
From Coq Require Import List Reals.
From Verif Require Import GeoModel GeoSpec ShapeSpec.
Import ListNotations.
Open Scope R_scope.

(** Distance of two points. *)
Definition distance (p q : vec) : R := norm (vsub p q).

(** Mass of the particles whose distance to [c] lies in [lo, hi), or is below [r]. *)
Definition shell_mass (c : vec) (lo hi : R) (ps : list ptc) : R :=
  total (fun q => if Rle_dec lo (distance (fst q) c) then if Rlt_dec (distance (fst q) c) hi then snd q else 0 else 0) ps.
Definition ball_mass (c : vec) (r : R) (ps : list ptc) : R :=
  total (fun q => if Rlt_dec (distance (fst q) c) r then snd q else 0) ps.
Definition ball_volume (r : R) : R := 4 / 3 * PI * r ^ 3.

(** Strictly increasing list of non-negative edges. *)
Definition increasing (l : list R) : Prop :=
  0 <= hd 0 l /\ forall i, (S i < length l)%nat -> nth i l 0 < nth (S i) l 0.

(** Coordinate of p - c along the direction of u. *)
Definition coord_along (u c p : vec) : R := ip u (vsub p c) / sqrt (ip u u).
(** Ellipsoids with centre c and axis directions u, v, w. *)
Definition inside_ellipsoid (u v w c : vec) (a b e : R) (p : vec) : Prop :=
  (coord_along u c p / a) * (coord_along u c p / a) + (coord_along v c p / b) * (coord_along v c p / b)
  + (coord_along w c p / e) * (coord_along w c p / e) < 1.
Definition inside_dec u v w c a b e p : {inside_ellipsoid u v w c a b e p} + {~ inside_ellipsoid u v w c a b e p}.
Proof. unfold inside_ellipsoid. apply Rlt_dec. Defined.
Definition ellipsoid_mass (u v w c : vec) (a b e : R) (ps : list ptc) : R :=
  total (fun q => if inside_dec u v w c a b e (fst q) then snd q else 0) ps.
