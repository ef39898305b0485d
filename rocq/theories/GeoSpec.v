(** Vocabulary of the geometric properties. *)
From Coq Require Import List Reals ZArith Permutation.
From Verif Require Import GeoModel.
Import ListNotations.
Open Scope R_scope.

(** The three axes. *)
Definition axes : list (vec -> R) := [vx; vy; vz].

(** Sum of [f] over a list. *)
Fixpoint total {X} (f : X -> R) (l : list X) : R :=
  match l with [] => 0 | x :: l' => f x + total f l' end.

(** Total mass and mass-weighted mean along an axis. *)
Definition mass (ps : list ptc) : R := total snd ps.
Definition mean (ax : vec -> R) (ps : list ptc) : R :=
  total (fun p => snd p * ax (fst p)) ps / mass ps.

(** [v] lies in every axis-parallel box that contains all [ps]. *)
Definition in_bbox (v : vec) (ps : list vec) : Prop :=
  forall ax lo hi, In ax axes -> (forall p, In p ps -> lo <= ax p <= hi) -> lo <= ax v <= hi.

(** [v] lies in the closed, or half-open, box of side L. *)
Definition in_box (L : R) (v : vec) : Prop := forall ax, In ax axes -> 0 <= ax v <= L.
Definition in_box_ho (L : R) (v : vec) : Prop := forall ax, In ax axes -> 0 <= ax v < L.

(** [w] is a periodic image of [v]: along each axis they differ by a multiple of L. *)
Definition image (L : R) (v w : vec) : Prop :=
  forall ax, In ax axes -> exists k : Z, ax w = ax v + IZR k * L.

(** Distance between the nearest images of two coordinates is less than [d]. *)
Definition periodically_close (L d : R) (a b : R) : Prop := exists k : Z, Rabs (a - b + IZR k * L) < d.

(** At least [k] of the particles are at exactly the same position. *)
Definition crowded (k : nat) (ps : list ptc) : Prop :=
  exists v a b, Permutation ps (a ++ b) /\ (k <= length a)%nat /\ Forall (fun p => fst p = v) a.

