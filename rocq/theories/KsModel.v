(** KSTest, cosmic_profiles/common/cosmo_tools.py lines 153-172. scipy's ks_2samp is modelled as its source computes
    the two-sided statistic; the samples are real numbers. The p-value is an arbitrary function of the statistic and
    the two sizes. *)
From Coq Require Import List Reals Arith.
Import ListNotations.
Open Scope R_scope.

(** np.searchsorted(sample, t, side='right'): how many values are at most t. *)
Definition upto (l : list R) (t : R) : nat := length (filter (fun x => if Rle_dec x t then true else false) l).
(** cdf1 and cdf2 of ks_2samp. *)
Definition cdf (l : list R) (t : R) : R := INR (upto l t) / INR (length l).
(** cddiffs = cdf1 - cdf2 at all values of both samples. *)
Definition cddiffs (x y : list R) : list R := map (fun t => cdf x t - cdf y t) (x ++ y).
(** np.max, np.min and np.clip(a, 0, 1). *)
Definition np_max (l : list R) : R := fold_right Rmax (hd 0 l) l.
Definition np_min (l : list R) : R := fold_right Rmin (hd 0 l) l.
Definition clip01 (a : R) : R := Rmin 1 (Rmax 0 a).
(** ks_2samp: minS = np.clip(-cddiffs[argminS], 0, 1), maxS = cddiffs[argmaxS], d = max(minS, maxS). *)
Definition ks_2samp (x y : list R) : R := Rmax (clip01 (- np_min (cddiffs x y))) (np_max (cddiffs x y)).
(** Lines 168-172; None for the two NaN of an empty sample. *)
Definition KSTest (pvalue : R -> nat -> nat -> R) (x y : list R) : option (R * R) :=
  match x, y with
  | [], _ | _, [] => None
  | _, _ => let d := ks_2samp x y in Some (d, pvalue d (length x) (length y))
  end.
