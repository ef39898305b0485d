(** Model of the single precision totals of the compiled code: `cdef float mass_total` in CythonHelpers.calcCoM
    (cosmic_profiles/cython_helpers/helper_class.pyx lines 96-104) and `cdef float mass_tot` in
    CythonHelpers.calcShapeTensor (lines 41-44). Rounding is to the nearest number with p binary digits, ties to
    even, with an unbounded range of exponents (no overflow, no subnormal numbers). The sums that the code keeps in
    double precision are exact here. *)
From Coq Require Import List Reals ZArith.
From Verif Require Import GeoModel ShapeModel.
Import ListNotations.
Open Scope R_scope.

(** The number of binary digits before the point: 2^(mag x - 1) <= |x| < 2^(mag x). *)
Definition mag (x : R) : Z := (Int_part (ln (Rabs x) / ln 2) + 1)%Z.
(** The nearest integer, ties to even. *)
Definition near (t : R) : Z :=
  let f := Int_part t in
  if Rlt_dec (t - IZR f) (1/2) then f
  else if Rlt_dec (1/2) (t - IZR f) then (f + 1)%Z
  else if Z.even f then f else (f + 1)%Z.
(** Rounding to p binary digits. *)
Definition rnd (p : Z) (x : R) : R :=
  if Req_EM_T x 0 then 0 else IZR (near (x * powerRZ 2 (p - mag x))) * powerRZ 2 (mag x - p).
(** `mass_total += masses[run]` (lines 44, 100): a float plus a double is computed as a double and stored as a
    float. *)
Definition add32 (t m : R) : R := rnd 24 (rnd 53 (t + m)).
(** The loops of lines 42-44 and 98-100. *)
Definition total32 (ms : list R) : R := fold_left add32 ms 0.
(** calcCoM, lines 96-104, with the total as the code has it. *)
Definition com32 (ps : list ptc) : vec :=
  let mass_total := total32 (map snd ps) in
  fold_left (fun com p => mkV (vx com + snd p * vx (fst p) / mass_total)
                              (vy com + snd p * vy (fst p) / mass_total)
                              (vz com + snd p * vz (fst p) / mass_total)) ps v0.
(** calcShapeTensor, lines 40-57, for the particles [sel] with the total as the code has it; [wt k] is 1, or 1 over
    the square of r_ell[k] for the reduced tensor. *)
Definition tensor32 (nns : list vec) (masses : list R) (center : vec) (wt : nat -> R) (sel : list nat) (i j : nat) : R :=
  let mass_tot := total32 (map (fun k => nth k masses 0) sel) in
  fold_left (fun acc k => acc + nth k masses 0 * (coord (nth k nns v0) i - coord center i) * (coord (nth k nns v0) j - coord center j) * wt k / mass_tot) sel 0.
