(** Vocabulary of the shape properties, independent of the algorithm. *)
From Coq Require Import List Reals ZArith.
From Verif Require Import XR GeoModel GeoSpec ShapeModel.
Import ListNotations.
Open Scope R_scope.

(** Inner product and orthonormal triads. *)
Definition ip (a b : vec) : R := vx a * vx b + vy a * vy b + vz a * vz b.
Definition orthonormal (a b c : vec) : Prop :=
  ip a a = 1 /\ ip b b = 1 /\ ip c c = 1 /\ ip a b = 0 /\ ip a c = 0 /\ ip b c = 0.

(** A row of finite numbers. *)
Definition fv (v : vec) : xvec := mkX (Fin (vx v)) (Fin (vy v)) (Fin (vz v)).

(** Weighted second moment of the displacements [ten k - c] of the particles [sel]. *)
Definition moment (ten : list vec) (masses : list R) (c : vec) (wt : nat -> R) (sel : list nat)
    (i j : nat) : R :=
  total (fun k => nth k masses 0 * wt k * (coord (nth k ten v0) i - coord c i)
                  * (coord (nth k ten v0) j - coord c j)) sel
  / total (fun k => nth k masses 0) sel.

(** [e] is an eigenvector of the 3x3 matrix [h]. *)
Definition eigenvector (h : nat -> nat -> R) (l : R) (e : vec) : Prop :=
  forall i, (i < 3)%nat -> h i 0%nat * vx e + h i 1%nat * vy e + h i 2%nat * vz e = l * coord e i.

(** What LAPACK's ZHEEVR promises for a finite real symmetric matrix: ascending eigenvalues;
    the real parts of the eigenvector columns are non-zero multiples of an orthonormal basis of
    eigenvectors. Nothing is promised for matrices with infinite or NaN entries. *)
Definition eig_contract (eig : nat -> list xr -> eigres) : Prop :=
  forall n (h : nat -> nat -> R), (forall i j, h i j = h j i) ->
  exists l0 l1 l2 e0 e1 e2 c0 c1 c2,
    l0 <= l1 <= l2 /\ orthonormal e2 e1 e0 /\
    eigenvector h l0 e0 /\ eigenvector h l1 e1 /\ eigenvector h l2 e2 /\
    c0 <> 0 /\ c1 <> 0 /\ c2 <> 0 /\
    eig n (freeze (fun i j => Fin (h i j))) =
      mkE (Fin l0) (Fin l1) (Fin l2) (fv (vscale c0 e0)) (fv (vscale c1 e1)) (fv (vscale c2 e2)).

(** A valid shape at radius d: axis ratios 0 < s <= q <= 1, orthonormal principal axes. *)
Definition valid_shape (d : R) (mi : morph) : Prop :=
  md mi = Fin d /\ exists q s a b c, mq mi = Fin q /\ ms mi = Fin s /\ 0 < s <= q /\ q <= 1 /\
    major mi = fv a /\ inter mi = fv b /\ minor mi = fv c /\ orthonormal a b c.

(** Squared semi-major axis of the ellipsoid through [p], in the frame of a shape. *)
Definition ellrad2 (q s : R) (a b c : vec) (center p : vec) : R :=
  let v := vsub p center in
  ip a v * ip a v + ip b v * ip b v / (q * q) + ip c v * ip c v / (s * s).

(** Steps of an iteration: the particles used, the tensor and the resulting shape. *)
Definition steps := list (list nat * list xr * morph).

(** Axis ratios of the previous step: 1, 1 before the first. *)
Definition previous (tr : steps) (q s : R) : Prop :=
  (tr = [] /\ q = 1 /\ s = 1) \/
  exists tr' e, tr = tr' ++ [e] /\ mq (snd e) = Fin q /\ ms (snd e) = Fin s.

(** [x] is the squared (ellipsoidal) radius of [p] with respect to the last step. *)
Definition rad2 (center : vec) (tr : steps) (p : vec) (x : R) : Prop :=
  (tr = [] /\ x = ip (vsub p center) (vsub p center)) \/
  exists tr' e q s a b c, tr = tr' ++ [e] /\ mq (snd e) = Fin q /\ ms (snd e) = Fin s /\
    major (snd e) = fv a /\ inter (snd e) = fv b /\ minor (snd e) = fv c /\
    x = ellrad2 q s a b c center p.

(** [mi] is the shape with tensor [h]: principal axes are eigenvectors, squared axis ratios
    are ratios of (positive) eigenvalues. *)
Definition shape_of (h : nat -> nat -> R) (d : R) (mi : morph) : Prop :=
  exists l0 l1 l2 a b c, 0 < l0 /\ l0 <= l1 <= l2 /\ orthonormal a b c /\
    eigenvector h l2 a /\ eigenvector h l1 b /\ eigenvector h l0 c /\
    major mi = fv a /\ inter mi = fv b /\ minor mi = fv c /\ md mi = Fin d /\
    mq mi = Fin (sqrt (l1 / l2)) /\ ms mi = Fin (sqrt (l0 / l2)).

(** Weights of the particles [sel] in the tensor: the inverse squared radius (with respect to
    the step before) in the reduced case. *)
Definition weights (xyz : list vec) (center : vec) (reduced : bool) (before : steps) (sel : list nat)
    (wt : nat -> R) : Prop :=
  forall k, In k sel ->
    if reduced then exists x, rad2 center before (nth k xyz v0) x /\ 0 < x /\ wt k = / x else wt k = 1.

(** A step is right: its tensor is the weighted second moment of the particles it used, and its
    shape is the shape of that tensor. *)
Definition step_ok (xyz ten : list vec) (masses : list R) (center tcenter : vec) (d : R) (reduced : bool)
    (before : steps) (e : list nat * list xr * morph) : Prop :=
  exists wt, weights xyz center reduced before (fst (fst e)) wt /\
    snd (fst e) = freeze (fun i j => Fin (moment ten masses tcenter wt (fst (fst e)) i j)) /\
    shape_of (moment ten masses tcenter wt (fst (fst e))) d (snd e).

(** Outside the shell's inner boundary, which is taken in the frame of the step before: the sum
    of the squared quotients of coordinates and inner semi-axes d - dd, q d - dd, s d - dd is at
    least 1. *)
Definition outside_inner (center : vec) (d dd : R) (before : steps) (p : vec) : Prop :=
  (before = [] /\ (d - dd) * (d - dd) <= ip (vsub p center) (vsub p center)) \/
  exists tr' e q s a b c, before = tr' ++ [e] /\ mq (snd e) = Fin q /\ ms (snd e) = Fin s /\
    major (snd e) = fv a /\ inter (snd e) = fv b /\ minor (snd e) = fv c /\
    (d = dd \/ let v := vsub p center in
       1 <= ip a v * ip a v / ((d - dd) * (d - dd)) + ip b v * ip b v / ((q * d - dd) * (q * d - dd))
            + ip c v * ip c v / ((s * d - dd) * (s * d - dd))).

(** [sel] are exactly the particles inside the ellipsoid of the step before (and outside the
    inner boundary of the shell), each once, in catalogue order. *)
Definition right_selection (xyz : list vec) (center : vec) (d : R) (delta : option R) (before : steps)
    (sel : list nat) : Prop :=
  (exists f, sel = filter f (seq 0 (length xyz))) /\
  forall k, In k sel <->
    (k < length xyz)%nat /\ (exists x, rad2 center before (nth k xyz v0) x /\ x < d * d) /\
    match delta with None => True | Some dd => outside_inner center d dd before (nth k xyz v0) end.

(** Non-negative masses. *)
Definition nonneg (xyz : list vec) (masses : list R) : Prop :=
  forall k, (k < length xyz)%nat -> 0 <= nth k masses 0.

(** The particles with mass among [sel] lie in a plane through [c]. *)
Definition coplanar (ten : list vec) (masses : list R) (c : vec) (sel : list nat) : Prop :=
  exists n, ip n n = 1 /\ forall k, In k sel -> 0 < nth k masses 0 -> ip n (vsub (nth k ten v0) c) = 0.

(** What can go wrong with a step that uses the particles [sel] after the steps [before]: no mass;
    a particle exactly at the centre (reduced tensor); particles in a plane; an inner semi-axis
    of the next shell of length zero. *)
Definition trouble (xyz ten : list vec) (masses : list R) (center tcenter : vec) (d : R) (delta : option R)
    (reduced : bool) (before : steps) (sel : list nat) : Prop :=
  total (fun k => nth k masses 0) sel = 0 \/
  (reduced = true /\ exists k, In k sel /\ nth k xyz v0 = center) \/
  coplanar ten masses tcenter sel \/
  exists wt mi q s dd, weights xyz center reduced before sel wt /\ shape_of (moment ten masses tcenter wt sel) d mi /\
    mq mi = Fin q /\ ms mi = Fin s /\ delta = Some dd /\ d <> dd /\ (q * d = dd \/ s * d = dd).
