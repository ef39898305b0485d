(** Positions, centres and periodic boxes: common/python_routines.py (calcMode,
    respectPBCNoRef, calcCoM, recentreObject), common/cosmo_tools.py (calcMode,
    respectPBC), cython_helpers/helper_class.pyx (respectPBCNoRef, calcCoM) and
    dens_profs/dens_profs_algos.pyx calcMassesCenters. Floating point numbers are real
    numbers: rounding, overflow and the float/double distinction are not modelled. *)
From Coq Require Import List Reals Bool.
From Verif Require Import ParModel CatModel.
Import ListNotations.
Open Scope R_scope.

(** A row of an (N,3) array. *)
Record vec := mkV { vx : R; vy : R; vz : R }.
(** Elementwise operations of numpy rows. *)
Definition vadd (a b : vec) : vec := mkV (vx a + vx b) (vy a + vy b) (vz a + vz b).
Definition vsub (a b : vec) : vec := mkV (vx a - vx b) (vy a - vy b) (vz a - vz b).
Definition vscale (k : R) (a : vec) : vec := mkV (k * vx a) (k * vy a) (k * vz a).
(** np.zeros(3). *)
Definition v0 : vec := mkV 0 0 0.
(** np.linalg.norm of a row. *)
Definition norm (a : vec) : R := sqrt (vx a * vx a + vy a * vy a + vz a * vz a).

(** np.sum over rows (axis 0) and over a vector. *)
Definition np_sum (l : list R) : R := fold_left Rplus l 0.
Definition np_vsum (l : list vec) : vec := fold_left vadd l v0.

(** Boolean comparison. *)
Definition Rltb (a b : R) : bool := if Rlt_dec a b then true else false.

(** A particle: position and mass. *)
Definition ptc := (vec * R)%type.

(** ** calcMode, python_routines.py lines 287-306 (the same text is in cosmo_tools.py lines
    15-34). *)
(** Line 298. *)
Definition mode_com (ps : list ptc) : vec :=
  vscale (/ np_sum (map snd ps)) (np_vsum (map (fun p => vscale (snd p) (fst p)) ps)).
(** Lines 298-306; [None]: the recursion is deeper than [fuel]. *)
Fixpoint calcMode (fuel : nat) (ps : list ptc) (rad : R) : option vec :=
  match fuel with
  | O => None
  | S fuel' =>
      let com := mode_com ps in
      let ps' := filter (fun p => Rltb (norm (vsub (fst p) com)) rad) ps in
      if Nat.ltb (length ps') 5 then Some com
      else calcMode fuel' ps' (rad * (83 / 100))
  end.

(** ** respectPBCNoRef, python_routines.py lines 499-528 *)
(** np.average of the chosen rows (lines 516, 542); [choose] is rng.choice without
    replacement, see [valid_choice]. *)
Definition ref_of (choose : list nat) (xyz : list vec) : vec :=
  vscale (/ INR (length choose)) (np_vsum (map (fun i => nth i xyz v0) choose)).
(** Lines 514-515, 540-541: min(50, N) distinct rows, any of them. *)
Definition valid_choice (choose : list nat) (n : nat) : Prop :=
  NoDup choose /\ (forall i, In i choose -> (i < n)%nat) /\ length choose = Nat.min 50 n.
(** One coordinate, lines 517-525: both masks use the original distance. *)
Definition unwrap1 (L ref x : R) : R :=
  let dist := x - ref in
  let x1 := if Rlt_dec (L / 2) dist then x - L else x in
  if Rlt_dec dist (- L / 2) then x1 + L else x1.
(** Lines 512-528. *)
Definition respectPBCNoRef (choose : list nat) (xyz : list vec) (L : R) : list vec :=
  if Req_EM_T L 0 then xyz
  else let ref := ref_of choose xyz in
       map (fun p => mkV (unwrap1 L (vx ref) (vx p)) (unwrap1 L (vy ref) (vy p))
                         (unwrap1 L (vz ref) (vz p))) xyz.

(** ** calcCoM, python_routines.py lines 530-547 *)
Definition calcCoM (choose : list nat) (ps : list ptc) : vec :=
  let ref := ref_of choose (map fst ps) in
  let mass_total := np_sum (map snd ps) in
  vadd (np_vsum (map (fun p => vscale (snd p / mass_total) (vsub (fst p) ref)) ps)) ref.

(** ** CythonHelpers.calcCoM, helper_class.pyx lines 85-105 *)
Definition cy_calcCoM (ps : list ptc) : vec :=
  let mass_total := fold_left (fun acc p => acc + snd p) ps 0 in
  fold_left (fun com p => mkV (vx com + snd p * vx (fst p) / mass_total)
                              (vy com + snd p * vy (fst p) / mass_total)
                              (vz com + snd p * vz (fst p) / mass_total)) ps v0.

(** ** recentreObject, python_routines.py lines 549-565 *)
Definition recentre1 (L x : R) : R :=
  let x1 := if Rle_dec L x then x - L else x in
  if Rlt_dec x1 0 then x1 + L else x1.
Definition recentreObject (xyz : list vec) (L : R) : list vec :=
  map (fun p => mkV (recentre1 L (vx p)) (recentre1 L (vy p)) (recentre1 L (vz p))) xyz.

(** ** CythonHelpers.respectPBCNoRef, helper_class.pyx lines 169-199. In place, one row
    after the other; row 0 is the reference. Line 196 tests the y coordinates again. *)
Definition cy_reflect (L ref x : R) : R := if Rlt_dec (L / 2) (Rabs (ref - x)) then L - x else x.
Definition cy_row (L : R) (r : vec) (p : vec) : vec :=
  let x' := cy_reflect L (vx r) (vx p) in
  let y' := cy_reflect L (vy r) (vy p) in
  let z' := if Rlt_dec (L / 2) (Rabs (vy r - y')) then L - vz p else vz p in
  mkV x' y' z'.
(** The reference row is read from the array being modified. *)
Definition cy_respectPBCNoRef (xyz : list vec) (L : R) : list vec :=
  if Req_EM_T L 0 then xyz
  else match xyz with
       | [] => []
       | r :: rest => let r' := cy_row L r r in r' :: map (cy_row L r') rest
       end.

(** ** respectPBC, cosmo_tools.py lines 36-57 (same reflection, correct z test) *)
Definition ct_respectPBC (xyz : list vec) (L : R) : list vec :=
  match xyz with
  | [] => []
  | r :: _ => map (fun p => mkV (cy_reflect L (vx r) (vx p)) (cy_reflect L (vy r) (vy p))
                                (cy_reflect L (vz r) (vz p))) xyz
  end.

(** ** calcMassesCenters, dens_profs_algos.pyx lines 15-51 *)
Inductive center_kind := CMode | CCom.
(** Centre of one object, lines 39-44; [rad] is 1000 here and the largest extent in the
    shape code (shape_profs_algos.pyx lines 587-591). *)
Definition center_of (fuel : nat) (kind : center_kind) (choose : list nat) (rad L : R)
    (ps : list ptc) : option vec :=
  let xyz_ := respectPBCNoRef choose (map fst ps) L in
  let ps_ := combine xyz_ (map snd ps) in
  match kind with
  | CMode => calcMode fuel ps_ rad
  | CCom => Some (calcCoM choose ps_)
  end.

(** Locations of the total masses m[p] and actions of iteration p, lines 45-47. *)
Definition mass_body (objs : list (list ptc)) (t p : nat) : list (act nat R) :=
  map (fun q m y => if Nat.eqb y p then m p + snd q else m y) (nth p objs []).
(** Lines 38-51: [objs] are the particles of each object (see C17 for the slices),
    [choose p] the random choice made for object p. *)
Inductive calcMassesCenters (fuel : nat) (kind : center_kind) (choose : nat -> list nat)
    (objs : list (list ptc)) (L : R) : option (list vec * list R) -> Prop :=
| cmc_fail : forall p o, nth_error objs p = Some o -> center_of fuel kind (choose p) 1000 L o = None ->
    calcMassesCenters fuel kind choose objs L None
| cmc_ok : forall centers m',
    Forall2 (fun po c => center_of fuel kind (choose (fst po)) 1000 L (snd po) = Some c)
            (combine (seq 0 (length objs)) objs) centers ->
    prange nat R (length objs) (mass_body objs) (fun _ => 0) m' ->
    calcMassesCenters fuel kind choose objs L
      (Some (recentreObject centers L, map m' (seq 0 (length objs)))).
