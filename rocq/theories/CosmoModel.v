(** Model of the cosmology helpers of cosmic_profiles/common/python_routines.py (lines 196-237) and
    of the periodic reflection and the shape-curve test of cosmic_profiles/common/cosmo_tools.py
    (lines 36-57 and 88-127). Python floats are real numbers; D_LOGSTART and D_LOGEND may be any. *)
From Coq Require Import Reals Bool ZArith List.
From Verif Require Import XR StatModel.
Import ListNotations.
Local Open Scope R_scope.

(** ** python_routines.py *)
(** getRhoCrit, lines 196-206. *)
Definition getRhoCrit : R :=
  let G := 6.674 * / 10 ^ 29 / (3.086 * 10 ^ 16) ^ 3 in
  let H_z := 100 / (3.086 * 10 ^ 19) in
  let solar_mass := 2 * 10 ^ 30 in
  3 * H_z ^ 2 / (8 * PI * G) / solar_mass.
(** getMassDMParticle, lines 208-218. None: ZeroDivisionError. *)
Definition getMassDMParticle (N : Z) (L : R) : option R :=
  if Z.eqb N 0 then None else Some (getRhoCrit * (L / IZR N) ^ 3).
(** getDelta, lines 220-237. None: ZeroDivisionError in line 235 or 236. *)
Definition getDelta (z OMEGA_M OMEGA_L : R) : option R :=
  let mat := OMEGA_M * (1 + z) ^ 3 in
  if Req_EM_T (mat + OMEGA_L) 0 then None
  else
    let x := mat / (mat + OMEGA_L) - 1 in
    if Req_EM_T (x + 1) 0 then None
    else Some ((18 * PI ^ 2 + 82 * x - 39 * x ^ 2) / (x + 1) - 1).

(** ** respectPBC, cosmo_tools.py lines 36-57 *)
(** One Cartesian direction, lines 51-52: the coordinates [xs], the first is the reference. *)
Definition reflect (L : R) (xs : list R) : list R :=
  match xs with
  | [] => []
  | r :: _ => map (fun x => if Rlt_dec (L / 2) (Rabs (r - x)) then L - x else x) xs
  end.
(** None: IndexError for no particles. The three directions are independent. *)
Definition respectPBC (L : R) (xyz : list R * list R * list R) : option (list R * list R * list R) :=
  let '(xs, ys, zs) := xyz in
  match xs with [] => None | _ => Some (reflect L xs, reflect L ys, reflect L zs) end.

(** ** chiSquareToIShapeCurve, cosmo_tools.py lines 88-127 *)
(** int() of a float: truncation towards zero. *)
Definition py_int (x : R) : Z := if Rle_dec 0 x then Int_part x else (- Int_part (- x))%Z.
(** np.logspace(D_LOGSTART, D_LOGEND, D_BINS + 1), line 108. *)
Definition logspace (s e : R) (bins : nat) : list R :=
  map (fun j => Rpower 10 (s + INR j * ((e - s) / INR bins))) (seq 0 (bins + 1)).
(** The index of the reference radius in lines 112, 113, 121 and 122. None: ZeroDivisionError. *)
Definition ref_index (s e : R) (bins : nat) : option Z :=
  match bins with
  | O => None
  | _ => if Req_EM_T ((e - s) / INR bins) 0 then None else Some (- py_int (e / ((e - s) / INR bins)) - 1)%Z
  end.
(** Indexing of a row by a Python integer. None: IndexError. *)
Definition py_get (row : list xr) (i : Z) : option xr :=
  let n := Z.of_nat (length row) in
  if (Z.leb 0 i && Z.ltb i n)%bool then nth_error row (Z.to_nat i)
  else if (Z.leb (- n) i && Z.ltb i 0)%bool then nth_error row (Z.to_nat (n + i))
  else None.
(** np.log10. *)
Definition xlog10 (a : xr) : xr :=
  match a with
  | Fin r => if Rlt_dec 0 r then Fin (ln r / ln 10) else if Req_EM_T r 0 then MInf else NaN
  | PInf => PInf
  | _ => NaN
  end.
(** Lines 112-116 for one radius: None if skipped, else the bin and the value. *)
Definition place (grid : list R) (e : R) (ref dr p : xr) : option (nat * xr) :=
  let ratio := xdiv dr ref in
  let closest := np_argmin (map (fun x => xabs (xsub (Fin x) ratio)) grid) in
  if (xisnan p || xltb (Fin e) (xlog10 ratio))%bool then None else Some (closest, p).
(** Lines 111-116 for one object; the rows have D_BINS + 1 entries. *)
Definition place_row (s e : R) (bins : nat) (drow prow : list xr) : option (list (nat * xr)) :=
  match ref_index s e bins with
  | None => None
  | Some i =>
    match py_get drow i with
    | None => None
    | Some ref =>
      Some (flat_map (fun rad => match place (logspace s e bins) e ref (nth rad drow NaN) (nth rad prow NaN) with Some b => [b] | None => [] end)
        (seq 0 (bins + 1)))
    end
  end.
(** Lines 109-116 and 118-125: the loop over the objects. None: an exception. *)
Definition shape_curve_y (s e : R) (bins : nat) (d param : list (list xr)) : option (list (list xr)) :=
  fold_left (fun acc obj =>
      match acc, place_row s e bins (nth obj d []) (nth obj param []) with
      | Some y, Some bs => Some (fold_left (fun y b => append_at y (fst b) (snd b)) bs y)
      | _, _ => None
      end)
    (seq 0 (length param)) (Some (repeat [] (bins + 1))).
(** The values go to chiSquareToIMultiDim; an infinite value falls into its first tenth, as 0 does. *)
Definition xval (a : xr) : R := match a with Fin r => r | _ => 0 end.
Definition chiSquareToIShapeCurve (d1 p1 d2 p2 : list (list xr)) (s e : R) (bins : nat) : option (option (R * R)) :=
  match shape_curve_y s e bins d1 p1, shape_curve_y s e bins d2 p2 with
  | Some y1, Some y2 => chiSquareToIMultiDim (map (map xval) y1) (map (map xval) y2)
  | _, _ => None
  end.
