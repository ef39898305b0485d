(** Model of mass splitting and of the statistics behind the plots:
    cosmic_profiles/common/cosmo_tools.py, the group selection of
    dens_profs/dens_profs_tools.py and shape_profs/shape_profs_tools.py.
    Plotting itself is not modelled. *)
From Coq Require Import Reals Bool ZArith Permutation Sorted List.
From Verif Require Import XR.
Import ListNotations.
Local Open Scope R_scope.

(** ** getBlocks, cosmo_tools.py lines 209-219 *)
(** range(0, len, n) for n >= 1. *)
Definition range_step (len n : nat) : list nat := map (fun k => (k * n)%nat) (seq 0 ((len + n - 1) / n)).
(** None: range() raises ValueError for a zero step. The slice lst[i:i + n]. *)
Definition getBlocks {A} (lst : list A) (n : nat) : option (list (list A)) :=
  match n with
  | O => None
  | _ => Some (map (fun i => firstn n (skipn i lst)) (range_step (length lst) n))
  end.

(** ** M_split, cosmo_tools.py lines 221-270 *)
(** np.argsort, line 241: some permutation that sorts; numpy's default sort is not stable. *)
Definition is_argsort (m : list R) (args : list nat) : Prop :=
  Permutation args (seq 0 (length m)) /\ Sorted Rle (map (fun i => nth i m 0) args).
Record split (C : Type) := mkSplit { edges : list R; m_groups : list (list R); c_groups : list (list C); v_groups : list (list C); idx_groups : list (list nat) }.
Arguments mkSplit {C}. Arguments edges {C}. Arguments m_groups {C}. Arguments c_groups {C}. Arguments v_groups {C}. Arguments idx_groups {C}.
(** Lines 247-250. *)
Definition chunk_size (len nb : nat) : nat := if Nat.eqb (len mod nb) 0 then (len / nb)%nat else (len / nb + 1)%nat.
Definition blocks {A} (l : list A) (n : nat) : list (list A) := match getBlocks l n with Some b => b | None => [] end.
Definition sum_nat (l : list nat) : nat := fold_right Nat.add 0%nat l.
(** np.sort (line 242) is the reordering by argsort. center and v have one row per object. The
    start_time argument is not used. None: ZeroDivisionError for no bins (line 247). *)
Definition M_split {C} (dc : C) (m : list R) (center : list C) (v : option (list C)) (args : list nat) (nb : nat) : option (split C) :=
  match nb with
  | O => None
  | _ =>
    let m_ordered := map (fun i => nth i m 0) args in
    let n := chunk_size (length m) nb in
    if Nat.eqb n 0 then Some (mkSplit [] [] [] [] [])
    else
      let mg := blocks m_ordered n in
      let cg := blocks (map (fun i => nth i center dc) args) n in
      let vg := match v with Some v => blocks (map (fun i => nth i v dc) args) n | None => [] end in
      (* lines 260-264 *)
      let ed := map (fun i => if Nat.eqb i (length mg) then nth (length m_ordered - 1) m_ordered 0 else nth (i * n) m_ordered 0) (seq 0 (length mg + 1)) in
      (* line 266 *)
      let before j := sum_nat (map (fun k => length (nth k mg [])) (seq 0 j)) in
      let ig := map (fun j => map (fun i => nth i args 0%nat) (seq (before j) (length (nth j mg [])))) (seq 0 (length mg)) in
      Some (mkSplit ed mg cg vg ig)
  end.

(** obj_pass_m of drawDensProfs, dens_profs_tools.py line 189: the objects of a group. The masses
    are in units of M_sun/h, as handed to M_split in line 133. *)
Definition group_members (m : list R) (ed : list R) (group : nat) : list nat :=
  filter (fun i => (if Rlt_dec (nth group ed 0) (nth i m 0) then true else false) && (if Rlt_dec (nth i m 0) (nth (S group) ed 0) then true else false))
    (seq 0 (length m)).

(** ** Binned shape profiles, shape_profs_tools.py *)
(** numpy's argmin: the first NaN, else the first smallest. *)
Fixpoint argmin_from (l : list xr) (i : nat) (best : xr) (bi : nat) : nat :=
  match l with
  | [] => bi
  | x :: l' => if xisnan best then bi else if xisnan x || xltb x best then argmin_from l' (S i) x i else argmin_from l' (S i) best bi
  end.
Definition np_argmin (l : list xr) : nat := match l with [] => 0%nat | x :: l' => argmin_from l' 1 x 0 end.
(** Absolute value. *)
Definition xabs (a : xr) : xr := match a with Fin r => Fin (Rabs r) | MInf => PInf | a => a end.
(** Lines 84 and 97. *)
Definition closest_idx (ror : list R) (d : xr) (r200 : R) : nat :=
  np_argmin (map (fun x => xabs (xsub (Fin x) (xdiv d (Fin r200)))) ror).
(** y[i].append(x). *)
Definition append_at (y : list (list xr)) (i : nat) (x : xr) : list (list xr) :=
  firstn i y ++ match skipn i y with [] => [] | z :: rest => (z ++ [x]) :: rest end.
(** Lines 82-89: the loop over the objects [objs]; [d] and [param] are rows per object. *)
Definition collect (objs : list nat) (d param : list (list xr)) (ror : list R) (r200 : list R) : list (list xr) :=
  fold_left (fun y p =>
      let x := nth (snd p) (nth (fst p) param []) NaN in
      if xisnan x then y
      else append_at y (closest_idx ror (nth (snd p) (nth (fst p) d []) NaN) (nth (fst p) r200 0)) x)
    (flat_map (fun obj => map (fun rad => (obj, rad)) (seq 0 (length ror))) objs)
    (repeat [] (length ror)).
(** getShape, lines 64-90, up to the averaging. *)
Definition getShape_y (d param : list (list xr)) (ror : list R) (r200 : list R) : list (list xr) :=
  collect (seq 0 (length param)) d param ror r200.
(** getShapeMs, lines 92-103. *)
Definition getShapeMs_y (d : list (list xr)) (idx_groups : list (list nat)) (group : nat) (param : list (list xr)) (ror : list R) (r200 : list R) : list (list xr) :=
  collect (nth group idx_groups []) d param ror r200.

(** ** Averages and errors: getMeanOrMedianAndError, cosmo_tools.py lines 174-207 *)
Fixpoint insert (x : R) (l : list R) : list R :=
  match l with [] => [x] | y :: l' => if Rle_dec x y then x :: l else y :: insert x l' end.
(** np.sort. *)
Definition sort (l : list R) : list R := fold_right insert [] l.
Definition rsum (l : list R) : R := fold_right Rplus 0 l.
(** np.quantile with linear interpolation: position q*(n-1) in the sorted data. *)
Definition quantile (q : R) (l : list R) : R :=
  let s := sort l in
  let pos := q * INR (length l - 1) in
  let k := Z.to_nat (Int_part pos) in
  nth k s 0 + (pos - INR k) * (nth (Nat.min (S k) (length l - 1)) s 0 - nth k s 0).
(** np.median: the middle or the mean of the two middle values. *)
Definition median (l : list R) : R :=
  let s := sort l in let n := length l in
  if Nat.even n then (nth (n / 2 - 1) s 0 + nth (n / 2) s 0) / 2 else nth (n / 2) s 0.
(** np.average. *)
Definition mean (l : list R) : R := rsum l / INR (length l).
(** np.std with ddof = 1; [len >= 2], NumPy gives NaN otherwise. *)
Definition std1 (l : list R) : xr :=
  if Nat.leb (length l) 1 then NaN
  else Fin (sqrt (rsum (map (fun x => (x - mean l) * (x - mean l)) l) / (INR (length l) - 1))).
(** ERROR_METHOD 'median_quantile' (lines 203-206) and 'SEM' (lines 198-201) for one bin; the
    bootstrap of lines 187-197 needs sklearn's resample and is not modelled. *)
Definition median_quantile (z : list R) : xr * xr * xr :=
  match z with
  | [] => (NaN, NaN, NaN)
  | _ => (Fin (median z), Fin (quantile (1 / 4) z / sqrt (INR (length z))), Fin (quantile (3 / 4) z / sqrt (INR (length z))))
  end.
Definition sem (z : list R) : xr * xr * xr :=
  match z with
  | [] => (NaN, NaN, NaN)
  | _ => let e := xdiv (std1 z) (Fin (sqrt (INR (length z)))) in (Fin (mean z), e, e)
  end.

(** ** Triaxiality: shape_profs_tools.py lines 181, 277 and 332 *)
Definition triaxiality (q s : xr) : xr := xdiv (xsub (Fin 1) (xsq q)) (xsub (Fin 1) (xsq s)).
(** np.nan_to_num, lines 278 and 333; big is the largest float. *)
Definition nan_to_num (big : R) (x : xr) : xr := match x with NaN => Fin 0 | PInf => Fin big | MInf => Fin (- big) | x => x end.
(** t[t == 0.] = np.nan, lines 285 and 340. *)
Definition zero_to_nan (x : xr) : xr := if xeqb x (Fin 0) then NaN else x.
(** getLocalTHist lines 275-285 and 296, getGlobalTHist lines 330-340 and 351: the values left for
    the histogram and for the printed average, from one q and one s per object. *)
Definition hist_T (big : R) (qs ss : list xr) : list xr :=
  filter (fun t => negb (xisnan t)) (map (fun p => zero_to_nan (nan_to_num big (triaxiality (fst p) (snd p)))) (combine qs ss)).
(** Line 273: the radius at which getLocalTHist takes q and s; getGlobalTHist takes the last. *)
Definition radius_index (d : list xr) (r200 frac : R) : nat := np_argmin (map (fun x => xabs (xsub x (Fin (r200 * frac)))) d).

(** ** chiSquareToICore, cosmo_tools.py lines 129-151 *)
Definition col_sum (occs : list (list R)) (j : nat) : R := rsum (map (fun row => nth j row 0) occs).
Definition total (occs : list (list R)) : R := rsum (concat occs).
Definition expected (occs : list (list R)) (i j : nat) : R := rsum (nth i occs []) * col_sum occs j / total occs.
Definition cell (occs : list (list R)) (i j : nat) : R :=
  if Req_EM_T (expected occs i j) 0 then 0
  else (nth j (nth i occs []) 0 - expected occs i j) * (nth j (nth i occs []) 0 - expected occs i j) / expected occs i j.
(** None: the three NaN of line 142. The p-value is a function of the other two results. The
    total is not zero unless all counts are, for counts >= 0. *)
Definition chi_square (occs : list (list R)) (ncols : nat) : option (R * R) :=
  if forallb (fun x => if Req_EM_T x 0 then true else false) (concat occs) then None
  else Some (rsum (flat_map (fun i => map (fun j => cell occs i j) (seq 0 ncols)) (seq 0 (length occs))),
             (INR ncols - 1) * (INR (length occs) - 1)).

(** chiSquareToIMultiDim, cosmo_tools.py lines 59-86: counts per (bin, tenth); samples are finite. *)
Definition y_ax : list R := map (fun k => INR k / 9) (seq 0 10).
Definition closest10 (x : R) : nat := np_argmin (map (fun a => Fin (Rabs (a - x))) y_ax).
Definition incr (l : list R) (i : nat) : list R := firstn i l ++ match skipn i l with [] => [] | c :: r => (c + 1) :: r end.
Definition occ_row (x : list (list R)) : list R :=
  fold_left (fun row p => incr row (10 * fst p + closest10 (snd p)))
    (flat_map (fun b => map (fun v => (b, v)) (nth b x [])) (seq 0 (length x))) (repeat 0 (length x * 10)).
(** None: the assertion of lines 73-74. *)
Definition chiSquareToIMultiDim (x y : list (list R)) : option (option (R * R)) :=
  if Nat.eqb (length x) (length y) then Some (chi_square [occ_row x; occ_row y] (length x * 10)) else None.
