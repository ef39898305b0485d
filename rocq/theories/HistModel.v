(** The four histograms of shape_profs/shape_profs_tools.py: getLocalTHist (lines 236-297), getGlobalTHist
    (299-352), getGlobalEpsHist (355-391), getLocalEpsHist (393-437). What is drawn is the list of bar heights;
    axes, lines, labels and the file are not modelled, nor is the printed average. *)
From Coq Require Import List Reals Bool Arith.
From Verif Require Import XR GeoModel EpsModel CutModel StatModel.
Import ListNotations.
Open Scope R_scope.

(** np.linspace(0, 1, n), lines 286, 341, 385, 431; one entry 0 for n = 1, none for n = 0. *)
Definition linspace01 (n : nat) : list R := map (fun k => INR k / INR (n - 1)) (seq 0 n).

(** How many values pass a test. *)
Definition count (f : xr -> bool) (x : list xr) : nat := length (filter f x).
(** np.diff. *)
Fixpoint diffs (l : list nat) : list nat :=
  match l with a :: ((b :: _) as t) => (b - a)%nat :: diffs t | _ => [] end.
Fixpoint rdiffs (l : list R) : list R :=
  match l with a :: ((b :: _) as t) => (b - a) :: rdiffs t | _ => [] end.

(** np.histogram(x, edges) with given edges, as called by plt.hist: the position of each edge in the sorted
    values, from the left except for the last edge; NaN is sorted to the end and found by neither. *)
Definition histogram (edges : list R) (x : list xr) : list nat :=
  diffs (map (fun e => count (fun v => xltb v (Fin e)) x) (removelast edges) ++
         [count (fun v => xleb v (Fin (last edges 0))) x]).

(** plt.hist(x, bins = np.linspace(0, 1, n), density = True), lines 286, 341, 385, 431: numpy divides the counts
    by the widths and by their sum. [None]: no edges, IndexError. *)
Definition hist (n : nat) (x : list xr) : option (list xr) :=
  match n with
  | O => None
  | _ => let e := linspace01 n in
         let c := histogram e x in
         Some (map (fun cw => xdiv (xdiv (Fin (INR (fst cw))) (Fin (snd cw))) (Fin (INR (sum_nat c)))) (combine c (rdiffs e)))
  end.

(** The triaxialities after lines 275-278, 285 (330-333, 340), from one q and one s per object. *)
Definition T_column (big : R) (qs ss : list xr) : list xr :=
  map (fun p => zero_to_nan (nan_to_num big (triaxiality (fst p) (snd p)))) (combine qs ss).
(** getGlobalTHist: the last column of q and s, lines 328-341. *)
Definition getGlobalTHist (big : R) (nb : nat) (q s : list (list xr)) : option (list xr) :=
  hist nb (T_column big (map (fun row => last row NaN) q) (map (fun row => last row NaN) s)).
(** Entry of each row at the index of its object, line 277. *)
Definition take_at (idx : list nat) (a : list (list xr)) : list xr := map (fun ir => nth (fst ir) (snd ir) NaN) (combine idx a).
(** getLocalTHist: lines 271-286. *)
Definition local_T (big : R) (r200 : list R) (frac : R) (d q s : list (list xr)) : list xr :=
  let idx := map (fun dr => radius_index (fst dr) (snd dr) frac) (combine d r200) in
  T_column big (take_at idx q) (take_at idx s).
Definition getLocalTHist (big : R) (nb : nat) (r200 : list R) (frac : R) (d q s : list (list xr)) : option (list xr) :=
  hist nb (local_T big r200 frac d q s).

(** abs() of a complex number. (For a NaN beside an infinity numpy answers an infinity instead of NaN; neither
    is counted.) *)
Definition cabs (e : xr * xr) : xr := xsqrt (xadd (xsq (fst e)) (xsq (snd e))).
(** All values, or none if one is missing. *)
Fixpoint all_some {A} (l : list (option A)) : option (list A) :=
  match l with
  | [] => Some []
  | Some a :: l' => match all_some l' with Some r => Some (a :: r) | None => None end
  | None :: _ => None
  end.
(** getGlobalEpsHist, lines 383-385. [None]: calcMode does not return within [fuel], or no edges. *)
Definition getGlobalEpsHist (fuel : nat) (kind : center_kind) (choose : nat -> list nat) (L angle : R)
    (objs : list (list ptc)) (nb : nat) : option (list xr) :=
  match all_some (getEpsilon fuel kind choose L angle objs) with
  | Some eps => hist nb (map cabs eps)
  | None => None
  end.
(** getLocalEpsHist, lines 422-431: the catalogue is cut first. [CDeep]: as [None] above. *)
Definition getLocalEpsHist (fuel : nat) (kind : center_kind) (choose : nat -> list nat)
    (query : list vec -> vec -> R -> list nat) (ps : list ptc) (L angle : R) (cat sizes : list nat)
    (r200 : list R) (frac : R) (nb : nat) : cres (list xr) :=
  cbind (getCatWithinFracR200 fuel kind choose query ps cat sizes L r200 frac) (fun cs =>
    let objs := map (fun i => gather ps (obj_of (fst cs) (snd cs) i)) (seq 0 (length (snd cs))) in
    match getGlobalEpsHist fuel kind choose L angle objs nb with Some b => COk b | None => CDeep end).
