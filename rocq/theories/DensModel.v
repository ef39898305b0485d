(** Density and enclosed mass profiles: cython_helpers/helper_class.pyx lines 201-428 and
    dens_profs/dens_profs_algos.pyx lines 53-281. As in ShapeModel a zero divisor raises
    ZeroDivisionError; rounding and the single precision of r_200, the norms and calcKTilde
    are not modelled. Catalogue indices are valid positions of xyz and masses. *)
From Coq Require Import List Reals ZArith Bool Arith.
From Verif Require Import ParModel XR CatModel GeoModel ShapeModel.
Import ListNotations.
Open Scope R_scope.

(** (center-xyz[i])^2, lines 233, 340. *)
Definition sqdist (center p : vec) : R :=
  (vx center - vx p) * (vx center - vx p) + (vy center - vy p) * (vy center - vy p)
  + (vz center - vz p) * (vz center - vz p).
(** dens_prof[r_i] = x. *)
Fixpoint put {X} (l : list X) (k : nat) (x : X) : list X :=
  match l, k with
  | [], _ => []
  | _ :: l', O => x :: l'
  | y :: l', S k' => y :: put l' k' x
  end.
Definition Rleb (a b : R) : bool := if Rle_dec a b then true else false.
(** Compaction (lines 230-237) into a buffer with arbitrary contents: buffer and number of
    selected particles. *)
Definition compact_into (buf : nat -> nat) (f : nat -> bool) (n : nat) : (nat -> nat) * nat :=
  let '(buf', pts, _) := fold_left (compact_step f) (seq 0 n) (buf, 0%nat, 0%nat) in (buf', pts).

Section Sph.
  Variables (xyz : list vec) (masses : list R) (center : vec) (r200 : R).

  (** Line 233. *)
  Definition in_shell (lo hi : R) (p : vec) : bool :=
    Rltb (sqdist center p) ((hi * r200) * (hi * r200)) && Rleb ((lo * r200) * (lo * r200)) (sqdist center p).
  (** Line 240. *)
  Definition shell_volume (lo hi : R) : R := 4 / 3 * PI * ((hi * r200) ^ 3 - (lo * r200) ^ 3).

  (** ** calcDensProfBruteForceSph, helper_class.pyx lines 204-241; the result contains the
      shell buffer as left behind. *)
  Definition dens_sph_step (edges : list R) (st : pyres (list R) * (nat -> nat)) (r_i : nat) :=
    match st with
    | (ZeroDivision, buf) => (ZeroDivision, buf)
    | (Ret dens, buf) =>
        let lo := nth r_i edges 0 in
        let hi := nth (S r_i) edges 0 in
        let '(buf', pts) := compact_into buf (fun i => in_shell lo hi (nth i xyz v0)) (length xyz) in
        let vol := shell_volume lo hi in
        if negb (pts =? 0)%nat && (if Req_EM_T vol 0 then true else false) then (ZeroDivision, buf')
        else (Ret (fold_left (fun d n => put d r_i (nth r_i d 0 + nth (buf' n) masses 0 / vol)) (seq 0 pts) dens), buf')
    end.
  Definition calcDensProfBruteForceSph (edges : list R) (dens : list R) (shell : nat -> nat)
    : pyres (list R) * (nat -> nat) :=
    fold_left (dens_sph_step edges) (seq 0 (length edges - 1)) (Ret dens, shell).

  (** ** calcMenclsBruteForceSph, lines 311-348 *)
  Definition mencl_sph_step (radii : list R) (st : list R * (nat -> nat)) (r_i : nat) :=
    let '(mencl, buf) := st in
    let rad := nth r_i radii 0 in
    let '(buf', pts) := compact_into buf (fun i => Rltb (sqdist center (nth i xyz v0)) ((rad * r200) * (rad * r200))) (length xyz) in
    (fold_left (fun d n => put d r_i (nth r_i d 0 + nth (buf' n) masses 0)) (seq 0 pts) mencl, buf').
  Definition calcMenclsBruteForceSph (radii mencl : list R) (buf : nat -> nat) : list R * (nat -> nat) :=
    fold_left (mencl_sph_step radii) (seq 0 (length radii)) (mencl, buf).
End Sph.

Section Ell.
  (** a, b, c at the bin edges, axes at the bin centres. They come from interpolation and may
      be NaN. *)
  Variables (xyz : list vec) (masses : list R) (center : vec).
  Variables (a b c : list xr) (major inter minor : list xvec).

  (** One principal coordinate, lines 290-295, 395-400. *)
  Definition along (w : xvec) (p : vec) : xr :=
    xadd (xadd (xmul (xdiv (xx w) (xnorm w)) (Fin (vx p - vx center)))
               (xmul (xdiv (xy w) (xnorm w)) (Fin (vy p - vy center))))
         (xmul (xdiv (xz w) (xnorm w)) (Fin (vz p - vz center))).
  Definition frame (r_i : nat) (p : vec) : xvec :=
    mkX (along (nth r_i major x0) p) (along (nth r_i inter x0) p) (along (nth r_i minor x0) p).
  (** (x/a)^2+(y/b)^2+(z/c)^2 for ellipsoid k, lines 296, 402. *)
  Definition level (k : nat) (x : xvec) : xr :=
    xadd (xadd (xsq (xdiv (xx x) (nth k a NaN))) (xsq (xdiv (xy x) (nth k b NaN)))) (xsq (xdiv (xz x) (nth k c NaN))).
  (** Inside ellipsoid k. *)
  Definition in_ellipsoid (k : nat) (x : xvec) : bool := xltb (level k x) (Fin 1).
  (** Line 296. *)
  Definition in_ell_shell (r_i : nat) (x : xvec) : bool :=
    in_ellipsoid (S r_i) x && xleb (Fin 1) (level r_i x).
  (** Line 303. *)
  Definition ell_volume (k : nat) : xr := xmul (xmul (xmul (Fin (4 / 3 * PI)) (nth k a NaN)) (nth k b NaN)) (nth k c NaN).
  (** The divisors of lines 293-296 for one particle; the second inequality is evaluated only if
      the first holds. *)
  Definition frame_divisors (r_i : nat) : list xr :=
    [xnorm (nth r_i major x0); xnorm (nth r_i inter x0); xnorm (nth r_i minor x0)].
  Definition axes_of (k : nat) : list xr := [nth k a NaN; nth k b NaN; nth k c NaN].
  Definition shell_divisors (r_i : nat) (p : vec) : list xr :=
    frame_divisors r_i ++ axes_of (S r_i) ++
    (if in_ellipsoid (S r_i) (frame r_i p) then axes_of r_i else []).

  (** ** calcDensProfBruteForceEll, lines 246-306 *)
  Definition dens_ell_step (st : pyres (list xr) * (nat -> nat)) (r_i : nat) :=
    match st with
    | (ZeroDivision, buf) => (ZeroDivision, buf)
    | (Ret dens, buf) =>
        let '(buf', pts) := compact_into buf (fun i => in_ell_shell r_i (frame r_i (nth i xyz v0))) (length xyz) in
        let vol := xsub (ell_volume (S r_i)) (ell_volume r_i) in
        if existsb xzero (flat_map (shell_divisors r_i) xyz) || (negb (pts =? 0)%nat && xzero vol)
        then (ZeroDivision, buf')
        else if (pts =? 0)%nat then (Ret (put dens r_i NaN), buf')
        else (Ret (fold_left (fun d n => put d r_i (xadd (nth r_i d NaN) (xdiv (Fin (nth (buf' n) masses 0)) vol))) (seq 0 pts) dens), buf')
    end.
  Definition calcDensProfBruteForceEll (dens : list xr) (shell : nat -> nat) : pyres (list xr) * (nat -> nat) :=
    fold_left dens_ell_step (seq 0 (length a - 1)) (Ret dens, shell).

  (** ** calcMenclsBruteForceEll, lines 353-412 *)
  Definition mencl_ell_step (st : pyres (list xr) * (nat -> nat)) (r_i : nat) :=
    match st with
    | (ZeroDivision, buf) => (ZeroDivision, buf)
    | (Ret mencl, buf) =>
        let '(buf', pts) := compact_into buf (fun i => in_ellipsoid (S r_i) (frame r_i (nth i xyz v0))) (length xyz) in
        if existsb xzero (flat_map (fun _ => frame_divisors r_i ++ axes_of (S r_i)) xyz) then (ZeroDivision, buf')
        else if (pts =? 0)%nat then (Ret (put mencl r_i NaN), buf')
        else (Ret (fold_left (fun d n => put d r_i (xadd (nth r_i d NaN) (Fin (nth (buf' n) masses 0)))) (seq 0 pts) mencl), buf')
    end.
  Definition calcMenclsBruteForceEll (mencl : list xr) (buf : nat -> nat) : pyres (list xr) * (nat -> nat) :=
    fold_left mencl_ell_step (seq 0 (length a - 1)) (Ret mencl, buf).
End Ell.

(** ** calcKTilde, lines 417-428. pow(0,-1) is infinite and is multiplied by 0. *)
Definition calcKTilde (r r_i h : R) : pyres xr :=
  if Req_EM_T (h * h) 0 then ZeroDivision
  else if Req_EM_T (r * r_i / (h * h)) 0 then Ret NaN
  else Ret (Fin (1 / (2 * Rpower (2 * PI) (3 / 2)) * / (r * r_i / (h * h))
       * (exp (- ((r_i - r) * (r_i - r)) / (2 * (h * h))) - exp (- ((r_i + r) * (r_i + r)) / (2 * (h * h)))))).

(** ** Drivers, dens_profs_algos.pyx *)
Inductive dout (X : Type) := DOk (x : X) | DZeroDivision | DIndexError | DValueError | DRecursionError.
Arguments DOk {X}.
Arguments DZeroDivision {X}.
Arguments DIndexError {X}.
Arguments DValueError {X}.
Arguments DRecursionError {X}.

(** Lines 83, 155. *)
Fixpoint midpoints (rs : list R) : list R :=
  match rs with
  | x :: ((y :: _) as rs') => (x + y) / 2 :: midpoints rs'
  | _ => []
  end.
(** Line 83; r_over_r200[-1] needs an entry. *)
Definition edges_sph (rs : list R) : dout (list R) :=
  match rs with
  | [] => DIndexError
  | _ => DOk ((/ 10 ^ 8) :: midpoints rs ++ [last rs 0])
  end.
(** Lines 155-156; r_midpoints[1] needs three radii. *)
Definition edges_ell (rs : list R) : dout (list R) :=
  match midpoints rs with
  | m0 :: m1 :: _ => if Req_EM_T m1 0 then DZeroDivision
                     else DOk (m0 * m0 / m1 :: midpoints rs ++ [last rs 0])
  | _ => DIndexError
  end.

(** offsets (line 80) and the particles idx_cat[offsets[p]:offsets[p+1]] of each object. *)
Definition offsets (obj_size : list nat) : list nat := 0%nat :: cumsum 0 obj_size.
Definition parts (idx_cat obj_size : list nat) : list (list nat) :=
  map (fun p => slice (nth p (offsets obj_size) 0%nat) (nth (S p) (offsets obj_size) 0%nat) idx_cat)
      (seq 0 (length obj_size)).
Definition ptcs (xyz : list vec) (masses : list R) (idx : list nat) : list ptc :=
  map (fun i => (nth i xyz v0, nth i masses 0)) idx.

(** Centres, lines 96-101, 198-203, 264-269: one choice per object. *)
Definition obj_centers (fuel : nat) (kind : center_kind) (choose : nat -> list nat) (L : R)
    (objs : list (list ptc)) : list (option vec) :=
  map (fun po => center_of fuel kind (choose (fst po)) 1000 L (snd po)) (combine (seq 0 (length objs)) objs).
Definition from_some (o : option vec) : vec := match o with Some v => v | None => v0 end.
Definition is_none {X} (o : option X) : bool := match o with None => true | _ => false end.

(** Memory of the parallel loop: xyz_obj[t,n], m_obj[t,n], shell[t,n] and row p of dens_profs.
    xyz_obj_princ[t] is written before it is read within one call and left out. *)
Inductive dloc := DXyz (t n : nat) | DM (t n : nat) | DShell (t n : nat) | DRow (p : nat).
Inductive dval (Y : Type) := DV (v : vec) | DR (r : R) | DN (n : nat) | DL (l : pyres (list Y)).
Arguments DV {Y}.
Arguments DR {Y}.
Arguments DN {Y}.
Arguments DL {Y}.
Definition dloc_eq (a b : dloc) : {a = b} + {a <> b}.
Proof. decide equality; apply Nat.eq_dec. Defined.
Definition dupd {Y} (m : dloc -> dval Y) (x : dloc) (v : dval Y) : dloc -> dval Y :=
  fun y => if dloc_eq y x then v else m y.

Section DensDriver.
  Context {Y : Type}.
  Variables (L : R) (objs : list (list ptc)).
  (** The routine called for object p with its positions, masses and the shell buffer. *)
  Variable calc : nat -> list vec -> list R -> (nat -> nat) -> pyres (list Y) * (nat -> nat).

  Definition dgetv (m : dloc -> dval Y) (x : dloc) : vec := match m x with DV v => v | _ => v0 end.
  Definition dgetr (m : dloc -> dval Y) (x : dloc) : R := match m x with DR r => r | _ => 0 end.
  Definition dgetn (m : dloc -> dval Y) (x : dloc) : nat := match m x with DN n => n | _ => 0%nat end.
  (** Lines 103-105. *)
  Definition dfill (t : nat) (nq : nat * ptc) : list (act dloc (dval Y)) :=
    [ (fun m => dupd m (DXyz t (fst nq)) (DV (fst (snd nq)))); (fun m => dupd m (DM t (fst nq)) (DR (snd (snd nq)))) ].
  Definition drows (m : dloc -> dval Y) (t k : nat) : list vec := map (fun n => dgetv m (DXyz t n)) (seq 0 k).
  Definition dmasses (m : dloc -> dval Y) (t k : nat) : list R := map (fun n => dgetr m (DM t n)) (seq 0 k).
  (** xyz_obj[t,:k] = rows, line 106. *)
  Definition dwrite (m : dloc -> dval Y) (t : nat) (l : list vec) : dloc -> dval Y :=
    fold_left (fun m nv => dupd m (DXyz t (fst nv)) (DV (snd nv))) (combine (seq 0 (length l)) l) m.
  (** Lines 102-107, 210-215: iteration p on thread t. *)
  Definition dens_body (t p : nat) : list (act dloc (dval Y)) :=
    let obj := nth p objs [] in
    let k := length obj in
    flat_map (dfill t) (combine (seq 0 k) obj) ++
    [ (fun m => dwrite m t (cy_respectPBCNoRef (drows m t k) L));
      (fun m => let '(res, buf) := calc p (drows m t k) (dmasses m t k) (fun n => dgetn m (DShell t n)) in
                fun y => match y with
                         | DShell t' n => if (t' =? t)%nat then DN (buf n) else m y
                         | DRow p' => if (p' =? p)%nat then DL res else m y
                         | _ => m y
                         end) ].
  Definition dmem0 : dloc -> dval Y := fun x =>
    match x with DXyz _ _ => DV v0 | DM _ _ => DR 0 | DShell _ _ => DN 0 | DRow _ => DL (Ret []) end.
  Definition drow (m : dloc -> dval Y) (p : nat) : pyres (list Y) := match m (DRow p) with DL l => l | _ => Ret [] end.
  Definition is_zerodiv {X} (r : pyres X) : bool := match r with ZeroDivision => true | _ => false end.
  Definition ret_of (r : pyres (list Y)) : list Y := match r with Ret l => l | _ => [] end.
  (** The loop over all objects. *)
  Inductive dens_loop : dout (list (list Y)) -> Prop :=
  | dens_run : forall m', prange dloc (dval Y) (length objs) dens_body dmem0 m' ->
      dens_loop (if existsb (fun p => is_zerodiv (drow m' p)) (seq 0 (length objs)) then DZeroDivision
                 else DOk (map (fun p => ret_of (drow m' p)) (seq 0 (length objs)))).
End DensDriver.

(** ** calcDensProfsSphDirectBinning, lines 54-109. np.max of an empty obj_size raises (line 81)
    before the test of line 87. *)
Inductive calcDensProfsSphDirectBinning (fuel : nat) (kind : center_kind) (choose : nat -> list nat)
    (xyz : list vec) (masses r200s rs : list R) (idx_cat obj_size : list nat) (L : R)
    : dout (list (list R)) -> Prop :=
| sph_empty : obj_size = [] -> calcDensProfsSphDirectBinning fuel kind choose xyz masses r200s rs idx_cat obj_size L DValueError
| sph_radii : obj_size <> [] -> edges_sph rs = DIndexError ->
    calcDensProfsSphDirectBinning fuel kind choose xyz masses r200s rs idx_cat obj_size L DIndexError
| sph_center : forall edges, obj_size <> [] -> edges_sph rs = DOk edges ->
    existsb is_none (obj_centers fuel kind choose L (map (ptcs xyz masses) (parts idx_cat obj_size))) = true ->
    calcDensProfsSphDirectBinning fuel kind choose xyz masses r200s rs idx_cat obj_size L DRecursionError
| sph_ok : forall edges r, obj_size <> [] -> edges_sph rs = DOk edges ->
    let objs := map (ptcs xyz masses) (parts idx_cat obj_size) in
    let cs := obj_centers fuel kind choose L objs in
    existsb is_none cs = false ->
    dens_loop L objs (fun p x ms buf => calcDensProfBruteForceSph x ms (from_some (nth p cs None)) (nth p r200s 0)
                        edges (repeat 0 (length rs)) buf) r ->
    calcDensProfsSphDirectBinning fuel kind choose xyz masses r200s rs idx_cat obj_size L r.

(** ** calcDensProfsEllDirectBinning, lines 112-218 *)
(** Line 170 for object p: its slice of the flat catalogue is overwritten, in place, by element
    p of the flat catalogue. [None]: IndexError. *)
Definition overwrite (obj_size : list nat) (idx : option (list nat)) (p : nat) : option (list nat) :=
  match idx with
  | None => None
  | Some l => match nth_error l p with
              | None => None
              | Some v => let i := nth p (offsets obj_size) 0%nat in
                          let j := nth (S p) (offsets obj_size) 0%nat in
                          Some (firstn i l ++ repeat v (length (slice i j l)) ++ skipn j l)
              end
  end.
Definition overwritten (idx_cat obj_size : list nat) : option (list nat) :=
  fold_left (overwrite obj_size) (seq 0 (length obj_size)) (Some idx_cat).

(** Shapes of one object at the given radii: lines of a, b, c and of the axes. *)
Record shapes := mkSh { sh_a : list xr; sh_b : list xr; sh_c : list xr;
                        sh_major : list xvec; sh_inter : list xvec; sh_minor : list xvec }.

Section EllDriver.
  (** scipy's interp1d through the points (xs, ys), evaluated at a radius: any function. *)
  Variable interp : list xr -> list xr -> R -> xr.
  (** Lines 171-195. *)
  Definition interp_edges (xs ys : list xr) (edges : list R) (r200 : R) : list xr :=
    map (fun e => interp xs ys (e * r200)) edges.
  Definition interp_axis (xs : list xr) (ws : list xvec) (rs : list R) (r200 : R) : list xvec :=
    map (fun r => mkX (interp xs (map xx ws) (r * r200)) (interp xs (map xy ws) (r * r200))
                      (interp xs (map xz ws) (r * r200))) rs.
  Definition ell_calc (sh : shapes) (rs edges : list R) (r200 : R) (center : vec) (x : list vec) (ms : list R)
      (buf : nat -> nat) : pyres (list xr) * (nat -> nat) :=
    calcDensProfBruteForceEll x ms center
      (interp_edges (sh_a sh) (sh_a sh) edges r200) (interp_edges (sh_a sh) (sh_b sh) edges r200)
      (interp_edges (sh_a sh) (sh_c sh) edges r200)
      (interp_axis (sh_a sh) (sh_major sh) rs r200) (interp_axis (sh_a sh) (sh_inter sh) rs r200)
      (interp_axis (sh_a sh) (sh_minor sh) rs r200) (repeat (Fin 0) (length rs)) buf.

  (** The result, and the catalogue array of the caller afterwards. *)
  Inductive calcDensProfsEllDirectBinning (fuel : nat) (kind : center_kind) (choose : nat -> list nat)
      (xyz : list vec) (masses r200s rs : list R) (shs : list shapes) (idx_cat obj_size : list nat) (L : R)
      : dout (list (list xr)) -> list nat -> Prop :=
  | ell_empty : obj_size = [] ->
      calcDensProfsEllDirectBinning fuel kind choose xyz masses r200s rs shs idx_cat obj_size L DValueError idx_cat
  | ell_zerodiv : obj_size <> [] -> edges_ell rs = DZeroDivision ->
      calcDensProfsEllDirectBinning fuel kind choose xyz masses r200s rs shs idx_cat obj_size L DZeroDivision idx_cat
  | ell_radii : obj_size <> [] -> edges_ell rs = DIndexError ->
      calcDensProfsEllDirectBinning fuel kind choose xyz masses r200s rs shs idx_cat obj_size L DIndexError idx_cat
  | ell_index : forall edges idx', obj_size <> [] -> edges_ell rs = DOk edges -> overwritten idx_cat obj_size = None ->
      calcDensProfsEllDirectBinning fuel kind choose xyz masses r200s rs shs idx_cat obj_size L DIndexError idx'
  | ell_center : forall edges idx', obj_size <> [] -> edges_ell rs = DOk edges -> overwritten idx_cat obj_size = Some idx' ->
      existsb is_none (obj_centers fuel kind choose L (map (ptcs xyz masses) (parts idx' obj_size))) = true ->
      calcDensProfsEllDirectBinning fuel kind choose xyz masses r200s rs shs idx_cat obj_size L DRecursionError idx'
  | ell_ok : forall edges idx' r, obj_size <> [] -> edges_ell rs = DOk edges -> overwritten idx_cat obj_size = Some idx' ->
      let objs := map (ptcs xyz masses) (parts idx' obj_size) in
      let cs := obj_centers fuel kind choose L objs in
      existsb is_none cs = false ->
      dens_loop L objs (fun p x ms buf => ell_calc (nth p shs (mkSh [] [] [] [] [] [])) rs edges (nth p r200s 0)
                          (from_some (nth p cs None)) x ms buf) r ->
      calcDensProfsEllDirectBinning fuel kind choose xyz masses r200s rs shs idx_cat obj_size L r idx'.
End EllDriver.

(** ** calcDensProfsKernelBased, lines 221-281. R200 is not zero (NaN widths are not modelled). *)
(** Line 275. *)
Definition width (r200 dist : R) : R := 5 / 1000 * r200 * sqrt (dist / (1 / 10 * r200)).
(** The term of particle n at radius r, line 278; [hs[n]**3 == 0] raises, and so does calcKTilde
    (or it prints the exception and returns 0, before the division raises). *)
Definition kernel_term (r r200 dist m : R) : pyres xr :=
  let h := width r200 dist in
  match calcKTilde (r * r200) dist h with
  | ZeroDivision => ZeroDivision
  | Ret k => if Req_EM_T (h * h * h) 0 then ZeroDivision else Ret (xdiv (xmul (Fin m) k) (Fin (h * h * h)))
  end.
(** One object: the prange loop over the radii, lines 276-278; after an exception the entry is
    not used. *)
Definition kernel_add (d : pyres xr) (t : pyres xr) : pyres xr :=
  match d, t with Ret a, Ret b => Ret (xadd a b) | _, _ => ZeroDivision end.
Definition kernel_body (rs : list R) (r200 : R) (center : vec) (ps : list ptc) (t r_idx : nat)
  : list (act nat (pyres xr)) :=
  map (fun q m y => if (y =? r_idx)%nat
                    then kernel_add (m r_idx) (kernel_term (nth r_idx rs 0) r200 (norm (vsub (fst q) center)) (snd q))
                    else m y) ps.
(** Lines 264-278, object by object; the first exception ends the call. *)
Inductive kernel_object (rs : list R) (r200 : R) (center : vec) (L : R) (o : list ptc) : dout (list xr) -> Prop :=
| kernel_run : forall m',
    prange nat (pyres xr) (length rs)
      (kernel_body rs r200 center (combine (cy_respectPBCNoRef (map fst o) L) (map snd o))) (fun _ => Ret (Fin 0)) m' ->
    kernel_object rs r200 center L o
      (if existsb (fun r => is_zerodiv (m' r)) (seq 0 (length rs)) then DZeroDivision
       else DOk (map (fun r => match m' r with Ret x => x | _ => NaN end) (seq 0 (length rs)))).
Inductive kernel_objects (fuel : nat) (kind : center_kind) (choose : nat -> list nat) (rs : list R) (L : R)
  : nat -> list (list ptc) -> list R -> dout (list (list xr)) -> Prop :=
| ko_nil : forall p r200s, kernel_objects fuel kind choose rs L p [] r200s (DOk [])
| ko_center : forall p o objs r200s, center_of fuel kind (choose p) 1000 L o = None ->
    kernel_objects fuel kind choose rs L p (o :: objs) r200s DRecursionError
| ko_raise : forall p o objs r200s c, center_of fuel kind (choose p) 1000 L o = Some c ->
    kernel_object rs (hd 0 r200s) c L o DZeroDivision ->
    kernel_objects fuel kind choose rs L p (o :: objs) r200s DZeroDivision
| ko_ok : forall p o objs r200s c row rest, center_of fuel kind (choose p) 1000 L o = Some c ->
    kernel_object rs (hd 0 r200s) c L o (DOk row) ->
    kernel_objects fuel kind choose rs L (S p) objs (tl r200s) rest ->
    kernel_objects fuel kind choose rs L p (o :: objs) r200s
      (match rest with DOk rows => DOk (row :: rows) | e => e end).
Inductive calcDensProfsKernelBased (fuel : nat) (kind : center_kind) (choose : nat -> list nat)
    (xyz : list vec) (masses r200s rs : list R) (idx_cat obj_size : list nat) (L : R)
    : dout (list (list xr)) -> Prop :=
| ker_empty : obj_size = [] -> calcDensProfsKernelBased fuel kind choose xyz masses r200s rs idx_cat obj_size L DValueError
| ker_run : forall r, obj_size <> [] ->
    kernel_objects fuel kind choose rs L 0 (map (ptcs xyz masses) (parts idx_cat obj_size)) r200s r ->
    calcDensProfsKernelBased fuel kind choose xyz masses r200s rs idx_cat obj_size L r.
