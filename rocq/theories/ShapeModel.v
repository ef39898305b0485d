(** Shape tensor and iterative shape determination: cython_helpers/helper_class.pyx
    (calcShapeTensor, calcLocalSpread, cython_abs, ZHEEVR) and
    shape_profs/shape_profs_algos.pyx. Positions, velocities and masses are finite real
    numbers; derived quantities are extended reals ([XR]) because the eigensolver may answer
    anything. The modules are compiled without the cdivision directive (no file sets it), so
    Cython tests every divisor and raises ZeroDivisionError if it is 0; functions returning
    memoryviews propagate it, and prange re-raises it after the loop. Rounding, overflow and the
    single precision of mass_tot and cython_abs are not modelled. *)
From Coq Require Import List Reals ZArith Bool Arith.
From Verif Require Import ParModel XR GeoModel.
Import ListNotations.
Open Scope R_scope.

(** What a call returns, or ZeroDivisionError. *)
Inductive pyres (X : Type) := Ret (x : X) | ZeroDivision.
Arguments Ret {X}.
Arguments ZeroDivision {X}.
(** The test of a divisor. *)
Definition xzero (x : xr) : bool := xeqb x (Fin 0).

(** A row of an (N,3) array of derived quantities. *)
Record xvec := mkX { xx : xr; xy : xr; xz : xr }.

(** nns[k,i]. *)
Definition coord (v : vec) (i : nat) : R :=
  match i with O => vx v | S O => vy v | _ => vz v end.

(** ** calcShapeTensor, helper_class.pyx lines 19-57 *)
Definition mat := nat -> nat -> xr.
(** shape_tensor[i,j] = x. *)
Definition mupd (T : mat) (i j : nat) (x : xr) : mat :=
  fun a b => if (a =? i)%nat && (b =? j)%nat then x else T a b.
(** The term added to shape_tensor[i,j] for particle [k], lines 51-54. *)
Definition tensor_term (nns : list vec) (masses : list R) (center : vec) (mass_tot : R)
    (reduced : bool) (r_ell : list xr) (i j k : nat) : xr :=
  let num := nth k masses 0 * (coord (nth k nns v0) i - coord center i)
             * (coord (nth k nns v0) j - coord center j) in
  if reduced then xdiv (Fin num) (xmul (Fin mass_tot) (xsq (nth k r_ell NaN)))
  else xdiv (Fin num) (Fin mass_tot).
(** Lines 40-57, without the tests of the divisors (see [divisors] below); [select] is the index buffer, of which [nb_pts] entries are used; the tensor
    buffer is zeroed first (line 40). *)
Definition calcShapeTensor (nns : list vec) (select : nat -> nat) (masses : list R)
    (center : vec) (nb_pts : nat) (reduced : bool) (r_ell : list xr) : mat :=
  let mass_tot := fold_left (fun acc run => acc + nth (select run) masses 0) (seq 0 nb_pts) 0 in
  fold_left (fun T ij =>
    let '(i, j) := ij in
    if (j <=? i)%nat then
      let T1 := fold_left (fun T run =>
          mupd T i j (xadd (T i j)
             (tensor_term nns masses center mass_tot reduced r_ell i j (select run))))
        (seq 0 nb_pts) T in
      if (j <? i)%nat then mupd T1 j i (T1 i j) else T1
    else T) (list_prod [0;1;2]%nat [0;1;2]%nat) (fun _ _ => Fin 0).
(** The divisors of lines 52 and 54, per selected particle. *)
Definition tensor_divisors (select : nat -> nat) (masses : list R) (nb_pts : nat) (reduced : bool)
    (r_ell : list xr) : list xr :=
  let mass_tot := fold_left (fun acc run => acc + nth (select run) masses 0) (seq 0 nb_pts) 0 in
  map (fun run => if reduced then xmul (Fin mass_tot) (xsq (nth (select run) r_ell NaN)) else Fin mass_tot)
      (seq 0 nb_pts).
(** The nine entries passed to ZHEEVR. *)
Definition freeze (T : mat) : list xr :=
  map (fun ij => T (fst ij) (snd ij)) (list_prod [0;1;2]%nat [0;1;2]%nat).

(** ** ZHEEVR, helper_class.pyx lines 123-164: eigenvalues and the real parts of the columns
    of Z (only these are used). The LAPACK routine itself is not modelled: see [Section Katz]
    and [eig_contract] in ShapeSpec. *)
Record eigres := mkE { ev0 : xr; ev1 : xr; ev2 : xr; w0 : xvec; w1 : xvec; w2 : xvec }.

(** cython_abs, helper_class.pyx lines 110-120: a NaN takes neither branch and the C function
    then returns 0. *)
Definition cython_abs (x : xr) : xr :=
  if xleb (Fin 0) x then x else if xltb x (Fin 0) then xneg x else Fin 0.
(** max(a, b) on C doubles, as compiled by Cython: b > a ? b : a. *)
Definition cmax (a b : xr) : xr := if xltb a b then b else a.

(** morph_info: d, q, s and the three axes. *)
Record morph := mkM { md : xr; mq : xr; ms : xr; major : xvec; inter : xvec; minor : xvec }.
Definition x0 : xvec := mkX (Fin 0) (Fin 0) (Fin 0).
(** morph_info[:] = 0.0. *)
Definition zeros : morph := mkM (Fin 0) (Fin 0) (Fin 0) x0 x0 x0.

(** A column divided by its norm, shape_profs_algos.pyx lines 105-120. *)
Definition xnorm (w : xvec) : xr := xsqrt (xadd (xadd (xsq (xx w)) (xsq (xy w))) (xsq (xz w))).
Definition normed (w : xvec) : xvec :=
  mkX (xdiv (xx w) (xnorm w)) (xdiv (xy w) (xnorm w)) (xdiv (xz w) (xnorm w)).

(** In-place compaction (e.g. lines 81-86): writes at i - corr. *)
Definition set (buf : nat -> nat) (k v : nat) : nat -> nat := fun x => if (x =? k)%nat then v else buf x.
Definition compact_step (f : nat -> bool) (st : (nat -> nat) * nat * nat) (i : nat) :=
  let '(buf, pts, corr) := st in
  if f i then (set buf (i - corr) i, S pts, corr) else (buf, pts, S corr).
(** The loop over all particles, starting from the zeroed buffer (lines 67-69 and 127-129). *)
Definition compact (f : nat -> bool) (n : nat) : (nat -> nat) * nat :=
  let '(buf, pts, _) := fold_left (compact_step f) (seq 0 n) ((fun _ => 0%nat), 0%nat, 0%nat) in
  (buf, pts).

(** Principal-frame coordinates of one particle, lines 123-125. *)
Definition xdot (w : xvec) (v : vec) : xr :=
  xadd (xadd (xmul (xx w) (Fin (vx v))) (xmul (xy w) (Fin (vy v)))) (xmul (xz w) (Fin (vz v))).
Definition princ (mi : morph) (center p : vec) : xvec :=
  mkX (xdot (major mi) (vsub p center)) (xdot (inter mi) (vsub p center))
      (xdot (minor mi) (vsub p center)).
(** x^2 + y^2/q^2 + z^2/s^2. *)
Definition ellval (q s : xr) (x : xvec) : xr :=
  xadd (xadd (xsq (xx x)) (xdiv (xsq (xy x)) (xsq q))) (xdiv (xsq (xz x)) (xsq s)).

(** Loop state of runEllAlgo / runShellAlgo: err, q_new, s_new, iteration, index buffer,
    number of selected particles, r_ell, morph_info; and what each tensor evaluation used
    and produced (for the statements; not part of the program). *)
Record kst := mkK { k_err : xr; k_q : xr; k_s : xr; k_it : Z; k_buf : nat -> nat; k_pts : nat;
                    k_rell : list xr; k_mi : morph; k_trace : list (list nat * list xr * morph) }.

Section Katz.
  (** Answer of the eigensolver at iteration n for a given matrix: any function. *)
  Variable eig : nat -> list xr -> eigres.
  (** xyz; the vectors entering the tensor (xyz itself, or vxyz in the VDisp versions) and
      their centre; masses; center. *)
  Variables (xyz ten : list vec) (masses : list R) (center tcenter : vec).
  (** d; [None] for the ellipsoid version, [Some delta_d] for the shell version. *)
  Variables (d : R) (delta : option R).
  Variables (IT_TOL : R) (IT_WALL IT_MIN : Z) (reduced : bool).

  (** (center-xyz[i])^2, lines 82, 207. *)
  Definition dist2 (p : vec) : R :=
    (vx center - vx p) * (vx center - vx p) + (vy center - vy p) * (vy center - vy p)
    + (vz center - vz p) * (vz center - vz p).
  (** Initial selection: lines 82 (shell), 207 (ellipsoid). *)
  Definition in_sphere (p : vec) : bool :=
    match delta with
    | None => if Rlt_dec (dist2 p) (d * d) then true else false
    | Some dd => (if Rlt_dec (dist2 p) (d * d) then true else false)
                 && (if Rle_dec ((d - dd) * (d - dd)) (dist2 p) then true else false)
    end.
  (** Later selections: lines 130-139 (shell), 256 (ellipsoid). *)
  Definition in_ell (q s : xr) (x : xvec) : bool :=
    xltb (ellval q s x) (Fin (d * d)) &&
    match delta with
    | None => true
    | Some dd =>
        if Req_EM_T d dd then true
        else xleb (Fin 1)
          (xadd (xadd (xdiv (xsq (xx x)) (xsq (Fin (d - dd))))
                      (xdiv (xsq (xy x)) (xsq (xsub (xmul q (Fin d)) (Fin dd)))))
                (xdiv (xsq (xz x)) (xsq (xsub (xmul s (Fin d)) (Fin dd)))))
    end.

  (** Lines 67-87, 192-212; [mi0] is the content of morph_info on entry. *)
  Definition katz_init (mi0 : morph) : kst :=
    let '(buf, pts) := compact (fun i => in_sphere (nth i xyz v0)) (length xyz) in
    mkK (Fin 1) (Fin 1) (Fin 1) 1 buf pts
        (map (fun p => xsqrt (ellval (Fin 1) (Fin 1)
                (mkX (Fin (vx center - vx p)) (Fin (vy center - vy p)) (Fin (vz center - vz p))))) xyz)
        mi0 [].

  (** One pass through the loop body after the two exit tests, lines 96-144, 221-261. *)
  Definition katz_body (st : kst) : kst :=
    let T := freeze (calcShapeTensor ten (k_buf st) masses tcenter (k_pts st) reduced (k_rell st)) in
    let e := eig (Z.to_nat (k_it st)) T in
    let q_old := k_q st in
    let s_old := k_s st in
    let q_new := xsqrt (xdiv (ev1 e) (ev2 e)) in
    let s_new := xsqrt (xdiv (ev0 e) (ev2 e)) in
    let err := cmax (xdiv (cython_abs (xsub q_new q_old)) q_old)
                    (xdiv (cython_abs (xsub s_new s_old)) s_old) in
    let mi := mkM (Fin d) q_new s_new (normed (w2 e)) (normed (w1 e)) (normed (w0 e)) in
    let pr := map (princ mi center) xyz in
    let '(buf, pts) := compact (fun i => in_ell q_new s_new (nth i pr x0)) (length xyz) in
    mkK err q_new s_new (k_it st + 1) buf pts
        (map (fun x => xsqrt (ellval q_new s_new x)) pr) mi
        (k_trace st ++ [(map (k_buf st) (seq 0 (k_pts st)), T, mi)]).

  (** The divisors evaluated in that pass: those of the tensor (line 96), of lines 102-104 and
      112-120, per particle those of lines 123-126 and of the inequalities (132, 139); the inner
      inequality is evaluated only if the outer one holds. *)
  Definition divisors (st : kst) : list xr :=
    let T := freeze (calcShapeTensor ten (k_buf st) masses tcenter (k_pts st) reduced (k_rell st)) in
    let e := eig (Z.to_nat (k_it st)) T in
    let q_new := xsqrt (xdiv (ev1 e) (ev2 e)) in
    let s_new := xsqrt (xdiv (ev0 e) (ev2 e)) in
    let mi := mkM (Fin d) q_new s_new (normed (w2 e)) (normed (w1 e)) (normed (w0 e)) in
    tensor_divisors (k_buf st) masses (k_pts st) reduced (k_rell st) ++
    [ev2 e; k_q st; k_s st; xnorm (w2 e); xnorm (w1 e); xnorm (w0 e)] ++
    flat_map (fun p =>
      [xsq q_new; xsq s_new] ++
      match delta with
      | None => []
      | Some dd =>
          if Req_EM_T d dd then []
          else if xltb (ellval q_new s_new (princ mi center p)) (Fin (d * d))
          then [xsq (Fin (d - dd)); xsq (xsub (xmul q_new (Fin d)) (Fin dd)); xsq (xsub (xmul s_new (Fin d)) (Fin dd))]
          else []
      end) xyz.

  (** The while loop, lines 88-145, 213-262. [None]: more than [fuel] passes. *)
  Fixpoint katz_loop (fuel : nat) (st : kst) : option (pyres morph * list (list nat * list xr * morph)) :=
    if xltb (Fin IT_TOL) (k_err st) then
      if (IT_WALL <? k_it st)%Z then Some (Ret zeros, k_trace st)
      else if (Z.of_nat (k_pts st) <? IT_MIN)%Z then Some (Ret zeros, k_trace st)
      else match fuel with
           | O => None
           | S fuel' => if existsb xzero (divisors st) then Some (ZeroDivision, k_trace st)
                        else katz_loop fuel' (katz_body st)
           end
    else Some (Ret (k_mi st), k_trace st).

  (** runEllAlgo 148-262, runShellAlgo 16-145, runEllVDispAlgo 265-383, runShellVDispAlgo
      386-514. *)
  Definition katz (fuel : nat) (mi0 : morph) := katz_loop fuel (katz_init mi0).
End Katz.

(** ** calcLocalSpread, helper_class.pyx lines 62-80 *)
Definition calcLocalSpread (nns : list vec) : R :=
  let n := INR (length nns) in
  let mx := fold_left (fun a p => a + vx p / n) nns 0 in
  let my := fold_left (fun a p => a + vy p / n) nns 0 in
  let mz := fold_left (fun a p => a + vz p / n) nns 0 in
  fold_left (fun a p => a + sqrt ((vx p - mx) * (vx p - mx) + (vy p - my) * (vy p - my)
                                  + (vz p - mz) * (vz p - mz)) / n) nns 0.

(** Settings taken from katz_config and the class. *)
Record kcfg := mkC { c_tol : R; c_wall : Z; c_min : Z; c_reduced : bool; c_shell : bool;
                     c_safe : R; c_log_d : list R }.

(** Collecting results in order; the first exception (or missing result) ends the loop. *)
Fixpoint collect {X} (l : list (option (pyres X))) : option (pyres (list X)) :=
  match l with
  | [] => Some (Ret [])
  | None :: _ => None
  | Some ZeroDivision :: _ => Some ZeroDivision
  | Some (Ret x) :: l' =>
      match collect l' with
      | Some (Ret r) => Some (Ret (x :: r))
      | Some ZeroDivision => Some ZeroDivision
      | None => None
      end
  end.

(** calcCoM (helper_class.pyx 104-106) divides by the total mass, once per particle. *)
Definition com_raises (masses : list R) : bool :=
  negb (length masses =? 0)%nat && (if Req_EM_T (np_sum masses) 0 then true else false).

(** calcObjMorphLocal 975-1046 and calcObjMorphLocalVelDisp 1103-1178: one result per radius. *)
Definition calcObjMorphLocal (eig : nat -> list xr -> eigres) (fuel : nat) (c : kcfg) (r200 : R)
    (xyz ten : list vec) (masses : list R) (center tcenter : vec) : option (pyres (list morph)) :=
  if Req_EM_T (calcLocalSpread xyz) 0 then Some (Ret (map (fun _ => zeros) (c_log_d c)))
  else if Req_EM_T r200 0 then Some (Ret (map (fun _ => zeros) (c_log_d c)))
  else collect (map (fun nb =>
         let dn := r200 * nth nb (c_log_d c) 0 in
         let delta := if c_shell c then
                        Some (match nb with O => dn | S nb' => dn - r200 * nth nb' (c_log_d c) 0 end)
                      else None in
         option_map fst (katz eig xyz ten masses center tcenter dn delta (c_tol c) (c_wall c) (c_min c)
           (c_reduced c) fuel (mkM (Fin dn) (Fin 0) (Fin 0) x0 x0 x0)))
       (seq 0 (length (c_log_d c)))).

(** calcObjMorphGlobal 1049-1100 and calcObjMorphGlobalVelDisp 1181-1240. *)
Definition calcObjMorphGlobal (eig : nat -> list xr -> eigres) (fuel : nat) (c : kcfg) (r200 : R)
    (xyz ten : list vec) (masses : list R) (center tcenter : vec) : option (pyres (list morph)) :=
  if Req_EM_T (calcLocalSpread xyz) 0 then Some (Ret [zeros])
  else collect [option_map fst (katz eig xyz ten masses center tcenter (r200 + c_safe c) None (c_tol c)
         (c_wall c) (c_min c) (c_reduced c) fuel (mkM (Fin (r200 + c_safe c)) (Fin 0) (Fin 0) x0 x0 x0))].

(** ** The parallel drivers *)
(** Which of the four: calcMorphLocal 517-628, calcMorphGlobal 631-736, calcMorphLocalVelDisp
    739-856, calcMorphGlobalVelDisp 859-972. *)
Inductive variant := Local | Global | LocalVel | GlobalVel.
Definition is_local (v : variant) : bool := match v with Local | LocalVel => true | _ => false end.

(** Memory of the loop: xyz_obj[t,n], vxyz_obj[t,n], m_obj[t,n], morph_info[t], vcenters[p],
    m[p] and the result rows d[p], q[p], ... of object p. *)
Inductive sloc := SXyz (t n : nat) | SVel (t n : nat) | SM (t n : nat) | SMorph (t : nat)
                | SVc (p : nat) | SMass (p : nat) | SOut (p : nat).
Inductive sval := VV (v : vec) | VR (r : R) | VMs (l : option (pyres (list morph))).
Definition sloc_eq (a b : sloc) : {a = b} + {a <> b}.
Proof. decide equality; apply Nat.eq_dec. Defined.
Definition supd (m : sloc -> sval) (x : sloc) (v : sval) : sloc -> sval :=
  fun y => if sloc_eq y x then v else m y.
Definition getv (m : sloc -> sval) (x : sloc) : vec := match m x with VV v => v | _ => v0 end.
Definition getr (m : sloc -> sval) (x : sloc) : R := match m x with VR r => r | _ => 0 end.

(** Particles of an object: position, velocity, mass. *)
Definition vptc := (vec * vec * R)%type.

Section Driver.
  Variables (eig : nat -> list xr -> eigres) (fuel : nat) (c : kcfg) (L : R) (vt : variant).
  (** The particles of each object (xyz[idx_cat[offsets[p]+n]] etc.), R200 and centre. *)
  Variables (objs : list (list vptc)) (r200 : list R) (centers : list vec).

  (** Copying particle n of object p, lines 593-598, 820-825; only GlobalVelDisp copies
      velocities (line 939). *)
  Definition fill (t p : nat) (nq : nat * vptc) : list (act sloc sval) :=
    let '(n, (x, v, mm)) := nq in
    [ (fun m => supd m (SXyz t n) (VV x)) ] ++
    (match vt with GlobalVel => [ (fun m => supd m (SVel t n) (VV v)) ] | _ => [] end) ++
    [ (fun m => supd m (SM t n) (VR mm));
      (fun m => supd m (SMass p) (VR (getr m (SMass p) + mm))) ].
  (** Rows 0..k-1 of a buffer. *)
  Definition rows (m : sloc -> sval) (f : nat -> sloc) (k : nat) : list vec := map (fun n => getv m (f n)) (seq 0 k).
  (** Velocity rows used by the tensor: LocalVelDisp never fills vxyz_obj, which keeps the
      zeros it was allocated with (line 802). *)
  Definition vel_rows (m : sloc -> sval) (t k : nat) : list vec :=
    match vt with GlobalVel => rows m (SVel t) k | _ => map (fun _ => v0) (seq 0 k) end.
  (** In-place periodic unwrapping of xyz_obj[t,:k], line 599. *)
  Definition write_rows (m : sloc -> sval) (f : nat -> sloc) (l : list vec) : sloc -> sval :=
    fold_left (fun m nv => supd m (f (fst nv)) (VV (snd nv))) (combine (seq 0 (length l)) l) m.
  (** The computation for object p on thread t, lines 600, 828, 944; in the velocity versions
      calcCoM (lines 827, 943) comes first and may raise. *)
  Definition compute (t p k : nat) (m : sloc -> sval) : option (pyres (list morph)) :=
    let xyz := rows m (SXyz t) k in
    let ms := map (fun n => getr m (SM t n)) (seq 0 k) in
    let vel := match vt with LocalVel | GlobalVel => true | _ => false end in
    let ten := if vel then vel_rows m t k else xyz in
    let tc := if vel then getv m (SVc p) else nth p centers v0 in
    if vel && com_raises ms then Some ZeroDivision
    else (if is_local vt then calcObjMorphLocal else calcObjMorphGlobal)
      eig fuel c (nth p r200 0) xyz ten ms (nth p centers v0) tc.
  (** Iteration p of the prange loop on thread t, lines 592-613. *)
  Definition shape_body (t p : nat) : list (act sloc sval) :=
    let obj := nth p objs [] in
    let k := length obj in
    flat_map (fill t p) (combine (seq 0 k) obj) ++
    [ (fun m => write_rows m (SXyz t) (cy_respectPBCNoRef (rows m (SXyz t) k) L)) ] ++
    (match vt with
     | LocalVel | GlobalVel =>
         [ (fun m => supd m (SVc p) (VV (cy_calcCoM
                (combine (vel_rows m t k) (map (fun n => getr m (SM t n)) (seq 0 k)))))) ]
     | _ => [] end) ++
    [ (fun m => supd m (SMorph t) (VMs (compute t p k m)));
      (fun m => supd m (SOut p) (m (SMorph t))) ].
  (** Arrays as allocated, zero. *)
  Definition smem0 : sloc -> sval := fun x =>
    match x with SMass _ | SM _ _ => VR 0 | SMorph _ | SOut _ => VMs None | _ => VV v0 end.

  (** ==0.0 becomes NaN, lines 619-624, componentwise. *)
  Definition nanz (x : xr) : xr := if xeqb x (Fin 0) then NaN else x.
  Definition nanv (w : xvec) : xvec := mkX (nanz (xx w)) (nanz (xy w)) (nanz (xz w)).
  Definition nan_morph (mi : morph) : morph :=
    mkM (nanz (md mi)) (nanz (mq mi)) (nanz (ms mi)) (nanv (major mi)) (nanv (inter mi)) (nanv (minor mi)).

  (** A run of the driver after the centres are known: the shape rows and masses of all objects,
      or the exception if one object raised it. *)
  Definition raised (x : sval) : bool := match x with VMs (Some ZeroDivision) => true | _ => false end.
  Definition entry (x : sval) : option (list morph) :=
    match x with VMs (Some (Ret l)) => Some (map nan_morph l) | _ => None end.
  Inductive calcMorph : pyres (list (option (list morph)) * list R) -> Prop :=
  | cm_run : forall m',
      prange sloc sval (length objs) shape_body smem0 m' ->
      calcMorph (if existsb (fun p => raised (m' (SOut p))) (seq 0 (length objs)) then ZeroDivision
                 else Ret (map (fun p => entry (m' (SOut p))) (seq 0 (length objs)),
                           map (fun p => getr m' (SMass p)) (seq 0 (length objs)))).
End Driver.

(** shapes["is_conv"] = ~np.isnan(q), shape_profs_classes.pyx lines 106, 141. *)
Definition is_conv (mi : morph) : bool := negb (xisnan (mq mi)).
