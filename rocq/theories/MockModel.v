(** Model of the mock halo generator, cosmic_profiles/mock_tools/mock_halo_gen.py, and of the point
    sets it and the documentation use: common/python_routines.py lines 261-285 and 308-497.
    Real arithmetic. scipy's quad is a parameter; random numbers are arbitrary. *)
From Coq Require Import Reals String Bool ZArith List.
From Verif Require Import FitModel.
Import ListNotations.
Local Open Scope R_scope.

(** ** Exceptions *)
Inductive merr := MKeyError | MIndexError | MZeroDivisionError | MValueError | MTypeError.
Inductive mres (A : Type) := MOk (a : A) | MErr (e : merr).
Arguments MOk {A}. Arguments MErr {A}.
Definition mbind {A B} (x : mres A) (f : A -> mres B) : mres B := match x with MOk a => f a | MErr e => MErr e end.
(** Division of Python floats. *)
Definition pydiv (x y : R) : mres R := if Req_EM_T y 0 then MErr MZeroDivisionError else MOk (x / y).
(** l[i]. *)
Definition at_ {A} (l : list A) (i : nat) : mres A := match nth_error l i with Some x => MOk x | None => MErr MIndexError end.
(** l[-1]. *)
Definition last_ {A} (l : list A) : mres A := match l with [] => MErr MIndexError | _ => at_ l (length l - 1) end.
(** round(x): to the nearest integer, halves to the even one. *)
Definition py_round (x : R) : Z :=
  let k := Int_part x in
  if Rlt_dec (x - IZR k) (1 / 2) then k
  else if Rlt_dec (1 / 2) (x - IZR k) then (k + 1)%Z
  else if Z.even k then k else (k + 1)%Z.

(** ** The parameters of the profile: a dictionary of floats *)
Definition pdict := list (string * R).
Fixpoint pget (d : pdict) (k : string) : mres R :=
  match d with [] => MErr MKeyError | (k', v) :: d' => if string_dec k k' then MOk v else pget d' k end.
(** d[k] = v. *)
Fixpoint pset (d : pdict) (k : string) (v : R) : pdict :=
  match d with [] => [(k, v)] | (k', v') :: d' => if string_dec k k' then (k, v) :: d' else (k', v') :: pset d' k v end.

(** getMassIntegrand0, lines 43-59. r > 0, where float powers are Rpower. *)
Definition getMassIntegrand0 (profile : string) (d : pdict) : mres (R -> R) :=
  if string_dec profile "einasto" then
    mbind (pget d "alpha") (fun alpha => mbind (pget d "r_s") (fun r_s =>
    MOk (fun r => 4 * PI * r ^ 2 * exp (- 2 / alpha * (Rpower (r / r_s) alpha - 1)))))
  else if string_dec profile "alpha_beta_gamma" then
    mbind (pget d "alpha") (fun alpha => mbind (pget d "beta") (fun beta => mbind (pget d "gamma") (fun gamma => mbind (pget d "r_s") (fun r_s =>
    MOk (fun r => 4 * PI * r ^ 2 / (Rpower (r / r_s) gamma * Rpower (1 + Rpower (r / r_s) alpha) ((beta - gamma) / alpha)))))))
  else if string_dec profile "hernquist" then
    mbind (pget d "r_s") (fun r_s => MOk (fun r => 4 * PI * r ^ 2 / (r / r_s * (1 + r / r_s) ^ 3)))
  else
    mbind (pget d "r_s") (fun r_s => MOk (fun r => 4 * PI * r ^ 2 / (r / r_s * (1 + r / r_s) ^ 2))).
(** getMassIntegrand, lines 64-72, with the profile models of dens_profs_tools.py lines 22-80. *)
Definition getMassIntegrand (profile : string) (d : pdict) : mres (R -> R) :=
  if string_dec profile "einasto" then
    mbind (pget d "rho_s") (fun rho_s => mbind (pget d "alpha") (fun alpha => mbind (pget d "r_s") (fun r_s =>
    MOk (fun r => 4 * PI * r ^ 2 * getEinastoProf r rho_s alpha r_s))))
  else if string_dec profile "alpha_beta_gamma" then
    mbind (pget d "rho_s") (fun rho_s => mbind (pget d "alpha") (fun alpha => mbind (pget d "beta") (fun beta => mbind (pget d "gamma") (fun gamma => mbind (pget d "r_s") (fun r_s =>
    MOk (fun r => 4 * PI * r ^ 2 * getAlphaBetaGammaProf r rho_s alpha beta gamma r_s))))))
  else if string_dec profile "hernquist" then
    mbind (pget d "rho_s") (fun rho_s => mbind (pget d "r_s") (fun r_s => MOk (fun r => 4 * PI * r ^ 2 * getHernquistProf r rho_s r_s)))
  else
    mbind (pget d "rho_s") (fun rho_s => mbind (pget d "r_s") (fun r_s => MOk (fun r => 4 * PI * r ^ 2 * getNFWProf r rho_s r_s))).

(** ** Coarsening, lines 79-81 *)
(** a[::2]. *)
Fixpoint every2 {A} (l : list A) : list A :=
  match l with [] => [] | [x] => [x] | x :: _ :: l' => x :: every2 l' end.
Definition coarsen {A} (a : list A) : list A :=
  if Nat.odd (length a) then every2 a
  else every2 a ++ match last_ a with MOk x => [x] | MErr _ => [] end.

(** ** Points of a shell: drawUniformFromShell, python_routines.py lines 419-497, dims = 3 *)
Definition pt := (R * R * R)%type.
(** np.hstack((0.0, a)), lines 449-451. *)
Definition stack0 (a : list R) : list R := 0 :: a.
(** scipy's interp1d on the knots j / n of line 448 (linear); x in [0, 1]. The knot interval is found
    from the right, as x[i-1] < x <= x[i]; at the knots both neighbours give the same value. *)
Definition interp1d (y : list R) (n : nat) (x : R) : R :=
  let i := Nat.max 1 (Z.to_nat (up (x * INR n) - (if Req_EM_T (IZR (up (x * INR n) - 1)) (x * INR n) then 1 else 0))) in
  let lo := INR (i - 1) / INR n in let hi := INR i / INR n in
  (nth i y 0 - nth (i - 1) y 0) / (hi - lo) * (x - lo) + nth (i - 1) y 0.
(** A draw: the direction as the angles of lines 483-484 and the number of line 488. *)
Definition shell_point (a b c : list R) (theta phi rand : R) : pt :=
  let n := length a in
  (sin theta * cos phi * interp1d (stack0 a) n rand, sin theta * sin phi * interp1d (stack0 b) n rand, cos theta * interp1d (stack0 c) n rand).
(** np.arctan2 (lines 483, 484) yields an angle of the point (x, y). *)
Definition is_arctan2 (y x t : R) : Prop := x = sqrt (x * x + y * y) * cos t /\ y = sqrt (x * x + y * y) * sin t.
(** u ** (1/3), lines 376 and 462, for u >= 0. *)
Definition cbrt (u : R) : R := if Req_EM_T u 0 then 0 else Rpower u (1 / 3).
(** Lines 457-488. NumPy's generator: seed and next state with the number drawn; [normal3] stands
    for the three normal deviates of line 461 and [u01] for np.random.uniform(0, 1). Line 488 scales
    a number of [0, 1) to [x[k], x[k+1]). *)
Section Rng.
  Variables (St : Type) (seed : nat -> St) (normal3 : St -> pt * St) (u01 : St -> R * St) (arctan2 : R -> R -> R).
  Definition norm3 (p : pt) : R := let '(x, y, z) := p in sqrt (x * x + y * y + z * z).
  Definition scale3 (k : R) (p : pt) : pt := let '(x, y, z) := p in (k * x, k * y, k * z).
  (** Lines 460-463. *)
  Fixpoint ball (N : nat) (st : St) : list pt * St :=
    match N with
    | O => ([], st)
    | S N' => let (x, st1) := normal3 st in let (u, st2) := u01 st1 in
              let (rest, st3) := ball N' st2 in
              (scale3 (cbrt u / norm3 x) x :: rest, st3)
    end.
  (** Line 488. *)
  Fixpoint uniforms (N : nat) (st : St) : list R * St :=
    match N with O => ([], st) | S N' => let (u, st1) := u01 st in let (rest, st2) := uniforms N' st1 in (u :: rest, st2) end.
  (** Lines 479-485. *)
  Definition transformCartToSpher (p : pt) : pt :=
    let '(x, y, z) := p in (sqrt (x * x + y * y + z * z), arctan2 (sqrt (x * x + y * y)) z, arctan2 y x).
  (** The generator state before the call is an argument, the state after it a result. The Cholesky
      factor of lines 469-474 is that of a multiple of the identity: points are multiplied by the
      axis. Errors: shell number out of range, negative number of points (np.zeros). *)
  Definition drawUniformFromShell (a b c : list R) (Nptc : list Z) (k : nat) (st : St) : mres (list pt * St) :=
    mbind (at_ a k) (fun a_val => mbind (at_ c k) (fun _ => mbind (at_ Nptc k) (fun N =>
      if (N <? 0)%Z then MErr MValueError
      else
        let (zs, st1) := ball (Z.to_nat N) (seed k) in
        let xs := map (scale3 a_val) zs in
        let (us, st2) := uniforms (Z.to_nat N) st1 in
        MOk (map (fun p => let '(_, theta, phi) := transformCartToSpher (fst p) in
                           shell_point a b c theta phi ((INR k + snd p) / INR (length a))) (combine xs us), st2)))).
End Rng.

(** inShell, lines 392-417: indices in range, axes not 0. *)
Definition ell_form (X : pt) (a b c : R) : R := let '(x, y, z) := X in (x / a) ^ 2 + (y / b) ^ 2 + (z / c) ^ 2.
Definition inShell (X : pt) (a b c : list R) (k : nat) : bool :=
  if Nat.ltb 0 k then
    (if Rle_dec (ell_form X (nth k a 0) (nth k b 0) (nth k c 0)) 1 then true else false) &&
    (if Rlt_dec 1 (ell_form X (nth (k - 1) a 0) (nth (k - 1) b 0) (nth (k - 1) c 0)) then true else false)
  else (if Rle_dec (ell_form X (nth k a 0) (nth k b 0) (nth k c 0)) 1 then true else false).

(** ** genHalo, lines 16-113, on rank 0 *)
Section Halo.
  (** quad(f, lo, hi)[0]. *)
  Variable quad : (R -> R) -> R -> R -> R.
  (** Lines 75-76 and 82-83. *)
  Definition first_count (f : R -> R) (tot_mass res : R) (a : list R) : mres Z :=
    mbind (at_ a 0) (fun a0 => mbind (at_ a 1) (fun a1 => mbind (pydiv (res * quad f a0 a1) tot_mass) (fun x => MOk (py_round x)))).
  (** Lines 78-86, [fuel] more passes of the loop; count_it = 1001 - fuel at the test of line 84 in
      a pass that starts with fuel = S _, so that the pass with no fuel left raises ValueError. *)
  Fixpoint coarsen_loop (f : R -> R) (tot_mass res : R) (fuel : nat) (a b c : list R) (N1 : Z) : mres (list R * list R * list R * Z) :=
    if (N1 =? 0)%Z then
      let a' := coarsen a in let b' := coarsen b in let c' := coarsen c in
      mbind (first_count f tot_mass res a') (fun N1' =>
        match fuel with
        | O => MErr MValueError
        | S fuel' => coarsen_loop f tot_mass res fuel' a' b' c' N1'
        end)
    else MOk (a, b, c, N1).
  (** Lines 91-96; 1e-8 is [eps0]. *)
  Definition eps0 : R := / 10 ^ 8.
  Definition shell_mass (f : R -> R) (a : list R) (k : nat) : R :=
    match k with O => quad f eps0 (nth 0 a 0) | S k' => quad f (nth k' a 0) (nth k a 0) end.
  Fixpoint mapM {A B} (f : A -> mres B) (l : list A) : mres (list B) :=
    match l with [] => MOk [] | x :: l' => mbind (f x) (fun y => mbind (mapM f l') (fun ys => MOk (y :: ys))) end.
  Definition counts (f : R -> R) (a : list R) (N1 : Z) : mres (list Z) :=
    mapM (fun k => mbind (pydiv (IZR N1 * shell_mass f a k) (quad f (nth 0 a 0) (nth 1 a 0))) (fun x => MOk (py_round x))) (seq 0 (length a)).
  Record halo := mkHalo { points : list pt; mass_dm : R; h_rho_s : R; h_axes : list R * list R * list R; h_Nptc : list Z; pars_after : pdict }.
  (** [draw]: drawUniformFromShell as run by a worker, which may fail. h_axes, h_Nptc (not returned by
      the code) and pars_after, the caller's dictionary after the call, are kept for the theorems.
      int32 counts do not overflow. *)
  Variable draw : list R -> list R -> list R -> list Z -> nat -> mres (list pt).
  Definition genHalo (tot_mass res : R) (model_pars : pdict) (profile : string) (a b c : list R) : mres halo :=
    mbind (getMassIntegrand0 profile model_pars) (fun f0 =>
    mbind (last_ a) (fun a_last =>
    mbind (pydiv tot_mass (quad f0 eps0 a_last)) (fun rho_s =>
    let pars := pset model_pars "rho_s" rho_s in
    mbind (getMassIntegrand profile pars) (fun f =>
    mbind (first_count f tot_mass res a) (fun N1 =>
    mbind (coarsen_loop f tot_mass res 1001 a b c N1) (fun r =>
    let '(a, b, c, N1) := r in
    mbind (counts f a N1) (fun Nptc =>
    mbind (mapM (draw a b c Nptc) (seq 0 (length Nptc))) (fun results =>
    let pts := concat results in
    mbind (last_ a) (fun a_last =>
    mbind (pydiv (quad f eps0 a_last) (INR (length pts))) (fun m =>
    MOk (mkHalo pts m rho_s (a, b, c) Nptc pars))))))))))).
End Halo.

(** ** fibonacci_sphere and fibonacci_ellipsoid, python_routines.py lines 261-285 and 308-339 *)
(** Lines 275-283 for one i; float(samples - 1) = 0 raises ZeroDivisionError. The argument of the
    root is not negative for 0 <= i < samples. *)
Definition fib_point (samples i : nat) : mres pt :=
  mbind (pydiv (INR i) (IZR (Z.of_nat samples - 1))) (fun t =>
    let y := 1 - t * 2 in
    let radius := sqrt (1 - y * y) in
    let theta := PI * (3 - sqrt 5) * INR i in
    MOk (cos theta * radius, y, sin theta * radius)).
Definition fibonacci_sphere (samples : nat) : mres (list pt) := mapM (fib_point samples) (seq 0 samples).
Definition fibonacci_ellipsoid (a b c : R) (samples : nat) : mres (list pt) :=
  mapM (fun i => mbind (fib_point samples i) (fun p => let '(x, y, z) := p in MOk (x * a, y * b, z * c))) (seq 0 samples).

(** ** drawUniformFromEllipsoid, lines 341-390 *)
(** scipy's cholesky(Sigma, lower=True) and inv, for 3 by 3 matrices as functions of two indices. *)
Definition mat := nat -> nat -> R.
Definition sum3 (f : nat -> R) : R := f 0%nat + f 1%nat + f 2%nat.
Definition mmul (A B : mat) : mat := fun i j => sum3 (fun k => A i k * B k j).
Definition transp (A : mat) : mat := fun i j => A j i.
Definition is_cholesky (S L : mat) : Prop :=
  (forall i j, (i < j < 3)%nat -> L i j = 0) /\ (forall i, (i < 3)%nat -> 0 < L i i) /\ (forall i j, (i < 3)%nat -> (j < 3)%nat -> mmul L (transp L) i j = S i j).
Definition is_inv (A B : mat) : Prop := forall i j, (i < 3)%nat -> (j < 3)%nat -> mmul B A i j = if Nat.eqb i j then 1 else 0.
Definition mvec (A : mat) (p : pt) : pt := let '(x, y, z) := p in
  (A 0%nat 0%nat * x + A 0%nat 1%nat * y + A 0%nat 2%nat * z, A 1%nat 0%nat * x + A 1%nat 1%nat * y + A 1%nat 2%nat * z, A 2%nat 0%nat * x + A 2%nat 1%nat * y + A 2%nat 2%nat * z).
(** Line 383. *)
Definition Sigma (a b c : R) : mat := fun i j => if Nat.eqb i j then match i with 0%nat => 1 / a ^ 2 | 1%nat => 1 / b ^ 2 | _ => 1 / c ^ 2 end else 0.
(** c is an array or None (dims = 2, as documented); c[ell_nb] of None is a TypeError (line 369).
    [draws] are the deviates of lines 375-376, a normal vector and a uniform number per point; the
    inverse of line 389 is an argument. For arrays dims is 3. *)
Definition drawUniformFromEllipsoid (inverse : R -> R -> R -> mat) (a b : list R) (c : option (list R)) (Nptc : list Z) (k : nat) (draws : nat -> pt * R) : mres (list pt * nat) :=
  mbind (at_ a k) (fun a_val => mbind (at_ b k) (fun b_val =>
  mbind (match c with None => MErr MTypeError | Some c => at_ c k end) (fun c_val => mbind (at_ Nptc k) (fun N =>
    if (N <? 0)%Z then MErr MValueError
    else MOk (map (fun i => let (x, u) := draws i in mvec (inverse a_val b_val c_val) (scale3 (cbrt u / norm3 x) x)) (seq 0 (Z.to_nat N)), k))))).
