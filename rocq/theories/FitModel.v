(** Model of density profile fitting: cosmic_profiles/dens_profs/dens_profs_tools.py (profile
    models, fitDensProf, fitDensProfHelper), checkDensFitMethod of common/python_routines.py and
    the unit handling around them in common/cosmic_base_class.pyx and
    dens_profs/dens_profs_classes.pyx.
    Radii are positive real numbers; r = 0, where NumPy would give infinities, is left out.
    scipy.optimize.minimize is an arbitrary relation between its arguments and its result; only
    ValueError, the one exception that is caught, is modelled (result None). *)
From Coq Require Import Reals String Bool ZArith QArith Permutation List.
From Verif Require Import XR ConfigModel CatModel ParModel DensModel.
Import ListNotations.
Close Scope Q_scope.
Local Open Scope string_scope.
Local Open Scope R_scope.

(** ** Profile models *)
(** Floating point power of a positive number is Rpower. *)
(** getEinastoProf, lines 22-35. *)
Definition getEinastoProf (r rho_s alpha r_s : R) : R :=
  rho_s * exp (- 2 / alpha * (Rpower (r / r_s) alpha - 1)).
(** getAlphaBetaGammaProf, lines 37-52. *)
Definition getAlphaBetaGammaProf (r rho_s alpha beta gamma r_s : R) : R :=
  rho_s / (Rpower (r / r_s) gamma * Rpower (1 + Rpower (r / r_s) alpha) ((beta - gamma) / alpha)).
(** getNFWProf, lines 54-66. *)
Definition getNFWProf (r rho_s r_s : R) : R := rho_s / (r / r_s * (1 + r / r_s) ^ 2).
(** getHernquistProf, lines 68-80. *)
Definition getHernquistProf (r rho_s r_s : R) : R := rho_s / (r / r_s * (1 + r / r_s) ^ 3).

(** ** The method dictionary *)
Inductive mval := MStr (s : string) | MNum (x : R).
Definition mdict := list (string * mval).
Fixpoint lookup (m : mdict) (k : string) : option mval :=
  match m with
  | [] => None
  | (k', v) :: m' => if string_dec k k' then Some v else lookup m' k
  end.
(** k in method. *)
Definition mem_key (m : mdict) (k : string) : bool := match lookup m k with Some _ => true | None => false end.
(** method[k] == s. *)
Definition is_str (v : option mval) (s : string) : bool :=
  match v with Some (MStr t) => if string_dec t s then true else false | _ => false end.
(** method.keys() <= allowed. *)
Definition keys_in (m : mdict) (allowed : list string) : bool :=
  forallb (fun e => if in_dec string_dec (fst e) allowed then true else false) m.

(** checkDensFitMethod, python_routines.py lines 678-696; true = no assertion fails. That method
    is a dict (line 683) is a matter of types here. *)
Definition checkDensFitMethod (m : mdict) : bool :=
  mem_key m "profile" &&
  (is_str (lookup m "profile") "einasto" || is_str (lookup m "profile") "alpha_beta_gamma" ||
   is_str (lookup m "profile") "hernquist" || is_str (lookup m "profile") "nfw") &&
  (if is_str (lookup m "profile") "einasto"
   then keys_in m ["profile"; "rho_s"; "alpha"; "r_s"; "min_method"]
   else if is_str (lookup m "profile") "alpha_beta_gamma"
   then keys_in m ["profile"; "rho_s"; "alpha"; "beta"; "gamma"; "r_s"; "min_method"]
   else keys_in m ["profile"; "rho_s"; "r_s"; "min_method"]) &&
  (if mem_key m "min_method"
   then existsb (is_str (lookup m "min_method")) ["Nelder-Mead"; "L-BFGS-B"; "TNC"; "SLSQP"; "Powell"; "trust-constr"]
   else true).

(** ** The objective *)
(** NumPy's logarithm. *)
Definition xlog (a : xr) : xr :=
  match a with
  | Fin r => if Rlt_dec 0 r then Fin (ln r) else if Req_EM_T r 0 then MInf else NaN
  | PInf => PInf
  | _ => NaN
  end.

(** getModelParsDict, lines 215-225, followed by the model of lines 228-229. None stands for the
    ValueError of unpacking a vector of the wrong length. *)
Definition model_value (m : mdict) (pars : list R) (r : R) : option R :=
  if is_str (lookup m "profile") "einasto" then
    match pars with [rho_s; alpha; r_s] => Some (getEinastoProf r rho_s alpha r_s) | _ => None end
  else if is_str (lookup m "profile") "alpha_beta_gamma" then
    match pars with [rho_s; alpha; beta; gamma; r_s] => Some (getAlphaBetaGammaProf r rho_s alpha beta gamma r_s) | _ => None end
  else if is_str (lookup m "profile") "nfw" then
    match pars with [rho_s; r_s] => Some (getNFWProf r rho_s r_s) | _ => None end
  else
    match pars with [rho_s; r_s] => Some (getHernquistProf r rho_s r_s) | _ => None end.

(** toMinimize, lines 227-230. The points are pairs (radius, median). *)
Definition toMinimize (m : mdict) (points : list (R * xr)) (pars : list R) : option xr :=
  let n := Fin (INR (length points)) in
  fold_left (fun acc p =>
      match acc, model_value m pars (fst p) with
      | Some s, Some v => Some (xadd s (xdiv (xsq (xsub (xlog (snd p)) (xlog (Fin v)))) n))
      | _, _ => None
      end) points (Some (Fin 0)).

(** ** fitDensProf, lines 232-323 *)
(** Lines 267-278, 283-306, 311-316: the bounds of a parameter. Values other than numbers are not
    modelled. *)
Definition fixed (m : mdict) (k : string) : option R :=
  match lookup m k with Some (MNum v) => Some v | _ => None end.
Definition bound (m : mdict) (k : string) (lower : R) : xr * xr :=
  match fixed m k with Some v => (Fin v, Fin v) | None => (Fin lower, PInf) end.
(** The bounds argument of lines 280, 308, 318. *)
Definition bounds (m : mdict) : list (xr * xr) :=
  if is_str (lookup m "profile") "einasto" then
    [(Fin (/ 10 ^ 7), PInf); bound m "alpha" (/ 10 ^ 10); bound m "r_s" (/ 10 ^ 5)]
  else if is_str (lookup m "profile") "alpha_beta_gamma" then
    [(Fin (/ 10 ^ 7), PInf); bound m "alpha" (/ 10 ^ 5); bound m "beta" (/ 10 ^ 5); bound m "gamma" (/ 10 ^ 5); bound m "r_s" (/ 10 ^ 5)]
  else [(Fin (/ 10 ^ 7), PInf); bound m "r_s" (/ 10 ^ 5)].
(** Lines 279, 307, 317. *)
Definition iguess (m : mdict) (r200 : R) : list R :=
  if is_str (lookup m "profile") "einasto" then [1 / 10; 18 / 100; r200 / 5]
  else if is_str (lookup m "profile") "alpha_beta_gamma" then [1 / 10; 1; 1; 1; r200 / 5]
  else [1 / 10; r200 / 5].
(** Lines 255-258. *)
Definition min_method (m : mdict) : string :=
  match lookup m "min_method" with Some (MStr s) => s | _ => "Powell" end.

(** np.average without weights. *)
Definition average (l : list xr) : xr := xdiv (xsum l) (Fin (INR (length l))).

(** What scipy.optimize.minimize is given: method, objective, initial guess, bounds. *)
Definition minimiser := string -> (list R -> option xr) -> list R -> list (xr * xr) -> option (list xr) -> Prop.

(** Lines 260-263: drop NaN entries; lines 280, 308, 318: rescale. *)
Definition kept (ROverR200 : list R) (median : list xr) (r200 : R) : list (R * xr) :=
  filter (fun p => negb (xisnan (snd p))) (combine (map (fun x => x * r200) ROverR200) median).
Definition rescaled_points (pts : list (R * xr)) : list (R * xr) :=
  map (fun p => (fst p, xdiv (snd p) (average (map snd pts)))) pts.

Inductive fitDensProf (minimize : minimiser) (ROverR200 : list R) (m : mdict) : list xr -> R -> nat -> list xr * nat -> Prop :=
| fit_found median r200 nb rho rest :
    minimize (min_method m) (toMinimize m (rescaled_points (kept ROverR200 median r200))) (iguess m r200) (bounds m) (Some (rho :: rest)) ->
    (* line 320 *)
    fitDensProf minimize ROverR200 m median r200 nb (xmul rho (average (map snd (kept ROverR200 median r200))) :: rest, nb)
| fit_value_error median r200 nb :
    minimize (min_method m) (toMinimize m (rescaled_points (kept ROverR200 median r200))) (iguess m r200) (bounds m) None ->
    (* lines 321-322 *)
    fitDensProf minimize ROverR200 m median r200 nb (map (fun _ => NaN) (iguess m r200), nb).

(** ** fitDensProfHelper, lines 325-361 *)
(** Number of columns, lines 342-347. *)
Definition ncols (m : mdict) : nat :=
  if is_str (lookup m "profile") "einasto" then 3%nat
  else if is_str (lookup m "profile") "alpha_beta_gamma" then 5%nat else 2%nat.
(** Lines 354-355: the pool runs one job per object; the results may come back in any order. *)
Inductive pool_results (minimize : minimiser) (ROverR200 : list R) (m : mdict) (dens : list (list xr)) (r200s : list R)
  : list (list xr * nat) -> Prop :=
| pool_done rs rs' :
    Forall2 (fun p r => fitDensProf minimize ROverR200 m (nth p dens []) (nth p r200s 0) p r) (seq 0 (length dens)) rs ->
    Permutation rs rs' -> pool_results minimize ROverR200 m dens r200s rs'.
(** Lines 356-359. *)
Inductive fitDensProfHelper (minimize : minimiser) (dens : list (list xr)) (ROverR200 : list R) (r200s : list R) (m : mdict)
  : list (list xr) -> Prop :=
| helper_done results :
    pool_results minimize ROverR200 m dens r200s results ->
    fitDensProfHelper minimize dens ROverR200 r200s m
      (fold_left (fun rows r => put rows (snd r) (fst r)) results (repeat (repeat (Fin 0) (ncols m)) (length dens))).

(** ** Units *)
(** MASS_UNIT, cosmic_base_class.pyx line 63. *)
Definition MASS_UNIT : R := 10 ^ 10.
(** x**(-3). *)
Definition pow_m3 (x : R) : R + err := if Req_EM_T x 0 then inr ZeroDivisionError else inl (/ x ^ 3).
(** Multiplication of arrays by m*l**(-3): NumPy, elementwise. *)
Definition scale_rows (f : R) (rows : list (list xr)) : list (list xr) := map (map (fun x => xmul x (Fin f))) rows.
(** cosmic_base_class.pyx lines 949-953: from internal density units to output units. [dens] is
    what the binning routines return times MASS_UNIT. *)
Definition dens_to_out (c : config) : R + err :=
  match internal c with
  | inr e => inr e
  | inl (l, m, _) =>
      match pydiv l (out_l c), pydiv (m / MASS_UNIT) (out_m c) with
      | inl fl, inl fm => match pow_m3 fl with inl f3 => inl (fm * f3) | inr e => inr e end
      | _, _ => inr ZeroDivisionError
      end
  end.
(** Lines 1024-1028 and 1070-1074: from output units to internal units. *)
Definition dens_from_out (c : config) : R + err :=
  match internal c with
  | inr e => inr e
  | inl (l, m, _) =>
      match pydiv (out_l c) l, pydiv (out_m c) (m / MASS_UNIT) with
      | inl fl, inl fm => match pow_m3 fl with inl f3 => inl (fm * f3) | inr e => inr e end
      | _, _ => inr ZeroDivisionError
      end
  end.
(** Lines 1033, 1042. *)
Definition len_to_out (c : config) : R + err :=
  match internal c with inr e => inr e | inl (l, _, _) => pydiv l (out_l c) end.

(** r200.base[obj_numbers]. *)
Definition pick (r200 : list R) (sel : list Z) : list R := map (fun z => nth (Z.to_nat z) r200 0) sel.
(** isValidSelection on integers. *)
Definition valid_numbers (sel : list Z) (nobj : nat) : bool :=
  match isValidSelection (map inject_Z sel) (Z.of_nat nobj) with inl _ => true | inr _ => false end.

(** Column idx multiplied by f (line 1042); column 0 by g (line 1035). *)
Definition scale_fit (m : mdict) (g f : R) (row : list xr) : list xr :=
  let row0 := put row 0 (xmul (nth 0 row NaN) (Fin g)) in
  put row0 (ncols m - 1) (xmul (nth (ncols m - 1) row0 NaN) (Fin f)).

Inductive outcome (X : Type) := OOk (x : X) | OErr (e : err).
Arguments OOk {X} x.
Arguments OErr {X} e.

(** _fitDensProfsBase, cosmic_base_class.pyx lines 1001-1045. r200 is in internal units; the
    selection is a list of integers. *)
Inductive fitDensProfsBase (minimize : minimiser) (c : config) (r200 : list R) (nobj : nat) (dens : list (list xr)) (ROverR200 : list R)
    (m : mdict) (sel : list Z) : outcome (list (list xr)) -> Prop :=
| fb_len : length dens <> length sel -> fitDensProfsBase minimize c r200 nobj dens ROverR200 m sel (OErr ValueError)
| fb_unit e : length dens = length sel -> dens_from_out c = inr e -> fitDensProfsBase minimize c r200 nobj dens ROverR200 m sel (OErr e)
| fb_sel f : length dens = length sel -> dens_from_out c = inl f -> valid_numbers sel nobj = false ->
    fitDensProfsBase minimize c r200 nobj dens ROverR200 m sel (OErr ValueError)
| fb_out f e rows : length dens = length sel -> dens_from_out c = inl f -> valid_numbers sel nobj = true ->
    fitDensProfHelper minimize (scale_rows f dens) ROverR200 (pick r200 sel) m rows ->
    dens_to_out c = inr e -> fitDensProfsBase minimize c r200 nobj dens ROverR200 m sel (OErr e)
| fb_ok f g fl rows : length dens = length sel -> dens_from_out c = inl f -> valid_numbers sel nobj = true ->
    fitDensProfHelper minimize (scale_rows f dens) ROverR200 (pick r200 sel) m rows ->
    dens_to_out c = inl g -> len_to_out c = inl fl ->
    fitDensProfsBase minimize c r200 nobj dens ROverR200 m sel (OOk (map (scale_fit m g fl) rows)).

(** fitDensProfs, dens_profs_classes.pyx lines 175-194: the structured array. Fields that the
    profile does not have are None. *)
Record fitrow := mkFit { f_rho_s : xr; f_alpha : option xr; f_beta : option xr; f_gamma : option xr; f_r_s : xr; f_is_conv : bool }.
Definition to_fields (m : mdict) (row : list xr) : fitrow :=
  let col i := nth i row NaN in
  if is_str (lookup m "profile") "einasto" then
    mkFit (col 0%nat) (Some (col 1%nat)) None None (col 2%nat) (negb (xisnan (col 1%nat)))
  else if is_str (lookup m "profile") "nfw" || is_str (lookup m "profile") "hernquist" then
    mkFit (col 0%nat) None None None (col 1%nat) (negb (xisnan (col 1%nat)))
  else mkFit (col 0%nat) (Some (col 1%nat)) (Some (col 2%nat)) (Some (col 3%nat)) (col 4%nat) (negb (xisnan (col 1%nat))).
Inductive fitDensProfs (minimize : minimiser) (c : config) (r200 : list R) (nobj : nat) (dens : list (list xr)) (ROverR200 : list R)
    (m : mdict) (sel : list Z) : outcome (list fitrow) -> Prop :=
| fp_assert : checkDensFitMethod m = false -> fitDensProfs minimize c r200 nobj dens ROverR200 m sel (OErr AssertionError)
| fp_err e : checkDensFitMethod m = true -> fitDensProfsBase minimize c r200 nobj dens ROverR200 m sel (OErr e) ->
    fitDensProfs minimize c r200 nobj dens ROverR200 m sel (OErr e)
| fp_ok rows : checkDensFitMethod m = true -> fitDensProfsBase minimize c r200 nobj dens ROverR200 m sel (OOk rows) ->
    fitDensProfs minimize c r200 nobj dens ROverR200 m sel (OOk (map (to_fields m) rows)).

(** estConcentrations, dens_profs_classes.pyx lines 196-212, _estConcentrationsBase,
    cosmic_base_class.pyx lines 1047-1081, _getConcentrationsBase, lines 785-804. *)
Inductive estConcentrations (minimize : minimiser) (c : config) (r200 : list R) (nobj : nat) (dens : list (list xr)) (ROverR200 : list R)
    (m : mdict) (sel : list Z) : outcome (list xr) -> Prop :=
| ec_assert : checkDensFitMethod m = false -> estConcentrations minimize c r200 nobj dens ROverR200 m sel (OErr AssertionError)
| ec_len : checkDensFitMethod m = true -> length dens <> length sel -> estConcentrations minimize c r200 nobj dens ROverR200 m sel (OErr ValueError)
| ec_unit e : checkDensFitMethod m = true -> length dens = length sel -> dens_from_out c = inr e ->
    estConcentrations minimize c r200 nobj dens ROverR200 m sel (OErr e)
| ec_sel f : checkDensFitMethod m = true -> length dens = length sel -> dens_from_out c = inl f -> valid_numbers sel nobj = false ->
    estConcentrations minimize c r200 nobj dens ROverR200 m sel (OErr ValueError)
| ec_ok f rows : checkDensFitMethod m = true -> length dens = length sel -> dens_from_out c = inl f -> valid_numbers sel nobj = true ->
    fitDensProfHelper minimize (scale_rows f dens) ROverR200 (pick r200 sel) m rows ->
    estConcentrations minimize c r200 nobj dens ROverR200 m sel
      (OOk (map (fun '(r, row) => xdiv (Fin r) (nth (ncols m - 1) row NaN)) (combine (pick r200 sel) rows))).

(** ** checkKatzConfig, python_routines.py lines 656-676 *)
(** Values a dictionary may hold. An array is any object with a length. *)
Inductive kval := KBool (b : bool) | KNpBool (b : bool) | KInt (z : Z) | KFloat (x : R) | KArr (l : list R).
Definition kdict := list (string * kval).
Fixpoint klookup (d : kdict) (k : string) : option kval :=
  match d with [] => None | (k', v) :: d' => if string_dec k k' then Some v else klookup d' k end.
(** np.float64 of a scalar (line 673). *)
Definition to_float (v : kval) : option R :=
  match v with
  | KBool b | KNpBool b => Some (if b then 1 else 0)
  | KInt z => Some (IZR z)
  | KFloat x => Some x
  | KArr _ => None
  end.
(** Truncation towards zero. *)
Definition Ztrunc (x : R) : Z := if Rle_dec 0 x then Int_part x else (- Int_part (- x))%Z.
(** np.int32 of a scalar (lines 674-675). Values outside the 32-bit range are not modelled. *)
Definition to_int (v : kval) : option Z :=
  match v with
  | KBool b | KNpBool b => Some (if b then 1 else 0)%Z
  | KInt z => Some z
  | KFloat x => Some (Ztrunc x)
  | KArr _ => None
  end.
Record katz := mkKatz { k_RO : list R; k_TOL : R; k_WALL : Z; k_MIN : Z; k_REDUCED : bool; k_SHELL : bool }.
(** KTypeError is raised by the callers, whose arguments are typed, when np.float64 or np.int32
    have turned a field into an array. *)
Inductive kerr := KKeyError | KAssertionError | KTypeError.
Definition checkKatzConfig (d : kdict) : katz + kerr :=
  match klookup d "ROverR200", klookup d "IT_TOL", klookup d "IT_WALL", klookup d "IT_MIN", klookup d "REDUCED", klookup d "SHELL_BASED" with
  | Some ro, Some tol, Some wall, Some imin, Some red, Some shell =>
      match shell with
      | KBool sb =>
          match red with
          | KBool rb =>
              match ro with
              | KArr l =>
                  match to_float tol, to_int wall, to_int imin with
                  | Some t, Some w, Some i => inl (mkKatz l t w i rb sb)
                  | _, _, _ => inr KTypeError
                  end
              | _ => inr KAssertionError
              end
          | _ => inr KAssertionError
          end
      | _ => inr KAssertionError
      end
  | _, _, _, _, _, _ => inr KKeyError
  end.
