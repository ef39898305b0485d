(** Model of the density figures: plotDensProfs of cosmic_profiles/dens_profs/dens_profs_classes.pyx,
    _plotDensProfsBase of common/cosmic_base_class.pyx and drawDensProfs of
    dens_profs/dens_profs_tools.py, up to the numbers handed to matplotlib. Colours, legends and
    file names are left out (file names: NameModel.v). Densities are finite numbers and every
    array has as many columns as there are radii. *)
From Coq Require Import Reals String Bool ZArith List.
From Verif Require Import XR ConfigModel CatModel DensModel FitModel StatModel.
Import ListNotations.
Local Open Scope R_scope.

(** What one figure shows, dens_profs_tools.py lines 180-182 and 205-207: the solid line, the two
    edges of the band and the dashed curve. *)
Record figure := mkFigure { line : list xr; low : list xr; high : list xr; curve : list xr }.

(** Lines 144, 152, 191 and 197: the densities at radius i of the objects [objs]. *)
Definition column (rows : list (list R)) (objs : list nat) (i : nat) : list R := map (fun p => nth i (nth p rows []) 0) objs.
(** Lines 145-147 and 192-194 for one radius: median, err_low, err_high. *)
Definition prof_median (z : list R) : xr := fst (fst (median_quantile z)).
Definition err_low (z : list R) : xr := snd (fst (median_quantile z)).
Definition err_high (z : list R) : xr := snd (median_quantile z).
(** Lines 161-165: dens_current_over_target. *)
Definition fig_factor (c : config) : R + err :=
  match internal c with
  | inr e => inr e
  | inl (l, m, _) =>
      match pydiv (m / MASS_UNIT) (l ^ 3), pydiv (out_m c) (out_l c ^ 3) with
      | inl current, inl target => pydiv current target
      | _, _ => inr ZeroDivisionError
      end
  end.
(** Lines 176 and 202: rho_s is the first of the best-fit parameters. *)
Definition scale_rho (f : R) (pars : list xr) : list xr :=
  match pars with rho :: rest => xmul rho (Fin f) :: rest | [] => [] end.
(** All entries as real numbers. *)
Fixpoint finite (l : list xr) : option (list R) :=
  match l with
  | [] => Some []
  | Fin x :: l' => match finite l' with Some r => Some (x :: r) | None => None end
  | _ :: _ => None
  end.
(** Lines 180 and 205: a point of the dashed curve. A failed fit has NaN for all parameters and
    gives NaN; infinite parameters are not distinguished from it. *)
Definition curve_point (m : mdict) (pars : list xr) (r : R) : xr :=
  match finite pars with
  | Some ps => match model_value m ps r with Some v => Fin v | None => NaN end
  | None => NaN
  end.

(** One figure: lines 142-182 for all objects, lines 189-207 for a group. [objs] are the objects
    of the line, [fobjs] the rows of dens_profs_fit that are used. Without objects np.average and
    with it the dashed curve are NaN whatever the fit returns. *)
Inductive drawn (minimize : minimiser) (f : R) (m : mdict) (ROfit RO : list R) (densfit dens : list (list R)) (r200s : list R)
  (objs fobjs : list nat) : figure -> Prop :=
| drawn_some pars : objs <> [] ->
    fitDensProf minimize ROfit m (map (fun i => prof_median (column densfit fobjs i)) (seq 0 (length ROfit)))
      (mean (map (fun p => nth p r200s 0) objs)) 0 (pars, 0%nat) ->
    drawn minimize f m ROfit RO densfit dens r200s objs fobjs
      (mkFigure
         (map (fun i => xmul (prof_median (column dens objs i)) (Fin f)) (seq 0 (length RO)))
         (map (fun i => xmul (xsub (prof_median (column dens objs i)) (err_low (column dens objs i))) (Fin f)) (seq 0 (length RO)))
         (map (fun i => xmul (xadd (prof_median (column dens objs i)) (err_high (column dens objs i))) (Fin f)) (seq 0 (length RO)))
         (map (fun x => curve_point m (scale_rho f pars) (x * mean (map (fun p => nth p r200s 0) objs))) ROfit))
| drawn_none : objs = [] ->
    drawn minimize f m ROfit RO densfit dens r200s objs fobjs
      (mkFigure (map (fun _ => NaN) RO) (map (fun _ => NaN) RO) (map (fun _ => NaN) RO) (map (fun _ => NaN) ROfit)).

(** The objects of each figure: all of them (lines 142-182), then group by group (lines
    188-189). The rows for the fit of the first figure are all rows of dens_profs_fit (lines
    150-153), of a group those with the numbers of its objects (line 197). *)
Definition figure_objs (masses : list R) (sp : split unit) (n : nat) : list (list nat) :=
  seq 0 n :: map (group_members masses (edges sp)) (seq 0 (length (m_groups sp))).
Definition figure_fobjs (masses : list R) (sp : split unit) (nfit : nat) : list (list nat) :=
  seq 0 nfit :: map (group_members masses (edges sp)) (seq 0 (length (m_groups sp))).

(** Errors: those of the other models, and IndexError. *)
Inductive ferr := FE (e : err) | FIndexError.

(** drawDensProfs, lines 82-213. [masses] are obj_masses times MASS_UNIT; centres do not enter.
    IndexError: a group has an object without a row in dens_profs_fit (line 197). *)
Inductive drawDensProfs (minimize : minimiser) (c : config) (m : mdict) (ROfit RO : list R) (densfit dens : list (list R))
  (r200s masses : list R) (args : list nat) (nb : nat) : list figure + ferr -> Prop :=
| dd_bins : M_split tt masses [] None args nb = None ->
    drawDensProfs minimize c m ROfit RO densfit dens r200s masses args nb (inr (FE ZeroDivisionError))
| dd_unit e sp : M_split tt masses [] None args nb = Some sp -> fig_factor c = inr e ->
    drawDensProfs minimize c m ROfit RO densfit dens r200s masses args nb (inr (FE e))
| dd_index f sp objs p : M_split tt masses [] None args nb = Some sp -> fig_factor c = inl f ->
    In objs (tl (figure_objs masses sp (length r200s))) -> In p objs -> (length densfit <= p)%nat ->
    drawDensProfs minimize c m ROfit RO densfit dens r200s masses args nb (inr FIndexError)
| dd_ok f sp figs : M_split tt masses [] None args nb = Some sp -> fig_factor c = inl f ->
    (forall objs p, In objs (tl (figure_objs masses sp (length r200s))) -> In p objs -> (p < length densfit)%nat) ->
    Forall2 (fun g fig => drawn minimize f m ROfit RO densfit dens r200s (fst g) (snd g) fig)
      (combine (figure_objs masses sp (length r200s)) (figure_fobjs masses sp (length densfit))) figs ->
    drawDensProfs minimize c m ROfit RO densfit dens r200s masses args nb (inl figs).

(** Densities in another unit: lines 1114-1119 of cosmic_base_class.pyx. *)
Definition in_unit (f : R) (rows : list (list R)) : list (list R) := map (map (fun x => x * f)) rows.

(** plotDensProfs, dens_profs_classes.pyx lines 214-235, and _plotDensProfsBase,
    cosmic_base_class.pyx lines 1083-1126. [masses] are the masses of the selected objects
    (_getMassesCenters) times MASS_UNIT; [args] is what argsort gives for them. Only the length
    of dens_profs is compared with the selection (line 1110). *)
Inductive plotDensProfs (minimize : minimiser) (c : config) (r200 : list R) (nobj : nat) (masses : list R) (args : list nat)
  (dens : list (list R)) (RO : list R) (densfit : list (list R)) (ROfit : list R) (m : mdict) (nb : nat) (sel : list Z) : list figure + ferr -> Prop :=
| pp_assert : checkDensFitMethod m = false -> plotDensProfs minimize c r200 nobj masses args dens RO densfit ROfit m nb sel (inr (FE AssertionError))
| pp_len : checkDensFitMethod m = true -> length dens <> length sel ->
    plotDensProfs minimize c r200 nobj masses args dens RO densfit ROfit m nb sel (inr (FE ValueError))
| pp_unit e : checkDensFitMethod m = true -> length dens = length sel -> dens_from_out c = inr e ->
    plotDensProfs minimize c r200 nobj masses args dens RO densfit ROfit m nb sel (inr (FE e))
| pp_sel f : checkDensFitMethod m = true -> length dens = length sel -> dens_from_out c = inl f -> valid_numbers sel nobj = false ->
    plotDensProfs minimize c r200 nobj masses args dens RO densfit ROfit m nb sel (inr (FE ValueError))
| pp_draw f o : checkDensFitMethod m = true -> length dens = length sel -> dens_from_out c = inl f -> valid_numbers sel nobj = true ->
    drawDensProfs minimize c m ROfit RO (in_unit f densfit) (in_unit f dens) (pick r200 sel) masses args nb o ->
    plotDensProfs minimize c r200 nobj masses args dens RO densfit ROfit m nb sel o.
