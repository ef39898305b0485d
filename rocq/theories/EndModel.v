(** * Whole calls on an object built from the user's arrays

    shape_profs/shape_profs_classes.pyx: DensShapeProfs.__init__ (lines 466-514), getShapeCatLocal (75-109) and
    getShapeCatGlobal (111-144); dens_profs/dens_profs_classes.pyx: getMassesCenters (96-124), and
    common/cosmic_base_class.pyx: _estDensProfsBase (892-955) with direct binning in spheres or with
    kernels. The pieces are
    those of CatModel, ConfigModel, GeoModel, ShapeModel and DensModel. Rank 0, and no dumped catalogue
    exists (line 120; see C38 for what happens otherwise). Selection arrays have an integer type. *)
From Coq Require Import List Reals ZArith QArith Bool.
From Verif Require Import XR ConfigModel CatModel GeoModel ShapeModel ShapeMoveModel DensModel FitModel.
Import ListNotations.
Local Open Scope R_scope.

(** Arguments of DensShapeProfs, line 479; CENTER is 'mode' or not. *)
Record args := mkArgs { a_xyz : list vec; a_masses : list R; a_idx : idxarg; a_r200 : list R; a_box : R; a_minp : Z; a_kind : center_kind }.
(** The attributes used by the methods, cosmic_base_class.pyx 56-57 and dens_profs_classes.pyx 54-58. *)
Record direct := mkDirect { d_xyz : list vec; d_masses : list R; d_cat : list nat; d_r200 : list R; d_sizes : list nat; d_box : R; d_kind : center_kind }.
(** Exceptions. *)
Inductive eerr := EAssertion | EIndex | EValue | EZeroDivision | ERecursion.

(** Lines 489-514. If several exceptions are possible the model names one of them. *)
Definition make (c : config) (a : args) : direct + eerr :=
  if negb (Nat.eqb (length (a_xyz a)) (length (a_masses a))) then inr EAssertion
  else match internal c with
       | inr _ => inr EZeroDivision
       | inl (li, mi, _) =>
         match pydiv (in_m c) mi, pydiv (in_l c) li with
         | inl fm, inl fl =>
           match construct_cat (fun x => x * fl) (a_idx a) (a_r200 a) (a_minp a) with
           | None => inr EIndex
           | Some (cat, r, sizes) =>
             inl (mkDirect (map (vscale fl) (a_xyz a)) (map (fun x => x * fm) (a_masses a)) cat r sizes (a_box a * fl) (a_kind a))
           end
         | _, _ => inr EZeroDivision
         end
       end.

(** Lines 91-94 (and dens_profs_classes.pyx 105-110, cosmic_base_class.pyx 934-939): the index catalogue, sizes
    and radii of the selected objects. *)
Definition chosen (d : direct) (s : selection) : (list nat * list nat * list R) + eerr :=
  match select s (Z.of_nat (length (d_sizes d))) with
  | inr _ => inr EValue
  | inl arr =>
    let ns := map (fun x => Z.to_nat (trunc x)) arr in
    match getSubSetIdxCat (d_cat d) (d_sizes d) ns, take (d_sizes d) ns, take (d_r200 d) ns with
    | Some sub, Some sz, Some r => inl (sub, sz, r)
    | _, _, _ => inr EIndex
    end
  end.
(** xyz.base[idx_cat.base[...]] raises IndexError if a particle does not exist (shape_profs_algos.pyx 587,
    dens_profs_algos.pyx 39, 97). If also the centre of an earlier object is not found the code raises RecursionError
    instead; the first three calls below name the IndexError, estDensProfsKernel follows the order of the code. *)
Definition exist (d : direct) (sub : list nat) : bool := forallb (fun i => Nat.ltb i (length (d_xyz d))) sub.
(** Particles of an object, shape_profs_algos.pyx 594-597; velocities are not used. *)
Definition particles (d : direct) (idx : list nat) : list vptc := map (fun i => (nth i (d_xyz d) v0, v0, nth i (d_masses d) 0)) idx.

(** Lines 95-97: the factors to the output units. *)
Definition to_out (c : config) : (R * R) + eerr :=
  match internal c with
  | inr _ => inr EZeroDivision
  | inl (li, mi, _) =>
    match pydiv li (out_l c), pydiv mi (out_m c) with
    | inl fl, inl fm => inl (fl, fm)
    | _, _ => inr EZeroDivision
    end
  end.

(** An entry of the structured array, lines 98-106 (133-141). *)
Record row := mkRow { w_d : xr; w_q : xr; w_s : xr; w_conv : bool; w_minor : xvec; w_inter : xvec; w_major : xvec }.
Definition to_row (fl : R) (mi : morph) : row :=
  mkRow (xmul (md mi) (Fin fl)) (mq mi) (ms mi) (is_conv mi) (minor mi) (inter mi) (major mi).

Section Calls.
  (** Recursion limits, random choices by position in the selection, eigensolver. *)
  Variables (mfuel : nat) (choose : nat -> list nat) (eig : nat -> list xr -> eigres) (fuel : nat).

  (** getShapeCatLocal, lines 89-109, and getShapeCatGlobal, 124-144: [vt] is Local or Global. [None] in
      place of a row list: the iteration is not over within [fuel] steps. *)
  Inductive getShapeCat (kc : kcfg) (vt : variant) (c : config) (d : direct) (s : selection)
      : (list (option (list row)) + eerr) -> Prop :=
  | gs_selection : forall e, chosen d s = inr e -> getShapeCat kc vt c d s (inr e)
  | gs_missing : forall sub sz r, chosen d s = inl (sub, sz, r) -> exist d sub = false -> getShapeCat kc vt c d s (inr EIndex)
  | gs_mode : forall sub sz r p o, chosen d s = inl (sub, sz, r) -> exist d sub = true ->
      nth_error (map (particles d) (parts sub sz)) p = Some o -> shape_center mfuel (d_kind d) (choose p) (d_box d) o = None ->
      getShapeCat kc vt c d s (inr ERecursion)
  | gs_raise : forall sub sz r cs, chosen d s = inl (sub, sz, r) -> exist d sub = true ->
      morph_call mfuel (d_kind d) choose eig fuel kc (d_box d) vt (map (particles d) (parts sub sz)) r (ZeroDivision, cs) ->
      getShapeCat kc vt c d s (inr EZeroDivision)
  | gs_units : forall sub sz r tab cs e, chosen d s = inl (sub, sz, r) -> exist d sub = true ->
      morph_call mfuel (d_kind d) choose eig fuel kc (d_box d) vt (map (particles d) (parts sub sz)) r (Ret tab, cs) ->
      to_out c = inr e -> getShapeCat kc vt c d s (inr e)
  | gs_ok : forall sub sz r tab cs fl fm, chosen d s = inl (sub, sz, r) -> exist d sub = true ->
      morph_call mfuel (d_kind d) choose eig fuel kc (d_box d) vt (map (particles d) (parts sub sz)) r (Ret tab, cs) ->
      to_out c = inl (fl, fm) ->
      getShapeCat kc vt c d s (inl (map (option_map (map (to_row fl))) (fst tab))).

  (** getMassesCenters, dens_profs_classes.pyx lines 105-122. *)
  Inductive getMassesCenters (c : config) (d : direct) (s : selection) : (list (vec * R) + eerr) -> Prop :=
  | gm_selection : forall e, chosen d s = inr e -> getMassesCenters c d s (inr e)
  | gm_missing : forall sub sz r, chosen d s = inl (sub, sz, r) -> exist d sub = false -> getMassesCenters c d s (inr EIndex)
  | gm_mode : forall sub sz r, chosen d s = inl (sub, sz, r) -> exist d sub = true ->
      calcMassesCenters mfuel (d_kind d) choose (map (ptcs (d_xyz d) (d_masses d)) (parts sub sz)) (d_box d) None ->
      getMassesCenters c d s (inr ERecursion)
  | gm_units : forall sub sz r x e, chosen d s = inl (sub, sz, r) -> exist d sub = true ->
      calcMassesCenters mfuel (d_kind d) choose (map (ptcs (d_xyz d) (d_masses d)) (parts sub sz)) (d_box d) (Some x) ->
      to_out c = inr e -> getMassesCenters c d s (inr e)
  | gm_ok : forall sub sz r centers ms fl fm, chosen d s = inl (sub, sz, r) -> exist d sub = true ->
      calcMassesCenters mfuel (d_kind d) choose (map (ptcs (d_xyz d) (d_masses d)) (parts sub sz)) (d_box d) (Some (centers, ms)) ->
      to_out c = inl (fl, fm) ->
      getMassesCenters c d s (inl (combine (map (vscale fl) centers) (map (fun m => m * fm) ms))).

  (** Line 826 multiplies by MASS_UNIT, lines 949-953 convert. *)
  Definition dens_factor (c : config) : R + eerr :=
    match dens_to_out c with inl f => inl (MASS_UNIT * f) | inr _ => inr EZeroDivision end.
  (** _estDensProfsBase, lines 934-953, spherical direct binning. *)
  Definition err_of {X} (x : dout X) : option eerr :=
    match x with DOk _ => None | DZeroDivision => Some EZeroDivision | DIndexError => Some EIndex
               | DValueError => Some EValue | DRecursionError => Some ERecursion end.
  Inductive estDensProfs (rs : list R) (c : config) (d : direct) (s : selection) : (list (list R) + eerr) -> Prop :=
  | ed_selection : forall e, chosen d s = inr e -> estDensProfs rs c d s (inr e)
  | ed_missing : forall sub sz r, chosen d s = inl (sub, sz, r) -> exist d sub = false -> estDensProfs rs c d s (inr EIndex)
  | ed_raise : forall sub sz r x e, chosen d s = inl (sub, sz, r) -> exist d sub = true ->
      calcDensProfsSphDirectBinning mfuel (d_kind d) choose (d_xyz d) (d_masses d) r rs sub sz (d_box d) x -> err_of x = Some e ->
      estDensProfs rs c d s (inr e)
  | ed_units : forall sub sz r rows e, chosen d s = inl (sub, sz, r) -> exist d sub = true ->
      calcDensProfsSphDirectBinning mfuel (d_kind d) choose (d_xyz d) (d_masses d) r rs sub sz (d_box d) (DOk rows) ->
      dens_factor c = inr e -> estDensProfs rs c d s (inr e)
  | ed_ok : forall sub sz r rows f, chosen d s = inl (sub, sz, r) -> exist d sub = true ->
      calcDensProfsSphDirectBinning mfuel (d_kind d) choose (d_xyz d) (d_masses d) r rs sub sz (d_box d) (DOk rows) ->
      dens_factor c = inl f -> estDensProfs rs c d s (inl (map (map (fun x => x * f)) rows)).

  (** The selected objects before the first one with a particle that does not exist: the routine goes from object to
      object (dens_profs_algos.pyx 264-278). *)
  Fixpoint before_missing (d : direct) (objs : list (list nat)) : list (list nat) :=
    match objs with [] => [] | o :: objs => if exist d o then o :: before_missing d objs else [] end.
  (** _estDensProfsBase, lines 934-953, direct_binning = False (line 947; _getDensProfsKernelBasedBase, 868-890). *)
  Inductive estDensProfsKernel (rs : list R) (c : config) (d : direct) (s : selection) : (list (list xr) + eerr) -> Prop :=
  | ek_selection : forall e, chosen d s = inr e -> estDensProfsKernel rs c d s (inr e)
  | ek_missing : forall sub sz r rows, chosen d s = inl (sub, sz, r) -> exist d sub = false ->
      kernel_objects mfuel (d_kind d) choose rs (d_box d) 0 (map (ptcs (d_xyz d) (d_masses d)) (before_missing d (parts sub sz))) r (DOk rows) ->
      estDensProfsKernel rs c d s (inr EIndex)
  | ek_earlier : forall sub sz r x e, chosen d s = inl (sub, sz, r) -> exist d sub = false ->
      kernel_objects mfuel (d_kind d) choose rs (d_box d) 0 (map (ptcs (d_xyz d) (d_masses d)) (before_missing d (parts sub sz))) r x ->
      err_of x = Some e -> estDensProfsKernel rs c d s (inr e)
  | ek_raise : forall sub sz r x e, chosen d s = inl (sub, sz, r) -> exist d sub = true ->
      calcDensProfsKernelBased mfuel (d_kind d) choose (d_xyz d) (d_masses d) r rs sub sz (d_box d) x -> err_of x = Some e ->
      estDensProfsKernel rs c d s (inr e)
  | ek_units : forall sub sz r rows e, chosen d s = inl (sub, sz, r) -> exist d sub = true ->
      calcDensProfsKernelBased mfuel (d_kind d) choose (d_xyz d) (d_masses d) r rs sub sz (d_box d) (DOk rows) ->
      dens_factor c = inr e -> estDensProfsKernel rs c d s (inr e)
  | ek_ok : forall sub sz r rows f, chosen d s = inl (sub, sz, r) -> exist d sub = true ->
      calcDensProfsKernelBased mfuel (d_kind d) choose (d_xyz d) (d_masses d) r rs sub sz (d_box d) (DOk rows) ->
      dens_factor c = inl f -> estDensProfsKernel rs c d s (inl (map (map (fun x => xmul x (Fin f))) rows)).
End Calls.
