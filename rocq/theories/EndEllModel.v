(** * estDensProfs with ellipsoidal shells

    common/cosmic_base_class.pyx: _estDensProfsBase (lines 892-955) with direct_binning = True and spherical =
    False (lines 942-943): the shapes of the selected objects are computed first (_getShapeCatLocalBase, lines
    82-178), then the profiles (_getDensProfsEllDirectBinningBase, 830-866). The pieces are those of EndModel,
    ShapeModel and DensModel. Rank 0, no dumped catalogue exists (line 120), all iterations of the shape
    routine are over within the fuel. *)
From Coq Require Import List Reals ZArith Bool.
From Verif Require Import XR ConfigModel CatModel GeoModel ShapeModel ShapeMoveModel DensModel FitModel EndModel.
Import ListNotations.
Local Open Scope R_scope.

(** Line 943: d, d*q, d*s, major, inter, minor of one object. *)
Definition shapes_of (l : list morph) : shapes :=
  mkSh (map md l) (map (fun mi => xmul (md mi) (mq mi)) l) (map (fun mi => xmul (md mi) (ms mi)) l)
       (map major l) (map inter l) (map minor l).

Section EllCall.
  (** scipy's interp1d; recursion limit of calcMode; random choices of the shape routine and of the density
      routine (each draws for itself); eigensolver and its fuel. *)
  Variables (interp : list xr -> list xr -> R -> xr) (mfuel : nat) (choose choose' : nat -> list nat)
            (eig : nat -> list xr -> eigres) (fuel : nat).

  (** Lines 934-943 and 949-953; lines 861-862: fewer than three radii. The shapes are found before the number of
      radii is looked at. The catalogue that line 170 of dens_profs_algos.pyx overwrites is the copy made by
      getSubSetIdxCat (line 937), after which it is dropped. *)
  Inductive estDensProfsEll (kc : kcfg) (rs : list R) (c : config) (d : direct) (s : selection)
      : (list (list xr) + eerr) -> Prop :=
  | ee_selection : forall e, chosen d s = inr e -> estDensProfsEll kc rs c d s (inr e)
  | ee_missing : forall sub sz r, chosen d s = inl (sub, sz, r) -> exist d sub = false -> estDensProfsEll kc rs c d s (inr EIndex)
  | ee_mode : forall sub sz r p o, chosen d s = inl (sub, sz, r) -> exist d sub = true ->
      nth_error (map (particles d) (parts sub sz)) p = Some o -> shape_center mfuel (d_kind d) (choose p) (d_box d) o = None ->
      estDensProfsEll kc rs c d s (inr ERecursion)
  | ee_shape : forall sub sz r cs, chosen d s = inl (sub, sz, r) -> exist d sub = true ->
      morph_call mfuel (d_kind d) choose eig fuel kc (d_box d) Local (map (particles d) (parts sub sz)) r (ZeroDivision, cs) ->
      estDensProfsEll kc rs c d s (inr EZeroDivision)
  | ee_radii : forall sub sz r l ms cs, chosen d s = inl (sub, sz, r) -> exist d sub = true ->
      morph_call mfuel (d_kind d) choose eig fuel kc (d_box d) Local (map (particles d) (parts sub sz)) r (Ret (map Some l, ms), cs) ->
      (length rs < 3)%nat -> estDensProfsEll kc rs c d s (inr EValue)
  | ee_raise : forall sub sz r l ms cs x idx' e, chosen d s = inl (sub, sz, r) -> exist d sub = true ->
      morph_call mfuel (d_kind d) choose eig fuel kc (d_box d) Local (map (particles d) (parts sub sz)) r (Ret (map Some l, ms), cs) ->
      (3 <= length rs)%nat ->
      calcDensProfsEllDirectBinning interp mfuel (d_kind d) choose' (d_xyz d) (d_masses d) r rs (map shapes_of l) sub sz (d_box d) x idx' ->
      err_of x = Some e -> estDensProfsEll kc rs c d s (inr e)
  | ee_units : forall sub sz r l ms cs rows idx' e, chosen d s = inl (sub, sz, r) -> exist d sub = true ->
      morph_call mfuel (d_kind d) choose eig fuel kc (d_box d) Local (map (particles d) (parts sub sz)) r (Ret (map Some l, ms), cs) ->
      (3 <= length rs)%nat ->
      calcDensProfsEllDirectBinning interp mfuel (d_kind d) choose' (d_xyz d) (d_masses d) r rs (map shapes_of l) sub sz (d_box d) (DOk rows) idx' ->
      dens_factor c = inr e -> estDensProfsEll kc rs c d s (inr e)
  | ee_ok : forall sub sz r l ms cs rows idx' f, chosen d s = inl (sub, sz, r) -> exist d sub = true ->
      morph_call mfuel (d_kind d) choose eig fuel kc (d_box d) Local (map (particles d) (parts sub sz)) r (Ret (map Some l, ms), cs) ->
      (3 <= length rs)%nat ->
      calcDensProfsEllDirectBinning interp mfuel (d_kind d) choose' (d_xyz d) (d_masses d) r rs (map shapes_of l) sub sz (d_box d) (DOk rows) idx' ->
      dens_factor c = inl f -> estDensProfsEll kc rs c d s (inl (map (map (fun x => xmul x (Fin f))) rows)).
End EllCall.
