(** * The ellipticity histogram as a whole call

    shape_profs/shape_profs_classes.pyx: plotGlobalEpsHist (lines 319-333). The pieces are those of EndModel and HistModel
    (shape_profs_tools.py getGlobalEpsHist, lines 355-391, which leaves the angle of getEpsilon at 0). Rank 0. *)
From Coq Require Import List Reals ZArith Bool.
From Verif Require Import XR ConfigModel CatModel GeoModel EpsModel DensModel HistModel EndModel.
Import ListNotations.
Local Open Scope R_scope.

(** Lines 327-333. Without edges plt.hist raises IndexError, after the ellipticities (HistModel). *)
Inductive plotGlobalEpsHist (mfuel : nat) (choose : nat -> list nat) (nb : nat) (d : direct) (s : selection) : list xr + eerr -> Prop :=
| pe_selection : forall e, chosen d s = inr e -> plotGlobalEpsHist mfuel choose nb d s (inr e)
| pe_missing : forall sub sz r, chosen d s = inl (sub, sz, r) -> exist d sub = false -> plotGlobalEpsHist mfuel choose nb d s (inr EIndex)
| pe_mode : forall sub sz r, chosen d s = inl (sub, sz, r) -> exist d sub = true ->
    In None (getEpsilon mfuel (d_kind d) choose (d_box d) 0 (map (ptcs (d_xyz d) (d_masses d)) (parts sub sz))) ->
    plotGlobalEpsHist mfuel choose nb d s (inr ERecursion)
| pe_edges : forall sub sz r, chosen d s = inl (sub, sz, r) -> exist d sub = true ->
    ~ In None (getEpsilon mfuel (d_kind d) choose (d_box d) 0 (map (ptcs (d_xyz d) (d_masses d)) (parts sub sz))) -> nb = 0%nat ->
    plotGlobalEpsHist mfuel choose nb d s (inr EIndex)
| pe_ok : forall sub sz r bars, chosen d s = inl (sub, sz, r) -> exist d sub = true ->
    getGlobalEpsHist mfuel (d_kind d) choose (d_box d) 0 (map (ptcs (d_xyz d) (d_masses d)) (parts sub sz)) nb = Some bars ->
    plotGlobalEpsHist mfuel choose nb d s (inl bars).
