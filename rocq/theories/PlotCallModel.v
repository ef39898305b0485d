(** * Triaxiality histograms as whole calls

    shape_profs/shape_profs_classes.pyx: plotLocalTHist (lines 353-372) and plotGlobalTHist (374-393);
    common/cosmic_base_class.pyx: _plotLocalTHistBase (693-731) and _plotGlobalTHistBase (733-763). The pieces are
    those of EndModel and HistModel. Rank 0, and no dumped catalogue exists (see C38). *)
From Coq Require Import List Reals ZArith Bool.
From Verif Require Import XR ConfigModel CatModel GeoModel ShapeModel ShapeMoveModel DensModel HistModel EndModel.
Import ListNotations.
Local Open Scope R_scope.

Section PlotCalls.
  (** As in EndModel; [big] is the largest float. *)
  Variables (mfuel : nat) (choose : nat -> list nat) (eig : nat -> list xr -> eigres) (fuel : nat) (big : R).

  (** Lines 369-371 (390-392) and cosmic_base_class.pyx 729 (761): shapes, masses and radii of the selected objects in
      internal units. Order of exceptions as in EndModel. *)
  Inductive shapeTables (kc : kcfg) (vt : variant) (d : direct) (s : selection)
      : (list (option (list morph)) * list R * list R) + eerr -> Prop :=
  | st_selection : forall e, chosen d s = inr e -> shapeTables kc vt d s (inr e)
  | st_missing : forall sub sz r, chosen d s = inl (sub, sz, r) -> exist d sub = false -> shapeTables kc vt d s (inr EIndex)
  | st_mode : forall sub sz r p o, chosen d s = inl (sub, sz, r) -> exist d sub = true ->
      nth_error (map (particles d) (parts sub sz)) p = Some o -> shape_center mfuel (d_kind d) (choose p) (d_box d) o = None ->
      shapeTables kc vt d s (inr ERecursion)
  | st_raise : forall sub sz r cs, chosen d s = inl (sub, sz, r) -> exist d sub = true ->
      morph_call mfuel (d_kind d) choose eig fuel kc (d_box d) vt (map (particles d) (parts sub sz)) r (ZeroDivision, cs) ->
      shapeTables kc vt d s (inr EZeroDivision)
  | st_ok : forall sub sz r tab cs, chosen d s = inl (sub, sz, r) -> exist d sub = true ->
      morph_call mfuel (d_kind d) choose eig fuel kc (d_box d) vt (map (particles d) (parts sub sz)) r (Ret tab, cs) ->
      shapeTables kc vt d s (inl (fst tab, snd tab, r)).
  (** A figure of the tables, if all iterations are over within [fuel] steps. [draw] is None without edges
      (HistModel), an IndexError. *)
  Inductive plotted (kc : kcfg) (vt : variant) (d : direct) (s : selection) (draw : list (list morph) -> list R -> option (list xr))
      : list xr + eerr -> Prop :=
  | pl_fail : forall e, shapeTables kc vt d s (inr e) -> plotted kc vt d s draw (inr e)
  | pl_edges : forall rows ms r, shapeTables kc vt d s (inl (map Some rows, ms, r)) -> draw rows r = None -> plotted kc vt d s draw (inr EIndex)
  | pl_ok : forall rows ms r bars, shapeTables kc vt d s (inl (map Some rows, ms, r)) -> draw rows r = Some bars -> plotted kc vt d s draw (inl bars).
  (** cosmic_base_class.pyx line 762. *)
  Definition plotGlobalTHist (nb : nat) kc d s :=
    plotted kc Global d s (fun rows _ => getGlobalTHist big nb (map (map mq) rows) (map (map ms) rows)).
  (** Line 730. *)
  Definition plotLocalTHist (nb : nat) (frac : R) kc d s :=
    plotted kc Local d s (fun rows r => getLocalTHist big nb r frac (map (map md) rows) (map (map mq) rows) (map (map ms) rows)).
End PlotCalls.
