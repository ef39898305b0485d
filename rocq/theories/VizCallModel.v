(** * Shape figures as whole calls

    shape_profs/shape_profs_classes.pyx: what vizLocalShapes (lines 147-241) and vizGlobalShapes (243-317) draw for which
    object. The pieces are those of EndModel and VizModel; the ellipsoids and arrows drawn from the rows of a panel are in
    VizModel (for finite rows), the random choice of at most 5000 particles for display is left out. Rank 0, and no
    dumped catalogue exists (see C38). *)
From Coq Require Import List Reals ZArith Bool.
From Verif Require Import XR ConfigModel CatModel GeoModel ShapeModel ShapeMoveModel DensModel EndModel VizModel PlotCallModel.
Import ListNotations.
Local Open Scope R_scope.

(** One saved figure: the object number in its name (lines 241, 317), the particles and the centre (lines 200-201,
    295-296), and the rows its ellipsoids and arrows are made of (lines 177-182, 272-277). *)
Record panel := mkPanel { p_number : nat; p_particles : list vec; p_center : vec; p_rows : option (list row) }.

(** config.LengthInternalToOut, lines 171-172 and 266-267: the length factor. *)
Definition out_factor (c : config) : R + eerr :=
  match internal c with
  | inr _ => inr EZeroDivision
  | inl (li, _, _) => match pydiv li (out_l c) with inl fl => inl fl | inr _ => inr EZeroDivision end
  end.
(** The numbers run through in lines 176 and 271. *)
Definition run_numbers (d : direct) (s : selection) : list nat :=
  match select s (Z.of_nat (length (d_sizes d))) with inl arr => map (fun x => Z.to_nat (trunc x)) arr | inr _ => [] end.
(** idx_cat.base[offsets[obj_number]:offsets[obj_number+1]], lines 163, 186-188 and 258, 281-283: the particles of the
    object with this number in the whole catalogue. *)
Definition drawn (d : direct) (n : nat) : list vptc := particles d (nth n (parts (d_cat d) (d_sizes d)) []).

Section VizCalls.
  (** As in EndModel; [again k]: the random choice of respectPBCNoRef for the figure at position k. *)
  Variables (mfuel : nat) (choose again : nat -> list nat) (eig : nat -> list xr -> eigres) (fuel : nat).
  (** Loop of lines 176-241 (271-317); idx_obj = k, obj_number = n. *)
  Definition panels (fl : R) (d : direct) (ns : list nat) (tab : list (option (list morph))) (cs : list vec) : list panel :=
    map (fun kn => mkPanel (snd kn) (viz_particles (again (fst kn)) fl (d_box d) (drawn d (snd kn)))
                           (vscale fl (nth (fst kn) cs v0))
                           (option_map (map (to_row fl)) (nth (fst kn) tab None)))
        (combine (seq 0 (length ns)) ns).
  (** The saved figures in the order of saving, or the exception; no figure is saved before the shapes of all objects
      are known. Order of exceptions as in EndModel. *)
  Inductive vizShapes (kc : kcfg) (vt : variant) (c : config) (d : direct) (s : selection) : list panel + eerr -> Prop :=
  | vz_fail : forall e, shapeTables mfuel choose eig fuel kc vt d s (inr e) -> vizShapes kc vt c d s (inr e)
  | vz_units : forall x e, shapeTables mfuel choose eig fuel kc vt d s (inl x) -> out_factor c = inr e -> vizShapes kc vt c d s (inr e)
  | vz_ok : forall sub sz r tab cs fl, chosen d s = inl (sub, sz, r) -> exist d sub = true ->
      morph_call mfuel (d_kind d) choose eig fuel kc (d_box d) vt (map (particles d) (parts sub sz)) r (Ret tab, cs) ->
      out_factor c = inl fl -> vizShapes kc vt c d s (inl (panels fl d (run_numbers d s) (fst tab) cs)).
End VizCalls.
