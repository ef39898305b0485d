(** shape_profs/shape_profs_algos.pyx: the centres of all objects followed by the shapes about them,
    calcMorphLocal 517-628, calcMorphGlobal 631-736, calcMorphLocalVelDisp 739-856 and
    calcMorphGlobalVelDisp 859-972. *)
From Coq Require Import List Reals.
From Verif Require Import XR GeoModel ShapeModel EpsModel.
Import ListNotations.
Open Scope R_scope.

(** Position and mass of a particle, the arguments of calcMode and calcCoM. *)
Definition pm (q : vptc) : ptc := (fst (fst q), snd q).

(** Centre of one object, lines 587-591 (697-701, 814-818, 931-935). *)
Definition shape_center (fuel : nat) (kind : center_kind) (choose : list nat) (L : R) (o : list vptc) : option vec :=
  center_of fuel kind choose (extent (respectPBCNoRef choose (map fst (map pm o)) L)) L (map pm o).

(** A whole call: shapes and masses of all objects, and the returned centres after line 627 (735, 855,
    971). [choose p]: the random choice made for object p; calls in which calcMode does not return
    within [mfuel] recursions have no result. *)
Inductive morph_call (mfuel : nat) (kind : center_kind) (choose : nat -> list nat) (eig : nat -> list xr -> eigres)
    (fuel : nat) (c : kcfg) (L : R) (vt : variant) (objs : list (list vptc)) (r200 : list R) :
    pyres (list (option (list morph)) * list R) * list vec -> Prop :=
| mc_run : forall centers r,
    Forall2 (fun po cen => shape_center mfuel kind (choose (fst po)) L (snd po) = Some cen)
            (combine (seq 0 (length objs)) objs) centers ->
    calcMorph eig fuel c L vt objs r200 centers r ->
    morph_call mfuel kind choose eig fuel c L vt objs r200 (r, recentreObject centers L).
