(** * Velocity shapes of a Gadget object as whole calls

    shape_profs/shape_profs_classes.pyx: getShapeCatVelLocal (lines 594-634), getShapeCatVelGlobal (636-676),
    dumpShapeVelCatLocal (678-702) and dumpShapeVelCatGlobal (704-728), on rank 0, without a dumped catalogue from earlier
    (cosmic_base_class.pyx lines 288 and 366; see C38). Positions, masses, velocities and the catalogue are read
    again with the units of the moment; box and kind of centre are those of the object. Radii and rounding as
    in GadCallModel. *)
From Coq Require Import List Reals ZArith Bool.
From Verif Require Import XR ConfigModel CatModel GeoModel ShapeModel ShapeMoveModel DensModel GadObjModel EndModel GadCallModel.
Import ListNotations.
Local Open Scope R_scope.

(** The exceptions of EndModel, and TypeError for a wrong number of arguments. *)
Inductive verr := VErr (e : eerr) | VType.

(** _getVelXYZ, lines 774-784: readgadget.py line 84 and lines 95-103. [vels]: the velocities in the file, in
    HDF5 files times the square root of the scale factor (line 118). *)
Definition read_velocities (c : config) (vels : list vec) : list vec + eerr :=
  match unit_facs c with
  | inl (_, _, fv) => inl (map (fun v => mkV (vx v / fv) (vy v / fv) (vz v / fv)) vels)
  | inr _ => inr EZeroDivision
  end.
(** Lines 606-608 (648-650, 688-694, 714-720): what the call works on. getIdxCat, lines 820-825, also replaces the radii. *)
Inductive reread (c : config) (g : gfiles) (vels : list vec) (minp : Z) (d : direct) : (direct * list vec) + eerr -> Prop :=
| rr_fail : forall e, make_gadget c g minp (d_kind d) (inr e) -> reread c g vels minp d (inr e)
| rr_vel : forall d' e, make_gadget c g minp (d_kind d) (inl d') -> read_velocities c vels = inr e -> reread c g vels minp d (inr e)
| rr_ok : forall d' w, make_gadget c g minp (d_kind d) (inl d') -> read_velocities c vels = inl w ->
    reread c g vels minp d (inl (mkDirect (d_xyz d') (d_masses d') (d_cat d') (d_r200 d') (d_sizes d') (d_box d) (d_kind d), w)).
(** Particles of an object, shape_profs_algos.pyx lines 937-940. *)
Definition vparticles (d : direct) (w : list vec) (idx : list nat) : list vptc :=
  map (fun i => (nth i (d_xyz d) v0, nth i w v0, nth i (d_masses d) 0)) idx.
(** All particles exist in both arrays, lines 931 and 938-939. *)
Definition vexist (d : direct) (w : list vec) (sub : list nat) : bool :=
  exist d sub && forallb (fun i => Nat.ltb i (length w)) sub.

Section VelCalls.
  (** As in EndModel. *)
  Variables (mfuel : nat) (choose : nat -> list nat) (eig : nat -> list xr -> eigres) (fuel : nat).

  (** Shapes, centres and masses in output units. [vt] is LocalVel: getShapeCatVelLocal returns the shapes
      (lines 612-631), dumpShapeVelCatLocal writes all three (cosmic_base_class.pyx 568-595); or GlobalVel:
      dumpShapeVelCatGlobal writes all three (lines 626-652). *)
  Inductive velShapes (kc : kcfg) (vt : variant) (c : config) (g : gfiles) (vels : list vec) (minp : Z) (d : direct) (s : selection)
      : (list (option (list row)) * list vec * list R) + verr -> Prop :=
  | vs_read : forall e, reread c g vels minp d (inr e) -> velShapes kc vt c g vels minp d s (inr (VErr e))
  | vs_selection : forall d' w e, reread c g vels minp d (inl (d', w)) -> chosen d' s = inr e -> velShapes kc vt c g vels minp d s (inr (VErr e))
  | vs_missing : forall d' w sub sz r, reread c g vels minp d (inl (d', w)) -> chosen d' s = inl (sub, sz, r) -> vexist d' w sub = false ->
      velShapes kc vt c g vels minp d s (inr (VErr EIndex))
  | vs_mode : forall d' w sub sz r p o, reread c g vels minp d (inl (d', w)) -> chosen d' s = inl (sub, sz, r) -> vexist d' w sub = true ->
      nth_error (map (vparticles d' w) (parts sub sz)) p = Some o -> shape_center mfuel (d_kind d') (choose p) (d_box d') o = None ->
      velShapes kc vt c g vels minp d s (inr (VErr ERecursion))
  | vs_raise : forall d' w sub sz r cs, reread c g vels minp d (inl (d', w)) -> chosen d' s = inl (sub, sz, r) -> vexist d' w sub = true ->
      morph_call mfuel (d_kind d') choose eig fuel kc (d_box d') vt (map (vparticles d' w) (parts sub sz)) r (ZeroDivision, cs) ->
      velShapes kc vt c g vels minp d s (inr (VErr EZeroDivision))
  | vs_units : forall d' w sub sz r tab cs e, reread c g vels minp d (inl (d', w)) -> chosen d' s = inl (sub, sz, r) -> vexist d' w sub = true ->
      morph_call mfuel (d_kind d') choose eig fuel kc (d_box d') vt (map (vparticles d' w) (parts sub sz)) r (Ret tab, cs) ->
      to_out c = inr e -> velShapes kc vt c g vels minp d s (inr (VErr e))
  | vs_ok : forall d' w sub sz r tab cs fl fm, reread c g vels minp d (inl (d', w)) -> chosen d' s = inl (sub, sz, r) -> vexist d' w sub = true ->
      morph_call mfuel (d_kind d') choose eig fuel kc (d_box d') vt (map (vparticles d' w) (parts sub sz)) r (Ret tab, cs) ->
      to_out c = inl (fl, fm) ->
      velShapes kc vt c g vels minp d s (inl (map (option_map (map (to_row fl))) (fst tab), map (vscale fl) cs, map (fun m => m * fm) (snd tab))).
  Definition getShapeCatVelLocal kc c g vels minp d s (out : list (option (list row)) + verr) : Prop :=
    exists x, velShapes kc LocalVel c g vels minp d s x /\ out = match x with inl (rows, _, _) => inl rows | inr e => inr e end.
  Definition dumpShapeVelCatGlobal kc := velShapes kc GlobalVel.

  (** getShapeCatVelGlobal: line 659 calls _getShapeCatVelGlobalBase, which has eleven parameters
      (cosmic_base_class.pyx line 330), with thirteen arguments. *)
  Inductive getShapeCatVelGlobal (kc : kcfg) (c : config) (g : gfiles) (vels : list vec) (minp : Z) (d : direct) (s : selection)
      : list (option (list row)) + verr -> Prop :=
  | vg_read : forall e, reread c g vels minp d (inr e) -> getShapeCatVelGlobal kc c g vels minp d s (inr (VErr e))
  | vg_selection : forall d' w e, reread c g vels minp d (inl (d', w)) -> chosen d' s = inr e -> getShapeCatVelGlobal kc c g vels minp d s (inr (VErr e))
  | vg_call : forall d' w x, reread c g vels minp d (inl (d', w)) -> chosen d' s = inl x -> getShapeCatVelGlobal kc c g vels minp d s (inr VType).
End VelCalls.
