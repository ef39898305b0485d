(** * Objects built on Gadget snapshots: what is kept and what is read again

    shape_profs/shape_profs_classes.pyx lines 523-828, class DensShapeProfsGadget, on rank 0. Snapshot and group files do not
    change while the program runs and are those of the reader models: here only the numbers in them
    matter. Simplifications: the catalogue has at least one subhalo (lines 579-580 raise otherwise); the
    objects chosen by calcObjCat are given by their group numbers. *)
From Coq Require Import List Reals String Bool ZArith.
From Verif Require Import CacheModel ConfigModel.
Import ListNotations.
Local Open Scope R_scope.

(** A snapshot with its group catalogue: numbers as stored (velocities times the square root of the scale
    factor, readgadget.py line 118), the arguments of getFoFSHData, the group of each object. *)
Record snap := mkSnap { sn_pos : list (list R); sn_mass : list R; sn_vel : list (list R); sn_box : R; sn_fof : fofargs; sn_sel : list nat }.
(** Attributes of the object: SNAP_DEST etc. (lines 562-565), and xyz, masses, L_BOX and r200 (line 592,
    dens_profs_classes.pyx lines 52-58). *)
Record gobj := mkG { g_snap : snap; g_pos : list (list R); g_mass : list R; g_box : R; g_r200 : list R }.

(** readgadget.py lines 82-100, 140-158: the factors x_internal / InUnit. *)
Definition unit_facs (c : config) : (R * R * R) + err :=
  match internal c with
  | inr e => inr e
  | inl (li, mi, vi) =>
    match pydiv li (in_l c), pydiv mi (in_m c), pydiv vi (in_v c) with
    | inl fl, inl fm, inl fv => inl (fl, fm, fv)
    | _, _, _ => inr ZeroDivisionError
    end
  end.
(** The blocks as returned by readgadget.read_block. *)
Definition read_pos (c : config) (s : snap) : list (list R) + err :=
  match unit_facs c with inl (fl, _, _) => inl (map (map (fun x => x / fl)) (sn_pos s)) | inr e => inr e end.
Definition read_mass (c : config) (s : snap) : list R + err :=
  match unit_facs c with inl (_, fm, _) => inl (map (fun x => x / fm) (sn_mass s)) | inr e => inr e end.
Definition read_vel (c : config) (s : snap) : list (list R) + err :=
  match unit_facs c with inl (_, _, fv) => inl (map (map (fun x => x / fv)) (sn_vel s)) | inr e => inr e end.

(** calcObjCat: the radius of the group of each object. *)
Definition of_groups (sel : list nat) (r : list R) : list R := map (fun g => nth g r 0) sel.

(** What a call returned. [OUse pos mass r200 box]: the data an analysis works on. *)
Inductive obs :=
| OXYZ (pos : list (list R)) (mass : list R)
| OVel (vel : list (list R))
| OR200 (r : list R)
| OUse (pos : list (list R)) (mass : list R) (r200 : list R) (box : R)
| OErr (e : err).

Section Obj.
  Variable files : fofargs -> list R + err.
  Notation cst := (state fofargs (list R)).
  Record world := mkW { w_conf : config; w_memo : cst; w_objs : list gobj }.

  Inductive gop :=
  | GIn (l m v : unit_arg) (h : R)                (* updateInUnitSystem *)
  | GOut (l m v : unit_arg) (h : R)               (* updateOutUnitSystem *)
  | GNew (s : snap) (av1 av2 : Z)                 (* DensShapeProfsGadget(...) *)
  | GXYZ (i : nat)                                (* object i: getXYZMasses() *)
  | GVel (i : nat)                                (* getVelXYZ() *)
  | GR200 (i : nat) (av1 av2 : Z)                 (* getR200() *)
  | GUse (i : nat)                                (* getShapeCatLocal(), estDensProfs(), ... *)
  | GUseVel (i : nat) (av1 av2 : Z).              (* getShapeCatVelLocal(), dumpShapeVelCatGlobal(), ... *)

  Fixpoint set_nth {A} (i : nat) (x : A) (l : list A) : list A :=
    match l, i with [], _ => [] | _ :: l, O => x :: l | y :: l, S i => y :: set_nth i x l end.

  (** Lines 567-592. *)
  Definition new (m : mode) (w : world) (s : snap) (av1 av2 : Z) : option (world * option obs) :=
    let c := w_conf w in
    match internal c with
    | inr e => Some (w, Some (OErr e))
    | inl (li, _, _) =>
      match pydiv (in_l c) li with
      | inr e => Some (w, Some (OErr e))
      | inl f =>
        match getFoF files m c (w_memo w) (sn_fof s) av1 av2 with
        | None => None
        | Some (memo, inr e) => Some (mkW c memo (w_objs w), Some (OErr e))
        | Some (memo, inl r) =>
          match read_pos c s, read_mass c s with
          | inl pos, inl mass => Some (mkW c memo (w_objs w ++ [mkG s pos mass (sn_box s * f) (of_groups (sn_sel s) r)]), None)
          | inr e, _ => Some (mkW c memo (w_objs w), Some (OErr e))
          | _, inr e => Some (mkW c memo (w_objs w), Some (OErr e))
          end
        end
      end
    end.
  (** Lines 730-745. *)
  Definition get_xyz (c : config) (s : snap) : obs :=
    match read_pos c s, read_mass c s with
    | inl pos, inl mass =>
      match internal c with
      | inr e => OErr e
      | inl (li, mi, _) =>
        match pydiv li (out_l c), pydiv mi (out_m c) with
        | inl fl, inl fm => OXYZ (map (map (fun x => x * fl)) pos) (map (fun x => x * fm) mass)
        | _, _ => OErr ZeroDivisionError
        end
      end
    | inr e, _ => OErr e
    | _, inr e => OErr e
    end.
  (** Lines 760-772. *)
  Definition get_vel (c : config) (s : snap) : obs :=
    match read_vel c s with
    | inl vel =>
      match internal c with
      | inr e => OErr e
      | inl (_, _, vi) => match pydiv vi (out_v c) with inl fv => OVel (map (map (fun x => x * fv)) vel) | inr e => OErr e end
      end
    | inr e => OErr e
    end.
  (** Lines 792-800 and 817-824: read the catalogue and keep the radii. *)
  Definition refresh (m : mode) (w : world) (i : nat) (o : gobj) (av1 av2 : Z) : option (world * (gobj + err)) :=
    match getFoF files m (w_conf w) (w_memo w) (sn_fof (g_snap o)) av1 av2 with
    | None => None
    | Some (memo, inr e) => Some (mkW (w_conf w) memo (w_objs w), inr e)
    | Some (memo, inl r) =>
      let o := mkG (g_snap o) (g_pos o) (g_mass o) (g_box o) (of_groups (sn_sel (g_snap o)) r) in
      Some (mkW (w_conf w) memo (set_nth i o (w_objs w)), inl o)
    end.
  (** Lines 786-806. *)
  Definition get_r200 (m : mode) (w : world) (i : nat) (o : gobj) (av1 av2 : Z) : option (world * option obs) :=
    match refresh m w i o av1 av2 with
    | None => None
    | Some (w, inr e) => Some (w, Some (OErr e))
    | Some (w, inl o) =>
      Some (w, Some (match internal (w_conf w) with
                     | inr e => OErr e
                     | inl (li, _, _) => match pydiv li (out_l (w_conf w)) with inl f => OR200 (map (fun x => x * f) (g_r200 o)) | inr e => OErr e end
                     end))
    end.
  (** Methods inherited from DensShapeProfsBase and DensProfsBase, e.g. line 94 and dens_profs_classes.pyx
      line 159: the data kept in the object. *)
  Definition use (o : gobj) : obs := OUse (g_pos o) (g_mass o) (g_r200 o) (g_box o).
  (** The velocity methods: _getXYZMasses() (lines 747-758), getIdxCat() (809-828), then self.r200 and
      self.L_BOX, as in lines 606-617. *)
  Definition use_vel (m : mode) (w : world) (i : nat) (o : gobj) (av1 av2 : Z) : option (world * option obs) :=
    match read_pos (w_conf w) (g_snap o), read_mass (w_conf w) (g_snap o) with
    | inl pos, inl mass =>
      match refresh m w i o av1 av2 with
      | None => None
      | Some (w, inr e) => Some (w, Some (OErr e))
      | Some (w, inl o) => Some (w, Some (OUse pos mass (g_r200 o) (g_box o)))
      end
    | inr e, _ => Some (w, Some (OErr e))
    | _, inr e => Some (w, Some (OErr e))
    end.
  (** One operation; None is an exception inside the memo (impossible, C01). Calls on an object that does
      not exist do nothing. *)
  Definition gstep (m : mode) (w : world) (x : gop) : option (world * option obs) :=
    match x with
    | GIn l ms v h => Some (mkW (fst (updateIn (w_conf w) l ms v h)) (w_memo w) (w_objs w), None)
    | GOut l ms v h => Some (mkW (fst (updateOut (w_conf w) l ms v h)) (w_memo w) (w_objs w), None)
    | GNew s a1 a2 => new m w s a1 a2
    | GXYZ i => match nth_error (w_objs w) i with Some o => Some (w, Some (get_xyz (w_conf w) (g_snap o))) | None => Some (w, None) end
    | GVel i => match nth_error (w_objs w) i with Some o => Some (w, Some (get_vel (w_conf w) (g_snap o))) | None => Some (w, None) end
    | GR200 i a1 a2 => match nth_error (w_objs w) i with Some o => get_r200 m w i o a1 a2 | None => Some (w, None) end
    | GUse i => match nth_error (w_objs w) i with Some o => Some (w, Some (use o)) | None => Some (w, None) end
    | GUseVel i a1 a2 => match nth_error (w_objs w) i with Some o => use_vel m w i o a1 a2 | None => Some (w, None) end
    end.
  (** A program: the world after it. *)
  Fixpoint grun (m : mode) (h : list gop) (w : world) : option world :=
    match h with [] => Some w | x :: h => match gstep m w x with None => None | Some (w, _) => grun m h w end end.
  Definition start (c : config) : world := mkW c (init fofargs (list R)) [].
End Obj.
