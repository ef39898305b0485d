(** * A Gadget object from the numbers in its files

    shape_profs/shape_profs_classes.pyx lines 523-592, class DensShapeProfsGadget, on rank 0. The methods
    getShapeCatLocal, getShapeCatGlobal, getMassesCenters and estDensProfs are inherited and use the attributes of
    EndModel's [direct]. Simplifications: the tables are those collected from all files (C22, C67); group
    radii are read in the current units, not from a memo filled earlier in others (C10, C99) and are
    not rounded to single precision (read_fof.py line 72); nor are positions and masses. *)
From Coq Require Import List Reals ZArith.
From Verif Require Import ConfigModel CatModel GeoModel GadObjModel EndModel.
Import ListNotations.
Local Open Scope R_scope.

(** The numbers in the files: POS and MASS blocks and boxsize of the snapshot (lines 573-574, 590-591),
    GroupNsubs, SubhaloLenType, GroupLenType and Group_R_... of the catalogue (read_fof.py lines 69-81). *)
Record gfiles := mkFiles { f_xyz : list vec; f_mass : list R; f_box : R; f_nsubs : list nat; f_sublen : list nat; f_len : list nat; f_rad : list R }.

(** Lines 568-569 and read_fof.py 65-66: l_curr_over_target; readgadget.py 82-85: the divisors of
    positions and masses. *)
Definition factors (c : config) : (R * R * R) + eerr :=
  match internal c with
  | inr _ => inr EZeroDivision
  | inl (li, _, _) =>
    match pydiv (in_l c) li, unit_facs c with
    | inl f, inl (fl, fm, _) => inl (f, fl, fm)
    | _, _ => inr EZeroDivision
    end
  end.

(** Lines 563-592, for any schedule of the threads of calcObjCat. Positions: readgadget.py line 103 (107, 112). *)
Inductive make_gadget (c : config) (g : gfiles) (minp : Z) (kind : center_kind) : direct + eerr -> Prop :=
| mg_units : forall e, factors c = inr e -> make_gadget c g minp kind (inr e)
| mg_empty : forall x, factors c = inl x -> f_nsubs g = [] -> make_gadget c g minp kind (inr EValue)
| mg_ok : forall f fl fm cat r sizes, factors c = inl (f, fl, fm) -> f_nsubs g <> [] ->
    calcObjCat R 0 (f_nsubs g) (f_sublen g) (f_len g) (map (fun x => x * f) (f_rad g)) minp (Some (cat, r, sizes)) ->
    make_gadget c g minp kind
      (inl (mkDirect (map (fun v => mkV (vx v / fl) (vy v / fl) (vz v / fl)) (f_xyz g)) (map (fun x => x / fm) (f_mass g)) cat r sizes (f_box g * f) kind)).
