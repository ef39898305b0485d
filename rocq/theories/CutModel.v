(** common/python_routines.py getCatWithinFracR200 (lines 567-609) and the printed overview of a Gadget
    object: cosmic_base_class.pyx _getObjInfoBase (1130-1141), shape_profs_classes.pyx getObjInfoGadget
    (831-846). Indices in a catalogue are assumed to be valid row numbers. *)
From Coq Require Import List Reals Lia.
From Verif Require Import XR GeoModel EpsModel CatModel.
Import ListNotations.
Open Scope R_scope.

(** ** Cutting a catalogue at a fraction of R200 *)

(** Outcomes: a value, TypeError, or calcMode recursing beyond [fuel] (see C26). *)
Inductive cres (X : Type) := COk (x : X) | CTypeError | CDeep.
Arguments COk {X} x. Arguments CTypeError {X}. Arguments CDeep {X}.
Definition cbind {X Y} (a : cres X) (f : X -> cres Y) : cres Y :=
  match a with COk x => f x | CTypeError => CTypeError | CDeep => CDeep end.

(** a[i] = v. *)
Definition setrow {X} (a : list X) (i : nat) (v : X) : list X := firstn i a ++ v :: skipn (S i) a.

(** Particle indices of object [idx]: cat_in[np.sum(obj_size_in[:idx]):np.sum(obj_size_in[:idx+1])],
    lines 596, 598, 600, 603. *)
Definition obj_of (cat_in sizes : list nat) (idx : nat) : list nat :=
  slice (fold_right Nat.add 0%nat (firstn idx sizes)) (fold_right Nat.add 0%nat (firstn (S idx) sizes)) cat_in.

(** How line 598/600 writes a row: through [centers.base], which is None for an array made by np.zeros
    (assigning to an item of None is a TypeError), or directly. The code does the former. *)
Inductive writing := ThroughBase | Direct.
Definition write (w : writing) (centers : list vec) (i : nat) (c : vec) : cres (list vec) :=
  match w with ThroughBase => CTypeError | Direct => COk (setrow centers i c) end.

(** respectPBCNoRef(xyz, L_BOX), lines 499-528, with an [L_BOX] that may be None: None != 0.0 holds and
    None/2 is a TypeError. *)
Definition unwrap_arg (choose : list nat) (xyz : list vec) (L : option R) : cres (list vec) :=
  match L with None => CTypeError | Some L => COk (respectPBCNoRef choose xyz L) end.

Section Cut.
  Variable fuel : nat.
  Variable kind : center_kind.
  (** Random choice made for object p (default_rng(seed=0), lines 514-515). *)
  Variable choose : nat -> list nat.
  (** cKDTree(xyz).query_ball_point(c, r), lines 605-606: contract in the theorems. *)
  Variable query : list vec -> vec -> R -> list nat.
  Variable ps : list ptc.

  (** xyz[obj] with the masses of the particles. *)
  Definition gather (obj : list nat) : list ptc := map (fun i => nth i ps (v0, 0)) obj.

  (** Lines 595-600. The right hand side is evaluated before the write. *)
  Fixpoint centers_loop (w : writing) (L : R) (cat_in sizes : list nat) (idxs : list nat) (centers : list vec) : cres (list vec) :=
    match idxs with
    | [] => COk centers
    | idx :: idxs' =>
        let o := gather (obj_of cat_in sizes idx) in
        match center_of fuel kind (choose idx) (extent (respectPBCNoRef (choose idx) (map fst o) L)) L o with
        | None => CDeep
        | Some c => cbind (write w centers idx c) (centers_loop w L cat_in sizes idxs')
        end
    end.

  (** Lines 601-608; the state is cat_out, obj_size_out and remnant. *)
  Fixpoint cut_loop (Larg : option R) (cat_in sizes : list nat) (r200 : list R) (frac : R) (centers : list vec)
      (idxs : list nat) (st : list nat * list nat * list nat) : cres (list nat * list nat * list nat) :=
    match idxs with
    | [] => COk st
    | idx :: idxs' =>
        let '(cat_out, size_out, remnant) := st in
        let obj := obj_of cat_in sizes idx in
        cbind (unwrap_arg (choose idx) (map fst (gather obj)) Larg) (fun xyz_ =>
          let nn := query xyz_ (nth idx centers v0) (nth idx r200 0 * frac) in
          cut_loop Larg cat_in sizes r200 frac centers idxs'
            (match nn with
             | [] => st
             | _ => (cat_out ++ map (fun i => nth i obj 0%nat) nn, setrow size_out idx (length nn), remnant ++ [idx])
             end))
    end.

  (** The whole function for a way of writing and an argument of the unwrapping, lines 592-609. *)
  Definition cat_within (w : writing) (Larg : option R) (cat_in sizes : list nat) (L : R) (r200 : list R) (frac : R)
    : cres (list nat * list nat) :=
    let n := length sizes in
    cbind (centers_loop w L cat_in sizes (seq 0 n) (repeat v0 n)) (fun centers =>
    cbind (cut_loop Larg cat_in sizes r200 frac centers (seq 0 n) ([], repeat 0%nat n, [])) (fun st =>
      let '(cat_out, size_out, remnant) := st in
      COk (cat_out, map (fun i => nth i size_out 0%nat) remnant))).
  (** The code: line 598/600 writes through .base, line 604 leaves L_BOX out. *)
  Definition getCatWithinFracR200 := cat_within ThroughBase None.
End Cut.

(** ** The overview of a Gadget object *)

(** Truth of [x != []] for an integer x of an index array: comparing a numpy integer with an empty list
    gives an array without entries, which is false. *)
Definition ne_emptylist (x : nat) : bool := false.

(** What is printed: the counts in the order of the lines 1141, 840-844; [None]: ValueError (839). *)
Definition obj_info (idx_cat obj_size nb_shs sh_len : list nat) : option (list nat) :=
  match nb_shs with
  | [] => None
  | _ => Some [ length obj_size;
                length (filter (fun n => negb (Nat.eqb n 0)) nb_shs);
                length nb_shs;
                length sh_len;
                length (filter (fun n => Nat.eqb n 0) nb_shs);
                length (filter ne_emptylist idx_cat) ]
  end.
