(** common/cosmic_base_class.pyx: dumping shape catalogues to text files and reading them back
    (_dumpShapeCatLocalBase 422-480, _dumpShapeCatGlobalBase 482-534, the reading branches of
    _getShapeCatLocalBase 120-152 and _getShapeCatGlobalBase 196-232, and the velocity versions
    536-653, 289-317, 365-400, which repeat the same statements with another suffix) and the
    queries getShapeCatLocal, getShapeCatGlobal of shape_profs/shape_profs_classes.pyx. *)
From Coq Require Import List Reals ZArith Bool Arith.
From Verif Require Import XR.
Import ListNotations.

(** A numpy array: shape and contents in C order. *)
Record nd := mkA { shape : list nat; data : list xr }.
Definition size (dims : list nat) : nat := fold_right Nat.mul 1%nat dims.
(** Invariant of numpy arrays. *)
Definition wf (a : nd) : Prop := length (data a) = size (shape a).

(** a*k and a/k with a scalar. *)
Definition scale (k : R) (a : nd) : nd := mkA (shape a) (map (fun x => xmul x (Fin k)) (data a)).
Definition unscale (k : R) (a : nd) : nd := mkA (shape a) (map (fun x => xdiv x (Fin k)) (data a)).

Inductive exn := IndexError | ValueError | AssertionError.
Inductive res (X : Type) := Ok (x : X) | Raise (e : exn).
Arguments Ok {X}. Arguments Raise {X}.
Definition bind {X Y} (x : res X) (f : X -> res Y) : res Y := match x with Ok v => f v | Raise e => Raise e end.

(** a.reshape(pre, -1, post): the -1 is inferred (numpy raises if the size is not a multiple of
    the other lengths or these multiply to 0). *)
Definition reshape_infer (pre post : list nat) (a : nd) : res nd :=
  let p := (size pre * size post)%nat in
  let n := length (data a) in
  if (p =? 0)%nat then Raise ValueError
  else if (n mod p =? 0)%nat then Ok (mkA (pre ++ [(n / p)%nat] ++ post) (data a)) else Raise ValueError.
(** a.reshape(dims). *)
Definition reshape (dims : list nat) (a : nd) : res nd :=
  if (length (data a) =? size dims)%nat then Ok (mkA dims (data a)) else Raise ValueError.
(** x.shape[0]. *)
Definition shape0 (a : nd) : res nat := match shape a with n :: _ => Ok n | [] => Raise IndexError end.
(** np.array([a]). *)
Definition box (a : nd) : nd := mkA (1%nat :: shape a) (data a).
(** np.array([]). *)
Definition empty : nd := mkA [0%nat] [].

(** ** Text files: rows of numbers *)
Definition file := list (list xr).
Fixpoint chunk (n m : nat) (l : list xr) : list (list xr) :=
  match n with O => [] | S n' => firstn m l :: chunk n' m (skipn m l) end.

Section Text.
  (** What a number becomes by printing it with '%1.7e' and parsing the text. *)
  Variable rnd : xr -> xr.

  (** np.savetxt(fname, a, fmt='%1.7e'): a one-dimensional array is a column; other ranks are
      refused. *)
  Definition savetxt (a : nd) : res file :=
    match shape a with
    | [n] => Ok (chunk n 1 (map rnd (data a)))
    | [n; m] => Ok (chunk n m (map rnd (data a)))
    | _ => Raise ValueError
    end.
  (** np.loadtxt(fname): blank lines are skipped, axes of length 1 removed; a file without
      numbers gives an array of shape (0,). *)
  Definition loadtxt (f : file) : nd :=
    match filter (fun r => match r with [] => false | _ => true end) f with
    | [] => empty
    | r :: rs => mkA (filter (fun n => negb (n =? 1)%nat) [length (r :: rs); length r]) (concat (r :: rs))
    end.

  (** d, q, s, minor, inter, major, obj_centers, obj_masses *)
  Record cat := mkCat { c_d : nd; c_q : nd; c_s : nd; c_minor : nd; c_inter : nd; c_major : nd; c_cent : nd; c_m : nd }.
  (** The eight files d_local..., q_local..., ... *)
  Record files := mkF { f_d : file; f_q : file; f_s : file; f_minor : file; f_inter : file; f_major : file;
                        f_m : file; f_cent : file }.

  (** l_curr_over_target and m_curr_over_target (output units, [Units]). *)
  Variables (l m : R).

  (** minor.reshape(minor.shape[0], -1), lines 460-462. *)
  Definition flat2 (a : nd) : res nd := bind (shape0 a) (fun n => reshape_infer [n] [] a).

  (** Lines 453-480 (local), 508-533 (global): what is written. *)
  Definition dump (c : cat) : res files :=
    let d := scale l (c_d c) in
    let cent := scale l (c_cent c) in
    let ms := scale m (c_m c) in
    bind (shape0 d) (fun n =>
    bind (if (n =? 0)%nat then Ok (empty, empty, empty)
          else bind (flat2 (c_minor c)) (fun a => bind (flat2 (c_inter c)) (fun b =>
               bind (flat2 (c_major c)) (fun e => Ok (a, b, e))))) (fun abe =>
    let '(a, b, e) := abe in
    bind (savetxt d) (fun fd => bind (savetxt (c_q c)) (fun fq => bind (savetxt (c_s c)) (fun fs =>
    bind (savetxt a) (fun fa => bind (savetxt b) (fun fb => bind (savetxt e) (fun fe =>
    bind (savetxt ms) (fun fm => bind (savetxt cent) (fun fc =>
    Ok (mkF fd fq fs fa fb fe fm fc))))))))))).

  (** minor.reshape(minor.shape[0], -1, 3), lines 137-139. *)
  Definition split3 (a : nd) : res nd := bind (shape0 a) (fun n => reshape_infer [n] [3%nat] a).

  (** _getShapeCatLocalBase lines 121-152. *)
  Definition load_local (f : files) : res cat :=
    let d := unscale l (loadtxt (f_d f)) in
    let q := loadtxt (f_q f) in
    let s := loadtxt (f_s f) in
    let minor := loadtxt (f_minor f) in
    let inter := loadtxt (f_inter f) in
    let major := loadtxt (f_major f) in
    let ms := unscale m (loadtxt (f_m f)) in
    let cent := unscale l (loadtxt (f_cent f)) in
    bind (shape0 d) (fun n =>
    if negb (n =? 0)%nat && (length (shape d) =? 2)%nat then
      bind (split3 minor) (fun a => bind (split3 inter) (fun b => bind (split3 major) (fun e =>
      Ok (mkCat d q s a b e cent ms))))
    else if (length (shape d) =? 1)%nat then
      bind (reshape_infer [1%nat] [3%nat] minor) (fun a => bind (reshape_infer [1%nat] [3%nat] inter) (fun b =>
      bind (reshape_infer [1%nat] [3%nat] major) (fun e => 
      bind (reshape [1%nat; 3%nat] cent) (fun cent' =>
      bind (reshape_infer [1%nat] [] d) (fun d' => bind (reshape_infer [1%nat] [] q) (fun q' =>
      bind (reshape_infer [1%nat] [] s) (fun s' => Ok (mkCat d' q' s' a b e cent' (box ms)))))))))
    else Ok (mkCat d q s empty empty empty cent ms)).

  (** _getShapeCatGlobalBase lines 197-232. *)
  Definition load_global (f : files) : res cat :=
    let d := unscale l (loadtxt (f_d f)) in
    let q := loadtxt (f_q f) in
    let s := loadtxt (f_s f) in
    let minor := loadtxt (f_minor f) in
    let inter := loadtxt (f_inter f) in
    let major := loadtxt (f_major f) in
    let ms := unscale m (loadtxt (f_m f)) in
    let cent := unscale l (loadtxt (f_cent f)) in
    match shape d with
    | [] =>
        bind (reshape_infer [1%nat] [3%nat] minor) (fun a => bind (reshape_infer [1%nat] [3%nat] inter) (fun b =>
        bind (reshape_infer [1%nat] [3%nat] major) (fun e => bind (reshape [1%nat; 3%nat] cent) (fun cent' =>
        bind (reshape [1%nat; 1%nat] d) (fun d' => bind (reshape [1%nat; 1%nat] q) (fun q' =>
        bind (reshape [1%nat; 1%nat] s) (fun s' => Ok (mkCat d' q' s' a b e cent' (box ms)))))))))
    | [n] =>
        if (n =? 0)%nat then
          if (length (data d) =? 0)%nat then Ok (mkCat d q s empty empty empty cent ms) else Raise AssertionError
        else
          bind (split3 minor) (fun a => bind (split3 inter) (fun b => bind (split3 major) (fun e =>
          bind (reshape_infer [] [1%nat] d) (fun d' => bind (reshape_infer [] [1%nat] q) (fun q' =>
          bind (reshape_infer [] [1%nat] s) (fun s' => Ok (mkCat d' q' s' a b e cent ms)))))))
    | _ => if (length (data d) =? 0)%nat then Ok (mkCat d q s empty empty empty cent ms) else Raise AssertionError
    end.

  (** ** A sequence of calls *)
  Section Calls.
    (** Selection of objects, algorithm settings (with the number of radii). *)
    Variables (sel cfg : Type) (count : sel -> nat) (radii : cfg -> nat).
    (** calcMorphLocal / calcMorphGlobal (after its reshape, lines 237-246) for a selection and
        settings. *)
    Variable compute : sel -> cfg -> cat.
    Variable load : files -> res cat.

    (** _getShapeCat...Base: existing files win, lines 120, 153-154; 196, 234-247. *)
    Definition base (st : option files) (x : sel) (k : cfg) : res cat :=
      match st with Some f => load f | None => Ok (compute x k) end.

    (** shapes[...] = a into an array with rows x columns entries of [w] components: numpy
        broadcasting of an array of the same rank; component [t] of entry (i, j). *)
    Definition pick (dim i : nat) : nat := if (dim =? 1)%nat then 0%nat else i.
    Definition assign2 (n r : nat) (a : nd) : res (nat -> nat -> xr) :=
      match shape a with
      | [b; c] => if ((b =? n) || (b =? 1))%nat && ((c =? r) || (c =? 1))%nat
                  then Ok (fun i j => nth (pick b i * c + pick c j) (data a) NaN) else Raise ValueError
      | _ => Raise ValueError
      end.
    Definition assign3 (n r : nat) (a : nd) : res (nat -> nat -> nat -> xr) :=
      match shape a with
      | [b; c; w] => if ((b =? n) || (b =? 1))%nat && ((c =? r) || (c =? 1))%nat && (w =? 3)%nat
                  then Ok (fun i j t => nth ((pick b i * c + pick c j) * 3 + t) (data a) NaN) else Raise ValueError
      | _ => Raise ValueError
      end.
    (** An entry of the structured array: d, s, q, is_conv, minor, inter, major. *)
    Record entry := mkEn { e_d : xr; e_s : xr; e_q : xr; e_conv : bool; e_minor : nat -> xr; e_inter : nat -> xr; e_major : nat -> xr }.

    (** getShapeCatLocal lines 94-107; getShapeCatGlobal 130-143 is the case of one column. *)
    Definition answer (n r : nat) (c : cat) : res (nat -> nat -> entry) :=
      bind (assign2 n r (scale l (c_d c))) (fun d => bind (assign2 n r (c_q c)) (fun q => bind (assign2 n r (c_s c)) (fun s =>
      bind (assign3 n r (c_minor c)) (fun a => bind (assign3 n r (c_inter c)) (fun b => bind (assign3 n r (c_major c)) (fun e =>
      Ok (fun i j => mkEn (d i j) (s i j) (q i j) (negb (xisnan (q i j))) (a i j) (b i j) (e i j)))))))).
    Definition query (st : option files) (x : sel) (k : cfg) : res (nat -> nat -> entry) :=
      bind (base st x k) (answer (count x) (radii k)).

    (** dumpShapeCat...: the files are written only if nothing raises before. *)
    Definition dump_call (st : option files) (x : sel) (k : cfg) : option files :=
      match bind (base st x k) dump with Ok f => Some f | Raise _ => st end.

    (** Calls on an object with a given CAT_DEST, suffix and snapshot. *)
    Inductive call := Dump (x : sel) (k : cfg) | Query (x : sel) (k : cfg).
    Definition step (st : option files) (o : call) : option files :=
      match o with Dump x k => dump_call st x k | Query _ _ => st end.
    Definition after (h : list call) : option files := fold_left step h None.
  End Calls.
End Text.
