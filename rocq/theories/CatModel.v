(** Object catalogues: common/python_routines.py (isValidSelection, getSubSetIdxCat), the
    direct-input constructors, gadget/gen_catalogues.pyx and the MPI part of
    gadget/read_fof.py. 32-bit overflow of particle counts is
    modelled in Cat32Model. *)
From Coq Require Import List ZArith QArith Qround Bool Lia.
From Verif Require Import ParModel.
Import ListNotations.

(** Exceptions. *)
Inductive cerr := CValueError | CIndexError.

(** ** isValidSelection, python_routines.py lines 611-636 *)

(** numpy round: to the nearest integer, ties to even (line 625). *)
Definition np_round (x : Q) : Z :=
  let f := Qfloor x in
  let d := (x - inject_Z f)%Q in
  if Qle_bool d (1 # 2) then
    (if Qeq_bool d (1 # 2) then (if Z.even f then f else (f + 1)%Z) else f)
  else (f + 1)%Z.

(** np.unique keeps one of each value; only its length is used (line 631). *)
Fixpoint np_unique (l : list Q) : list Q :=
  match l with
  | [] => []
  | x :: l' => if existsb (Qeq_bool x) l' then np_unique l' else x :: np_unique l'
  end.

(** np.max of a non-empty array (line 634). *)
Definition np_max (l : list Q) : Q :=
  match l with
  | [] => 0
  | x :: l' => fold_left (fun m y => if Qle_bool m y then y else m) l' x
  end.

(** Entries are finite floating point numbers, i.e. rationals. Lines 622-636. *)
Definition isValidSelection (obj_numbers : list Q) (nb_objects : Z) : bool + cerr :=
  if Nat.eqb (length obj_numbers) 0 then inr CValueError
  else if negb (Nat.eqb (length (filter (fun x => negb (Qeq_bool x (inject_Z (np_round x)))) obj_numbers)) 0)
       then inr CValueError
  else if negb (Nat.eqb (length (filter (fun x => negb (Qle_bool 0 x)) obj_numbers)) 0)
       then inr CValueError
  else if negb (Nat.eqb (length (np_unique obj_numbers)) (length obj_numbers))
       then inr CValueError
  else if Qle_bool (inject_Z nb_objects) (np_max obj_numbers) then inr CValueError
  else inl true.

(** The argument of a public method: a Python list or an array. *)
Inductive selection := SelList (l : list Q) | SelArray (l : list Q).

(** np.int32(list) truncates towards zero. *)
Definition trunc (x : Q) : Z := if Qle_bool 0 x then Qfloor x else Qceiling x.

(** Public methods, e.g. dens_profs_classes.pyx lines 105-109: lists are converted to
    int32 before they are validated. The result is the array used afterwards. *)
Definition select (s : selection) (nb_objects : Z) : list Q + cerr :=
  let arr := match s with
             | SelList l => map (fun x => inject_Z (trunc x)) l
             | SelArray l => l
             end in
  match isValidSelection arr nb_objects with
  | inl _ => inl arr
  | inr e => inr e
  end.

(** ** getSubSetIdxCat, python_routines.py lines 638-654 *)

(** np.cumsum. *)
Fixpoint cumsum (acc : nat) (l : list nat) : list nat :=
  match l with
  | [] => []
  | x :: l' => (acc + x)%nat :: cumsum (acc + x) l'
  end.

(** a[i:j] for 0 <= i, j. *)
Definition slice {X} (i j : nat) (l : list X) : list X := firstn (j - i) (skipn i l).

(** Lines 650-654; [None] is IndexError on offsets[p] or offsets[p+1]. *)
Definition getSubSetIdxCat {X} (idx_cat : list X) (obj_size : list nat) (obj_numbers : list nat)
  : option (list X) :=
  let offsets := 0%nat :: cumsum 0 obj_size in
  fold_left (fun acc p =>
    match acc, nth_error offsets p, nth_error offsets (p + 1) with
    | Some out, Some i, Some j => Some (out ++ slice i j idx_cat)
    | _, _, _ => None
    end) obj_numbers (Some []).

(** ** Direct-input constructor, shape_profs_classes.pyx lines 489-514 (the same code is
    in dens_profs_classes.pyx) *)

(** np.nonzero()[0]: indices of the non-zero entries. *)
Definition nonzero (l : list nat) : list nat :=
  map fst (filter (fun ix => negb (Nat.eqb (snd ix) 0)) (combine (seq 0 (length l)) l)).

(** a[idxs], fancy indexing; [None] is IndexError. *)
Fixpoint take {X} (l : list X) (idxs : list nat) : option (list X) :=
  match idxs with
  | [] => Some []
  | i :: is => match nth_error l i, take l is with
               | Some x, Some xs => Some (x :: xs)
               | _, _ => None
               end
  end.

(** User argument idx_cat: one flat list or a list of lists (lines 493-494). *)
Inductive idxarg := Flat (l : list nat) | Nested (l : list (list nat)).

(** Lines 490-514: cat_arr, r200 and obj_size as passed to super().__init__; [scale] is
    the multiplication by l_curr_over_target (lines 511, 513). Scalars r200 are passed as
    a one-element list (491-492). [None]: idx_cat[0] on an empty list (493), or an index
    beyond the end of r200 (513). *)
Definition construct_cat {A} (scale : A -> A) (idx_cat : idxarg) (r200 : list A) (minp : Z)
  : option (list nat * list A * list nat) :=
  let objs := match idx_cat with
              | Flat [] => None
              | Flat l => Some [l]
              | Nested [] => None
              | Nested l => Some l
              end in
  match objs with
  | None => None
  | Some objs =>
      let pass_size := map (fun o => if (minp <=? Z.of_nat (length o))%Z
                                     then (1%nat, length o) else (0%nat, 0%nat)) objs in
      let obj_pass := map fst pass_size in
      let obj_size := map snd pass_size in
      let cat_arr := fold_left (fun acc p =>
            match nth_error obj_pass p, nth_error objs p with
            | Some 1%nat, Some o => acc ++ o
            | _, _ => acc
            end) (seq 0 (length objs)) [] in
      match take r200 (nonzero obj_pass), take obj_size (nonzero obj_pass) with
      | Some r, Some sz => Some (cat_arr, map scale r, sz)
      | _, _ => None
      end
  end.

(** ** calcObjCat, gen_catalogues.pyx lines 39-95 *)
Section CalcObjCat.
  Variable A : Type.
  Variable zero : A.

  (** Locations: entries of obj_pass, obj_size, h_r200, obj_cat, and the thread-private
      variables idx_sum and start_idx (lines 58-65, 75). *)
  Inductive loc :=
  | LPass (p : nat) | LSize (p : nat) | LR200 (p : nat) | LCat (row col : nat)
  | LIdxSum (t : nat) | LStart (t : nat).
  (** Contents: C ints or doubles. *)
  Inductive val := I (n : nat) | D (a : A).

  (** Decidable equality of locations. *)
  Definition loc_eq (x y : loc) : {x = y} + {x <> y}.
  Proof. decide equality; apply Nat.eq_dec. Defined.

  Notation mem := (mem loc val).
  Notation act := (act loc val).

  (** Integer contents. *)
  Definition geti (m : mem) (x : loc) : nat := match m x with I n => n | D _ => 0%nat end.
  (** Double contents. *)
  Definition getd (m : mem) (x : loc) : A := match m x with D a => a | I _ => zero end.
  (** Store. *)
  Definition upd (m : mem) (x : loc) (v : val) : mem :=
    fun y => if loc_eq y x then v else m y.

  Section Arrays.
    (** The read-only input arrays. *)
    Variables nb_shs sh_len fof_sizes : list nat.
    Variable group_r200 : list A.
    Variable minp : Z.
    (** Number of halos (line 57). *)
    Definition nb_halos := length nb_shs.

    (** Reading beyond the end of an input array gives an unspecified value, here 0. *)
    Definition at_ (l : list nat) (i : nat) : nat := nth i l 0%nat.

    (** Lines 66-74, iteration [p] on thread [t], one action per assignment. *)
    Definition body1 (t p : nat) : list act :=
      (if Nat.ltb 0 (at_ nb_shs p) then
         (fun m => upd m (LIdxSum t) (I 0))
         :: map (fun q m => upd m (LIdxSum t) (I (geti m (LIdxSum t) + at_ nb_shs q))) (seq 0 p)
         ++ [ (fun m => if (minp <=? Z.of_nat (at_ sh_len (geti m (LIdxSum t))))%Z
                        then upd m (LPass p) (I 1) else m);
              (fun m => if (minp <=? Z.of_nat (at_ sh_len (geti m (LIdxSum t))))%Z
                        then upd m (LSize p) (I (at_ sh_len (geti m (LIdxSum t)))) else m) ]
       else [])
      ++ [ (fun m => upd m (LR200 p) (D (nth p group_r200 zero))) ].

    (** Lines 58-60, 75: arrays are allocated with zeros. *)
    Definition mem0 (priv : nat -> nat * nat) : mem := fun x =>
      match x with
      | LPass _ | LSize _ | LCat _ _ => I 0
      | LR200 _ => D zero
      | LIdxSum t => I (fst (priv t))
      | LStart t => I (snd (priv t))
      end.

    (** The contents of the arrays after the first loop. *)
    Definition pass_of (m : mem) : list nat := map (fun p => geti m (LPass p)) (seq 0 nb_halos).
    Definition size_of (m : mem) : list nat := map (fun p => geti m (LSize p)) (seq 0 nb_halos).
    Definition r200_of (m : mem) : list A := map (fun p => getd m (LR200 p)) (seq 0 nb_halos).

    (** Lines 76-77: idxs_compr[nonzero] = arange(sum). *)
    Definition idxs_compr (pass : list nat) (p : nat) : nat :=
      length (filter (fun q => negb (Nat.eqb (at_ pass q) 0)) (seq 0 p)).

    (** calcCSHIdxs, lines 12-35, followed by the copy of the row onto itself in line 85
        (no effect). A store outside obj_cat's shape (rows, cols) is dropped. *)
    Definition cshActs (rows cols row t p : nat) : list act :=
      map (fun k m =>
             if (Nat.ltb 0 (at_ nb_shs p) &&
                 (minp <=? Z.of_nat (at_ sh_len (geti m (LIdxSum t))))%Z &&
                 Nat.ltb k (at_ sh_len (geti m (LIdxSum t))) &&
                 Nat.ltb row rows && Nat.ltb k cols)%bool
             then upd m (LCat row k) (I (geti m (LStart t) + k)) else m)
          (seq 0 cols).

    (** Lines 78-85, iteration [p] on thread [t]. *)
    Definition body2 (pass : list nat) (rows cols : nat) (t p : nat) : list act :=
      if Nat.eqb (at_ pass p) 1 then
        (fun m => upd m (LIdxSum t) (I 0)) :: (fun m => upd m (LStart t) (I 0))
        :: flat_map (fun q =>
             [ (fun m => upd m (LIdxSum t) (I (geti m (LIdxSum t) + at_ nb_shs q)));
               (fun m => upd m (LStart t) (I (geti m (LStart t) + at_ fof_sizes q))) ])
             (seq 0 p)
        ++ cshActs rows cols (idxs_compr pass p) t p
      else [].

    (** A run of calcObjCat. [None]: np.max of an empty array raises ValueError (line 75).
        Lines 57-90. *)
    Inductive calcObjCat : option (list nat * list A * list nat) -> Prop :=
    | coc_empty : nb_halos = 0%nat -> calcObjCat None
    | coc_run : forall priv m1 m2 sizes r200s,
        nb_halos <> 0%nat ->
        prange loc val nb_halos body1 (mem0 priv) m1 ->
        let pass := pass_of m1 in
        let rows := list_sum pass in
        let cols := list_max (size_of m1) in
        prange loc val nb_halos (body2 pass rows cols) m1 m2 ->
        take (size_of m1) (nonzero pass) = Some sizes ->
        take (r200_of m1) (nonzero pass) = Some r200s ->
        calcObjCat (Some (fold_left (fun out p =>
             out ++ slice 0 (at_ sizes p) (map (fun k => geti m2 (LCat p k)) (seq 0 cols)))
             (seq 0 rows) [], r200s, sizes)).
  End Arrays.
End CalcObjCat.

(** ** MPI distribution of the group files, read_fof.py *)
Section MPI.
  (** Lines 57-62 and 67: first file and end of the range of [rank] among [size]. *)
  Definition perrank (n size : nat) : nat :=
    (n / size + (if Nat.eqb (n / size) 0 then 1 else 0))%nat.
  Definition is_last (n size rank : nat) : bool :=   (* lines 59-62 *)
    if Nat.leb size n then Nat.eqb rank (size - 1) else Z.eqb (Z.of_nat rank) (Z.of_nat n - 1).
  (** Python range(a, b) with integer (possibly negative) end, line 67. *)
  Definition zrange (a b : Z) : list nat := map Z.to_nat (map (fun k => (a + Z.of_nat k)%Z) (seq 0 (Z.to_nat (b - a)))).
  Definition my_files (n size rank : nat) : list nat :=   (* line 67 *)
    let pr := Z.of_nat (perrank n size) in
    let rk := Z.of_nat rank in
    let do_sth := if (rk <=? Z.of_nat n - 1)%Z then 1%Z else 0%Z in
    let last := if is_last n size rank then 1%Z else 0%Z in
    zrange (rk * pr) (rk * pr + do_sth * (pr + last * (Z.of_nat n - (rk + 1) * pr)))%Z.

  Variable X : Type.
  Variable files : list (list X).          (* one table per file, in file order *)

  (** Lines 68-81: what a rank has read. *)
  Definition local_table (size rank : nat) : list X :=
    flat_map (fun i => nth i files []) (my_files (length files) size rank).

  (** Lines 83-90: counts and displacements. *)
  Definition counts (size : nat) : list nat :=
    map (fun r => length (local_table size r)) (seq 0 size).
  Definition displs (size : nat) : list nat :=
    map (fun j => list_sum (firstn j (counts size))) (seq 0 (length (counts size))).

  (** comm.Gatherv with counts and displacements into a receive buffer whose previous
      contents are arbitrary (np.empty), lines 100-108: the segment of rank r is stored at
      displs[r]. *)
  Definition store (buf : list X) (off : nat) (seg : list X) : list X :=
    firstn off buf ++ seg ++ skipn (off + length seg) buf.
  Definition gatherv (size : nat) (garbage : list X) : list X :=
    fold_left (fun buf r => store buf (nth r (displs size) 0%nat) (local_table size r))
              (seq 0 size) garbage.

  (** Lines 110-132: chunked broadcast. [limit] is 3*10**8. [total] is the gathered
      buffer on the root; a broadcast delivers the root's slice to every rank. *)
  Definition pieces (limit nb : nat) : nat :=
    (1 + (if Nat.leb limit nb then nb else 0) / limit)%nat.
  Definition bcast_chunks (limit : nat) (total : list X) : list X :=
    let nb := length total in
    let pc := pieces limit nb in
    let chunk := (nb / pc)%nat in
    fold_left (fun out i =>
        out ++ slice (i * chunk)
                     ((i + 1) * chunk + (if Nat.eqb i (pc - 1) then nb - pc * chunk else 0)) total)
      (seq 0 pc) [].

  (** The table every rank ends up with. *)
  Definition collected (limit size : nat) (garbage : list X) : list X :=
    bcast_chunks limit (gatherv size garbage).
End MPI.

(** ** Order of the files, read_fof.py lines 50-55: glob returns the names in arbitrary
    order; they are sorted by the number in the name. np.argsort is not stable, so any
    index permutation that sorts the keys may be returned. *)
Definition argsort_result (keys : list Z) (perm : list nat) : Prop :=
  Permutation.Permutation perm (seq 0 (length keys)) /\
  forall i j, (i < j < length perm)%nat ->
    (nth (nth i perm 0%nat) keys 0 <= nth (nth j perm 0%nat) keys 0)%Z.
Definition sorted_files {F} (key : F -> Z) (globbed : list F) (out : list F) : Prop :=
  exists perm, argsort_result (map key globbed) perm /\ take globbed perm = Some out.

(** The number in a file name, read_fof.py line 54: re.split('(\d+)', file)[-4]. Names are
    lists of ASCII codes; np.int32 overflow is not modelled. *)
Definition isdigit (c : nat) : bool := (Nat.leb 48 c && Nat.leb c 57)%bool.
(** re.split with a capturing group: texts and digit runs alternate, starting and ending
    with a text. [cur] is the piece being read, [indigit] its kind. *)
Fixpoint re_split (cur : list nat) (indigit : bool) (l : list nat) : list (list nat) :=
  match l with
  | [] => if indigit then [cur; []] else [cur]
  | c :: l' =>
      if isdigit c
      then (if indigit then re_split (cur ++ [c]) true l' else cur :: re_split [c] true l')
      else (if indigit then cur :: re_split [c] false l' else re_split (cur ++ [c]) false l')
  end.
(** l[-k]; [None] is IndexError. *)
Definition neg_index {X} (l : list X) (k : nat) : option X := nth_error (rev l) (k - 1).
(** np.int32 of a digit string; [None] is ValueError. *)
Definition parse_int (l : list nat) : option Z :=
  match l with
  | [] => None
  | _ => if forallb isdigit l
         then Some (fold_left (fun a c => (10 * a + Z.of_nat (c - 48))%Z) l 0%Z) else None
  end.
Definition file_number (name : list nat) : option Z :=   (* line 54 *)
  match neg_index (re_split [] false name) 4 with
  | Some d => parse_int d
  | None => None
  end.
