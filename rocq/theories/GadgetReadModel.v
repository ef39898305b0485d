(** * readgadget.py: headers and blocks of snapshots in binary or HDF5 files

    Values are bit patterns as in GadgetModel.v. An HDF5 file is a table: the attributes of its header that
    are used and, for each species and block, the dataset if there is one. *)
From Coq Require Import String Bool ZArith List.
From Verif Require Import GadgetModel.
Import ListNotations.
Open Scope Z_scope.

(** A numpy array with one or with three columns. *)
Inductive field := Flat (xs : list Z) | Rows (rows : list item).
Record hfile := mkHfile { f_npart : list Z; f_nall : list Z; f_filenum : Z; f_massarr : list Z; f_time : Z; f_data : nat -> string -> option field }.

Definition clip (data : list cell) (off n : nat) : nat := (Nat.min (off + n) (length data) - Nat.min off (length data))%nat.
Definition splice (data : list cell) (off : nat) (xs : list cell) : list cell := firstn off data ++ xs ++ skipn (off + length xs) data.
(** array[off:off+n] = f with the broadcasting of numpy: one entry, or three numbers for rows of three.
    Simplification: a dataset with three columns in place of one with a single column raises. *)
Definition put (w : nat) (data : list cell) (off n : nat) (f : field) : gres (list cell) :=
  let k := clip data off n in
  match f, w with
  | Rows rows, 3%nat => if Nat.eqb (length rows) k then GOk (splice data off (map Some rows))
                        else if Nat.eqb (length rows) 1 then GOk (splice data off (repeat (Some (nth 0 rows [])) k)) else GErr GValueError
  | Flat xs, 3%nat => if Nat.eqb (length xs) 3 then GOk (splice data off (repeat (Some xs) k))
                      else if Nat.eqb (length xs) 1 then GOk (splice data off (repeat (Some (repeat (nth 0 xs 0) 3)) k)) else GErr GValueError
  | Flat xs, _ => if Nat.eqb (length xs) k then GOk (splice data off (map (fun x => Some [x]) xs))
                  else if Nat.eqb (length xs) 1 then GOk (splice data off (repeat (Some [nth 0 xs 0]) k)) else GErr GValueError
  | Rows _, _ => GErr GValueError
  end.
(** The same for an array of cells from a binary file. *)
Definition put_cells (data : list cell) (off n : nat) (xs : list cell) : gres (list cell) :=
  let k := clip data off n in
  if Nat.eqb (length xs) k then GOk (splice data off xs) else if Nat.eqb (length xs) 1 then GOk (splice data off (repeat (nth 0 xs None) k)) else GErr GValueError.

(** IDs divided by 1 (lines 95 and 115): conversion of an unsigned 64-bit integer to float64, to nearest,
    ties to even. The float is given by the integer it equals. *)
Definition r53 (x : Z) : Z :=
  let e := Z.log2 x - 52 in
  if e <=? 0 then x
  else let q := x / 2 ^ e in let r := x mod 2 ^ e in let h := 2 ^ (e - 1) in
       (if r <? h then q else if h <? r then q + 1 else if Z.even q then q else q + 1) * 2 ^ e.

Section Read.
  (** Binary files and HDF5 files by name; division by the unit factor of a block; multiplication by the
      square root of the scale factor. *)
  Variables (bin : string -> option (list Z)) (h5 : string -> option hfile) (div : string -> Z -> Z) (sqrt_mul : Z -> Z -> Z).
  Definition is_file (s : string) : bool := match bin s, h5 s with None, None => false | _, _ => true end.
  (** h5py.File(filename) raises OSError on anything else. *)
  Definition h5_open (s : string) : gres hfile := match h5 s with Some f => GOk f | None => GErr GOSError end.
  (** Lines 87-100 and 145-158: columns of a block. *)
  Definition columns (block : string) : option nat :=
    if String.eqb block "POS " then Some 3%nat else if String.eqb block "MASS" then Some 1%nat else if String.eqb block "ID  " then Some 1%nat else if String.eqb block "VEL " then Some 3%nat else None.
  Definition fmap (g : Z -> Z) (f : field) : field := match f with Flat xs => Flat (map g xs) | Rows rows => Rows (map (map g) rows) end.
  (** read_field, lines 75-122, of an HDF5 file; [f] is the file under the name. *)
  Definition read_hdf5 (f : hfile) (block : string) (pt : nat) : gres field :=
    gbind (match f_data f pt block with
           | None => if fzero (nth pt (f_massarr f) 0) then GErr GException
                     else GOk (Flat (repeat (div block (nth pt (f_massarr f) 0)) (num (f_npart f) pt)))
           | Some d => GOk (fmap (div block) d)
           end) (fun a => GOk (if String.eqb block "VEL " then fmap (sqrt_mul (f_time f)) a else a)).
  (** Lines 77-78: header(filename) resolves the name again. *)
  Definition header_of (snapshot : string) : gres (header + hfile) :=
    gbind (fname_format is_file snapshot) (fun r => match r with
      | (name, Hdf5) => gbind (h5_open name) (fun f => GOk (inr f))
      | (name, Binary) => gbind (snapshot_header bin name) (fun h => GOk (inl h)) end).
  Definition nall_of (h : header + hfile) : list Z := match h with inl h => h_nall h | inr f => f_nall f end.
  Definition npart_of (h : header + hfile) : list Z := match h with inl h => h_npart h | inr f => f_npart f end.
  Definition filenum_of (h : header + hfile) : Z := match h with inl h => h_filenum h | inr f => f_filenum f end.
  (** read_field as used by read_block for HDF5 snapshots, and for the type of the IDs (line 153). *)
  Definition read_field (snapshot block : string) (pt : nat) : gres (field + list cell) :=
    gbind (fname_format is_file snapshot) (fun r => let (name, fmt) := r in
    gbind (header_of name) (fun _ =>
    match columns block with
    | None => GErr GException
    | Some _ => match fmt with
      | Binary => gbind (read_block bin sqrt_mul name block (Z.of_nat pt) 0 0) (fun a => GOk (inr (map (option_map (map (div block))) a)))
      | Hdf5 => gbind (h5_open name) (fun f => gbind (read_hdf5 f block pt) (fun a => GOk (inl a)))
      end
    end)).
  Definition put_any (w : nat) (data : list cell) (off n : nat) (a : field + list cell) : gres (list cell) :=
    match a with inl f => put w data off n f | inr xs => put_cells data off n xs end.
  (** Lines 181-189. *)
  Fixpoint over_files (is : list nat) (snapshot block : string) (w pt : nat) (data : list cell) (off : nat) : gres (list cell * nat) :=
    match is with
    | [] => GOk (data, off)
    | i :: is =>
      let name := (snapshot ++ "." ++ str_of_nat i ++ ".hdf5")%string in
      gbind (header_of name) (fun h => let n := num (npart_of h) pt in
      gbind (read_field name block pt) (fun a =>
      gbind (put_any w data off n a) (fun data => over_files is snapshot block w pt data (off + n))))
    end.
  (** Lines 165-189. *)
  Fixpoint over_types (pts : list nat) (snapshot block : string) (w : nat) (fmt : fformat) (nall : list Z) (filenum : Z) (data : list cell) (off : nat) : gres (list cell * nat) :=
    match pts with
    | [] => GOk (data, off)
    | pt :: pts =>
      gbind (match fmt with
             | Binary => gbind (read_block bin sqrt_mul snapshot block (Z.of_nat pt) 0 0) (fun a =>
                         gbind (put_cells data off (num nall pt) (map (option_map (map (div block))) a)) (fun data => GOk (data, off + num nall pt)%nat))
             | Hdf5 => if filenum =? 1 then gbind (read_field snapshot block pt) (fun a => gbind (put_any w data off (num nall pt) a) (fun data => GOk (data, off + num nall pt)%nat))
                       else over_files (seq 0 (Z.to_nat filenum)) snapshot block w pt data off
             end) (fun s => let (data, off) := s in over_types pts snapshot block w fmt nall filenum data off)
    end.
  (** read_block, lines 127-194. *)
  Definition read (snapshot block : string) (pts : list nat) : gres (list cell) :=
    gbind (fname_format is_file snapshot) (fun r => let (name, fmt) := r in
    gbind (header_of name) (fun h =>
    let total := list_sum (map (num (nall_of h)) pts) in
    match columns block with
    | None => GErr GException
    | Some w =>
      gbind (if String.eqb block "ID  " then match pts with [] => GErr GIndexError | pt :: _ => gbind (read_field name block pt) (fun _ => GOk tt) end else GOk tt) (fun _ =>
      gbind (over_types pts snapshot block w fmt (nall_of h) (filenum_of h) (repeat (Some (repeat 0 w)) total) 0%nat) (fun s => let (data, off) := s in
      if Nat.eqb off total then GOk data else GErr GException))
    end)).
End Read.
