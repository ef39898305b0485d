(** * getHeader: shape_profs_classes.pyx lines 847-852 and the class header of readgadget.py, lines 34-71

    Floating point numbers are 64-bit patterns as in GadgetModel.v. *)
From Coq Require Import String Bool ZArith Reals List.
From Verif Require Import GadgetModel.
Import ListNotations.
Local Open Scope Z_scope.

(** The attributes of the group Header of an HDF5 file, numbers and arrays of numbers. Simplification: a
    number is a scalar and has 64 bits (integers as such, real numbers as patterns). *)
Record attributes := mkAttr { number : string -> option Z; array : string -> option (list Z) }.
(** What a path leads to: a folder, an ordinary file or an HDF5 file, both with their bytes. *)
Inductive node := Folder | Plain (bs : list Z) | H5 (a : attributes) (bs : list Z).
Inductive herr := Gadget (e : gerr) | KeyError.
Inductive hres (A : Type) := HOk (a : A) | HErr (e : herr).
Arguments HOk {A}. Arguments HErr {A}.
Definition hbind {A B} (x : hres A) (f : A -> hres B) : hres B := match x with HOk a => f a | HErr e => HErr e end.
Definition lift {A} (x : gres A) : hres A := match x with GOk a => HOk a | GErr e => HErr (Gadget e) end.
(** attrs[key]. *)
Definition key {A} (t : string -> option A) (k : string) : hres A := match t k with Some v => HOk v | None => HErr KeyError end.

(** The real number of a 64-bit pattern; None for infinities and nan. *)
Definition f64_value (w : Z) : option R :=
  let e := (w / 2 ^ 52) mod 2048 in
  let m := w mod 2 ^ 52 in
  let v := if e =? 0 then (IZR m * powerRZ 2 (-1074))%R else (IZR (m + 2 ^ 52) * powerRZ 2 (e - 1075))%R in
  if e =? 2047 then None else Some (if w / 2 ^ 63 =? 1 then (- v)%R else v).
(** Line 71 without rounding; None where the result is not a number or a term is not finite. *)
Definition hubble_rate (omega_m omega_l redshift : Z) : option R :=
  match f64_value omega_m, f64_value omega_l, f64_value redshift with
  | Some m, Some l, Some z => let x := (m * (1 + z) ^ 3 + l)%R in if Rlt_dec x 0 then None else Some (100 * sqrt x)%R
  | _, _, _ => None
  end.

(** The object returned. The format is 'hdf5' (None) or the number of readsnap.py. *)
Record snap_head := mkSnap {
  s_time : Z; s_redshift : Z; s_boxsize : Z; s_filenum : Z; s_omega_m : Z; s_omega_l : Z; s_hubble : Z; s_massarr : list Z; s_npart : list Z;
  s_nall : list Z; s_cooling : Z; s_format : option Z; s_Hubble : option R }.

Section Files.
  Variable fs : string -> option node.
  (** os.path.exists. *)
  Definition there (s : string) : bool := match fs s with Some _ => true | None => false end.
  (** readsnap.py lines 37-46: open(name, 'rb') raises IsADirectoryError (an OSError) on a folder. *)
  Definition open_bytes (s : string) : gres (list Z) :=
    let read n := match n with Folder => GErr GOSError | Plain bs => GOk bs | H5 _ bs => GOk bs end in
    match fs s with
    | Some n => read n
    | None => match fs (s ++ ".0")%string with Some n => read n | None => GErr (SysExit FileNotFound) end
    end.
  (** Lines 39-52. *)
  Definition head_hdf5 (a : attributes) : hres snap_head :=
    hbind (key (number a) "Time") (fun time => hbind (key (number a) "Redshift") (fun redshift => hbind (key (number a) "BoxSize") (fun boxsize =>
    hbind (key (number a) "NumFilesPerSnapshot") (fun filenum => hbind (key (number a) "Omega0") (fun omega_m => hbind (key (number a) "OmegaLambda") (fun omega_l =>
    hbind (key (number a) "HubbleParam") (fun hubble => hbind (key (array a) "MassTable") (fun massarr => hbind (key (array a) "NumPart_ThisFile") (fun npart =>
    hbind (key (array a) "NumPart_Total") (fun nall => hbind (key (number a) "Flag_Cooling") (fun cooling =>
    HOk (mkSnap time redshift boxsize filenum omega_m omega_l hubble massarr npart nall cooling None (hubble_rate omega_m omega_l redshift))))))))))))).
  (** Lines 55-68. *)
  Definition head_binary (h : header) : snap_head :=
    mkSnap (h_time h) (h_redshift h) (h_boxsize h) (h_filenum h) (h_omega_m h) (h_omega_l h) (h_hubble h) (h_massarr h) (h_npart h) (h_nall h)
      (h_cooling h) (Some (h_format h)) (hubble_rate (h_omega_m h) (h_omega_l h) (h_redshift h)).
  (** Lines 34-71; h5py.File raises OSError on anything that is not an HDF5 file. *)
  Definition get_header (snapshot : string) : hres snap_head :=
    hbind (lift (fname_format there snapshot)) (fun r => match r with
      | (name, Hdf5) => match fs name with Some (H5 a _) => head_hdf5 a | _ => HErr (Gadget GOSError) end
      | (name, Binary) => hbind (lift (gbind (open_bytes name) parse_header)) (fun h => HOk (head_binary h))
      end).
End Files.
