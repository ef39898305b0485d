(** * What the header of a snapshot is, however it was written *)
From Coq Require Import String ZArith Reals List.
From Verif Require Import GadgetModel GadgetSpec HeaderModel.
Import ListNotations.
Local Open Scope Z_scope.

(** The attributes of an HDF5 snapshot with this header. *)
Definition h5_holds (h : head) (a : attributes) : Prop :=
  number a "Time" = Some (time h) /\ number a "Redshift" = Some (redshift h) /\ number a "BoxSize" = Some (boxsize h) /\
  number a "NumFilesPerSnapshot" = Some (filenum h) /\ number a "Omega0" = Some (omega_m h) /\ number a "OmegaLambda" = Some (omega_l h) /\
  number a "HubbleParam" = Some (hubble h) /\ number a "Flag_Cooling" = Some (cooling h) /\
  array a "MassTable" = Some (massarr h) /\ array a "NumPart_ThisFile" = Some (npart h) /\ array a "NumPart_Total" = Some (nall h).
(** Every HDF5 file begins with these bytes. *)
Definition h5_signature : list Z := [137; 72; 68; 70; 13; 10; 26; 10].
(** A file with the header h: Gadget's format 1 or 2 in either byte order, or HDF5. *)
Inductive way := Format1 (o : order) | Format2 (o : order) | AsHdf5.
Definition holds (w : way) (h : head) (n : node) : Prop :=
  match w, n with
  | Format1 o, Plain bs => exists rest, bs = start1 o h ++ rest
  | Format2 o, Plain bs => exists rest, bs = start2 o h ++ rest
  | AsHdf5, H5 a bs => h5_holds h a /\ exists rest, bs = h5_signature ++ rest
  | _, _ => False
  end.
(** The first file of the snapshot [s]: the names that Gadget gives to a single file and to the first of
    several. *)
Definition first_file (w : way) (several : bool) (s : string) : string :=
  (s ++ match w, several with AsHdf5, false => ".hdf5" | AsHdf5, true => ".0.hdf5" | _, false => "" | _, true => ".0" end)%string.
(** Nothing else has a name that could be taken for the snapshot. *)
Definition alone (fs : string -> option node) (s first : string) : Prop :=
  forall c, In c [s; s ++ ".0"; s ++ ".hdf5"; s ++ ".0.hdf5"]%string -> c <> first -> fs c = None.
(** The numbers a user reads from the object are those of the header. *)
Definition same_numbers (h : head) (s : snap_head) : Prop :=
  s_time s = time h /\ s_redshift s = redshift h /\ s_boxsize s = boxsize h /\ s_filenum s = filenum h /\ s_omega_m s = omega_m h /\
  s_omega_l s = omega_l h /\ s_hubble s = hubble h /\ s_massarr s = massarr h /\ s_npart s = npart h /\ s_nall s = nall h /\ s_cooling s = cooling h.
Definition format_shown (w : way) : option Z := match w with Format1 _ => Some 1 | Format2 _ => Some 2 | AsHdf5 => None end.

(** The expansion rate in km/s/(Mpc/h), squared, in units of 100: Friedmann's equation with curvature. *)
Definition friedmann (m l z : R) : R := (m * (1 + z) ^ 3 + (1 - m - l) * (1 + z) ^ 2 + l)%R.
Definition is_rate (m l z H : R) : Prop := (0 <= H)%R /\ (H ^ 2 = 10000 * friedmann m l z)%R.
