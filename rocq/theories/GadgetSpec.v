(** Layout of Gadget files, independent of the reader. *)
From Coq Require Import ZArith List.
Import ListNotations.
Local Open Scope Z_scope.

Inductive order := LE | BE.
(** The k bytes of v, least or most significant first. *)
Definition bytes_of (o : order) (k : nat) (v : Z) : list Z :=
  map (fun i => (v / 256 ^ Z.of_nat i) mod 256) (match o with LE => seq 0 k | BE => rev (seq 0 k) end).
(** A Fortran record: the payload between two copies of its length. *)
Definition marker (o : order) (payload : list Z) : list Z := bytes_of o 4 (Z.of_nat (length payload)).
Definition frecord (o : order) (payload : list Z) : list Z := marker o payload ++ payload ++ marker o payload.
Definition frecords (o : order) (payloads : list (list Z)) : list Z := concat (map (frecord o) payloads).
(** Format 2: each record is preceded by a record of 8 bytes, a name of four letters and a number. *)
Definition named (o : order) (r : list Z * Z * list Z) : list Z :=
  let '(name, next, payload) := r in bytes_of o 4 8 ++ name ++ bytes_of o 4 next ++ bytes_of o 4 8 ++ frecord o payload.

(** The header. Integers are int32 (nall: uint32), real numbers 64-bit patterns; [fill] pads it to 256 bytes. *)
Record head := mkHead {
  npart : list Z; massarr : list Z; time : Z; redshift : Z; sfr : Z; feedback : Z; nall : list Z; cooling : Z; filenum : Z;
  boxsize : Z; omega_m : Z; omega_l : Z; hubble : Z; padding : list Z }.
Definition int32 (v : Z) : Prop := - 2 ^ 31 <= v < 2 ^ 31.
Definition uint32 (v : Z) : Prop := 0 <= v < 2 ^ 32.
Definition uint64 (v : Z) : Prop := 0 <= v < 2 ^ 64.
Definition head_ok (h : head) : Prop :=
  length (npart h) = 6%nat /\ length (massarr h) = 6%nat /\ length (nall h) = 6%nat /\ length (padding h) = 96%nat /\
  Forall int32 (npart h) /\ Forall uint64 (massarr h) /\ Forall uint32 (nall h) /\
  uint64 (time h) /\ uint64 (redshift h) /\ int32 (sfr h) /\ int32 (feedback h) /\ int32 (cooling h) /\ int32 (filenum h) /\
  uint64 (boxsize h) /\ uint64 (omega_m h) /\ uint64 (omega_l h) /\ uint64 (hubble h).
Definition fields (h : head) : list (nat * Z) :=
  map (fun v => (4%nat, v mod 2 ^ 32)) (npart h) ++ map (fun v => (8%nat, v)) (massarr h) ++
  [(8%nat, time h); (8%nat, redshift h); (4%nat, sfr h mod 2 ^ 32); (4%nat, feedback h mod 2 ^ 32)] ++
  map (fun v => (4%nat, v)) (nall h) ++
  [(4%nat, cooling h mod 2 ^ 32); (4%nat, filenum h mod 2 ^ 32); (8%nat, boxsize h); (8%nat, omega_m h); (8%nat, omega_l h); (8%nat, hubble h)].
Definition head_bytes (o : order) (h : head) : list Z := concat (map (fun f => bytes_of o (fst f) (snd f)) (fields h)) ++ padding h.
(** The beginning of a file: format 1 or 2. *)
Definition start1 (o : order) (h : head) : list Z := frecord o (head_bytes o h).
Definition HEAD : list Z := [72; 69; 65; 68].
Definition start2 (o : order) (h : head) : list Z := named o (HEAD, 264, head_bytes o h).
