(** calcObjCat of gadget/gen_catalogues.pyx once more, with the C ints of the compiled code: 32 bits, two's
    complement, wrapping around (python extensions are compiled with -fwrapv). The threads and the shared arrays
    are in CatModel (C19, C20 show that they do not matter); here the iterations run one after the other.
    Also the 32-bit offsets with which the profile functions cut the catalogue. *)
From Coq Require Import List ZArith Bool.
Import ListNotations.
Open Scope Z_scope.

(** Assignment to a C int: lines 23-35, 61-65. *)
Definition w32 (z : Z) : Z := (z + 2 ^ 31) mod 2 ^ 32 - 2 ^ 31.
(** idx_sum = idx_sum + a[q], start_idx = start_idx + a[q] over q in range(p): lines 68-70 and 80-84. *)
Definition sum32 (l : list Z) : Z := fold_left (fun acc x => w32 (acc + x)) l 0.
(** a[i] of a memoryview, negative indices from the end; reading outside gives an unspecified value, here 0:
    lines 71-73 and 85. *)
Definition at32 (a : list Z) (i : Z) : Z := nth (Z.to_nat (if i <? 0 then i + Z.of_nat (length a) else i)) a 0.

(** The while loop of calcCSHIdxs, lines 32-34: the cells from l - start_idx on. *)
Fixpoint fill (cells : list Z) (l lim : Z) : list Z :=
  match cells with
  | [] => []
  | c :: cs => if l <? lim then l :: fill cs (w32 (l + 1)) lim else c :: cs
  end.
(** calcCSHIdxs, lines 12-35. *)
Definition calcCSHIdxs32 (obj_idxs : list Z) (start_idx nb_sh csh_size minp : Z) : list Z :=
  if 0 <? nb_sh then
    if minp <=? csh_size then fill obj_idxs start_idx (w32 (start_idx + csh_size)) else obj_idxs
  else obj_idxs.

(** calcObjCat, lines 56-91. The rows of obj_cat are in the order of the halos that pass (lines 76-77), so row and
    halo are paired directly. [None]: np.max of an empty array (line 75). *)
Definition calcObjCat32 {A} (zero : A) (nb_shs sh_len fof_sizes : list Z) (group_r200 : list A) (minp : Z)
  : option (list Z * list A * list Z) :=
  let nb_halos := length nb_shs in
  let idx_sum p := sum32 (firstn p nb_shs) in
  let start_idx p := sum32 (firstn p fof_sizes) in
  let pass p := (0 <? nth p nb_shs 0) && (minp <=? at32 sh_len (idx_sum p)) in
  let size p := if pass p then at32 sh_len (idx_sum p) else 0 in
  match nb_halos with
  | O => None
  | _ =>
      let cols := fold_left Z.max (map size (seq 0 nb_halos)) 0 in
      let kept := filter pass (seq 0 nb_halos) in
      let row p := calcCSHIdxs32 (repeat 0 (Z.to_nat cols)) (start_idx p) (nth p nb_shs 0) (at32 sh_len (idx_sum p)) minp in
      Some (flat_map (fun p => firstn (Z.to_nat (size p)) (row p)) kept,
            map (fun p => nth p group_r200 zero) kept,
            map size kept)
  end.

(** np.int32(np.hstack((0, np.cumsum(obj_size)))) : dens_profs_algos.pyx lines 36, 80, 152, 248,
    shape_profs_algos.pyx lines 557, 669, 782, 901, shape_profs_classes.pyx lines 163, 258. cumsum counts with 64 bits. *)
Definition offsets32 (obj_size : list Z) : list Z :=
  map (fun k => w32 (fold_right Z.add 0 (firstn k obj_size))) (seq 0 (S (length obj_size))).
(** The particle that xyz[i] reads among N particles, e.g. shape_profs_algos.pyx lines 593-597. *)
Definition picked (N i : Z) : Z := if i <? 0 then i + N else i.
