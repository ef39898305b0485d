(** Vocabulary of the catalogue properties. *)
From Coq Require Import List ZArith QArith Bool Permutation.
From Verif Require Import CatModel.
Import ListNotations.

(** A rational that is an integer. *)
Definition is_int (x : Q) : Prop := exists z, (x == inject_Z z)%Q.

(** A legal selection among [n] objects: non-empty, integers, distinct, in range. *)
Definition legal (l : list Q) (n : Z) : Prop :=
  l <> [] /\ Forall is_int l /\
  (forall i j x y, nth_error l i = Some x -> nth_error l j = Some y -> (x == y)%Q -> i = j) /\
  Forall (fun x => (0 <= x)%Q /\ (x < inject_Z n)%Q) l.

(** The group tables written halo by halo: subhalo sizes (central first), FoF size, R200. *)
Record halo (A : Type) := mkHalo { h_subs : list nat; h_fof : nat; h_r : A }.
Arguments mkHalo {A}. Arguments h_subs {A}. Arguments h_fof {A}. Arguments h_r {A}.

(** A halo is kept if it has a central subhalo of sufficient size. *)
Definition keep {A} (minp : Z) (h : halo A) : bool :=
  match h_subs h with
  | [] => false
  | s :: _ => (minp <=? Z.of_nat s)%Z
  end.
(** Size of the central subhalo. *)
Definition central {A} (h : halo A) : nat := hd 0%nat (h_subs h).

(** The halos with the index of their first particle. *)
Fixpoint with_start {A} (off : nat) (hs : list (halo A)) : list (nat * halo A) :=
  match hs with
  | [] => []
  | h :: hs' => (off, h) :: with_start (off + h_fof h) hs'
  end.

(** Particle indices, radii and sizes of the kept halos. *)
Definition wanted {A} (minp : Z) (hs : list (halo A)) : list nat * list A * list nat :=
  let ks := filter (fun oh => keep minp (snd oh)) (with_start 0 hs) in
  (flat_map (fun oh => seq (fst oh) (central (snd oh))) ks,
   map (fun oh => h_r (snd oh)) ks,
   map (fun oh => central (snd oh)) ks).

(** What the user typed. *)
Definition entries (s : selection) : list Q := match s with SelList l => l | SelArray l => l end.

(** Flat argument lists are single objects. *)
Definition objects_of (a : idxarg) : list (list nat) :=
  match a with Flat [] => [] | Flat l => [l] | Nested l => l end.

(** The objects that are large enough, with their radii. *)
Definition large {A} (minp : Z) (objs : list (list nat)) (r : list A) : list (list nat * A) :=
  filter (fun or => (minp <=? Z.of_nat (length (fst or)))%Z) (combine objs r).

(** Ascending order of numbers. *)
Definition ascending {F} (key : F -> Z) (l : list F) : Prop :=
  forall i j x y, nth_error l i = Some x -> nth_error l j = Some y -> (i < j)%nat -> (key x <= key y)%Z.

(** Decimal value of digits 0..9. *)
Fixpoint decimal (ds : list nat) : Z :=
  match ds with
  | [] => 0
  | d :: ds' => (Z.of_nat d * 10 ^ Z.of_nat (length ds') + decimal ds')%Z
  end.
(** The characters of a digit string and of ".hdf5". *)
Definition chars (ds : list nat) : list nat := map (fun d => (48 + d)%nat) ds.
Definition dot_hdf5 : list nat := [46; 104; 100; 102; 53]%nat.
