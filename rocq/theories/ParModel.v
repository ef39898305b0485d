(** Shared-memory execution of OpenMP loops (cython.parallel.prange), used by the loops
    in gadget/gen_catalogues.pyx lines 66, 78, shape_profs/shape_profs_algos.pyx and
    dens_profs/dens_profs_algos.pyx.

    Every iteration is a list of atomic actions on the shared memory; variables that
    Cython makes thread-private live at locations indexed by the thread number. A thread
    runs its iterations one after the other; the threads are interleaved arbitrarily,
    action by action. Memory is sequentially consistent. *)
From Coq Require Import List Permutation.
Import ListNotations.

Section Par.
  Variables Loc Val : Type.
  (** Shared memory and atomic actions. *)
  Definition mem := Loc -> Val.
  Definition act := mem -> mem.

  (** Running a list of actions. *)
  Definition runl (l : list act) (m : mem) : mem := fold_left (fun m a => a m) l m.

  (** [shuffle ts l]: [l] is an interleaving of the action lists of the threads [ts]. *)
  Inductive shuffle : list (list act) -> list act -> Prop :=
  | sh_done : forall ts, Forall (fun t => t = []) ts -> shuffle ts []
  | sh_step : forall pre a t post l,
      shuffle (pre ++ t :: post) l -> shuffle (pre ++ (a :: t) :: post) (a :: l).

  (** [prange n body m m']: some assignment of the iterations 0..n-1 to threads (thread
      [i] runs the iterations [nth i ts []] in that order) and some interleaving of the
      threads lead from [m] to [m']. *)
  Definition prange (n : nat) (body : nat -> nat -> list act) (m m' : mem) : Prop :=
    exists (ts : list (list nat)) (l : list act),
      Permutation (concat ts) (seq 0 n) /\
      shuffle (map (fun it => flat_map (body (fst it)) (snd it))
                   (combine (seq 0 (length ts)) ts)) l /\
      forall x, m' x = runl l m x.
End Par.
