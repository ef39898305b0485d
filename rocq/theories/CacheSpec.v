(** Independent vocabulary for the cache properties: written from the documentation of a
    least-recently-used cache, without reference to the linked list. *)
From Coq Require Import List ZArith Bool.
From Verif Require Import CacheModel ArrKeyModel.
Import ListNotations.

Section Spec.
  Variables A K V E : Type.
  Variable keq : forall x y : K, {x = y} + {x <> y}.
  Variable mk : A -> K.
  Variable f : A -> V + E.

  (** Arguments of the calls of a history, in order. *)
  Fixpoint calls (h : list (op A)) : list A :=
    match h with
    | [] => []
    | Call a _ :: h' => a :: calls h'
    | Clear :: h' => calls h'
    end.

  (** Keys used since the last clear (calls that raise do not count), oldest first. *)
  Definition uses (h : list (op A)) : list K :=
    fold_left (fun acc o => match o with
                            | Clear => []
                            | Call a _ => match f a with
                                          | inl _ => acc ++ [mk a]
                                          | inr _ => acc
                                          end
                            end) h [].

  (** Duplicates removed, keeping the first occurrence. *)
  Fixpoint distinct (l : list K) : list K :=
    match l with
    | [] => []
    | x :: r => x :: filter (fun y => if keq x y then false else true) (distinct r)
    end.

  (** The n most recently used distinct keys. *)
  Definition recent (n : nat) (h : list (op A)) : list K :=
    firstn n (distinct (rev (uses h))).

  (** Outcomes seen by the caller. *)
  Fixpoint outcomes (tr : list (event A V E)) : list (V + E) :=
    match tr with
    | [] => []
    | EvCall _ _ o :: tr' => o :: outcomes tr'
    | EvClear :: tr' => outcomes tr'
    end.

  (** Part of a trace after the last clear. *)
  Definition since_clear (tr : list (event A V E)) : list (event A V E) :=
    fold_left (fun acc e => match e with EvClear => [] | _ => acc ++ [e] end) tr [].

  (** Number of calls that returned a value. *)
  Definition count_returned (tr : list (event A V E)) : nat :=
    length (filter (fun e => match e with EvCall _ _ (inl _) => true | _ => false end) tr).

  (** Number of times the decorated function was run to completion. *)
  Definition count_ran (tr : list (event A V E)) : nat :=
    length (filter (fun e => match e with EvCall _ true (inl _) => true | _ => false end) tr).

  (** A history without clears. *)
  Definition no_clear (h : list (op A)) : Prop := ~ In Clear h.
End Spec.
Arguments calls {A}. Arguments uses {A K V E}. Arguments distinct {K}.
Arguments recent {A K V E}. Arguments outcomes {A V E}.
Arguments since_clear {A V E}. Arguments count_returned {A V E}. Arguments count_ran {A V E}.
Arguments no_clear {A}.

(** Memory readings offered since the last clear. *)
Definition readings {A} (h : list (op A)) : list Z :=
  fold_left (fun acc o => match o with Clear => [] | Call _ av => acc ++ [av] end) h [].

(** Modes whose wrapper takes the lock. *)
Definition locked (m : mode) : Prop :=
  match m with MemLimited _ | Sized _ => True | _ => False end.

(** The outcome of the call is a value. *)
Definition returns {V E} (o : V + E) : Prop := exists v, o = inl v.

(** Positional and keyword arguments equal up to Python's [==]. *)
Definition args_eq {obj} (eqo : obj -> obj -> bool) (a b : list obj) : Prop :=
  Forall2 (fun x y => eqo x y = true) a b.
Definition kwds_eq {obj name} (eqo : obj -> obj -> bool) (k l : list (name * obj)) : Prop :=
  Forall2 (fun x y => fst x = fst y /\ eqo (snd x) (snd y) = true) k l.

(** Arrays numpy can represent: nested sequences of the declared shape. *)
Fixpoint wf {X} (dims : list nat) (t : nd X) : Prop :=
  match dims with
  | [] => exists x, t = Leaf x
  | d :: ds => exists l, t = Node l /\ length l = d /\ Forall (wf ds) l
  end.
Definition wf_arg {X} (p : parg X) : Prop :=
  match p with PArr dims t => wf dims t | _ => True end.

(** What the undecorated function would hand to the caller. *)
Definition expected {A C E} (F : A -> C + E) (a : A) : option C + E :=
  match F a with inl c => inl (Some c) | inr e => inr e end.

(** Steps in which a caller overwrites an array; the calls of a program. *)
Definition is_mut {A C} (o : aop A C) : Prop :=
  match o with AMutate _ _ => True | _ => False end.
Fixpoint acalls {A C} (h : list (aop A C)) : list A :=
  match h with
  | [] => []
  | ACall a _ :: h' => a :: acalls h'
  | _ :: h' => acalls h'
  end.
