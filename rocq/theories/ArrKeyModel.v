(** Model of cosmic_profiles/common/caching.py [np_cache_factory] (lines 254-303) and of
    results shared by reference. Only definitions. *)
From Coq Require Import List ZArith Bool.
From Verif Require Import CacheModel.
Import ListNotations.

Section ArrKey.
  (** [X]: array elements and other hashable arguments, up to Python's [==].
      Simplification: numpy dtypes are not represented. *)
  Variable X : Type.

  (** Contents of a numpy array as nested sequences. *)
  Inductive nd :=
  | Leaf (x : X)
  | Node (l : list nd).

  (** ndarray.flatten(), C order (caching.py line 291). *)
  Fixpoint flatten (t : nd) : list X :=
    match t with
    | Leaf x => [x]
    | Node l => flat_map flatten l
    end.

  (** Number of elements of a shape. *)
  Definition size (dims : list nat) : nat := fold_right Nat.mul 1 dims.

  (** Cutting a flat sequence into [n] pieces of length [p]. *)
  Fixpoint chunks (n p : nat) (l : list X) : list (list X) :=
    match n with
    | 0 => []
    | S n' => firstn p l :: chunks n' p (skipn p l)
    end.

  (** np.array(flat).reshape(dims), caching.py line 278, given the right number of
      elements. *)
  Fixpoint reshape_raw (dims : list nat) (l : list X) : nd :=
    match dims with
    | [] => match l with x :: _ => Leaf x | [] => Node [] end
    | d :: ds => Node (map (reshape_raw ds) (chunks d (size ds) l))
    end.

  (** Line 278 with the size check of numpy's reshape ([None]: ValueError). *)
  Definition reshape (dims : list nat) (l : list X) : option nd :=
    if Nat.eqb (length l) (size dims) then Some (reshape_raw dims l) else None.

  (** Python arguments of a decorated function (line 284): arrays with their shape,
      lists of lists, other values. *)
  Inductive parg :=
  | PArr (dims : list nat) (t : nd)
  | PLists (l : list (list X))
  | PVal (x : X).

  (** Hashable components of the key (lines 291, 293). *)
  Inductive karg :=
  | KTuple (l : list X)
  | KTuples (l : list (list X))
  | KVal (x : X).

  (** Lines 289-291: the first [nb_arrs] arguments must be arrays ([None]: IndexError or
      AttributeError); returns the tuples, the dims and the other arguments. *)
  Fixpoint enc_arrs (n : nat) (args : list parg) : option (list karg * list (list nat) * list parg) :=
    match n with
    | 0 => Some ([], [], args)
    | S n' =>
        match args with
        | PArr dims t :: args' =>
            match enc_arrs n' args' with
            | Some (ks, ds, r) => Some (KTuple (flatten t) :: ks, dims :: ds, r)
            | None => None
            end
        | _ => None
        end
    end.

  (** Lines 292-293: the next [nb_lists] arguments are lists of lists. *)
  Fixpoint enc_lists (n : nat) (args : list parg) : option (list karg * list parg) :=
    match n with
    | 0 => Some ([], args)
    | S n' =>
        match args with
        | PLists l :: args' =>
            match enc_lists n' args' with
            | Some (ks, r) => Some (KTuples l :: ks, r)
            | None => None
            end
        | _ => None
        end
    end.

  (** Lines 287-288: remaining arguments are passed on unchanged; they must be hashable
      ([None]: TypeError when the key is hashed). *)
  Fixpoint enc_rest (args : list parg) : option (list karg) :=
    match args with
    | [] => Some []
    | PVal x :: args' => option_map (cons (KVal x)) (enc_rest args')
    | _ => None
    end.

  (** The wrapper, lines 284-296: arguments passed to cached_wrapper and keyword dims. *)
  Definition np_key (nb_arrs nb_lists : nat) (args : list parg)
    : option (list karg * list (list nat)) :=
    match enc_arrs nb_arrs args with
    | Some (ks, ds, r) =>
        match enc_lists nb_lists r with
        | Some (ks', r') =>
            match enc_rest r' with
            | Some ks'' => Some (ks ++ ks' ++ ks'', ds)
            | None => None
            end
        | None => None
        end
    | None => None
    end.

  (** cached_wrapper, lines 273-281: the arguments given to the decorated function. *)
  Fixpoint dec_arrs (n : nat) (ks : list karg) (ds : list (list nat)) : option (list parg * list karg) :=
    match n with
    | 0 => Some ([], ks)
    | S n' =>
        match ks, ds with
        | KTuple l :: ks', d :: ds' =>
            match reshape d l, dec_arrs n' ks' ds' with
            | Some t, Some (ps, r) => Some (PArr d t :: ps, r)
            | _, _ => None
            end
        | _, _ => None
        end
    end.
  (** Line 279-280. *)
  Fixpoint dec_lists (n : nat) (ks : list karg) : option (list parg * list karg) :=
    match n with
    | 0 => Some ([], ks)
    | S n' =>
        match ks with
        | KTuples l :: ks' =>
            match dec_lists n' ks' with
            | Some (ps, r) => Some (PLists l :: ps, r)
            | None => None
            end
        | _ => None
        end
    end.
  (** Lines 274-276, remaining arguments. *)
  Fixpoint dec_rest (ks : list karg) : option (list parg) :=
    match ks with
    | [] => Some []
    | KVal x :: ks' => option_map (cons (PVal x)) (dec_rest ks')
    | _ => None
    end.
  Definition np_args (nb_arrs nb_lists : nat) (key : list karg * list (list nat))
    : option (list parg) :=
    match dec_arrs nb_arrs (fst key) (snd key) with
    | Some (ps, r) =>
        match dec_lists nb_lists r with
        | Some (ps', r') =>
            match dec_rest r' with
            | Some ps'' => Some (ps ++ ps' ++ ps'')
            | None => None
            end
        | None => None
        end
    | None => None
    end.
End ArrKey.
Arguments Leaf {X}. Arguments Node {X}. Arguments flatten {X}.
Arguments chunks {X}. Arguments reshape_raw {X}. Arguments reshape {X}.
Arguments PArr {X}. Arguments PLists {X}. Arguments PVal {X}.
Arguments KTuple {X}. Arguments KTuples {X}. Arguments KVal {X}.
Arguments np_key {X}. Arguments np_args {X}.
Arguments enc_arrs {X}. Arguments enc_lists {X}. Arguments enc_rest {X}.
Arguments dec_arrs {X}. Arguments dec_lists {X}. Arguments dec_rest {X}.

(** ** Results by reference.  The cache stores the object returned by the function
    (lines 126, 146, 173, 208, 228) and hands out the same object on a hit (lines 113,
    171, 195).  Objects are numbered in order of creation, [objs] is their present
    content; a caller may overwrite the content of any object at any time. *)
Section Alias.
  Variables A K C E : Type.
  Variable keq : forall x y : K, {x = y} + {x <> y}.
  Variable mk : A -> K.
  Variable F : A -> C + E.     (* content of the array the function would return *)

  (** Steps of the surrounding program. *)
  Inductive aop :=
  | ACall (a : A) (avail : Z)
  | AMutate (obj : nat) (c : C)      (* e.g. result[...] = value in the caller *)
  | AClear.

  (** In-place update of an object. *)
  Fixpoint upd (l : list C) (n : nat) (c : C) : list C :=
    match l, n with
    | [], _ => []
    | _ :: l', 0 => c :: l'
    | x :: l', S n' => x :: upd l' n' c
    end.

  (** One call through lru_cache when the function allocates object number
      [length objs] (lines 97-232 with the result a reference). The last component is
      the content seen by the caller on return. *)
  Definition alias_call (m : mode) (s : state K nat) (objs : list C) (a : A) (avail : Z)
    : option (state K nat * list C * (option C + E)) :=
    let fresh := fun a => match F a with inl _ => inl (length objs) | inr e => inr e end in
    match call A K nat E keq mk fresh m s a avail with
    | None => None
    | Some (s', ran, o) =>
        let objs' := match F a with
                     | inl c => if ran then objs ++ [c] else objs
                     | inr _ => objs
                     end in
        Some (s', objs', match o with
                         | inl r => inl (nth_error objs' r)
                         | inr e => inr e
                         end)
    end.

  (** A program run: observed outcome of each call. *)
  Fixpoint alias_run (m : mode) (h : list aop) (s : state K nat) (objs : list C)
    : option (list (A * (option C + E))) :=
    match h with
    | [] => Some []
    | ACall a avail :: h' =>
        match alias_call m s objs a avail with
        | Some (s', objs', o) => option_map (cons (a, o)) (alias_run m h' s' objs')
        | None => None
        end
    | AMutate r c :: h' => alias_run m h' s (upd objs r c)
    | AClear :: h' => alias_run m h' (clear K nat s) objs
    end.
End Alias.
Arguments ACall {A C}. Arguments AMutate {A C}. Arguments AClear {A C}.
