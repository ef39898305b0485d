(** Model of cosmic_profiles/common/caching.py: [_make_key] and [lru_cache].
    Only definitions; no proofs. *)
From Coq Require Import List ZArith Bool Lia.
Import ListNotations.

(** ** Keys: [_make_key], caching.py lines 26-50.

    [obj] is the type of Python values and [eqo] Python's [==] on them; [ty v] is the
    object [type(v)]; [nm] turns a keyword name into the str object stored in the key;
    [fast] tells whether a type object is one of {int, str, frozenset, NoneType}
    (line 28). *)
Section MakeKey.
  Variable obj name : Type.
  Variable eqo : obj -> obj -> bool.
  Variable ty : obj -> obj.
  Variable nm : name -> obj.
  Variable fast : obj -> bool.

  (** Components of a flat key (lines 38-47): any object, or the unique object() of
      line 27. *)
  Inductive kitem :=
  | KObj (o : obj)
  | KMark.

  (** A key is either the bare argument (line 49) or a hashed sequence (line 50). *)
  Inductive pykey :=
  | KBare (o : obj)
  | KSeq (l : list kitem).

  (** Lines 40-43: [key += kwd_mark; for item in sorted_items: key += item].
      [kwds] is the already sorted list of items (sorting is Python's [sorted] on the
      distinct keyword names; here the caller's dictionary is represented by that
      sorted list, so two dictionaries are equal iff the lists are). *)
  Definition kw_part (kwds : list (name * obj)) : list kitem :=
    match kwds with
    | [] => []
    | _ => KMark :: flat_map (fun p => [KObj (nm (fst p)); KObj (snd p)]) kwds
    end.

  (** caching.py lines 26-50. *)
  Definition make_key (args : list obj) (kwds : list (name * obj)) (typed : bool) : pykey :=
    let key := map KObj args ++ kw_part kwds in
    if typed then
      KSeq (key ++ map (fun v => KObj (ty v)) args
                ++ map (fun p => KObj (ty (snd p))) kwds)
    else match key with
         | [KObj o] => if fast (ty o) then KBare o else KSeq key
         | _ => KSeq key
         end.

  (** Equality of keys as seen by the dictionary (class _HashedSeq is a list, lines
      11-24: element-wise [==]; a list never equals an int, str, frozenset or None). *)
  Definition item_eq (x y : kitem) : bool :=
    match x, y with
    | KObj a, KObj b => eqo a b
    | KMark, KMark => true
    | _, _ => false
    end.
  Fixpoint items_eq (l m : list kitem) : bool :=
    match l, m with
    | [], [] => true
    | x :: l', y :: m' => item_eq x y && items_eq l' m'
    | _, _ => false
    end.
  Definition key_eq (x y : pykey) : bool :=
    match x, y with
    | KBare a, KBare b => eqo a b
    | KSeq l, KSeq m => items_eq l m
    | _, _ => false
    end.
End MakeKey.
Arguments KObj {obj}. Arguments KMark {obj}.
Arguments KBare {obj}. Arguments KSeq {obj}.
Arguments make_key {obj name}. Arguments kw_part {obj name}.
Arguments key_eq {obj}. Arguments items_eq {obj}. Arguments item_eq {obj}.

Section Cache.
  (** [A]: argument packs, [K]: keys, [V]: results, [E]: exceptions.
      [mk] is [make_key] partially applied (line 83/182); [f] the decorated
      function, deterministic and returning a result or raising. *)
  Variables A K V E : Type.
  Variable keq : forall x y : K, {x = y} + {x <> y}.
  Variable mk : A -> K.
  Variable f : A -> V + E.

  (** Caching mode chosen at decoration time, lines 73-74, 95, 153, 162, 177. *)
  Inductive mode :=
  | MemLimited (limit : Z)       (* use_memory_up_to truthy, lines 97-151 *)
  | Disabled                     (* maxsize == 0, lines 155-160 *)
  | Unbounded                    (* maxsize is None, lines 164-175 *)
  | Sized (maxsize : Z).         (* lines 179-232 *)

  (** Lines 52, 73-74, 95-177: which wrapper is built. [use_memory] is
      [use_memory_up_to] with 0/False mapped to 0. *)
  Definition select_mode (maxsize : option Z) (use_memory : Z) : mode :=
    if negb (use_memory =? 0)%Z then MemLimited use_memory
    else match maxsize with
         | Some 0%Z => Disabled
         | None => Unbounded
         | Some n => Sized n
         end.

  (** ** Dictionaries (Python dict): association lists. *)

  (** dict.get, caching.py line 90/102/184. *)
  Fixpoint dget {B} (d : list (K * B)) (k : K) : option B :=
    match d with
    | [] => None
    | (k', b) :: d' => if keq k k' then Some b else dget d' k
    end.

  (** dict[k] = b, caching.py lines 142, 147, 173, 224, 229. *)
  Fixpoint dset {B} (d : list (K * B)) (k : K) (b : B) : list (K * B) :=
    match d with
    | [] => [(k, b)]
    | (k', b') :: d' => if keq k k' then (k', b) :: d' else (k', b') :: dset d' k b
    end.

  (** del dict[k] (None models KeyError), caching.py lines 138, 220. *)
  Fixpoint ddel {B} (d : list (K * B)) (k : K) : option (list (K * B)) :=
    match d with
    | [] => None
    | (k', b') :: d' =>
        if keq k k' then Some d'
        else option_map (cons (k', b')) (ddel d' k)
    end.

  (** ** Linked list nodes [prev, next, key, result], lines 84, 92-93. *)
  Record link := mkLink { l_prev : nat; l_next : nat;
                          l_key : option K; l_result : option V }.

  (** Heap of nodes; node identity (Python object identity) is a nat. *)
  Definition heap := nat -> link.

  (** Object mutation [h[x] = l]. *)
  Definition hset (h : heap) (x : nat) (l : link) : heap :=
    fun y => if Nat.eqb y x then l else h y.

  (** [x[NEXT] = y]: assignment to a link field, lines 106, 109, 111, 188-193. *)
  Definition set_next (h : heap) (x y : nat) : heap :=
    hset h x (mkLink (l_prev (h x)) y (l_key (h x)) (l_result (h x))).
  (** [x[PREV] = y], lines 107, 109, 110. *)
  Definition set_prev (h : heap) (x y : nat) : heap :=
    hset h x (mkLink y (l_next (h x)) (l_key (h x)) (l_result (h x))).
  (** [x[KEY] = k; x[RESULT] = r], lines 125-126, 136, 207-208, 218. *)
  Definition set_kr (h : heap) (x : nat) (k : option K) (r : option V) : heap :=
    hset h x (mkLink (l_prev (h x)) (l_next (h x)) k r).

  (** Variables captured by the closures, lines 87-93. [plain] is the dictionary
      [cache] in the modes that store results directly (line 173); [alloc] is the
      next unused object identity. *)
  Record state := mkState {
    s_heap : heap; s_alloc : nat; s_root : nat;
    s_cache : list (K * nat); s_plain : list (K * V);
    s_full : bool; s_hits : nat; s_misses : nat }.

  (** Lines 87-93: root[:] = [root, root, None, None]. *)
  Definition init : state :=
    mkState (fun _ => mkLink 0 0 None None) 1 0 [] [] false 0 0.

  (** First locked section, lines 101-113 = 183-195: [Some result] on a hit. *)
  Definition lookup (s : state) (k : K) : state * option V :=
    match dget (s_cache s) k with
    | Some l =>
        let h0 := s_heap s in
        let link_prev := l_prev (h0 l) in
        let link_next := l_next (h0 l) in
        let result := l_result (h0 l) in
        let h1 := set_next h0 link_prev link_next in
        let h2 := set_prev h1 link_next link_prev in
        let last := l_prev (h2 (s_root s)) in
        let h3 := set_next h2 last l in
        let h4 := set_prev h3 (s_root s) l in
        let h5 := set_prev h4 l last in
        let h6 := set_next h5 l (s_root s) in
        (mkState h6 (s_alloc s) (s_root s) (s_cache s) (s_plain s) (s_full s)
                 (S (s_hits s)) (s_misses s),
         result)
    | None => (s, None)
    end.

  (** Lines 148-149 and 230: the new value of [full] after an append. [avail] is the
      reading of psutil.virtual_memory().available. *)
  Definition now_full (m : mode) (len : nat) (avail : Z) : bool :=
    match m with
    | MemLimited limit => (avail <? limit)%Z
    | Sized maxsize => (maxsize <=? Z.of_nat len)%Z
    | _ => false
    end.

  (** Second locked section, lines 115-150 = 197-231; [None] models the KeyError that
      [del cache[oldkey]] would raise. *)
  Definition insert (m : mode) (s : state) (k : K) (v : V) (avail : Z) : option state :=
    match dget (s_cache s) k with
    | Some _ =>
        Some (mkState (s_heap s) (s_alloc s) (s_root s) (s_cache s) (s_plain s)
                      (s_full s) (s_hits s) (S (s_misses s)))
    | None =>
        if s_full s then
          let oldroot := s_root s in
          let h1 := set_kr (s_heap s) oldroot (Some k) (Some v) in
          let root := l_next (h1 oldroot) in
          let oldkey := l_key (h1 root) in
          let h2 := set_kr h1 root None None in
          match oldkey with
          | None => None
          | Some ok =>
              match ddel (s_cache s) ok with
              | None => None
              | Some d =>
                  Some (mkState h2 (s_alloc s) root (dset d k oldroot) (s_plain s)
                                (s_full s) (s_hits s) (S (s_misses s)))
              end
          end
        else
          let last := l_prev (s_heap s (s_root s)) in
          let link := s_alloc s in
          let h1 := hset (s_heap s) link (mkLink last (s_root s) (Some k) (Some v)) in
          let h2 := set_next h1 last link in
          let h3 := set_prev h2 (s_root s) link in
          let d := dset (s_cache s) k link in
          Some (mkState h3 (S (s_alloc s)) (s_root s) d (s_plain s)
                        (now_full m (length d) avail) (s_hits s) (S (s_misses s)))
    end.

  (** One complete call of the wrapper without interference from other threads.
      Result: new state, whether the decorated function was run, the outcome seen by
      the caller. [None]: the wrapper itself raised KeyError.
      Lines 97-151 / 179-232, 155-160, 164-175. *)
  Definition call (m : mode) (s : state) (a : A) (avail : Z)
    : option (state * bool * (V + E)) :=
    match m with
    | Disabled =>
        match f a with
        | inl v => Some (mkState (s_heap s) (s_alloc s) (s_root s) (s_cache s) (s_plain s)
                                 (s_full s) (s_hits s) (S (s_misses s)), true, inl v)
        | inr e => Some (s, true, inr e)
        end
    | Unbounded =>
        match dget (s_plain s) (mk a) with
        | Some v => Some (mkState (s_heap s) (s_alloc s) (s_root s) (s_cache s) (s_plain s)
                                  (s_full s) (S (s_hits s)) (s_misses s), false, inl v)
        | None =>
            match f a with
            | inl v => Some (mkState (s_heap s) (s_alloc s) (s_root s) (s_cache s)
                                     (dset (s_plain s) (mk a) v)
                                     (s_full s) (s_hits s) (S (s_misses s)), true, inl v)
            | inr e => Some (s, true, inr e)
            end
        end
    | _ =>
        match lookup s (mk a) with
        | (s', Some v) => Some (s', false, inl v)
        | (s', None) =>
            match f a with
            | inr e => Some (s', true, inr e)
            | inl v =>
                match insert m s' (mk a) v avail with
                | Some s'' => Some (s'', true, inl v)
                | None => None
                end
            end
        end
    end.

  (** cache_clear, lines 239-246. *)
  Definition clear (s : state) : state :=
    mkState (hset (s_heap s) (s_root s) (mkLink (s_root s) (s_root s) None None))
            (s_alloc s) (s_root s) [] [] false 0 0.

  (** cache_info, lines 234-237: (hits, misses, currsize); maxsize is constant. *)
  Definition currsize (m : mode) (s : state) : nat :=
    match m with
    | Unbounded => length (s_plain s)
    | _ => length (s_cache s)
    end.
  Definition cache_info (m : mode) (s : state) : nat * nat * nat :=
    (s_hits s, s_misses s, currsize m s).

  (** ** Sequential histories: calls (with the memory reading the call would see) and
      clears through the public API. *)
  Inductive op :=
  | Call (a : A) (avail : Z)
  | Clear.

  (** Observable events. *)
  Inductive event :=
  | EvCall (a : A) (ran : bool) (o : V + E)
  | EvClear.

  (** Running a history (public API of the decorated function, lines 97-246). *)
  Fixpoint run (m : mode) (h : list op) (s : state) : option (state * list event) :=
    match h with
    | [] => Some (s, [])
    | Clear :: h' =>
        match run m h' (clear s) with
        | Some (s', tr) => Some (s', EvClear :: tr)
        | None => None
        end
    | Call a avail :: h' =>
        match call m s a avail with
        | Some (s1, ran, o) =>
            match run m h' s1 with
            | Some (s', tr) => Some (s', EvCall a ran o :: tr)
            | None => None
            end
        | None => None
        end
    end.

  (** ** Concurrent executions of the locked modes (lines 97-151, 179-232).
      A thread is idle, has missed and is computing outside the lock, or holds a
      computed value to insert. Each locked section is one atomic step (lock/RLock,
      line 91); the decorated function runs between the two sections. A recursive call
      from inside the function behaves as another thread. *)
  Inductive tstate :=
  | Idle
  | Computing (a : A)
  | Computed (a : A) (v : V).

  (** [c_done] is the log of finished calls (thread, argument, outcome), newest first,
      [c_returned] the number of calls that returned a value since the last clear. *)
  Record cstate := mkC {
    c_cache : state; c_threads : nat -> tstate;
    c_done : list (nat * A * (V + E)); c_returned : nat }.

  (** Thread-pool update. *)
  Definition tset (t : nat -> tstate) (i : nat) (x : tstate) : nat -> tstate :=
    fun j => if Nat.eqb j i then x else t j.

  Definition cinit : cstate := mkC init (fun _ => Idle) [] 0.

  (** Result of a concurrent step: a new state, or the crash of a wrapper. *)
  Inductive cstep (m : mode) : cstate -> option cstate -> Prop :=
  | c_hit : forall c t a s' v,
      c_threads c t = Idle -> lookup (c_cache c) (mk a) = (s', Some v) ->
      cstep m c (Some (mkC s' (c_threads c) ((t, a, inl v) :: c_done c) (S (c_returned c))))
  | c_miss : forall c t a s',
      c_threads c t = Idle -> lookup (c_cache c) (mk a) = (s', None) ->
      cstep m c (Some (mkC s' (tset (c_threads c) t (Computing a)) (c_done c) (c_returned c)))
  | c_compute : forall c t a v,
      c_threads c t = Computing a -> f a = inl v ->
      cstep m c (Some (mkC (c_cache c) (tset (c_threads c) t (Computed a v))
                           (c_done c) (c_returned c)))
  | c_raise : forall c t a e,
      c_threads c t = Computing a -> f a = inr e ->
      cstep m c (Some (mkC (c_cache c) (tset (c_threads c) t Idle)
                           ((t, a, inr e) :: c_done c) (c_returned c)))
  | c_insert : forall c t a v avail s',
      c_threads c t = Computed a v -> insert m (c_cache c) (mk a) v avail = Some s' ->
      cstep m c (Some (mkC s' (tset (c_threads c) t Idle)
                           ((t, a, inl v) :: c_done c) (S (c_returned c))))
  | c_crash : forall c t a v avail,
      c_threads c t = Computed a v -> insert m (c_cache c) (mk a) v avail = None ->
      cstep m c None
  | c_clear : forall c,
      cstep m c (Some (mkC (clear (c_cache c)) (c_threads c) (c_done c) 0)).

  (** States reachable by any interleaving. *)
  Inductive creach (m : mode) : cstate -> Prop :=
  | cr_init : creach m cinit
  | cr_step : forall c c', creach m c -> cstep m c (Some c') -> creach m c'.
End Cache.

Arguments MemLimited : clear implicits.
Arguments Call {A}. Arguments Clear {A}.
Arguments EvCall {A V E}. Arguments EvClear {A V E}.
