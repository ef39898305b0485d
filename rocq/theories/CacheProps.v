(** Properties C01-C09: the lru_cache / np_cache_factory decorators. *)
From Coq Require Import List ZArith Bool Lia.
From Verif Require Import CacheModel ArrKeyModel CacheSpec CacheProofs CacheHistory CacheMore.
Import ListNotations.

(** Concrete function for the examples: |7| raises, otherwise the square; calls that
    differ in sign share a key. *)
Definition ex_mk (z : Z) : Z := Z.abs z.
Definition ex_f (z : Z) : Z + unit := if Z.eqb (Z.abs z) 7 then inr tt else inl (z * z)%Z.
Lemma ex_mk_ok : forall a b, ex_mk a = ex_mk b -> ex_f a = ex_f b.
Proof.
  unfold ex_mk, ex_f. intros a b H. rewrite H. destruct (Z.eqb (Z.abs b) 7); auto.
  f_equal. rewrite <- (Z.abs_square a), <- (Z.abs_square b). congruence.
Qed.
Notation ex_run := (run Z Z Z unit Z.eq_dec ex_mk ex_f).
Notation ex_init := (init Z Z).

(** C01: for every mode, function that depends only on the key, and history, the wrapper
    never fails internally and every call yields what the bare function yields. *)
Theorem C01_memo_transparent :
  forall (A K V E : Type) (keq : forall x y : K, {x = y} + {x <> y}) (mk : A -> K)
         (f : A -> V + E),
    (forall a b, mk a = mk b -> f a = f b) ->
    forall (m : mode) (h : list (op A)),
    exists s tr, run A K V E keq mk f m h (init K V) = Some (s, tr) /\
                 outcomes tr = map f (calls h).
Proof.
  intros A K V E keq mk f H m h.
  destruct (run_info A K V E keq mk f H m h) as (s & tr & H1 & H2 & _). eauto.
Qed.
Print Assumptions C01_memo_transparent.
Example C01_example :
  option_map (fun p => outcomes (snd p))
    (ex_run (Sized 2) [Call 3 0; Call (-3) 0; Call 7 0; Call 4 0; Call 5 0; Call 3 0]%Z ex_init)
  = Some [inl 9; inl 9; inr tt; inl 16; inl 25; inl 9]%Z.
Proof. reflexivity. Qed.

(** C01, keys: calls that share a key have equal positional and keyword arguments (and,
    with typed=True, equal argument types). *)
Theorem C01_key_determines_arguments :
  forall (obj name : Type) (eqo : obj -> obj -> bool) (ty : obj -> obj) (nm : name -> obj)
         (fast : obj -> bool),
    (forall x y, eqo (nm x) (nm y) = true -> x = y) ->
    forall typed a b k l,
    key_eq eqo (make_key ty nm fast a k typed) (make_key ty nm fast b l typed) = true ->
    args_eq eqo a b /\ kwds_eq eqo k l /\
    (typed = true -> args_eq eqo (map ty a) (map ty b) /\
                     args_eq eqo (map (fun p => ty (snd p)) k) (map (fun p => ty (snd p)) l)).
Proof. exact make_key_sound. Qed.
Print Assumptions C01_key_determines_arguments.
Example C01_key_example :
  key_eq Nat.eqb (make_key (fun _ => 100) (fun n => 200 + n) (fun _ => true) [1; 2] [(0, 5)] true)
                 (make_key (fun _ => 100) (fun n => 200 + n) (fun _ => true) [1; 2] [(0, 5)] true) = true
  /\ (forall x y, Nat.eqb (200 + x) (200 + y) = true -> x = y)
  /\ key_eq Nat.eqb (make_key (fun _ => 100) (fun n => 200 + n) (fun _ => true) [1; 200; 5] [] false)
                 (make_key (fun _ => 100) (fun n => 200 + n) (fun _ => true) [1] [(0, 5)] false) = false.
Proof.
  split; [reflexivity|split; [|reflexivity]].
  intros x y H. apply Nat.eqb_eq in H. now apply Nat.add_cancel_l in H.
Qed.

(** C02: with maxsize n >= 0 the number of entries never exceeds n ... *)
Theorem C02_size_bounded :
  forall (A K V E : Type) (keq : forall x y : K, {x = y} + {x <> y}) (mk : A -> K)
         (f : A -> V + E),
    (forall a b, mk a = mk b -> f a = f b) ->
    forall (n : Z) (h : list (op A)) s tr, (0 <= n)%Z ->
    run A K V E keq mk f (select_mode (Some n) 0) h (init K V) = Some (s, tr) ->
    (Z.of_nat (currsize K V (select_mode (Some n) 0) s) <= n)%Z.
Proof. exact run_bound. Qed.
Print Assumptions C02_size_bounded.
Example C02_example :
  exists s tr, ex_run (select_mode (Some 2) 0)%Z
                 [Call 3 0; Call 4 0; Call 5 0; Call 6 0]%Z ex_init = Some (s, tr)
    /\ currsize Z Z (select_mode (Some 2) 0)%Z s = 2.
Proof. eexists _, _. split; reflexivity. Qed.

(** A negative maxsize, which the decorator does not refuse, holds one entry. *)
Theorem C02_negative :
  forall (A K V E : Type) (keq : forall x y : K, {x = y} + {x <> y}) (mk : A -> K)
         (f : A -> V + E),
    (forall a b, mk a = mk b -> f a = f b) ->
    forall (n : Z) (h : list (op A)), (n < 0)%Z ->
    exists s tr, run A K V E keq mk f (select_mode (Some n) 0) h (init K V) = Some (s, tr) /\
    currsize K V (select_mode (Some n) 0) s <= 1.
Proof.
  intros A K V E keq mk f Hmk n h Hn. assert (Em : select_mode (Some n) 0 = Sized n) by (destruct n; [lia|lia|reflexivity]).
  rewrite Em. destruct (run_inv A K V E keq mk f Hmk (Sized n) h) as (s & tr & Hrun & Hst & _).
  exists s, tr. split; [exact Hrun|]. pose proof (currsize_sized_le A K V E keq mk f n s _ Hst). lia.
Qed.
Print Assumptions C02_negative.
Example C02_negative_example :
  exists s tr, ex_run (select_mode (Some (-3)) 0)%Z [Call 3 0; Call 4 0]%Z ex_init = Some (s, tr)
    /\ currsize Z Z (select_mode (Some (-3)) 0)%Z s = 1.
Proof. eexists _, _. split; reflexivity. Qed.

(** ... and only a completed miss makes it grow, by one. *)
Theorem C02_growth_only_on_miss :
  forall (A K V E : Type) (keq : forall x y : K, {x = y} + {x <> y}) (mk : A -> K)
         (f : A -> V + E),
    (forall a b, mk a = mk b -> f a = f b) ->
    forall (m : mode) (h : list (op A)) (o : op A), exists s tr s' ev,
    run A K V E keq mk f m h (init K V) = Some (s, tr) /\
    run A K V E keq mk f m (h ++ [o]) (init K V) = Some (s', tr ++ [ev]) /\
    (currsize K V m s' <= currsize K V m s \/
     exists a v, ev = EvCall a true (inl v) /\ currsize K V m s' = S (currsize K V m s)).
Proof. exact run_growth. Qed.
Print Assumptions C02_growth_only_on_miss.

(** C03: after any history the cache holds the n most recently used distinct keys, and
    the next call is served without running the function exactly if its key is one of
    them. *)
Theorem C03_lru_eviction :
  forall (A K V E : Type) (keq : forall x y : K, {x = y} + {x <> y}) (mk : A -> K)
         (f : A -> V + E),
    (forall a b, mk a = mk b -> f a = f b) ->
    forall (n : Z) (h : list (op A)) (a : A) (avail : Z), (1 <= n)%Z ->
    exists s tr s' ran,
    run A K V E keq mk f (select_mode (Some n) 0) h (init K V) = Some (s, tr) /\
    currsize K V (select_mode (Some n) 0) s = length (recent keq mk f (Z.to_nat n) h) /\
    run A K V E keq mk f (select_mode (Some n) 0) (h ++ [Call a avail]) (init K V)
      = Some (s', tr ++ [EvCall a ran (f a)]) /\
    (ran = false <-> In (mk a) (recent keq mk f (Z.to_nat n) h)).
Proof. exact run_lru. Qed.
Print Assumptions C03_lru_eviction.
(* 3 was used last before 4 and 5, so with two slots 5 and 4 survive, then 3 evicts 4 *)
Example C03_example :
  recent Z.eq_dec ex_mk ex_f 2 [Call 3 0; Call 4 0; Call 5 0; Call (-3) 0; Call 7 0]%Z = [3; 5]%Z.
Proof. reflexivity. Qed.

(** C03 in every mode: the cache always holds the most recently used keys, as many as
    currsize. *)
Theorem C03_recency_all_modes :
  forall (A K V E : Type) (keq : forall x y : K, {x = y} + {x <> y}) (mk : A -> K)
         (f : A -> V + E),
    (forall a b, mk a = mk b -> f a = f b) ->
    forall (m : mode) (h : list (op A)) (a : A) (avail : Z), exists s tr s' ran,
    run A K V E keq mk f m h (init K V) = Some (s, tr) /\
    run A K V E keq mk f m (h ++ [Call a avail]) (init K V)
      = Some (s', tr ++ [EvCall a ran (f a)]) /\
    (ran = false <-> In (mk a) (recent keq mk f (currsize K V m s) h)).
Proof. exact run_snoc_call. Qed.
Print Assumptions C03_recency_all_modes.

(** C04: statistics. *)
Theorem C04_statistics :
  forall (A K V E : Type) (keq : forall x y : K, {x = y} + {x <> y}) (mk : A -> K)
         (f : A -> V + E),
    (forall a b, mk a = mk b -> f a = f b) ->
    forall (m : mode) (h : list (op A)), exists s tr hits misses size,
    run A K V E keq mk f m h (init K V) = Some (s, tr) /\
    cache_info K V m s = (hits, misses, size) /\
    hits + misses = count_returned (since_clear tr) /\
    misses = count_ran (since_clear tr).
Proof.
  intros A K V E keq mk f H m h.
  destruct (run_info A K V E keq mk f H m h) as (s & tr & H1 & _ & H2 & H3).
  exists s, tr. eexists _, _, _. split; [exact H1|]. split; [reflexivity|]. auto.
Qed.
Print Assumptions C04_statistics.
Example C04_example :
  option_map (fun p => cache_info Z Z (Sized 2) (fst p))
    (ex_run (Sized 2) [Call 9 0; Clear; Call 3 0; Call (-3) 0; Call 7 0; Call 4 0; Call 3 0]%Z ex_init)
  = Some (2, 2, 2).
Proof. reflexivity. Qed.

Theorem C04_clear_resets :
  forall (A K V E : Type) (keq : forall x y : K, {x = y} + {x <> y}) (mk : A -> K)
         (f : A -> V + E),
    (forall a b, mk a = mk b -> f a = f b) ->
    forall (m : mode) (h : list (op A)), exists s tr,
    run A K V E keq mk f m (h ++ [Clear]) (init K V) = Some (s, tr) /\
    cache_info K V m s = (0, 0, 0).
Proof. exact run_clear. Qed.
Print Assumptions C04_clear_resets.

(** C05: any interleaving of any number of threads, in the modes that take the lock. *)
Theorem C05_concurrent_safe :
  forall (A K V E : Type) (keq : forall x y : K, {x = y} + {x <> y}) (mk : A -> K)
         (f : A -> V + E),
    (forall a b, mk a = mk b -> f a = f b) ->
    forall (m : mode) (c : cstate A K V E), locked m -> creach A K V E keq mk f m c ->
    (* no internal KeyError is possible *)
    ~ cstep A K V E keq mk f m c None /\
    (* every finished call got the right outcome *)
    (forall t a o, In (t, a, o) (c_done A K V E c) -> o = f a) /\
    (* statistics count the calls that returned since the last clear *)
    s_hits K V (c_cache A K V E c) + s_misses K V (c_cache A K V E c) = c_returned A K V E c /\
    (* bounded size *)
    (forall n, m = Sized n ->
       (Z.of_nat (currsize K V m (c_cache A K V E c)) <= Z.max 1 n)%Z).
Proof. exact creach_safe. Qed.
Print Assumptions C05_concurrent_safe.
(* two threads miss on the same key and both insert *)
Example C05_example :
  exists c, creach Z Z Z unit Z.eq_dec ex_mk ex_f (Sized 1) c /\
    c_done Z Z Z unit c = [(1, (-3)%Z, inl 9%Z); (0, 3%Z, inl 9%Z)] /\
    cache_info Z Z (Sized 1) (c_cache Z Z Z unit c) = (0, 2, 1).
Proof.
  eexists. split.
  - eapply cr_step. eapply cr_step. eapply cr_step. eapply cr_step.
    eapply cr_step. eapply cr_step. apply cr_init.
    + eapply (c_miss Z Z Z unit Z.eq_dec ex_mk ex_f (Sized 1) _ 0 3%Z); reflexivity.
    + eapply (c_miss Z Z Z unit Z.eq_dec ex_mk ex_f (Sized 1) _ 1 (-3)%Z); reflexivity.
    + eapply (c_compute Z Z Z unit Z.eq_dec ex_mk ex_f (Sized 1) _ 1 (-3)%Z); reflexivity.
    + eapply (c_compute Z Z Z unit Z.eq_dec ex_mk ex_f (Sized 1) _ 0 3%Z); reflexivity.
    + eapply (c_insert Z Z Z unit Z.eq_dec ex_mk ex_f (Sized 1) _ 0 3%Z _ 0%Z); reflexivity.
    + eapply (c_insert Z Z Z unit Z.eq_dec ex_mk ex_f (Sized 1) _ 1 (-3)%Z _ 0%Z); reflexivity.
  - split; reflexivity.
Qed.

(** C06: after an insertion that saw less memory than the limit the number of entries
    stays the same until a clear ... *)
Theorem C06_no_growth_when_low :
  forall (A K V E : Type) (keq : forall x y : K, {x = y} + {x <> y}) (mk : A -> K)
         (f : A -> V + E),
    (forall a b, mk a = mk b -> f a = f b) ->
    forall (maxsize : option Z) (limit : Z), limit <> 0%Z ->
    forall (h1 : list (op A)) (a : A) (avail : Z) (h2 : list (op A)) s1 tr1,
    let m := select_mode maxsize limit in
    run A K V E keq mk f m (h1 ++ [Call a avail]) (init K V)
      = Some (s1, tr1 ++ [EvCall a true (f a)]) ->
    returns (f a) -> (avail < limit)%Z -> no_clear h2 ->
    exists s2 tr2,
    run A K V E keq mk f m (h1 ++ [Call a avail] ++ h2) (init K V) = Some (s2, tr2) /\
    currsize K V m s2 = currsize K V m s1.
Proof.
  intros A K V E keq mk f H maxsize limit Hl h1 a avail h2 s1 tr1 m.
  assert (Hm : m = MemLimited limit) by (apply select_mem; auto).
  rewrite Hm. intros H1 [v Hv].
  apply mem_size_frozen with (tr1 := tr1); auto. now rewrite Hv.
Qed.
Print Assumptions C06_no_growth_when_low.
Example C06_example :
  exists s1 tr1, ex_run (MemLimited 10) ([Call 3 50] ++ [Call 4 9])%Z ex_init
                   = Some (s1, tr1 ++ [EvCall 4%Z true (ex_f 4)])
    /\ returns (ex_f 4) /\ no_clear [Call 5 80; Call 6 90]%Z
    /\ currsize Z Z (MemLimited 10) s1 = 2.
Proof.
  eexists _, [_]. split; [reflexivity|]. split; [eexists; reflexivity|].
  split; [|reflexivity]. intros [H|[H|[]]]; discriminate.
Qed.

(** ... and until such an insertion nothing is evicted. *)
Theorem C06_no_eviction_when_high :
  forall (A K V E : Type) (keq : forall x y : K, {x = y} + {x <> y}) (mk : A -> K)
         (f : A -> V + E),
    (forall a b, mk a = mk b -> f a = f b) ->
    forall (maxsize : option Z) (limit : Z), limit <> 0%Z ->
    forall (h : list (op A)) (a : A) (avail : Z),
    let m := select_mode maxsize limit in
    Forall (fun av => (limit <= av)%Z) (readings h) ->
    exists s tr s' ran,
    run A K V E keq mk f m h (init K V) = Some (s, tr) /\
    run A K V E keq mk f m (h ++ [Call a avail]) (init K V)
      = Some (s', tr ++ [EvCall a ran (f a)]) /\
    currsize K V m s = length (distinct keq (rev (uses mk f h))) /\
    (ran = false <-> In (mk a) (uses mk f h)).
Proof.
  intros A K V E keq mk f H maxsize limit Hl h a avail m.
  assert (Hm : m = MemLimited limit) by (apply select_mem; auto).
  rewrite Hm. apply mem_ran_iff; auto.
Qed.
Print Assumptions C06_no_eviction_when_high.
Example C06_example2 :
  Forall (fun av => (10 <= av)%Z) (readings [Call 3 1; Clear; Call 3 50; Call 4 10; Call 7 99]%Z)
  /\ uses ex_mk ex_f [Call 3 1; Clear; Call 3 50; Call 4 10; Call 7 99]%Z = [3; 4]%Z.
Proof. split; [|reflexivity]. cbv. repeat constructor; discriminate. Qed.

(** C07: the function decorated by np_cache_factory is run on exactly the arguments
    the caller passed; distinct arguments have distinct keys; well formed calls get a
    key. *)
Theorem C07_array_arguments_round_trip :
  forall (X : Type) (nb_arrs nb_lists : nat) (args : list (parg X)) key,
    Forall wf_arg args -> np_key nb_arrs nb_lists args = Some key ->
    np_args nb_arrs nb_lists key = Some args.
Proof. exact np_round_trip. Qed.
Print Assumptions C07_array_arguments_round_trip.
Theorem C07_array_keys_injective :
  forall (X : Type) (nb_arrs nb_lists : nat) (args args' : list (parg X)) key,
    Forall wf_arg args -> Forall wf_arg args' ->
    np_key nb_arrs nb_lists args = Some key -> np_key nb_arrs nb_lists args' = Some key ->
    args = args'.
Proof. exact np_key_inj. Qed.
Print Assumptions C07_array_keys_injective.
Theorem C07_array_keys_total :
  forall (X : Type) (nb_arrs nb_lists : nat) (arrs : list (list nat * nd X))
         (lists : list (list (list X))) (vals : list X),
    length arrs = nb_arrs -> length lists = nb_lists ->
    exists key, np_key nb_arrs nb_lists
      (map (fun p => PArr (fst p) (snd p)) arrs ++ map PLists lists ++ map PVal vals) = Some key.
Proof. exact np_key_total. Qed.
Print Assumptions C07_array_keys_total.
(* same elements, shapes 2x3 and 3x2; an empty 0x4 array *)
Example C07_example :
  let a := PArr [2; 3] (Node [Node [Leaf 1; Leaf 2; Leaf 3]; Node [Leaf 4; Leaf 5; Leaf 6]]) in
  let b := PArr [3; 2] (Node [Node [Leaf 1; Leaf 2]; Node [Leaf 3; Leaf 4]; Node [Leaf 5; Leaf 6]]) in
  let e := PArr [0; 4] (Node []) in
  let rest := [PLists [[1]; []]; PVal 7] in
  Forall wf_arg (a :: e :: rest) /\ Forall wf_arg (b :: e :: rest) /\
  (exists key, np_key 2 1 (a :: e :: rest) = Some key /\ np_args 2 1 key = Some (a :: e :: rest)) /\
  np_key 2 1 (a :: e :: rest) <> np_key 2 1 (b :: e :: rest).
Proof.
  cbv zeta. repeat split.
  - repeat constructor; simpl; eauto 10.
    + eexists. split; [reflexivity|]. split; [reflexivity|].
      repeat constructor; eexists; (split; [reflexivity|]); (split; [reflexivity|]);
        repeat constructor; eexists; reflexivity.
  - repeat constructor; simpl; eauto 10.
    + eexists. split; [reflexivity|]. split; [reflexivity|].
      repeat constructor; eexists; (split; [reflexivity|]); (split; [reflexivity|]);
        repeat constructor; eexists; reflexivity.
  - eexists. split; reflexivity.
  - discriminate.
Qed.

(** C08 (refuted): in every mode that caches, a caller that overwrites a returned array
    changes what the next call returns. *)
Theorem C08_results_isolated_refuted :
  forall (A K C E : Type) (keq : forall x y : K, {x = y} + {x <> y}) (mk : A -> K)
         (F : A -> C + E) (m : mode) (a : A) (c c' : C),
    m <> Disabled -> F a = inl c -> c' <> c ->
    exists (h : list (aop A C)) obs,
      alias_run A K C E keq mk F m h (init K nat) [] = Some obs /\
      obs <> map (fun x => (x, expected F x)) (acalls h).
Proof.
  intros A K C E keq mk F m a c c' Hm HF Hc.
  exists [ACall a 0%Z; AMutate 0 c'; ACall a 0%Z], [(a, inl (Some c)); (a, inl (Some c'))].
  split; [exact (alias_polluted A K C E keq mk F m a c c' 0%Z Hm HF)|].
  simpl. unfold expected. rewrite HF. congruence.
Qed.
Print Assumptions C08_results_isolated_refuted.
(** What holds: callers that never write to returned arrays, and any caller when caching
    is disabled. *)
Theorem C08_results_isolated_partial :
  forall (A K C E : Type) (keq : forall x y : K, {x = y} + {x <> y}) (mk : A -> K)
         (F : A -> C + E),
    (forall a b, mk a = mk b -> F a = F b) ->
    forall (m : mode) (h : list (aop A C)),
    Forall (fun o => ~ is_mut o) h \/ m = Disabled ->
    alias_run A K C E keq mk F m h (init K nat) []
      = Some (map (fun x => (x, expected F x)) (acalls h)).
Proof.
  intros A K C E keq mk F HF m h [H| ->].
  - apply alias_run_ok; auto. apply stored_init.
  - apply alias_run_disabled.
Qed.
Print Assumptions C08_results_isolated_partial.
Example C08_example :
  alias_run Z Z Z unit Z.eq_dec ex_mk ex_f (Sized 2)
    [ACall 3 0; ACall 4 0; ACall 5 0; ACall 3 0; ACall (-5) 0]%Z (init Z nat) []
  = Some [(3, inl (Some 9)); (4, inl (Some 16)); (5, inl (Some 25)); (3, inl (Some 9));
          (-5, inl (Some 25))]%Z.
Proof. reflexivity. Qed.

(** The same with several arrays around: after two calls with different keys, overwriting the array of the
    second changes the answers of the second and no others. *)
Theorem C08_other_results :
  forall (A K C E : Type) (keq : forall x y : K, {x = y} + {x <> y}) (mk : A -> K)
         (F : A -> C + E) (a b : A) (c d d' : C),
    mk a <> mk b -> F a = inl c -> F b = inl d ->
    alias_run A K C E keq mk F Unbounded [ACall a 0%Z; ACall b 0%Z; AMutate 1 d'; ACall a 0%Z; ACall b 0%Z] (init K nat) []
      = Some [(a, inl (Some c)); (b, inl (Some d)); (a, inl (Some c)); (b, inl (Some d'))].
Proof.
  intros A K C E keq mk F a b c d d' Hk Ha Hb. cbn [alias_run]. unfold alias_call, call. simpl. rewrite ?Ha, ?Hb. simpl. unfold lookup. simpl.
  repeat (first [rewrite Ha | rewrite Hb | match goal with |- context [keq ?x ?y] => destruct (keq x y); try congruence end]; simpl). reflexivity.
Qed.
Print Assumptions C08_other_results.
Example C08_other_example :
  alias_run Z Z Z unit Z.eq_dec ex_mk ex_f Unbounded
    [ACall 3 0; ACall 4 0; AMutate 1 7; ACall 3 0; ACall 4 0]%Z (init Z nat) []
  = Some [(3, inl (Some 9)); (4, inl (Some 16)); (3, inl (Some 9)); (4, inl (Some 7))]%Z.
Proof. reflexivity. Qed.

(** C09: a call whose function raises propagates the exception after running the
    function and leaves the whole cache state as it was. *)
Theorem C09_failures_leave_no_trace :
  forall (A K V E : Type) (keq : forall x y : K, {x = y} + {x <> y}) (mk : A -> K)
         (f : A -> V + E),
    (forall a b, mk a = mk b -> f a = f b) ->
    forall (m : mode) (h : list (op A)) (a : A) (avail : Z) (e : E), f a = inr e ->
    exists s tr, run A K V E keq mk f m h (init K V) = Some (s, tr) /\
      run A K V E keq mk f m (h ++ [Call a avail]) (init K V)
        = Some (s, tr ++ [EvCall a true (inr e)]).
Proof. exact raise_no_trace. Qed.
Print Assumptions C09_failures_leave_no_trace.
Example C09_example : ex_f 7 = inr tt /\
  option_map (fun p => (cache_info Z Z (MemLimited 5) (fst p), snd p))
    (ex_run (MemLimited 5) [Call 3 9; Call 7 9; Call (-7) 9]%Z ex_init)
  = Some ((0, 1, 1), [EvCall 3 true (inl 9); EvCall 7 true (inr tt); EvCall (-7) true (inr tt)]%Z).
Proof. split; reflexivity. Qed.
