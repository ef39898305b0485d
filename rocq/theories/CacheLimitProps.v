(** Property C100: limits of the caches can be changed. *)
From Coq Require Import List ZArith Bool Lia.
From Verif Require Import ListUtil CacheModel CacheSpec CacheProofs CacheHistory CacheProps CacheLimitModel.
Import ListNotations.

(** ** Specification: the limits set last *)
Definition limits_after {A} (l : limits) (h : list (cop A)) : limits :=
  fold_left (fun l o => match o with SetGBs b => mkLimits b (lim_size l) | SetSize n => mkLimits (lim_bytes l) n | Use _ _ _ _ => l end) h l.
Definition uses_fn {A} (i : nat) (o : cop A) : Prop := match o with Use j _ _ _ => j = i | _ => False end.

Section Limits.
  Variables A K V E : Type.
  Variable keq : forall x y : K, {x = y} + {x <> y}.
  Variable mk : A -> K.
  Variable f : nat -> A -> V + E.
  Hypothesis Hkey : forall i a b, mk a = mk b -> f i a = f i b.
  Notation crun := (crun A K V E keq mk f).
  Notation run i := (run A K V E keq mk (f i)).

  Lemma limits_app l h1 h2 : limits_after l (h1 ++ h2) = @limits_after A (limits_after l h1) h2.
  Proof. apply fold_left_app. Qed.
  Lemma crun_app h1 : forall h2 w, crun (h1 ++ h2) w = match crun h1 w with Some w => crun h2 w | None => None end.
  Proof.
    induction h1 as [|o h1 IH]; intros h2 w; [reflexivity|]. cbn [app CacheLimitModel.crun].
    destruct (cstep A K V E keq mk f w o); auto.
  Qed.

  (** The state of a memo is reached by calls alone. *)
  Definition reached i (m : mode) (s : state K V) : Prop := exists h tr, run i m h (init K V) = Some (s, tr).
  Lemma run_app' i m h1 : forall h2 s, run i m (h1 ++ h2) s = match run i m h1 s with
    | Some (s1, t1) => match run i m h2 s1 with Some (s2, t2) => Some (s2, t1 ++ t2) | None => None end | None => None end.
  Proof.
    induction h1 as [|o h1 IH]; intros h2 s.
    - cbn. destruct (run i m h2 s) as [[? ?]|]; reflexivity.
    - destruct o as [a av|]; cbn [app CacheModel.run].
      + destruct (call A K V E keq mk (f i) m s a av) as [[[s1 ran] o]|]; [|reflexivity]. rewrite IH.
        destruct (run i m h1 s1) as [[s2 t2]|]; [|reflexivity]. destruct (run i m h2 s2) as [[s3 t3]|]; reflexivity.
      + rewrite IH. destruct (run i m h1 (clear K V s)) as [[s2 t2]|]; [|reflexivity]. destruct (run i m h2 s2) as [[s3 t3]|]; reflexivity.
  Qed.
  Lemma reached_init i m : reached i m (init K V).
  Proof. exists [], []. reflexivity. Qed.
  Lemma reached_call i m s a av : reached i m s -> exists s' ran o, call A K V E keq mk (f i) m s a av = Some (s', ran, o) /\ reached i m s'.
  Proof.
    intros (h & tr & Hr).
    destruct (C02_growth_only_on_miss A K V E keq mk (f i) (Hkey i) m h (Call a av)) as (s0 & tr0 & s1 & ev & H1 & H2 & _).
    assert (s0 = s) by congruence. subst s0. pose proof H2 as H2'. rewrite run_app', H1 in H2. cbn [CacheModel.run] in H2.
    destruct (call A K V E keq mk (f i) m s a av) as [[[s2 ran] o]|] eqn:Hc; [|discriminate].
    exists s2, ran, o. split; [reflexivity|]. exists (h ++ [Call a av]). rewrite H2'. eexists. f_equal. f_equal. congruence.
  Qed.

  Lemma upd_same {B} (g : nat -> B) i b : upd g i b i = b. Proof. unfold upd. now rewrite Nat.eqb_refl. Qed.
  Lemma upd_other {B} (g : nat -> B) i j b : j <> i -> upd g i b j = g j.
  Proof. intros H. unfold upd. apply Nat.eqb_neq in H. now rewrite H. Qed.

  (** For each function: not called yet, or its memo has the mode of the limits at its first call. *)
  Definition cok (l : limits) (h : list (cop A)) (w : cworld K V) : Prop :=
    cl_lim K V w = limits_after l h /\
    forall i, match cl_inner K V w i with
              | None => Forall (fun o => ~ uses_fn i o) h
              | Some (m, s) => reached i m s /\ exists p a av1 av2 q, h = p ++ Use i a av1 av2 :: q /\ Forall (fun o => ~ uses_fn i o) p /\
                                 m = select_mode (lim_size (limits_after l p)) (lim_bytes (limits_after l p))
              end.
  Lemma crun_ok l h : exists w, crun h (cstart K V l) = Some w /\ cok l h w.
  Proof.
    induction h as [|o h IH] using rev_ind.
    - exists (cstart K V l). split; [reflexivity|]. split; [reflexivity|]. intros i. cbn. constructor.
    - destruct IH as (w & Hr & Hl & Hi). rewrite crun_app, Hr. cbn [CacheLimitModel.crun].
      assert (Hkeep : forall i, ~ uses_fn i o -> match cl_inner K V w i with
              | None => Forall (fun o => ~ uses_fn i o) (h ++ [o])
              | Some (m, s) => reached i m s /\ exists p a av1 av2 q, h ++ [o] = p ++ Use i a av1 av2 :: q /\ Forall (fun o => ~ uses_fn i o) p /\
                                 m = select_mode (lim_size (limits_after l p)) (lim_bytes (limits_after l p))
              end).
      { intros i Hn. specialize (Hi i). destruct (cl_inner K V w i) as [[m s]|].
        - destruct Hi as (H1 & p & a & b1 & b2 & q & -> & H3 & H4). split; auto. exists p, a, b1, b2, (q ++ [o]).
          rewrite <- app_assoc. auto.
        - apply Forall_app. auto. }
      destruct o as [b|n|j a av1 av2]; cbn [cstep].
      + eexists. split; [reflexivity|]. split; [cbn [cl_lim]; rewrite limits_app, <- Hl; reflexivity|]. intros i. apply Hkeep. intros [].
      + eexists. split; [reflexivity|]. split; [cbn [cl_lim]; rewrite limits_app, <- Hl; reflexivity|]. intros i. apply Hkeep. intros [].
      + unfold use_fn.
        set (ms := match cl_inner K V w j with Some ms => ms | None => (select_mode (lim_size (cl_lim K V w)) (lim_bytes (cl_lim K V w)), init K V) end).
        assert (Hj : reached j (fst ms) (snd ms) /\ exists p a' av1' av2' q, h ++ [Use j a av1 av2] = p ++ Use j a' av1' av2' :: q /\ Forall (fun o => ~ uses_fn j o) p /\
                                 fst ms = select_mode (lim_size (limits_after l p)) (lim_bytes (limits_after l p))).
        { unfold ms. specialize (Hi j). destruct (cl_inner K V w j) as [[m s]|]; cbn [fst snd].
          - destruct Hi as (H1 & p & a' & b1 & b2 & q & -> & H3 & H4). split; auto. exists p, a', b1, b2, (q ++ [Use j a av1 av2]).
            rewrite <- app_assoc. auto.
          - split; [apply reached_init|]. exists h, a, av1, av2, []. rewrite Hl. auto. }
        destruct ms as [m s]. cbn [fst snd] in Hj. destruct Hj as (Rs & Hp).
        assert (Hend : forall s', reached j m s' -> cok l (h ++ [Use j a av1 av2]) (mkCW K V (cl_lim K V w) (upd (cl_inner K V w) j (Some (m, s'))))).
        { intros s' R'. split; [cbn [cl_lim]; rewrite limits_app, <- Hl; reflexivity|]. intros i. cbn [cl_inner].
          destruct (Nat.eq_dec i j) as [->|N]; [rewrite upd_same; auto|]. rewrite upd_other by auto. apply Hkeep. cbn. congruence. }
        destruct (reached_call j m s a av1 Rs) as (s1 & r1 & o1 & -> & R1). destruct o1 as [v|e].
        * destruct (reached_call j m s1 a av2 R1) as (s2 & r2 & o2 & -> & R2). eexists. split; [reflexivity|]. auto.
        * eexists. split; [reflexivity|]. auto.
  Qed.

  (** The calls an operation makes of function i: two, or one if the function raises. *)
  Definition makes (i : nat) (o : cop A) : list (op A) :=
    match o with
    | Use j a av1 av2 => if Nat.eq_dec j i then match f i a with inl _ => [Call a av1; Call a av2] | inr _ => [Call a av1] end else []
    | _ => []
    end.
  Lemma call_outcome i m h s tr a av s' ran o : run i m h (init K V) = Some (s, tr) -> call A K V E keq mk (f i) m s a av = Some (s', ran, o) ->
    o = f i a /\ exists tr', run i m (h ++ [Call a av]) (init K V) = Some (s', tr').
  Proof.
    intros Hr Hc. assert (R : exists ev, run i m (h ++ [Call a av]) (init K V) = Some (s', tr ++ [EvCall a ran o]) /\ ev = tt).
    { exists tt. split; [|reflexivity]. rewrite run_app', Hr. cbn [CacheModel.run]. rewrite Hc. reflexivity. }
    destruct R as (_ & R & _). split; [|eauto].
    destruct (C01_memo_transparent A K V E keq mk (f i) (Hkey i) m (h ++ [Call a av])) as (s2 & tr2 & R2 & O2). rewrite R in R2. injection R2 as _ <-.
    destruct (C01_memo_transparent A K V E keq mk (f i) (Hkey i) m h) as (s3 & tr3 & R3 & O3). rewrite Hr in R3. injection R3 as _ <-.
    assert (Ca : forall h' : list (op A), calls (h' ++ [Call a av]) = calls h' ++ [a]) by (induction h' as [|[]]; cbn; congruence).
    rewrite Ca, map_app, <- O3 in O2. rewrite outcomes_app in O2. apply app_inv_head in O2. cbn in O2. congruence.
  Qed.
  Lemma crun_state l h : exists w, crun h (cstart K V l) = Some w /\
    forall i, match cl_inner K V w i with
              | None => flat_map (makes i) h = []
              | Some (m, s) => exists tr, run i m (flat_map (makes i) h) (init K V) = Some (s, tr)
              end.
  Proof.
    induction h as [|o h IH] using rev_ind.
    - exists (cstart K V l). split; [reflexivity|]. intros i. reflexivity.
    - destruct IH as (w & Hr & Hi). rewrite crun_app, Hr. cbn [CacheLimitModel.crun].
      assert (Hkeep : forall i, makes i o = [] -> match cl_inner K V w i with
              | None => flat_map (makes i) (h ++ [o]) = []
              | Some (m, s) => exists tr, run i m (flat_map (makes i) (h ++ [o])) (init K V) = Some (s, tr)
              end).
      { intros i Hn. specialize (Hi i). rewrite flat_map_app. cbn [flat_map]. rewrite Hn. cbn [app]. rewrite !app_nil_r. exact Hi. }
      destruct o as [b|n|j a av1 av2]; cbn [cstep].
      + eexists. split; [reflexivity|]. intros i. apply Hkeep. reflexivity.
      + eexists. split; [reflexivity|]. intros i. apply Hkeep. reflexivity.
      + unfold use_fn.
        set (ms := match cl_inner K V w j with Some ms => ms | None => (select_mode (lim_size (cl_lim K V w)) (lim_bytes (cl_lim K V w)), init K V) end).
        assert (Hj : exists tr, run j (fst ms) (flat_map (makes j) h) (init K V) = Some (snd ms, tr)).
        { unfold ms. specialize (Hi j). destruct (cl_inner K V w j) as [[m s]|]; cbn [fst snd]; [exact Hi|]. rewrite Hi. eexists. reflexivity. }
        destruct ms as [m s]. cbn [fst snd] in Hj. destruct Hj as (tr & Hj).
        assert (Hend : forall s', (exists tr, run j m (flat_map (makes j) h ++ makes j (Use j a av1 av2)) (init K V) = Some (s', tr)) ->
           forall i, match cl_inner K V (mkCW K V (cl_lim K V w) (upd (cl_inner K V w) j (Some (m, s')))) i with
              | None => flat_map (makes i) (h ++ [Use j a av1 av2]) = []
              | Some (m, s) => exists tr, run i m (flat_map (makes i) (h ++ [Use j a av1 av2])) (init K V) = Some (s, tr)
              end).
        { intros s' R' i. cbn [cl_inner]. destruct (Nat.eq_dec i j) as [->|N].
          - rewrite upd_same, flat_map_app. cbn [flat_map]. rewrite app_nil_r. exact R'.
          - rewrite upd_other by auto. apply Hkeep. cbn [makes]. destruct Nat.eq_dec; congruence. }
        destruct (reached_call j m s a av1 (ex_intro _ _ (ex_intro _ _ Hj))) as (s1 & r1 & o1 & C1 & R1). rewrite C1.
        destruct (call_outcome _ _ _ _ _ _ _ _ _ _ Hj C1) as (O1 & tr1 & T1). destruct o1 as [v|e].
        * destruct (reached_call j m s1 a av2 R1) as (s2 & r2 & o2 & C2 & R2). rewrite C2.
          destruct (call_outcome _ _ _ _ _ _ _ _ _ _ T1 C2) as (_ & tr2 & T2). eexists. split; [reflexivity|]. apply Hend. exists tr2.
          cbn [makes]. destruct Nat.eq_dec; [|congruence]. rewrite <- O1. rewrite <- app_assoc in T2. exact T2.
        * eexists. split; [reflexivity|]. apply Hend. exists tr1. cbn [makes]. destruct Nat.eq_dec; [|congruence]. rewrite <- O1. exact T1.
  Qed.
End Limits.

(** ** C100 *)
(** The limits in force at the first call of a function hold for its memo for ever: what is set before that
    call counts, what is set after it does not. *)
Theorem C100_first_call :
  forall (A K V E : Type) (keq : forall x y : K, {x = y} + {x <> y}) (mk : A -> K) (f : nat -> A -> V + E),
    (forall i a b, mk a = mk b -> f i a = f i b) ->
    forall (l : limits) (p : list (cop A)) (i : nat) (a : A) (av1 av2 : Z) (q : list (cop A)),
    Forall (fun o => ~ uses_fn i o) p ->
    exists w s, crun A K V E keq mk f (p ++ Use i a av1 av2 :: q) (cstart K V l) = Some w /\
      cl_inner K V w i = Some (select_mode (lim_size (limits_after l p)) (lim_bytes (limits_after l p)), s).
Proof.
  intros A K V E keq mk f H l p i a av1 av2 q Hp.
  destruct (crun_ok A K V E keq mk f H l (p ++ Use i a av1 av2 :: q)) as (w & Hr & _ & Hi). exists w. specialize (Hi i).
  destruct (cl_inner K V w i) as [[m s]|].
  - exists s. split; [exact Hr|]. destruct Hi as (_ & p' & a' & b1 & b2 & q' & E1 & Hp' & ->).
    assert (p' = p); [|congruence]. clear - E1 Hp Hp'. revert p' E1 Hp'. induction p as [|o p IH]; intros [|o' p'] E1 Hp'; auto.
    + injection E1 as <- _. inversion Hp'; subst. exfalso. apply H1. reflexivity.
    + injection E1 as -> _. inversion Hp; subst. exfalso. apply H1. reflexivity.
    + injection E1 as <- E1. inversion Hp; inversion Hp'; subst. f_equal. auto.
  - exfalso. apply Forall_app in Hi. destruct Hi as [_ Hi]. inversion Hi; subst. apply H2. reflexivity.
Qed.
Print Assumptions C100_first_call.

(** The memo is the one these calls alone would leave, of the function's own calls, each use making two
    (one if the function raises): changing limits and calling other functions leave no trace in it. *)
Theorem C100_state :
  forall (A K V E : Type) (keq : forall x y : K, {x = y} + {x <> y}) (mk : A -> K) (f : nat -> A -> V + E),
    (forall i a b, mk a = mk b -> f i a = f i b) ->
    forall (l : limits) (h : list (cop A)) (i : nat), exists w, crun A K V E keq mk f h (cstart K V l) = Some w /\
      match cl_inner K V w i with
      | None => Forall (fun o => ~ uses_fn i o) h
      | Some (m, s) => exists tr, run A K V E keq mk (f i) m (flat_map (makes A V E f i) h) (init K V) = Some (s, tr)
      end.
Proof.
  intros A K V E keq mk f H l h i. destruct (crun_state A K V E keq mk f H l h) as (w & Hr & Hi).
  destruct (crun_ok A K V E keq mk f H l h) as (w' & Hr' & _ & Hi'). assert (w' = w) by congruence. subst w'.
  exists w. split; [exact Hr|]. specialize (Hi i). specialize (Hi' i). destruct (cl_inner K V w i) as [[m s]|]; auto.
Qed.
Print Assumptions C100_state.

(** Hence a size limit set before the first call is kept. Missing for the full property: functions that were
    called before the limit was set. *)
Theorem C100_partial :
  forall (A K V E : Type) (keq : forall x y : K, {x = y} + {x <> y}) (mk : A -> K) (f : nat -> A -> V + E),
    (forall i a b, mk a = mk b -> f i a = f i b) ->
    forall (l : limits) (p : list (cop A)) (i : nat) (a : A) (av1 av2 : Z) (q : list (cop A)) (n : Z),
    Forall (fun o => ~ uses_fn i o) p -> limits_after l p = mkLimits 0 (Some n) -> (0 <= n)%Z ->
    exists w m s, crun A K V E keq mk f (p ++ Use i a av1 av2 :: q) (cstart K V l) = Some w /\
      cl_inner K V w i = Some (m, s) /\ (Z.of_nat (currsize K V m s) <= n)%Z.
Proof.
  intros A K V E keq mk f H l p i a av1 av2 q n Hp Hl Hn.
  destruct (C100_first_call A K V E keq mk f H l p i a av1 av2 q Hp) as (w & s & Hr & Hi).
  destruct (crun_ok A K V E keq mk f H l (p ++ Use i a av1 av2 :: q)) as (w' & Hr' & _ & Hi').
  assert (w' = w) by congruence. subst w'. specialize (Hi' i). rewrite Hi in Hi'. destruct Hi' as ((hh & tr & Hrun) & _).
  eexists w, _, s. split; [exact Hr|]. split; [exact Hi|].
  rewrite Hl in Hrun |- *. cbn [lim_size lim_bytes] in Hrun |- *.
  exact (C02_size_bounded A K V E keq mk (f i) (H i) n hh s tr Hn Hrun).
Qed.
Print Assumptions C100_partial.

(** Refuted: after two calls, the memory limit is switched off and a maximum of one entry is set; the memo has
    two entries and takes a third. *)
Definition ex_fn (i : nat) (a : Z) : Z + unit := inl (a + Z.of_nat i)%Z.
Definition late : list (cop Z) :=
  [Use 0 5 (2 ^ 33) (2 ^ 33); Use 0 6 (2 ^ 33) (2 ^ 33); SetGBs 0; SetSize (Some 1); Use 0 7 (2 ^ 33) (2 ^ 33)]%Z.
Example C100_state_example : exists w m s tr, crun Z Z Z unit Z.eq_dec (fun a => a) ex_fn late (cstart Z Z (mkLimits (2 ^ 30) None)) = Some w /\
  cl_inner Z Z w 0 = Some (m, s) /\ run Z Z Z unit Z.eq_dec (fun a => a) (ex_fn 0) m
    (flat_map (fun a => [Call a (2 ^ 33); Call a (2 ^ 33)]) [5; 6; 7])%Z (init Z Z) = Some (s, tr).
Proof.
  destruct (C100_state Z Z Z unit Z.eq_dec (fun a => a) ex_fn ltac:(intros i a b ->; reflexivity) (mkLimits (2 ^ 30) None) late 0) as (w & Hr & H).
  exists w. destruct (cl_inner Z Z w 0) as [[m s]|].
  - destruct H as (tr & H). exists m, s, tr. auto.
  - exfalso. inversion H as [|? ? N _]. apply N. reflexivity.
Qed.
Theorem C100_refuted :
  ~ (forall (A K V E : Type) (keq : forall x y : K, {x = y} + {x <> y}) (mk : A -> K) (f : nat -> A -> V + E),
     (forall i a b, mk a = mk b -> f i a = f i b) ->
     forall (l : limits) (h : list (cop A)) (i : nat) (n : Z) w m s,
     limits_after l h = mkLimits 0 (Some n) -> (0 <= n)%Z ->
     crun A K V E keq mk f h (cstart K V l) = Some w -> cl_inner K V w i = Some (m, s) -> (Z.of_nat (currsize K V m s) <= n)%Z).
Proof.
  intros H.
  assert (Hk : forall (i : nat) (a b : Z), a = b -> ex_fn i a = ex_fn i b) by (intros; now subst).
  specialize (H Z Z Z unit Z.eq_dec (fun a => a) ex_fn Hk (mkLimits (2 ^ 31) (Some 128%Z)) late 0 1%Z).
  destruct (crun_ok Z Z Z unit Z.eq_dec (fun a => a) ex_fn Hk (mkLimits (2 ^ 31) (Some 128%Z)) late) as (w & Hr & _).
  specialize (H w).
  assert (E : match cl_inner Z Z w 0 with Some (m, s) => currsize Z Z m s = 3 | None => False end).
  { clear H. revert Hr. vm_compute. intros Hr. injection Hr as <-. vm_compute. reflexivity. }
  destruct (cl_inner Z Z w 0) as [[m s]|]; [|contradiction].
  specialize (H m s eq_refl). rewrite E in H. specialize (H ltac:(lia) Hr eq_refl). lia.
Qed.
Print Assumptions C100_refuted.

(** Non-vacuity of [C100_partial]: the documented order, limits first. *)
Example C100_example :
  exists w m s, crun Z Z Z unit Z.eq_dec (fun a => a) ex_fn
    ([Use 1 5 (2 ^ 33) (2 ^ 33); SetGBs 0; SetSize (Some 2)]%Z ++ Use 0 5 0 0 :: [Use 0 6 0 0; SetSize None; Use 0 7 0 0; Use 0 8 0 0])%Z
    (cstart Z Z (mkLimits (2 ^ 31) (Some 128%Z))) = Some w /\ cl_inner Z Z w 0 = Some (m, s) /\ (Z.of_nat (currsize Z Z m s) <= 2)%Z.
Proof.
  apply C100_partial; auto; try lia.
  - intros i a b ->. reflexivity.
  - repeat constructor; cbn; try congruence; tauto.
Qed.
