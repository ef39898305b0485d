(** Further lemmas: memory-limited mode, failures, interleavings, keys, aliasing. *)
From Coq Require Import List ZArith Bool Lia Permutation.
From Verif Require Import ListUtil CacheModel CacheSpec CacheProofs CacheHistory ArrKeyModel.
Import ListNotations.

Local Arguments CacheModel.call : simpl never.

Section M.
  Variables A K V E : Type.
  Variable keq : forall x y : K, {x = y} + {x <> y}.
  Variable mk : A -> K.
  Variable f : A -> V + E.
  Hypothesis Hmk : forall a b, mk a = mk b -> f a = f b.

  Notation rep := (rep K V).
  Notation call := (call A K V E keq mk f).
  Notation run := (run A K V E keq mk f).
  Notation init := (init K V).
  Notation uses := (uses mk f).
  Notation store_inv := (store_inv A K V E keq mk f).

  (** *** Memory-limited *)
  Lemma mem_call limit s u a av :
    store_inv (MemLimited limit) s u ->
    exists s' ran, call (MemLimited limit) s a av = Some (s', ran, f a) /\
      store_inv (MemLimited limit) s' (use1 A K V E mk f u a) /\
      (s_full K V s = true -> s_full K V s' = true /\
         currsize K V (MemLimited limit) s' = currsize K V (MemLimited limit) s) /\
      (s_full K V s = false ->
         s_full K V s' = false \/ s_full K V s' = (av <? limit)%Z) /\
      (s_full K V s = false -> ran = true -> is_ret V E (f a) = true ->
         s_full K V s' = (av <? limit)%Z).
  Proof.
    intros Hst. set (m := MemLimited limit) in *.
    destruct Hst as (ids & ents & Hrep & Hrec).
    destruct (call_locked A K V E keq mk f m s ids ents a av I Hrep)
      as (s' & ids' & ents' & full' & ran & o & Hcall & Hs & Hrep' & Hf' & _ & Hh & Hmi).
    { apply Hrec. }
    destruct (astep_rec A K V E keq mk f Hmk _ _ _ _ _ _ _ _ _ _ Hrec Hs)
      as (Hrec' & Ho & Hran & Hlen & Hft & Hff).
    subst o full'. exists s', ran. split; [auto|]. split; [exists ids', ents'; auto|].
    split; [|split].
    - intros Hf. destruct (Hft Hf) as [H1 H2]. split; auto. simpl.
      rewrite (rep_cache_len K V _ _ _ Hrep), (rep_cache_len K V _ _ _ Hrep'). auto.
    - intros Hf. destruct (Hff Hf) as [[H1 H2]|(H1 & H2 & H3 & H4)]; auto.
    - intros Hf Hr Hret. unfold astep in Hs. rewrite Hf in Hs.
      destruct (dget K keq ents (mk a)); [inversion Hs; congruence|].
      destruct (f a); [|discriminate]. inversion Hs. auto.
  Qed.

  Lemma mem_full_stays limit h2 : no_clear h2 -> forall s u,
    store_inv (MemLimited limit) s u -> s_full K V s = true ->
    exists s' tr u', run (MemLimited limit) h2 s = Some (s', tr) /\
      store_inv (MemLimited limit) s' u' /\
      currsize K V (MemLimited limit) s' = currsize K V (MemLimited limit) s.
  Proof.
    unfold no_clear. induction h2 as [|[a av|] h2 IH]; simpl; intros Hnc s u Hst Hf.
    - exists s, [], u. auto.
    - destruct (mem_call limit s u a av Hst) as (s1 & ran & Hc & Hst1 & Hft & _).
      destruct (Hft Hf) as [Hf1 Hs1].
      destruct (IH (fun q => Hnc (or_intror q)) s1 _ Hst1 Hf1) as (s2 & tr & u' & Hr & Hst2 & Hs2).
      rewrite Hc, Hr. eexists _, _, _. split; [reflexivity|]. split; [eauto|].
      exact (eq_trans Hs2 Hs1).
    - exfalso; apply Hnc; auto.
  Qed.

  Lemma store_full_call limit s u a av s' ran :
    store_inv (MemLimited limit) s u ->
    call (MemLimited limit) s a av = Some (s', ran, f a) ->
    ran = true -> is_ret V E (f a) = true -> (av < limit)%Z ->
    store_inv (MemLimited limit) s' (use1 A K V E mk f u a) /\ s_full K V s' = true.
  Proof.
    intros Hst Hc Hr Hret Hav.
    destruct (mem_call limit s u a av Hst) as (s1 & ran1 & Hc1 & Hst1 & Hft & _ & Hff).
    rewrite Hc in Hc1. inversion Hc1; subst. split; auto.
    destruct (s_full K V s) eqn:Hf; [apply Hft; auto|].
    rewrite Hff; auto. apply Z.ltb_lt; auto.
  Qed.

  Lemma mem_size_frozen limit h1 a av h2 s1 tr1 :
    run (MemLimited limit) (h1 ++ [Call a av]) init = Some (s1, tr1 ++ [EvCall a true (f a)]) ->
    is_ret V E (f a) = true -> (av < limit)%Z -> no_clear h2 ->
    exists s2 tr2, run (MemLimited limit) (h1 ++ [Call a av] ++ h2) init = Some (s2, tr2) /\
      currsize K V (MemLimited limit) s2 = currsize K V (MemLimited limit) s1.
  Proof.
    intros Hrun Hret Hav Hnc.
    destruct (run_inv A K V E keq mk f Hmk (MemLimited limit) h1) as (s0 & tr0 & H0 & Hst & _).
    destruct (store_call A K V E keq mk f Hmk (MemLimited limit) s0 (uses h1) a av Hst)
      as (s' & ran & Hc & _).
    assert (Hq : s' = s1 /\ ran = true).
    { rewrite (run_app A K V E keq mk f), H0 in Hrun. simpl in Hrun. rewrite Hc in Hrun. inversion Hrun as [[Hx Hy]].
      apply app_inj_tail in Hy. destruct Hy as [_ Hy]. inversion Hy; auto. }
    destruct Hq as [-> ->].
    destruct (store_full_call limit s0 (uses h1) a av s1 true Hst Hc eq_refl Hret Hav) as [Hst1 Hf1].
    destruct (mem_full_stays limit h2 Hnc s1 _ Hst1 Hf1) as (s2 & tr2 & u' & Hr2 & _ & Hcs).
    exists s2. eexists. split; [|exact Hcs].
    rewrite app_assoc, (run_app A K V E keq mk f), Hrun, Hr2. reflexivity.
  Qed.

  Lemma mem_nothing_evicted limit h : Forall (fun av => limit <= av)%Z (readings h) ->
    exists s tr, run (MemLimited limit) h init = Some (s, tr) /\
      store_inv (MemLimited limit) s (uses h) /\ s_full K V s = false.
  Proof.
    induction h as [|o h IH] using rev_ind; intros Hr.
    - exists init, []. split; [reflexivity|]. split; [apply store_init|reflexivity].
    - destruct o as [a av|].
      + unfold readings in Hr. rewrite fold_left_app in Hr. simpl in Hr.
        apply Forall_app in Hr. destruct Hr as [Hr1 Hr2]. inversion Hr2; subst.
        destruct (IH Hr1) as (s & tr & Hrun & Hst & Hf).
        destruct (mem_call limit s (uses h) a av Hst) as (s' & ran & Hc & Hst' & _ & Hff & _).
        rewrite (run_app A K V E keq mk f), Hrun. simpl. rewrite Hc. eexists _, _. split; [reflexivity|].
        split; [rewrite (uses_snoc_call A K V E mk f); auto|].
        destruct (Hff Hf) as [Q|Q]; auto. rewrite Q. apply Z.ltb_ge. auto.
      + destruct (run_inv A K V E keq mk f Hmk (MemLimited limit) h) as (s & tr & Hrun & Hst & _).
        rewrite (run_app A K V E keq mk f), Hrun. simpl. eexists _, _. split; [reflexivity|].
        split; [|reflexivity]. rewrite (uses_snoc_clear A K V E mk f).
        exact (store_clear A K V E keq mk f (MemLimited limit) s (uses h) Hst).
  Qed.

  Lemma mem_ran_iff limit h a av : Forall (fun av => limit <= av)%Z (readings h) ->
    exists s tr s' ran, run (MemLimited limit) h init = Some (s, tr) /\
      run (MemLimited limit) (h ++ [Call a av]) init = Some (s', tr ++ [EvCall a ran (f a)]) /\
      currsize K V (MemLimited limit) s = length (distinct keq (rev (uses h))) /\
      (ran = false <-> In (mk a) (uses h)).
  Proof.
    intros Hr. destruct (mem_nothing_evicted limit h Hr) as (s & tr & Hrun & Hst & Hf).
    destruct (store_call A K V E keq mk f Hmk (MemLimited limit) s (uses h) a av Hst)
      as (s' & ran & Hc & _ & _ & _ & _ & Hran).
    assert (Hlen : currsize K V (MemLimited limit) s = length (distinct keq (rev (uses h)))).
    { destruct Hst as (ids & ents & Hrep & Hrec). simpl. rewrite (rep_cache_len K V _ _ _ Hrep).
      apply Hrec; auto. }
    exists s, tr, s', ran. split; [auto|]. split; [|split; [auto|]].
    - rewrite (run_app A K V E keq mk f), Hrun. simpl. rewrite Hc. reflexivity.
    - rewrite Hran, Hlen, firstn_all, In_distinct, <- in_rev. tauto.
  Qed.

  (** *** Growth *)
  Lemma call_growth m s u a av s' ran : store_inv m s u ->
    call m s a av = Some (s', ran, f a) ->
    currsize K V m s' = currsize K V m s \/
    (ran = true /\ is_ret V E (f a) = true /\ currsize K V m s' = S (currsize K V m s)).
  Proof.
    intros Hst Hc.
    assert (Hlk : locked m -> (exists ids ents, rep s ids ents /\
                recinv A K V E keq mk f ents (s_full K V s) u) ->
      length (s_cache K V s') = length (s_cache K V s) \/
      (ran = true /\ is_ret V E (f a) = true /\ length (s_cache K V s') = S (length (s_cache K V s)))).
    { intros Hm (ids & ents & Hrep & Hrec).
      destruct (call_locked A K V E keq mk f m s ids ents a av Hm Hrep)
        as (s1 & ids' & ents' & full' & ran1 & o & Hcall & Hs & Hrep' & Hf' & _).
      { apply Hrec. }
      rewrite Hc in Hcall. inversion Hcall; subst s1 ran1 o.
      destruct (astep_rec A K V E keq mk f Hmk _ _ _ _ _ _ _ _ _ _ Hrec Hs)
        as (_ & _ & _ & _ & Hft & Hff).
      rewrite (rep_cache_len K V _ _ _ Hrep), (rep_cache_len K V _ _ _ Hrep').
      destruct (s_full K V s); [left; apply Hft; auto|].
      destruct (Hff eq_refl) as [[_ Hl]|(H1 & H2 & H3 & _)]; auto. }
    destruct m; simpl in Hst |- *.
    - apply Hlk; [exact I|exact Hst].
    - unfold CacheModel.call in Hc. destruct (f a); inversion Hc; subst; auto.
    - unfold CacheModel.call in Hc.
      destruct (dget K keq (s_plain K V s) (mk a)) eqn:Hd; [inversion Hc; subst; auto|].
      apply dget_None in Hd.
      destruct (f a); inversion Hc; subst; simpl; auto.
      rewrite dset_new by auto. rewrite app_length; simpl. right. split; [auto|split; [auto|lia]].
    - apply Hlk; [exact I|]. destruct Hst as (ids & ents & H1 & H2 & _). eauto.
  Qed.

  Lemma run_growth m h o : exists s tr s' ev,
    run m h init = Some (s, tr) /\ run m (h ++ [o]) init = Some (s', tr ++ [ev]) /\
    (currsize K V m s' <= currsize K V m s \/
     exists a v, ev = EvCall a true (inl v) /\ currsize K V m s' = S (currsize K V m s)).
  Proof.
    destruct (run_inv A K V E keq mk f Hmk m h) as (s & tr & Hrun & Hst & _).
    exists s, tr. rewrite (run_app A K V E keq mk f), Hrun. destruct o as [a av|].
    - destruct (store_call A K V E keq mk f Hmk m s (uses h) a av Hst) as (s' & ran & Hc & _).
      exists s', (EvCall a ran (f a)). split; [auto|]. simpl. rewrite Hc. split; [auto|].
      destruct (call_growth m s (uses h) a av s' ran Hst Hc) as [Q|(-> & H2 & H3)]; [left; lia|].
      right. destruct (f a) as [v|e]; [|discriminate]. eauto.
    - exists (clear K V s), EvClear. split; [auto|]. simpl. split; [auto|]. left.
      destruct m; simpl; lia.
  Qed.

  Lemma run_info m h : exists s tr, run m h init = Some (s, tr) /\
    outcomes tr = map f (calls h) /\
    s_hits K V s + s_misses K V s = count_returned (since_clear tr) /\
    s_misses K V s = count_ran (since_clear tr).
  Proof.
    destruct (run_inv A K V E keq mk f Hmk m h) as (s & tr & Hrun & _ & H). eauto.
  Qed.

  Lemma run_clear m h : exists s tr, run m (h ++ [Clear]) init = Some (s, tr) /\
    cache_info K V m s = (0, 0, 0).
  Proof.
    destruct (run_inv A K V E keq mk f Hmk m h) as (s & tr & Hrun & _ & H).
    rewrite (run_app A K V E keq mk f), Hrun. eexists _, _. split; [reflexivity|].
    unfold cache_info. destruct m; reflexivity.
  Qed.

  Lemma select_sized n : (1 <= n)%Z -> select_mode (Some n) 0 = Sized n.
  Proof. intros H. unfold select_mode. simpl. destruct n; auto; lia. Qed.

  Lemma select_mem maxsize limit : limit <> 0%Z -> select_mode maxsize limit = MemLimited limit.
  Proof. intros H. unfold select_mode. apply Z.eqb_neq in H. now rewrite H. Qed.

  Lemma run_bound n h s tr : (0 <= n)%Z -> run (select_mode (Some n) 0) h init = Some (s, tr) ->
    (Z.of_nat (currsize K V (select_mode (Some n) 0) s) <= n)%Z.
  Proof.
    intros Hn Hr. destruct (Z.eq_dec n 0) as [->|Hn'].
    - change (select_mode (Some 0%Z) 0) with Disabled in *.
      destruct (run_inv A K V E keq mk f Hmk Disabled h) as (s1 & tr1 & Hrun & Hst & _).
      rewrite Hr in Hrun. inversion Hrun; subst. simpl in Hst |- *. rewrite Hst. simpl. lia.
    - rewrite select_sized in * by lia.
      destruct (run_inv A K V E keq mk f Hmk (Sized n) h) as (s1 & tr1 & Hrun & Hst & _).
      rewrite Hr in Hrun. inversion Hrun; subst.
      pose proof (currsize_sized_le A K V E keq mk f n s1 (uses h) Hst). lia.
  Qed.

  Lemma run_lru n h a av : (1 <= n)%Z -> exists s tr s' ran,
    run (select_mode (Some n) 0) h init = Some (s, tr) /\
    currsize K V (select_mode (Some n) 0) s = length (recent keq mk f (Z.to_nat n) h) /\
    run (select_mode (Some n) 0) (h ++ [Call a av]) init = Some (s', tr ++ [EvCall a ran (f a)]) /\
    (ran = false <-> In (mk a) (recent keq mk f (Z.to_nat n) h)).
  Proof.
    intros Hn. rewrite select_sized by auto.
    destruct (run_inv A K V E keq mk f Hmk (Sized n) h) as (s1 & tr1 & Hrun1 & Hst & _).
    destruct (run_snoc_call A K V E keq mk f Hmk (Sized n) h a av)
      as (s & tr & s' & ran & Hrun & Hrun' & Hran).
    rewrite Hrun1 in Hrun. inversion Hrun; subst s1 tr1.
    pose proof (currsize_store A K V E keq mk f (Sized n) s (uses h) Hst Hn) as Hcs.
    exists s, tr, s', ran. split; [auto|]. split; [|split; [auto|]].
    - rewrite Hcs. unfold recent. rewrite firstn_length. reflexivity.
    - rewrite Hran, Hcs. unfold recent.
      set (D := distinct keq (rev (uses h))).
      replace (firstn (Nat.min (Z.to_nat n) (length D)) D) with (firstn (Z.to_nat n) D); [tauto|].
      destruct (Nat.le_ge_cases (Z.to_nat n) (length D)).
      + now rewrite Nat.min_l.
      + rewrite Nat.min_r by auto. rewrite firstn_all, firstn_all2; auto.
  Qed.

  (** *** Failures *)
  Lemma call_raise m s u a av e : f a = inr e -> store_inv m s u ->
    call m s a av = Some (s, true, inr e).
  Proof.
    intros Hfa Hst.
    assert (Hmiss : forall ids ents, rep s ids ents -> coherent A K V E mk f ents ->
              lookup K V keq s (mk a) = (s, None)).
    { intros ids ents Hrep Hc. eapply lookup_miss; eauto.
      intros Q. apply in_map_iff in Q. destruct Q as ([k v] & Hk & Hin). simpl in Hk. subst k.
      rewrite (coherent_val A K V E mk f Hmk ents a v Hc Hin) in Hfa. discriminate. }
    destruct m; simpl in *; unfold CacheModel.call; rewrite Hfa.
    - destruct Hst as (ids & ents & Hrep & Hrec).
      rewrite (Hmiss ids ents Hrep) by apply Hrec. reflexivity.
    - reflexivity.
    - destruct (dget K keq (s_plain K V s) (mk a)) as [v|] eqn:Hg; auto.
      apply dget_In in Hg. destruct Hst as (Hc & _).
      rewrite (coherent_val A K V E mk f Hmk _ a v Hc Hg) in Hfa. discriminate.
    - destruct Hst as (ids & ents & Hrep & Hrec & _).
      rewrite (Hmiss ids ents Hrep) by apply Hrec. reflexivity.
  Qed.

  Lemma raise_no_trace m h a av e : f a = inr e ->
    exists s tr, run m h init = Some (s, tr) /\
      run m (h ++ [Call a av]) init = Some (s, tr ++ [EvCall a true (inr e)]).
  Proof.
    intros Hfa. destruct (run_inv A K V E keq mk f Hmk m h) as (s & tr & Hrun & Hst & _).
    exists s, tr. split; auto. rewrite (run_app A K V E keq mk f), Hrun. simpl.
    rewrite (call_raise m s (uses h) a av e Hfa Hst). reflexivity.
  Qed.

  (** *** Interleavings *)
  Notation cstep := (cstep A K V E keq mk f).
  Notation creach := (creach A K V E keq mk f).

  Definition cinv (m : mode) (c : cstate A K V E) : Prop :=
    (exists ids ents, rep (c_cache _ _ _ _ c) ids ents /\ coherent A K V E mk f ents /\
       (s_full K V (c_cache _ _ _ _ c) = true -> ents <> []) /\
       match m with
       | Sized n => s_full K V (c_cache _ _ _ _ c)
                      = (if ents then false else (n <=? Z.of_nat (length ents))%Z) /\
                    (Z.of_nat (length ents) <= Z.max 1 n)%Z
       | _ => True
       end) /\
    (forall t a v, c_threads _ _ _ _ c t = Computed A V a v -> f a = inl v) /\
    (forall t a o, In (t, a, o) (c_done _ _ _ _ c) -> o = f a) /\
    s_hits K V (c_cache _ _ _ _ c) + s_misses K V (c_cache _ _ _ _ c) = c_returned _ _ _ _ c.

  Lemma cinv_init m : cinv m (cinit A K V E).
  Proof.
    split; [|split; [|split]]; simpl; try discriminate; try tauto.
    exists [], []. split; [apply rep_init|]. split; [constructor|]. split; [discriminate|].
    destruct m; simpl; auto. split; auto. lia.
  Qed.

  Lemma cinv_lookup m s ids ents k :
    rep s ids ents -> coherent A K V E mk f ents -> (s_full K V s = true -> ents <> []) ->
    match m with
       | Sized n => s_full K V s = (if ents then false else (n <=? Z.of_nat (length ents))%Z) /\
                    (Z.of_nat (length ents) <= Z.max 1 n)%Z
       | _ => True
    end ->
    (lookup K V keq s k = (s, None)) \/
    (exists v s' ids' ents', lookup K V keq s k = (s', Some v) /\ In (k, v) ents /\
       rep s' ids' ents' /\ coherent A K V E mk f ents' /\
       (s_full K V s' = true -> ents' <> []) /\
       s_hits K V s' = S (s_hits K V s) /\ s_misses K V s' = s_misses K V s /\
       match m with
       | Sized n => s_full K V s' = (if ents' then false else (n <=? Z.of_nat (length ents'))%Z) /\
                    (Z.of_nat (length ents') <= Z.max 1 n)%Z
       | _ => True
       end).
  Proof.
    intros Hrep Hc Hf Hm.
    destruct (dget K keq ents k) as [v|] eqn:Hg.
    - right. apply dget_In in Hg. pose proof Hg as Hin. apply in_split in Hg. destruct Hg as (e1 & e2 & He).
      destruct (lookup_hit K V keq s ids ents e1 k v e2 Hrep He)
        as (s' & ids' & Hl & Hr & Hf' & _ & Hh & Hmi).
      exists v, s', ids', (e1 ++ e2 ++ [(k, v)]). split; [auto|]. split; [auto|]. split; [auto|].
      assert (Hne : e1 ++ e2 ++ [(k, v)] <> []) by (intros Q; destruct e1, e2; discriminate).
      assert (Hlen : length (e1 ++ e2 ++ [(k, v)]) = length ents).
      { subst ents. rewrite !app_length. simpl. lia. }
      split; [|split; [auto|split; [auto|split; [auto|]]]].
      + unfold coherent in *. subst ents. rewrite !Forall_app in *.
        destruct Hc as [Hc1 Hc2]. apply Forall_cons_iff in Hc2. intuition.
      + destruct m; auto. rewrite Hlen, Hf'. destruct Hm as [Hm1 Hm2]. split; auto.
        destruct (e1 ++ e2 ++ [(k, v)]); [congruence|].
        destruct ents; [destruct e1; discriminate|auto].
    - left. apply dget_None in Hg. eapply lookup_miss; eauto.
  Qed.

  Lemma cinv_insert m s ids ents k v av :
    locked m -> rep s ids ents -> coherent A K V E mk f ents -> (s_full K V s = true -> ents <> []) ->
    match m with
       | Sized n => s_full K V s = (if ents then false else (n <=? Z.of_nat (length ents))%Z) /\
                    (Z.of_nat (length ents) <= Z.max 1 n)%Z
       | _ => True
    end -> (exists a, mk a = k /\ f a = inl v) ->
    exists s' ids' ents', insert K V keq m s k v av = Some s' /\
       rep s' ids' ents' /\ coherent A K V E mk f ents' /\
       (s_full K V s' = true -> ents' <> []) /\
       s_hits K V s' = s_hits K V s /\ s_misses K V s' = S (s_misses K V s) /\
       match m with
       | Sized n => s_full K V s' = (if ents' then false else (n <=? Z.of_nat (length ents'))%Z) /\
                    (Z.of_nat (length ents') <= Z.max 1 n)%Z
       | _ => True
       end.
  Proof.
    intros Hlk Hrep Hc Hf Hm Hv.
    destruct (in_dec keq k (map fst ents)) as [Hin|Hin].
    - destruct (insert_present K V keq m s ids ents k v av Hrep Hin)
        as (s' & Hi & Hr & Hf' & _ & Hh & Hmi).
      exists s', ids, ents. rewrite Hf'. auto 10.
    - destruct (s_full K V s) eqn:Hfs.
      + destruct ents as [|e0 ents]; [exfalso; apply Hf; auto|].
        destruct (insert_full K V keq m s ids e0 ents k v av Hrep Hin Hfs)
          as (s' & ids' & Hi & Hr & Hf' & _ & Hh & Hmi).
        exists s', ids', (ents ++ [(k, v)]). rewrite Hf'.
        assert (Hne : ents ++ [(k, v)] <> []) by (intros Q; destruct ents; discriminate).
        repeat (split; [first [assumption|auto; fail
          |apply Forall_cons_iff in Hc; apply Forall_app; split; [tauto|constructor; auto]]|]).
        destruct m; auto. rewrite app_length. simpl in *.
        replace (length ents + 1) with (S (length ents)) by lia.
        destruct (ents ++ [(k, v)]); [congruence|auto].
      + destruct (insert_append K V keq m s ids ents k v av Hrep Hin Hfs)
          as (s' & ids' & Hi & Hr & Hf' & _ & Hh & Hmi).
        exists s', ids', (ents ++ [(k, v)]).
        assert (Hne : ents ++ [(k, v)] <> []) by (intros Q; destruct ents; discriminate).
        repeat (split; [first [assumption|auto; fail
          |apply Forall_app; split; [auto|constructor; auto]]|]).
        destruct m; auto. rewrite app_length, Hf'. simpl in *.
        replace (length ents + 1) with (S (length ents)) by lia.
        split.
        * destruct (ents ++ [(k, v)]); [congruence|auto].
        * destruct Hm as [Hm1 Hm2]. destruct ents; [simpl; lia|].
          symmetry in Hm1. apply Z.leb_gt in Hm1. lia.
  Qed.

  Lemma tset_other t i (x : tstate A V) j : j <> i -> tset A V t i x j = t j.
  Proof. intros H. unfold tset. destruct (Nat.eqb_spec j i); congruence. Qed.
  Lemma tset_same t i (x : tstate A V) : tset A V t i x i = x.
  Proof. unfold tset. now rewrite Nat.eqb_refl. Qed.

  Lemma tset_computed t i x j a v : tset A V t i x j = Computed A V a v ->
    (x = Computed A V a v) \/ t j = Computed A V a v.
  Proof. unfold tset. destruct (Nat.eqb j i); auto. Qed.

  Lemma cinv_step m c oc : locked m -> cinv m c -> cstep m c oc ->
    match oc with Some c' => cinv m c' | None => False end.
  Proof.
    intros Hlk ((ids & ents & Hrep & Hc & Hf & Hm) & Hth & Hdone & Hst) Hs.
    destruct Hs as [c t a s' v Ht Hl|c t a s' Ht Hl|c t a v Ht Hfa|c t a e Ht Hfa
                   |c t a v av s' Ht Hi|c t a v av Ht Hi|c].
    - destruct (cinv_lookup m _ ids ents (mk a) Hrep Hc Hf Hm) as [Q|Q].
      + rewrite Hl in Q. discriminate.
      + destruct Q as (v' & s1 & ids' & ents' & Q & Hin & Hr' & Hc' & Hf' & Hh & Hmi & Hm').
        rewrite Hl in Q. inversion Q; subst. split; [|split; [|split]]; simpl; auto.
        * exists ids', ents'. auto.
        * intros t0 a0 o0 [[= -> -> <-]|Q']; [|eauto].
          symmetry. exact (coherent_val A K V E mk f Hmk ents a0 v' Hc Hin).
        * lia.
    - destruct (cinv_lookup m _ ids ents (mk a) Hrep Hc Hf Hm) as [Q|Q].
      + rewrite Hl in Q. inversion Q; subst. split; [|split; [|split]]; simpl; auto.
        * exists ids, ents. auto.
        * intros t0 a0 v0 Q'. apply tset_computed in Q'. destruct Q' as [Q'|Q']; [discriminate|eauto].
      + destruct Q as (v' & s1 & ids' & ents' & Q & _). rewrite Hl in Q. discriminate.
    - split; [|split; [|split]]; simpl; auto.
      + exists ids, ents. auto.
      + intros t0 a0 v0 Q'. apply tset_computed in Q'. destruct Q' as [Q'|Q']; [congruence|eauto].
    - split; [|split; [|split]]; simpl; auto.
      + exists ids, ents. auto.
      + intros t0 a0 v0 Q'. apply tset_computed in Q'. destruct Q' as [Q'|Q']; [discriminate|eauto].
      + intros t0 a0 o0 [[= -> -> <-]|Q']; [auto|eauto].
    - pose proof (Hth _ _ _ Ht) as Hfa.
      destruct (cinv_insert m _ ids ents (mk a) v av Hlk Hrep Hc Hf Hm)
        as (s1 & ids' & ents' & Q & Hr' & Hc' & Hf' & Hh & Hmi & Hm'). { exists a; auto. }
      rewrite Hi in Q. inversion Q; subst. split; [|split; [|split]]; simpl.
      + exists ids', ents'. auto.
      + intros t0 a0 v0 Q'. apply tset_computed in Q'. destruct Q' as [Q'|Q']; [discriminate|eauto].
      + intros t0 a0 o0 [[= -> -> <-]|Q']; [auto|eauto].
      + lia.
    - pose proof (Hth _ _ _ Ht) as Hfa.
      destruct (cinv_insert m _ ids ents (mk a) v av Hlk Hrep Hc Hf Hm)
        as (s1 & ids' & ents' & Q & _). { exists a; auto. }
      congruence.
    - split; [|split; [|split]]; simpl; auto.
      exists [], []. split; [eapply rep_clear; eauto|]. split; [constructor|].
      split; [discriminate|]. destruct m; auto. simpl. split; auto; lia.
  Qed.

  Lemma creach_inv m c : locked m -> creach m c -> cinv m c.
  Proof.
    intros Hlk. induction 1 as [|c c' Hr IH Hs].
    - apply cinv_init.
    - exact (cinv_step m c (Some c') Hlk IH Hs).
  Qed.

  Lemma creach_safe m c : locked m -> creach m c ->
    ~ cstep m c None /\
    (forall t a o, In (t, a, o) (c_done _ _ _ _ c) -> o = f a) /\
    s_hits K V (c_cache _ _ _ _ c) + s_misses K V (c_cache _ _ _ _ c) = c_returned _ _ _ _ c /\
    (forall n, m = Sized n -> (Z.of_nat (currsize K V m (c_cache _ _ _ _ c)) <= Z.max 1 n)%Z).
  Proof.
    intros Hlk Hr. pose proof (creach_inv m c Hlk Hr) as Hi.
    split; [|split; [|split]].
    - intros Hs. exact (cinv_step m c None Hlk Hi Hs).
    - apply Hi.
    - apply Hi.
    - intros n ->. destruct Hi as ((ids & ents & Hrep & _ & _ & _ & Hl) & _).
      simpl. rewrite (rep_cache_len K V _ _ _ Hrep). auto.
  Qed.
End M.

(** *** Keys *)
Section Keys.
  Variable obj name : Type.
  Variable eqo : obj -> obj -> bool.
  Variable ty : obj -> obj.
  Variable nm : name -> obj.
  Variable fast : obj -> bool.
  Hypothesis nm_inj : forall x y, eqo (nm x) (nm y) = true -> x = y.

  Notation args_eq := (args_eq eqo).
  Notation kwds_eq := (kwds_eq eqo).
  Notation kw_part := (kw_part nm).
  Notation make_key := (make_key ty nm fast).
  Notation items_eq := (items_eq eqo).

  Lemma items_eq_length l m : items_eq l m = true -> length l = length m.
  Proof.
    revert m; induction l as [|x l IH]; intros [|y m]; simpl; try discriminate; auto.
    intros H. apply andb_true_iff in H. f_equal. apply IH. tauto.
  Qed.

  Lemma items_eq_objs a b l m :
    items_eq (map KObj a ++ l) (map KObj b ++ m) = true -> length a = length b ->
    args_eq a b /\ items_eq l m = true.
  Proof.
    revert b; induction a as [|x a IH]; intros [|y b]; simpl; try discriminate.
    - intros; split; [constructor|auto].
    - intros H [= Hl]. apply andb_true_iff in H. destruct H as [H1 H2].
      destruct (IH b H2 Hl). split; auto. constructor; auto.
  Qed.

  (* the keyword mark separates positional arguments from the rest *)
  Lemma items_eq_mark a b l m :
    items_eq (map KObj a ++ KMark :: l) (map KObj b ++ KMark :: m) = true ->
    length a = length b.
  Proof.
    revert b; induction a as [|x a IH]; intros [|y b]; simpl; auto; try discriminate;
      intros H.
    - apply andb_true_iff in H; destruct H as [H1 H2]. f_equal; auto.
  Qed.

  Definition kwflat (k : list (name * obj)) : list (kitem obj) :=
    flat_map (fun p => [KObj (nm (fst p)); KObj (snd p)]) k.

  Lemma kwflat_eq k l r s : items_eq (kwflat k ++ r) (kwflat l ++ s) = true ->
    length k = length l -> kwds_eq k l /\ items_eq r s = true.
  Proof.
    revert l; induction k as [|[x v] k IH]; intros [|[y w] l]; simpl; try discriminate.
    - intros; split; [constructor|auto].
    - intros H [= Hl]. apply andb_true_iff in H. destruct H as [H1 H].
      apply andb_true_iff in H. destruct H as [H2 H3]. destruct (IH l H3 Hl).
      split; auto. constructor; auto.
  Qed.
  Lemma kwflat_length k : length (kwflat k) = 2 * length k.
  Proof. induction k; simpl; auto. rewrite IHk. lia. Qed.

  Lemma no_mark xs ys zs : items_eq (map KObj xs) (map KObj ys ++ KMark :: zs) = false.
  Proof.
    revert xs; induction ys as [|y ys IH]; intros [|x xs]; simpl; auto.
    rewrite IH. apply andb_false_r.
  Qed.
  Lemma no_mark' xs ys zs : items_eq (map KObj ys ++ KMark :: zs) (map KObj xs) = false.
  Proof.
    revert xs; induction ys as [|y ys IH]; intros [|x xs]; simpl; auto.
    rewrite IH. apply andb_false_r.
  Qed.
  Lemma items_eq_all l m : items_eq (map KObj l) (map KObj m) = true -> args_eq l m.
  Proof.
    revert m; induction l as [|x l IH]; intros [|y m]; simpl; try discriminate; [constructor|].
    intros Q; apply andb_true_iff in Q. constructor; [tauto|apply IH; tauto].
  Qed.

  (* positional part, keyword part, trailing type objects *)
  Lemma key_split a b k l r s :
    items_eq (map KObj a ++ kw_part k ++ map KObj r) (map KObj b ++ kw_part l ++ map KObj s) = true ->
    (r = [] /\ s = [] \/ (length r = length a + length k /\ length s = length b + length l)) ->
    args_eq a b /\ kwds_eq k l /\ args_eq r s.
  Proof.
    intros H Hl.
    destruct k as [|p k], l as [|q l].
    - simpl in H. 
      assert (Hab : length a = length b).
      { apply items_eq_length in H. rewrite !app_length, !map_length in H.
        destruct Hl as [[-> ->]|[Hl1 Hl2]]; simpl in *; lia. }
      destruct (items_eq_objs _ _ _ _ H Hab) as [H1 H2].
      split; auto. split; [constructor|apply items_eq_all; auto].
    - change (items_eq (map KObj a ++ map KObj r)
                (map KObj b ++ KMark :: kwflat (q :: l) ++ map KObj s) = true) in H.
      rewrite <- map_app, no_mark in H. discriminate.
    - change (items_eq (map KObj a ++ KMark :: kwflat (p :: k) ++ map KObj r)
                (map KObj b ++ map KObj s) = true) in H.
      rewrite <- map_app, no_mark' in H. discriminate.
    - change (kw_part (p :: k)) with (KMark :: kwflat (p :: k)) in H.
      change (kw_part (q :: l)) with (KMark :: kwflat (q :: l)) in H.
      assert (Hab : length a = length b).
      { exact (items_eq_mark a b _ _ H). }
      pose proof (items_eq_length _ _ H) as Hlen.
      rewrite !app_length, !map_length in Hlen. simpl app in Hlen.
      destruct (items_eq_objs _ _ _ _ H Hab) as [H1 H2].
      change (items_eq (kwflat (p :: k) ++ map KObj r) (kwflat (q :: l) ++ map KObj s) = true) in H2.
      assert (Hkl : length (p :: k) = length (q :: l)).
      { apply items_eq_length in H2. rewrite !app_length, !map_length, !kwflat_length in H2.
        destruct Hl as [[-> ->]|[Hl1 Hl2]]; simpl in *; lia. }
      destruct (kwflat_eq _ _ _ _ H2 Hkl) as [H3 H4].
      split; auto. split; auto. apply items_eq_all; auto.
  Qed.

  Lemma make_key_untyped_seq a k : 
    (exists o, a = [o] /\ k = [] /\ fast (ty o) = true /\ make_key a k false = KBare o) \/
    (make_key a k false = KSeq (map KObj a ++ kw_part k)).
  Proof.
    destruct a as [|o [|o' a]]; destruct k as [|p k]; simpl; auto.
    destruct (fast (ty o)) eqn:Hf; auto. left. exists o. unfold make_key. simpl. rewrite Hf. auto.
  Qed.

  Lemma make_key_sound typed a b k l :
    key_eq eqo (make_key a k typed) (make_key b l typed) = true ->
    args_eq a b /\ kwds_eq k l /\
    (typed = true -> args_eq (map ty a) (map ty b) /\
                     args_eq (map (fun p => ty (snd p)) k) (map (fun p => ty (snd p)) l)).
  Proof.
    intros H. destruct typed.
    - cbn in H.
      assert (Hq : forall (a : list obj) (k : list (name * obj)),
         map (fun v => KObj (ty v)) a ++ map (fun p => KObj (ty (snd p))) k
         = map KObj (map ty a ++ map (fun p => ty (snd p)) k)).
      { intros. rewrite map_app, !map_map. reflexivity. }
      rewrite !Hq, <- !app_assoc in H. apply key_split in H.
      + destruct H as (H1 & H2 & H3). split; auto. split; auto. intros _.
        pose proof (Forall2_length _ _ _ H1) as Hl.
        apply Forall2_app_length_inv in H3; auto. rewrite !map_length; auto.
      + right. rewrite !app_length, !map_length. auto.
    - destruct (make_key_untyped_seq a k) as [(o & Ha & Hk & _ & Ho)|Ho];
      destruct (make_key_untyped_seq b l) as [(o' & Hb & Hk' & _ & Ho')|Ho'];
      rewrite Ho, Ho' in H; cbn [key_eq] in H; try discriminate.
      + subst. split; [constructor; auto; constructor|]. split; [constructor|discriminate].
      + assert (Q : items_eq (map KObj a ++ kw_part k ++ map KObj [])
                             (map KObj b ++ kw_part l ++ map KObj []) = true).
        { simpl. rewrite !app_nil_r. auto. }
        apply key_split in Q; auto. destruct Q as (H1 & H2 & _). split; auto. split; auto. discriminate.
  Qed.

  (* conversely, equal argument lists of equal types share a key *)
  Hypothesis eqo_refl : forall x, eqo x x = true.
  Lemma items_eq_refl l : items_eq l l = true.
  Proof. induction l as [|[o|] l IH]; simpl; auto. rewrite eqo_refl; auto. Qed.
  Lemma make_key_complete typed a k :
    key_eq eqo (make_key a k typed) (make_key a k typed) = true.
  Proof. destruct (make_key a k typed); simpl; auto. apply items_eq_refl. Qed.
End Keys.

(** *** Array arguments *)
Section Arr.
  Variable X : Type.
  Notation wf := (@wf X).
  Notation wf_arg := (@wf_arg X).

  Lemma flatten_length dims : forall t, wf dims t -> length (flatten t) = size dims.
  Proof.
    induction dims as [|d ds IH]; intros t.
    - intros [x ->]. reflexivity.
    - intros (l & -> & <- & Hl). simpl.
      induction Hl as [|t l Ht Hl IHl]; simpl; auto.
      rewrite app_length, (IH t Ht), IHl. reflexivity.
  Qed.

  Lemma reshape_flatten_raw dims : forall t, wf dims t -> reshape_raw dims (flatten t) = t.
  Proof.
    induction dims as [|d ds IH]; intros t.
    - intros [x ->]. reflexivity.
    - intros (l & -> & <- & Hl). simpl. f_equal.
      induction Hl as [|t l Ht Hl IHl]; simpl; auto.
      pose proof (flatten_length ds t Ht) as Hlen.
      rewrite firstn_app, skipn_app.
      replace (size ds - length (flatten t)) with 0 by lia.
      rewrite (firstn_all2 (n := size ds) (flatten t)) by lia.
      rewrite (skipn_all2 (n := size ds) (flatten t)) by lia.
      simpl. rewrite app_nil_r. rewrite (IH t Ht), IHl. reflexivity.
  Qed.

  Lemma reshape_flatten dims t : wf dims t -> reshape dims (flatten t) = Some t.
  Proof.
    intros H. unfold reshape. rewrite (flatten_length dims t H), Nat.eqb_refl.
    now rewrite reshape_flatten_raw.
  Qed.

  Lemma np_round_trip na nl args key :
    Forall wf_arg args -> np_key na nl args = Some key -> np_args na nl key = Some args.
  Proof.
    unfold np_key. intros Hwf H.
    destruct (enc_arrs na args) as [[[ks ds] r]|] eqn:H1; [|discriminate].
    destruct (enc_lists nl r) as [[ks' r']|] eqn:H2; [|discriminate].
    destruct (enc_rest r') as [ks''|] eqn:H3; [|discriminate].
    inversion H; subst; clear H.
    assert (Hr : forall (r' : list (parg X)) ks'', enc_rest r' = Some ks'' -> dec_rest ks'' = Some r').
    { clear. induction r' as [|[d t|l|x] r' IH]; simpl; intros ks'' H; try discriminate.
      - inversion H; reflexivity.
      - destruct (enc_rest r') as [k|] eqn:Hk; [|discriminate]. inversion H; subst. simpl.
        rewrite (IH k); auto. }
    assert (Hl : forall nl (r : list (parg X)) ks' r', enc_lists nl r = Some (ks', r') -> forall tail,
              exists ps, dec_lists nl (ks' ++ tail) = Some (ps, tail) /\ r = ps ++ r').
    { clear. induction nl as [|nl IH]; simpl; intros r ks' r' H tail.
      - inversion H; subst. exists []. auto.
      - destruct r as [|[d t|l|x] r]; try discriminate.
        destruct (enc_lists nl r) as [[k q]|] eqn:Hk; [|discriminate]. inversion H; subst.
        destruct (IH _ _ _ Hk tail) as (ps & Hp & ->). simpl. rewrite Hp.
        exists (PLists l :: ps). auto. }
    assert (Ha : forall na args ks ds r, Forall wf_arg args -> enc_arrs na args = Some (ks, ds, r) ->
              forall tail, exists ps, dec_arrs na (ks ++ tail) ds = Some (ps, tail) /\ args = ps ++ r).
    { clear. induction na as [|na IH]; simpl; intros args ks ds r Hwf H tail.
      - inversion H; subst. exists []. auto.
      - destruct args as [|[d t|l|x] args]; try discriminate.
        destruct (enc_arrs na args) as [[[k d'] q]|] eqn:Hk; [|discriminate]. inversion H; subst.
        inversion Hwf as [|? ? Hw1 Hw2]; subst.
        destruct (IH _ _ _ _ Hw2 Hk tail) as (ps & Hp & ->). simpl. rewrite (reshape_flatten d t Hw1).
        rewrite Hp. exists (PArr d t :: ps). auto. }
    unfold np_args. simpl.
    destruct (Ha _ _ _ _ _ Hwf H1 (ks' ++ ks'')) as (ps & -> & ->).
    destruct (Hl _ _ _ _ H2 ks'') as (ps' & -> & ->).
    rewrite (Hr _ _ H3). reflexivity.
  Qed.

  Lemma np_key_inj na nl args args' key :
    Forall wf_arg args -> Forall wf_arg args' ->
    np_key na nl args = Some key -> np_key na nl args' = Some key -> args = args'.
  Proof.
    intros Hw Hw' H H'. apply np_round_trip in H; auto. apply np_round_trip in H'; auto. congruence.
  Qed.

  Lemma np_key_total na nl (arrs : list (list nat * nd X)) lists vals :
    length arrs = na -> length lists = nl ->
    exists key, np_key na nl (map (fun p => PArr (fst p) (snd p)) arrs ++ map PLists lists ++ map PVal vals) = Some key.
  Proof.
    intros Hn Hl. unfold np_key.
    assert (H3 : exists ks, enc_rest (map PVal vals : list (parg X)) = Some ks).
    { induction vals as [|v vals [ks IH]]; simpl; eauto. rewrite IH. simpl. eauto. }
    destruct H3 as [ks3 H3].
    assert (H2 : exists ks, enc_lists nl (map PLists lists ++ map PVal vals : list (parg X))
                            = Some (ks, map PVal vals)).
    { subst nl. induction lists as [|l lists [ks IH]]; simpl; eauto. rewrite IH. eauto. }
    destruct H2 as [ks2 H2].
    assert (H1 : exists ks ds, enc_arrs na (map (fun p => PArr (fst p) (snd p)) arrs ++ map PLists lists ++ map PVal vals)
                            = Some (ks, ds, map PLists lists ++ map PVal vals)).
    { subst na. induction arrs as [|a arrs (ks & ds & IH)]; simpl; eauto. rewrite IH. eauto. }
    destruct H1 as (ks1 & ds & H1).
    rewrite H1, H2, H3. eauto.
  Qed.
End Arr.

(** *** Results by reference *)
Section AliasP.
  Variables A K C E : Type.
  Variable keq : forall x y : K, {x = y} + {x <> y}.
  Variable mk : A -> K.
  Variable F : A -> C + E.
  Hypothesis HF : forall a b, mk a = mk b -> F a = F b.

  Section Pred.
    Variable V : Type.
    Variable P : K -> V -> Prop.
    Definition stored (m : mode) (s : state K V) : Prop :=
      match m with
      | Disabled => True
      | Unbounded => Forall (fun e => P (fst e) (snd e)) (s_plain K V s)
      | _ => exists ids ents, rep K V s ids ents /\ (s_full K V s = true -> ents <> []) /\
               Forall (fun e => P (fst e) (snd e)) ents
      end.

    Lemma call_pred (g : A -> V + E) m s a av :
      stored m s ->
      exists s' ran o, call A K V E keq mk g m s a av = Some (s', ran, o) /\
        (ran = true -> o = g a /\ ((forall v, g a = inl v -> P (mk a) v) -> stored m s')) /\
        (ran = false -> stored m s' /\ exists v, o = inl v /\ P (mk a) v).
    Proof.
      intros Hst.
      assert (Hlk : locked m -> (exists ids ents, rep K V s ids ents /\
           (s_full K V s = true -> ents <> []) /\ Forall (fun e => P (fst e) (snd e)) ents) ->
        exists s' ran o, call A K V E keq mk g m s a av = Some (s', ran, o) /\
        (ran = true -> o = g a /\ ((forall v, g a = inl v -> P (mk a) v) ->
           exists ids ents, rep K V s' ids ents /\ (s_full K V s' = true -> ents <> []) /\
               Forall (fun e => P (fst e) (snd e)) ents)) /\
        (ran = false -> (exists ids ents, rep K V s' ids ents /\ (s_full K V s' = true -> ents <> []) /\
               Forall (fun e => P (fst e) (snd e)) ents) /\ exists v, o = inl v /\ P (mk a) v)).
      { intros Hm (ids & ents & Hrep & Hf & HP).
        destruct (call_locked A K V E keq mk g m s ids ents a av Hm Hrep Hf)
          as (s' & ids' & ents' & full' & ran & o & Hc & Hs & Hrep' & Hf' & Hne & _).
        exists s', ran, o. split; auto. subst full'. unfold astep in Hs.
        destruct (dget K keq ents (mk a)) as [v|] eqn:Hd.
        - inversion Hs; subst. apply dget_In in Hd. pose proof HP as HP0.
          rewrite Forall_forall in HP. specialize (HP _ Hd). simpl in HP.
          split; [discriminate|]. intros _. split; [|eauto].
          exists ids', (without K V keq (mk a) ents ++ [(mk a, v)]). split; [exact Hrep'|].
          split; [intros _ Q; apply app_eq_nil in Q; destruct Q; discriminate|].
          apply Forall_app. split; [|constructor; auto].
          eapply incl_Forall; [apply incl_filter|exact HP0].
        - destruct (g a) as [v|e] eqn:Hga.
          + destruct (s_full K V s); inversion Hs; subst;
            (split; [|discriminate]); intros _; (split; [reflexivity|]); intros Hg;
            eexists ids', _; (split; [eassumption|]);
            (split; [intros _ Q; apply app_eq_nil in Q; destruct Q; discriminate|]);
            apply Forall_app; (split; [|constructor; simpl; auto]); auto.
            destruct ents; simpl; auto. inversion HP; auto.
          + inversion Hs; subst.
            split; [|discriminate]. intros _. split; auto. intros _. exists ids', ents'. auto. }
      destruct m; simpl in Hst.
      - exact (Hlk I Hst).
      - unfold CacheModel.call. destruct (g a) as [v|e] eqn:Hga;
          eexists _, _, _; (split; [reflexivity|]); simpl; split; auto; discriminate.
      - unfold CacheModel.call. destruct (dget K keq (s_plain K V s) (mk a)) as [v|] eqn:Hd.
        + eexists _, _, _. split; [reflexivity|]. simpl. split; [discriminate|]. intros _. split; auto.
          apply dget_In in Hd. rewrite Forall_forall in Hst. specialize (Hst _ Hd). eauto.
        + destruct (g a) as [v|e] eqn:Hga.
          * eexists _, _, _. split; [reflexivity|]. simpl. split; [|discriminate]. intros _.
            split; auto. intros Hg.
            apply dget_None in Hd. rewrite dset_new by auto.
            apply Forall_app; split; [auto|constructor; simpl; auto].
          * eexists _, _, _. split; [reflexivity|]. simpl. split; [|discriminate]. auto.
      - exact (Hlk I Hst).
    Qed.

    Lemma stored_clear m s : stored m s -> stored m (clear K V s).
    Proof.
      destruct m; simpl; auto.
      - intros (ids & ents & Hr & _). exists [], []. split; [eapply rep_clear; eauto|].
        split; [discriminate|constructor].
      - intros (ids & ents & Hr & _). exists [], []. split; [eapply rep_clear; eauto|].
        split; [discriminate|constructor].
    Qed.
    Lemma stored_init m : stored m (init K V).
    Proof.
      destruct m; simpl; auto; exists [], []; (split; [apply rep_init|]);
        (split; [discriminate|constructor]).
    Qed.
  End Pred.

  Lemma stored_mono V (P Q : K -> V -> Prop) m s : (forall k v, P k v -> Q k v) ->
    stored V P m s -> stored V Q m s.
  Proof.
    intros H. destruct m; simpl; auto.
    - intros (ids & ents & H1 & H2 & H3). exists ids, ents. split; [auto|split; [auto|]].
      eapply Forall_impl; [|exact H3]. simpl; auto.
    - apply Forall_impl. simpl; auto.
    - intros (ids & ents & H1 & H2 & H3). exists ids, ents. split; [auto|split; [auto|]].
      eapply Forall_impl; [|exact H3]. simpl; auto.
  Qed.

  Definition refok (objs : list C) (k : K) (r : nat) : Prop :=
    exists a c, mk a = k /\ F a = inl c /\ nth_error objs r = Some c.
  Notation expected := (expected F).

  Lemma alias_call_ok m s objs a av : stored nat (refok objs) m s ->
    exists s' objs', alias_call A K C E keq mk F m s objs a av = Some (s', objs', expected a) /\
      stored nat (refok objs') m s'.
  Proof.
    intros Hst. unfold alias_call.
    set (g := fun a => match F a with inl _ => inl (length objs) | inr e => inr e end).
    set (ext := match F a with inl c => objs ++ [c] | inr _ => objs end).
    assert (Hst' : stored nat (refok ext) m s).
    { eapply stored_mono; [|exact Hst]. intros k r (b & c & H1 & H2 & H3).
      exists b, c. split; [auto|split; [auto|]]. unfold ext. destruct (F a); auto.
      rewrite nth_error_app1; auto. apply nth_error_Some. congruence. }
    assert (Hg : forall r, g a = inl r -> refok ext (mk a) r).
    { unfold g, ext. intros r Hr. destruct (F a) as [c|e] eqn:HFa; [|discriminate].
      inversion Hr; subst. exists a, c. split; [auto|split; [auto|]].
      rewrite nth_error_app2 by lia. now rewrite Nat.sub_diag. }
    destruct (call_pred nat (refok objs) g m s a av Hst)
      as (s' & ran & o & Hc & _ & Hhit).
    destruct (call_pred nat (refok ext) g m s a av Hst')
      as (s1 & ran1 & o1 & Hc1 & Hmiss & _).
    rewrite Hc in Hc1. inversion Hc1; subst s1 ran1 o1. rewrite Hc.
    destruct ran.
    - destruct (Hmiss eq_refl) as [-> Hs']. specialize (Hs' Hg).
      unfold g, ext, expected in *. destruct (F a) as [c|e] eqn:HFa.
      + exists s', (objs ++ [c]). split; [|exact Hs'].
        rewrite nth_error_app2 by lia. rewrite Nat.sub_diag. reflexivity.
      + exists s', objs. split; [reflexivity|exact Hs'].
    - destruct (Hhit eq_refl) as [Hs' (r & -> & (b & c & Hb & Hfb & Hn))].
      assert (HFa : F a = inl c) by (rewrite <- Hfb; apply HF; auto).
      exists s', objs. unfold expected. rewrite HFa, Hn. split; auto.
  Qed.

  Lemma alias_run_ok m h : Forall (fun o => ~ is_mut o) h -> forall s objs,
    stored nat (refok objs) m s ->
    alias_run A K C E keq mk F m h s objs = Some (map (fun a => (a, expected a)) (acalls h)).
  Proof.
    induction 1 as [|o h Ho Hh IH]; intros s objs Hst; [reflexivity|].
    destruct o as [a av|r c|]; simpl in Ho; [|tauto|].
    - cbn [alias_run]. destruct (alias_call_ok m s objs a av Hst) as (s' & objs' & -> & Hs').
      rewrite (IH _ _ Hs'). reflexivity.
    - cbn [alias_run]. apply IH. apply stored_clear; auto.
  Qed.

  (* without caching, mutations are harmless *)
  Lemma alias_run_disabled h : forall s objs,
    alias_run A K C E keq mk F Disabled h s objs
      = Some (map (fun a => (a, expected a)) (acalls h)).
  Proof.
    induction h as [|[a av|r c|] h IH]; intros s objs; cbn [alias_run acalls map]; auto.
    unfold alias_call, CacheModel.call, expected. destruct (F a) as [c|e] eqn:HFa.
    - rewrite IH. simpl. rewrite nth_error_app2 by lia. now rewrite Nat.sub_diag.
    - rewrite IH. reflexivity.
  Qed.

  Lemma alias_polluted m a c c' av : m <> Disabled -> F a = inl c ->
    alias_run A K C E keq mk F m [ACall a av; AMutate 0 c'; ACall a av] (init K nat) []
      = Some [(a, inl (Some c)); (a, inl (Some c'))].
  Proof.
    intros Hm HFa. cbn [alias_run]. unfold alias_call.
    assert (Hk : forall B (b : B), dget K keq [(mk a, b)] (mk a) = Some b).
    { intros. simpl. destruct (keq (mk a) (mk a)); congruence. }
    destruct m; try congruence; unfold CacheModel.call; simpl; rewrite ?HFa; simpl;
      unfold lookup; simpl;
      repeat match goal with
             | |- context [keq ?x ?x] => destruct (keq x x); [|congruence]; simpl
             end; rewrite ?HFa; reflexivity.
  Qed.

  (* overwriting one array changes that array only *)
  Lemma upd_at (l : list C) n c k : (n < length l)%nat -> nth_error (upd C l n c) k = if Nat.eqb k n then Some c else nth_error l k.
  Proof.
    revert n k. induction l as [|x l IH]; intros n k Hn; [simpl in Hn; lia|]. destruct n as [|n]; destruct k as [|k]; try reflexivity.
    cbn [upd nth_error]. simpl in Hn. rewrite IH by lia. reflexivity.
  Qed.
  Lemma upd_length (l : list C) n c : length (upd C l n c) = length l.
  Proof. revert n. induction l as [|x l IH]; intros [|n]; cbn [upd length]; auto. Qed.
End AliasP.
