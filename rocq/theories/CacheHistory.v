(** Invariants of sequential histories and of interleavings. *)
From Coq Require Import List ZArith Bool Lia Permutation.
From Verif Require Import ListUtil CacheModel CacheSpec CacheProofs.
Import ListNotations.

Section H.
  Variables A K V E : Type.
  Variable keq : forall x y : K, {x = y} + {x <> y}.
  Variable mk : A -> K.
  Variable f : A -> V + E.
  Hypothesis Hmk : forall a b, mk a = mk b -> f a = f b.

  Notation rep := (rep K V).
  Notation astep := (astep A K V E keq mk f).
  Notation without := (without K V keq).
  Notation distinct := (distinct keq).
  Notation uses := (uses mk f).
  Notation rem := (rem K keq).
  Notation dget := (dget K keq).

  Definition coherent (ents : list (K * V)) : Prop :=
    Forall (fun e => exists a, mk a = fst e /\ f a = inl (snd e)) ents.

  Lemma coherent_val ents a v : coherent ents -> In (mk a, v) ents -> f a = inl v.
  Proof.
    intros Hc Hin. unfold coherent in Hc. rewrite Forall_forall in Hc.
    destruct (Hc _ Hin) as (b & Hb & Hfb). simpl in *. rewrite <- Hfb. apply Hmk; auto.
  Qed.

  (* recency invariant of the entry list *)
  Definition recinv (ents : list (K * V)) (full : bool) (u : list K) : Prop :=
    coherent ents /\ NoDup (map fst ents) /\
    map fst ents = rev (firstn (length ents) (distinct (rev u))) /\
    (full = false -> length ents = length (distinct (rev u))) /\
    (full = true -> ents <> []).

  Definition use1 (u : list K) (a : A) : list K :=
    match f a with inl _ => u ++ [mk a] | inr _ => u end.

  Lemma uses_snoc_call h a av : uses (h ++ [Call a av]) = use1 (uses h) a.
  Proof. unfold CacheSpec.uses. rewrite fold_left_app. reflexivity. Qed.
  Lemma uses_snoc_clear h : uses (h ++ [Clear]) = [].
  Proof. unfold CacheSpec.uses. rewrite fold_left_app. reflexivity. Qed.

  Lemma rem_rev k l : rem k (rev l) = rev (rem k l).
  Proof.
    induction l as [|x l IH]; simpl; auto. unfold CacheProofs.rem in *.
    rewrite filter_app; simpl. destruct (keq k x); simpl; rewrite IH; auto.
    now rewrite app_nil_r.
  Qed.
  Lemma map_without k (ents : list (K * V)) : map fst (without k ents) = rem k (map fst ents).
  Proof.
    induction ents as [|[k' v] ents IH]; simpl; auto.
    destruct (keq k' k), (keq k k'); simpl; try congruence; rewrite ?IH; auto.
  Qed.

  Lemma coherent_without k ents : coherent ents -> coherent (without k ents).
  Proof. unfold coherent. apply incl_Forall. apply incl_filter. Qed.

  Lemma length_recent ents full u : recinv ents full u ->
    length ents <= length (distinct (rev u)).
  Proof.
    intros (_ & _ & H & _). apply (f_equal (@length _)) in H.
    rewrite map_length, rev_length, firstn_length in H. lia.
  Qed.

  Lemma astep_rec m ents full u a av ents' full' ran o :
    recinv ents full u -> astep m ents full a av = (ents', full', ran, o) ->
    recinv ents' full' (use1 u a) /\ o = f a /\
    (ran = false <-> In (mk a) (map fst ents)) /\
    (length ents <= length ents' <= S (length ents)) /\
    (full = true -> full' = true /\ length ents' = length ents) /\
    (full = false -> full' = false /\ length ents' = length ents \/
       ran = true /\ is_ret V E (f a) = true /\ length ents' = S (length ents) /\ full' = now_full m (S (length ents)) av).
  Proof.
    intros Hinv Hs. pose proof (length_recent _ _ _ Hinv) as HlenD.
    destruct Hinv as (Hc & Hnd & Hr & Hnf & Hfull).
    unfold CacheProofs.astep in Hs. set (k := mk a) in *.
    set (D := distinct (rev u)) in *.
    assert (HndD : NoDup D) by apply NoDup_distinct.
    destruct (dget ents k) as [v|] eqn:Hg.
    - inversion Hs; subst; clear Hs.
      apply dget_In in Hg.
      assert (Hfa : f a = inl v) by (eapply coherent_val; eauto).
      assert (Hk : In k (map fst ents)) by (apply in_map_iff; exists (k, v); auto).
      assert (Hk' : In k (firstn (length ents) D)).
      { rewrite Hr in Hk. apply in_rev in Hk; auto. }
      assert (HkD : In k D) by (eapply firstn_In_aux; eauto).
      assert (Hlen : length (without k ents ++ [(k, v)]) = length ents).
      { rewrite app_length; simpl. rewrite <- (map_length fst), map_without.
        rewrite <- (map_length fst ents). pose proof (rem_length K keq k _ Hnd Hk). lia. }
      unfold use1. rewrite Hfa. 
      assert (HD' : distinct (rev (u ++ [k])) = k :: rem k D).
      { rewrite rev_app_distr; simpl. reflexivity. }
      split; [|split; [auto|split; [tauto|split; [lia|split; auto]]]].
      unfold recinv. fold k. rewrite HD', Hlen.
      repeat match goal with |- _ /\ _ => split end.
      + unfold coherent. apply Forall_app. split; [apply coherent_without; auto|].
        constructor; auto. exists a; auto.
      + rewrite map_app; simpl. rewrite map_without. rewrite <- Permutation_cons_append.
        constructor.
        * rewrite In_rem; tauto.
        * apply NoDup_filter; auto.
      + rewrite map_app; simpl. rewrite map_without, Hr.
        destruct (length ents) as [|c] eqn:Hl; [simpl in Hk'; tauto|].
        rewrite rem_rev. rewrite <- (firstn_rem_in K keq k (S c) D HndD Hk').
        simpl. rewrite Nat.sub_0_r. reflexivity.
      + intros Hf. rewrite (Hnf Hf). simpl. now rewrite (rem_length K keq k D HndD HkD).
      + intros _ Q. apply app_eq_nil in Q. destruct Q; discriminate.
    - apply dget_None in Hg.
      assert (Hk' : ~ In k (firstn (length ents) D)).
      { intros Q. apply Hg. rewrite Hr. apply in_rev in Q; auto. }
      unfold use1. destruct (f a) as [v|e] eqn:Hfa.
      + assert (HD' : distinct (rev (u ++ [k])) = k :: rem k D).
        { rewrite rev_app_distr; simpl. reflexivity. }
        destruct full.
        * inversion Hs; subst; clear Hs.
          destruct ents as [|e0 ents]; [exfalso; apply Hfull; auto|]. simpl tl in *.
          assert (Hlen : length (ents ++ [(k, v)]) = length (e0 :: ents)).
          { rewrite app_length; simpl; lia. }
          split; [|split; [auto|split; [intuition discriminate|split; [lia|split; [auto|discriminate]]]]].
          unfold recinv. fold k. rewrite HD', Hlen.
          repeat match goal with |- _ /\ _ => split end.
          -- apply Forall_cons_iff in Hc. unfold coherent. apply Forall_app.
             split; [tauto|]. constructor; auto. exists a; auto.
          -- rewrite map_app; simpl. rewrite <- Permutation_cons_append.
             simpl in Hnd, Hg. apply NoDup_cons_iff in Hnd. constructor; tauto.
          -- rewrite map_app. simpl length in *. cbn [firstn rev map].
             assert (He : map fst ents = rev (firstn (length ents) D)).
             { rewrite <- removelast_firstn by lia.
               apply (f_equal (@rev K)) in Hr. rewrite rev_involutive in Hr.
               rewrite <- Hr. simpl. rewrite removelast_last. rewrite rev_involutive. reflexivity. }
             rewrite He. f_equal. f_equal.
             symmetry. apply firstn_rem_notin'. intros Q. apply Hk'.
             assert (Hle : firstn (length ents) D = firstn (length ents) (firstn (S (length ents)) D)).
             { rewrite firstn_firstn. f_equal. lia. }
             rewrite Hle in Q. eapply firstn_In_aux; eauto.
          -- discriminate.
          -- intros _ Q. apply app_eq_nil in Q. destruct Q; discriminate.
        * inversion Hs; subst; clear Hs.
          assert (Hlen : length (ents ++ [(k, v)]) = S (length ents)).
          { rewrite app_length; simpl; lia. }
          specialize (Hnf eq_refl).
          rewrite Hnf, firstn_all in Hr, Hk'.
          split; [|split; [auto|split; [intuition discriminate|split; [lia|split; [discriminate|]]]]].
          2:{ intros _. right. auto. }
          unfold recinv. fold k. rewrite HD', Hlen. rewrite (rem_notin K keq k D Hk').
          repeat match goal with |- _ /\ _ => split end.
          -- unfold coherent. apply Forall_app.
             split; [auto|]. constructor; auto. exists a; auto.
          -- rewrite map_app; simpl. rewrite <- Permutation_cons_append. constructor; auto.
          -- rewrite map_app. rewrite firstn_all2 by (simpl; lia). simpl. rewrite Hr. reflexivity.
          -- intros _. simpl. rewrite Hnf. reflexivity.
          -- intros _ Q. apply app_eq_nil in Q. destruct Q; discriminate.
      + inversion Hs; subst; clear Hs.
        split; [|split; [auto|split; [intuition discriminate|split; [lia|split; auto]]]].
        unfold recinv. fold D. auto.
  Qed.

  Lemma recinv_nil : recinv [] false [].
  Proof. repeat split; try constructor; auto; discriminate. Qed.

  (** ** Sequential histories *)
  Notation run := (run A K V E keq mk f).
  Notation call := (call A K V E keq mk f).

  Lemma run_app m h1 h2 s : run m (h1 ++ h2) s =
    match run m h1 s with
    | Some (s1, tr1) => match run m h2 s1 with
                        | Some (s2, tr2) => Some (s2, tr1 ++ tr2)
                        | None => None
                        end
    | None => None
    end.
  Proof.
    revert s; induction h1 as [|o h1 IH]; intros s; simpl.
    - destruct (run m h2 s) as [[s2 tr2]|]; auto.
    - destruct o as [a av|].
      + destruct (call m s a av) as [[[s1 r] o]|]; auto. rewrite IH.
        destruct (run m h1 s1) as [[s2 tr2]|]; auto.
        destruct (run m h2 s2) as [[s3 tr3]|]; auto.
      + rewrite IH. destruct (run m h1 (clear K V s)) as [[s2 tr2]|]; auto.
        destruct (run m h2 s2) as [[s3 tr3]|]; auto.
  Qed.

  Lemma calls_app (h1 h2 : list (op A)) : calls (h1 ++ h2) = calls h1 ++ calls h2.
  Proof. induction h1 as [|[a av|] h1 IH]; simpl; rewrite ?IH; auto. Qed.
  Lemma outcomes_app (t1 t2 : list (event A V E)) :
    outcomes (t1 ++ t2) = outcomes t1 ++ outcomes t2.
  Proof. induction t1 as [|[a r o|] t1 IH]; simpl; rewrite ?IH; auto. Qed.
  Lemma since_clear_call (t : list (event A V E)) a r o :
    since_clear (t ++ [EvCall a r o]) = since_clear t ++ [EvCall a r o].
  Proof. unfold since_clear. rewrite fold_left_app. reflexivity. Qed.
  Lemma since_clear_clear (t : list (event A V E)) : since_clear (t ++ [EvClear]) = [].
  Proof. unfold since_clear. rewrite fold_left_app. reflexivity. Qed.
  Lemma count_returned_snoc (t : list (event A V E)) a r o :
    count_returned (t ++ [EvCall a r o]) = count_returned t + (if is_ret V E o then 1 else 0).
  Proof.
    unfold count_returned. rewrite filter_app, app_length. simpl. destruct o; simpl; auto.
  Qed.
  Lemma count_ran_snoc (t : list (event A V E)) a r o :
    count_ran (t ++ [EvCall a r o]) = count_ran t + (if r && is_ret V E o then 1 else 0).
  Proof.
    unfold count_ran. rewrite filter_app, app_length. simpl. destruct r, o; simpl; auto.
  Qed.

  (* unbounded mode: the dictionary holds exactly the keys used since the last clear *)
  Definition setinv (d : list (K * V)) (u : list K) : Prop :=
    coherent d /\ NoDup (map fst d) /\ (forall k, In k (map fst d) <-> In k u).

  Lemma setinv_length d u : setinv d u -> length d = length (distinct (rev u)).
  Proof.
    intros (_ & Hnd & Hk). rewrite <- (map_length fst). apply Permutation_length.
    apply NoDup_Permutation; auto.
    - apply NoDup_distinct.
    - intros x. rewrite Hk, In_distinct, <- in_rev. tauto.
  Qed.

  (* which entries the cache holds, and when it counts as full *)
  Definition store_inv (m : mode) (s : state K V) (u : list K) : Prop :=
    match m with
    | Disabled => s_cache K V s = []
    | Unbounded => setinv (s_plain K V s) u
    | MemLimited _ => exists ids ents, rep s ids ents /\ recinv ents (s_full K V s) u
    | Sized n => exists ids ents, rep s ids ents /\ recinv ents (s_full K V s) u /\
        s_full K V s = (if ents then false else (n <=? Z.of_nat (length ents))%Z) /\
        (Z.of_nat (length ents) <= Z.max 1 n)%Z
    end.

  Notation init := (init K V).

  Lemma store_init m : store_inv m init [].
  Proof.
    destruct m; simpl.
    - exists [], []. split; [apply rep_init|apply recinv_nil].
    - auto.
    - repeat split; try constructor; auto.
    - exists [], []. split; [apply rep_init|split; [apply recinv_nil|split; [reflexivity|simpl; lia]]].
  Qed.

  Lemma store_clear m s u : store_inv m s u -> store_inv m (clear K V s) [].
  Proof.
    destruct m; simpl.
    - intros (ids & ents & Hr & _). exists [], [].
      split; [eapply rep_clear; eauto|apply recinv_nil].
    - auto.
    - intros _. repeat split; try constructor; auto.
    - intros (ids & ents & Hr & _). exists [], [].
      split; [eapply rep_clear; eauto|split; [apply recinv_nil|split; [reflexivity|simpl; lia]]].
  Qed.

  Lemma dset_plain_keys (d : list (K * V)) k v : ~ In k (map fst d) ->
    dset K keq d k v = d ++ [(k, v)].
  Proof. apply dset_new. Qed.

  (* one call *)
  Lemma store_call m s u a av : store_inv m s u ->
    exists s' ran, call m s a av = Some (s', ran, f a) /\
      store_inv m s' (use1 u a) /\
      s_hits K V s' = s_hits K V s + (if ran then 0 else 1) /\
      s_misses K V s' = s_misses K V s + (if ran && is_ret V E (f a) then 1 else 0) /\
      (ran = false -> is_ret V E (f a) = true) /\
      (ran = false <-> In (mk a) (firstn (currsize K V m s) (distinct (rev u)))).
  Proof.
    intros Hst.
    assert (Hlk : locked m -> forall ids ents, rep s ids ents -> recinv ents (s_full K V s) u ->
      exists s' ids' ents' ran, call m s a av = Some (s', ran, f a) /\
        rep s' ids' ents' /\ recinv ents' (s_full K V s') (use1 u a) /\
        s_hits K V s' = s_hits K V s + (if ran then 0 else 1) /\
        s_misses K V s' = s_misses K V s + (if ran && is_ret V E (f a) then 1 else 0) /\
        (ran = false -> is_ret V E (f a) = true) /\
        (ran = false <-> In (mk a) (firstn (length (s_cache K V s)) (distinct (rev u)))) /\
        (length ents <= length ents' <= S (length ents)) /\
        (s_full K V s = true -> s_full K V s' = true /\ length ents' = length ents) /\
        (s_full K V s = false -> s_full K V s' = false /\ length ents' = length ents \/
          ran = true /\ is_ret V E (f a) = true /\
          length ents' = S (length ents) /\ s_full K V s' = now_full m (S (length ents)) av)).
    { intros Hm ids ents Hrep Hrec.
      destruct (call_locked A K V E keq mk f m s ids ents a av Hm Hrep)
        as (s' & ids' & ents' & full' & ran & o & Hcall & Hs & Hrep' & Hf' & _ & Hh & Hmi).
      { apply Hrec. }
      destruct (astep_rec _ _ _ _ _ _ _ _ _ _ Hrec Hs) as (Hrec' & Ho & Hran & Hlen & Hft & Hff).
      subst o full'. exists s', ids', ents', ran.
      repeat (split; [assumption|]).
      split; [|split; [|auto]].
      - intros ->. assert (Hin : In (mk a) (map fst ents)) by (apply Hran; auto).
        apply in_map_iff in Hin. destruct Hin as ([k v] & Hk & Hin). simpl in Hk. subst k.
        rewrite (coherent_val ents a v); auto. apply Hrec.
      - rewrite Hran. destruct Hrec as (_ & _ & Hr & _). rewrite Hr.
        rewrite <- in_rev, (rep_cache_len K V s ids ents Hrep). tauto. }
    destruct m as [limit| | |n]; simpl in Hst.
    - destruct Hst as (ids & ents & Hrep & Hrec).
      destruct (Hlk I ids ents Hrep Hrec)
        as (s' & ids' & ents' & ran & Hc & Hrep' & Hrec' & Hh & Hm & Hr & Hran & _).
      exists s', ran. repeat (split; [first [assumption|exists ids', ents'; auto]|]). exact Hran.
    - simpl. destruct (f a) as [v|e] eqn:Hfa.
      + eexists _, true. split; [reflexivity|]. simpl. rewrite Hst. simpl.
        intuition; try lia; discriminate.
      + eexists _, true. split; [reflexivity|]. simpl. rewrite Hst. simpl.
        intuition; try lia; discriminate.
    - assert (HD : firstn (length (s_plain K V s)) (distinct (rev u)) = distinct (rev u)).
      { rewrite (setinv_length _ _ Hst). apply firstn_all. }
      simpl. rewrite HD. clear HD.
      assert (HinD : In (mk a) (distinct (rev u)) <-> In (mk a) (map fst (s_plain K V s))).
      { rewrite In_distinct, <- in_rev. destruct Hst as (_ & _ & Hk). symmetry; apply Hk. }
      setoid_rewrite HinD. clear HinD.
      destruct Hst as (Hc & Hnd & Hk).
      destruct (dget (s_plain K V s) (mk a)) as [v|] eqn:Hg.
      + apply dget_In in Hg.
        assert (Hfa : f a = inl v) by (eapply coherent_val; eauto).
        assert (Hin : In (mk a) (map fst (s_plain K V s))) by (apply in_map_iff; eexists; split; eauto; auto).
        eexists _, false. rewrite Hfa. split; [reflexivity|]. simpl.
        split; [|split; [lia|split; [lia|split; [auto|tauto]]]].
        unfold use1. rewrite Hfa. split; [auto|split; [auto|]].
        intros k. rewrite in_app_iff, Hk; simpl. apply Hk in Hin. intuition; subst; auto.
      + apply dget_None in Hg. destruct (f a) as [v|e] eqn:Hfa.
        * eexists _, true. split; [reflexivity|]. simpl.
          split; [|split; [lia|split; [lia|split; [auto|]]]].
          2:{ split; [discriminate|tauto]. }
          rewrite dset_new by auto. unfold use1. rewrite Hfa. split; [|split].
          -- unfold coherent. apply Forall_app. split; auto. constructor; auto. exists a; auto.
          -- rewrite map_app; simpl. rewrite <- Permutation_cons_append. constructor; auto.
          -- intros k. rewrite map_app, !in_app_iff, Hk. simpl. tauto.
        * eexists _, true. split; [reflexivity|]. simpl.
          split; [|split; [lia|split; [lia|split; [discriminate|]]]].
          2:{ split; [discriminate|tauto]. }
          unfold use1. rewrite Hfa. split; auto.
    - destruct Hst as (ids & ents & Hrep & Hrec & Hf & Hlen).
      destruct (Hlk I ids ents Hrep Hrec)
        as (s' & ids' & ents' & ran & Hc & Hrep' & Hrec' & Hh & Hm & Hr & Hran & Hl & Hft & Hff).
      exists s', ran.
      split; [assumption|]. split; [|repeat (split; [assumption|]); exact Hran].
      exists ids', ents'. split; [assumption|]. split; [assumption|].
      destruct (s_full K V s) eqn:Hfs.
      + destruct (Hft eq_refl) as [Hf1 Hl1]. rewrite Hl1.
        assert (Hne : ents <> []) by (intros ->; discriminate).
        rewrite Hf1. split; [|lia].
        destruct ents as [|e0 ents]; [congruence|]. destruct ents'; [discriminate|auto].
      + destruct (Hff eq_refl) as [[Hf1 Hl1]|(Hra & Hre & Hl1 & Hf1)].
        * rewrite Hl1, Hf1. split; [|lia].
          destruct ents as [|e0 ents]; destruct ents'; try discriminate; auto.
        * rewrite Hl1, Hf1. simpl. split; [destruct ents'; [discriminate|auto]|].
          destruct ents as [|e0 ents]; [simpl; lia|].
          symmetry in Hf. apply Z.leb_gt in Hf. lia.
  Qed.

  Definition hist_inv m h (s : state K V) (tr : list (event A V E)) : Prop :=
    store_inv m s (uses h) /\
    outcomes tr = map f (calls h) /\
    s_hits K V s + s_misses K V s = count_returned (since_clear tr) /\
    s_misses K V s = count_ran (since_clear tr).

  Lemma run_inv m h : exists s tr, run m h init = Some (s, tr) /\ hist_inv m h s tr.
  Proof.
    induction h as [|o h IH] using rev_ind.
    - exists init, []. split; [reflexivity|]. split; [apply store_init|]. auto.
    - destruct IH as (s & tr & Hrun & Hst & Hout & Hhm & Hmi).
      rewrite run_app, Hrun. destruct o as [a av|].
      + destruct (store_call m s (uses h) a av Hst) as (s' & ran & Hc & Hst' & Hh' & Hm' & Hr & _).
        simpl. rewrite Hc. eexists _, _. split; [reflexivity|].
        split; [rewrite uses_snoc_call; auto|].
        split; [rewrite outcomes_app, calls_app, map_app, Hout; reflexivity|].
        rewrite since_clear_call, count_returned_snoc, count_ran_snoc.
        split; [|lia].
        destruct ran; simpl in *; [lia|]. rewrite Hr by auto. lia.
      + simpl. eexists _, _. split; [reflexivity|].
        split; [rewrite uses_snoc_clear; eapply store_clear; eauto|].
        split; [rewrite outcomes_app, calls_app, map_app, Hout; simpl; now rewrite !app_nil_r|].
        rewrite since_clear_clear. auto.
  Qed.

  Lemma run_snoc_call m h a av : exists s tr s' ran,
    run m h init = Some (s, tr) /\
    run m (h ++ [Call a av]) init = Some (s', tr ++ [EvCall a ran (f a)]) /\
    (ran = false <-> In (mk a) (recent keq mk f (currsize K V m s) h)).
  Proof.
    destruct (run_inv m h) as (s & tr & Hrun & Hst & _).
    destruct (store_call m s (uses h) a av Hst) as (s' & ran & Hc & _ & _ & _ & _ & Hran).
    exists s, tr, s', ran. split; [auto|]. split; [|exact Hran].
    rewrite run_app, Hrun. simpl. rewrite Hc. reflexivity.
  Qed.

  Lemma currsize_store m s u : store_inv m s u ->
    match m with
    | Disabled => currsize K V m s = 0
    | Unbounded => currsize K V m s = length (distinct (rev u))
    | MemLimited _ => currsize K V m s <= length (distinct (rev u))
    | Sized n => (1 <= n)%Z -> currsize K V m s = Nat.min (Z.to_nat n) (length (distinct (rev u)))
    end.
  Proof.
    destruct m as [limit| | |n]; simpl.
    - intros (ids & ents & Hrep & Hrec). rewrite (rep_cache_len K V _ _ _ Hrep).
      eapply length_recent; eauto.
    - intros ->; auto.
    - apply setinv_length.
    - intros (ids & ents & Hrep & Hrec & Hf & Hlen) Hn. rewrite (rep_cache_len K V _ _ _ Hrep).
      pose proof (length_recent _ _ _ Hrec) as Hle.
      destruct Hrec as (_ & _ & _ & Hnf & _).
      destruct (s_full K V s) eqn:Hfs.
      + destruct ents as [|e0 ents]; [discriminate|]. symmetry in Hf. apply Z.leb_le in Hf. lia.
      + rewrite <- (Hnf eq_refl). lia.
  Qed.

  Lemma currsize_sized_le n s u : store_inv (Sized n) s u ->
    (Z.of_nat (currsize K V (Sized n) s) <= Z.max 1 n)%Z.
  Proof.
    intros (ids & ents & Hrep & Hrec & Hf & Hlen). simpl.
    rewrite (rep_cache_len K V _ _ _ Hrep). lia.
  Qed.
End H.
