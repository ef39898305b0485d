(** Lemmas for the unit properties. *)
From Coq Require Import List Reals String Bool ZArith Lia Lra.
From Verif Require Import ListUtil CacheModel CacheSpec CacheProofs ConfigModel ConfigSpec.
Import ListNotations.
Local Open Scope R_scope.

(** ** Calls of a memo whose function changes between calls *)
Section Varying.
  Variables A K V E : Type.
  Variable keq : forall x y : K, {x = y} + {x <> y}.
  Variable mk : A -> K.

  (* every stored entry satisfies P *)
  Definition cinv (m : mode) (P : K * V -> Prop) (s : state K V) : Prop :=
    match m with
    | Disabled => True
    | Unbounded => Forall P (s_plain K V s)
    | _ => exists ids ents, rep K V s ids ents /\ (s_full K V s = true -> ents <> []) /\
                            Forall P ents
    end.

  Lemma cinv_init m P : cinv m P (init K V).
  Proof.
    destruct m; simpl; auto; exists [], [];
      (split; [apply rep_init|split; [discriminate|constructor]]).
  Qed.

  Lemma cinv_mono m (P Q : K * V -> Prop) s : (forall e, P e -> Q e) -> cinv m P s -> cinv m Q s.
  Proof.
    intros H. destruct m; simpl; auto.
    - intros (i & e & H1 & H2 & H3). exists i, e. split; [auto|split; [auto|]].
      eapply Forall_impl; eauto.
    - intros H3. eapply Forall_impl; eauto.
    - intros (i & e & H1 & H2 & H3). exists i, e. split; [auto|split; [auto|]].
      eapply Forall_impl; eauto.
  Qed.

  Lemma cinv_call (f : A -> V + E) m (P : K * V -> Prop) s a av :
    (forall v, f a = inl v -> P (mk a, v)) -> cinv m P s ->
    exists s' ran o, call A K V E keq mk f m s a av = Some (s', ran, o) /\ cinv m P s' /\
      (o = f a \/ exists v, o = inl v /\ P (mk a, v)).
  Proof.
    intros Hf Hi.
    assert (HL : locked m -> (exists ids ents, rep K V s ids ents /\
       (s_full K V s = true -> ents <> []) /\ Forall P ents) ->
       exists s' ran o, call A K V E keq mk f m s a av = Some (s', ran, o) /\
       (exists ids ents, rep K V s' ids ents /\
       (s_full K V s' = true -> ents <> []) /\ Forall P ents) /\
      (o = f a \/ exists v, o = inl v /\ P (mk a, v))).
    { intros Hl (ids & ents & Hr & Hfl & HP).
      destruct (call_locked A K V E keq mk f m s ids ents a av Hl Hr Hfl)
        as (s' & ids' & ents' & full' & ran & o & Hc & Ha & Hr' & Hf' & Hne & _).
      exists s', ran, o. split; [auto|].
      unfold astep in Ha. destruct (dget K keq ents (mk a)) as [v|] eqn:Hg.
      - inversion Ha; subst; clear Ha. apply dget_In in Hg.
        rewrite Forall_forall in HP. split.
        + exists ids', (without K V keq (mk a) ents ++ [(mk a, v)]). split; [auto|split; [intros _ Q; apply app_eq_nil in Q; destruct Q; discriminate|]].
          apply Forall_app. split; [|constructor; auto].
          apply Forall_forall. intros e He. apply HP. unfold without in He. apply filter_In in He. tauto.
        + right. exists v. auto.
      - destruct (f a) as [v|e] eqn:Hfa.
        + assert (HPv : P (mk a, v)) by auto.
          destruct (s_full K V s) eqn:Hsf; inversion Ha; subst; clear Ha.
          * split; [|left; auto]. exists ids', (tl ents ++ [(mk a, v)]).
            split; [auto|split; [auto|]]. apply Forall_app. split; [|constructor; auto].
            destruct ents; simpl; auto. now inversion HP.
          * split; [|left; auto]. exists ids', (ents ++ [(mk a, v)]).
            split; [auto|split; [|]]. { intros _ Q. apply app_eq_nil in Q. destruct Q; discriminate. }
            apply Forall_app. split; auto.
        + inversion Ha; subst. split; [|left; auto]. exists ids', ents'. split; auto.
    }
    destruct m; simpl in Hi |- *; try (apply HL; simpl; auto; fail).
    - destruct (f a) eqn:Hfa; eexists _, _, _; (split; [reflexivity|split; auto]).
    - destruct (dget K keq (s_plain K V s) (mk a)) as [v|] eqn:Hg.
      + apply dget_In in Hg. rewrite Forall_forall in Hi.
        eexists _, _, _. split; [reflexivity|]. simpl. split; [apply Forall_forall; auto|].
        right. eauto.
      + apply dget_None in Hg. destruct (f a) as [v|e] eqn:Hfa.
        * eexists _, _, _. split; [reflexivity|]. simpl. split; auto.
          rewrite dset_new; auto. apply Forall_app. auto.
        * eexists _, _, _. split; [reflexivity|]. auto.
  Qed.

  (* memory-limited mode with enough memory: nothing is ever dropped *)
  Definition keeps (k : K) (v : V) (s : state K V) : Prop :=
    exists ids ents, rep K V s ids ents /\ s_full K V s = false /\ In (k, v) ents.
  Definition ready (s : state K V) : Prop :=
    exists ids ents, rep K V s ids ents /\ s_full K V s = false.

  Lemma ready_init : ready (init K V).
  Proof. exists [], []. split; [apply rep_init|reflexivity]. Qed.

  Lemma nodup_fun (l : list (K * V)) k v w : NoDup (map fst l) -> In (k, v) l -> In (k, w) l -> v = w.
  Proof.
    induction l as [|[k' x] l IH]; simpl; [tauto|].
    intros Hn [H|H] [H'|H'].
    - congruence.
    - inversion H; subst. inversion Hn; subst. exfalso. apply H2. apply in_map_iff. exists (k, w); auto.
    - inversion H'; subst. inversion Hn; subst. exfalso. apply H2. apply in_map_iff. exists (k, v); auto.
    - inversion Hn; auto.
  Qed.

  Lemma mem_call_varying (f : A -> V + E) limit s a av : (limit <= av)%Z -> ready s ->
    exists s' ran o, call A K V E keq mk f (MemLimited limit) s a av = Some (s', ran, o) /\
      ready s' /\ (forall k v, keeps k v s -> keeps k v s') /\
      (forall v, o = inl v -> keeps (mk a) v s') /\
      (forall v, keeps (mk a) v s -> o = inl v) /\
      (o = f a \/ exists v, o = inl v /\ keeps (mk a) v s).
  Proof.
    intros Hav (ids & ents & Hr & Hnf).
    assert (Hfl : s_full K V s = true -> ents <> []) by congruence.
    destruct (call_locked A K V E keq mk f (MemLimited limit) s ids ents a av I Hr Hfl)
        as (s' & ids' & ents' & full' & ran & o & Hc & Ha & Hr' & Hf' & Hne & _).
    exists s', ran, o. split; [auto|].
    assert (Hnd : NoDup (map fst ents)) by apply Hr.
    assert (Hk : forall k v, keeps k v s -> In (k, v) ents).
    { intros k v (i2 & e2 & Hr2 & _ & Hin).
      assert (Hp : Permutation.Permutation (map fst (s_cache K V s)) (map fst ents)) by (eapply rep_cache_keys; eauto).
      assert (Hp2 : Permutation.Permutation (map fst (s_cache K V s)) (map fst e2)) by (eapply rep_cache_keys; eauto).
      destruct (dget K keq (s_cache K V s) k) as [i|] eqn:Hd.
      - destruct (rep_dget_some K V keq s ids ents k i Hr Hd) as (a1 & w & a2 & ? & ? & He & _ & _ & _ & Hw).
        destruct (rep_dget_some K V keq s i2 e2 k i Hr2 Hd) as (b1 & w' & b2 & ? & ? & He' & _ & _ & _ & Hw').
        assert (w = w') by congruence. subst w'.
        assert (v = w).
        { apply (nodup_fun e2 k v w); auto; [apply Hr2|rewrite He', in_app_iff; simpl; auto]. }
        subst. rewrite in_app_iff; simpl; auto.
      - exfalso. apply dget_None in Hd. apply Hd. eapply Permutation.Permutation_in; [symmetry; exact Hp2|].
        apply in_map_iff. exists (k, v); auto. }
    unfold astep in Ha. destruct (dget K keq ents (mk a)) as [v|] eqn:Hg.
    - inversion Ha; subst; clear Ha. apply dget_In in Hg.
      assert (Hin' : forall k w, In (k, w) ents -> In (k, w) (without K V keq (mk a) ents ++ [(mk a, v)])).
      { intros k w Hkw. rewrite in_app_iff. simpl.
        destruct (keq k (mk a)) as [->|Hne'].
        - right; left. f_equal. eapply nodup_fun; eauto.
        - left. unfold without. apply filter_In. split; auto. simpl. destruct (keq k (mk a)); congruence. }
      split; [|split; [|split; [|split]]].
      + exists ids', (without K V keq (mk a) ents ++ [(mk a, v)]); split; [auto|congruence].
      + intros k w Hkw. eexists ids', _. split; [exact Hr'|split; [congruence|auto]].
      + intros w [= <-]. eexists ids', _. split; [exact Hr'|split; [congruence|auto]].
      + intros w Hkw. f_equal. eapply nodup_fun; eauto.
      + right. exists v. split; auto. exists ids, ents. auto.
    - apply dget_None in Hg. rewrite Hnf in Ha.
      assert (Hno : forall v, ~ keeps (mk a) v s).
      { intros v Q. apply Hk in Q. apply Hg. apply in_map_iff. exists (mk a, v); auto. }
      destruct (f a) as [v|e] eqn:Hfa; inversion Ha; subst; clear Ha.
      + assert (Hf0 : s_full K V s' = false).
        { rewrite <- H1. simpl. apply Z.ltb_ge. auto. }
        split; [|split; [|split; [|split]]].
        * eexists ids', _; split; [exact Hr'|auto].
        * intros k w Hkw. eexists ids', _; split; [exact Hr'|split; auto]. rewrite in_app_iff. left; auto.
        * intros w [= <-]. eexists ids', _; split; [exact Hr'|split; auto]. rewrite in_app_iff. simpl; auto.
        * intros w Q. exfalso; eapply Hno; eauto.
        * auto.
      + split; [|split; [|split; [|split]]].
        * eexists ids', _; split; [exact Hr'|auto].
        * intros k w Hkw. eexists ids', _; split; [exact Hr'|split; auto].
        * discriminate.
        * intros w Q. exfalso; eapply Hno; eauto.
        * auto.
  Qed.
End Varying.
