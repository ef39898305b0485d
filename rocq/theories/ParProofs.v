(** Threads with disjoint footprints: every schedule computes the same. *)
From Coq Require Import List Permutation Lia.
From Verif Require Import ListUtil ParModel.
Import ListNotations.

Section Par.
  Variables Loc Val : Type.
  Notation mem := (mem Loc Val).
  Notation act := (act Loc Val).
  Notation runl := (runl Loc Val).
  Notation shuffle := (shuffle Loc Val).

  (* a touches only F *)
  Definition within (F : Loc -> Prop) (a : act) : Prop :=
    (forall m x, ~ F x -> a m x = m x) /\
    (forall m m', (forall y, F y -> m y = m' y) -> forall x, m x = m' x -> a m x = a m' x).

  Lemma runl_app l1 l2 m : runl (l1 ++ l2) m = runl l2 (runl l1 m).
  Proof. apply fold_left_app. Qed.

  Lemma within_runl F l : Forall (within F) l ->
    (forall m x, ~ F x -> runl l m x = m x) /\
    (forall m m', (forall y, F y -> m y = m' y) -> forall x, m x = m' x -> runl l m x = runl l m' x).
  Proof.
    induction l as [|a l IH]; intros H; [split; simpl; auto|].
    inversion H; subst. destruct (IH H3) as [I1 I2]. destruct H2 as [A1 A2].
    split; simpl.
    - intros m x Hx. rewrite I1; auto.
    - intros m m' He x Hx. apply I2; auto.
  Qed.

  (* effect of an interleaving on the cells of one thread: as if it ran alone *)
  Lemma shuffle_alone ts l : shuffle ts l ->
    forall (F : nat -> Loc -> Prop),
      (forall i t, nth_error ts i = Some t -> Forall (within (F i)) t) ->
      (forall i j x, i <> j -> i < length ts -> j < length ts -> F i x -> ~ F j x) ->
      (forall m i t x, nth_error ts i = Some t -> F i x -> runl l m x = runl t m x) /\
      (forall m x, (forall i, i < length ts -> ~ F i x) -> runl l m x = m x).
  Proof.
    induction 1 as [ts Hnil|pre a t post l Hsh IH]; intros F Hw Hd.
    - split.
      + intros m i t x Hi Hx. rewrite Forall_forall in Hnil.
        rewrite (Hnil t); [reflexivity|]. eapply nth_error_In; eauto.
      + reflexivity.
    - assert (Hlen : length (pre ++ t :: post) = length (pre ++ (a :: t) :: post)).
      { rewrite !app_length; simpl; lia. }
      assert (Hk : nth_error (pre ++ (a :: t) :: post) (length pre) = Some (a :: t)).
      { rewrite nth_error_app2, PeanoNat.Nat.sub_diag by lia. reflexivity. }
      assert (Hk' : nth_error (pre ++ t :: post) (length pre) = Some t).
      { rewrite nth_error_app2, PeanoNat.Nat.sub_diag by lia. reflexivity. }
      assert (Hoth : forall i, i <> length pre ->
         nth_error (pre ++ t :: post) i = nth_error (pre ++ (a :: t) :: post) i).
      { intros i Hi. destruct (Compare_dec.lt_dec i (length pre)).
        - rewrite !nth_error_app1 by lia. reflexivity.
        - rewrite !nth_error_app2 by lia. destruct (i - length pre) eqn:E; [lia|]. reflexivity. }
      pose proof (Hw _ _ Hk) as Hwa. inversion Hwa as [|? ? Ha Ht]; subst. destruct Ha as [A1 A2].
      destruct (IH F) as [I1 I2].
      + intros i t' Hi. destruct (PeanoNat.Nat.eq_dec i (length pre)) as [->|Hne].
        * rewrite Hk' in Hi. inversion Hi; subst. auto.
        * rewrite Hoth in Hi by auto. eauto.
      + rewrite Hlen. auto.
      + assert (Hlk : length pre < length (pre ++ (a :: t) :: post)) by (rewrite app_length; simpl; lia).
        split.
        * intros m i t' x Hi Hx. simpl.
          destruct (PeanoNat.Nat.eq_dec i (length pre)) as [->|Hne].
          -- rewrite Hk in Hi. inversion Hi; subst. simpl. eapply I1; eauto.
          -- assert (Hil : i < length (pre ++ (a :: t) :: post)).
             { apply nth_error_Some. rewrite Hi. discriminate. }
             assert (Hi2 : nth_error (pre ++ t :: post) i = Some t') by (rewrite Hoth; auto).
             rewrite (I1 (a m) i t' x Hi2 Hx).
             destruct (within_runl (F i) t') as [_ W2]; [eapply Hw; eauto|].
             apply W2; [intros y Hy|]; apply A1; eapply Hd; eauto.
        * intros m x Hx. simpl. rewrite I2.
          -- apply A1. apply Hx. auto.
          -- rewrite Hlen. auto.
  Qed.

  (** A parallel loop whose iteration p touches only the cells [own p] and the private
      cells [priv t] of its thread, and whose own cells are functions of the initial own
      cells only, whatever the private cells contain. *)
  Lemma prange_spec n (body : nat -> nat -> list act)
      (own priv : nat -> Loc -> Prop) (res : nat -> Loc -> Val) m0 m' :
    (forall p q x, p <> q -> p < n -> q < n -> own p x -> ~ own q x) ->
    (forall s t x, s <> t -> priv s x -> ~ priv t x) ->
    (forall p t x, p < n -> own p x -> ~ priv t x) ->
    (forall t p, p < n -> Forall (within (fun x => own p x \/ priv t x)) (body t p)) ->
    (forall t p m, p < n -> (forall x, own p x -> m x = m0 x) ->
       forall x, own p x -> runl (body t p) m x = res p x) ->
    prange Loc Val n body m0 m' ->
    (forall p x, p < n -> own p x -> m' x = res p x) /\
    (forall x, (forall p, p < n -> ~ own p x) -> (forall t, ~ priv t x) -> m' x = m0 x).
  Proof.
    intros Hown Hpriv Hop Hw Hres (ts & l & Hperm & Hsh & Hm').
    set (F := fun i x => priv i x \/ exists p, In p (nth i ts []) /\ own p x).
    assert (Hlt : forall i p, In p (nth i ts []) -> p < n).
    { intros i p Hp. assert (In p (concat ts)).
      { apply in_concat. exists (nth i ts []). split; auto.
        destruct (Compare_dec.lt_dec i (length ts)); [apply nth_In; auto|].
        rewrite nth_overflow in Hp by lia. destruct Hp. }
      eapply Permutation_in in H; [|exact Hperm]. apply in_seq in H. lia. }
    assert (Hnd : NoDup (concat ts)).
    { eapply Permutation_NoDup; [symmetry; exact Hperm|apply seq_NoDup]. }
    set (TS := map (fun it => flat_map (body (fst it)) (snd it)) (combine (seq 0 (length ts)) ts)) in *.
    assert (Hlen : length TS = length ts).
    { unfold TS. rewrite map_length, combine_length, seq_length. lia. }
    assert (HTS : forall i, i < length ts -> nth_error TS i = Some (flat_map (body i) (nth i ts []))).
    { intros i Hi. unfold TS. rewrite nth_error_map.
      assert (E : nth_error (combine (seq 0 (length ts)) ts) i = Some (i, nth i ts [])).
      { assert (Hl : length (seq 0 (length ts)) = length ts) by apply seq_length.
        rewrite (nth_error_nth' _ (0, [])) by (rewrite combine_length; lia).
        rewrite combine_nth by auto. rewrite seq_nth by auto. reflexivity. }
      rewrite E. reflexivity. }
    assert (Hdisj : forall i j p, i <> j -> In p (nth i ts []) -> In p (nth j ts []) -> False).
    { clear - Hnd. revert Hnd. induction ts as [|t ts IH]; intros Hnd i j p Hij Hi Hj.
      - destruct i; destruct Hi.
      - simpl in Hnd. apply NoDup_app_inv in Hnd. destruct Hnd as (N1 & N2 & N3).
        assert (Hc : forall k, In p (nth k ts []) -> In p (concat ts)).
        { intros k Hk. apply in_concat. exists (nth k ts []). split; auto.
          destruct (Compare_dec.lt_dec k (length ts)); [apply nth_In; auto|].
          rewrite nth_overflow in Hk by lia. destruct Hk. }
        destruct i as [|i], j as [|j]; simpl in Hi, Hj; try lia.
        + eapply N3; eauto.
        + eapply N3; eauto.
        + eapply (IH N2 i j); eauto. }
    destruct (shuffle_alone TS l Hsh F) as [S1 S2].
    - intros i t Hi. assert (Hil : i < length ts).
      { rewrite <- Hlen. apply nth_error_Some. rewrite Hi. discriminate. }
      rewrite HTS in Hi by auto. inversion Hi; subst t; clear Hi.
      apply Forall_forall. intros a Ha. apply in_flat_map in Ha. destruct Ha as (p & Hp & Ha).
      pose proof (Hlt _ _ Hp) as Hpn.
      pose proof (Hw i p Hpn) as Hwp. rewrite Forall_forall in Hwp. destruct (Hwp a Ha) as [A1 A2].
      split.
      + intros m x Hx. apply A1. intros [Q|Q]; apply Hx; [right; eauto|left; auto].
      + intros m m1 He x Hx.
        apply A2; auto. intros y [Q|Q]; apply He; [right; eauto|left; auto].
    - intros i j x Hij Hi Hj. rewrite Hlen in *. intros [Q|(p & Hp & Q)] [Q'|(p' & Hp' & Q')].
      + eapply Hpriv; eauto.
      + eapply Hop; [| exact Q' |exact Q]. eapply Hlt; eauto.
      + eapply Hop; [| exact Q |exact Q']. eapply Hlt; eauto.
      + destruct (PeanoNat.Nat.eq_dec p p') as [->|Hne].
        * eapply Hdisj; eauto.
        * eapply (Hown p p'); eauto.
    - split.
      + intros p x Hpn Hx. rewrite Hm'.
        assert (Hin : In p (concat ts)).
        { eapply Permutation_in; [symmetry; exact Hperm|]. apply in_seq. lia. }
        apply in_concat in Hin. destruct Hin as (t & Ht & Hpt).
        apply (In_nth _ _ []) in Ht. destruct Ht as (i & Hi & Hti).
        assert (Hpi : In p (nth i ts [])) by (rewrite Hti; auto).
        rewrite (S1 m0 i _ x (HTS i Hi)) by (right; eauto).
        (* within the thread *)
        apply in_split in Hpi. destruct Hpi as (l1 & l2 & Hs). rewrite Hs.
        assert (Hnt : NoDup (nth i ts [])).
        { clear - Hnd Hi. revert i Hi Hnd. induction ts as [|t ts IH]; intros i Hi Hnd; simpl in Hi; [lia|].
          simpl in Hnd. apply NoDup_app_inv in Hnd. destruct Hnd as (N1 & N2 & _).
          destruct i; simpl; auto. apply IH; auto. lia. }
        rewrite Hs in Hnt. apply NoDup_remove in Hnt. destruct Hnt as [_ Hnotin].
        rewrite in_app_iff in Hnotin.
        assert (Hskip : forall l0 m, (forall p', In p' l0 -> In p' (nth i ts [])) -> ~ In p l0 ->
                  forall y, own p y -> runl (flat_map (body i) l0) m y = m y).
        { induction l0 as [|p' l0 IH]; intros m Hsub Hn y Hy; [reflexivity|].
          simpl. rewrite runl_app. rewrite IH; simpl in *; auto.
          pose proof (Hlt i p' (Hsub p' (or_introl eq_refl))) as Hp'n.
          destruct (within_runl _ _ (Hw i p' Hp'n)) as [W1 _]. apply W1.
          intros [Q|Q]; [|exact (Hop p i y Hpn Hy Q)].
          apply (Hown p p' y); auto. }
        rewrite flat_map_app, runl_app. simpl. rewrite runl_app.
        rewrite Hskip; auto.
        * apply Hres; auto. intros y Hy. apply Hskip; auto.
          intros p' Hp'. rewrite Hs, in_app_iff; auto.
        * intros p' Hp'. rewrite Hs, in_app_iff; simpl; auto.
      + intros x Hx Hpx. rewrite Hm'. apply S2. intros i Hi [Q|(p & Hp & Q)].
        * eapply Hpx; eauto.
        * eapply Hx; [|exact Q]. eapply Hlt; eauto.
  Qed.
End Par.
