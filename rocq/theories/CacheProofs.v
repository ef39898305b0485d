(** Lemmas for the cache properties. *)
From Coq Require Import List ZArith Bool Lia Permutation.
From Verif Require Import ListUtil CacheModel CacheSpec.
Import ListNotations.

Section P.
  Variables A K V E : Type.
  Variable keq : forall x y : K, {x = y} + {x <> y}.
  Variable mk : A -> K.
  Variable f : A -> V + E.

  Notation heap := (heap K V).
  Notation state := (state K V).
  Notation link := (link K V).
  Notation nx h x := (l_next K V (h x)).
  Notation pv h x := (l_prev K V (h x)).

  (** ** Rings *)
  Definition linked (h : heap) x y := nx h x = y /\ pv h y = x.
  Fixpoint path (h : heap) x l y : Prop :=
    match l with
    | [] => linked h x y
    | z :: l' => linked h x z /\ path h z l' y
    end.

  Lemma path_app h x l1 z l2 y :
    path h x (l1 ++ z :: l2) y <-> path h x l1 z /\ path h z l2 y.
  Proof.
    revert x; induction l1 as [|w l1 IH]; intros x; simpl; [tauto|].
    rewrite IH; tauto.
  Qed.

  Lemma path_frame h h' x l y :
    (forall a, In a (x :: l) -> nx h' a = nx h a) ->
    (forall a, In a (l ++ [y]) -> pv h' a = pv h a) ->
    path h x l y -> path h' x l y.
  Proof.
    revert x; induction l as [|w l IH]; intros x Hn Hp; simpl.
    - intros [H1 H2]; split.
      + rewrite Hn; auto. left; auto.
      + rewrite Hp; auto. left; auto.
    - intros [[H1 H2] H3]; split; [split|].
      + rewrite Hn; auto. left; auto.
      + rewrite Hp; auto. left; auto.
      + apply IH; auto.
        * intros a Ha; apply Hn; right; auto.
        * intros a Ha; apply Hp; right; auto.
  Qed.

  Lemma path_snoc_inv h x l y : path h x l y ->
    (l = [] /\ linked h x y) \/ (exists l' p, l = l' ++ [p] /\ path h x l' p /\ linked h p y).
  Proof.
    destruct l as [|w l] using rev_ind; intros H; [left; auto|right].
    apply path_app in H. destruct H as [H1 H2]; simpl in H2. eauto.
  Qed.

  (* removing one node from a ring *)
  Lemma ring_remove h h' x l1 i l2 :
    path h x (l1 ++ i :: l2) x -> NoDup (x :: l1 ++ i :: l2) ->
    (forall a, a <> pv h i -> nx h' a = nx h a) ->
    (forall a, a <> nx h i -> pv h' a = pv h a) ->
    nx h' (pv h i) = nx h i -> pv h' (nx h i) = pv h i ->
    path h' x (l1 ++ l2) x.
  Proof.
    intros Hp Hnd Hn Hv Hn1 Hv1.
    apply path_app in Hp. destruct Hp as [Hp1 Hp2].
    apply path_snoc_inv in Hp1.
    apply NoDup_cons_iff in Hnd. destruct Hnd as [Hx Hnd].
    assert (Hni : ~ In i (l1 ++ l2)) by (apply NoDup_remove in Hnd; tauto).
    assert (Hnd' : NoDup (l1 ++ l2)) by (apply NoDup_remove in Hnd; tauto).
    assert (Hx' : ~ In x (l1 ++ l2)).
    { intro HH. apply Hx. apply in_app_iff in HH. apply in_app_iff. simpl; tauto. }
    assert (Hxi : x <> i).
    { intro HH; apply Hx. subst i. apply in_app_iff; simpl; auto. }
    destruct Hp1 as [[-> [Ha Hb]] | (l1' & p & -> & Hp1 & [Ha Hb])].
    - (* predecessor is root *)
      rewrite Hb in *. simpl in *.
      destruct l2 as [|n l2]; simpl in *.
      + destruct Hp2 as [Hc Hd]. rewrite Hc in *. split; assumption.
      + destruct Hp2 as [[Hc Hd] Hp2]. rewrite Hc in *. split; [split; auto|].
        apply NoDup_cons_iff in Hnd'. destruct Hnd' as [Hn' Hnd'].
        eapply path_frame; [| |exact Hp2].
        * intros a Hin. apply Hn. intros ->. apply Hx'. auto.
        * intros a Hin. apply Hv. intros ->. apply in_app_iff in Hin.
          destruct Hin as [Hin|[Hin|[]]]; auto.
    - rewrite Hb in *. rewrite <- app_assoc in *. simpl in *.
      assert (Hpn : ~ In p (l1' ++ l2)) by (apply NoDup_remove in Hnd'; tauto).
      assert (Hxp : x <> p) by (intros ->; apply Hx'; apply in_app_iff; simpl; auto).
      destruct l2 as [|n l2]; simpl in *.
      + destruct Hp2 as [Hc Hd]. rewrite Hc in *. rewrite app_nil_r in *.
        apply path_app. split; [|split; auto].
        eapply path_frame; [| |exact Hp1].
        * intros a [->|Hin]; apply Hn; auto. intros ->; auto.
        * intros a Hin. apply Hv. intros ->. auto.
      + destruct Hp2 as [[Hc Hd] Hp2]. rewrite Hc in *.
        assert (Hnp : n <> p).
        { intros ->. apply Hpn. apply in_app_iff; simpl; auto. }
        assert (Hxn : x <> n).
        { intros ->. apply Hx'. apply in_app_iff; simpl; auto. }
        assert (Hnn : ~ In n (l1' ++ p :: l2)).
        { change (l1' ++ p :: n :: l2) with (l1' ++ [p] ++ n :: l2) in Hnd'.
          rewrite app_assoc in Hnd'. apply NoDup_remove in Hnd'.
          rewrite <- app_assoc in Hnd'; simpl in Hnd'. tauto. }
        apply path_app. split; [|split; [split; auto|]].
        * eapply path_frame; [| |exact Hp1].
          -- intros a [->|Hin]; apply Hn; auto. intros ->.
             apply Hpn, in_app_iff; auto.
          -- intros a Hin. apply Hv. intros ->. apply in_app_iff in Hin.
             destruct Hin as [Hin|[Hin|[]]]; auto. apply Hnn, in_app_iff; auto.
        * eapply path_frame; [| |exact Hp2].
          -- intros a Hin. apply Hn. intros ->. apply Hpn, in_app_iff; auto.
          -- intros a Hin. apply Hv. intros ->. apply in_app_iff in Hin.
             destruct Hin as [Hin|[Hin|[]]]; auto. apply Hnn, in_app_iff; simpl; auto.
  Qed.

  (* inserting a node before the root *)
  Lemma ring_insert h h' x l i :
    path h x l x -> NoDup (x :: l) -> ~ In i (x :: l) ->
    (forall a, a <> i -> a <> pv h x -> nx h' a = nx h a) ->
    (forall a, a <> i -> a <> x -> pv h' a = pv h a) ->
    nx h' (pv h x) = i -> pv h' x = i -> pv h' i = pv h x -> nx h' i = x ->
    path h' x (l ++ [i]) x.
  Proof.
    intros Hp Hnd Hi Hn Hv H1 H2 H3 H4.
    apply path_snoc_inv in Hp.
    apply NoDup_cons_iff in Hnd. destruct Hnd as [Hx Hnd].
    destruct Hp as [[-> [Ha Hb]] | (l' & p & -> & Hp & [Ha Hb])].
    - simpl. rewrite Hb in *. repeat split; auto.
    - rewrite Hb in *.
      assert (Hpl : ~ In p l').
      { apply NoDup_remove in Hnd. rewrite app_nil_r in Hnd. tauto. }
      assert (Hxp : x <> p) by (intros ->; apply Hx, in_app_iff; simpl; auto).
      rewrite <- app_assoc; simpl. apply path_app. split.
      + eapply path_frame; [| |exact Hp].
        * intros a Hin. apply Hn.
          -- intros ->. apply Hi. simpl in *. rewrite in_app_iff. tauto.
          -- intros ->. destruct Hin as [->|Hin]; auto.
        * intros a Hin. apply Hv.
          -- intros ->. apply Hi. right; auto.
          -- intros ->. auto.
      + repeat split; auto.
  Qed.

  (** ** Dictionaries *)
  Notation dget := (dget K keq).
  Notation dset := (dset K keq).
  Notation ddel := (ddel K keq).

  Lemma dget_In {B} (d : list (K * B)) k b : dget d k = Some b -> In (k, b) d.
  Proof.
    induction d as [|[k' b'] d IH]; simpl; [discriminate|].
    destruct (keq k k'); [intros [= ->]; subst; auto|auto].
  Qed.
  Lemma dget_None {B} (d : list (K * B)) k : dget d k = None <-> ~ In k (map fst d).
  Proof.
    induction d as [|[k' b'] d IH]; simpl; [tauto|].
    destruct (keq k k'); [subst; split; [discriminate|tauto]|].
    rewrite IH. intuition congruence.
  Qed.
  Lemma In_dget {B} (d : list (K * B)) k b :
    NoDup (map fst d) -> In (k, b) d -> dget d k = Some b.
  Proof.
    induction d as [|[k' b'] d IH]; simpl; [tauto|].
    intros Hnd [[= -> ->]|H].
    - destruct (keq k k); congruence.
    - apply NoDup_cons_iff in Hnd. destruct Hnd as [H1 H2].
      destruct (keq k k'); [|auto]. subst. exfalso. apply H1.
      apply in_map_iff. exists (k', b); auto.
  Qed.
  Lemma dset_new {B} (d : list (K * B)) k b : ~ In k (map fst d) -> dset d k b = d ++ [(k, b)].
  Proof.
    induction d as [|[k' b'] d IH]; simpl; auto.
    intros H. destruct (keq k k'); [subst; tauto|]. rewrite IH; tauto.
  Qed.
  Lemma ddel_In {B} (d : list (K * B)) k b : NoDup (map fst d) -> In (k, b) d ->
    exists d', ddel d k = Some d' /\ Permutation d ((k, b) :: d').
  Proof.
    induction d as [|[k' b'] d IH]; simpl; [tauto|].
    intros Hnd Hin. apply NoDup_cons_iff in Hnd. destruct Hnd as [H1 H2].
    destruct (keq k k').
    - subst. exists d. split; auto.
      destruct Hin as [[= <-]|Hin]; auto.
      exfalso; apply H1. apply in_map_iff; exists (k', b); auto.
    - destruct Hin as [[= -> ->]|Hin]; [congruence|].
      destruct (IH H2 Hin) as (d' & -> & Hp). simpl. eexists; split; eauto.
      rewrite Hp. apply perm_swap.
  Qed.

  (** ** Representation of an abstract entry list (oldest first) *)
  Definition rep (s : state) (ids : list nat) (ents : list (K * V)) : Prop :=
    path (s_heap K V s) (s_root K V s) ids (s_root K V s) /\
    NoDup (s_root K V s :: ids) /\
    Forall (fun i => i < s_alloc K V s) (s_root K V s :: ids) /\
    Forall2 (fun i e => l_key K V (s_heap K V s i) = Some (fst e)
                        /\ l_result K V (s_heap K V s i) = Some (snd e)) ids ents /\
    NoDup (map fst ents) /\
    Permutation (s_cache K V s) (combine (map fst ents) ids).

  Lemma combine_fst {B C} (l : list B) (l' : list C) :
    length l = length l' -> map fst (combine l l') = l.
  Proof.
    revert l'; induction l; destruct l'; simpl; try discriminate; auto.
    intros [= H]; rewrite IHl; auto.
  Qed.

  Lemma rep_lengths s ids ents : rep s ids ents -> length ids = length ents.
  Proof. intros (_ & _ & _ & H & _). eapply Forall2_length; eauto. Qed.

  Lemma rep_cache_keys s ids ents : rep s ids ents ->
    Permutation (map fst (s_cache K V s)) (map fst ents).
  Proof.
    intros H. pose proof (rep_lengths _ _ _ H) as Hl.
    destruct H as (_ & _ & _ & _ & _ & Hp).
    rewrite Hp. rewrite combine_fst; auto. now rewrite map_length.
  Qed.
  Lemma rep_cache_len s ids ents : rep s ids ents ->
    length (s_cache K V s) = length ents.
  Proof.
    intros H. apply rep_cache_keys in H. apply Permutation_length in H.
    now rewrite !map_length in H.
  Qed.
  Lemma rep_nodup_cache s ids ents : rep s ids ents -> NoDup (map fst (s_cache K V s)).
  Proof.
    intros H. pose proof (rep_cache_keys _ _ _ H) as Hp.
    destruct H as (_ & _ & _ & _ & Hn & _).
    eapply Permutation_NoDup; [symmetry; exact Hp|auto].
  Qed.
  Lemma rep_dget_none s ids ents k : rep s ids ents ->
    (dget (s_cache K V s) k = None <-> ~ In k (map fst ents)).
  Proof.
    intros H. rewrite dget_None. pose proof (rep_cache_keys _ _ _ H) as Hp.
    split; intros Hn Hi; apply Hn; [rewrite Hp|rewrite <- Hp]; auto.
  Qed.

  Lemma in_combine_split (ks : list K) (is : list nat) k i :
    In (k, i) (combine ks is) ->
    exists k1 k2 i1 i2, ks = k1 ++ k :: k2 /\ is = i1 ++ i :: i2 /\ length k1 = length i1.
  Proof.
    revert is; induction ks as [|k0 ks IH]; intros [|i0 is]; simpl; try tauto.
    intros [[= -> ->]|H].
    - exists [], ks, [], is. auto.
    - destruct (IH _ H) as (k1 & k2 & i1 & i2 & -> & -> & Hl).
      exists (k0 :: k1), k2, (i0 :: i1), i2. simpl; auto.
  Qed.

  Lemma rep_dget_some s ids ents k i : rep s ids ents ->
    dget (s_cache K V s) k = Some i ->
    exists e1 v e2 i1 i2, ents = e1 ++ (k, v) :: e2 /\ ids = i1 ++ i :: i2 /\
      length e1 = length i1 /\
      l_key K V (s_heap K V s i) = Some k /\ l_result K V (s_heap K V s i) = Some v.
  Proof.
    intros H Hg. apply dget_In in Hg.
    destruct H as (_ & _ & _ & H2 & _ & Hp).
    rewrite Hp in Hg. apply in_combine_split in Hg.
    destruct Hg as (k1 & k2 & i1 & i2 & Hk & -> & Hl).
    apply map_eq_app in Hk. destruct Hk as (e1 & e2' & -> & <- & Hk).
    apply map_eq_cons in Hk. destruct Hk as ([k' v] & e2 & -> & Hk' & <-). simpl in Hk'. subst k'.
    rewrite map_length in Hl.
    apply Forall2_app_inv_l in H2.
    destruct H2 as (m1 & m2 & Hm1 & Hm2 & He).
    assert (length m1 = length e1) by (apply Forall2_length in Hm1; lia).
    apply app_eq_app in He.
    assert (m1 = e1 /\ m2 = (k, v) :: e2) as [-> ->].
    { destruct He as (l & [[He1 He2]|[He1 He2]]); subst.
      - rewrite app_length in *. destruct l; simpl in *; [|lia].
        rewrite app_nil_r; auto.
      - rewrite app_length in *. destruct l; simpl in *; [|lia].
        rewrite app_nil_r; auto. }
    inversion Hm2; subst. simpl in *.
    exists e1, v, e2, i1, i2. intuition.
  Qed.

  Lemma next_set_next (h : heap) x y z :
    l_next K V (set_next K V h x y z) = if Nat.eqb z x then y else l_next K V (h z).
  Proof. unfold set_next, hset. destruct (Nat.eqb_spec z x); subst; reflexivity. Qed.
  Lemma prev_set_next (h : heap) x y z :
    l_prev K V (set_next K V h x y z) = l_prev K V (h z).
  Proof. unfold set_next, hset. destruct (Nat.eqb_spec z x); subst; reflexivity. Qed.
  Lemma key_set_next (h : heap) x y z :
    l_key K V (set_next K V h x y z) = l_key K V (h z).
  Proof. unfold set_next, hset. destruct (Nat.eqb_spec z x); subst; reflexivity. Qed.
  Lemma result_set_next (h : heap) x y z :
    l_result K V (set_next K V h x y z) = l_result K V (h z).
  Proof. unfold set_next, hset. destruct (Nat.eqb_spec z x); subst; reflexivity. Qed.
  Lemma next_set_prev (h : heap) x y z :
    l_next K V (set_prev K V h x y z) = l_next K V (h z).
  Proof. unfold set_prev, hset. destruct (Nat.eqb_spec z x); subst; reflexivity. Qed.
  Lemma prev_set_prev (h : heap) x y z :
    l_prev K V (set_prev K V h x y z) = if Nat.eqb z x then y else l_prev K V (h z).
  Proof. unfold set_prev, hset. destruct (Nat.eqb_spec z x); subst; reflexivity. Qed.
  Lemma key_set_prev (h : heap) x y z :
    l_key K V (set_prev K V h x y z) = l_key K V (h z).
  Proof. unfold set_prev, hset. destruct (Nat.eqb_spec z x); subst; reflexivity. Qed.
  Lemma result_set_prev (h : heap) x y z :
    l_result K V (set_prev K V h x y z) = l_result K V (h z).
  Proof. unfold set_prev, hset. destruct (Nat.eqb_spec z x); subst; reflexivity. Qed.
  Lemma next_set_kr (h : heap) x k r z :
    l_next K V (set_kr K V h x k r z) = l_next K V (h z).
  Proof. unfold set_kr, hset. destruct (Nat.eqb_spec z x); subst; reflexivity. Qed.
  Lemma prev_set_kr (h : heap) x k r z :
    l_prev K V (set_kr K V h x k r z) = l_prev K V (h z).
  Proof. unfold set_kr, hset. destruct (Nat.eqb_spec z x); subst; reflexivity. Qed.
  Lemma key_set_kr (h : heap) x k r z :
    l_key K V (set_kr K V h x k r z) = if Nat.eqb z x then k else l_key K V (h z).
  Proof. unfold set_kr, hset. destruct (Nat.eqb_spec z x); subst; reflexivity. Qed.
  Lemma result_set_kr (h : heap) x k r z :
    l_result K V (set_kr K V h x k r z) = if Nat.eqb z x then r else l_result K V (h z).
  Proof. unfold set_kr, hset. destruct (Nat.eqb_spec z x); subst; reflexivity. Qed.
  Lemma next_hset (h : heap) x l z :
    l_next K V (hset K V h x l z) = if Nat.eqb z x then l_next K V l else l_next K V (h z).
  Proof. unfold hset. destruct (Nat.eqb_spec z x); subst; reflexivity. Qed.
  Lemma prev_hset (h : heap) x l z :
    l_prev K V (hset K V h x l z) = if Nat.eqb z x then l_prev K V l else l_prev K V (h z).
  Proof. unfold hset. destruct (Nat.eqb_spec z x); subst; reflexivity. Qed.
  Lemma key_hset (h : heap) x l z :
    l_key K V (hset K V h x l z) = if Nat.eqb z x then l_key K V l else l_key K V (h z).
  Proof. unfold hset. destruct (Nat.eqb_spec z x); subst; reflexivity. Qed.
  Lemma result_hset (h : heap) x l z :
    l_result K V (hset K V h x l z) = if Nat.eqb z x then l_result K V l else l_result K V (h z).
  Proof. unfold hset. destruct (Nat.eqb_spec z x); subst; reflexivity. Qed.
  Ltac heap_rw := repeat first [ rewrite next_set_next | rewrite prev_set_next | rewrite key_set_next | rewrite result_set_next | rewrite next_set_prev | rewrite prev_set_prev | rewrite key_set_prev | rewrite result_set_prev | rewrite next_set_kr | rewrite prev_set_kr | rewrite key_set_kr | rewrite result_set_kr | rewrite next_hset | rewrite prev_hset | rewrite key_hset | rewrite result_hset ].
  Ltac heap_simpl :=
    heap_rw; simpl;
    repeat match goal with
           | |- context [Nat.eqb ?a ?b] => destruct (Nat.eqb_spec a b); simpl; try congruence
           end; auto.

  Lemma Forall2_app_length_inv {B C} (R : B -> C -> Prop) l1 l2 m1 m2 :
    length l1 = length m1 -> Forall2 R (l1 ++ l2) (m1 ++ m2) ->
    Forall2 R l1 m1 /\ Forall2 R l2 m2.
  Proof.
    revert m1; induction l1 as [|x l1 IH]; destruct m1 as [|y m1]; simpl; try discriminate.
    - auto.
    - intros [= Hl] H. inversion H; subst. destruct (IH _ Hl H5). auto.
  Qed.

  Lemma combine_app {B C} (l1 l2 : list B) (m1 m2 : list C) :
    length l1 = length m1 -> combine (l1 ++ l2) (m1 ++ m2) = combine l1 m1 ++ combine l2 m2.
  Proof.
    revert m1; induction l1; destruct m1; simpl; try discriminate; auto.
    intros [= H]; rewrite IHl1; auto.
  Qed.

  (** *** The first locked section *)
  Lemma lookup_hit s ids ents e1 k v e2 :
    rep s ids ents -> ents = e1 ++ (k, v) :: e2 ->
    exists s' ids', lookup K V keq s k = (s', Some v) /\
      rep s' ids' (e1 ++ e2 ++ [(k, v)]) /\
      s_full K V s' = s_full K V s /\ s_plain K V s' = s_plain K V s /\
      s_hits K V s' = S (s_hits K V s) /\ s_misses K V s' = s_misses K V s.
  Proof.
    intros Hrep Hents. unfold lookup.
    destruct (dget (s_cache K V s) k) as [i|] eqn:Hg.
    2:{ exfalso. apply (rep_dget_none _ _ _ k Hrep) in Hg. apply Hg. subst.
        rewrite map_app, in_app_iff; simpl; auto. }
    destruct (rep_dget_some _ _ _ _ _ Hrep Hg) as (f1 & w & f2 & i1 & i2 & He & Hi & Hl & Hk & Hr).
    assert (Hsplit : f1 = e1 /\ w = v /\ f2 = e2).
    { destruct Hrep as (_ & _ & _ & _ & Hnd & _).
      rewrite Hents in He. subst ents. clear - Hnd He.
      revert e1 He Hnd. induction f1 as [|[k0 v0] f1 IH]; intros [|[k1 v1] e1] He Hnd; simpl in *.
      - inversion He; auto.
      - inversion He; subst. exfalso.
        apply NoDup_cons_iff in Hnd. destruct Hnd as [H _]. apply H.
        rewrite map_app, in_app_iff; simpl; auto.
      - inversion He; subst. exfalso.
        apply NoDup_cons_iff in Hnd. destruct Hnd as [H _]. apply H.
        rewrite map_app, in_app_iff; simpl; auto.
      - inversion He; subst. apply NoDup_cons_iff in Hnd.
        destruct (IH e1) as (-> & -> & ->); tauto. }
    destruct Hsplit as (-> & -> & ->). clear Hents.
    rewrite Hr.
    destruct Hrep as (Hp & Hnd & Hal & H2 & Hnk & Hperm).
    subst ids ents.
    set (h0 := s_heap K V s) in *. set (root := s_root K V s) in *.
    set (p := pv h0 i). set (n := nx h0 i).
    set (h1 := set_next K V h0 p n). set (h2 := set_prev K V h1 n p).
    set (h3 := set_next K V h2 (pv h2 root) i).
    set (h4 := set_prev K V h3 root i).
    set (h5 := set_prev K V h4 i (pv h2 root)).
    set (h6 := set_next K V h5 i root).
    assert (Hring : path h2 root (i1 ++ i2) root).
    { eapply (ring_remove h0 h2); eauto.
      - intros a Ha. unfold h2, h1. fold p in Ha. heap_simpl.
      - intros a Ha. unfold h2, h1. fold n in Ha. heap_simpl.
      - fold p n. unfold h2, h1. heap_simpl.
      - fold p n. unfold h2, h1. heap_simpl. }
    assert (Hnd' : NoDup (root :: i1 ++ i2)).
    { change (root :: i1 ++ i :: i2) with ((root :: i1) ++ i :: i2) in Hnd.
      apply NoDup_remove in Hnd. tauto. }
    assert (Hni : ~ In i (root :: i1 ++ i2)).
    { change (root :: i1 ++ i :: i2) with ((root :: i1) ++ i :: i2) in Hnd.
      apply NoDup_remove in Hnd. tauto. }
    assert (Hri : root <> i) by (intros He; apply Hni; left; auto).
    assert (Hlast : pv h2 root <> i).
    { destruct (path_snoc_inv _ _ _ _ Hring) as [[Hem [_ Hb]]|(l' & q & Hq & _ & [_ Hb])]; rewrite Hb.
      - auto.
      - intros ->. apply Hni. right. rewrite Hq. apply in_app_iff; simpl; auto. }
    assert (Hring' : path h6 root ((i1 ++ i2) ++ [i]) root).
    { eapply (ring_insert h2 h6); eauto.
      - intros a Ha Hb. unfold h6, h5, h4, h3. heap_simpl.
      - intros a Ha Hb. unfold h6, h5, h4, h3. heap_simpl.
      - unfold h6, h5, h4, h3. heap_simpl.
      - unfold h6, h5, h4, h3. heap_simpl.
      - unfold h6, h5, h4, h3. heap_simpl.
      - unfold h6, h5, h4, h3. heap_simpl. }
    assert (Hkr : forall a, l_key K V (h6 a) = l_key K V (h0 a) /\
                            l_result K V (h6 a) = l_result K V (h0 a)).
    { intros a. unfold h6, h5, h4, h3, h2, h1. heap_rw. auto. }
    eexists _, ((i1 ++ i2) ++ [i]). split; [reflexivity|].
    simpl. repeat split; auto.
    - change (NoDup (root :: (i1 ++ i2) ++ [i])).
      eapply Permutation_NoDup; [|exact Hnd].
      apply perm_skip. rewrite <- app_assoc. apply Permutation_app_head.
      apply Permutation_cons_append.
    - simpl. apply Forall_cons_iff in Hal. destruct Hal as [Hal1 Hal2].
      constructor; auto.
      rewrite !Forall_app in *. destruct Hal2 as [Hx Hy].
      apply Forall_cons_iff in Hy. intuition.
    - simpl. apply Forall2_app_length_inv in H2; [|lia].
      destruct H2 as [Hx Hy]. inversion Hy as [|? ? ? ? Hy1 Hy2]; subst.
      rewrite <- app_assoc. apply Forall2_app; [|apply Forall2_app].
      + eapply Forall2_impl; [|exact Hx]. simpl. intros a b Hab.
        destruct (Hkr a) as [Q1 Q2]. unfold h6, h5, h4, h3, h2, h1 in *. rewrite Q1, Q2. auto.
      + eapply Forall2_impl; [|exact Hy2]. simpl. intros a b Hab.
        destruct (Hkr a) as [Q1 Q2]. rewrite Q1, Q2. auto.
      + constructor; auto. simpl.
        destruct (Hkr i) as [Q1 Q2]. rewrite Q1, Q2. auto.
    - rewrite app_assoc, map_app in *. simpl.
      eapply Permutation_NoDup; [|exact Hnk].
      rewrite !map_app; simpl. rewrite <- app_assoc. apply Permutation_app_head.
      apply Permutation_cons_append.
    - eapply Permutation_trans; [exact Hperm|]. rewrite !map_app; simpl.
      rewrite combine_app by (rewrite map_length; auto).
      rewrite <- app_assoc. rewrite combine_app by (rewrite map_length; auto).
      apply Permutation_app_head.
      rewrite combine_app.
      + simpl. apply Permutation_cons_append.
      + rewrite map_length. apply Forall2_length in H2.
        rewrite !app_length in H2; simpl in H2. lia.
  Qed.

  Lemma lookup_miss s ids ents k :
    rep s ids ents -> ~ In k (map fst ents) -> lookup K V keq s k = (s, None).
  Proof.
    intros H Hn. unfold lookup. apply (rep_dget_none _ _ _ k H) in Hn. now rewrite Hn.
  Qed.

  (** *** The second locked section *)
  Lemma insert_present m s ids ents k v av :
    rep s ids ents -> In k (map fst ents) ->
    exists s', insert K V keq m s k v av = Some s' /\ rep s' ids ents /\
      s_full K V s' = s_full K V s /\ s_plain K V s' = s_plain K V s /\
      s_hits K V s' = s_hits K V s /\ s_misses K V s' = S (s_misses K V s).
  Proof.
    intros H Hin. unfold insert.
    destruct (dget (s_cache K V s) k) eqn:Hg.
    - eexists; split; [reflexivity|]. simpl. auto.
    - apply (rep_dget_none _ _ _ k H) in Hg. tauto.
  Qed.

  Lemma insert_full m s ids e0 ents k v av :
    rep s ids (e0 :: ents) -> ~ In k (map fst (e0 :: ents)) -> s_full K V s = true ->
    exists s' ids', insert K V keq m s k v av = Some s' /\ rep s' ids' (ents ++ [(k, v)]) /\
      s_full K V s' = true /\ s_plain K V s' = s_plain K V s /\
      s_hits K V s' = s_hits K V s /\ s_misses K V s' = S (s_misses K V s).
  Proof.
    intros H Hin Hf. unfold insert.
    pose proof H as H0.
    apply (rep_dget_none _ _ _ k H) in Hin as Hg. rewrite Hg, Hf.
    destruct H as (Hp & Hnd & Hal & H2 & Hnk & Hperm).
    inversion H2 as [|i0 e0' ids' ents' [Hk0 Hr0] H2']; subst.
    set (root := s_root K V s) in *. set (h0 := s_heap K V s) in *.
    destruct Hp as [[Hn0 Hp0] Hp].
    assert (Hri : root <> i0).
    { intros He. apply NoDup_cons_iff in Hnd. apply (proj1 Hnd). left; auto. }
    assert (Hne : nx (set_kr K V h0 root (Some k) (Some v)) root = i0).
    { unfold set_kr, hset. rewrite Nat.eqb_refl. simpl. auto. }
    rewrite Hne.
    assert (Hok : l_key K V (set_kr K V h0 root (Some k) (Some v) i0) = Some (fst e0)).
    { unfold set_kr, hset. destruct (Nat.eqb_spec i0 root); [congruence|]. auto. }
    rewrite Hok.
    destruct (ddel_In (s_cache K V s) (fst e0) i0) as (d' & Hd & Hpd).
    { eapply rep_nodup_cache; eauto. }
    { rewrite Hperm. simpl. auto. }
    rewrite Hd.
    eexists _, (ids' ++ [root]). split; [reflexivity|]. simpl.
    assert (Hpd' : Permutation d' (combine (map fst ents) ids')).
    { rewrite Hpd in Hperm. simpl in Hperm. eapply Permutation_cons_inv; eauto. }
    assert (Hlen : length ids' = length ents) by (eapply Forall2_length; eauto).
    assert (Hkd : ~ In k (map fst d')).
    { rewrite Hpd', combine_fst by (now rewrite map_length).
      intro HH; apply Hin; right; auto. }
    apply NoDup_cons_iff in Hnd as Hnd0. destruct Hnd0 as [Hroot Hnd1].
    apply NoDup_cons_iff in Hnd1 as Hnd2. destruct Hnd2 as [Hi0 Hnd2].
    split; [|auto].
    repeat split; simpl.
    - apply path_app. split.
      + eapply path_frame; [| |exact Hp]; intros a _; heap_simpl.
      + split; heap_simpl.
    - constructor.
      + rewrite in_app_iff. simpl. intros [Q|[Q|[]]]; auto.
      + rewrite <- Permutation_cons_append. constructor; auto.
        intro Q; apply Hroot; right; auto.
    - rewrite Forall_cons_iff in *. destruct Hal as [Ha1 Ha2].
      apply Forall_cons_iff in Ha2. destruct Ha2 as [Ha2 Ha3].
      split; auto. apply Forall_app; auto.
    - apply Forall2_app.
      + clear - H2' Hi0 Hroot.
        assert (Hr' : ~ In root ids') by (intro Q; apply Hroot; right; auto).
        clear Hroot.
        induction H2' as [|i e ids ents Hie H2' IH]; constructor.
        * simpl in Hi0, Hr'. unfold set_kr, hset.
          destruct (Nat.eqb_spec i i0); [subst; tauto|].
          destruct (Nat.eqb_spec i root); [subst; tauto|]. auto.
        * apply IH; simpl in *; tauto.
      + constructor; auto. unfold set_kr, hset.
        destruct (Nat.eqb_spec root i0); [congruence|].
        rewrite Nat.eqb_refl. simpl. auto.
    - rewrite map_app. simpl. rewrite <- Permutation_cons_append. simpl in Hnk, Hin.
      apply NoDup_cons_iff in Hnk. constructor; tauto.
    - rewrite dset_new by auto. rewrite map_app; simpl.
      rewrite combine_app by (now rewrite map_length). simpl.
      apply Permutation_app_tail; auto.
  Qed.

  Lemma insert_append m s ids ents k v av :
    rep s ids ents -> ~ In k (map fst ents) -> s_full K V s = false ->
    exists s' ids', insert K V keq m s k v av = Some s' /\ rep s' ids' (ents ++ [(k, v)]) /\
      s_full K V s' = now_full m (S (length ents)) av /\ s_plain K V s' = s_plain K V s /\
      s_hits K V s' = s_hits K V s /\ s_misses K V s' = S (s_misses K V s).
  Proof.
    intros H Hin Hf. unfold insert.
    pose proof (rep_cache_len _ _ _ H) as Hclen.
    apply (rep_dget_none _ _ _ k H) in Hin as Hg. rewrite Hg, Hf.
    pose proof Hg as Hg'. apply dget_None in Hg'.
    pose proof (rep_lengths _ _ _ H) as Hlen.
    destruct H as (Hp & Hnd & Hal & H2 & Hnk & Hperm).
    set (root := s_root K V s) in *. set (h0 := s_heap K V s) in *.
    set (i := s_alloc K V s) in *.
    assert (Hni : ~ In i (root :: ids)).
    { intros Q. rewrite Forall_forall in Hal. apply Hal in Q. lia. }
    assert (Hri : root <> i) by (intros He; apply Hni; left; auto).
    assert (Hlast : pv h0 root <> i).
    { destruct (path_snoc_inv _ _ _ _ Hp) as [[Hem [_ Hb]]|(l' & q & Hq & _ & [_ Hb])]; rewrite Hb.
      - auto.
      - intros ->. apply Hni. right. rewrite Hq. apply in_app_iff; simpl; auto. }
    eexists _, (ids ++ [i]). split; [reflexivity|]. simpl.
    rewrite dset_new by auto. rewrite app_length; simpl. rewrite Hclen.
    split; [|replace (length ents + 1) with (S (length ents)) by lia; auto].
    repeat split; simpl.
    - eapply (ring_insert h0); eauto.
      + intros a Ha Hb. heap_simpl.
      + intros a Ha Hb. heap_simpl.
      + heap_simpl.
      + heap_simpl.
      + heap_simpl.
      + heap_simpl.
    - rewrite app_comm_cons. rewrite <- Permutation_cons_append. constructor; auto.
    - rewrite app_comm_cons. apply Forall_app. split; [|constructor; auto; lia].
      eapply Forall_impl; [|exact Hal]. simpl. intros; lia.
    - apply Forall2_app.
      + assert (Hii : ~ In i ids) by (intro Q; apply Hni; right; auto).
        clear - H2 Hii. induction H2 as [|a e l es Hae H2 IH]; constructor.
        * simpl in Hii. heap_simpl. subst; tauto.
        * apply IH. simpl in Hii; tauto.
      + constructor; auto. simpl. heap_simpl.
    - rewrite map_app. simpl. rewrite <- Permutation_cons_append. constructor; auto.
    - rewrite map_app; simpl. rewrite combine_app by (now rewrite map_length). simpl.
      apply Permutation_app_tail; auto.
  Qed.

  Lemma rep_clear s ids ents : rep s ids ents -> rep (clear K V s) [] [].
  Proof.
    intros (Hp & Hnd & Hal & _). unfold clear, rep; simpl.
    split; [|split; [|split; [|split; [|split]]]]; try (constructor; fail).
    - split; heap_simpl.
    - repeat constructor. auto.
    - inversion Hal; subst. constructor; auto.
  Qed.

  Lemma rep_init : rep (init K V) [] [].
  Proof.
    unfold init, rep; simpl.
    split; [|split; [|split; [|split; [|split]]]]; try (constructor; fail).
    - split; auto.
    - repeat constructor. auto.
    - constructor; auto.
  Qed.

  (** ** One complete call, seen on the entry list *)
  Definition without (k : K) (ents : list (K * V)) : list (K * V) :=
    filter (fun e => if keq (fst e) k then false else true) ents.

  (* (entries, full) -> (entries', full', ran, outcome) *)
  Definition astep (m : mode) (ents : list (K * V)) (full : bool) (a : A) (av : Z)
    : list (K * V) * bool * bool * (V + E) :=
    match dget ents (mk a) with
    | Some v => (without (mk a) ents ++ [(mk a, v)], full, false, inl v)
    | None =>
        match f a with
        | inr e => (ents, full, true, inr e)
        | inl v => if full then (tl ents ++ [(mk a, v)], true, true, inl v)
                   else (ents ++ [(mk a, v)], now_full m (S (length ents)) av, true, inl v)
        end
    end.

  Lemma without_split e1 k v e2 :
    NoDup (map fst (e1 ++ (k, v) :: e2)) -> without k (e1 ++ (k, v) :: e2) = e1 ++ e2.
  Proof.
    intros H. unfold without. rewrite filter_app; simpl.
    destruct (keq k k) as [_|]; [|congruence].
    rewrite map_app in H; simpl in H. apply NoDup_remove in H. destruct H as [_ H].
    rewrite in_app_iff in H.
    f_equal.
    - assert (H1 : ~ In k (map fst e1)) by tauto. clear H.
      induction e1 as [|[k' v'] e1 IH]; simpl in *; auto.
      destruct (keq k' k); [subst; tauto|]. rewrite IH; tauto.
    - assert (H1 : ~ In k (map fst e2)) by tauto. clear H.
      induction e2 as [|[k' v'] e2 IH]; simpl in *; auto.
      destruct (keq k' k); [subst; tauto|]. rewrite IH; tauto.
  Qed.

  Definition is_ret (o : V + E) : bool := match o with inl _ => true | inr _ => false end.

  Lemma call_locked m s ids ents a av :
    locked m -> rep s ids ents -> (s_full K V s = true -> ents <> []) ->
    exists s' ids' ents' full' ran o,
      call A K V E keq mk f m s a av = Some (s', ran, o) /\
      astep m ents (s_full K V s) a av = (ents', full', ran, o) /\
      rep s' ids' ents' /\ s_full K V s' = full' /\ (full' = true -> ents' <> []) /\
      s_hits K V s' = s_hits K V s + (if ran then 0 else 1) /\
      s_misses K V s' = s_misses K V s + (if ran && is_ret o then 1 else 0).
  Proof.
    intros Hm Hrep Hfull. unfold astep.
    assert (Hcall : call A K V E keq mk f m s a av =
      match lookup K V keq s (mk a) with
        | (s', Some v) => Some (s', false, inl v)
        | (s', None) =>
            match f a with
            | inr e => Some (s', true, inr e)
            | inl v =>
                match insert K V keq m s' (mk a) v av with
                | Some s'' => Some (s'', true, inl v)
                | None => None
                end
            end
        end) by (destruct m; simpl in Hm; try tauto; reflexivity).
    rewrite Hcall; clear Hcall.
    destruct (dget ents (mk a)) as [v|] eqn:Hg.
    - apply dget_In in Hg. apply in_split in Hg. destruct Hg as (e1 & e2 & He).
      destruct (lookup_hit s ids ents e1 (mk a) v e2 Hrep He)
        as (s' & ids' & Hl & Hr & Hf & _ & Hh & Hmi).
      rewrite Hl.
      assert (Hw : without (mk a) ents = e1 ++ e2).
      { subst ents. apply without_split. apply Hrep. }
      exists s', ids', (without (mk a) ents ++ [(mk a, v)]), (s_full K V s), false, (inl v).
      rewrite Hw, <- app_assoc. simpl.
      repeat match goal with |- _ /\ _ => split end; auto; try lia.
      intros _ Q; destruct e1; destruct e2; discriminate.
    - apply dget_None in Hg. rewrite (lookup_miss s ids ents (mk a) Hrep Hg).
      destruct (f a) as [v|e] eqn:Hfa.
      + destruct (s_full K V s) eqn:Hf.
        * destruct ents as [|e0 ents]; [exfalso; apply Hfull; auto|].
          destruct (insert_full m s ids e0 ents (mk a) v av Hrep Hg Hf)
            as (s' & ids' & -> & Hr & Hf' & _ & Hh & Hmi).
          eexists s', ids', _, _, _, _. 
          repeat match goal with |- _ /\ _ => split end; try reflexivity; try eassumption;
            simpl; try lia.
          intros _ Q; destruct ents; discriminate.
        * destruct (insert_append m s ids ents (mk a) v av Hrep Hg Hf)
            as (s' & ids' & -> & Hr & Hf' & _ & Hh & Hmi).
          eexists s', ids', _, _, _, _. 
          repeat match goal with |- _ /\ _ => split end; try reflexivity; try eassumption;
            simpl; try lia.
          intros _ Q; destruct ents; discriminate.
      + eexists s, ids, _, _, _, _. 
        repeat match goal with |- _ /\ _ => split end; try reflexivity; try eassumption;
          simpl; lia.
  Qed.

  (** ** Recency *)
  Notation distinct := (distinct keq).
  Notation uses := (uses mk f).

  Definition rem (k : K) (l : list K) : list K :=
    filter (fun y => if keq k y then false else true) l.

  Lemma distinct_cons k l : distinct (k :: l) = k :: rem k (distinct l).
  Proof. reflexivity. Qed.

  Lemma In_rem k x l : In x (rem k l) <-> In x l /\ x <> k.
  Proof.
    unfold rem. rewrite filter_In. destruct (keq k x); intuition congruence.
  Qed.
  Lemma In_distinct x l : In x (distinct l) <-> In x l.
  Proof.
    induction l as [|k l IH]; [tauto|]. rewrite distinct_cons; simpl.
    rewrite In_rem, IH. destruct (keq x k); intuition congruence.
  Qed.
  Lemma NoDup_distinct l : NoDup (distinct l).
  Proof.
    induction l as [|k l IH]; [constructor|]. rewrite distinct_cons. constructor.
    - rewrite In_rem; tauto.
    - apply NoDup_filter; auto.
  Qed.
  Lemma rem_notin k l : ~ In k l -> rem k l = l.
  Proof.
    induction l as [|x l IH]; simpl; auto. intros H.
    destruct (keq k x); [subst; tauto|]. f_equal. apply IH; tauto.
  Qed.
  Lemma rem_length k l : NoDup l -> In k l -> S (length (rem k l)) = length l.
  Proof.
    induction l as [|x l IH]; simpl; [tauto|]. intros Hnd Hin.
    apply NoDup_cons_iff in Hnd. destruct (keq k x).
    - subst. fold (rem x l). rewrite rem_notin; tauto.
    - simpl. f_equal. apply IH; [tauto|]. intuition congruence.
  Qed.

  Lemma firstn_In_aux c (D : list K) x : In x (firstn c D) -> In x D.
  Proof.
    intros H. rewrite <- (firstn_skipn c D). apply in_app_iff; auto.
  Qed.

  (* the c most recent keys: hit *)
  Lemma firstn_rem_in k c D : NoDup D -> In k (firstn c D) ->
    firstn (c - 1) (rem k D) = rem k (firstn c D).
  Proof.
    revert D; induction c as [|c IH]; intros [|x D]; simpl; try tauto.
    intros Hnd Hin. apply NoDup_cons_iff in Hnd. rewrite Nat.sub_0_r.
    destruct (keq k x).
    - subst. fold (rem x D). rewrite (rem_notin x D) by tauto.
      fold (rem x (firstn c D)). rewrite rem_notin; auto.
      intros Q. apply (firstn_In_aux c D x) in Q. tauto.
    - destruct Hin as [Hin|Hin]; [congruence|].
      destruct c as [|c]; [simpl in Hin; tauto|]. simpl.
      f_equal. fold (rem k D). specialize (IH D). simpl in IH. rewrite Nat.sub_0_r in IH.
      rewrite IH; tauto.
  Qed.

  (* the c most recent keys: miss *)
  Lemma firstn_rem_notin k c D : ~ In k (firstn c D) ->
    forall c', c' <= c -> firstn c' (rem k D) = firstn c' D \/ length D <= c.
  Proof.
    revert D; induction c as [|c IH]; intros D Hin c' Hc.
    - left. replace c' with 0 by lia. reflexivity.
    - destruct D as [|x D]; [left; destruct c'; reflexivity|].
      simpl in Hin. simpl (rem k (x :: D)). destruct (keq k x); [subst; tauto|].
      destruct c' as [|c']; [left; reflexivity|].
      destruct (IH D) with (c' := c') as [H|H]; [tauto|lia| |].
      + left. simpl. fold (rem k D). rewrite H; auto.
      + right. simpl. lia.
  Qed.
  Lemma firstn_rem_notin' k c D : ~ In k (firstn c D) ->
    firstn c (rem k D) = firstn c D.
  Proof.
    intros H. destruct (firstn_rem_notin k c D H c) as [Q|Q]; auto.
    rewrite firstn_all2 in H by lia. rewrite rem_notin; auto.
  Qed.
End P.
