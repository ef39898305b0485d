(** calcObjCat: both parallel loops, any schedule. *)
From Coq Require Import List ZArith Bool Lia Permutation.
From Verif Require Import ListUtil ParModel ParProofs CatModel CatSpec CatProofs.
Import ListNotations.
Close Scope Z_scope.

Lemma firstn_S_nth l p : p < length l ->
  list_sum (firstn (S p) l) = list_sum (firstn p l) + nth p l 0.
Proof.
  revert p; induction l as [|x l IH]; intros p Hp; simpl in Hp; [lia|].
  destruct p; simpl; [lia|]. specialize (IH p ltac:(lia)). simpl in IH. lia.
Qed.

Lemma sum_prefix l p : p <= length l ->
  list_sum (map (fun q => nth q l 0) (seq 0 p)) = list_sum (firstn p l).
Proof.
  induction p as [|p IH]; intros Hp; [reflexivity|].
  rewrite seq_S, map_app, list_sum_app', IH, firstn_S_nth by lia. simpl. lia.
Qed.

Lemma compr_seq (f : nat -> bool) N :
  map (fun p => length (filter f (seq 0 p))) (filter f (seq 0 N)) =
  seq 0 (length (filter f (seq 0 N))).
Proof.
  induction N as [|N IH]; [reflexivity|].
  rewrite seq_S, filter_app. simpl. destruct (f N); simpl.
  - rewrite map_app, app_length, IH. simpl. rewrite Nat.add_1_r, seq_S. reflexivity.
  - rewrite app_nil_r. exact IH.
Qed.

Lemma nth_map_seq {B} (f : nat -> B) d N p : p < N -> nth p (map f (seq 0 N)) d = f p.
Proof.
  intros Hp. rewrite (nth_indep _ d (f 0)) by (rewrite map_length, seq_length; lia).
  rewrite map_nth, seq_nth by lia. reflexivity.
Qed.

Lemma take_map {X} (l : list X) d idxs : Forall (fun i => i < length l) idxs ->
  take l idxs = Some (map (fun i => nth i l d) idxs).
Proof.
  induction 1 as [|i is Hi His IH]; [reflexivity|]. simpl.
  rewrite (nth_error_nth' l d Hi), IH. reflexivity.
Qed.

Lemma nonzero_filter l : nonzero l = filter (fun p => negb (Nat.eqb (nth p l 0) 0)) (seq 0 (length l)).
Proof.
  unfold nonzero.
  assert (G : forall pre, map fst (filter (fun ix => negb (snd ix =? 0)) (combine (seq (length pre) (length l)) l)) =
     filter (fun p => negb (nth p (pre ++ l) 0 =? 0)) (seq (length pre) (length l))).
  { induction l as [|x l IH]; intros pre; [reflexivity|]. simpl.
    rewrite app_nth2, Nat.sub_diag by lia. simpl.
    specialize (IH (pre ++ [x])). rewrite app_length in IH. simpl in IH.
    rewrite Nat.add_1_r in IH. rewrite <- app_assoc in IH. simpl in IH.
    destruct (x =? 0); simpl; rewrite IH; reflexivity. }
  apply (G []).
Qed.

Lemma flat_map_nth {Y} (h : nat -> list Y) K :
  flat_map (fun i => h (nth i K 0)) (seq 0 (length K)) = flat_map h K.
Proof.
  assert (G : forall pre, flat_map (fun i => h (nth i (pre ++ K) 0)) (seq (length pre) (length K)) = flat_map h K).
  { induction K as [|x K IH]; intros pre; [reflexivity|]. simpl.
    rewrite app_nth2, Nat.sub_diag by lia. simpl. f_equal.
    specialize (IH (pre ++ [x])). rewrite app_length in IH. simpl in IH.
    rewrite Nat.add_1_r in IH. rewrite <- app_assoc in IH. exact IH. }
  apply (G []).
Qed.

Lemma flat_map_ext_in {X Y} (f g : X -> list Y) l :
  (forall a, In a l -> f a = g a) -> flat_map f l = flat_map g l.
Proof. induction l; simpl; intros H; auto. rewrite H, IHl; auto. Qed.

Lemma filter_ext_in' {X} (f g : X -> bool) l :
  (forall a, In a l -> f a = g a) -> filter f l = filter g l.
Proof. induction l; simpl; intros H; auto. rewrite H, IHl; auto. Qed.

Lemma list_max_ge l x : In x l -> x <= list_max l.
Proof. intros H. pose proof (list_max_le l (list_max l)) as [L _]. specialize (L (le_n _)).
  rewrite Forall_forall in L. auto. Qed.

Section Proofs.
  Variable A : Type.
  Variable zero : A.
  Notation mem := (mem loc (val A)).
  Notation act := (act loc (val A)).
  Notation runl := (runl loc (val A)).
  Notation within := (within loc (val A)).
  Notation upd := (upd A).
  Notation geti := (geti A).
  Notation I := (I A).
  Notation D := (D A).

  Lemma upd_same (m : mem) x v : upd m x v x = v.
  Proof. unfold CatModel.upd. destruct (loc_eq x x); congruence. Qed.
  Lemma upd_other (m : mem) x y v : y <> x -> upd m x v y = m y.
  Proof. unfold CatModel.upd. destruct (loc_eq y x); congruence. Qed.

  Lemma within_upd (F : loc -> Prop) x (v : mem -> val A) : F x ->
    (forall m m', (forall y, F y -> m y = m' y) -> v m = v m') ->
    within F (fun m => upd m x (v m)).
  Proof.
    intros HF Hv. split.
    - intros m y Hy. apply upd_other. intros ->. auto.
    - intros m m' He y Hy. unfold CatModel.upd. destruct (loc_eq y x); auto.
  Qed.

  Lemma within_if (F : loc -> Prop) (b : mem -> bool) a :
    (forall m m', (forall y, F y -> m y = m' y) -> b m = b m') -> within F a ->
    within F (fun m => if b m then a m else m).
  Proof.
    intros Hb [A1 A2]. split.
    - intros m y Hy. destruct (b m); auto.
    - intros m m' He y Hy. rewrite <- (Hb m m' He). destruct (b m); auto.
  Qed.

  Lemma geti_ext (F : loc -> Prop) x : F x ->
    forall m m' : mem, (forall y, F y -> m y = m' y) -> geti m x = geti m' x.
  Proof. intros HF m m' H. unfold CatModel.geti. rewrite (H x HF). reflexivity. Qed.

  Variable hs : list (halo A).
  Variable extra : list nat.
  Variable minp : Z.
  Definition nb_shs := map (fun h => length (h_subs h)) hs.
  Definition sh_len := concat (map h_subs hs) ++ extra.
  Definition fof_sizes := map h_fof hs.
  Definition group_r := map h_r hs.
  Let n := length hs.
  Let d0 : halo A := mkHalo [] 0 zero.
  Let hp p := nth p hs d0.

  Lemma nb_halos_n : nb_halos nb_shs = n.
  Proof. unfold nb_halos, nb_shs. apply map_length. Qed.

  Lemma at_shs p : p < n -> at_ nb_shs p = length (h_subs (hp p)).
  Proof.
    intros Hp. unfold at_, nb_shs, hp.
    change 0 with ((fun h => length (h_subs h)) d0). rewrite map_nth. reflexivity.
  Qed.

  Definition isum p := list_sum (firstn p nb_shs).
  Definition fsum p := list_sum (firstn p fof_sizes).

  Lemma sh_len_central p : p < n -> h_subs (hp p) <> [] -> at_ sh_len (isum p) = central (hp p).
  Proof.
    intros Hp Hne. unfold isum, nb_shs, sh_len, at_, central, hp.
    unfold hp in Hne. destruct (nth_split hs d0 Hp) as (l1 & l2 & E & El).
    destruct (h_subs (nth p hs d0)) as [|s ss] eqn:Es; [congruence|]. simpl.
    set (h := nth p hs d0) in *. clearbody h. clear Hp.
    subst hs. rewrite <- El. rewrite firstn_map. rewrite firstn_all2'.
    rewrite map_app, concat_app. simpl. rewrite Es.
    assert (Hl : list_sum (map (fun h => length (h_subs h)) l1) = length (concat (map h_subs l1))).
    { clear. induction l1; simpl; auto. rewrite app_length. lia. }
    rewrite Hl. rewrite <- app_assoc. rewrite app_nth2, Nat.sub_diag by lia. reflexivity.
  Qed.

  Definition passb p : bool := keep minp (hp p).

  Lemma passb_iff p : p < n ->
    passb p = (Nat.ltb 0 (at_ nb_shs p) && (minp <=? Z.of_nat (at_ sh_len (isum p)))%Z)%bool.
  Proof.
    intros Hp. unfold passb, keep. rewrite at_shs by auto.
    destruct (h_subs (hp p)) as [|s ss] eqn:E; [reflexivity|].
    rewrite sh_len_central by (auto; congruence). unfold central. rewrite E. reflexivity.
  Qed.

  (** Loop 1 *)
  Let own1 p x := x = LPass p \/ x = LSize p \/ x = LR200 p.
  Let priv t x := x = LIdxSum t \/ x = LStart t.

  Definition res1 p (x : loc) : val A :=
    match x with
    | LPass _ => I (if passb p then 1 else 0)
    | LSize _ => I (if passb p then central (hp p) else 0)
    | _ => D (h_r (hp p))
    end.

  Lemma within1 t p : Forall (within (fun x => own1 p x \/ priv t x))
    (body1 A zero nb_shs sh_len group_r minp t p).
  Proof.
    unfold body1.
    assert (HI : forall m m' : mem, (forall y, own1 p y \/ priv t y -> m y = m' y) ->
                 geti m (LIdxSum t) = geti m' (LIdxSum t)).
    { apply (geti_ext (fun y => own1 p y \/ priv t y)). right. left. reflexivity. }
    apply Forall_app. split.
    - destruct Nat.ltb; [|constructor].
      constructor; [|apply Forall_app; split].
      + apply within_upd; [right; left; reflexivity|]. reflexivity.
      + apply Forall_forall. intros a Ha. apply in_map_iff in Ha. destruct Ha as (q & <- & _).
        apply within_upd; [right; left; reflexivity|]. intros m m' He. rewrite (HI m m' He). reflexivity.
      + constructor; [|constructor; [|constructor]].
        * apply within_if; [intros m m' He; rewrite (HI m m' He); reflexivity|].
          apply within_upd; [left; left; reflexivity|reflexivity].
        * apply within_if; [intros m m' He; rewrite (HI m m' He); reflexivity|].
          apply within_upd; [left; right; left; reflexivity|].
          intros m m' He. rewrite (HI m m' He). reflexivity.
    - constructor; [|constructor]. apply within_upd; [left; right; right; reflexivity|reflexivity].
  Qed.

  Lemma sum_loop x0 (f : nat -> nat) l : forall k (m : mem), m x0 = I k ->
    runl (map (fun q m => upd m x0 (I (geti m x0 + f q))) l) m x0 = I (k + list_sum (map f l)) /\
    forall y, y <> x0 -> runl (map (fun q m => upd m x0 (I (geti m x0 + f q))) l) m y = m y.
  Proof.
    induction l as [|q l IH]; intros k m Hm; cbn [map].
    - simpl. rewrite Nat.add_0_r. auto.
    - assert (E : geti m x0 = k) by (unfold CatModel.geti; rewrite Hm; reflexivity).
      destruct (IH (k + f q) (upd m x0 (I (geti m x0 + f q)))) as [I1 I2].
      { rewrite upd_same, E. reflexivity. }
      split.
      + etransitivity; [exact I1|]. f_equal. simpl. lia.
      + intros y Hy. etransitivity; [apply I2; exact Hy|]. apply upd_other; auto.
  Qed.

  Lemma sum_loop0 x0 (f : nat -> nat) l (m : mem) :
    runl (map (fun q m => upd m x0 (I (geti m x0 + f q))) l) (upd m x0 (I 0)) x0 = I (list_sum (map f l)) /\
    forall y, y <> x0 ->
      runl (map (fun q m => upd m x0 (I (geti m x0 + f q))) l) (upd m x0 (I 0)) y = m y.
  Proof.
    destruct (sum_loop x0 f l 0 (upd m x0 (I 0)) (upd_same _ _ _)) as [S1 S2].
    split; [exact S1|]. intros y Hy. rewrite S2 by auto. apply upd_other; auto.
  Qed.

  Lemma isum_map p : p <= n -> list_sum (map (fun q => at_ nb_shs q) (seq 0 p)) = isum p.
  Proof. intros Hp. apply sum_prefix. unfold nb_shs. rewrite map_length. exact Hp. Qed.
  Lemma fsum_map p : p <= n -> list_sum (map (fun q => at_ fof_sizes q) (seq 0 p)) = fsum p.
  Proof. intros Hp. apply sum_prefix. unfold fof_sizes. rewrite map_length. exact Hp. Qed.

  Lemma body1_res t p (m : mem) : p < n ->
    m (LPass p) = I 0 -> m (LSize p) = I 0 ->
    forall x, own1 p x -> runl (body1 A zero nb_shs sh_len group_r minp t p) m x = res1 p x.
  Proof.
    intros Hp Hm1 Hm2. unfold body1.
    assert (Hr : nth p group_r zero = h_r (hp p)).
    { unfold group_r, hp. change zero with (h_r d0). apply map_nth. }
    rewrite Hr.
    assert (Hpre : exists m1 : mem,
      (forall x, runl (if Nat.ltb 0 (at_ nb_shs p) then
         (fun m => upd m (LIdxSum t) (I 0))
         :: map (fun q m => upd m (LIdxSum t) (I (geti m (LIdxSum t) + at_ nb_shs q))) (seq 0 p)
         ++ [ (fun m => if (minp <=? Z.of_nat (at_ sh_len (geti m (LIdxSum t))))%Z
                        then upd m (LPass p) (I 1) else m);
              (fun m => if (minp <=? Z.of_nat (at_ sh_len (geti m (LIdxSum t))))%Z
                        then upd m (LSize p) (I (at_ sh_len (geti m (LIdxSum t)))) else m) ]
       else []) m x = m1 x) /\
      m1 (LPass p) = I (if passb p then 1 else 0) /\
      m1 (LSize p) = I (if passb p then central (hp p) else 0)).
    { eexists. split; [reflexivity|].
      rewrite passb_iff by auto.
      destruct (Nat.ltb 0 (at_ nb_shs p)) eqn:E; [|simpl; auto].
      assert (Hne : h_subs (hp p) <> []).
      { rewrite at_shs in E by auto. destruct (h_subs (hp p)); [discriminate|congruence]. }
      change (?f :: ?l ++ ?r) with ((f :: l) ++ r). rewrite runl_app.
      set (m1 := runl _ m).
      destruct (sum_loop0 (LIdxSum t) (fun q => at_ nb_shs q) (seq 0 p) m) as [S1 S2].
      change (runl _ (upd m (LIdxSum t) (I 0))) with m1 in S1, S2.
      rewrite isum_map in S1 by lia.
      assert (G1 : geti m1 (LIdxSum t) = isum p) by (unfold CatModel.geti; rewrite S1; reflexivity).
      unfold ParModel.runl. cbn [fold_left]. rewrite G1.
      rewrite sh_len_central by auto. cbn [andb].
      destruct (minp <=? Z.of_nat (central (hp p)))%Z eqn:E2.
      - assert (G2 : geti (upd m1 (LPass p) (I 1)) (LIdxSum t) = isum p).
        { unfold CatModel.geti. rewrite upd_other by discriminate. rewrite S1. reflexivity. }
        rewrite G2, sh_len_central, E2 by auto.
        rewrite upd_same. rewrite upd_other by discriminate. rewrite upd_same. auto.
      - rewrite G1, sh_len_central, E2 by auto.
        rewrite !S2 by discriminate. auto. }
    destruct Hpre as (m1 & Hm & P1 & P2).
    intros x Hx. rewrite runl_app. unfold ParModel.runl at 1. cbn [fold_left].
    destruct Hx as [->|[->| ->]]; simpl.
    - rewrite upd_other by discriminate. rewrite Hm. exact P1.
    - rewrite upd_other by discriminate. rewrite Hm. exact P2.
    - apply upd_same.
  Qed.

  Lemma loop1 pr (m1 : mem) :
    prange loc (val A) n (body1 A zero nb_shs sh_len group_r minp) (mem0 A zero pr) m1 ->
    (forall p, p < n -> m1 (LPass p) = I (if passb p then 1 else 0) /\
                        m1 (LSize p) = I (if passb p then central (hp p) else 0) /\
                        m1 (LR200 p) = D (h_r (hp p))) /\
    (forall r k, m1 (LCat r k) = I 0).
  Proof.
    intros H.
    destruct (prange_spec loc (val A) n _ own1 priv res1 _ _
                (fun p q x Hpq _ _ Ho => ltac:(unfold own1 in *; intuition congruence))
                (fun s t x Hst Ho => ltac:(unfold priv in *; intuition congruence))
                (fun p t x _ Ho => ltac:(unfold own1, priv in *; intuition congruence))
                (fun t p _ => within1 t p)
                (fun t p m Hp Hm => body1_res t p m Hp (Hm _ (or_introl eq_refl))
                                       (Hm _ (or_intror (or_introl eq_refl)))) H) as [R1 R2].
    split.
    - intros p Hp. repeat split; rewrite (R1 p) by (auto; unfold own1; auto); reflexivity.
    - intros r k. rewrite R2; [reflexivity| |]; unfold own1, priv; intuition congruence.
  Qed.

  (** Loop 2 *)
  Section Loop2.
    Variable pass : list nat.
    Hypothesis Hpass : pass = map (fun p => if passb p then 1 else 0) (seq 0 n).
    Variables rows cols : nat.
    Hypothesis Hrows : rows = length (filter passb (seq 0 n)).
    Hypothesis Hcols : forall p, p < n -> passb p = true -> central (hp p) <= cols.

    Lemma at_pass p : p < n -> at_ pass p = if passb p then 1 else 0.
    Proof.
      intros Hp. unfold at_. rewrite Hpass.
      apply (nth_map_seq (fun p => if passb p then 1 else 0)). exact Hp.
    Qed.

    Definition crow p := length (filter passb (seq 0 p)).

    Lemma compr_crow p : p <= n -> idxs_compr pass p = crow p.
    Proof.
      intros Hp. unfold idxs_compr, crow. f_equal. apply filter_ext_in'.
      intros q Hq. apply in_seq in Hq. rewrite at_pass by lia. destruct (passb q); reflexivity.
    Qed.

    Lemma crow_mono p q : p < q -> passb p = true -> crow p < crow q.
    Proof.
      intros Hpq Hp. unfold crow. replace q with (p + S (q - p - 1)) by lia.
      rewrite seq_app, filter_app, app_length. simpl. rewrite Hp. simpl. lia.
    Qed.

    Let own2 p x := passb p = true /\ exists k, x = LCat (crow p) k.

    Lemma within2 t p : p < n -> Forall (within (fun x => own2 p x \/ priv t x))
      (body2 A nb_shs sh_len fof_sizes minp pass rows cols t p).
    Proof.
      intros Hp. unfold body2. rewrite at_pass by auto.
      destruct (passb p) eqn:Eb; [|constructor]. cbn [Nat.eqb].
      assert (HI : forall m m' : mem, (forall y, own2 p y \/ priv t y -> m y = m' y) ->
                   geti m (LIdxSum t) = geti m' (LIdxSum t)).
      { apply (geti_ext (fun y => own2 p y \/ priv t y)). right. left. reflexivity. }
      assert (HS : forall m m' : mem, (forall y, own2 p y \/ priv t y -> m y = m' y) ->
                   geti m (LStart t) = geti m' (LStart t)).
      { apply (geti_ext (fun y => own2 p y \/ priv t y)). right. right. reflexivity. }
      constructor; [apply within_upd; [right; left; reflexivity|reflexivity]|].
      constructor; [apply within_upd; [right; right; reflexivity|reflexivity]|].
      apply Forall_app. split.
      - apply Forall_forall. intros a Ha. apply in_flat_map in Ha.
        destruct Ha as (q & _ & [<-|[<-|[]]]).
        + apply within_upd; [right; left; reflexivity|]. intros m m' He. rewrite (HI m m' He). reflexivity.
        + apply within_upd; [right; right; reflexivity|]. intros m m' He. rewrite (HS m m' He). reflexivity.
      - unfold cshActs. apply Forall_forall. intros a Ha. apply in_map_iff in Ha.
        destruct Ha as (k & <- & _).
        apply (within_if _ (fun m => _)).
        + intros m m' He. rewrite (HI m m' He). reflexivity.
        + apply within_upd.
          * left. split; auto. exists k. rewrite compr_crow by lia. reflexivity.
          * intros m m' He. rewrite (HS m m' He). reflexivity.
    Qed.

    Lemma sum_loop2 t l : forall a b (m : mem), m (LIdxSum t) = I a -> m (LStart t) = I b ->
      let L := flat_map (fun q =>
             [ (fun m => upd m (LIdxSum t) (I (geti m (LIdxSum t) + at_ nb_shs q)));
               (fun m => upd m (LStart t) (I (geti m (LStart t) + at_ fof_sizes q))) ]) l in
      runl L m (LIdxSum t) = I (a + list_sum (map (fun q => at_ nb_shs q) l)) /\
      runl L m (LStart t) = I (b + list_sum (map (fun q => at_ fof_sizes q) l)) /\
      forall y, ~ priv t y -> runl L m y = m y.
    Proof.
      induction l as [|q l IH]; intros a b m Ha Hb L.
      - simpl. rewrite !Nat.add_0_r. auto.
      - unfold L. cbn [flat_map]. rewrite runl_app.
        set (m2 := runl _ m).
        assert (E1 : m2 (LIdxSum t) = I (a + at_ nb_shs q)).
        { unfold m2, ParModel.runl. cbn [fold_left]. rewrite upd_other by discriminate.
          rewrite upd_same. unfold CatModel.geti. rewrite Ha. reflexivity. }
        assert (E2 : m2 (LStart t) = I (b + at_ fof_sizes q)).
        { unfold m2, ParModel.runl. cbn [fold_left]. rewrite upd_same.
          unfold CatModel.geti. rewrite upd_other by discriminate. rewrite Hb. reflexivity. }
        destruct (IH _ _ m2 E1 E2) as (I1 & I2 & I3).
        split; [|split].
        + etransitivity; [exact I1|]. f_equal. simpl. lia.
        + etransitivity; [exact I2|]. f_equal. simpl. lia.
        + intros y Hy. rewrite I3 by auto. unfold m2, ParModel.runl. cbn [fold_left].
          rewrite !upd_other; [reflexivity| |]; intros ->; apply Hy; unfold priv; auto.
    Qed.

    Definition res2 (p : nat) (x : loc) : val A :=
      match x with
      | LCat _ k => I (if Nat.ltb k (central (hp p)) then fsum p + k else 0)
      | _ => I 0
      end.

    Lemma csh_loop row t p (m : mem) : p < n -> passb p = true -> row < rows ->
      m (LIdxSum t) = I (isum p) -> m (LStart t) = I (fsum p) ->
      forall k, m (LCat row k) = I 0 ->
      runl (cshActs A nb_shs sh_len minp rows cols row t p) m (LCat row k) =
      I (if Nat.ltb k (central (hp p)) then fsum p + k else 0).
    Proof.
      intros Hp Hb Hrow HI HS k Hk. unfold cshActs.
      pose proof Hb as Hb'. rewrite passb_iff in Hb' by auto. apply andb_true_iff in Hb'.
      destruct Hb' as [B1 B2].
      assert (Hne : h_subs (hp p) <> []).
      { rewrite at_shs in B1 by auto. destruct (h_subs (hp p)); [discriminate|congruence]. }
      match goal with |- runl (map ?g _) _ _ = _ => set (f := g) end.
      assert (Hf : forall j (m' : mem), m' (LIdxSum t) = I (isum p) -> m' (LStart t) = I (fsum p) -> j < cols ->
        forall y, f j m' y = if (if loc_eq y (LCat row j) then Nat.ltb j (central (hp p)) else false)
                             then I (fsum p + j) else m' y).
      { intros j m' H1 H2 Hj y. unfold f, CatModel.geti. rewrite H1, H2.
        rewrite B1, B2, sh_len_central by auto. cbn [andb].
        apply Nat.ltb_lt in Hrow. apply Nat.ltb_lt in Hj. rewrite Hrow, Hj, !andb_true_r.
        destruct (Nat.ltb j (central (hp p))).
        - unfold CatModel.upd. destruct (loc_eq y (LCat row j)); reflexivity.
        - destruct (loc_eq y (LCat row j)); reflexivity. }
      assert (G : forall N, N <= cols -> forall y,
         runl (map f (seq 0 N)) m y =
         match y with
         | LCat r j => if (Nat.eqb r row && Nat.ltb j N && Nat.ltb j (central (hp p)))%bool
                       then I (fsum p + j) else m y
         | _ => m y
         end).
      { induction N as [|N IH]; intros HN y.
        - simpl. destruct y; try reflexivity. rewrite andb_false_r. reflexivity.
        - rewrite seq_S, map_app, runl_app. simpl (map f [_]).
          unfold ParModel.runl at 1. cbn [fold_left].
          rewrite Hf; try (rewrite IH by lia; assumption); try lia.
          destruct (loc_eq y (LCat row N)) as [->|Hy].
          + rewrite Nat.eqb_refl. replace (Nat.ltb N (S N)) with true by (symmetry; apply Nat.ltb_lt; lia).
            cbn [andb]. destruct (Nat.ltb N (central (hp p))); [reflexivity|].
            rewrite IH by lia. rewrite Nat.eqb_refl. replace (Nat.ltb N N) with false
              by (symmetry; apply Nat.ltb_ge; lia). reflexivity.
          + rewrite IH by lia. destruct y as [| | |r j| |]; try reflexivity.
            destruct (Nat.eqb_spec r row) as [->|]; [|reflexivity]. cbn [andb].
            replace (Nat.ltb j (S N)) with (Nat.ltb j N); [reflexivity|].
            assert (j <> N) by congruence.
            destruct (Nat.ltb_spec j N), (Nat.ltb_spec j (S N)); auto; lia. }
      rewrite G by lia. rewrite Nat.eqb_refl, Hk. cbn [andb].
      destruct (Nat.ltb_spec k (central (hp p))) as [Hlt|Hge].
      - replace (Nat.ltb k cols) with true; [reflexivity|]. symmetry. apply Nat.ltb_lt.
        specialize (Hcols p Hp Hb). lia.
      - rewrite andb_false_r. reflexivity.
    Qed.

    Lemma crow_lt p : p < n -> passb p = true -> crow p < rows.
    Proof. intros Hp Hb. rewrite Hrows. apply crow_mono; auto. Qed.

    Lemma loop2 (m1 m2 : mem) : (forall r k, m1 (LCat r k) = I 0) ->
      prange loc (val A) n (body2 A nb_shs sh_len fof_sizes minp pass rows cols) m1 m2 ->
      forall p k, p < n -> passb p = true ->
        m2 (LCat (crow p) k) = I (if Nat.ltb k (central (hp p)) then fsum p + k else 0).
    Proof.
      intros Hm1 H p k Hp Hb.
      destruct (prange_spec loc (val A) n (body2 A nb_shs sh_len fof_sizes minp pass rows cols)
                  own2 priv res2 m1 m2) as [R1 _]; auto.
      - intros q1 q2 x Hq H1 H2 [B1 [k1 E1]] [B2 [k2 E2]]. rewrite E1 in E2. injection E2 as E2 _.
        destruct (Nat.lt_total q1 q2) as [Hl|[Hl|Hl]]; [|contradiction|].
        + pose proof (crow_mono q1 q2 Hl B1). lia.
        + pose proof (crow_mono q2 q1 Hl B2). lia.
      - unfold priv. intuition congruence.
      - intros q t x _ [_ [k1 ->]] [E|E]; discriminate.
      - intros t q Hq. apply within2; auto.
      - intros t q m Hq Hm x [B [k1 ->]]. unfold body2. rewrite at_pass, B by auto. cbn [Nat.eqb].
        match goal with |- runl (?f :: ?g :: ?l ++ ?r) m _ = _ =>
          change (f :: g :: l ++ r) with ([f; g] ++ l ++ r) end.
        rewrite !runl_app.
        match goal with |- runl _ (runl _ ?M) _ = _ => set (m3 := M) end.
        assert (E1 : m3 (LIdxSum t) = I 0).
        { unfold m3, ParModel.runl. cbn [fold_left]. rewrite upd_other by discriminate. apply upd_same. }
        assert (E2 : m3 (LStart t) = I 0).
        { unfold m3, ParModel.runl. cbn [fold_left]. apply upd_same. }
        destruct (sum_loop2 t (seq 0 q) 0 0 m3 E1 E2) as (S1 & S2 & S3).
        rewrite isum_map in S1 by lia. rewrite fsum_map in S2 by lia.
        rewrite compr_crow by lia.
        apply csh_loop; auto; [apply crow_lt; auto|].
        rewrite S3 by (unfold priv; intros [E|E]; discriminate).
        unfold m3, ParModel.runl. cbn [fold_left]. rewrite !upd_other by discriminate.
        rewrite Hm; [apply Hm1|]. split; eauto.
      - rewrite (R1 p); [reflexivity|auto|]. split; eauto.
    Qed.
  End Loop2.

  Lemma with_start_eq : forall l off (pre : list (halo A)),
    with_start off l =
    map (fun p => (off + list_sum (firstn (p - length pre) (map h_fof l)), nth p (pre ++ l) d0))
        (seq (length pre) (length l)).
  Proof.
    induction l as [|h l IH]; intros off pre; [reflexivity|].
    simpl. f_equal.
    - rewrite Nat.sub_diag, app_nth2, Nat.sub_diag by lia. simpl. f_equal. lia.
    - rewrite (IH _ (pre ++ [h])). rewrite app_length. simpl. rewrite Nat.add_1_r.
      apply map_ext_in. intros p Hp. apply in_seq in Hp. rewrite <- app_assoc. simpl. f_equal.
      replace (p - length pre) with (S (p - S (length pre))) by lia. simpl. lia.
  Qed.

  Lemma wanted_eq :
    wanted minp hs =
    let K := filter passb (seq 0 n) in
    (flat_map (fun p => seq (fsum p) (central (hp p))) K,
     map (fun p => h_r (hp p)) K, map (fun p => central (hp p)) K).
  Proof.
    unfold wanted. rewrite (with_start_eq hs 0 []). simpl (length []).
    rewrite filter_map. cbn [snd]. cbv zeta. rewrite !map_map. cbn [snd fst].
    match goal with |- (?a, ?b, ?c) = (?a', _, _) => replace a with a'; [reflexivity|] end.
    rewrite !flat_map_concat_map, map_map. f_equal. apply map_ext. intros p. cbn [fst snd].
    rewrite Nat.sub_0_r. reflexivity.
  Qed.

  Lemma calcObjCat_wanted out :
    calcObjCat A zero nb_shs sh_len fof_sizes group_r minp out ->
    out = match hs with [] => None | _ => Some (wanted minp hs) end.
  Proof.
    intros H. assert (Hsz : forall {B} (x y : B), n <> 0 -> match hs with [] => x | _ => y end = y).
    { unfold n. destruct hs; simpl; congruence. }
    inversion H as [E|pr m1 m2 sizes r200s Hne H1 pass rows cols H2 Hs Hr E]; clear H; subst out.
    - rewrite nb_halos_n in E. unfold n in E. destruct hs; [reflexivity|discriminate].
    - rewrite nb_halos_n in *. rewrite Hsz by auto. f_equal. rewrite wanted_eq. cbv zeta.
      destruct (loop1 _ _ H1) as [L1 L2].
      set (K := filter passb (seq 0 n)).
      assert (Hpass : pass = map (fun p => if passb p then 1 else 0) (seq 0 n)).
      { unfold pass, pass_of. rewrite nb_halos_n. apply map_ext_in. intros p Hp. apply in_seq in Hp.
        destruct (L1 p) as (E & _ & _); [lia|]. unfold CatModel.geti. rewrite E. reflexivity. }
      assert (Hsize : size_of A nb_shs m1 = map (fun p => if passb p then central (hp p) else 0) (seq 0 n)).
      { unfold size_of. rewrite nb_halos_n. apply map_ext_in. intros p Hp. apply in_seq in Hp.
        destruct (L1 p) as (_ & E & _); [lia|]. unfold CatModel.geti. rewrite E. reflexivity. }
      assert (Hr200 : r200_of A zero nb_shs m1 = map (fun p => h_r (hp p)) (seq 0 n)).
      { unfold r200_of. rewrite nb_halos_n. apply map_ext_in. intros p Hp. apply in_seq in Hp.
        destruct (L1 p) as (_ & _ & E); [lia|]. unfold getd. rewrite E. reflexivity. }
      assert (Hrows : rows = length K).
      { unfold rows, K. rewrite Hpass. clear. induction (seq 0 n) as [|p l IH]; [reflexivity|].
        simpl. destruct (passb p); simpl; congruence. }
      assert (Hcols : forall p, p < n -> passb p = true -> central (hp p) <= cols).
      { intros p Hp Hb. apply list_max_ge. rewrite Hsize. apply in_map_iff. exists p.
        rewrite Hb. split; auto. apply in_seq. lia. }
      assert (Hnz : nonzero pass = K).
      { assert (Hlp : length pass = n) by (rewrite Hpass, map_length, seq_length; reflexivity).
        rewrite nonzero_filter, Hlp.
        apply filter_ext_in'. intros p Hp. apply in_seq in Hp.
        change (nth p pass 0) with (at_ pass p). rewrite (at_pass pass Hpass) by lia.
        destruct (passb p); reflexivity. }
      assert (HK : forall p, In p K -> p < n /\ passb p = true).
      { unfold K. intros p Hp. apply filter_In in Hp. rewrite in_seq in Hp. split; [lia|tauto]. }
      assert (HKn : Forall (fun i => i < length (seq 0 n)) K).
      { apply Forall_forall. intros p Hp. rewrite seq_length. apply HK; auto. }
      assert (Hnth : forall {B} (f : nat -> B) (d : B) p, p < n -> nth p (map f (seq 0 n)) d = f p).
      { intros B f d p Hp. apply nth_map_seq; auto. }
      assert (Hsizes : sizes = map (fun p => central (hp p)) K).
      { rewrite Hnz, Hsize in Hs. rewrite (take_map _ 0) in Hs by (rewrite map_length; exact HKn).
        injection Hs as <-. apply map_ext_in. intros p Hp. destruct (HK p Hp) as [P1 P2].
        rewrite Hnth by auto. rewrite P2. reflexivity. }
      assert (Hr' : r200s = map (fun p => h_r (hp p)) K).
      { rewrite Hnz, Hr200 in Hr. rewrite (take_map _ zero) in Hr by (rewrite map_length; exact HKn).
        injection Hr as <-. apply map_ext_in. intros p Hp. destruct (HK p Hp) as [P1 P2].
        rewrite Hnth by auto. reflexivity. }
      rewrite Hsizes, Hr'.
      match goal with |- (?a, ?b, ?c) = (?a', _, _) => replace a with a'; [reflexivity|symmetry] end.
      rewrite fold_app_flat. simpl. rewrite Hrows.
      rewrite <- (flat_map_nth (fun p => seq (fsum p) (central (hp p))) K).
      apply flat_map_ext_in. intros i Hi. apply in_seq in Hi.
      set (p := nth i K 0).
      assert (HpK : In p K) by (apply nth_In; lia). destruct (HK p HpK) as [P1 P2].
      assert (Hci : crow p = i).
      { pose proof (compr_seq passb n) as C. fold K in C.
        assert (E : nth i (map (fun p => length (filter passb (seq 0 p))) K) 0 = nth i (seq 0 (length K)) 0)
          by (rewrite C; reflexivity).
        rewrite seq_nth in E by lia.
        rewrite (nth_indep _ 0 ((fun p => length (filter passb (seq 0 p))) 0)) in E
          by (rewrite map_length; lia).
        rewrite (map_nth (fun p => length (filter passb (seq 0 p)))) in E. exact E. }
      unfold at_. rewrite (nth_indep _ 0 ((fun p => central (hp p)) 0)) by (rewrite map_length; lia).
      rewrite (map_nth (fun p => central (hp p))). fold p.
      pose proof (loop2 pass Hpass rows cols Hrows Hcols m1 m2 L2 H2 p) as L.
      rewrite Hci in L. unfold slice. rewrite Nat.sub_0_r. simpl (skipn 0 _).
      specialize (Hcols p P1 P2).
      replace cols with (central (hp p) + (cols - central (hp p))) by lia.
      rewrite seq_app, map_app.
      rewrite firstn_app, map_length, seq_length, Nat.sub_diag. simpl (firstn 0 _). rewrite app_nil_r.
      rewrite firstn_all2 by (rewrite map_length, seq_length; lia).
      transitivity (map (fun k => fsum p + k) (seq 0 (central (hp p)))).
      + apply map_ext_in. intros k Hk. apply in_seq in Hk. unfold CatModel.geti. rewrite L by auto.
        replace (Nat.ltb k (central (hp p))) with true by (symmetry; apply Nat.ltb_lt; lia). reflexivity.
      + assert (G : forall c a z, map (fun k => a + k) (seq z c) = seq (a + z) c).
        { clear. induction c as [|c IH]; intros a z; [reflexivity|].
          simpl. f_equal. rewrite IH. f_equal. lia. }
        rewrite G, Nat.add_0_r. reflexivity.
  Qed.
End Proofs.
