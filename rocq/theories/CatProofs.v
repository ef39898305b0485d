(** Selections, sub-catalogues and the direct-input constructor. *)
From Coq Require Import List ZArith QArith Qround Bool Lia Permutation.
From Verif Require Import ListUtil CatModel CatSpec.
Import ListNotations.

(** ** Selections *)
Lemma np_round_int x : is_int x -> (x == inject_Z (np_round x))%Q.
Proof.
  intros [z Hz]. unfold np_round.
  assert (Hf : Qfloor x = z) by (rewrite (Qfloor_comp _ _ Hz); apply Qfloor_Z).
  rewrite Hf.
  assert (Hd : (x - inject_Z z == 0)%Q) by (rewrite Hz; ring).
  replace (Qle_bool (x - inject_Z z) (1 # 2)) with true.
  - replace (Qeq_bool (x - inject_Z z) (1 # 2)) with false; [exact Hz|].
    symmetry. apply not_true_iff_false. rewrite Qeq_bool_iff, Hd. discriminate.
  - symmetry. rewrite Qle_bool_iff, Hd. discriminate.
Qed.

Lemma np_round_iff x : Qeq_bool x (inject_Z (np_round x)) = true <-> is_int x.
Proof.
  rewrite Qeq_bool_iff. split; [intros H; eexists; exact H|apply np_round_int].
Qed.

Lemma filter_length0 {X} (f : X -> bool) l :
  Nat.eqb (length (filter (fun x => negb (f x)) l)) 0 = true <-> Forall (fun x => f x = true) l.
Proof.
  rewrite Nat.eqb_eq, length_zero_iff_nil. induction l as [|a l IH]; simpl.
  - split; auto.
  - destruct (f a) eqn:E; simpl.
    + rewrite IH. split; [auto|intros H; inversion H; auto].
    + split; [discriminate|]. intros H; inversion H; congruence.
Qed.

Lemma np_unique_le l : (length (np_unique l) <= length l)%nat.
Proof. induction l as [|a l IH]; simpl; auto. destruct existsb; simpl; lia. Qed.

Definition qdistinct (l : list Q) : Prop :=
  forall i j x y, nth_error l i = Some x -> nth_error l j = Some y -> (x == y)%Q -> i = j.

Lemma np_unique_iff l : length (np_unique l) = length l <-> qdistinct l.
Proof.
  induction l as [|a l IH]; simpl.
  - split; auto. intros _ [|i] j x y; discriminate.
  - destruct (existsb (Qeq_bool a) l) eqn:E.
    + split.
      * pose proof (np_unique_le l). lia.
      * intros H. apply existsb_exists in E. destruct E as (b & Hb & Eb).
        apply Qeq_bool_iff in Eb. apply In_nth_error in Hb. destruct Hb as (k & Hk).
        specialize (H 0%nat (S k) a b eq_refl Hk Eb). discriminate.
    + assert (Ha : forall b, In b l -> ~ (a == b)%Q).
      { intros b Hb Hab. assert (existsb (Qeq_bool a) l = true); [|congruence].
        apply existsb_exists. exists b. split; auto. apply Qeq_bool_iff; auto. }
      simpl. split.
      * intros H. injection H as H. apply IH in H.
        intros [|i] [|j] x y Hi Hj Hxy; simpl in Hi, Hj.
        -- reflexivity.
        -- injection Hi as <-. exfalso. eapply Ha; eauto using nth_error_In.
        -- injection Hj as <-. exfalso. eapply Ha; eauto using nth_error_In. symmetry; auto.
        -- f_equal. eapply H; eauto.
      * intros H. f_equal. apply IH. intros i j x y Hi Hj Hxy.
        specialize (H (S i) (S j) x y Hi Hj Hxy). lia.
Qed.

Lemma fold_max_lt n l x :
  (fold_left (fun m y => if Qle_bool m y then y else m) l x < n)%Q <->
  (x < n)%Q /\ Forall (fun y => (y < n)%Q) l.
Proof.
  revert x. induction l as [|a l IH]; intros x; simpl.
  - split; [auto|tauto].
  - rewrite IH. destruct (Qle_bool x a) eqn:E.
    + apply Qle_bool_iff in E. split.
      * intros [H1 H2]. repeat split; auto. eapply Qle_lt_trans; eauto.
      * intros [H1 H2]. inversion H2; auto.
    + split.
      * intros [H1 H2]. repeat split; auto. constructor; auto.
        eapply Qlt_trans; eauto. apply Qnot_le_lt. rewrite <- Qle_bool_iff. congruence.
      * intros [H1 H2]. inversion H2; auto.
Qed.

Lemma isValidSelection_ok l n : isValidSelection l n = inl true <-> legal l n.
Proof.
  unfold isValidSelection, legal.
  destruct (Nat.eqb (length l) 0) eqn:E0.
  { apply Nat.eqb_eq, length_zero_iff_nil in E0. subst. split; [discriminate|tauto]. }
  assert (Hne : l <> []) by (intros ->; discriminate).
  destruct (Nat.eqb (length (filter (fun x => negb (Qeq_bool x (inject_Z (np_round x)))) l)) 0) eqn:E1;
    simpl.
  2:{ split; [discriminate|]. intros (_ & H & _). exfalso.
      assert (X : Forall (fun x => Qeq_bool x (inject_Z (np_round x)) = true) l).
      { eapply Forall_impl; [|exact H]. intros a. apply np_round_iff. }
      apply filter_length0 in X. congruence. }
  destruct (Nat.eqb (length (filter (fun x => negb (Qle_bool 0 x)) l)) 0) eqn:E2; simpl.
  2:{ split; [discriminate|]. intros (_ & _ & _ & H). exfalso.
      assert (X : Forall (fun x => Qle_bool 0 x = true) l).
      { eapply Forall_impl; [|exact H]. intros a [Ha _]. apply Qle_bool_iff; auto. }
      apply filter_length0 in X. congruence. }
  destruct (Nat.eqb (length (np_unique l)) (length l)) eqn:E3; simpl.
  2:{ split; [discriminate|]. intros (_ & _ & H & _). exfalso.
      apply np_unique_iff in H. apply Nat.eqb_neq in E3. auto. }
  apply (filter_length0 (fun x => Qeq_bool x (inject_Z (np_round x)))) in E1.
  apply (filter_length0 (fun x => Qle_bool 0 x)) in E2.
  apply Nat.eqb_eq, np_unique_iff in E3.
  assert (Hmax : (np_max l < inject_Z n)%Q <-> Forall (fun x => (x < inject_Z n)%Q) l).
  { destruct l as [|a l']; [congruence|]. simpl. rewrite fold_max_lt. split.
    - intros [? ?]; auto.
    - intros H; inversion H; auto. }
  destruct (Qle_bool (inject_Z n) (np_max l)) eqn:E4.
  - split; [discriminate|]. intros (_ & _ & _ & H). exfalso.
    apply Qle_bool_iff in E4. apply (Qle_not_lt _ _ E4). apply Hmax.
    eapply Forall_impl; [|exact H]. simpl. tauto.
  - split; [intros _|reflexivity]. repeat split; auto.
    + eapply Forall_impl; [|exact E1]. intros a. apply np_round_iff.
    + assert (Hlt : Forall (fun x => (x < inject_Z n)%Q) l).
      { apply Hmax. apply Qnot_le_lt. rewrite <- Qle_bool_iff. congruence. }
      rewrite Forall_forall in *. intros x Hx. split; auto. apply Qle_bool_iff. auto.
Qed.

Lemma isValidSelection_total l n :
  isValidSelection l n = inl true \/ isValidSelection l n = inr CValueError.
Proof.
  unfold isValidSelection.
  destruct (Nat.eqb (length l) 0); [auto|].
  repeat (match goal with |- context [if negb ?b then _ else _] => destruct b; simpl; [|auto] end).
  destruct Qle_bool; auto.
Qed.

Lemma trunc_int z x : (x == inject_Z z)%Q -> trunc x = z.
Proof.
  intros H. unfold trunc. destruct Qle_bool.
  - rewrite (Qfloor_comp _ _ H). apply Qfloor_Z.
  - rewrite (Qceiling_comp _ _ H). apply Qceiling_Z.
Qed.

Lemma legal_ext l l' n : Forall2 Qeq l l' -> legal l n -> legal l' n.
Proof.
  intros HF (Hne & Hi & Hd & Hr). repeat split.
  - intros ->. inversion HF; subst. congruence.
  - clear - HF Hi. induction HF; auto. inversion Hi as [|? ? [z Hz] ?]; subst. constructor; auto.
    exists z. rewrite <- Hz. symmetry; auto.
  - assert (Hg : forall k y, nth_error l' k = Some y -> exists x, nth_error l k = Some x /\ (x == y)%Q).
    { clear - HF. induction HF; intros [|k] z Hk; simpl in *; try discriminate; eauto.
      injection Hk as <-. eauto. }
    intros i j x y Hx Hy Hxy. destruct (Hg _ _ Hx) as (x' & Hx' & E1).
    destruct (Hg _ _ Hy) as (y' & Hy' & E2). eapply Hd; eauto. rewrite E1, E2. auto.
  - clear - HF Hr. induction HF; auto. inversion Hr as [|? ? [H1 H2] ?]; subst. constructor; auto.
    rewrite <- H. auto.
Qed.

Lemma Forall2_sym_Qeq l l' : Forall2 Qeq l l' -> Forall2 Qeq l' l.
Proof. induction 1; constructor; auto. symmetry; auto. Qed.

Lemma trunc_list_eq l : Forall is_int l ->
  Forall2 Qeq l (map (fun x => inject_Z (trunc x)) l).
Proof.
  induction 1 as [|x l [z Hz] Hl IH]; simpl; constructor; auto.
  rewrite (trunc_int z x Hz). exact Hz.
Qed.

(** ** Slices, offsets *)
Lemma cumsum_nth : forall l acc p, (p < length l)%nat ->
  nth_error (cumsum acc l) p = Some (acc + list_sum (firstn (S p) l))%nat.
Proof.
  induction l as [|x l IH]; intros acc p Hp; simpl in Hp; [lia|].
  destruct p as [|p]; simpl.
  - f_equal. lia.
  - rewrite IH by lia. f_equal. simpl. destruct l; simpl; lia.
Qed.

Lemma cumsum_length acc l : length (cumsum acc l) = length l.
Proof. revert acc; induction l; simpl; auto. Qed.

Lemma offsets_nth l p : (p <= length l)%nat ->
  nth_error (0%nat :: cumsum 0 l) p = Some (list_sum (firstn p l)).
Proof.
  intros Hp. destruct p as [|p]; [reflexivity|].
  change (nth_error (0%nat :: cumsum 0 l) (S p)) with (nth_error (cumsum 0 l) p).
  rewrite cumsum_nth by lia. reflexivity.
Qed.

Lemma list_sum_lengths {X} (objs : list (list X)) :
  list_sum (map (@length X) objs) = length (concat objs).
Proof. induction objs; simpl; auto. rewrite app_length. lia. Qed.

Lemma list_sum_app' l m : list_sum (l ++ m) = (list_sum l + list_sum m)%nat.
Proof. induction l; simpl; lia. Qed.

Lemma skipn_all2' {X} (l1 l2 : list X) : skipn (length l1) (l1 ++ l2) = l2.
Proof. induction l1; simpl; auto. Qed.

Lemma firstn_all2' {X} (l1 l2 : list X) : firstn (length l1) (l1 ++ l2) = l1.
Proof. induction l1; simpl; auto. f_equal; auto. Qed.

Lemma slice_mid {X} (l1 l2 l3 : list X) :
  slice (length l1) (length l1 + length l2) (l1 ++ l2 ++ l3) = l2.
Proof.
  unfold slice. rewrite skipn_all2'. replace (_ - _)%nat with (length l2) by lia. apply firstn_all2'.
Qed.

Lemma slice_object {X} (objs : list (list X)) p o : nth_error objs p = Some o ->
  slice (list_sum (firstn p (map (@length X) objs)))
        (list_sum (firstn (S p) (map (@length X) objs))) (concat objs) = o.
Proof.
  intros H. apply nth_error_split in H. destruct H as (l1 & l2 & -> & <-).
  rewrite !firstn_map. rewrite firstn_all2'.
  replace (S (length l1)) with (length (l1 ++ [o])) by (rewrite app_length; simpl; lia).
  replace (l1 ++ o :: l2) with ((l1 ++ [o]) ++ l2) by (rewrite <- app_assoc; reflexivity).
  rewrite firstn_all2'. rewrite !list_sum_lengths. rewrite !concat_app. simpl. rewrite app_nil_r.
  rewrite app_length, <- app_assoc. apply slice_mid.
Qed.

Lemma fold_none {X} (f : nat -> option (list X)) sel :
  fold_left (fun acc p => match acc, f p with Some out, Some s => Some (out ++ s) | _, _ => None end)
     sel None = None.
Proof. induction sel; simpl; auto. Qed.

Lemma getSubSet_ok {X} (objs : list (list X)) sel chosen :
  Forall2 (fun p o => nth_error objs p = Some o) sel chosen ->
  getSubSetIdxCat (concat objs) (map (@length X) objs) sel = Some (concat chosen).
Proof.
  intros H. unfold getSubSetIdxCat.
  enough (G : forall acc,
    fold_left (fun acc p =>
      match acc, nth_error (0%nat :: cumsum 0 (map (@length X) objs)) p,
            nth_error (0%nat :: cumsum 0 (map (@length X) objs)) (p + 1) with
      | Some out, Some i, Some j => Some (out ++ slice i j (concat objs))
      | _, _, _ => None
      end) sel (Some acc) = Some (acc ++ concat chosen)) by apply (G []).
  induction H as [|p o sel chosen Hp HF IH]; intros acc; cbn [fold_left].
  - simpl. rewrite app_nil_r. reflexivity.
  - assert (Hl : (p < length objs)%nat) by (apply nth_error_Some; congruence).
    rewrite !offsets_nth by (rewrite map_length; lia).
    rewrite IH. simpl. rewrite app_assoc. do 3 f_equal.
    replace (p + 1)%nat with (S p) by lia. apply slice_object; auto.
Qed.

Lemma getSubSet_none_acc {X} (idx : list X) off sel :
  fold_left (fun acc p =>
      match acc, nth_error off p, nth_error off (p + 1) with
      | Some out, Some i, Some j => Some (out ++ slice i j idx)
      | _, _, _ => None
      end) sel None = None.
Proof. induction sel; simpl; auto. Qed.

Lemma getSubSet_bad {X} (idx : list X) sizes sel p :
  In p sel -> (length sizes <= p)%nat -> getSubSetIdxCat idx sizes sel = None.
Proof.
  unfold getSubSetIdxCat. intros Hin Hp.
  assert (Hoff : nth_error (0%nat :: cumsum 0 sizes) (p + 1) = None).
  { apply nth_error_None. simpl. rewrite cumsum_length. lia. }
  generalize (Some (@nil X)) as acc. revert Hin.
  induction sel as [|q sel IH]; intros Hin acc; [destruct Hin|]. cbn [fold_left].
  destruct Hin as [->|Hin]; [|apply IH; auto].
  match goal with |- fold_left _ _ ?z = _ => replace z with (@None (list X)) end.
  2:{ rewrite Hoff. destruct acc as [o|]; [|reflexivity]. destruct (nth_error (0%nat :: cumsum 0 sizes) p); reflexivity. }
  apply getSubSet_none_acc.
Qed.

(** ** Masks *)
Lemma take_nonzero_gen {X} (l : list X) : forall (pass : list nat) (pre : list X),
  length pass = length l ->
  take (pre ++ l) (map fst (filter (fun ix => negb (Nat.eqb (snd ix) 0))
                                   (combine (seq (length pre) (length pass)) pass))) =
  Some (map snd (filter (fun px => negb (Nat.eqb (fst px) 0)) (combine pass l))).
Proof.
  induction l as [|x l IH]; intros [|b pass] pre Hlen; simpl in Hlen; try lia; [reflexivity|].
  simpl. specialize (IH pass (pre ++ [x])). rewrite app_length in IH. simpl in IH.
  replace (length pre + 1)%nat with (S (length pre)) in IH by lia.
  rewrite <- app_assoc in IH. simpl in IH.
  destruct (Nat.eqb b 0) eqn:E; simpl.
  - apply IH. lia.
  - rewrite nth_error_app2, Nat.sub_diag by lia. simpl. rewrite IH by lia. reflexivity.
Qed.

Lemma take_nonzero {X} (l : list X) pass : length pass = length l ->
  take l (nonzero pass) =
  Some (map snd (filter (fun px => negb (Nat.eqb (fst px) 0)) (combine pass l))).
Proof. intros H. apply (take_nonzero_gen l pass []). exact H. Qed.

Lemma filter_map {X Y} (f : X -> Y) (p : Y -> bool) l :
  filter p (map f l) = map f (filter (fun x => p (f x)) l).
Proof. induction l; simpl; auto. destruct p; simpl; congruence. Qed.

Lemma combine_map_same {X Y Z} (f : X -> Y) (g : X -> Z) l :
  combine (map f l) (map g l) = map (fun x => (f x, g x)) l.
Proof. induction l; simpl; congruence. Qed.

Lemma fold_app_flat {X Y} (f : Y -> list X) l acc :
  fold_left (fun out p => out ++ f p) l acc = acc ++ flat_map f l.
Proof.
  revert acc; induction l as [|a l IH]; intros acc; simpl; [rewrite app_nil_r; auto|].
  rewrite IH, app_assoc. reflexivity.
Qed.

(** ** Constructor *)
Lemma cat_arr_gen (objs : list (list nat)) (pass : list nat) (b : list nat -> bool) :
  pass = map (fun o => if b o then 1%nat else 0%nat) objs ->
  forall acc, fold_left (fun acc p =>
            match nth_error pass p, nth_error objs p with
            | Some 1%nat, Some o => acc ++ o
            | _, _ => acc
            end) (seq 0 (length objs)) acc = acc ++ concat (filter b objs).
Proof.
  intros ->.
  set (F := fun p => match nth_error objs p with Some o => if b o then o else [] | None => [] end).
  intros acc.
  transitivity (fold_left (fun out p => out ++ F p) (seq 0 (length objs)) acc).
  - generalize (seq 0 (length objs)) as s. intros s. revert acc.
    induction s as [|p s IH]; intros acc; simpl; [reflexivity|].
    rewrite IH. f_equal. unfold F. rewrite nth_error_map.
    destruct (nth_error objs p) as [o|]; simpl; [|rewrite app_nil_r; auto].
    destruct (b o); [reflexivity|rewrite app_nil_r; auto].
  - rewrite fold_app_flat. f_equal. unfold F. clear.
    assert (G : forall pre, flat_map (fun p =>
       match nth_error (pre ++ objs) p with Some o => if b o then o else [] | None => [] end)
       (seq (length pre) (length objs)) = concat (filter b objs)).
    { induction objs as [|o objs IH]; intros pre; simpl; [reflexivity|].
      rewrite nth_error_app2, Nat.sub_diag by lia. simpl.
      specialize (IH (pre ++ [o])). rewrite app_length in IH. simpl in IH.
      replace (length pre + 1)%nat with (S (length pre)) in IH by lia.
      rewrite <- app_assoc in IH. simpl in IH. rewrite IH.
      destruct (b o); reflexivity. }
    apply (G []).
Qed.

Lemma construct_ok {A} (scale : A -> A) arg (objs : list (list nat)) (r : list A) minp :
  objects_of arg = objs -> objs <> [] -> length r = length objs ->
  construct_cat scale arg r minp =
  let kept := filter (fun or => (minp <=? Z.of_nat (length (fst or)))%Z) (combine objs r) in
  Some (concat (map fst kept), map (fun or => scale (snd or)) kept,
        map (fun or => length (fst or)) kept).
Proof.
  intros Harg Hne Hlen. unfold construct_cat.
  replace (match arg with Flat [] => None | Flat l => Some [l] | Nested [] => None
           | Nested l => Some l end) with (Some objs).
  2:{ destruct arg as [[|x l]|[|x l]]; simpl in Harg; subst; congruence. }
  set (b := fun o : list nat => (minp <=? Z.of_nat (length o))%Z).
  set (ps := map _ objs).
  assert (E1 : map fst ps = map (fun o => if b o then 1%nat else 0%nat) objs).
  { unfold ps. rewrite map_map. apply map_ext. intros o. unfold b. destruct Z.leb; reflexivity. }
  assert (E2 : map snd ps = map (fun o => if b o then length o else 0%nat) objs).
  { unfold ps. rewrite map_map. apply map_ext. intros o. unfold b. destruct Z.leb; reflexivity. }
  cbv zeta. rewrite (cat_arr_gen objs (map fst ps) b E1). simpl.
  rewrite E1, E2, !take_nonzero by (rewrite !map_length; lia).
  rewrite (combine_map_same (fun o => if b o then 1%nat else 0%nat)), filter_map.
  rewrite (map_map (fun x => (if b x then 1%nat else 0%nat, if b x then length x else 0%nat)) snd).
  cbn [fst snd].
  assert (Hgen : forall l (r : list A), length r = length l ->
    concat (filter b l) = concat (map fst (filter (fun or => b (fst or)) (combine l r))) /\
    map snd (filter (fun px => negb (Nat.eqb (fst px) 0))
               (combine (map (fun o => if b o then 1%nat else 0%nat) l) r)) =
      map snd (filter (fun or => b (fst or)) (combine l r)) /\
    map (fun o => if b o then length o else 0%nat)
        (filter (fun x => negb (Nat.eqb (if b x then 1%nat else 0%nat) 0)) l) =
      map (fun or => length (fst or)) (filter (fun or => b (fst or)) (combine l r))).
  { induction l as [|o l IH]; intros [|a r'] HL; simpl in HL; try lia; [auto|].
    destruct (IH r') as (I1 & I2 & I3); [lia|]. simpl. destruct (b o) eqn:Eb; simpl; try rewrite Eb.
    - rewrite I1, I2, I3. auto.
    - auto. }
  destruct (Hgen objs r Hlen) as (G1 & G2 & G3).
  rewrite G1, G2, G3, map_map. reflexivity.
Qed.
