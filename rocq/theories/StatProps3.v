(** Averages, medians, quantiles and their errors: C77, C79. *)
From Coq Require Import Reals Lra Lia Bool Arith ZArith Permutation Sorted List.
From Verif Require Import XR StatModel SplitProps StatProps StatProps2.
Import ListNotations.
Local Open Scope R_scope.

(** ** Sorting *)
Lemma insert_perm x l : Permutation (insert x l) (x :: l).
Proof. induction l as [|y l IH]; simpl; [auto|]. destruct (Rle_dec x y); [auto|]. rewrite IH. apply perm_swap. Qed.
Lemma sort_perm l : Permutation (sort l) l.
Proof. induction l as [|x l IH]; [constructor|]. simpl. fold (sort l). rewrite insert_perm. now constructor. Qed.
Lemma insert_sorted x l : Sorted Rle l -> Sorted Rle (insert x l).
Proof.
  induction 1 as [|y l HS IH HR]; simpl; [repeat constructor|]. destruct (Rle_dec x y) as [L|L]; [constructor; [constructor; assumption | now constructor]|].
  constructor; [exact IH|]. destruct l as [|z l]; simpl; [constructor; lra|]. destruct (Rle_dec x z); constructor; [lra | now inversion HR].
Qed.
Lemma sort_sorted l : Sorted Rle (sort l).
Proof. induction l as [|x l IH]; [constructor|]. apply insert_sorted, IH. Qed.
Lemma sort_length l : length (sort l) = length l.
Proof. apply Permutation_length, sort_perm. Qed.
Lemma sorted_perm_eq l l' : Sorted Rle l -> Sorted Rle l' -> Permutation l l' -> l = l'.
Proof.
  intros H H'. apply Sorted_StronglySorted in H; [|intros a b c; apply Rle_trans]. apply Sorted_StronglySorted in H'; [|intros a b c; apply Rle_trans].
  revert l' H'. induction H as [|a l HS IH HF]; intros l' H' HP; [symmetry; now apply Permutation_nil|].
  destruct l' as [|b l']; [apply Permutation_sym, Permutation_nil in HP; discriminate|]. inversion H' as [|? ? HS' HF']; subst.
  assert (a = b).
  { rewrite Forall_forall in HF, HF'. assert (Ha : In a (b :: l')) by (apply (Permutation_in _ HP); now left). assert (Hb : In b (a :: l)) by (apply (Permutation_in _ (Permutation_sym HP)); now left).
    destruct Ha as [->|Ha]; [reflexivity|]. destruct Hb as [->|Hb]; [reflexivity|]. apply HF in Hb. apply HF' in Ha. lra. }
  subst b. f_equal. apply IH; [exact HS' | now apply Permutation_cons_inv in HP].
Qed.
Lemma sort_invariant l l' : Permutation l l' -> sort l = sort l'.
Proof. intros H. apply sorted_perm_eq; try apply sort_sorted. now rewrite !sort_perm. Qed.

(** ** C77 *)
(** Independent of the code: x lies between the smallest and the largest value of l. *)
Definition within (l : list R) (x : R) : Prop := exists a b, In a l /\ In b l /\ a <= x <= b.
(** The order of the objects does not matter. *)
Theorem C77_order z z' : Permutation z z' -> median_quantile z = median_quantile z' /\ sem z = sem z'.
Proof.
  intros H. pose proof (Permutation_length H) as HL.
  assert (Hm : mean z = mean z') by (unfold mean; rewrite HL, (rsum_perm _ _ H); reflexivity).
  assert (Hs : std1 z = std1 z').
  { unfold std1. rewrite HL. destruct (Nat.leb (length z') 1); [reflexivity|]. rewrite Hm. do 3 f_equal. apply rsum_perm, Permutation_map, H. }
  assert (Hq : forall q, quantile q z = quantile q z') by (intros q; unfold quantile; now rewrite HL, (sort_invariant _ _ H)).
  assert (Hd : median z = median z') by (unfold median; now rewrite HL, (sort_invariant _ _ H)).
  destruct z as [|a z], z' as [|b z']; try discriminate HL; [split; reflexivity|].
  unfold median_quantile, sem. now rewrite Hm, Hs, !Hq, Hd, HL.
Qed.
Print Assumptions C77_order.
(** A single NaN triple exactly for an empty bin. *)
Theorem C77_empty z : (fst (fst (median_quantile z)) = NaN <-> z = []) /\ (fst (fst (sem z)) = NaN <-> z = []).
Proof. destruct z; simpl; split; split; intros; congruence. Qed.
Print Assumptions C77_empty.
Lemma nth_sort_in z i : (i < length z)%nat -> In (nth i (sort z) 0) z.
Proof. intros H. apply (Permutation_in _ (sort_perm z)), nth_In. now rewrite sort_length. Qed.
Lemma sort_mono z i j : (i <= j < length z)%nat -> nth i (sort z) 0 <= nth j (sort z) 0.
Proof. intros H. apply sorted_nth; [apply sort_sorted | now rewrite sort_length]. Qed.
Lemma floor_facts x : 0 <= x -> INR (Z.to_nat (Int_part x)) <= x < INR (Z.to_nat (Int_part x)) + 1.
Proof.
  intros H. destruct (base_Int_part x) as [H1 H2]. assert (0 <= Int_part x)%Z.
  { assert (IZR (Int_part x) > -1) by lra. assert (-1 < Int_part x)%Z by (apply lt_IZR; simpl; lra). lia. }
  rewrite INR_IZR_INZ, Z2Nat.id by assumption. lra.
Qed.
Lemma floor_unique x k : INR k <= x < INR k + 1 -> Z.to_nat (Int_part x) = k.
Proof.
  intros H. assert (0 <= x) by (pose proof (pos_INR k); lra). pose proof (floor_facts x ltac:(lra)) as H'. set (j := Z.to_nat _) in *.
  assert (INR j < INR (S k)) by (rewrite S_INR; lra). assert (INR k < INR (S j)) by (rewrite S_INR; lra).
  assert (A : (j < S k)%nat) by now apply INR_lt. assert (B : (k < S j)%nat) by now apply INR_lt. lia.
Qed.
(** The value at a position between two ranks. *)
Definition interp (z : list R) (pos : R) : R :=
  let k := Z.to_nat (Int_part pos) in
  nth k (sort z) 0 + (pos - INR k) * (nth (Nat.min (S k) (length z - 1)) (sort z) 0 - nth k (sort z) 0).
Lemma interp_between z pos : z <> [] -> 0 <= pos <= INR (length z - 1) ->
  let k := Z.to_nat (Int_part pos) in (k <= length z - 1)%nat /\ nth k (sort z) 0 <= interp z pos <= nth (Nat.min (S k) (length z - 1)) (sort z) 0.
Proof.
  intros Hz Hp k. assert (HL : (1 <= length z)%nat) by (destruct z; [congruence | simpl; lia]).
  destruct (floor_facts pos ltac:(lra)) as [H1 H2]. fold k in H1, H2.
  assert (Hk : (k <= length z - 1)%nat) by (apply INR_le; lra). split; [exact Hk|].
  unfold interp. fold k. pose proof (sort_mono z k (Nat.min (S k) (length z - 1)) ltac:(lia)) as HM.
  set (a := nth k (sort z) 0) in *. set (b := nth (Nat.min _ _) (sort z) 0) in *. clearbody a b. nra.
Qed.
Lemma interp_mono z p p' : z <> [] -> 0 <= p -> p <= p' -> p' <= INR (length z - 1) -> interp z p <= interp z p'.
Proof.
  intros Hz H0 H1 H2. destruct (interp_between z p Hz ltac:(lra)) as [K B]. destruct (interp_between z p' Hz ltac:(lra)) as [K' B'].
  destruct (floor_facts p ltac:(lra)) as [F1 F2]. destruct (floor_facts p' ltac:(lra)) as [F3 F4].
  set (k := Z.to_nat (Int_part p)) in *. set (k' := Z.to_nat (Int_part p')) in *.
  assert (Hkk : (k < S k')%nat) by (apply INR_lt; rewrite S_INR; lra). assert (HL : (1 <= length z)%nat) by (destruct z; [congruence | simpl; lia]).
  destruct (Nat.eq_dec k k') as [E|E].
  - unfold interp. fold k k'. rewrite <- E. pose proof (sort_mono z k (Nat.min (S k) (length z - 1)) ltac:(lia)). nra.
  - pose proof (sort_mono z (Nat.min (S k) (length z - 1)) k' ltac:(lia)). lra.
Qed.
Lemma INR_len_pos (z : list R) : z <> [] -> 0 < INR (length z).
Proof. intros H. apply lt_0_INR. destruct z; [congruence | simpl; lia]. Qed.
Lemma median_interp z : z <> [] -> median z = quantile (1 / 2) z.
Proof.
  intros Hz. assert (HL : (1 <= length z)%nat) by (destruct z; [congruence | simpl; lia]). unfold median, quantile. destruct (Nat.even (length z)) eqn:E.
  - apply Nat.even_spec in E. destruct E as [h Eh]. assert (Hd : (length z / 2 = h)%nat) by (rewrite Eh, Nat.mul_comm; apply Nat.div_mul; lia).
    assert (Hpos : 1 / 2 * INR (length z - 1) = INR (h - 1) + 1 / 2) by (rewrite !minus_INR, Eh, mult_INR by lia; simpl; lra).
    rewrite Hpos, (floor_unique _ (h - 1)) by lra. rewrite Hd. rewrite Nat.min_l by lia. replace (S (h - 1)) with h by lia. lra.
  - assert (Ho : Nat.odd (length z) = true) by (unfold Nat.odd; now rewrite E). apply Nat.odd_spec in Ho. destruct Ho as [h Eh].
    assert (Hd : (length z / 2 = h)%nat) by (rewrite Eh; symmetry; apply (Nat.div_unique _ _ _ 1); lia).
    assert (Hpos : 1 / 2 * INR (length z - 1) = INR h) by (replace (length z - 1)%nat with (2 * h)%nat by lia; rewrite mult_INR; simpl; lra).
    rewrite Hpos, (floor_unique _ h) by lra. rewrite Hd. lra.
Qed.
Lemma quantile_pos q (z : list R) : 0 <= q <= 1 -> 0 <= q * INR (length z - 1) <= INR (length z - 1).
Proof. intros H. pose proof (pos_INR (length z - 1)). nra. Qed.
Lemma quantile_mono q q' z : z <> [] -> 0 <= q -> q <= q' -> q' <= 1 -> quantile q z <= quantile q' z.
Proof.
  intros Hz H0 H1 H2. pose proof (pos_INR (length z - 1)). pose proof (quantile_pos q z ltac:(lra)). pose proof (quantile_pos q' z ltac:(lra)).
  apply (interp_mono z (q * INR (length z - 1)) (q' * INR (length z - 1)) Hz); nra.
Qed.
Lemma quantile_within q z : z <> [] -> 0 <= q <= 1 -> within z (quantile q z).
Proof.
  intros Hz Hq. assert (HL : (1 <= length z)%nat) by (destruct z; [congruence | simpl; lia]).
  destruct (interp_between z _ Hz (quantile_pos q z Hq)) as [K B]. eexists _, _. split; [|split]; [| |exact B]; apply nth_sort_in; lia.
Qed.
(** Rank property: at most half of the values are below, at most half above the median. *)
Definition count (f : R -> bool) (l : list R) : nat := length (filter f l).
Definition below (x : R) : R -> bool := fun y => if Rlt_dec y x then true else false.
Definition above (x : R) : R -> bool := fun y => if Rlt_dec x y then true else false.
Lemma count_perm f l l' : Permutation l l' -> count f l = count f l'.
Proof. unfold count. induction 1; simpl; auto; [destruct (f x); simpl; lia | destruct (f x), (f y); reflexivity | lia]. Qed.
Lemma count_app f l l' : count f (l ++ l') = (count f l + count f l')%nat.
Proof. unfold count. now rewrite filter_app, app_length. Qed.
Lemma count_le f l : (count f l <= length l)%nat.
Proof. unfold count. induction l; simpl; [lia|]. destruct (f a); simpl; lia. Qed.
Lemma count_none f l : (forall x, In x l -> f x = false) -> count f l = 0%nat.
Proof. unfold count. induction l as [|a l IH]; intros H; [reflexivity|]. simpl. rewrite (H a (or_introl eq_refl)). apply IH. intros x Hx. apply H. now right. Qed.
Lemma count_split f z k : (forall i, (k <= i < length z)%nat -> f (nth i (sort z) 0) = false) -> (count f z <= k)%nat.
Proof.
  intros H. rewrite <- (count_perm f _ _ (sort_perm z)), <- (firstn_skipn k (sort z)), count_app, (count_none f (skipn k (sort z))).
  - pose proof (count_le f (firstn k (sort z))). rewrite firstn_length in *. lia.
  - intros x Hx. destruct (In_nth _ _ 0 Hx) as (i & Hi & <-). rewrite skipn_length, sort_length in Hi. rewrite nth_skipn'. apply H. lia.
Qed.
Lemma count_split_hi f z k : (forall i, (i < k)%nat -> (i < length z)%nat -> f (nth i (sort z) 0) = false) -> (count f z <= length z - k)%nat.
Proof.
  intros H. rewrite <- (count_perm f _ _ (sort_perm z)), <- (firstn_skipn k (sort z)), count_app, (count_none f (firstn k (sort z))).
  - pose proof (count_le f (skipn k (sort z))). rewrite skipn_length, sort_length in *. lia.
  - intros x Hx. destruct (In_nth _ _ 0 Hx) as (i & Hi & <-). rewrite firstn_length, sort_length in Hi. rewrite nth_firstn' by lia. apply H; lia.
Qed.
Theorem C77_median z : z <> [] ->
  within z (median z) /\ (2 * count (below (median z)) z <= length z)%nat /\ (2 * count (above (median z)) z <= length z)%nat.
Proof.
  intros Hz. split; [rewrite median_interp by exact Hz; apply quantile_within; [exact Hz | lra]|].
  assert (HL : (1 <= length z)%nat) by (destruct z; [congruence | simpl; lia]). unfold median. destruct (Nat.even (length z)) eqn:E.
  - apply Nat.even_spec in E. destruct E as [h Eh]. assert (Hd : (length z / 2 = h)%nat) by (rewrite Eh, Nat.mul_comm; apply Nat.div_mul; lia). rewrite Hd.
    pose proof (sort_mono z (h - 1) h ltac:(lia)) as HM. replace (length z / 2 - 1)%nat with (h - 1)%nat in * by lia. split.
    + set (md := (nth (h - 1) (sort z) 0 + nth h (sort z) 0) / 2) in *. assert (count (below md) z <= h)%nat; [|lia]. unfold md. apply count_split. intros i Hi.
      pose proof (sort_mono z h i ltac:(lia)). unfold below. destruct (Rlt_dec _ _); [lra | reflexivity].
    + set (md := (nth (h - 1) (sort z) 0 + nth h (sort z) 0) / 2) in *. assert (count (above md) z <= length z - h)%nat; [|lia]. unfold md. apply count_split_hi. intros i Hi Hl.
      pose proof (sort_mono z i (h - 1) ltac:(lia)). unfold above. destruct (Rlt_dec _ _); [lra | reflexivity].
  - assert (Ho : Nat.odd (length z) = true) by (unfold Nat.odd; now rewrite E). apply Nat.odd_spec in Ho. destruct Ho as [h Eh].
    assert (Hd : (length z / 2 = h)%nat) by (rewrite Eh; symmetry; apply (Nat.div_unique _ _ _ 1); lia). rewrite Hd. split.
    + assert (count (below (nth h (sort z) 0%R)) z <= h)%nat; [|lia]. apply count_split. intros i Hi.
      pose proof (sort_mono z h i ltac:(lia)). unfold below. destruct (Rlt_dec _ _); [lra | reflexivity].
    + assert (count (above (nth h (sort z) 0%R)) z <= length z - S h)%nat; [|lia]. apply count_split_hi. intros i Hi Hl.
      pose proof (sort_mono z i h ltac:(lia)). unfold above. destruct (Rlt_dec _ _); [lra | reflexivity].
Qed.
Print Assumptions C77_median.
(** The quartiles are within the data and on either side of the median. *)
Theorem C77_quartiles z : z <> [] -> within z (quantile (1/4) z) /\ within z (quantile (3/4) z) /\ quantile (1/4) z <= median z <= quantile (3/4) z.
Proof.
  intros Hz. split; [apply quantile_within; [exact Hz | lra]|]. split; [apply quantile_within; [exact Hz | lra]|].
  rewrite median_interp by exact Hz. split; apply quantile_mono; trivial; lra.
Qed.
Print Assumptions C77_quartiles.
Lemma rsum_bounds l a b : (forall x, In x l -> a <= x <= b) -> INR (length l) * a <= rsum l <= INR (length l) * b.
Proof.
  induction l as [|x l IH]; intros H; [unfold rsum; simpl; lra|]. specialize (IH (fun y Hy => H y (or_intror Hy))). specialize (H x (or_introl eq_refl)).
  change (length (x :: l)) with (S (length l)). rewrite S_INR. unfold rsum in *. simpl. lra.
Qed.
Theorem C77_mean z : z <> [] -> within z (mean z) /\ rsum (map (fun x => x - mean z) z) = 0.
Proof.
  intros Hz. pose proof (INR_len_pos z Hz) as HN. assert (HL : (1 <= length z)%nat) by (destruct z; [congruence | simpl; lia]). split.
  - exists (nth 0 (sort z) 0), (nth (length z - 1) (sort z) 0). split; [apply nth_sort_in; lia|]. split; [apply nth_sort_in; lia|].
    destruct (rsum_bounds z (nth 0 (sort z) 0) (nth (length z - 1) (sort z) 0)) as [H1 H2].
    { intros x Hx. apply (Permutation_in _ (Permutation_sym (sort_perm z))) in Hx. destruct (In_nth _ _ 0 Hx) as (i & Hi & <-). rewrite sort_length in Hi. split; apply sort_mono; lia. }
    unfold mean. assert (E : rsum z / INR (length z) * INR (length z) = rsum z) by (field; lra). split; apply (Rmult_le_reg_r (INR (length z))); lra.
  - assert (H : forall c l, rsum (map (fun x => x - c) l) = rsum l - INR (length l) * c).
    { intros c l. induction l as [|x l IH]; [unfold rsum; simpl; lra|]. change (length (x :: l)) with (S (length l)). rewrite S_INR. unfold rsum in *. simpl. rewrite IH. lra. }
    rewrite H. unfold mean. field. lra.
Qed.
Print Assumptions C77_mean.
Example C77_ex : median [3; 1; 2] = 2 /\ median [4; 1; 2; 3] = 5 / 2 /\ mean [3; 1; 2] = 2 /\ Permutation [3; 1; 2] [1; 2; 3].
Proof.
  assert (S3 : sort [3; 1; 2] = [1; 2; 3]).
  { apply sorted_perm_eq; [apply sort_sorted | repeat constructor; lra |]. rewrite sort_perm. apply (Permutation_cons_app [1; 2] [] 3). reflexivity. }
  assert (S4 : sort [4; 1; 2; 3] = [1; 2; 3; 4]).
  { apply sorted_perm_eq; [apply sort_sorted | repeat constructor; lra |]. rewrite sort_perm. apply (Permutation_cons_app [1; 2; 3] [] 4). reflexivity. }
  unfold median, mean. rewrite S3, S4. cbn. repeat split; try lra. apply (Permutation_cons_app [1; 2] [] 3). reflexivity.
Qed.

(** ** C79: the error vanishes exactly without scatter *)
Definition no_scatter (z : list R) : Prop := forall x y, In x z -> In y z -> x = y.
Theorem C79_sem z m lo hi : (2 <= length z)%nat -> sem z = (m, lo, hi) ->
  exists e, lo = Fin e /\ hi = Fin e /\ 0 <= e /\ (e = 0 <-> no_scatter z).
Proof.
  intros HL H. assert (Hz : z <> []) by (intros ->; simpl in HL; lia). pose proof (INR_len_pos z Hz) as HN.
  assert (HN1 : 0 < INR (length z) - 1) by (assert (2 <= INR (length z)) by (change 2 with (INR 2); apply le_INR, HL); lra).
  assert (Hsq : 0 < sqrt (INR (length z))) by now apply sqrt_lt_R0.
  set (ss := rsum (map (fun x => (x - mean z) * (x - mean z)) z)).
  assert (Hss : Forall (fun x => 0 <= x) (map (fun x => (x - mean z) * (x - mean z)) z)) by (apply Forall_forall; intros x Hx; apply in_map_iff in Hx; destruct Hx as (y & <- & _); apply Rle_0_sqr).
  assert (Hs0 : 0 <= ss) by now apply rsum_nonneg.
  assert (Hstd : std1 z = Fin (sqrt (ss / (INR (length z) - 1)))).
  { unfold std1. destruct (Nat.leb_spec (length z) 1); [lia | reflexivity]. }
  assert (He : sem z = (Fin (mean z), Fin (sqrt (ss / (INR (length z) - 1)) / sqrt (INR (length z))), Fin (sqrt (ss / (INR (length z) - 1)) / sqrt (INR (length z))))).
  { unfold sem. destruct z as [|a z']; [congruence|]. rewrite Hstd. cbn [xdiv]. destruct (Req_EM_T _ 0) as [E|_]; [lra | reflexivity]. }
  rewrite He in H. set (e := sqrt (ss / (INR (length z) - 1)) / sqrt (INR (length z))) in *. exists e.
  assert (Hq : 0 <= ss / (INR (length z) - 1)) by (apply Rmult_le_pos; [exact Hs0 | left; now apply Rinv_0_lt_compat]).
  split; [congruence|]. split; [congruence|]. split; [apply Rmult_le_pos; [apply sqrt_pos | left; now apply Rinv_0_lt_compat]|]. split.
  - intros E. assert (E1 : sqrt (ss / (INR (length z) - 1)) = 0).
    { unfold e in E. apply (Rmult_eq_reg_r (/ sqrt (INR (length z)))); [unfold Rdiv in E; lra | apply Rinv_neq_0_compat; lra]. }
    apply sqrt_eq_0 in E1; [|exact Hq]. assert (E2 : ss = 0) by (apply (Rmult_eq_reg_r (/ (INR (length z) - 1))); [unfold Rdiv in E1; lra | apply Rinv_neq_0_compat; lra]).
    assert (HA : forall x, In x z -> x = mean z).
    { intros x Hx. pose proof (rsum_zero _ Hss E2 ((x - mean z) * (x - mean z)) ltac:(apply in_map_iff; eauto)) as E3. apply Rmult_integral in E3. lra. }
    intros x y Hx Hy. rewrite (HA x Hx), (HA y Hy). reflexivity.
  - intros Hn. assert (Hm : forall x, In x z -> x = mean z).
    { intros x Hx. destruct (C77_mean z Hz) as [(a & b & Ha & Hb & Hab) _]. pose proof (Hn x a Hx Ha). pose proof (Hn x b Hx Hb). lra. }
    assert (E : ss = 0).
    { unfold ss. rewrite (map_ext_in _ (fun _ => 0)); [clear; induction z; [reflexivity|]; unfold rsum in *; simpl; lra|]. intros x Hx. rewrite <- (Hm x Hx). ring. }
    unfold e. rewrite E. unfold Rdiv. rewrite Rmult_0_l, sqrt_0. ring.
Qed.
Print Assumptions C79_sem.
(** A bin with one object has a NaN error. *)
Theorem C79_sem_single x : sem [x] = (Fin x, NaN, NaN).
Proof. unfold sem, mean, std1, rsum. simpl. f_equal. f_equal. f_equal. field. Qed.
Print Assumptions C79_sem_single.
(** 'median_quantile', the method of the shape and density plots: equal values c get the error c / sqrt N. *)
Theorem C79_partial z c : z <> [] -> (forall x, In x z -> x = c) ->
  median_quantile z = (Fin c, Fin (c / sqrt (INR (length z))), Fin (c / sqrt (INR (length z)))).
Proof.
  intros Hz H. assert (E : forall x, within z x -> x = c) by (intros x (a & b & Ha & Hb & Hab); rewrite (H a Ha), (H b Hb) in Hab; lra).
  assert (EM := E _ (proj1 (C77_median z Hz))). destruct (C77_quartiles z Hz) as (Q1 & Q3 & _). apply E in Q1, Q3.
  unfold median_quantile. destruct z; [congruence|]. now rewrite EM, Q1, Q3.
Qed.
Print Assumptions C79_partial.
Theorem C79_refuted : ~ (forall z m lo hi, (2 <= length z)%nat -> no_scatter z -> median_quantile z = (m, lo, hi) -> lo = Fin 0 /\ hi = Fin 0).
Proof.
  intros H. destruct (H [1; 1] _ _ _ ltac:(simpl; lia) ltac:(intros x y; simpl; intuition lra) (C79_partial [1; 1] 1 ltac:(discriminate) ltac:(intros x; simpl; intuition lra))) as [E _].
  assert (E' : 1 / sqrt (INR 2) = 0) by (simpl length in E; congruence). assert (0 < sqrt (INR 2)) by (apply sqrt_lt_R0; simpl; lra).
  assert (0 < 1 / sqrt (INR 2)) by (apply Rdiv_lt_0_compat; lra). lra.
Qed.
Print Assumptions C79_refuted.
(** Nor is the upper error the distance to the upper quartile: it grows with the values themselves. *)
Theorem C79_no_shift_invariance : exists z c lo hi lo' hi', median_quantile z = (Fin (median z), Fin lo, Fin hi) /\
  median_quantile (map (fun x => x + c) z) = (Fin (median z + c), Fin lo', Fin hi') /\ lo <> lo' /\ hi <> hi'.
Proof.
  assert (0 < sqrt (INR 2)) by (apply sqrt_lt_R0; simpl; lra).
  pose proof (C79_partial [1; 1] 1 ltac:(discriminate) ltac:(intros x; simpl; intuition lra)) as P1.
  pose proof (C79_partial (map (fun x => x + 1) [1; 1]) 2 ltac:(discriminate) ltac:(intros x; simpl; intuition lra)) as P2.
  assert (M : median [1; 1] = 1) by (unfold median_quantile in P1; congruence).
  exists [1; 1], 1, (1 / sqrt (INR 2)), (1 / sqrt (INR 2)), (2 / sqrt (INR 2)), (2 / sqrt (INR 2)). rewrite M, P1. split; [reflexivity|].
  split; [rewrite P2; cbn [map length]; do 3 f_equal; lra|]. assert (0 < 1 / sqrt (INR 2)) by (apply Rdiv_lt_0_compat; lra).
  assert (2 / sqrt (INR 2) = 1 / sqrt (INR 2) + 1 / sqrt (INR 2)) by (unfold Rdiv; ring). split; lra.
Qed.
Print Assumptions C79_no_shift_invariance.
Example C79_ex : no_scatter [5; 5] /\ exists e, sem [5; 5] = (Fin 5, Fin e, Fin e) /\ e = 0.
Proof.
  assert (Hn : no_scatter [5; 5]) by (intros x y; simpl; intuition lra). split; [exact Hn|].
  destruct (sem [5; 5]) as [[m lo] hi] eqn:E. destruct (C79_sem [5; 5] m lo hi ltac:(simpl; lia) E) as (e & -> & -> & _ & He). exists e. split; [|now apply He].
  assert (m = Fin (mean [5; 5])) as -> by (unfold sem in E; congruence). do 3 f_equal. unfold mean, rsum. simpl. lra.
Qed.
