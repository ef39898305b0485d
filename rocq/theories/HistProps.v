(** C113: what the histograms show. C114: which objects enter the histogram of local triaxialities. *)
From Coq Require Import List Reals Bool Arith Lia Lra ZArith.
From Verif Require Import XR GeoModel GeoSpec EpsModel EpsProps CutModel CutProps StatModel StatProps StatProps2 HistModel.
Import ListNotations.
Open Scope R_scope.

(** ** C113 *)
(** Independent of the code: bin i of n equal bins of [0, 1]; the last contains 1. *)
Definition in_bin (n i : nat) (r : R) : Prop := INR i / INR n <= r /\ (r < INR (S i) / INR n \/ (S i = n /\ r = 1)).
Definition in_binb (n i : nat) (v : xr) : bool :=
  match v with
  | Fin r => (if Rle_dec (INR i / INR n) r then true else false) &&
             ((if Rlt_dec r (INR (S i) / INR n) then true else false) || ((S i =? n)%nat && (if Req_EM_T r 1 then true else false)))
  | _ => false
  end.
Lemma in_binb_spec n i v : in_binb n i v = true <-> exists r, v = Fin r /\ in_bin n i r.
Proof.
  unfold in_bin. split.
  - destruct v as [r| | |]; try discriminate. unfold in_binb. intros H. exists r. split; [reflexivity|].
    destruct (Rle_dec (INR i / INR n) r); [|discriminate]. split; [assumption|]. cbn [andb] in H.
    apply orb_true_iff in H. destruct H as [H|H].
    + left. destruct (Rlt_dec r (INR (S i) / INR n)) as [L|L]; [exact L|discriminate].
    + right. apply andb_true_iff in H. destruct H as [H1 H2]. split; [now apply Nat.eqb_eq in H1|]. destruct (Req_EM_T r 1); [assumption|discriminate].
  - intros (r & -> & H1 & H2). unfold in_binb. destruct Rle_dec as [_|N]; [|contradiction]. cbn [andb]. apply orb_true_iff.
    destruct H2 as [H2|[H2 ->]].
    + left. destruct Rlt_dec; [reflexivity|contradiction].
    + right. rewrite (proj2 (Nat.eqb_eq _ _) H2). destruct Req_EM_T; [reflexivity|contradiction].
Qed.
Definition in01 (v : xr) : bool :=
  match v with Fin r => (if Rle_dec 0 r then true else false) && (if Rle_dec r 1 then true else false) | _ => false end.
(** What n bars of a normalised histogram of the values [x] should be: each bar has the share of the values of
    [0, 1] that lie in its bin, divided by the width 1/n; the area is 1. Without values there are no heights. *)
Definition shows (n : nat) (x bars : list xr) : Prop :=
  length bars = n /\
  (count in01 x = 0%nat -> bars = repeat NaN n) /\
  ((0 < count in01 x)%nat -> exists h, bars = map Fin h /\ rsum h * (1 / INR n) = 1 /\
     forall i, (i < n)%nat -> nth i h 0 = INR (count (in_binb n i) x) / INR (count in01 x) / (1 / INR n)).

Lemma floor_exists m : forall w, 0 <= w < INR m -> exists i, (i < m)%nat /\ INR i <= w < INR (S i).
Proof.
  induction m as [|m IH]; intros w H; [cbn in H; lra|].
  destruct (Rlt_dec w (INR m)) as [L|L].
  - destruct (IH w ltac:(lra)) as (i & Hi & Hw). exists i. split; [lia|exact Hw].
  - exists m. split; [lia|]. lra.
Qed.
Lemma in_bin_mul n i r : (0 < n)%nat -> in_bin n i r <-> INR i <= r * INR n /\ (r * INR n < INR (S i) \/ (S i = n /\ r = 1)).
Proof.
  intros Hn. assert (P : 0 < INR n) by now apply lt_0_INR. unfold in_bin.
  assert (A : forall k, INR k / INR n <= r <-> INR k <= r * INR n).
  { intros k. split; intros H.
    - apply (Rmult_le_compat_r (INR n)) in H; [|lra]. replace (INR k / INR n * INR n) with (INR k) in H by (field; lra). exact H.
    - apply (Rmult_le_reg_r (INR n)); [lra|]. replace (INR k / INR n * INR n) with (INR k) by (field; lra). exact H. }
  assert (B : forall k, r < INR k / INR n <-> r * INR n < INR k).
  { intros k. specialize (A k). destruct (Rlt_dec r (INR k / INR n)), (Rlt_dec (r * INR n) (INR k)); split; intros; try assumption; exfalso; destruct A; lra. }
  rewrite A, B. reflexivity.
Qed.
(** Every value of [0, 1] lies in exactly one of the n bins. *)
Theorem C113_bins n r : (0 < n)%nat -> 0 <= r <= 1 -> exists! i, (i < n)%nat /\ in_bin n i r.
Proof.
  intros Hn Hr. assert (P : 0 < INR n) by now apply lt_0_INR.
  destruct (Req_EM_T r 1) as [->|Hne].
  - exists (n - 1)%nat. split.
    + split; [lia|]. apply in_bin_mul; [exact Hn|]. rewrite Rmult_1_l. split; [apply le_INR; lia|]. right. split; [lia|reflexivity].
    + intros j [Hj Hb]. apply in_bin_mul in Hb; [|exact Hn]. rewrite Rmult_1_l in Hb. destruct Hb as [_ [H|[H _]]]; [|lia]. apply INR_lt in H. lia.
  - destruct (floor_exists n (r * INR n)) as (i & Hi & Hw); [split; [apply Rmult_le_pos; lra|]; nra|].
    exists i. split; [split; [exact Hi|]; apply in_bin_mul; [exact Hn|]; split; [lra|left; lra]|].
    intros j [Hj Hb]. apply in_bin_mul in Hb; [|exact Hn]. destruct Hb as [H1 [H2|[_ H2]]]; [|contradiction].
    assert (INR i < INR (S j)) by lra. assert (INR j < INR (S i)) by lra. apply INR_lt in H. apply INR_lt in H0. lia.
Qed.
Print Assumptions C113_bins.

Lemma diffs_map (c : nat -> nat) n : forall a, diffs (map c (seq a (S n))) = map (fun i => (c (S i) - c i)%nat) (seq a n).
Proof. induction n as [|n IH]; intros a; [reflexivity|]. specialize (IH (S a)). cbn [seq map] in *. cbn [diffs]. f_equal. exact IH. Qed.
Lemma rdiffs_map (c : nat -> R) n : forall a, rdiffs (map c (seq a (S n))) = map (fun i => c (S i) - c i) (seq a n).
Proof. induction n as [|n IH]; intros a; [reflexivity|]. specialize (IH (S a)). cbn [seq map] in *. cbn [rdiffs]. f_equal. exact IH. Qed.
Lemma count_sub (f g : xr -> bool) x : (forall v, f v = true -> g v = true) ->
  (count g x - count f x)%nat = count (fun v => g v && negb (f v)) x /\ (count f x <= count g x)%nat.
Proof.
  intros H. unfold count. induction x as [|v x IH]; [split; reflexivity|]. cbn [filter]. specialize (H v).
  destruct (f v) eqn:F; [rewrite H by reflexivity|destruct (g v)]; cbn [andb negb length]; lia.
Qed.
Lemma count_ext (f g : xr -> bool) x : (forall v, f v = g v) -> count f x = count g x.
Proof. intros H. unfold count. now rewrite (filter_ext f g H). Qed.

(** The test of edge i among 0..n. *)
Definition cum (n i : nat) (v : xr) : bool := if (i <? n)%nat then xltb v (Fin (INR i / INR n)) else xleb v (Fin 1).
Lemma cum_step n i v : (i < n)%nat -> (cum n i v = true -> cum n (S i) v = true) /\ cum n (S i) v && negb (cum n i v) = in_binb n i v.
Proof.
  intros Hi. assert (P : 0 < INR n) by (apply lt_0_INR; lia). unfold cum. rewrite (proj2 (Nat.ltb_lt i n) Hi).
  assert (E1 : forall k, (k <= n)%nat -> INR k / INR n <= 1).
  { intros k Hk. apply (Rmult_le_reg_r (INR n)); [lra|]. replace (INR k / INR n * INR n) with (INR k) by (field; lra). rewrite Rmult_1_l. now apply le_INR. }
  assert (E2 : INR i / INR n < INR (S i) / INR n).
  { apply Rmult_lt_compat_r; [now apply Rinv_0_lt_compat|]. apply lt_INR. lia. }
  destruct v as [r| | |].
  2:{ destruct (S i <? n)%nat; cbn; split; auto; discriminate. }
  2:{ destruct (S i <? n)%nat; cbn; split; auto; discriminate. }
  2:{ destruct (S i <? n)%nat; cbn; split; auto; discriminate. }
  unfold in_binb. pose proof (E1 i ltac:(lia)). pose proof (E1 (S i) ltac:(lia)).
  destruct (Nat.ltb_spec (S i) n) as [L|L].
  - destruct (Nat.eqb_spec (S i) n) as [E|_]; [lia|]. cbn [andb]. rewrite orb_false_r. cbn [xltb].
    destruct (Rlt_dec r (INR i / INR n)), (Rlt_dec r (INR (S i) / INR n)), (Rle_dec (INR i / INR n) r); cbn; split; auto; try lra; discriminate.
  - assert (S i = n) as E by lia. rewrite E, Nat.eqb_refl. cbn [andb xltb xleb].
    replace (INR n / INR n) with 1 by (field; lra).
    destruct (Rlt_dec r (INR i / INR n)), (Rle_dec r 1), (Rle_dec (INR i / INR n) r), (Rlt_dec r 1), (Req_EM_T r 1); cbn; split; auto; try lra; discriminate.
Qed.
Lemma edges_S n : linspace01 (S n) = map (fun k => INR k / INR n) (seq 0 n) ++ [INR n / INR n].
Proof. unfold linspace01. replace (S n - 1)%nat with n by lia. rewrite seq_S, map_app. reflexivity. Qed.
Lemma histogram_counts n x : (0 < n)%nat -> histogram (linspace01 (S n)) x = map (fun i => count (in_binb n i) x) (seq 0 n).
Proof.
  intros Hn. assert (P : 0 < INR n) by now apply lt_0_INR. unfold histogram. rewrite edges_S, removelast_last, last_last, map_map.
  transitivity (diffs (map (fun i => count (cum n i) x) (seq 0 (S n)))).
  - rewrite seq_S, map_app. cbn [map Nat.add]. f_equal. f_equal.
    + apply map_ext_in. intros i Hi. apply in_seq in Hi. apply count_ext. intros v. unfold cum. now rewrite (proj2 (Nat.ltb_lt i n) ltac:(lia)).
    + f_equal. apply count_ext. intros v. unfold cum. rewrite Nat.ltb_irrefl. do 2 f_equal. field. lra.
  - rewrite diffs_map. apply map_ext_in. intros i Hi. apply in_seq in Hi.
    destruct (count_sub (cum n i) (cum n (S i)) x) as [-> _]; [intros v; apply cum_step; lia|].
    apply count_ext. intros v. apply cum_step. lia.
Qed.
Lemma sum_tele (c : nat -> nat) n : (forall i, (i < n)%nat -> (c i <= c (S i))%nat) ->
  sum_nat (map (fun i => (c (S i) - c i)%nat) (seq 0 n)) = (c n - c 0)%nat /\ (c 0 <= c n)%nat.
Proof.
  induction n as [|n IH]; intros H; [cbn; lia|]. destruct IH as [IH1 IH2]; [intros; apply H; lia|].
  rewrite seq_S, map_app. cbn [map Nat.add]. unfold sum_nat in *. rewrite fold_right_app. cbn [fold_right].
  assert (G : forall l a, fold_right Nat.add a l = (fold_right Nat.add 0 l + a)%nat) by (induction l as [|y l IHl]; intros a; cbn; [reflexivity|]; rewrite IHl; lia).
  rewrite G, IH1. specialize (H n ltac:(lia)). lia.
Qed.
Lemma counts_total n x : (0 < n)%nat -> sum_nat (map (fun i => count (in_binb n i) x) (seq 0 n)) = count in01 x.
Proof.
  intros Hn. assert (P : 0 < INR n) by now apply lt_0_INR.
  transitivity (sum_nat (map (fun i => (count (cum n (S i)) x - count (cum n i) x)%nat) (seq 0 n))).
  { f_equal. apply map_ext_in. intros i Hi. apply in_seq in Hi.
    destruct (count_sub (cum n i) (cum n (S i)) x) as [-> _]; [intros v; apply cum_step; lia|].
    apply count_ext. intros v. symmetry. apply cum_step. lia. }
  assert (S0 : forall v, cum n 0 v = true -> cum n n v = true).
  { intros v. unfold cum. rewrite Nat.ltb_irrefl, (proj2 (Nat.ltb_lt 0 n) Hn). replace (INR 0 / INR n) with 0 by (cbn; field; lra).
    destruct v as [r| | |]; cbn; try discriminate; auto. destruct (Rlt_dec r 0), (Rle_dec r 1); auto; try discriminate; lra. }
  destruct (sum_tele (fun i => count (cum n i) x) n) as [-> _].
  { intros i Hi. apply count_sub. intros v. now apply cum_step. }
  destruct (count_sub (cum n 0) (cum n n) x S0) as [-> _]. apply count_ext. intros v.
  unfold cum. rewrite Nat.ltb_irrefl, (proj2 (Nat.ltb_lt 0 n) Hn). replace (INR 0 / INR n) with 0 by (cbn; field; lra).
  destruct v as [r| | |]; cbn; auto. destruct (Rle_dec r 1), (Rlt_dec r 0), (Rle_dec 0 r); cbn; auto; lra.
Qed.
Lemma rsum_INR (l : list nat) : rsum (map INR l) = INR (sum_nat l).
Proof. induction l as [|a l IH]; [reflexivity|]. unfold rsum, sum_nat in *. cbn [map fold_right]. rewrite IH, plus_INR. reflexivity. Qed.
Lemma rsum_scale k l : rsum (map (fun a => a * k) l) = rsum l * k.
Proof. induction l as [|a l IH]; unfold rsum in *; cbn [map fold_right]; [ring|]. rewrite IH. ring. Qed.
Lemma combine_maps {A B C} (f : A -> B) (g : A -> C) l : combine (map f l) (map g l) = map (fun a => (f a, g a)) l.
Proof. induction l as [|a l IH]; [reflexivity|]. cbn. now f_equal. Qed.

(** With two edges or more the bars are those of HIST_NB_BINS - 1 equal bins. Missing: the documented number. *)
Theorem C113_partial : forall nb x, (2 <= nb)%nat -> exists bars, hist nb x = Some bars /\ shows (nb - 1) x bars.
Proof.
  intros nb x Hnb. destruct nb as [|n]; [lia|]. replace (S n - 1)%nat with n by lia. assert (Hn : (0 < n)%nat) by lia. clear Hnb.
  assert (P : 0 < INR n) by now apply lt_0_INR.
  eexists. split; [reflexivity|]. rewrite histogram_counts by exact Hn. rewrite counts_total by exact Hn.
  assert (W : rdiffs (linspace01 (S n)) = map (fun _ => 1 / INR n) (seq 0 n)).
  { unfold linspace01. rewrite rdiffs_map. apply map_ext. intros i. replace (S n - 1)%nat with n by lia. rewrite S_INR. field. lra. }
  rewrite W, combine_maps, map_map. cbn [fst snd].
  assert (Wp : 1 / INR n <> 0) by (apply Rgt_not_eq; apply Rdiv_lt_0_compat; lra).
  split; [rewrite map_length; apply seq_length|]. split.
  - intros Z. rewrite Z. pose proof (counts_total n x Hn) as T. rewrite Z in T.
    assert (C0 : forall i, In i (seq 0 n) -> count (in_binb n i) x = 0%nat).
    { clear -T. revert T. induction (seq 0 n) as [|a l IH]; intros T i Hi; [contradiction|]. unfold sum_nat in *. cbn [map fold_right] in T.
      destruct Hi as [->|Hi]; [lia|]. apply IH; [lia|exact Hi]. }
    transitivity (repeat NaN (length (seq 0 n))); [|now rewrite seq_length]. revert C0. generalize (seq 0 n). induction l as [|a l IH]; intros C0; [reflexivity|]. cbn [map length repeat].
    rewrite IH by (intros; apply C0; now right). f_equal. rewrite C0 by now left. rewrite xdiv_fin by exact Wp.
    cbn [INR]. replace (0 / (1 / INR n)) with 0 by (field; lra). apply xdiv_00.
  - intros T. assert (Tp : 0 < INR (count in01 x)) by now apply lt_0_INR.
    exists (map (fun i => INR (count (in_binb n i) x) / (1 / INR n) / INR (count in01 x)) (seq 0 n)). split; [|split].
    + rewrite map_map. apply map_ext. intros i. rewrite xdiv_fin by exact Wp. rewrite xdiv_fin by lra. reflexivity.
    + rewrite (map_ext _ (fun i => INR (count (in_binb n i) x) * (INR n / INR (count in01 x)))) by (intros; field; lra).
      rewrite <- (map_map (fun i => INR (count (in_binb n i) x)) (fun a => a * (INR n / INR (count in01 x)))), rsum_scale.
      rewrite <- (map_map (fun i => count (in_binb n i) x) INR), rsum_INR, counts_total by exact Hn. field. lra.
    + intros i Hi. rewrite (nth_indep _ 0 ((fun i => INR (count (in_binb n i) x) / (1 / INR n) / INR (count in01 x)) 0%nat)) by (rewrite map_length, seq_length; exact Hi).
      rewrite (map_nth (fun i => INR (count (in_binb n i) x) / (1 / INR n) / INR (count in01 x))), seq_nth by exact Hi. cbn [Nat.add]. field. lra.
Qed.
Print Assumptions C113_partial.
(** HIST_NB_BINS is documented as the number of bins; it is the number of edges. *)
Theorem C113_refuted : forall nb x bars, hist nb x = Some bars -> (length bars < nb)%nat.
Proof.
  intros nb x bars H. destruct nb as [|[|n]]; [discriminate| |].
  - cbn in H. injection H as <-. cbn. lia.
  - destruct (C113_partial (S (S n)) x ltac:(lia)) as (b & E & L & _). rewrite E in H. injection H as <-. lia.
Qed.
Print Assumptions C113_refuted.

(** *** Ellipticities *)
Lemma all_some_nth {A} (l : list (option A)) : (forall p x, nth_error l p = Some x -> x <> None) -> exists r, all_some l = Some r /\ l = map Some r.
Proof.
  induction l as [|[a|] l IH]; intros H.
  - exists []. split; reflexivity.
  - destruct IH as (r & E1 & E2); [intros p x Hx; exact (H (S p) x Hx)|]. exists (a :: r). cbn. rewrite E1, <- E2. split; reflexivity.
  - exfalso. exact (H 0%nat None eq_refl eq_refl).
Qed.
(** Objects with positive masses that do not lie on one line of sight all enter the histogram: the bars show the
    absolute ellipticities, as many as there are objects. With the mode as centre, if it is found. *)
Theorem C113_eps_partial : forall fuel kind choose L angle objs nb, (2 <= nb)%nat ->
  (forall p o, nth_error objs p = Some o ->
     (forall q, In q o -> 0 < snd q) /\
     (kind = CMode -> exists e, nth_error (getEpsilon fuel kind choose L angle objs) p = Some (Some e)) /\
     exists a b, In a (respectPBCNoRef (choose p) (map fst o) L) /\ In b (respectPBCNoRef (choose p) (map fst o) L) /\
       (vx a <> vx b \/ vy a <> vy b)) ->
  exists es bars, getGlobalEpsHist fuel kind choose L angle objs nb = Some bars /\
    length es = length objs /\ shows (nb - 1) (map Fin es) bars /\ count in01 (map Fin es) = length objs /\
    forall p, (p < length objs)%nat -> exists e1 e2,
      nth_error (getEpsilon fuel kind choose L angle objs) p = Some (Some (Fin e1, Fin e2)) /\ nth p es 0 = sqrt (e1 * e1 + e2 * e2).
Proof.
  intros fuel kind choose L angle objs nb Hnb H.
  assert (LE : length (getEpsilon fuel kind choose L angle objs) = length objs).
  { unfold getEpsilon. rewrite map_length, combine_length, seq_length. apply Nat.min_id. }
  assert (D : forall p, (p < length objs)%nat -> exists e1 e2, nth_error (getEpsilon fuel kind choose L angle objs) p = Some (Some (Fin e1, Fin e2)) /\ e1 * e1 + e2 * e2 <= 1).
  { intros p Hp. destruct (nth_error objs p) as [o|] eqn:Ho; [|apply nth_error_None in Ho; lia].
    destruct (H p o Ho) as (Hm & Hk & a & b & Ha & Hb & Hab).
    assert (X : exists e, nth_error (getEpsilon fuel kind choose L angle objs) p = Some (Some e)).
    { destruct kind; [now apply Hk|eapply C36_com; exact Ho]. }
    destruct X as (e & He). destruct (C36_defined _ _ _ _ _ _ _ _ _ _ _ Ho Hm He Ha Hb Hab) as (e1 & e2 & ->).
    exists e1, e2. split; [exact He|]. eapply (C36_bounded fuel kind choose L angle objs p o e1 e2 Ho); [| |exact He].
    - intros q Hq. specialize (Hm q Hq). lra.
    - assert (O : o <> []). { intros ->. unfold respectPBCNoRef in Ha. destruct Req_EM_T in Ha; cbn in Ha; contradiction. }
      clear -Hm O. destruct o as [|q o]; [contradiction|]. unfold mass. cbn [GeoSpec.total]. assert (0 <= GeoSpec.total snd o).
      { assert (Hm' : forall x, In x o -> 0 < snd x) by (intros; apply Hm; now right). clear -Hm'. induction o as [|x o IH]; cbn [GeoSpec.total]; [lra|].
        specialize (IH (fun y Hy => Hm' y (or_intror Hy))). specialize (Hm' x (or_introl eq_refl)). lra. }
      specialize (Hm q (or_introl eq_refl)). lra. }
  destruct (all_some_nth (getEpsilon fuel kind choose L angle objs)) as (r & E1 & E2).
  { intros p x Hx. assert (p < length objs)%nat as Hp by (rewrite <- LE; apply nth_error_Some; rewrite Hx; discriminate).
    destruct (D p Hp) as (e1 & e2 & He & _). rewrite Hx in He. injection He as ->. discriminate. }
  rewrite E2 in LE. rewrite map_length in LE.
  assert (D' : forall e, In e r -> exists e1 e2, e = (Fin e1, Fin e2) /\ e1 * e1 + e2 * e2 <= 1).
  { intros e He. apply In_nth_error in He. destruct He as (p & Hp). assert (p < length objs)%nat as Lp by (rewrite <- LE; apply nth_error_Some; rewrite Hp; discriminate).
    destruct (D p Lp) as (e1 & e2 & He & Hb). rewrite E2, nth_error_map, Hp in He. cbn in He. injection He as ->. exists e1, e2. split; [reflexivity|exact Hb]. }
  assert (V : exists es, map cabs r = map Fin es /\ length es = length r /\ count in01 (map Fin es) = length r /\
              forall p e1 e2, nth_error r p = Some (Fin e1, Fin e2) -> nth p es 0 = sqrt (e1 * e1 + e2 * e2)).
  { clear -D'. induction r as [|e r IH]; [exists []; repeat split; intros [|p]; discriminate|].
    destruct IH as (es & I1 & I2 & I3 & I4); [intros; apply D'; now right|]. destruct (D' e (or_introl eq_refl)) as (e1 & e2 & -> & Hb).
    exists (sqrt (e1 * e1 + e2 * e2) :: es). assert (N : 0 <= e1 * e1 + e2 * e2) by nra. split; [|split; [|split]].
    - cbn [map]. rewrite I1. f_equal. unfold cabs, xsq. cbn [fst snd xmul xadd]. apply xsqrt_fin. exact N.
    - cbn. now rewrite I2.
    - unfold count in *. cbn [map filter]. replace (in01 (Fin (sqrt (e1 * e1 + e2 * e2)))) with true; [cbn; now rewrite I3|].
      unfold in01. pose proof (sqrt_pos (e1 * e1 + e2 * e2)). assert (sqrt (e1 * e1 + e2 * e2) <= 1) by (rewrite <- sqrt_1; apply sqrt_le_1; lra).
      destruct Rle_dec as [_|X]; [|contradiction]. destruct Rle_dec as [_|X]; [reflexivity|contradiction].
    - intros [|p] f1 f2 Hf; [|now apply I4]. cbn in Hf. injection Hf as <- <-. reflexivity. }
  destruct V as (es & V1 & V2 & V3 & V4). destruct (C113_partial nb (map Fin es) Hnb) as (bars & B1 & B2).
  exists es, bars. split; [unfold getGlobalEpsHist; rewrite E1, V1; exact B1|]. split; [lia|]. split; [exact B2|]. split; [lia|].
  intros p Hp. destruct (D p Hp) as (e1 & e2 & He & _). exists e1, e2. split; [exact He|]. apply V4. rewrite E2, nth_error_map in He.
  destruct (nth_error r p) as [x|]; [|discriminate]. cbn in He. injection He as ->. reflexivity.
Qed.
Print Assumptions C113_eps_partial.
(** The histogram of ellipticities at a depth always ends in a TypeError, for any catalogue with an object. *)
Theorem C113_local_refuted : forall fuel kind choose query ps L angle objs r200 frac nb, objs <> [] ->
  (kind = CMode -> exists c, center_of fuel CMode (choose 0%nat)
     (extent (respectPBCNoRef (choose 0%nat) (map fst (gather ps (nth 0 objs []))) L)) L (gather ps (nth 0 objs [])) = Some c) ->
  getLocalEpsHist fuel kind choose query ps L angle (concat objs) (map (@length nat) objs) r200 frac nb = CTypeError.
Proof. intros. unfold getLocalEpsHist. rewrite C106_refuted by assumption. reflexivity. Qed.
Print Assumptions C113_local_refuted.

(** *** Triaxialities of whole objects *)
Lemma count_nonan f x : f NaN = false -> count f (filter (fun t => negb (xisnan t)) x) = count f x.
Proof.
  intros F. unfold count. induction x as [|v x IH]; [reflexivity|]. cbn [filter]. destruct v; cbn [xisnan negb filter];
    [destruct (f (Fin r)) | destruct (f PInf) | destruct (f MInf) | rewrite F]; cbn [length]; rewrite ?IH; reflexivity.
Qed.
Lemma shows_nonan n x bars : shows n x bars <-> shows n (filter (fun t => negb (xisnan t)) x) bars.
Proof.
  unfold shows. rewrite !count_nonan by reflexivity.
  assert (E : forall i, count (in_binb n i) (filter (fun t => negb (xisnan t)) x) = count (in_binb n i) x) by (intros; now apply count_nonan).
  split; intros (H1 & H2 & H3); (split; [exact H1|split; [exact H2|]]); intros H; destruct (H3 H) as (h & E1 & E2 & E3); exists h;
    (split; [exact E1|split; [exact E2|]]); intros i Hi; rewrite (E3 i Hi), E; reflexivity.
Qed.
(** Axis ratios as in C76, spheres included. *)
Definition axis_ratios (p : R * R) : Prop := 0 <= snd p <= fst p /\ fst p <= 1.
Lemma T_column_values big l : Forall axis_ratios l ->
  filter (fun t => negb (xisnan t)) (T_column big (map (fun p => Fin (fst p)) l) (map (fun p => Fin (snd p)) l)) =
  map (fun p => Fin ((1 - fst p * fst p) / (1 - snd p * snd p))) (filter (fun p => if Req_EM_T (fst p) 1 then false else true) l).
Proof.
  intros H. unfold T_column. rewrite combine_maps, map_map. cbn [fst snd]. induction H as [|[q s] l (H1 & H2) Hl IH]; [reflexivity|].
  cbn [map filter fst snd]. rewrite IH. clear IH. cbn [fst snd] in *. destruct (Req_EM_T q 1) as [->|Hq].
  - destruct (Req_EM_T s 1) as [->|Hs].
    + rewrite C76_sphere. cbn [nan_to_num]. unfold zero_to_nan. cbn [xeqb]. destruct (Req_EM_T 0 0); [reflexivity|contradiction].
    + destruct (C76_range 1 s ltac:(lra) ltac:(lra) ltac:(lra)) as (t & -> & _ & E & _). rewrite (proj2 E eq_refl). cbn [nan_to_num]. unfold zero_to_nan. cbn [xeqb]. destruct (Req_EM_T 0 0); [reflexivity|contradiction].
  - destruct (C76_range q s ltac:(lra) ltac:(lra) ltac:(lra)) as (t & Ht & _ & E & _). pose proof (triax_fin q s ltac:(nra)) as F. rewrite Ht in F. rewrite Ht. injection F as ->.
    cbn [nan_to_num]. unfold zero_to_nan. cbn [xeqb]. destruct Req_EM_T as [Z|_]; [apply E in Z; contradiction|]. reflexivity.
Qed.
(** The histogram of whole-object triaxialities shows one value in [0, 1] per object with q < 1; objects with
    q = 1 (spheres and oblate ones) are left out. The value is that of the last column of q and s. *)
Theorem C113_T_partial : forall big nb (pre_q pre_s : R * R -> list xr) l, (2 <= nb)%nat -> Forall axis_ratios l ->
  let kept := filter (fun p => if Req_EM_T (fst p) 1 then false else true) l in
  let ts := map (fun p => (1 - fst p * fst p) / (1 - snd p * snd p)) kept in
  exists bars, getGlobalTHist big nb (map (fun p => pre_q p ++ [Fin (fst p)]) l) (map (fun p => pre_s p ++ [Fin (snd p)]) l) = Some bars /\
    shows (nb - 1) (map Fin ts) bars /\ count in01 (map Fin ts) = length kept.
Proof.
  intros big nb pre_q pre_s l Hnb Hl kept ts. unfold getGlobalTHist. rewrite !map_map.
  rewrite (map_ext (fun x => last (pre_q x ++ [Fin (fst x)]) NaN) (fun x => Fin (fst x))) by (intros; apply last_last).
  rewrite (map_ext (fun x => last (pre_s x ++ [Fin (snd x)]) NaN) (fun x => Fin (snd x))) by (intros; apply last_last).
  destruct (C113_partial nb (T_column big (map (fun p => Fin (fst p)) l) (map (fun p => Fin (snd p)) l)) Hnb) as (bars & B1 & B2).
  exists bars. split; [exact B1|]. split.
  - apply (proj1 (shows_nonan _ _ _)) in B2. rewrite (T_column_values big l Hl) in B2. unfold ts. rewrite map_map. exact B2.
  - unfold ts, kept. clear -Hl. rewrite map_map. induction Hl as [|[q s] l (H1 & H2) Hl IH]; [reflexivity|]. cbn [filter fst snd] in *.
    destruct (Req_EM_T q 1) as [|Hq]; [exact IH|]. unfold count in *. cbn [map filter fst snd length].
    destruct (C76_range q s ltac:(lra) ltac:(lra) ltac:(lra)) as (t & Ht & Hr & _). rewrite (triax_fin q s ltac:(nra)) in Ht. injection Ht as ->.
    replace (in01 (Fin t)) with true; [cbn [length]; now rewrite IH|]. unfold in01. destruct Rle_dec as [_|X]; [|lra]. destruct Rle_dec as [_|X]; [reflexivity|lra].
Qed.
Print Assumptions C113_T_partial.

(** Three edges, two bins: the values 1/4, 1/2 and 1 (a NaN is ignored) give the heights 2/3 and 4/3. *)
Example C113_ex : hist 3 [Fin (1/4); NaN; Fin (1/2); Fin 1] = Some [Fin (2/3); Fin (4/3)].
Proof.
  destruct (C113_partial 3 [Fin (1/4); NaN; Fin (1/2); Fin 1] ltac:(lia)) as (bars & -> & L & _ & H). f_equal.
  assert (C : count in01 [Fin (1/4); NaN; Fin (1/2); Fin 1] = 3%nat).
  { unfold count. cbn [filter in01]. repeat (destruct Rle_dec; [|lra]). reflexivity. }
  rewrite C in H. destruct (H ltac:(lia)) as (h & -> & _ & E). rewrite map_length in L. destruct h as [|a [|b [|? ?]]]; try discriminate.
  pose proof (E 0%nat ltac:(lia)) as E0. pose proof (E 1%nat ltac:(lia)) as E1. cbn [nth] in E0, E1. change (3 - 1)%nat with 2%nat in E0, E1.
  assert (C0 : count (in_binb 2 0) [Fin (1/4); NaN; Fin (1/2); Fin 1] = 1%nat).
  { unfold count. cbn [filter in_binb INR Nat.eqb andb orb]. repeat (destruct Rle_dec; [|try lra]; cbn [andb]). repeat (destruct Rlt_dec; cbn [orb andb]; try lra). reflexivity. }
  assert (C1 : count (in_binb 2 1) [Fin (1/4); NaN; Fin (1/2); Fin 1] = 2%nat).
  { unfold count. cbn [filter in_binb INR Nat.eqb andb orb].
    destruct (Rle_dec (1 / (1 + 1)) (1/4)); [lra|]. cbn [andb]. destruct (Rle_dec (1 / (1 + 1)) (1/2)); [|lra]. cbn [andb]. destruct (Rlt_dec (1/2) ((1 + 1) / (1 + 1))); [|lra].
    cbn [orb]. destruct (Rle_dec (1 / (1 + 1)) 1); [|lra]. destruct (Req_EM_T 1 1); [|contradiction]. rewrite orb_true_r. reflexivity. }
  rewrite C0 in E0. rewrite C1 in E1. rewrite E0, E1. cbn [map INR]. apply f_equal2; [|apply f_equal2; [|reflexivity]]; f_equal; field.
Qed.
(** An object meeting C113_eps_partial: two particles on the x axis. *)
Example C113_eps_ex : exists es bars, getGlobalEpsHist 5 CCom (fun _ => [0;1]%nat) 0 0 [[(mkV 1 0 0, 1); (mkV 3 0 0, 1)]] 11 = Some bars /\ length bars = 10%nat /\ length es = 1%nat /\ nth 0 es 0 = 1.
Proof.
  destruct (C113_eps_partial 5 CCom (fun _ => [0;1]%nat) 0 0 [[(mkV 1 0 0, 1); (mkV 3 0 0, 1)]] 11 ltac:(lia)) as (es & bars & H1 & H2 & (H3 & _) & _ & H5).
  - intros [|[|p]] o Ho; try discriminate. injection Ho as <-. split; [|split; [discriminate|]].
    + intros q [<-|[<-|[]]]; cbn; lra.
    + unfold respectPBCNoRef. destruct Req_EM_T as [_|N]; [|exfalso; apply N; reflexivity]. exists (mkV 1 0 0), (mkV 3 0 0). cbn. split; [auto|]. split; [auto|]. left. lra.
  - exists es, bars. split; [exact H1|]. split; [exact H3|]. split; [exact H2|]. destruct (H5 0%nat) as (e1 & e2 & E & ->); [cbn; lia|].
    rewrite C36_example in E. injection E as <- <-. replace (1 * 1 + 0 * 0) with 1 by ring. apply sqrt_1.
Qed.
Example C113_T_ex : Forall axis_ratios [(8/10, 6/10); (1, 1/2); (1, 1)] /\
  length (filter (fun p => if Req_EM_T (fst p) 1 then false else true) [(8/10, 6/10); (1, 1/2); (1, 1)]) = 1%nat.
Proof.
  split; [repeat constructor; cbn; lra|]. cbn [filter fst]. destruct (Req_EM_T (8/10) 1); [lra|]. destruct (Req_EM_T 1 1); [reflexivity|contradiction].
Qed.
