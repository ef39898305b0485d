(** Chi-square test, triaxiality histograms, averages and their errors: C64, C76, C77, C78. *)
From Coq Require Import Reals Lra Lia Bool Arith ZArith Permutation Sorted List.
From Verif Require Import XR StatModel SplitProps StatProps.
Import ListNotations.
Local Open Scope R_scope.

(** ** C64 *)
(** A table of counts: rows of equal length, entries >= 0, not all zero. *)
Definition table (occs : list (list R)) (n : nat) : Prop :=
  Forall (fun row => length row = n /\ Forall (fun x => 0 <= x) row) occs /\ exists x, In x (concat occs) /\ x <> 0.
Lemma rsum_app l1 l2 : rsum (l1 ++ l2) = rsum l1 + rsum l2.
Proof. unfold rsum. induction l1 as [|a l1 IH]; simpl; [lra | rewrite IH; lra]. Qed.
Lemma rsum_nonneg l : Forall (fun x => 0 <= x) l -> 0 <= rsum l.
Proof. induction 1; simpl; [lra|]. unfold rsum in *. simpl. lra. Qed.
Lemma rsum_ge l x : Forall (fun x => 0 <= x) l -> In x l -> x <= rsum l.
Proof.
  induction 1 as [|a l Ha Hl IH]; intros Hx; [contradiction|]. pose proof (rsum_nonneg l Hl). unfold rsum in *. simpl. destruct Hx as [->|Hx]; [lra|]. specialize (IH Hx). lra.
Qed.
Lemma rsum_zero l : Forall (fun x => 0 <= x) l -> rsum l = 0 -> forall x, In x l -> x = 0.
Proof. intros H E x Hx. pose proof (rsum_ge l x H Hx). rewrite Forall_forall in H. specialize (H x Hx). lra. Qed.
Lemma rsum_perm l l' : Permutation l l' -> rsum l = rsum l'.
Proof. unfold rsum. induction 1; simpl; lra. Qed.
Lemma table_entry occs n i j : table occs n -> 0 <= nth j (nth i occs []) 0.
Proof.
  intros [H _]. destruct (le_lt_dec (length occs) i) as [L|L].
  - rewrite (nth_overflow occs) by exact L. destruct j; simpl; lra.
  - rewrite Forall_forall in H. destruct (H _ (nth_In occs [] L)) as [_ HF]. rewrite Forall_forall in HF.
    destruct (le_lt_dec (length (nth i occs [])) j) as [M|M]; [rewrite nth_overflow by exact M; lra|]. now apply HF, nth_In.
Qed.
Lemma table_rows occs n : table occs n -> Forall (fun row => Forall (fun x => 0 <= x) row) occs.
Proof. intros [H _]. eapply Forall_impl; [|exact H]. simpl. tauto. Qed.
Lemma table_total occs n : table occs n -> 0 < total occs.
Proof.
  intros HT. pose proof (table_rows _ _ HT) as HR. destruct HT as [_ (x & Hx & Hne)].
  assert (HC : Forall (fun x => 0 <= x) (concat occs)) by now apply Forall_concat.
  pose proof (rsum_ge _ _ HC Hx). rewrite Forall_forall in HC. specialize (HC x Hx). unfold total. lra.
Qed.
Lemma col_entries occs n j : table occs n -> Forall (fun x => 0 <= x) (map (fun row => nth j row 0) occs).
Proof.
  intros HT. apply Forall_forall. intros x Hx. apply in_map_iff in Hx. destruct Hx as (row & <- & Hrow).
  destruct (In_nth _ _ [] Hrow) as (i & Hi & <-). now apply (table_entry _ n).
Qed.
Lemma row_entries occs n i : table occs n -> Forall (fun x => 0 <= x) (nth i occs []).
Proof.
  intros HT. pose proof (table_rows _ _ HT) as HR. destruct (le_lt_dec (length occs) i) as [L|L]; [rewrite nth_overflow by exact L; constructor|].
  rewrite Forall_forall in HR. now apply HR, nth_In.
Qed.
Lemma expected_nonneg occs n i j : table occs n -> 0 <= expected occs i j.
Proof.
  intros HT. unfold expected, Rdiv. pose proof (rsum_nonneg _ (row_entries occs n i HT)). pose proof (rsum_nonneg _ (col_entries occs n j HT)).
  apply Rmult_le_pos; [now apply Rmult_le_pos|]. left. apply Rinv_0_lt_compat. now apply (table_total _ n).
Qed.
Lemma cell_nonneg occs n i j : table occs n -> 0 <= cell occs i j.
Proof.
  intros HT. unfold cell. destruct (Req_EM_T (expected occs i j) 0) as [E|E]; [lra|]. pose proof (expected_nonneg occs n i j HT).
  unfold Rdiv. apply Rmult_le_pos; [apply Rle_0_sqr|]. left. apply Rinv_0_lt_compat. lra.
Qed.
Lemma cell_zero occs n i j : table occs n -> (i < length occs)%nat -> (j < n)%nat -> cell occs i j = 0 <-> nth j (nth i occs []) 0 = expected occs i j.
Proof.
  intros HT Hi Hj. unfold cell. pose proof (expected_nonneg occs n i j HT) as Hpos. pose proof (table_total _ _ HT) as Ht.
  destruct (Req_EM_T (expected occs i j) 0) as [E|E].
  - split; [|reflexivity]. intros _. rewrite E. unfold expected in E.
    assert (rsum (nth i occs []) = 0 \/ col_sum occs j = 0) as [Z|Z].
    { apply Rmult_integral. apply (Rmult_eq_reg_r (/ total occs)); [unfold Rdiv in E; lra | apply Rinv_neq_0_compat; lra]. }
    + pose proof (proj1 HT) as HF. rewrite Forall_forall in HF. destruct (HF _ (nth_In occs [] Hi)) as [HL _].
      apply (rsum_zero _ (row_entries occs n i HT) Z). apply nth_In. now rewrite HL.
    + apply (rsum_zero _ (col_entries occs n j HT) Z). apply in_map_iff. exists (nth i occs []). split; [reflexivity | now apply nth_In].
  - split; intros H.
    + unfold Rdiv in H. apply Rmult_integral in H. destruct H as [H|H]; [|exfalso; revert H; now apply Rinv_neq_0_compat]. apply Rmult_integral in H. lra.
    + rewrite H. unfold Rdiv. ring.
Qed.
Lemma chi_defined occs n : table occs n -> chi_square occs n =
  Some (rsum (flat_map (fun i => map (fun j => cell occs i j) (seq 0 n)) (seq 0 (length occs))), (INR n - 1) * (INR (length occs) - 1)).
Proof.
  intros [_ (x & Hx & Hne)]. unfold chi_square. destruct (forallb _ (concat occs)) eqn:E; [|reflexivity].
  rewrite forallb_forall in E. specialize (E x Hx). destruct (Req_EM_T x 0); [contradiction | discriminate].
Qed.
Lemma cells_in occs n c : In c (flat_map (fun i => map (fun j => cell occs i j) (seq 0 n)) (seq 0 (length occs))) <-> exists i j, (i < length occs)%nat /\ (j < n)%nat /\ cell occs i j = c.
Proof.
  rewrite in_flat_map. split.
  - intros (i & Hi & H). apply in_map_iff in H. destruct H as (j & E & Hj). apply in_seq in Hi, Hj. exists i, j. repeat split; trivial; lia.
  - intros (i & j & Hi & Hj & E). exists i. split; [apply in_seq; lia|]. apply in_map_iff. exists j. split; [exact E | apply in_seq; lia].
Qed.
Theorem C64_nonneg occs n : table occs n -> exists chi dof, chi_square occs n = Some (chi, dof) /\ 0 <= chi.
Proof.
  intros HT. rewrite (chi_defined _ _ HT). eexists _, _. split; [reflexivity|]. apply rsum_nonneg, Forall_forall. intros c Hc.
  apply cells_in in Hc. destruct Hc as (i & j & _ & _ & <-). now apply (cell_nonneg _ n).
Qed.
Print Assumptions C64_nonneg.
(** Zero exactly if every entry is its row sum times its column sum over the total. *)
Theorem C64_zero_general occs n chi dof : table occs n -> chi_square occs n = Some (chi, dof) ->
  chi = 0 <-> forall i j, (i < length occs)%nat -> (j < n)%nat -> nth j (nth i occs []) 0 * total occs = rsum (nth i occs []) * rsum (map (fun row => nth j row 0) occs).
Proof.
  intros HT HC. rewrite (chi_defined _ _ HT) in HC. assert (Hchi : chi = rsum (flat_map (fun i => map (fun j => cell occs i j) (seq 0 n)) (seq 0 (length occs)))) by congruence.
  pose proof (table_total _ _ HT) as Ht.
  assert (Hx : forall i j, nth j (nth i occs []) 0 = expected occs i j <-> nth j (nth i occs []) 0 * total occs = rsum (nth i occs []) * rsum (map (fun row => nth j row 0) occs)).
  { intros i j. unfold expected. fold (col_sum occs j). split; intros H.
    - rewrite H. field. lra.
    - rewrite <- H. field. lra. }
  subst chi. split.
  - intros HZ i j Hi Hj. apply Hx. apply (cell_zero _ n); trivial. apply (rsum_zero _) with (2 := HZ); [|apply cells_in; eauto].
    apply Forall_forall. intros c Hc. apply cells_in in Hc. destruct Hc as (i' & j' & _ & _ & <-). now apply (cell_nonneg _ n).
  - intros H. assert (HA : forall c, In c (flat_map (fun i => map (fun j => cell occs i j) (seq 0 n)) (seq 0 (length occs))) -> c = 0).
    { intros c Hc. apply cells_in in Hc. destruct Hc as (i & j & Hi & Hj & <-). apply (cell_zero _ n); trivial. now apply Hx, H. }
    revert HA. generalize (flat_map (fun i => map (fun j => cell occs i j) (seq 0 n)) (seq 0 (length occs))). clear.
    induction l as [|a l IH]; intros H; [reflexivity|]. unfold rsum in *. simpl. rewrite (H a (or_introl eq_refl)), IH; [lra|]. intros c Hc. apply H. now right.
Qed.
Print Assumptions C64_zero_general.
(** Two samples: zero exactly if they are proportional. *)
Theorem C64_zero a b chi dof : table [a; b] (length a) -> chi_square [a; b] (length a) = Some (chi, dof) ->
  chi = 0 <-> forall j, (j < length a)%nat -> nth j a 0 * rsum b = nth j b 0 * rsum a.
Proof.
  intros HT HC. rewrite (C64_zero_general _ _ _ _ HT HC).
  assert (Htot : total [a; b] = rsum a + rsum b) by (unfold total; simpl; rewrite app_nil_r; apply rsum_app). rewrite Htot. split.
  - intros H j Hj. specialize (H 0%nat j ltac:(simpl; lia) Hj). unfold rsum at 3 in H. simpl in H. unfold rsum in *. nra.
  - intros H i j Hi Hj. specialize (H j Hj). simpl in Hi. destruct i as [|[|i]]; [| |lia]; unfold rsum at 4; simpl; unfold rsum in *; nra.
Qed.
Print Assumptions C64_zero.
Lemma list_nth_self {A} (l : list A) d : map (fun i => nth i l d) (seq 0 (length l)) = l.
Proof. rewrite <- (list_as_seq (fun x => x) l d). apply map_id. Qed.
Lemma chi_rows occs n :
  flat_map (fun i => map (fun j => cell occs i j) (seq 0 n)) (seq 0 (length occs)) =
  flat_map (fun row => map (fun j => let e := rsum row * col_sum occs j / total occs in if Req_EM_T e 0 then 0 else (nth j row 0 - e) * (nth j row 0 - e) / e) (seq 0 n)) occs.
Proof.
  rewrite !flat_map_concat_map. f_equal. symmetry.
  match goal with |- map ?g occs = _ => rewrite (list_as_seq g occs []) end. reflexivity.
Qed.
Lemma perm_concat {A} (l l' : list (list A)) : Permutation l l' -> Permutation (concat l) (concat l').
Proof.
  induction 1; simpl; auto.
  - now apply Permutation_app_head.
  - rewrite !app_assoc. apply Permutation_app_tail, Permutation_app_comm.
  - eauto using Permutation_trans.
Qed.
(** Reordering the samples changes nothing. *)
Theorem C64_symmetric occs occs' n : Permutation occs occs' -> chi_square occs n = chi_square occs' n.
Proof.
  intros HP. unfold chi_square. assert (HPc := perm_concat _ _ HP).
  assert (Hb : forall f : R -> bool, forallb f (concat occs) = forallb f (concat occs')).
  { intros f. clear -HPc. induction HPc; simpl; try congruence. now rewrite !andb_assoc, (andb_comm (f y)). }
  rewrite Hb. destruct (forallb _ _); [reflexivity|]. rewrite !chi_rows, (Permutation_length HP).
  assert (Ht : total occs = total occs') by now apply rsum_perm.
  assert (Hc : forall j, col_sum occs j = col_sum occs' j) by (intros j; apply rsum_perm, Permutation_map, HP).
  do 2 f_equal. rewrite (rsum_perm _ _ (Permutation_flat_map _ HP)). f_equal. rewrite !flat_map_concat_map. f_equal. apply map_ext. intros row. apply map_ext. intros j. now rewrite Ht, Hc.
Qed.
Print Assumptions C64_symmetric.
Corollary C64_swap a b n : chi_square [a; b] n = chi_square [b; a] n.
Proof. apply C64_symmetric, perm_swap. Qed.
Print Assumptions C64_swap.
(** NaN exactly for an all-zero table. *)
Theorem C64_nan occs n : chi_square occs n = None <-> forall x, In x (concat occs) -> x = 0.
Proof.
  unfold chi_square. destruct (forallb _ (concat occs)) eqn:E; rewrite ?forallb_forall in E; split; intros H; try discriminate; trivial.
  - intros x Hx. specialize (E x Hx). destruct (Req_EM_T x 0); [assumption | discriminate].
  - exfalso. rewrite <- not_true_iff_false in E. apply E, forallb_forall. intros x Hx. rewrite (H x Hx). destruct (Req_EM_T 0 0); [reflexivity | contradiction].
Qed.
Print Assumptions C64_nan.
Example C64_ex : table [[1; 2]; [2; 4]] 2 /\ chi_square [[1; 2]; [2; 4]] 2 = Some (0, 1).
Proof.
  assert (HT : table [[1; 2]; [2; 4]] 2) by (split; [repeat constructor; lra | exists 1; split; [simpl; auto | lra]]).
  split; [exact HT|]. destruct (C64_nonneg _ _ HT) as (chi & dof & H & _). rewrite H.
  assert (E : chi = 0) by (apply (C64_zero [1; 2] [2; 4] chi dof HT H); intros j Hj; simpl in Hj; unfold rsum; simpl; destruct j as [|[|j]]; [lra | lra | lia]).
  rewrite (chi_defined _ _ HT) in H. assert (dof = (INR 2 - 1) * (INR 2 - 1)) as -> by (simpl length in H; congruence). rewrite E. f_equal. f_equal. simpl. lra.
Qed.

(** chiSquareToIMultiDim counts every value once. *)
Lemma incr_sum l i : (i < length l)%nat -> rsum (incr l i) = rsum l + 1 /\ length (incr l i) = length l.
Proof.
  revert i. induction l as [|a l IH]; intros i H; simpl in H; [lia|]. destruct i as [|i].
  - unfold incr, rsum. simpl. split; [lra | reflexivity].
  - destruct (IH i ltac:(lia)) as [H1 H2]. unfold incr, rsum in *. simpl. rewrite H1, H2. split; [lra | reflexivity].
Qed.
Lemma closest10_bound x : (closest10 x < 10)%nat.
Proof. unfold closest10. apply (np_argmin_bound (map _ y_ax)). discriminate. Qed.
Lemma incr_nonneg l i : Forall (fun x => 0 <= x) l -> Forall (fun x => 0 <= x) (incr l i).
Proof.
  intros H. revert i. induction H as [|a l Ha Hl IH]; intros i; [destruct i; constructor|].
  unfold incr in *. destruct i as [|i]; simpl; constructor; trivial; try lra.
Qed.
Lemma occ_row_facts x : rsum (occ_row x) = INR (length (concat x)) /\ length (occ_row x) = (length x * 10)%nat /\ Forall (fun c => 0 <= c) (occ_row x).
Proof.
  unfold occ_row. set (ps := flat_map _ _). assert (HL : length ps = length (concat x)).
  { unfold ps. rewrite concat_nth. induction (seq 0 (length x)) as [|b s IH]; [reflexivity|]. simpl. rewrite !app_length, map_length, IH. reflexivity. }
  assert (HB : forall p, In p ps -> (fst p < length x)%nat).
  { intros p Hp. apply in_flat_map in Hp. destruct Hp as (b & Hb & Hp). apply in_map_iff in Hp. destruct Hp as (v & <- & _). apply in_seq in Hb. simpl. lia. }
  rewrite <- HL. clearbody ps. clear HL. induction ps as [|p ps IH] using rev_ind.
  - simpl. split; [|split; [apply repeat_length|]].
    + generalize (length x * 10)%nat. induction n; simpl; unfold rsum in *; simpl; lra.
    + generalize (length x * 10)%nat. induction n; simpl; constructor; [lra | assumption].
  - destruct IH as (I1 & I2 & I3); [intros; apply HB, in_or_app; now left|]. rewrite fold_left_app. cbn [fold_left].
    set (row := fold_left _ ps _) in *.
    assert (Hi : (10 * fst p + closest10 (snd p) < length row)%nat).
    { rewrite I2. pose proof (HB p ltac:(apply in_or_app; right; now left)). pose proof (closest10_bound (snd p)). lia. }
    destruct (incr_sum _ _ Hi) as [S1 S2]. rewrite S1, S2, I1, I2, app_length, plus_INR. split; [simpl; lra|]. split; [reflexivity|]. now apply incr_nonneg.
Qed.
Theorem C64_counts x : rsum (occ_row x) = INR (length (concat x)).
Proof. apply occ_row_facts. Qed.
Print Assumptions C64_counts.
(** Every value is counted in the cell of its bin and of the nearest of the ten points 0, 1/9,
    ..., 1, the first of them in case of a tie. *)
Lemma incr_nth l i j : (i < length l)%nat -> nth j (incr l i) 0 = nth j l 0 + (if Nat.eqb i j then 1 else 0).
Proof.
  revert i j. induction l as [|a l IH]; intros i j H; simpl in H; [lia|]. unfold incr in *. destruct i as [|i], j as [|j]; simpl; try lra.
  rewrite IH by lia. reflexivity.
Qed.
Lemma fold_incr_nth {A} (idx : A -> nat) (ps : list A) : forall row j, (forall p, In p ps -> (idx p < length row)%nat) ->
  nth j (fold_left (fun row p => incr row (idx p)) ps row) 0 = nth j row 0 + INR (length (filter (fun p => Nat.eqb (idx p) j) ps)).
Proof.
  induction ps as [|p ps IH]; intros row j H; [simpl; lra|]. cbn [fold_left filter].
  rewrite IH by (intros q Hq; rewrite (proj2 (incr_sum row (idx p) (H p (or_introl eq_refl)))); apply H; now right).
  rewrite incr_nth by (apply H; now left). destruct (Nat.eqb (idx p) j); [cbn [length]; rewrite S_INR|]; lra.
Qed.
Lemma filter_flat {A B} (g : A -> list B) (f : B -> bool) l : filter f (flat_map g l) = flat_map (fun a => filter f (g a)) l.
Proof. induction l as [|a l IH]; [reflexivity|]. simpl. rewrite filter_app, IH. reflexivity. Qed.
Lemma filter_map_length {A B} (g : A -> B) (f : B -> bool) l : length (filter f (map g l)) = length (filter (fun a => f (g a)) l).
Proof. induction l as [|a l IH]; [reflexivity|]. simpl. destruct (f (g a)); simpl; rewrite IH; reflexivity. Qed.
Lemma filter_none {A} (f : A -> bool) l : (forall a, In a l -> f a = false) -> filter f l = [].
Proof. induction l as [|a l IH]; intros H; [reflexivity|]. simpl. rewrite (H a (or_introl eq_refl)). apply IH. intros b Hb. apply H. now right. Qed.
Lemma flat_single {A} (g : nat -> list A) n b : (b < n)%nat -> (forall a, a <> b -> g a = []) -> flat_map g (seq 0 n) = g b.
Proof.
  intros Hb H. replace n with (b + S (n - b - 1))%nat by lia. rewrite seq_app, flat_map_app. cbn [seq flat_map plus].
  assert (Z : forall l, ~ In b l -> flat_map g l = []).
  { induction l as [|a l IH]; intros Hn; [reflexivity|]. simpl. rewrite H by (intros ->; apply Hn; now left). apply IH. intros Hi. apply Hn. now right. }
  rewrite (Z (seq 0 b)) by (rewrite in_seq; lia). rewrite (Z (seq (S b) _)) by (rewrite in_seq; lia). simpl. apply app_nil_r.
Qed.
Theorem C64_cells : exists cell_of : R -> nat, (forall v, nearest (map (fun k => INR k / 9) (seq 0 10)) v (cell_of v)) /\
  forall x b t, (b < length x)%nat -> (t < 10)%nat ->
    nth (10 * b + t) (occ_row x) 0 = INR (length (filter (fun v => Nat.eqb (cell_of v) t) (nth b x []))).
Proof.
  exists closest10. split; [intros v; apply (np_argmin_nearest y_ax); discriminate|].
  intros x b t Hb Ht. unfold occ_row. rewrite (fold_incr_nth (fun p => (10 * fst p + closest10 (snd p))%nat)).
  - rewrite nth_repeat, Rplus_0_l. f_equal. rewrite filter_flat, (flat_single _ _ b Hb).
    + rewrite filter_map_length. f_equal. apply filter_ext. intros v. cbn [fst snd].
      destruct (Nat.eqb_spec (closest10 v) t) as [->|N]; [apply Nat.eqb_refl|]. apply Nat.eqb_neq. lia.
    + intros a Ha. apply filter_none. intros p Hp. apply in_map_iff in Hp. destruct Hp as (v & <- & _). cbn [fst snd]. apply Nat.eqb_neq.
      pose proof (closest10_bound v). lia.
  - intros p Hp. rewrite repeat_length. apply in_flat_map in Hp. destruct Hp as (a & Ha & Hp). apply in_map_iff in Hp. destruct Hp as (v & <- & _). apply in_seq in Ha.
    cbn [fst snd]. pose proof (closest10_bound v). lia.
Qed.
Print Assumptions C64_cells.
(** The test on raw samples: symmetric, >= 0, zero for a sample against itself. *)
Theorem C64_multi x y : length x = length y ->
  chiSquareToIMultiDim x y = chiSquareToIMultiDim y x /\
  (concat x <> [] \/ concat y <> [] -> exists chi dof, chiSquareToIMultiDim x y = Some (Some (chi, dof)) /\ 0 <= chi) /\
  (concat x <> [] -> exists dof, chiSquareToIMultiDim x x = Some (Some (0, dof))).
Proof.
  intros HL. unfold chiSquareToIMultiDim. rewrite HL, !Nat.eqb_refl. rewrite (C64_swap (occ_row y)). split; [reflexivity|].
  destruct (occ_row_facts x) as (X1 & X2 & X3), (occ_row_facts y) as (Y1 & Y2 & Y3).
  assert (HT : forall a b, length a = (length y * 10)%nat -> length b = (length y * 10)%nat -> Forall (fun c => 0 <= c) a -> Forall (fun c => 0 <= c) b -> rsum a > 0 \/ rsum b > 0 -> table [a; b] (length y * 10)).
  { intros a b La Lb Ha Hb Hs. split; [repeat constructor; assumption|].
    assert (E : forall l, Forall (fun c => 0 <= c) l -> rsum l > 0 -> exists c, In c l /\ c <> 0).
    { clear. induction 1 as [|c l Hc Hl IH]; intros H; [unfold rsum in H; simpl in H; lra|]. destruct (Req_EM_T c 0) as [->|Hn]; [|exists c; split; [now left | exact Hn]].
      destruct IH as (c' & Hc' & Hn'); [unfold rsum in *; simpl in H; lra|]. exists c'. split; [now right | exact Hn']. }
    simpl. rewrite app_nil_r. destruct Hs as [Hs|Hs]; [destruct (E a Ha Hs) as (c & Hc & Hn) | destruct (E b Hb Hs) as (c & Hc & Hn)]; exists c; (split; [apply in_or_app; auto | exact Hn]). }
  assert (HN : forall z : list (list R), concat z <> [] -> INR (length (concat z)) > 0) by (intros z Hz; destruct (concat z); [congruence | apply lt_0_INR; simpl; lia]).
  rewrite HL in X2. split.
  - intros Hne. destruct (C64_nonneg _ _ (HT _ _ X2 Y2 X3 Y3 ltac:(rewrite X1, Y1; destruct Hne; auto))) as (chi & dof & H & Hp). exists chi, dof. now rewrite H.
  - intros Hne. assert (HTx := HT _ _ X2 X2 X3 X3 ltac:(rewrite X1; auto)). destruct (C64_nonneg _ _ HTx) as (chi & dof & H & _).
    exists dof. rewrite H. rewrite <- X2 in HTx, H. replace chi with 0; [reflexivity|]. symmetry. apply (C64_zero _ _ _ _ HTx H). reflexivity.
Qed.
Print Assumptions C64_multi.
Example C64_multi_ex : concat [[1/10; 1/5]; [7/10]] <> [] /\ length [[1/10; 1/5]; [7/10]] = length [[1/10]; [7/10]] /\ rsum (occ_row [[1/10; 1/5]; [7/10]]) = 3.
Proof. split; [discriminate|]. split; [reflexivity|]. rewrite C64_counts. simpl. lra. Qed.

(** ** C78: categories without any count *)
Definition add_empty (occs : list (list R)) : list (list R) := map (fun row => row ++ [0]) occs.
Theorem C78_refuted : ~ (forall occs n, table occs n -> chi_square (add_empty occs) (S n) = chi_square occs n).
Proof.
  intros H. assert (HT : table [[1; 2]; [2; 4]] 2) by apply C64_ex. specialize (H _ _ HT). rewrite (chi_defined _ _ HT) in H. unfold chi_square in H.
  destruct (forallb _ _) in H; [discriminate|]. assert (E : (INR 3 - 1) * (INR 2 - 1) = (INR 2 - 1) * (INR 2 - 1)) by (simpl length in H; congruence). simpl in E. lra.
Qed.
Print Assumptions C78_refuted.
Lemma add_empty_total occs : total (add_empty occs) = total occs.
Proof. unfold total, add_empty. induction occs as [|r occs IH]; [reflexivity|]. simpl. rewrite !rsum_app, IH. unfold rsum. simpl. lra. Qed.
(** The statistic is unchanged, the degrees of freedom grow by the number of samples minus one. *)
Theorem C78_partial occs n chi dof : table occs n -> chi_square occs n = Some (chi, dof) ->
  chi_square (add_empty occs) (S n) = Some (chi, dof + (INR (length occs) - 1)).
Proof.
  intros HT HC. assert (HT' : table (add_empty occs) (S n)).
  { destruct HT as [HF (x & Hx & Hn)]. split.
    - apply Forall_forall. intros row Hrow. apply in_map_iff in Hrow. destruct Hrow as (r & <- & Hr). rewrite Forall_forall in HF. destruct (HF r Hr) as [Hl Hp].
      split; [rewrite app_length; simpl; lia|]. apply Forall_app. split; [exact Hp | repeat constructor; lra].
    - exists x. split; [|exact Hn]. apply in_concat in Hx. destruct Hx as (r & Hr & Hx). apply in_concat. exists (r ++ [0]). split; [apply in_map_iff; eauto | apply in_or_app; now left]. }
  rewrite (chi_defined _ _ HT) in HC. rewrite (chi_defined _ _ HT'). assert (Hl : length (add_empty occs) = length occs) by apply map_length.
  apply Some_inj in HC. assert (chi = _) as -> by (symmetry; exact (f_equal fst HC)). assert (dof = _) as -> by (symmetry; exact (f_equal snd HC)). cbn [fst snd]. f_equal. f_equal.
  2:{ rewrite Hl, S_INR. ring. }
  rewrite !chi_rows, add_empty_total. unfold add_empty at 2. rewrite !flat_map_concat_map, map_map.
  destruct HT as [HF _].
  assert (Hcol : forall j, (j < n)%nat -> col_sum (add_empty occs) j = col_sum occs j).
  { intros j Hj. unfold col_sum, add_empty. rewrite map_map. f_equal. apply map_ext_in. intros r Hr. rewrite Forall_forall in HF. destruct (HF r Hr) as [Hln _]. rewrite app_nth1 by lia. reflexivity. }
  assert (Hlast : col_sum (add_empty occs) n = 0).
  { unfold col_sum, add_empty. rewrite map_map. clear -HF. induction HF as [|r l [Hr _] HF IH]; [reflexivity|]. unfold rsum in *. simpl. rewrite IH, app_nth2 by lia. rewrite Hr, Nat.sub_diag. simpl. lra. }
  assert (HE : forall rows, incl rows occs ->
    rsum (concat (map (fun x => map (fun j => let e := rsum (x ++ [0]) * col_sum (add_empty occs) j / total occs in if Req_EM_T e 0 then 0 else (nth j (x ++ [0]) 0 - e) * (nth j (x ++ [0]) 0 - e) / e) (seq 0 (S n))) rows)) =
    rsum (concat (map (fun row => map (fun j => let e := rsum row * col_sum occs j / total occs in if Req_EM_T e 0 then 0 else (nth j row 0 - e) * (nth j row 0 - e) / e) (seq 0 n)) rows))).
  { induction rows as [|r rows IH]; intros Hin; [reflexivity|]. rewrite !map_cons, !concat_cons, !rsum_app. rewrite IH by (intros z Hz; apply Hin; now right). f_equal.
    rewrite seq_S, map_app, rsum_app. cbn [map plus]. rewrite Hlast.
    assert (Hr0 : rsum r + rsum [0] = rsum r) by (unfold rsum; simpl; lra). rewrite !Hr0.
    assert (Hz : rsum r * 0 / total occs = 0) by (unfold Rdiv; ring). rewrite Hz. destruct (Req_EM_T 0 0) as [_|N]; [|contradiction].
    replace (rsum [0]) with 0 by (unfold rsum; simpl; lra). rewrite Rplus_0_r. f_equal. apply map_ext_in. intros j Hj. apply in_seq in Hj.
    rewrite Hcol by lia. rewrite Forall_forall in HF. destruct (HF r (Hin r (or_introl eq_refl))) as [Hln _]. rewrite app_nth1 by lia. reflexivity. }
  apply HE. apply incl_refl.
Qed.
Print Assumptions C78_partial.
Example C78_ex : table [[1; 2]; [2; 4]] 2 /\ chi_square (add_empty [[1; 2]; [2; 4]]) 3 = Some (0, 2).
Proof. destruct C64_ex as [HT H]. split; [exact HT|]. rewrite (C78_partial _ _ _ _ HT H). f_equal. f_equal. simpl. lra. Qed.

(** ** C76: triaxiality *)
Lemma triax_fin q s : s * s <> 1 -> triaxiality (Fin q) (Fin s) = Fin ((1 - q * q) / (1 - s * s)).
Proof. intros H. unfold triaxiality, xsq, xsub. simpl. destruct (Req_EM_T (1 + - (s * s)) 0) as [E|_]; [lra|]. reflexivity. Qed.
(** Axis ratios of an ellipsoid: 0 <= s <= q <= 1. *)
Theorem C76_range q s : 0 <= s <= q -> q <= 1 -> s < 1 ->
  exists t, triaxiality (Fin q) (Fin s) = Fin t /\ 0 <= t <= 1 /\ (t = 0 <-> q = 1) /\ (t = 1 <-> q = s).
Proof.
  intros H1 H2 H3. rewrite triax_fin by nra. eexists. split; [reflexivity|].
  assert (Hd : 0 < 1 - s * s) by nra. set (t := (1 - q * q) / (1 - s * s)). assert (Ht : t * (1 - s * s) = 1 - q * q) by (unfold t; field; lra). clearbody t.
  split; [split; [|]|split]; try (split; intros); nra.
Qed.
Print Assumptions C76_range.
(** A sphere has no triaxiality. *)
Theorem C76_sphere : triaxiality (Fin 1) (Fin 1) = NaN.
Proof. unfold triaxiality, xsq, xsub. simpl. destruct (Req_EM_T (1 + - (1 * 1)) 0) as [_|E]; [|lra]. replace (1 + - (1 * 1)) with 0 by ring. now rewrite sgn_0. Qed.
Print Assumptions C76_sphere.
Example C76_range_ex : triaxiality (Fin (8/10)) (Fin (6/10)) = Fin (9/16).
Proof. rewrite triax_fin by lra. f_equal. lra. Qed.
(** Objects with axis ratios 0 <= s <= q <= 1, not spherical: exactly those with q < 1 are counted. *)
Definition ratios (p : R * R) : Prop := 0 <= snd p <= fst p /\ fst p <= 1 /\ snd p < 1.
Theorem C76_partial big l : Forall ratios l ->
  hist_T big (map (fun p => Fin (fst p)) l) (map (fun p => Fin (snd p)) l) =
  map (fun p => Fin ((1 - fst p * fst p) / (1 - snd p * snd p))) (filter (fun p => if Req_EM_T (fst p) 1 then false else true) l).
Proof.
  unfold hist_T. induction 1 as [|[q s] l (H1 & H2 & H3) Hl IH]; [reflexivity|]. cbn [map combine fst snd] in *. cbn [filter]. rewrite IH. clear IH.
  destruct (C76_range q s H1 H2 H3) as (t & Ht & Hr & H0 & _). assert (Hs : s * s <> 1) by nra.
  pose proof (triax_fin q s Hs) as Hf. rewrite Ht in *. assert (t = (1 - q * q) / (1 - s * s)) as Et by congruence.
  unfold nan_to_num, zero_to_nan, xeqb. cbn [fst]. destruct (Req_EM_T t 0) as [E|E]; destruct (Req_EM_T q 1) as [F|F]; cbn [xisnan negb map fst snd];
    [reflexivity | exfalso; tauto | exfalso; tauto | now rewrite <- Et].
Qed.
Print Assumptions C76_partial.
(** So an oblate object (q = 1, s < 1), whose triaxiality is 0, is not counted. *)
Theorem C76_refuted big : ~ (forall q s, ratios (q, s) -> length (hist_T big [Fin q] [Fin s]) = 1%nat).
Proof.
  intros H. assert (Hr : ratios (1, 1/2)) by (unfold ratios; simpl; lra). specialize (H 1 (1/2) Hr).
  pose proof (C76_partial big [(1, 1/2)] (Forall_cons _ Hr (Forall_nil _))) as P. simpl in P. rewrite P in H. destruct (Req_EM_T 1 1) as [_|E]; [discriminate H | contradiction].
Qed.
Print Assumptions C76_refuted.
Example C76_ex : ratios (8/10, 6/10) /\ ratios (1, 1/2) /\ hist_T 1 [Fin (8/10); Fin 1] [Fin (6/10); Fin (1/2)] = [Fin (9/16)].
Proof.
  assert (R1 : ratios (8/10, 6/10)) by (unfold ratios; simpl; lra). assert (R2 : ratios (1, 1/2)) by (unfold ratios; simpl; lra). split; [exact R1|]. split; [exact R2|].
  pose proof (C76_partial 1 [(8/10, 6/10); (1, 1/2)] (Forall_cons _ R1 (Forall_cons _ R2 (Forall_nil _)))) as P. simpl in P. rewrite P.
  destruct (Req_EM_T (8/10) 1) as [E|_]; [lra|]. destruct (Req_EM_T 1 1) as [_|E]; [|contradiction]. simpl. f_equal. f_equal. lra.
Qed.
