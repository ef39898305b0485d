(** The shape-curve test (C93) and the periodic reflection (C94). *)
From Coq Require Import Reals Bool ZArith List Lia Lra Permutation.
From Verif Require Import XR StatModel StatProps StatProps2 CosmoModel.
Import ListNotations.
Local Open Scope R_scope.

(** ** C93 *)
(** The radii in units of R200: D_BINS + 1, equally spaced in the logarithm. *)
Definition radius (s e : R) (bins j : nat) : R := Rpower 10 (s + INR j * ((e - s) / INR bins)).
(** A row of radii as getShapeCatLocal returns them: R200 times the radius, NaN if not converged. *)
Definition radii_row (s e : R) (bins : nat) (r200 : R) (row : list xr) : Prop :=
  length row = S bins /\ forall j, (j <= bins)%nat -> nth j row NaN = NaN \/ nth j row NaN = Fin (r200 * radius s e bins j).

Lemma radius_incr s e bins i j : s < e -> (1 <= bins)%nat -> (i < j)%nat -> radius s e bins i < radius s e bins j.
Proof.
  intros H Hb Hij. unfold radius. apply Rpower_lt; [lra|]. apply Rplus_lt_compat_l, Rmult_lt_compat_r.
  - apply Rdiv_lt_0_compat; [lra|]. now apply (lt_INR 0).
  - now apply lt_INR.
Qed.
Lemma radius_pos s e bins i : 0 < radius s e bins i.
Proof. apply exp_pos. Qed.
Lemma logspace_length s e bins : length (logspace s e bins) = S bins.
Proof. unfold logspace. rewrite map_length, seq_length. lia. Qed.
Lemma logspace_nth s e bins j : (j <= bins)%nat -> nth j (logspace s e bins) 0 = radius s e bins j.
Proof.
  intros H. unfold logspace. rewrite (nth_indep _ 0 (radius s e bins 0)) by (rewrite map_length, seq_length; lia).
  rewrite (map_nth (radius s e bins)). rewrite seq_nth by lia. reflexivity.
Qed.
Lemma nearest_self s e bins j i : s < e -> (1 <= bins)%nat -> (j <= bins)%nat ->
  nearest (logspace s e bins) (radius s e bins j) i -> i = j.
Proof.
  intros Hs Hb Hj (H1 & H2 & _). rewrite logspace_length in *. specialize (H2 j ltac:(lia)).
  rewrite !logspace_nth in H2 by lia. unfold Rminus in H2 at 2. rewrite Rplus_opp_r, Rabs_R0 in H2.
  destruct (Nat.lt_trichotomy i j) as [C|[C|C]]; [|exact C|];
    pose proof (radius_incr s e bins _ _ Hs Hb C); exfalso; revert H2; unfold Rabs; destruct (Rcase_abs _); lra.
Qed.
Lemma py_int_nat n : py_int (INR n) = Z.of_nat n.
Proof.
  unfold py_int. destruct (Rle_dec 0 (INR n)) as [_|H]; [|pose proof (pos_INR n); lra].
  unfold Int_part. rewrite <- (tech_up (INR n) (Z.of_nat n + 1)); [lia| |]; rewrite plus_IZR, <- INR_IZR_INZ; lra.
Qed.
Lemma ref_index_grid s e bins k : s < e -> (1 <= bins)%nat -> (k <= bins)%nat -> s + INR k * ((e - s) / INR bins) = 0 ->
  ref_index s e bins = Some (- Z.of_nat (bins - k) - 1)%Z.
Proof.
  intros Hs Hb Hk H0. unfold ref_index. assert (HB : 0 < INR bins) by now apply (lt_INR 0). destruct bins as [|b]; [lia|].
  assert (Hd : 0 < (e - s) / INR (S b)) by (apply Rdiv_lt_0_compat; lra).
  destruct (Req_EM_T ((e - s) / INR (S b)) 0) as [E|_]; [lra|].
  replace (e / ((e - s) / INR (S b))) with (INR (S b - k)); [now rewrite py_int_nat|].
  rewrite minus_INR by lia. set (w := (e - s) / INR (S b)) in *.
  assert (Ew : INR (S b) * w = e - s) by (unfold w; field; lra). apply (Rmult_eq_reg_r w); [|lra].
  replace (e / w * w) with e by (field; lra). rewrite Rmult_minus_distr_r, Ew. lra.
Qed.
Lemma py_get_ref row bins k : length row = S bins -> (k <= bins)%nat -> py_get row (- Z.of_nat (bins - k) - 1) = Some (nth k row NaN).
Proof.
  intros HL Hk. unfold py_get. rewrite HL. cbv zeta.
  destruct (Z.leb_spec 0 (- Z.of_nat (bins - k) - 1)); [lia|]. cbn [andb].
  destruct (Z.leb_spec (- Z.of_nat (S bins)) (- Z.of_nat (bins - k) - 1)); [|lia].
  destruct (Z.ltb_spec (- Z.of_nat (bins - k) - 1) 0); [|lia]. cbn [andb].
  replace (Z.to_nat _) with k by lia. apply nth_error_nth'. lia.
Qed.
Lemma place_right s e bins r j p : s < e -> (1 <= bins)%nat -> (j <= bins)%nat -> 0 < r -> xisnan p = false ->
  place (logspace s e bins) e (Fin r) (Fin (r * radius s e bins j)) p = Some (j, p).
Proof.
  intros Hs Hb Hj Hr Hp. unfold place. cbn [xdiv]. destruct (Req_EM_T r 0) as [E|_]; [lra|].
  replace (r * radius s e bins j / r) with (radius s e bins j) by (field; lra). pose proof (radius_pos s e bins j) as HP.
  rewrite Hp. cbn [orb xlog10]. destruct (Rlt_dec 0 (radius s e bins j)) as [_|]; [|contradiction].
  replace (ln (radius s e bins j) / ln 10) with (s + INR j * ((e - s) / INR bins)).
  2:{ unfold radius, Rpower. rewrite ln_exp. pose proof ln_lt_2. pose proof (ln_increasing 2 10). field. split; first [lra | apply not_0_INR; lia]. }
  cbn [xltb]. destruct (Rlt_dec e _) as [C|_].
  - exfalso. assert (HB : 0 < INR bins) by now apply (lt_INR 0). assert (INR j <= INR bins) by now apply le_INR.
    assert (INR j * ((e - s) / INR bins) <= INR bins * ((e - s) / INR bins)) by (apply Rmult_le_compat_r; [apply Rlt_le, Rdiv_lt_0_compat; lra | assumption]).
    replace (INR bins * ((e - s) / INR bins)) with (e - s) in * by (field; lra). lra.
  - f_equal. f_equal. apply (nearest_self s e bins j); trivial.
    rewrite (map_ext _ (fun a => Fin (Rabs (a - radius s e bins j)))) by reflexivity. apply np_argmin_nearest.
    intros E. apply (f_equal (@length R)) in E. rewrite logspace_length in E. discriminate.
Qed.
Lemma fold_append (bs : list (nat * xr)) : forall y, Forall (fun b => (fst b < length y)%nat) bs ->
  length (fold_left (fun y b => append_at y (fst b) (snd b)) bs y) = length y /\
  forall j, nth j (fold_left (fun y b => append_at y (fst b) (snd b)) bs y) [] = nth j y [] ++ map snd (filter (fun b => Nat.eqb (fst b) j) bs).
Proof.
  induction bs as [|b bs IH]; intros y H; cbn [fold_left]; [split; [reflexivity|]; intros; simpl; now rewrite app_nil_r|].
  inversion H as [|? ? H1 H2]; subst. destruct (IH (append_at y (fst b) (snd b))) as [E1 E2]; [rewrite append_at_length; exact H2|].
  rewrite append_at_length in E1. split; [exact E1|]. intros j. rewrite E2, append_at_nth by exact H1. cbn [filter].
  destruct (Nat.eqb (fst b) j); [rewrite <- app_assoc|]; reflexivity.
Qed.
Lemma place_row_right s e bins k r drow prow : s < e -> (1 <= bins)%nat -> (k <= bins)%nat -> radius s e bins k = 1 -> 0 < r ->
  radii_row s e bins r drow -> nth k drow NaN <> NaN ->
  (forall j, (j <= bins)%nat -> nth j prow NaN <> NaN -> nth j drow NaN <> NaN) ->
  place_row s e bins drow prow = Some (flat_map (fun j => if xisnan (nth j prow NaN) then [] else [(j, nth j prow NaN)]) (seq 0 (S bins))).
Proof.
  intros Hs Hb Hk H0 Hr (HL & HD) Hf Hp. unfold place_row.
  assert (H0' : s + INR k * ((e - s) / INR bins) = 0).
  { unfold radius, Rpower in H0. rewrite <- exp_0 in H0. apply exp_inv in H0. apply Rmult_integral in H0. destruct H0 as [H0|H0]; [exact H0|].
    pose proof ln_lt_2. pose proof (ln_increasing 2 10). lra. }
  rewrite (ref_index_grid s e bins k Hs Hb Hk H0'). rewrite (py_get_ref _ _ _ HL Hk).
  destruct (HD k Hk) as [E|E]; [contradiction|]. rewrite E, H0, Rmult_1_r. f_equal. replace (bins + 1)%nat with (S bins) by lia.
  rewrite !flat_map_concat_map. f_equal. apply map_ext_in. intros j Hj. apply in_seq in Hj.
  destruct (xisnan (nth j prow NaN)) eqn:En.
  - unfold place. now rewrite En.
  - destruct (HD j ltac:(lia)) as [Ej|Ej].
    + exfalso. apply (Hp j); [lia | | exact Ej]. intros C. rewrite C in En. discriminate.
    + rewrite Ej, place_right by (trivial; lia). reflexivity.
Qed.
Lemma filter_row (prow : list xr) j : forall n b, (b <= j < b + n)%nat ->
  map snd (filter (fun p => Nat.eqb (fst p) j) (flat_map (fun j => if xisnan (nth j prow NaN) then [] else [(j, nth j prow NaN)]) (seq b n))) =
  filter (fun x => negb (xisnan x)) [nth j prow NaN].
Proof.
  assert (N : forall n b, (j < b)%nat -> filter (fun p => Nat.eqb (fst p) j) (flat_map (fun j => if xisnan (nth j prow NaN) then [] else [(j, nth j prow NaN)]) (seq b n)) = []).
  { induction n as [|n IH]; intros b Hb; [reflexivity|]. cbn [seq flat_map]. rewrite filter_app, IH by lia. destruct (xisnan _); [reflexivity|].
    simpl. destruct (Nat.eqb_spec b j); [lia | reflexivity]. }
  induction n as [|n IH]; intros b Hb; [lia|]. cbn [seq flat_map]. rewrite filter_app, map_app.
  destruct (Nat.eqb_spec b j) as [->|Hn].
  - rewrite N by lia. cbn [filter map]. rewrite app_nil_r. destruct (xisnan (nth j prow NaN)) eqn:E; cbn [negb filter fst map snd]; [reflexivity|]. rewrite Nat.eqb_refl. reflexivity.
  - rewrite (IH (S b)) by lia. destruct (xisnan (nth b prow NaN)); [reflexivity|]. simpl. destruct (Nat.eqb_spec b j); [contradiction | reflexivity].
Qed.
(** The part that holds: the grid of radii contains R200 itself and every object converged there.
    Then the measurements at radius j of all objects are those in bin j. *)
Theorem C93_partial s e bins k r200 d param : s < e -> (1 <= bins)%nat -> (k <= bins)%nat -> radius s e bins k = 1 ->
  (forall o, (o < length param)%nat -> 0 < nth o r200 0 /\ radii_row s e bins (nth o r200 0) (nth o d []) /\ entry d (o, k) <> NaN) ->
  (forall o j, (o < length param)%nat -> (j <= bins)%nat -> entry param (o, j) <> NaN -> entry d (o, j) <> NaN) ->
  exists y, shape_curve_y s e bins d param = Some y /\ length y = S bins /\
    forall j, (j <= bins)%nat -> nth j y [] = filter (fun x => negb (xisnan x)) (map (fun o => entry param (o, j)) (seq 0 (length param))).
Proof.
  intros Hs Hb Hk H0 Hd Hp. unfold shape_curve_y.
  assert (G : forall n, (n <= length param)%nat -> exists y,
    fold_left (fun acc obj => match acc, place_row s e bins (nth obj d []) (nth obj param []) with
      | Some y, Some bs => Some (fold_left (fun y b => append_at y (fst b) (snd b)) bs y) | _, _ => None end) (seq 0 n) (Some (repeat [] (bins + 1))) = Some y /\
    length y = S bins /\ forall j, (j <= bins)%nat -> nth j y [] = filter (fun x => negb (xisnan x)) (map (fun o => entry param (o, j)) (seq 0 n))).
  { induction n as [|n IH]; intros Hn.
    - eexists. split; [reflexivity|]. rewrite repeat_length. split; [lia|]. intros j Hj. simpl. clear. revert j. induction (bins + 1)%nat; intros [|j]; simpl; auto.
    - destruct (IH ltac:(lia)) as (y & E & HL & HY). rewrite seq_S, fold_left_app, E. cbn [fold_left Nat.add].
      destruct (Hd n ltac:(lia)) as (Hr & HR & Hf).
      rewrite (place_row_right s e bins k (nth n r200 0)) by first [assumption | exact Hf | exact (fun j Hj => Hp n j ltac:(lia) Hj)].
      set (bs := flat_map _ _).
      assert (HB : Forall (fun b => (fst b < length y)%nat) bs).
      { apply Forall_forall. intros b Hi. unfold bs in Hi. apply in_flat_map in Hi. destruct Hi as (j & Hj & Hi). apply in_seq in Hj.
        destruct (xisnan _); [destruct Hi|]. destruct Hi as [<-|[]]. simpl. lia. }
      destruct (fold_append bs y HB) as [F1 F2]. eexists. split; [reflexivity|]. split; [lia|]. intros j Hj. rewrite F2, (HY j Hj), map_app, filter_app. f_equal.
      unfold bs. rewrite (filter_row _ j) by lia. reflexivity. }
  exact (G _ (le_n _)).
Qed.
Print Assumptions C93_partial.
Lemma rpow10 x : Rpower 10 x = exp (x * ln 10).
Proof. reflexivity. Qed.
Lemma rpow10_m1 : Rpower 10 (-1) = 1 / 10.
Proof. replace (-1) with (- (1)) by lra. rewrite Rpower_Ropp, Rpower_1 by lra. lra. Qed.
Example C93_example : radius (-1) 1 2 1 = 1 /\
  exists y, shape_curve_y (-1) 1 2 [[Fin (3 / 10); Fin 3; NaN]; [NaN; Fin 2; Fin 20]] [[Fin (1 / 2); Fin (2 / 3); NaN]; [NaN; Fin (3 / 4); Fin (4 / 5)]] = Some y /\
    nth 0 y [] = [Fin (1 / 2)] /\ nth 1 y [] = [Fin (2 / 3); Fin (3 / 4)] /\ nth 2 y [] = [Fin (4 / 5)].
Proof.
  assert (R0 : radius (-1) 1 2 0 = 1 / 10) by (unfold radius; simpl; replace (-1 + 0 * ((1 - -1) / (1 + 1))) with (-1) by field; apply rpow10_m1).
  assert (R1 : radius (-1) 1 2 1 = 1) by (unfold radius; simpl; replace (-1 + 1 * ((1 - -1) / (1 + 1))) with 0 by field; apply Rpower_O; lra).
  assert (R2 : radius (-1) 1 2 2 = 10) by (unfold radius; simpl; replace (-1 + (1 + 1) * ((1 - -1) / (1 + 1))) with 1 by field; apply Rpower_1; lra).
  split; [exact R1|].
  destruct (C93_partial (-1) 1 2 1 [3; 2] [[Fin (3 / 10); Fin 3; NaN]; [NaN; Fin 2; Fin 20]] [[Fin (1 / 2); Fin (2 / 3); NaN]; [NaN; Fin (3 / 4); Fin (4 / 5)]]) as (y & E & _ & H); trivial; try lra; try lia.
  - intros [|[|o]] Ho; simpl in Ho; [| |lia]; (split; [simpl; lra|]); (split; [|discriminate]); (split; [reflexivity|]);
      intros [|[|[|j]]] Hj; try lia; rewrite ?R0, ?R1, ?R2; simpl; auto; right; f_equal; lra.
  - intros [|[|o]] [|[|[|j]]] Ho Hj; simpl in Ho; try lia; unfold entry; simpl; intros A B; (discriminate B || contradiction).
  - exists y. split; [exact E|]. rewrite !H by lia. auto.
Qed.

(** An object that has not converged at R200: its measurement at ten times R200 counts as one at
    a tenth of R200. *)
Lemma argmin_nan grid : np_argmin (map (fun x => xabs (xsub (Fin x) NaN)) grid) = 0%nat.
Proof. destruct grid as [|x grid]; [reflexivity|]. simpl. destruct grid; reflexivity. Qed.
Theorem C93_nan_refuted : exists r200 row prow,
  0 < r200 /\ radii_row (-1) 1 2 r200 row /\ length prow = 3%nat /\ nth 2 row NaN = Fin (10 * r200) /\
  nth 2 prow NaN = Fin (4 / 5) /\ radius (-1) 1 2 0 = 1 / 10 /\
  shape_curve_y (-1) 1 2 [row] [prow] = Some [[Fin (1 / 2); Fin (4 / 5)]; []; []].
Proof.
  assert (R0 : radius (-1) 1 2 0 = 1 / 10) by (unfold radius; simpl; replace (-1 + 0 * ((1 - -1) / (1 + 1))) with (-1) by field; apply rpow10_m1).
  assert (R2 : radius (-1) 1 2 2 = 10) by (unfold radius; simpl; replace (-1 + (1 + 1) * ((1 - -1) / (1 + 1))) with 1 by field; apply Rpower_1; lra).
  assert (R1 : radius (-1) 1 2 1 = 1) by (unfold radius; simpl; replace (-1 + 1 * ((1 - -1) / (1 + 1))) with 0 by field; apply Rpower_O; lra).
  exists 1, [Fin (1 / 10); NaN; Fin 10], [Fin (1 / 2); NaN; Fin (4 / 5)]. split; [lra|]. split; [|split; [reflexivity|]].
  - split; [reflexivity|]. intros [|[|[|j]]] Hj; try lia; rewrite ?R0, ?R2; simpl; auto; right; f_equal; lra.
  - split; [simpl; f_equal; lra|]. split; [reflexivity|]. split; [exact R0|].
    unfold shape_curve_y. cbn [length seq fold_left nth]. unfold place_row.
    rewrite (ref_index_grid (-1) 1 2 1) by (first [lra | lia | simpl; lra]). rewrite (py_get_ref _ 2 1) by (first [reflexivity | lia]).
    cbn [nth]. cbn [Nat.add seq flat_map nth]. unfold place. cbn [xdiv xlog10]. rewrite argmin_nan. reflexivity.
Qed.
Print Assumptions C93_nan_refuted.
(** Three bins between a tenth of and ten times R200: the reference radius is 2.15 R200, and a fully
    converged object has its measurement at 0.46 R200 in the bin of 0.1 R200. *)
Theorem C93_refuted : exists row prow, radii_row (-1) 1 3 1 row /\ Forall (fun x => x <> NaN) row /\
  nth 1 row NaN = Fin (radius (-1) 1 3 1) /\ 2 / 5 < radius (-1) 1 3 1 < 1 / 2 /\ radius (-1) 1 3 0 = 1 / 10 /\
  prow = [NaN; Fin (3 / 4); NaN; NaN] /\ shape_curve_y (-1) 1 3 [row] [prow] = Some [[Fin (3 / 4)]; []; []; []].
Proof.
  set (c := Rpower 10 (1 / 3)).
  assert (Hc0 : 0 < c) by apply exp_pos.
  assert (Hc3 : c ^ 3 = 10).
  { unfold c. rewrite <- (Rpower_pow 3 (Rpower 10 (1 / 3))) by apply exp_pos. rewrite Rpower_mult. replace (1 / 3 * INR 3) with 1 by (simpl; field). apply Rpower_1. lra. }
  assert (Hc : 2 < c < 2.2) by (simpl in Hc3; split; nra).
  assert (R0 : radius (-1) 1 3 0 = 1 / 10) by (unfold radius; simpl; replace (-1 + 0 * ((1 - -1) / (1 + 1 + 1))) with (-1) by field; apply rpow10_m1).
  assert (R1 : radius (-1) 1 3 1 = / c) by (unfold radius, c; simpl; replace (-1 + 1 * ((1 - -1) / (1 + 1 + 1))) with (- (1 / 3)) by field; apply Rpower_Ropp).
  assert (R2 : radius (-1) 1 3 2 = c) by (unfold radius, c; simpl; f_equal; field).
  assert (R3 : radius (-1) 1 3 3 = 10) by (unfold radius; simpl; replace (-1 + (1 + 1 + 1) * ((1 - -1) / (1 + 1 + 1))) with 1 by field; apply Rpower_1; lra).
  clearbody c.
  assert (Hi : 0.45 < / c < 0.5).
  { split; [apply (Rmult_lt_reg_r c) | apply (Rmult_lt_reg_r c)]; trivial; rewrite Rinv_l by lra; lra. }
  exists [Fin (1 / 10); Fin (/ c); Fin c; Fin 10], [NaN; Fin (3 / 4); NaN; NaN].
  split; [|split; [repeat constructor; discriminate|]].
  - split; [reflexivity|]. intros [|[|[|[|j]]]] Hj; try lia; rewrite ?R0, ?R1, ?R2, ?R3, ?Rmult_1_l; simpl; auto.
  - rewrite R1. split; [reflexivity|]. split; [lra|]. split; [exact R0|]. split; [reflexivity|].
    unfold shape_curve_y. cbn [length seq fold_left nth]. unfold place_row.
    assert (EI : ref_index (-1) 1 3 = Some (-2)%Z).
    { unfold ref_index. destruct (Req_EM_T _ 0) as [E|_]; [simpl in E; lra|]. replace (1 / ((1 - -1) / INR 3)) with (3 / 2) by (simpl; field).
      unfold py_int. destruct (Rle_dec 0 (3 / 2)) as [_|]; [|lra]. unfold Int_part. rewrite <- (tech_up (3 / 2) 2) by lra. reflexivity. }
    rewrite EI. change (-2)%Z with (- Z.of_nat (3 - 2) - 1)%Z. rewrite (py_get_ref _ 3 2) by (first [reflexivity | lia]). cbn [Nat.add seq flat_map nth].
    unfold place. cbv zeta. cbn [xisnan orb app]. cbn [xdiv]. destruct (Req_EM_T c 0) as [E|_]; [lra|].
    assert (EL : xltb (Fin 1) (xlog10 (Fin (/ c / c))) = false).
    { assert (P : 0 < / c / c) by (apply Rdiv_lt_0_compat; lra). cbn [xlog10]. destruct (Rlt_dec 0 (/ c / c)) as [_|]; [|contradiction]. cbn [xltb].
      destruct (Rlt_dec 1 _) as [C|_]; [|reflexivity]. exfalso.
      assert (L10 : 0 < ln 10) by (pose proof ln_lt_2; pose proof (ln_increasing 2 10); lra).
      assert (ln (/ c / c) < 0). { rewrite <- ln_1. apply ln_increasing; [exact P|]. assert (/ c / c = / c * / c) by (unfold Rdiv; ring). nra. }
      apply (Rmult_lt_compat_r (ln 10)) in C; [|exact L10]. replace (ln (/ c / c) / ln 10 * ln 10) with (ln (/ c / c)) in C by (field; lra). lra. }
    rewrite EL. cbn [app fold_left fst snd].
    assert (EA : np_argmin (map (fun x => xabs (xsub (Fin x) (Fin (/ c / c)))) (logspace (-1) 1 3)) = 0%nat).
    { rewrite (map_ext _ (fun a => Fin (Rabs (a - / c / c)))) by reflexivity.
      assert (HN : logspace (-1) 1 3 <> []) by discriminate. destruct (np_argmin_nearest (logspace (-1) 1 3) (/ c / c) HN) as (N1 & N2 & _).
      set (i := np_argmin _) in *. clearbody i. rewrite logspace_length in N1, N2. specialize (N2 0%nat ltac:(lia)).
      assert (Q : / c / c = / c * / c) by (unfold Rdiv; ring). set (u := / c) in *. clearbody u.
      assert (HA : 0.2 < u / c < 0.25) by (rewrite Q; nra). assert (HB : u / c < 0.51 * u) by (rewrite Q; nra).
      rewrite (logspace_nth _ _ _ 0) in N2 by lia. rewrite R0 in N2. rewrite (Rabs_left (1 / 10 - u / c)) in N2 by lra.
      destruct i as [|[|[|[|i]]]]; [reflexivity| | | |lia]; exfalso; rewrite logspace_nth in N2 by lia; rewrite ?R1, ?R2, ?R3 in N2; rewrite Rabs_right in N2 by lra; nra. }
    rewrite EA. reflexivity.
Qed.
Print Assumptions C93_refuted.

(** Every value that is kept, also an infinite one, is counted in the tenth that numpy's argmin of
    lines 80 and 83 gives. *)
Lemma argmin_zero l i bi : Forall (fun x => exists r, x = Fin r /\ 0 <= r) l -> argmin_from l i (Fin 0) bi = bi.
Proof.
  intros H. revert i. induction H as [|x l (r & -> & Hr) _ IH]; intros i; cbn [argmin_from]; [reflexivity|].
  cbn [xisnan orb xltb]. destruct (Rlt_dec r 0); [lra|]. apply IH.
Qed.
Lemma closest10_zero : closest10 0 = 0%nat.
Proof.
  unfold closest10, y_ax. cbn [seq map np_argmin].
  replace (Rabs (INR 0 / 9 - 0)) with 0 by (cbn [INR]; rewrite <- (Rabs_R0) at 1; f_equal; lra).
  apply argmin_zero. repeat constructor; eexists; (split; [reflexivity|apply Rabs_pos]).
Qed.
Theorem C93_values p : p <> NaN -> closest10 (xval p) = np_argmin (map (fun a => xabs (xsub (Fin a) p)) y_ax).
Proof.
  intros H. destruct p; try congruence.
  - reflexivity.
  - cbn [xval]. rewrite closest10_zero. reflexivity.
  - cbn [xval]. rewrite closest10_zero. reflexivity.
Qed.
Print Assumptions C93_values.
Example C93_values_ex : closest10 (xval PInf) = 0%nat /\ PInf <> NaN.
Proof. split; [exact closest10_zero|discriminate]. Qed.

(** ** C94 *)
(** A periodic image of a coordinate. *)
Definition image (L x y : R) : Prop := exists n : Z, y = x + IZR n * L.
(** Not an image: a particle at 0.95 of the box comes to lie at 0.05 next to one at 0.1, instead of
    at -0.05, and its distance from the first changes from 0.15 to 0.05. *)
Theorem C94_refuted : exists y, respectPBC 1 ([0.1; 0.95], [0; 0], [0; 0]) = Some ([0.1; y], [0; 0], [0; 0]) /\
  ~ image 1 0.95 y /\ image 1 0.95 (-0.05) /\ Rabs (y - 0.1) < Rabs (-0.05 - 0.1).
Proof.
  exists 0.05. split.
  - unfold respectPBC, reflect. cbn [map]. destruct (Rlt_dec (1 / 2) (Rabs (0.1 - 0.1))) as [C|_]; [rewrite Rabs_right in C; lra|].
    destruct (Rlt_dec (1 / 2) (Rabs (0.1 - 0.95))) as [_|C]; [|rewrite Rabs_left in C; lra].
    destruct (Rlt_dec (1 / 2) (Rabs (0 - 0))) as [C|_]; [rewrite Rabs_right in C; lra|]. repeat f_equal. lra.
  - split; [|split].
    + intros (n & E). assert (C1 : -1 < IZR n < 0) by lra. destruct C1 as [C1 C2]. apply lt_IZR in C2. apply (lt_IZR (-1)) in C1. lia.
    + exists (-1)%Z. lra.
    + rewrite !Rabs_left by lra. lra.
Qed.
Print Assumptions C94_refuted.
(** What holds: particles of the box end in the box and within half a box length of the first in each
    direction; an object that does not straddle the boundary is left alone. *)
Theorem C94_partial L xs : 0 < L -> Forall (fun x => 0 <= x <= L) xs ->
  length (reflect L xs) = length xs /\ Forall (fun y => 0 <= y <= L /\ Rabs (y - hd 0 xs) <= L / 2) (reflect L xs) /\
  hd 0 (reflect L xs) = hd 0 xs /\ (Forall (fun x => Rabs (x - hd 0 xs) <= L / 2) xs -> reflect L xs = xs).
Proof.
  intros HL HB. destruct xs as [|r xs]; [simpl; auto|]. assert (Hr : 0 <= r <= L) by now inversion HB. unfold reflect. rewrite map_length. split; [reflexivity|]. split; [|split].
  - apply Forall_forall. intros y Hy. apply in_map_iff in Hy. destruct Hy as (x & <- & Hx). rewrite Forall_forall in HB. specialize (HB x Hx). cbn [hd].
    destruct (Rlt_dec (L / 2) (Rabs (r - x))) as [C|C].
    + split; [lra|]. revert C. unfold Rabs. destruct (Rcase_abs (r - x)), (Rcase_abs (L - x - r)); lra.
    + split; [lra|]. rewrite Rabs_minus_sym. lra.
  - cbn [map hd]. destruct (Rlt_dec (L / 2) (Rabs (r - r))) as [C|_]; [|reflexivity]. unfold Rminus in C. rewrite Rplus_opp_r, Rabs_R0 in C. lra.
  - cbn [hd]. intros H. rewrite <- (map_id (r :: xs)) at 2. apply map_ext_in. intros x Hx. rewrite Forall_forall in H. specialize (H x Hx). rewrite Rabs_minus_sym in H.
    destruct (Rlt_dec (L / 2) (Rabs (r - x))); [lra | reflexivity].
Qed.
Print Assumptions C94_partial.
Example C94_example : Forall (fun x => 0 <= x <= 1) [0.1; 0.95] /\ reflect 1 [0.1; 0.95] = [0.1; 1 - 0.95].
Proof.
  split; [repeat constructor; lra|]. unfold reflect. cbn [map]. destruct (Rlt_dec (1 / 2) (Rabs (0.1 - 0.1))) as [C|_]; [rewrite Rabs_right in C; lra|].
  destruct (Rlt_dec (1 / 2) (Rabs (0.1 - 0.95))) as [_|C]; [reflexivity | rewrite Rabs_left in C; lra].
Qed.
