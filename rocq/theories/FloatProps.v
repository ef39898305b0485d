(** C118: single precision totals. *)
From Coq Require Import List Reals ZArith Lra Lia Bool.
From Verif Require Import ListUtil XR GeoModel GeoSpec GeoProofs ShapeModel ShapeSpec FloatModel.
Import ListNotations.
Open Scope R_scope.

(** ** Rounding *)
Lemma pow2_pos z : 0 < powerRZ 2 z.
Proof. apply powerRZ_lt. lra. Qed.
Lemma pow2_add a b : powerRZ 2 (a + b) = powerRZ 2 a * powerRZ 2 b.
Proof. apply powerRZ_add. lra. Qed.
Lemma pow2_inv a b : (a + b = 0)%Z -> powerRZ 2 a * powerRZ 2 b = 1.
Proof. intros H. rewrite <- pow2_add, H. reflexivity. Qed.
Lemma pow2_lt a b : (a < b)%Z -> powerRZ 2 a < powerRZ 2 b.
Proof. intros H. rewrite !powerRZ_Rpower by lra. apply Rpower_lt; [lra|]. apply IZR_lt. exact H. Qed.
Lemma pow2_le a b : (a <= b)%Z -> powerRZ 2 a <= powerRZ 2 b.
Proof. intros H. destruct (Z.eq_dec a b) as [->|]; [lra|]. apply Rlt_le, pow2_lt. lia. Qed.
Lemma pow2_lt_inv a b : powerRZ 2 a < powerRZ 2 b -> (a < b)%Z.
Proof. intros H. destruct (Z_lt_le_dec a b) as [|L]; [assumption|]. apply pow2_le in L. lra. Qed.
Lemma pow2_IZR z : (0 <= z)%Z -> powerRZ 2 z = IZR (2 ^ z).
Proof.
  intros H. rewrite <- (Z2Nat.id z H) at 1. rewrite <- pow_powerRZ. rewrite <- (Z2Nat.id z H) at 2. rewrite pow_IZR. reflexivity.
Qed.

Lemma mag_bounds x : x <> 0 -> powerRZ 2 (mag x - 1) <= Rabs x < powerRZ 2 (mag x).
Proof.
  intros Hx. assert (P : 0 < Rabs x) by (apply Rabs_pos_lt; exact Hx). assert (L2 : 0 < ln 2) by (rewrite <- ln_1; apply ln_increasing; lra).
  set (l := ln (Rabs x) / ln 2). assert (E : Rabs x = Rpower 2 l) by (unfold Rpower, l; replace (ln (Rabs x) / ln 2 * ln 2) with (ln (Rabs x)) by (field; lra); symmetry; apply exp_ln; exact P).
  unfold mag. fold l. destruct (base_Int_part l) as (A & B). rewrite !powerRZ_Rpower by lra. rewrite E.
  replace (Int_part l + 1 - 1)%Z with (Int_part l) by lia. rewrite plus_IZR. split.
  - apply Rle_Rpower; lra.
  - apply Rpower_lt; lra.
Qed.
Lemma mag_unique x k : powerRZ 2 (k - 1) <= Rabs x < powerRZ 2 k -> mag x = k.
Proof.
  intros (A & B). assert (x <> 0) by (intros ->; rewrite Rabs_R0 in A; pose proof (pow2_pos (k - 1)); lra).
  destruct (mag_bounds x H) as (C & D).
  assert (mag x - 1 < k)%Z by (apply pow2_lt_inv; lra). assert (k - 1 < mag x)%Z by (apply pow2_lt_inv; lra). lia.
Qed.
Lemma near_err t : Rabs (IZR (near t) - t) <= 1/2.
Proof.
  unfold near. destruct (base_Int_part t) as (A & B). set (f := Int_part t) in *. clearbody f.
  destruct (Rlt_dec _ _); [apply Rabs_le; lra|]. destruct (Rlt_dec _ _); [rewrite plus_IZR; apply Rabs_le; lra|].
  destruct (Z.even f); rewrite ?plus_IZR; apply Rabs_le; lra.
Qed.
Lemma Int_part_IZR_plus z r : 0 <= r < 1 -> Int_part (IZR z + r) = z.
Proof.
  intros H. destruct (base_Int_part (IZR z + r)) as (A & B). set (f := Int_part _) in *. clearbody f.
  assert (IZR f < IZR (z + 1)) by (rewrite plus_IZR; lra). assert (IZR z < IZR (f + 1)) by (rewrite plus_IZR; lra). apply lt_IZR in H0, H1. lia.
Qed.
Lemma near_int z : near (IZR z) = z.
Proof.
  assert (E : Int_part (IZR z) = z) by (rewrite <- (Int_part_IZR_plus z 0) at 2 by lra; f_equal; ring).
  unfold near. rewrite E. destruct (Rlt_dec _ _); [reflexivity|lra].
Qed.
Lemma near_half z : near (IZR z + 1/2) = if Z.even z then z else (z + 1)%Z.
Proof. unfold near. rewrite !Int_part_IZR_plus by lra. destruct (Rlt_dec _ _); [lra|]. destruct (Rlt_dec _ _); [lra|reflexivity]. Qed.

(** Numbers with p binary digits are kept. *)
Lemma rnd_exact p m e : (Z.abs m < 2 ^ p)%Z -> (0 <= p)%Z -> rnd p (IZR m * powerRZ 2 e) = IZR m * powerRZ 2 e.
Proof.
  intros Hm Hp. set (x := IZR m * powerRZ 2 e). unfold rnd. destruct (Req_EM_T x 0) as [E|N]; [symmetry; exact E|].
  destruct (mag_bounds x N) as (A & _).
  assert (K : Rabs x < powerRZ 2 (p + e)).
  { unfold x. rewrite Rabs_mult, (Rabs_right (powerRZ 2 e)) by (apply Rle_ge, Rlt_le, pow2_pos). rewrite pow2_add.
    apply Rmult_lt_compat_r; [apply pow2_pos|]. rewrite <- abs_IZR, pow2_IZR by exact Hp. apply IZR_lt. exact Hm. }
  assert (L : (mag x - 1 < p + e)%Z) by (apply pow2_lt_inv; lra).
  assert (E : x * powerRZ 2 (p - mag x) = IZR (m * 2 ^ (e + (p - mag x)))).
  { unfold x at 1. rewrite mult_IZR, <- pow2_IZR by lia. rewrite pow2_add. ring. }
  rewrite E, near_int, <- E. rewrite Rmult_assoc, pow2_inv by lia. ring.
Qed.
Lemma rnd_small p z e : (1 <= p)%Z -> (Z.abs z <= 2 ^ p)%Z -> rnd p (IZR z * powerRZ 2 e) = IZR z * powerRZ 2 e.
Proof.
  intros Hp Hz. destruct (Z.eq_dec (Z.abs z) (2 ^ p)) as [E|]; [|apply rnd_exact; lia].
  assert (P : (2 ^ p = 2 * 2 ^ (p - 1))%Z) by (rewrite <- Z.pow_succ_r by lia; f_equal; lia).
  assert (Q : (0 < 2 ^ (p - 1))%Z) by (apply Z.pow_pos_nonneg; lia).
  assert (exists w, z = (2 * w)%Z /\ (Z.abs w < 2 ^ p)%Z) as (w & -> & Hw).
  { destruct (Z.abs_eq_or_opp z) as [F|F]; [exists (2 ^ (p - 1))%Z|exists (- 2 ^ (p - 1))%Z]; lia. }
  replace (IZR (2 * w) * powerRZ 2 e) with (IZR w * powerRZ 2 (1 + e)) by (rewrite mult_IZR, pow2_add, powerRZ_1; ring). apply rnd_exact; lia.
Qed.
Lemma rnd_err p x : Rabs (rnd p x - x) <= powerRZ 2 (- p) * Rabs x.
Proof.
  unfold rnd. destruct (Req_EM_T x 0) as [->|N]; [rewrite Rminus_0_r, Rabs_R0; lra|]. destruct (mag_bounds x N) as (A & _).
  set (t := x * powerRZ 2 (p - mag x)). assert (E : x = t * powerRZ 2 (mag x - p)) by (unfold t; rewrite Rmult_assoc, pow2_inv by lia; ring).
  replace (IZR (near t) * powerRZ 2 (mag x - p) - x) with ((IZR (near t) - t) * powerRZ 2 (mag x - p)) by (rewrite Rmult_minus_distr_r, <- E; reflexivity).
  rewrite Rabs_mult, (Rabs_right (powerRZ 2 (mag x - p))) by (apply Rle_ge, Rlt_le, pow2_pos).
  eapply Rle_trans; [apply Rmult_le_compat_r; [apply Rlt_le, pow2_pos|apply near_err]|].
  replace (1 / 2 * powerRZ 2 (mag x - p)) with (powerRZ 2 (- p) * powerRZ 2 (mag x - 1)).
  - apply Rmult_le_compat_l; [apply Rlt_le, pow2_pos|exact A].
  - replace (1/2) with (powerRZ 2 (-1)) by (simpl; lra). rewrite <- !pow2_add. f_equal. lia.
Qed.

(** ** The total *)
(** Relative error of one addition. *)
Definition ulp : R := (1 + powerRZ 2 (-24)) * (1 + powerRZ 2 (-53)) - 1.
Lemma pow2_neg z : (0 <= z)%Z -> powerRZ 2 (- z) = / IZR (2 ^ z).
Proof.
  intros H. rewrite <- pow2_IZR by exact H. pose proof (pow2_pos z). apply (Rmult_eq_reg_r (powerRZ 2 z)); [|lra].
  rewrite pow2_inv by lia. field. lra.
Qed.
Lemma p24 : powerRZ 2 (-24) = / 16777216.
Proof. exact (pow2_neg 24 ltac:(lia)). Qed.
Lemma p53 : powerRZ 2 (-53) = / 9007199254740992.
Proof. exact (pow2_neg 53 ltac:(lia)). Qed.
Lemma ulp_range : 0 < ulp < / 16777215.
Proof. unfold ulp. rewrite p24, p53. lra. Qed.
Lemma abs_le_inv x a : Rabs x <= a -> - a <= x <= a.
Proof. unfold Rabs. destruct (Rcase_abs x); lra. Qed.
Lemma add32_err t m : 0 <= t -> 0 <= m -> (1 - ulp) * (t + m) <= add32 t m <= (1 + ulp) * (t + m).
Proof.
  intros Ht Hm. unfold add32. set (x := t + m). assert (Hx : 0 <= x) by (unfold x; lra). clearbody x.
  pose proof (rnd_err 53 x) as A. rewrite (Rabs_right x) in A by lra. apply abs_le_inv in A. set (y := rnd 53 x) in *. clearbody y.
  unfold ulp. pose proof (rnd_err 24 y) as B. change (- (24))%Z with (-24)%Z in *. change (- (53))%Z with (-53)%Z in *. rewrite p24 in *. rewrite p53 in *.
  assert (Hy : 0 <= y) by lra. rewrite (Rabs_right y) in B by lra. apply abs_le_inv in B. lra.
Qed.
Lemma fold_bounds ms : forall k a t, 0 <= a -> (forall m, In m ms -> 0 <= m) -> (1 - ulp) ^ k * a <= t <= (1 + ulp) ^ k * a ->
  (1 - ulp) ^ (k + length ms) * (a + total (fun m => m) ms) <= fold_left add32 ms t <= (1 + ulp) ^ (k + length ms) * (a + total (fun m => m) ms).
Proof.
  pose proof ulp_range as U. induction ms as [|m ms IH]; intros k a t Ha Hm H; cbn [length fold_left total map fold_right].
  - rewrite Nat.add_0_r, Rplus_0_r. exact H.
  - assert (Pm : 0 <= m) by (apply Hm; left; reflexivity).
    assert (L0 : 0 < (1 - ulp) ^ k <= 1) by (split; [apply pow_lt; lra|]; pose proof (pow_incr (1 - ulp) 1 k ltac:(lra)) as I; rewrite pow1 in I; exact I).
    assert (L1 : 1 <= (1 + ulp) ^ k) by (apply pow_R1_Rle; lra).
    assert (Ht : 0 <= t) by (eapply Rle_trans; [|exact (proj1 H)]; apply Rmult_le_pos; lra).
    pose proof (add32_err t m Ht Pm) as E.
    assert (S1 : (1 - ulp) ^ S k * (a + m) <= add32 t m <= (1 + ulp) ^ S k * (a + m)).
    { cbn [pow]. split.
      - eapply Rle_trans; [|exact (proj1 E)]. rewrite Rmult_assoc. apply Rmult_le_compat_l; [lra|]. nra.
      - eapply Rle_trans; [exact (proj2 E)|]. rewrite Rmult_assoc. apply Rmult_le_compat_l; [lra|]. nra. }
    specialize (IH (S k) (a + m) (add32 t m) ltac:(lra) (fun x Hx => Hm x (or_intror Hx)) S1).
    replace (k + S (length ms))%nat with (S k + length ms)%nat by lia. rewrite <- Rplus_assoc. exact IH.
Qed.
Lemma total32_bounds ms : (forall m, In m ms -> 0 <= m) ->
  (1 - ulp) ^ length ms * total (fun m => m) ms <= total32 ms <= (1 + ulp) ^ length ms * total (fun m => m) ms.
Proof.
  intros H. pose proof (fold_bounds ms 0 0 0 ltac:(lra) H ltac:(cbn; lra)) as B. cbn [Nat.add] in B. rewrite Rplus_0_l in B. exact B.
Qed.
Lemma bernoulli_low n v : 0 <= v <= 1 -> 1 - INR n * v <= (1 - v) ^ n.
Proof.
  intros Hv. induction n as [|n IH]; [cbn; lra|]. rewrite S_INR. cbn [pow]. pose proof (pos_INR n).
  assert (0 <= (1 - v) ^ n) by (apply pow_le; lra).
  destruct (Rle_dec 0 (1 - INR n * v)) as [P|P]; [|apply Rle_trans with 0; [nra|apply Rmult_le_pos; lra]].
  apply Rle_trans with ((1 - v) * (1 - INR n * v)); [nra|]. apply Rmult_le_compat_l; lra.
Qed.
Lemma bernoulli_high n v : 0 <= v <= 1 -> INR n * v < 1 -> (1 + v) ^ n <= / (1 - INR n * v).
Proof.
  intros Hv H. pose proof (bernoulli_low n v Hv) as L. assert (P : 0 < (1 - v) ^ n) by lra.
  apply Rle_trans with (/ (1 - v) ^ n); [|apply Rinv_le_contravar; lra].
  apply (Rmult_le_reg_r ((1 - v) ^ n)); [exact P|]. rewrite Rinv_l by lra. rewrite <- Rpow_mult_distr.
  pose proof (pow_incr ((1 + v) * (1 - v)) 1 n ltac:(nra)) as I. rewrite pow1 in I. exact I.
Qed.

(** ** Vectors *)
Lemma com_fold (T : R) ps : forall c, fold_left (fun com p => mkV (vx com + snd p * vx (fst p) / T) (vy com + snd p * vy (fst p) / T) (vz com + snd p * vz (fst p) / T)) ps c =
  mkV (vx c + total (fun p : ptc => snd p * vx (fst p)) ps / T) (vy c + total (fun p : ptc => snd p * vy (fst p)) ps / T) (vz c + total (fun p : ptc => snd p * vz (fst p)) ps / T).
Proof.
  induction ps as [|p ps IH]; intros c; [destruct c; cbn; unfold Rdiv; rewrite !Rmult_0_l, !Rplus_0_r; reflexivity|].
  cbn [fold_left]. rewrite IH. cbn [vx vy vz total map fold_right]. unfold Rdiv. f_equal; ring.
Qed.
Lemma fold_total ps : forall a, fold_left (fun acc (p : ptc) => acc + snd p) ps a = a + total snd ps.
Proof. induction ps as [|p ps IH]; intros a; cbn; [ring|]. rewrite IH. unfold total. ring. Qed.
Lemma total_snd (ps : list ptc) : total (fun m => m) (map snd ps) = total snd ps.
Proof. induction ps as [|p ps IH]; cbn; [reflexivity|]. f_equal. exact IH. Qed.

(** * C118 *)
(** The centre has the factor by which the total is off. *)
Theorem C118_factor : forall ps, mass ps <> 0 -> com32 ps = vscale (mass ps / total32 (map snd ps)) (cy_calcCoM ps).
Proof.
  intros ps H. unfold com32, cy_calcCoM. rewrite !com_fold, fold_total, Rplus_0_l. change (total snd ps) with (mass ps).
  set (T := total32 _). clearbody T. unfold vscale, v0. cbn [vx vy vz]. unfold Rdiv. set (M := mass ps) in *. set (k := / T). clearbody M k.
  f_equal; field; exact H.
Qed.
Print Assumptions C118_factor.

(** Few particles: the total is off by at most one part in 2^24 per particle, whatever their masses. *)
Theorem C118_partial : forall ms, (forall m, In m ms -> 0 <= m) -> INR (length ms) * ulp < 1 ->
  Rabs (total32 ms - total (fun m => m) ms) <= INR (length ms) * ulp / (1 - INR (length ms) * ulp) * total (fun m => m) ms.
Proof.
  intros ms H Hn. pose proof ulp_range as U. pose proof (total32_bounds ms H) as (A & B). set (M := total (fun m => m) ms) in *.
  assert (PM : 0 <= M).
  { unfold M. clear - H. induction ms as [|m ms IH]; cbn; [lra|]. specialize (IH (fun x Hx => H x (or_intror Hx))). pose proof (H m (or_introl eq_refl)). lra. }
  clearbody M. pose proof (bernoulli_low (length ms) ulp ltac:(lra)) as L. pose proof (bernoulli_high (length ms) ulp ltac:(lra) Hn) as G.
  set (e := INR (length ms) * ulp) in *. assert (He : 0 <= e) by (unfold e; apply Rmult_le_pos; [apply pos_INR|lra]). clearbody e.
  assert (K1 : total32 ms <= / (1 - e) * M) by (eapply Rle_trans; [exact B|apply Rmult_le_compat_r; assumption]).
  assert (K2 : (1 - e) * M <= total32 ms) by (eapply Rle_trans; [|exact A]; apply Rmult_le_compat_r; assumption).
  assert (K3 : / (1 - e) = 1 + e / (1 - e)) by (field; lra). rewrite K3 in K1.
  assert (K4 : e <= e / (1 - e)).
  { apply (Rmult_le_reg_r (1 - e)); [lra|]. unfold Rdiv. rewrite (Rmult_assoc e), Rinv_l by lra. nra. }
  apply Rabs_le. split; nra.
Qed.
Print Assumptions C118_partial.

(** Masses that are multiples of one power of two, up to 2^24 of it in total: the total is exact. *)
Theorem C118_exact : forall zs e, (forall z, In z zs -> (0 <= z)%Z) -> (fold_right Z.add 0 zs <= 2 ^ 24)%Z ->
  total32 (map (fun z => IZR z * powerRZ 2 e) zs) = total (fun m => m) (map (fun z => IZR z * powerRZ 2 e) zs).
Proof.
  intros zs e Hz Hs.
  assert (G : forall l a, (0 <= a)%Z -> (forall z, In z l -> (0 <= z)%Z) -> (a + fold_right Z.add 0 l <= 2 ^ 24)%Z ->
    fold_left add32 (map (fun z => IZR z * powerRZ 2 e) l) (IZR a * powerRZ 2 e) = IZR a * powerRZ 2 e + total (fun m => m) (map (fun z => IZR z * powerRZ 2 e) l)).
  { clear. induction l as [|z l IH]; intros a Ha Hz Hs; cbn [map fold_left fold_right total] in *; [ring|].
    assert (Pz : (0 <= z)%Z) by (apply Hz; left; reflexivity).
    assert (Pl : (0 <= fold_right Z.add 0 l)%Z).
    { assert (Hl : forall z, In z l -> (0 <= z)%Z) by (intros; apply Hz; right; assumption). clear - Hl. induction l as [|y l IH]; cbn; [lia|].
      specialize (IH (fun x Hx => Hl x (or_intror Hx))). pose proof (Hl y (or_introl eq_refl)). lia. }
    assert (E : add32 (IZR a * powerRZ 2 e) (IZR z * powerRZ 2 e) = IZR (a + z) * powerRZ 2 e).
    { unfold add32. rewrite <- Rmult_plus_distr_r, <- plus_IZR.
      rewrite (rnd_small 53) by lia.
      apply rnd_small; lia. }
    rewrite E, IH; [rewrite plus_IZR; ring|lia|intros; apply Hz; right; assumption|lia]. }
  specialize (G zs 0%Z ltac:(lia) Hz ltac:(lia)). rewrite Rmult_0_l, Rplus_0_l in G. exact G.
Qed.
Print Assumptions C118_exact.

(** From 2^24 particles of mass 1 on, the total does not grow any more. *)
Lemma full : add32 (IZR (2 ^ 24)) 1 = IZR (2 ^ 24).
Proof.
  unfold add32. replace (IZR (2 ^ 24) + 1) with (IZR (2 ^ 24 + 1) * powerRZ 2 0) by (rewrite plus_IZR; cbn [powerRZ]; ring).
  rewrite rnd_small by (vm_compute; discriminate). cbn [powerRZ]. rewrite Rmult_1_r. unfold rnd. destruct (Req_EM_T _ 0) as [E|_]; [apply eq_IZR in E; discriminate|].
  assert (Mg : mag (IZR (2 ^ 24 + 1)) = 25%Z).
  { apply mag_unique. rewrite !pow2_IZR by lia. rewrite Rabs_right by (apply Rle_ge, IZR_le; vm_compute; discriminate).
    split; [apply IZR_le|apply IZR_lt]; vm_compute; [discriminate|reflexivity]. }
  rewrite Mg. replace (IZR (2 ^ 24 + 1) * powerRZ 2 (24 - 25)) with (IZR (2 ^ 23) + 1/2).
  - rewrite near_half. replace (Z.even (2 ^ 23)) with true by reflexivity. rewrite pow2_IZR by lia. rewrite <- mult_IZR. reflexivity.
  - change (24 - 25)%Z with (- (1))%Z. rewrite (pow2_neg 1) by lia. change (2 ^ 1)%Z with 2%Z. change (2 ^ 24 + 1)%Z with 16777217%Z. change (2 ^ 23)%Z with 8388608%Z. lra.
Qed.
Lemma total_repeat n : total (fun m => m) (repeat 1 n) = INR n.
Proof. induction n as [|n IH]; [reflexivity|]. rewrite S_INR. cbn. rewrite IH. ring. Qed.
Lemma saturated k : fold_left add32 (repeat 1 k) (IZR (2 ^ 24)) = IZR (2 ^ 24).
Proof. induction k as [|k IH]; [reflexivity|]. cbn [repeat fold_left]. rewrite full. exact IH. Qed.
Lemma sum_ones n : fold_right Z.add 0%Z (repeat 1%Z n) = Z.of_nat n.
Proof. induction n as [|n IH]; [reflexivity|]. cbn [repeat fold_right]. rewrite IH. lia. Qed.
Theorem C118_total : forall n, total32 (repeat 1 n) = IZR (Z.min (Z.of_nat n) (2 ^ 24)).
Proof.
  assert (S : forall n, (Z.of_nat n <= 2 ^ 24)%Z -> total32 (repeat 1 n) = IZR (Z.of_nat n)).
  { intros n Hn. pose proof (C118_exact (repeat 1%Z n) 0) as E. cbn [powerRZ] in E.
    assert (M : map (fun z => IZR z * 1) (repeat 1%Z n) = repeat 1 n) by (clear; induction n as [|n IH]; [reflexivity|]; cbn [repeat map]; rewrite IH; f_equal; ring).
    rewrite M, total_repeat, <- INR_IZR_INZ in *. apply E; [intros z Hz; apply repeat_spec in Hz; lia|]. rewrite sum_ones. exact Hn. }
  intros n. destruct (Z_le_gt_dec (Z.of_nat n) (2 ^ 24)) as [L|L]; [rewrite Z.min_l by lia; apply S; exact L|]. rewrite Z.min_r by lia.
  assert (exists K, Z.of_nat K = 2 ^ 24)%Z as (K & HK) by (destruct (Z_of_nat_complete (2 ^ 24)) as (K & HK); [lia|exists K; auto]).
  replace n with (K + (n - K))%nat by lia. rewrite repeat_app. unfold total32. rewrite fold_left_app. fold (total32 (repeat 1 K)).
  rewrite S by lia. rewrite HK. apply saturated.
Qed.
Print Assumptions C118_total.

Theorem C118_refuted : forall p n, (2 ^ 24 <= Z.of_nat n)%Z -> com32 (repeat (p, 1) n) = vscale (INR n / IZR (2 ^ 24)) p.
Proof.
  intros p n Hn. assert (M : map snd (repeat (p, 1) n) = repeat 1 n) by (clear; induction n as [|n IH]; [reflexivity|]; cbn; rewrite IH; reflexivity).
  unfold com32. rewrite M, C118_total, Z.min_r by exact Hn. rewrite com_fold.
  assert (T : forall f : ptc -> R, total f (repeat (p, 1) n) = INR n * f (p, 1)) by (intros f; clear; induction n as [|n IH]; [cbn; ring|]; rewrite S_INR; cbn [repeat total]; rewrite IH; ring).
  rewrite !T. unfold v0, vscale. cbn [fst snd vx vy vz]. unfold Rdiv. f_equal; ring.
Qed.
Print Assumptions C118_refuted.

(** The axis ratios and axes do not depend on the total. *)
Lemma shape_scale h k d mi : 0 < k -> shape_of h d mi -> shape_of (fun i j => k * h i j) d mi.
Proof.
  intros Hk (l0 & l1 & l2 & a & b & c & P & L & Ho & A & B & C & R).
  exists (k * l0), (k * l1), (k * l2), a, b, c. replace (k * l1 / (k * l2)) with (l1 / l2) by (field; lra). replace (k * l0 / (k * l2)) with (l0 / l2) by (field; lra).
  assert (K : forall l e, eigenvector h l e -> eigenvector (fun i j => k * h i j) (k * l) e).
  { intros l e H i Hi. specialize (H i Hi). transitivity (k * (h i 0%nat * vx e + h i 1%nat * vy e + h i 2%nat * vz e)); [ring|rewrite H; ring]. }
  repeat split; auto; try apply Ho; try apply R; [nra|apply Rmult_le_compat_l; lra|apply Rmult_le_compat_l; lra].
Qed.
Lemma shape_eq h h' d mi : (forall i j, h i j = h' i j) -> shape_of h d mi -> shape_of h' d mi.
Proof.
  intros E (l0 & l1 & l2 & a & b & c & P & L & Ho & A & B & C & R). exists l0, l1, l2, a, b, c.
  assert (K : forall l e, eigenvector h l e -> eigenvector h' l e) by (intros l e H i Hi; rewrite <- !E; now apply H). auto 10.
Qed.
Lemma fold_sum {X} (f : X -> R) l : forall a, fold_left (fun acc k => acc + f k) l a = a + total f l.
Proof. induction l as [|x l IH]; intros a; cbn; [ring|]. rewrite IH. ring. Qed.
Lemma tensor_scaled nns masses center wt sel i j : total (fun k => nth k masses 0) sel <> 0 ->
  tensor32 nns masses center wt sel i j = total (fun k => nth k masses 0) sel / total32 (map (fun k => nth k masses 0) sel) * moment nns masses center wt sel i j.
Proof.
  intros H. unfold tensor32. rewrite (fold_sum (fun k => nth k masses 0 * (coord (nth k nns v0) i - coord center i) * (coord (nth k nns v0) j - coord center j) * wt k / total32 (map (fun k0 => nth k0 masses 0) sel))).
  rewrite Rplus_0_l. unfold moment. set (T := total32 _). set (M := total (fun k => nth k masses 0) sel) in *. clearbody T M.
  rewrite (total_ext _ (fun k => / T * (nth k masses 0 * wt k * (coord (nth k nns v0) i - coord center i) * (coord (nth k nns v0) j - coord center j)))) by (intros; unfold Rdiv; ring).
  rewrite total_scale. set (S := total _ sel). clearbody S. unfold Rdiv. rewrite <- (Rmult_1_l (/ T * S)) at 1. rewrite <- (Rinv_r M H). ring.
Qed.
Theorem C118_shapes : forall nns masses center wt sel d mi, (forall k, In k sel -> 0 <= nth k masses 0) -> 0 < total (fun k => nth k masses 0) sel ->
  (shape_of (tensor32 nns masses center wt sel) d mi <-> shape_of (moment nns masses center wt sel) d mi).
Proof.
  intros nns masses center wt sel d mi Hm HM. pose proof ulp_range as U.
  assert (TP : 0 < total32 (map (fun k => nth k masses 0) sel)).
  { eapply Rlt_le_trans; [|apply total32_bounds; intros m Hin; apply in_map_iff in Hin; destruct Hin as (k & <- & Hk); auto].
    apply Rmult_lt_0_compat; [apply pow_lt; lra|]. rewrite total_map. exact HM. }
  assert (E := fun i j => tensor_scaled nns masses center wt sel i j ltac:(lra)).
  set (T := total32 _) in *. set (M := total (fun k => nth k masses 0) sel) in *. clearbody T M.
  assert (K : 0 < M / T) by (apply Rdiv_lt_0_compat; assumption). assert (K' : 0 < T / M) by (apply Rdiv_lt_0_compat; assumption).
  split; intros H.
  - apply (shape_scale _ (T / M)) in H; [|exact K']. eapply shape_eq; [|exact H]. intros i j. cbv beta. rewrite E. field. lra.
  - apply (shape_scale _ (M / T)) in H; [|exact K]. eapply shape_eq; [|exact H]. intros i j. cbv beta. rewrite E. reflexivity.
Qed.
Print Assumptions C118_shapes.

(** 2^25 particles of mass 1 at (1, 1, 1) have their centre at (2, 2, 2); three particles of mass 1/2, 1 and 2 are
    added up exactly. *)
Example C118_ex : (exists ps, (forall q, In q ps -> q = (mkV 1 1 1, 1)) /\ com32 ps = mkV 2 2 2) /\ total32 [1/2; 1; 2] = 7/2 /\
  Rabs (total32 [/ 10; / 10; / 10] - 3 / 10) <= / 1000000.
Proof.
  split; [|split].
  - destruct (Z_of_nat_complete (2 ^ 25)) as (n & Hn); [lia|]. exists (repeat (mkV 1 1 1, 1) n). split; [intros q Hq; apply repeat_spec in Hq; exact Hq|].
    rewrite C118_refuted by lia. rewrite INR_IZR_INZ, <- Hn. unfold vscale. cbn [vx vy vz]. change (2 ^ 25)%Z with 33554432%Z. change (2 ^ 24)%Z with 16777216%Z. f_equal; lra.
  - pose proof (C118_exact [1; 2; 4]%Z (-1)) as E. rewrite (pow2_neg 1 ltac:(lia) : powerRZ 2 (-1) = _) in E. change (2 ^ 1)%Z with 2%Z in E. cbn [map total] in E.
    replace (1 * / 2) with (1/2) in E by lra. replace (2 * / 2) with 1 in E by lra. replace (4 * / 2) with 2 in E by lra. rewrite E; [lra| |vm_compute; discriminate].
    intros z Hz. cbn in Hz. intuition lia.
  - pose proof (C118_partial [/ 10; / 10; / 10]) as E. pose proof ulp_range as U. cbn [length INR total] in E.
    replace (/ 10 + (/ 10 + (/ 10 + 0))) with (3 / 10) in E by lra. eapply Rle_trans; [apply E|].
    + intros m [<-|[<-|[<-|[]]]]; lra.
    + lra.
    + apply Rle_trans with (/ 1000000 * (3 / 10)); [|lra]. apply Rmult_le_compat_r; [lra|].
      apply (Rmult_le_reg_r (1 - (1 + 1 + 1) * ulp)); [lra|]. unfold Rdiv. rewrite Rmult_assoc, Rinv_l by lra. lra.
Qed.
