(** Critical density and particle mass (C91), virial overdensity (C92), the shape-curve test (C93)
    and the periodic reflection (C94). *)
From Coq Require Import Reals Bool ZArith List Lia Lra Permutation Machin.
From Verif Require Import XR StatModel StatProps StatProps2 CosmoModel.
Import ListNotations.
Local Open Scope R_scope.

(** ** Bounds on pi *)
Lemma pi_bounds : 3.14 < PI < 3.15.
Proof.
  pose proof (PI_2_3_7_ineq 1) as [H1 H2].
  cbn [Nat.mul Nat.add sum_f_R0] in H1, H2. unfold tg_alt, PI_2_3_7_tg, Ratan_seq in *. simpl in *. lra.
Qed.
Lemma pi_sq : 9.85 < PI ^ 2 < 9.93.
Proof. pose proof pi_bounds. simpl. nra. Qed.

(** ** C91 *)
(** The Friedmann equation for H = 100 km/s/Mpc, from SI values, in solar masses per Mpc^3. *)
Definition rho_crit_SI (G Mpc Msun : R) : R := 3 * (10 ^ 5 / Mpc) ^ 2 / (8 * PI * G) * Mpc ^ 3 / Msun.
Theorem C91_value : getRhoCrit = rho_crit_SI (6.674 / 10 ^ 11) (3.086 * 10 ^ 22) (2 * 10 ^ 30) /\
  Rabs (getRhoCrit - 2.775 * 10 ^ 11) < 1 / 100 * (2.775 * 10 ^ 11).
Proof.
  pose proof pi_bounds as Hp.
  assert (E : getRhoCrit = (3 * (100 / (3.086 * 10 ^ 19)) ^ 2 / (8 * (6.674 * / 10 ^ 29 / (3.086 * 10 ^ 16) ^ 3)) / (2 * 10 ^ 30)) / PI).
  { unfold getRhoCrit. field. lra. }
  split; [rewrite E; unfold rho_crit_SI; field; lra|].
  rewrite E. set (k := _ / (2 * 10 ^ 30)).
  assert (Hk : 8.669 * 10 ^ 11 < k < 8.671 * 10 ^ 11) by (unfold k; lra). clearbody k.
  apply Rabs_def1.
  - assert (k / PI < 2.775 * 10 ^ 11 * (101 / 100)); [|lra]. apply (Rmult_lt_reg_r PI); [lra|]. replace (k / PI * PI) with k by (field; lra). lra.
  - assert (2.775 * 10 ^ 11 * (99 / 100) < k / PI); [|lra]. apply (Rmult_lt_reg_r PI); [lra|]. replace (k / PI * PI) with k by (field; lra). lra.
Qed.
Print Assumptions C91_value.
(** N^3 particles have the mass of a box of side L at the critical density. *)
Theorem C91_fill N L : (N <> 0)%Z -> exists m, getMassDMParticle N L = Some m /\ IZR N ^ 3 * m = getRhoCrit * L ^ 3.
Proof.
  intros H. unfold getMassDMParticle. rewrite (proj2 (Z.eqb_neq _ _) H). eexists. split; [reflexivity|]. field. now apply not_0_IZR.
Qed.
Print Assumptions C91_fill.
Theorem C91_zero L : getMassDMParticle 0 L = None.
Proof. reflexivity. Qed.
Print Assumptions C91_zero.
(** Twice the resolution in each direction: an eighth of the mass; positive for positive boxes. *)
Theorem C91_resolution N L m m' : (0 < N)%Z -> 0 < L -> getMassDMParticle N L = Some m -> getMassDMParticle (2 * N) L = Some m' -> m = 8 * m' /\ 0 < m.
Proof.
  intros HN HL. unfold getMassDMParticle. rewrite !(proj2 (Z.eqb_neq _ _)) by lia. rewrite mult_IZR. intros [= <-] [= <-].
  assert (0 < IZR N) by (now apply (IZR_lt 0)). split; [field; lra|]. pose proof C91_value as [_ Hv]. apply Rabs_def2 in Hv.
  apply Rmult_lt_0_compat; [lra|]. apply (pow_lt (L / IZR N) 3), Rdiv_lt_0_compat; lra.
Qed.
Print Assumptions C91_resolution.
Example C91_example : exists m, getMassDMParticle 256 40 = Some m /\ 256 ^ 3 * m = getRhoCrit * 40 ^ 3 /\ 10 ^ 9 < m < 1.1 * 10 ^ 9.
Proof.
  destruct (C91_fill 256 40 ltac:(lia)) as (m & Hm & E). exists m. split; [exact Hm|]. split; [exact E|].
  pose proof C91_value as [_ Hv]. apply Rabs_def2 in Hv. lra.
Qed.

(** ** C92 *)
Lemma cube_lt a b : 0 < a < b -> a ^ 3 < b ^ 3.
Proof. intros H. simpl. assert (a * a < b * b) by nra. nra. Qed.
Lemma some_inj (a b : R) : Some a = Some b -> a = b.
Proof. congruence. Qed.
(** The matter density parameter at redshift z of a flat or open universe without radiation and curvature. *)
Definition omega_z (z Om Ol : R) : R := Om * (1 + z) ^ 3 / (Om * (1 + z) ^ 3 + Ol).
Lemma getDelta_closed z Om Ol : 0 < Om -> 0 <= Ol -> -1 < z ->
  0 < Om * (1 + z) ^ 3 /\ getDelta z Om Ol = Some (18 * PI ^ 2 - 1 + Ol / (Om * (1 + z) ^ 3) * (18 * PI ^ 2 - 82 - 39 * (Ol / (Om * (1 + z) ^ 3 + Ol)))).
Proof.
  intros Hm Hl Hz. assert (HM : 0 < Om * (1 + z) ^ 3) by (apply Rmult_lt_0_compat; [lra | apply pow_lt; lra]).
  split; [exact HM|]. unfold getDelta. set (M := Om * (1 + z) ^ 3) in *. cbv zeta.
  destruct (Req_EM_T (M + Ol) 0) as [E|_]; [lra|]. destruct (Req_EM_T (M / (M + Ol) - 1 + 1) 0) as [E|_].
  - exfalso. assert (0 < M / (M + Ol)) by (apply Rdiv_lt_0_compat; lra). lra.
  - f_equal. field. lra.
Qed.
(** (1 + Delta) Omega(z) is the overdensity of Bryan & Norman relative to the critical density. *)
Theorem C92_bryan_norman z Om Ol : 0 < Om -> 0 <= Ol -> -1 < z ->
  exists D, getDelta z Om Ol = Some D /\ let x := omega_z z Om Ol - 1 in (1 + D) * omega_z z Om Ol = 18 * PI ^ 2 + 82 * x - 39 * x ^ 2.
Proof.
  intros Hm Hl Hz. destruct (getDelta_closed _ _ _ Hm Hl Hz) as (HM & ->). eexists. split; [reflexivity|]. unfold omega_z. cbv zeta.
  set (M := Om * (1 + z) ^ 3) in *. field. lra.
Qed.
Print Assumptions C92_bryan_norman.
(** Without dark energy 18 pi^2 - 1 at every redshift. *)
Theorem C92_eds z Om : 0 < Om -> -1 < z -> getDelta z Om 0 = Some (18 * PI ^ 2 - 1).
Proof.
  intros Hm Hz. destruct (getDelta_closed z Om 0 Hm ltac:(lra) Hz) as (HM & ->). f_equal. field. lra.
Qed.
Print Assumptions C92_eds.
(** At least that much otherwise; falls with redshift towards it. *)
Theorem C92_decreasing Om Ol z1 z2 D1 D2 : 0 < Om -> 0 < Ol -> -1 < z1 < z2 ->
  getDelta z1 Om Ol = Some D1 -> getDelta z2 Om Ol = Some D2 -> 18 * PI ^ 2 - 1 < D2 < D1.
Proof.
  intros Hm Hl Hz. destruct (getDelta_closed z1 Om Ol Hm ltac:(lra) ltac:(lra)) as (HM1 & ->), (getDelta_closed z2 Om Ol Hm ltac:(lra) ltac:(lra)) as (HM2 & ->).
  intros E1 E2. apply some_inj in E1, E2. subst D1 D2. pose proof pi_sq as Hp. set (P := PI ^ 2) in *. clearbody P.
  assert (HM : Om * (1 + z1) ^ 3 < Om * (1 + z2) ^ 3) by (apply Rmult_lt_compat_l; [exact Hm | apply cube_lt; lra]).
  set (M1 := Om * (1 + z1) ^ 3) in *. set (M2 := Om * (1 + z2) ^ 3) in *. clearbody M1 M2.
  assert (A : 0 < Ol / M2 < Ol / M1).
  { split; [apply Rdiv_lt_0_compat; lra|]. apply Rmult_lt_compat_l; [lra|]. apply Rinv_lt_contravar; [nra | lra]. }
  assert (B : forall M, 0 < M -> 0 < Ol / (M + Ol) < 1).
  { intros M HMp. split; [apply Rdiv_lt_0_compat; lra|]. apply (Rmult_lt_reg_r (M + Ol)); [lra|]. replace (Ol / (M + Ol) * (M + Ol)) with Ol by (field; lra). lra. }
  pose proof (B M1 HM1). pose proof (B M2 HM2).
  (* t = Ol / M: the term is t (c - 39 t / (1 + t)) *)
  assert (E : forall M, 0 < M -> Ol / (M + Ol) = Ol / M / (1 + Ol / M)) by (intros M HMp; field; lra).
  rewrite !E in * by assumption. set (t1 := Ol / M1) in *. set (t2 := Ol / M2) in *. clearbody t1 t2. clear E B.
  assert (0 < t2 * (18 * P - 82 - 39 * (t2 / (1 + t2)))) by (apply Rmult_lt_0_compat; lra).
  split; [lra|]. apply Rplus_lt_compat_l.
  assert (G : forall t, 0 < t -> t * (18 * P - 82 - 39 * (t / (1 + t))) = t * (18 * P - 121) + 39 * (1 - / (1 + t))) by (intros t Ht; field; lra).
  rewrite !G by lra. assert (/ (1 + t1) < / (1 + t2)) by (apply Rinv_lt_contravar; nra). nra.
Qed.
Print Assumptions C92_decreasing.
Theorem C92_limit Om Ol eps : 0 < Om -> 0 <= Ol -> 0 < eps ->
  exists z0, -1 < z0 /\ forall z, z0 < z -> exists D, getDelta z Om Ol = Some D /\ 18 * PI ^ 2 - 1 <= D < 18 * PI ^ 2 - 1 + eps.
Proof.
  intros Hm Hl He. exists (Ol * 100 / (Om * eps)). assert (Hq : 0 <= Ol * 100 / (Om * eps)).
  { apply Rmult_le_pos; [lra|]. apply Rlt_le, Rinv_0_lt_compat. nra. }
  split; [lra|]. intros z Hz. destruct (getDelta_closed z Om Ol Hm Hl ltac:(lra)) as (HM & ->). eexists. split; [reflexivity|].
  pose proof pi_sq as Hp. set (P := PI ^ 2) in *. clearbody P.
  assert (HM' : Om * z < Om * (1 + z) ^ 3) by (apply Rmult_lt_compat_l; [exact Hm|]; simpl; assert (0 < z * z) by nra; nra).
  set (M := Om * (1 + z) ^ 3) in *. clearbody M.
  assert (B : 0 <= Ol / (M + Ol) <= 1).
  { split; [apply Rmult_le_pos; [lra | apply Rlt_le, Rinv_0_lt_compat; lra]|]. apply (Rmult_le_reg_r (M + Ol)); [lra|]. replace (Ol / (M + Ol) * (M + Ol)) with Ol by (field; lra). lra. }
  assert (A : 0 <= Ol / M) by (apply Rmult_le_pos; [lra | apply Rlt_le, Rinv_0_lt_compat; lra]).
  assert (C : Ol / M * 100 < eps).
  { apply (Rmult_lt_reg_r M); [lra|]. replace (Ol / M * 100 * M) with (Ol * 100) by (field; lra).
    assert (Ol * 100 / (Om * eps) * (Om * eps) < z * (Om * eps)) by (apply Rmult_lt_compat_r; nra).
    replace (Ol * 100 / (Om * eps) * (Om * eps)) with (Ol * 100) in * by (field; lra). nra. }
  split; [nra|]. apply Rplus_lt_compat_l. nra.
Qed.
Print Assumptions C92_limit.
Example C92_example : exists D0 D1, getDelta 0 0.3 0.7 = Some D0 /\ getDelta 1 0.3 0.7 = Some D1 /\ 330 < D0 < 342 /\ D1 < D0 /\ 176 < D1.
Proof.
  destruct (getDelta_closed 0 0.3 0.7 ltac:(lra) ltac:(lra) ltac:(lra)) as (_ & E0), (getDelta_closed 1 0.3 0.7 ltac:(lra) ltac:(lra) ltac:(lra)) as (_ & E1).
  eexists _, _. split; [exact E0|]. split; [exact E1|]. pose proof (C92_decreasing 0.3 0.7 0 1 _ _ ltac:(lra) ltac:(lra) ltac:(lra) E0 E1) as [H1 H2].
  pose proof pi_sq. split; [|split; [exact H2 | lra]].
  replace ((1 + 0) ^ 3) with 1 by ring. rewrite Rmult_1_r. replace (0.3 + 0.7) with 1 by lra. lra.
Qed.
