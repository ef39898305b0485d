(** C44: the density profile models; C74: what the least-squares fit determines. *)
From Coq Require Import Reals String Bool ZArith Lra Lia List.
From Verif Require Import XR FitModel.
Import ListNotations.
Local Open Scope R_scope.

(** ** Powers *)
Lemma Rpower_pos x a : 0 < Rpower x a.
Proof. apply exp_pos. Qed.
Lemma Rpower_incr x y a : 0 < x -> x < y -> 0 < a -> Rpower x a < Rpower y a.
Proof. intros Hx Hy Ha. unfold Rpower. apply exp_increasing. apply Rmult_lt_compat_l; auto. apply ln_increasing; auto. Qed.
Lemma Rpower_decr x y a : 0 < x -> x < y -> a < 0 -> Rpower y a < Rpower x a.
Proof. intros Hx Hy Ha. unfold Rpower. apply exp_increasing. pose proof (ln_increasing x y Hx Hy). nra. Qed.
Lemma Rpower_nondecr x y a : 0 < x -> x <= y -> 0 <= a -> Rpower x a <= Rpower y a.
Proof. intros Hx Hy Ha. apply Rle_Rpower_l; auto. Qed.
Lemma ratio_pos r s : 0 < r -> 0 < s -> 0 < r / s.
Proof. intros. apply Rdiv_lt_0_compat; auto. Qed.
Lemma ratio_lt r r' s : 0 < s -> r < r' -> r / s < r' / s.
Proof. intros. apply Rmult_lt_compat_r; auto. apply Rinv_0_lt_compat; auto. Qed.

(** ** C44 *)
(* NFW and Hernquist are alpha-beta-gamma profiles. *)
Theorem C44_nfw : forall r rho_s r_s, 0 < r -> 0 < r_s ->
  getNFWProf r rho_s r_s = getAlphaBetaGammaProf r rho_s 1 3 1 r_s.
Proof.
  intros r rho s Hr Hs. pose proof (ratio_pos r s Hr Hs) as Hx. unfold getNFWProf, getAlphaBetaGammaProf.
  rewrite Rpower_1 by auto. replace ((3 - 1) / 1) with (INR 2) by (cbn; lra). rewrite Rpower_pow by lra. reflexivity.
Qed.
Print Assumptions C44_nfw.
Theorem C44_hernquist : forall r rho_s r_s, 0 < r -> 0 < r_s ->
  getHernquistProf r rho_s r_s = getAlphaBetaGammaProf r rho_s 1 4 1 r_s.
Proof.
  intros r rho s Hr Hs. pose proof (ratio_pos r s Hr Hs) as Hx. unfold getHernquistProf, getAlphaBetaGammaProf.
  rewrite Rpower_1 by auto. replace ((4 - 1) / 1) with (INR 3) by (cbn; lra). rewrite Rpower_pow by lra. reflexivity.
Qed.
Print Assumptions C44_hernquist.

(** Denominators. *)
Lemma nfw_den x k : 0 < x -> 0 < x * (1 + x) ^ k.
Proof. intros H. apply Rmult_lt_0_compat; auto. apply pow_lt. lra. Qed.
Lemma abg_den x a b g : 0 < Rpower x g * Rpower (1 + Rpower x a) ((b - g) / a).
Proof. apply Rmult_lt_0_compat; apply Rpower_pos. Qed.

Theorem C44_positive : forall r rho_s alpha beta gamma r_s, 0 < r -> 0 < rho_s -> 0 < r_s ->
  0 < getEinastoProf r rho_s alpha r_s /\ 0 < getAlphaBetaGammaProf r rho_s alpha beta gamma r_s /\
  0 < getNFWProf r rho_s r_s /\ 0 < getHernquistProf r rho_s r_s.
Proof.
  intros r rho a b g s Hr Hrho Hs. pose proof (ratio_pos r s Hr Hs) as Hx. repeat split.
  - apply Rmult_lt_0_compat; auto. apply exp_pos.
  - apply Rdiv_lt_0_compat; auto. apply abg_den.
  - apply Rdiv_lt_0_compat; auto. apply nfw_den; auto.
  - apply Rdiv_lt_0_compat; auto. apply nfw_den; auto.
Qed.
Print Assumptions C44_positive.

Lemma div_decr rho x y : 0 < rho -> 0 < x -> x < y -> rho / y < rho / x.
Proof.
  intros. unfold Rdiv. apply Rmult_lt_compat_l; auto. apply Rinv_lt_contravar; auto. apply Rmult_lt_0_compat; lra.
Qed.
Lemma nfw_den_incr x y k : 0 < x -> x < y -> x * (1 + x) ^ k < y * (1 + y) ^ k.
Proof.
  intros Hx Hy. apply Rle_lt_trans with (x * (1 + y) ^ k).
  - apply Rmult_le_compat_l; [lra|]. apply pow_incr. lra.
  - apply Rmult_lt_compat_r; auto. apply pow_lt. lra.
Qed.
(** x^g (1+x^a)^((b-g)/a) = (x^a/(1+x^a))^(g/a) (1+x^a)^(b/a). *)
Lemma abg_den_split x a b g : 0 < x -> a <> 0 ->
  Rpower x g * Rpower (1 + Rpower x a) ((b - g) / a) =
  Rpower (Rpower x a / (1 + Rpower x a)) (g / a) * Rpower (1 + Rpower x a) (b / a).
Proof.
  intros Hx Ha. pose proof (Rpower_pos x a) as P.
  assert (E : Rpower x g = Rpower (Rpower x a) (g / a)) by (rewrite Rpower_mult; f_equal; field; auto).
  rewrite E. set (p := Rpower x a) in *. clearbody p. unfold Rpower. rewrite <- !exp_plus. f_equal.
  replace (ln (p / (1 + p))) with (ln p - ln (1 + p)); [field; auto|].
  unfold Rdiv. rewrite ln_mult by (auto; apply Rinv_0_lt_compat; lra). rewrite ln_Rinv by lra. ring.
Qed.

(* Strictly decreasing in radius. alpha-beta-gamma: also for beta < gamma. *)
Theorem C44_decreasing : forall r r' rho_s alpha beta gamma r_s, 0 < r -> r < r' -> 0 < rho_s -> 0 < r_s ->
  (alpha <> 0 -> getEinastoProf r' rho_s alpha r_s < getEinastoProf r rho_s alpha r_s) /\
  (0 < alpha -> 0 < beta -> 0 <= gamma -> getAlphaBetaGammaProf r' rho_s alpha beta gamma r_s < getAlphaBetaGammaProf r rho_s alpha beta gamma r_s) /\
  getNFWProf r' rho_s r_s < getNFWProf r rho_s r_s /\ getHernquistProf r' rho_s r_s < getHernquistProf r rho_s r_s.
Proof.
  intros r r' rho a b g s Hr Hrr Hrho Hs. pose proof (ratio_pos r s Hr Hs) as Hx. pose proof (ratio_lt r r' s Hs Hrr) as Hy.
  unfold getEinastoProf, getAlphaBetaGammaProf, getNFWProf, getHernquistProf.
  set (x := r / s) in *. set (y := r' / s) in *. clearbody x y. repeat split.
  - intros Ha. apply Rmult_lt_compat_l; auto. apply exp_increasing.
    destruct (Rtotal_order a 0) as [N|[N|N]]; [|contradiction|].
    + assert (0 < -2 / a). { replace (-2 / a) with (2 / - a) by (field; lra). apply Rdiv_lt_0_compat; lra. }
      pose proof (Rpower_decr x y a Hx Hy N). apply Rmult_lt_compat_l; auto; lra.
    + assert (-2 / a < 0). { replace (-2 / a) with (- (2 / a)) by (field; lra). assert (0 < 2 / a) by (apply Rdiv_lt_0_compat; lra). lra. }
      pose proof (Rpower_incr x y a Hx Hy N). nra.
  - intros Ha Hb Hg. apply div_decr; auto; [apply abg_den|]. rewrite !abg_den_split by lra.
    pose proof (Rpower_incr x y a Hx Hy Ha) as Hp. pose proof (Rpower_pos x a) as Px. set (p := Rpower x a) in *. set (q := Rpower y a) in *.
    clearbody p q. assert (Hpq : p / (1 + p) < q / (1 + q)).
    { apply (Rmult_lt_reg_r ((1 + p) * (1 + q))); [apply Rmult_lt_0_compat; lra|].
      replace (p / (1 + p) * ((1 + p) * (1 + q))) with (p * (1 + q)) by (field; lra).
      replace (q / (1 + q) * ((1 + p) * (1 + q))) with (q * (1 + p)) by (field; lra). lra. }
    assert (0 < p / (1 + p)) by (apply Rdiv_lt_0_compat; lra).
    assert (0 <= g / a). { unfold Rdiv. apply Rmult_le_pos; auto. left. apply Rinv_0_lt_compat; auto. }
    assert (0 < b / a) by (apply Rdiv_lt_0_compat; auto).
    apply Rle_lt_trans with (Rpower (q / (1 + q)) (g / a) * Rpower (1 + p) (b / a)).
    + apply Rmult_le_compat_r; [left; apply Rpower_pos|]. apply Rpower_nondecr; auto; lra.
    + apply Rmult_lt_compat_l; [apply Rpower_pos|]. apply Rpower_incr; auto; lra.
  - apply div_decr; auto; [apply nfw_den; auto|apply nfw_den_incr; auto].
  - apply div_decr; auto; [apply nfw_den; auto|apply nfw_den_incr; auto].
Qed.
Print Assumptions C44_decreasing.

(* Linear in rho_s; radius and scale radius enter through their ratio only; value at the scale radius. *)
Theorem C44_linear : forall k r rho_s alpha beta gamma r_s,
  getEinastoProf r (k * rho_s) alpha r_s = k * getEinastoProf r rho_s alpha r_s /\
  getAlphaBetaGammaProf r (k * rho_s) alpha beta gamma r_s = k * getAlphaBetaGammaProf r rho_s alpha beta gamma r_s /\
  getNFWProf r (k * rho_s) r_s = k * getNFWProf r rho_s r_s /\ getHernquistProf r (k * rho_s) r_s = k * getHernquistProf r rho_s r_s.
Proof.
  intros. unfold getEinastoProf, getAlphaBetaGammaProf, getNFWProf, getHernquistProf, Rdiv. repeat split; ring.
Qed.
Print Assumptions C44_linear.
Theorem C44_scale : forall k r rho_s alpha beta gamma r_s, k <> 0 -> r_s <> 0 ->
  getEinastoProf (k * r) rho_s alpha (k * r_s) = getEinastoProf r rho_s alpha r_s /\
  getAlphaBetaGammaProf (k * r) rho_s alpha beta gamma (k * r_s) = getAlphaBetaGammaProf r rho_s alpha beta gamma r_s /\
  getNFWProf (k * r) rho_s (k * r_s) = getNFWProf r rho_s r_s /\ getHernquistProf (k * r) rho_s (k * r_s) = getHernquistProf r rho_s r_s.
Proof.
  intros k r rho a b g s Hk Hs. unfold getEinastoProf, getAlphaBetaGammaProf, getNFWProf, getHernquistProf.
  replace (k * r / (k * s)) with (r / s) by (field; auto). auto.
Qed.
Print Assumptions C44_scale.
Theorem C44_at_scale_radius : forall rho_s alpha beta gamma r_s, r_s <> 0 ->
  getEinastoProf r_s rho_s alpha r_s = rho_s /\
  getAlphaBetaGammaProf r_s rho_s alpha beta gamma r_s = rho_s / Rpower 2 ((beta - gamma) / alpha) /\
  getNFWProf r_s rho_s r_s = rho_s / 4 /\ getHernquistProf r_s rho_s r_s = rho_s / 8.
Proof.
  intros rho a b g s Hs. unfold getEinastoProf, getAlphaBetaGammaProf, getNFWProf, getHernquistProf.
  replace (s / s) with 1 by (field; auto).
  assert (P1 : forall z, Rpower 1 z = 1) by (intros; unfold Rpower; rewrite ln_1, Rmult_0_r; apply exp_0). rewrite !P1.
  repeat split; try field.
  - replace (1 - 1) with 0 by ring. rewrite Rmult_0_r, exp_0. ring.
  - replace (1 + 1) with 2 by ring. rewrite Rmult_1_l. reflexivity.
Qed.
Print Assumptions C44_at_scale_radius.
Example C44_example : getNFWProf 1 8 1 = 2 /\ getNFWProf 3 8 1 < getNFWProf 1 8 1 /\ getAlphaBetaGammaProf 1 8 1 3 1 1 = 2.
Proof.
  assert (E : getNFWProf 1 8 1 = 2) by (unfold getNFWProf; field). split; auto. split.
  - apply (C44_decreasing 1 3 8 1 1 1 1); lra.
  - rewrite <- C44_nfw by lra. exact E.
Qed.

(** ** C74: noise-free profiles determine their parameters *)
Lemma prod_eq a b c d : 0 < c -> 0 < d -> a / c = b / d -> a * d = b * c.
Proof. intros Hc Hd E. apply (f_equal (fun x => x * (c * d))) in E. field_simplify in E; lra. Qed.
Lemma pow_inj_pos k : forall x y, 0 < x -> 0 < y -> x ^ S k = y ^ S k -> x = y.
Proof.
  intros x y Hx Hy E. destruct (Rtotal_order x y) as [L|[L|L]]; auto; exfalso.
  - assert (forall n, x ^ S n < y ^ S n). { induction n; [simpl; lra|]. change (x * x ^ S n < y * y ^ S n). apply Rmult_gt_0_lt_compat; auto. apply pow_lt; auto. }
    specialize (H k). lra.
  - assert (forall n, y ^ S n < x ^ S n). { induction n; [simpl; lra|]. change (y * y ^ S n < x * x ^ S n). apply Rmult_gt_0_lt_compat; auto. apply pow_lt; auto. }
    specialize (H k). lra.
Qed.

(** Core of NFW and Hernquist: A/(r (s+r)^k) at two radii. *)
Lemma two_radii k A A' s s' r1 r2 : 0 < A -> 0 < A' -> 0 < s -> 0 < s' -> 0 < r1 -> r1 < r2 ->
  A / (r1 * (s + r1) ^ S k) = A' / (r1 * (s' + r1) ^ S k) -> A / (r2 * (s + r2) ^ S k) = A' / (r2 * (s' + r2) ^ S k) ->
  s = s'.
Proof.
  intros HA HA' Hs Hs' Hr Hrr E1 E2.
  assert (P : forall x r, 0 < x -> 0 < r -> 0 < (x + r) ^ S k) by (intros; apply pow_lt; lra).
  assert (E1' : A * (s' + r1) ^ S k = A' * (s + r1) ^ S k).
  { apply prod_eq in E1; try (apply Rmult_lt_0_compat; auto). apply (Rmult_eq_reg_l r1); [|lra]. lra. }
  assert (E2' : A * (s' + r2) ^ S k = A' * (s + r2) ^ S k).
  { apply prod_eq in E2; try (apply Rmult_lt_0_compat; [lra|apply P; lra]). apply (Rmult_eq_reg_l r2); [|lra]. lra. }
  assert (E : ((s' + r1) * (s + r2)) ^ S k = ((s' + r2) * (s + r1)) ^ S k).
  { rewrite !Rpow_mult_distr. apply (Rmult_eq_reg_l (A * A')); [|apply Rgt_not_eq, Rmult_lt_0_compat; auto].
    replace (A * A' * ((s' + r1) ^ S k * (s + r2) ^ S k)) with ((A * (s' + r1) ^ S k) * (A' * (s + r2) ^ S k)) by ring.
    rewrite E1', <- E2'. ring. }
  apply pow_inj_pos in E; try (apply Rmult_lt_0_compat; lra).
  assert ((s' - s) * (r2 - r1) = 0) by lra. apply Rmult_integral in H. lra.
Qed.
Lemma nfw_form k rho s r : 0 < s -> 0 < r -> rho / (r / s * (1 + r / s) ^ k) = rho * s ^ S k / (r * (s + r) ^ k).
Proof.
  intros Hs Hr. replace (1 + r / s) with ((s + r) / s) by (field; lra). unfold Rdiv at 3. rewrite Rpow_mult_distr, pow_inv.
  assert ((s + r) ^ k <> 0) by (apply pow_nonzero; lra). assert (s ^ k <> 0) by (apply pow_nonzero; lra). cbn [pow]. field. repeat split; auto; lra.
Qed.
Lemma nfw_ident k rho rho' s s' r1 r2 : 0 < rho -> 0 < rho' -> 0 < s -> 0 < s' -> 0 < r1 -> r1 < r2 ->
  rho / (r1 / s * (1 + r1 / s) ^ S k) = rho' / (r1 / s' * (1 + r1 / s') ^ S k) ->
  rho / (r2 / s * (1 + r2 / s) ^ S k) = rho' / (r2 / s' * (1 + r2 / s') ^ S k) -> rho = rho' /\ s = s'.
Proof.
  intros Hrho Hrho' Hs Hs' Hr Hrr E1 E2. assert (s = s').
  { rewrite !nfw_form in E1 by auto. rewrite !nfw_form in E2 by lra.
    eapply two_radii; [..|exact E1|exact E2]; auto; apply Rmult_lt_0_compat; auto; apply pow_lt; auto. }
  subst s'. split; auto. pose proof (nfw_den (r1 / s) (S k) (ratio_pos _ _ Hr Hs)).
  unfold Rdiv at 1 4 in E1. apply Rmult_eq_reg_r in E1; auto. apply Rgt_not_eq, Rinv_0_lt_compat; auto.
Qed.

(** Einasto. Mean value theorem for powers. *)
Lemma power_mvt c p q : 0 < p -> p < q -> exists x, p < x < q /\ Rpower q c - Rpower p c = c * Rpower x (c - 1) * (q - p).
Proof.
  intros Hp Hpq. destruct (MVT_cor2 (fun x => Rpower x c) (fun x => c * Rpower x (c - 1)) p q Hpq) as (x & E & Hx).
  - intros x Hx. apply derivable_pt_lim_power. lra.
  - exists x. auto.
Qed.
Lemma power_ratio c p1 p2 p3 : 1 < c -> 0 < p1 -> p1 < p2 -> p2 < p3 ->
  (p3 - p2) * (Rpower p2 c - Rpower p1 c) < (Rpower p3 c - Rpower p2 c) * (p2 - p1).
Proof.
  intros Hc H1 H2 H3. destruct (power_mvt c p1 p2) as (x & Hx & Ex); auto. destruct (power_mvt c p2 p3) as (y & Hy & Ey); try lra.
  rewrite Ex, Ey. pose proof (Rpower_incr x y (c - 1) ltac:(lra) ltac:(lra) ltac:(lra)) as L.
  replace ((p3 - p2) * (c * Rpower x (c - 1) * (p2 - p1))) with (c * (p3 - p2) * (p2 - p1) * Rpower x (c - 1)) by ring.
  replace (c * Rpower y (c - 1) * (p3 - p2) * (p2 - p1)) with (c * (p3 - p2) * (p2 - p1) * Rpower y (c - 1)) by ring.
  apply Rmult_lt_compat_l; auto. apply Rmult_lt_0_compat; [apply Rmult_lt_0_compat; lra|lra].
Qed.
Lemma power_ratio_r a b r1 r2 r3 : 0 < a -> a < b -> 0 < r1 -> r1 < r2 -> r2 < r3 ->
  (Rpower r3 a - Rpower r2 a) * (Rpower r2 b - Rpower r1 b) < (Rpower r3 b - Rpower r2 b) * (Rpower r2 a - Rpower r1 a).
Proof.
  intros Ha Hb H1 H2 H3. assert (E : forall r, Rpower r b = Rpower (Rpower r a) (b / a)) by (intros; rewrite Rpower_mult; f_equal; field; lra).
  rewrite !E. apply power_ratio.
  - apply (Rmult_lt_reg_r a); auto. unfold Rdiv. rewrite Rmult_assoc, Rinv_l; lra.
  - apply Rpower_pos.
  - apply Rpower_incr; lra.
  - apply Rpower_incr; lra.
Qed.
(** ln of the profile. *)
Lemma ln_einasto r rho a s : 0 < rho -> ln (getEinastoProf r rho a s) = ln rho - 2 / a * (Rpower (r / s) a - 1).
Proof. intros. unfold getEinastoProf. rewrite ln_mult by (auto; apply exp_pos). rewrite ln_exp. unfold Rdiv. ring. Qed.
Lemma Rpower_div r s a : 0 < r -> 0 < s -> Rpower (r / s) a = Rpower r a * Rpower s (- a).
Proof.
  intros. unfold Rpower. rewrite <- exp_plus. f_equal. unfold Rdiv. rewrite ln_mult by (auto; apply Rinv_0_lt_compat; auto). rewrite ln_Rinv by auto. ring.
Qed.
Lemma einasto_ident rho rho' a a' s s' r1 r2 r3 : 0 < rho -> 0 < rho' -> 0 < a -> 0 < a' -> 0 < s -> 0 < s' -> 0 < r1 -> r1 < r2 -> r2 < r3 ->
  (forall r, In r [r1; r2; r3] -> getEinastoProf r rho a s = getEinastoProf r rho' a' s') -> rho = rho' /\ a = a' /\ s = s'.
Proof.
  intros Hrho Hrho' Ha Ha' Hs Hs' H1 H2 H3 E.
  assert (L : forall r, In r [r1; r2; r3] -> ln rho - 2 / a * (Rpower r a * Rpower s (- a) - 1) = ln rho' - 2 / a' * (Rpower r a' * Rpower s' (- a') - 1)).
  { intros r Hr. assert (0 < r) by (cbn in Hr; intuition subst; lra). rewrite <- !Rpower_div by auto. rewrite <- !ln_einasto by auto. f_equal. auto. }
  set (K := 2 / a * Rpower s (- a)) in *. set (K' := 2 / a' * Rpower s' (- a')) in *.
  assert (HK : 0 < K) by (apply Rmult_lt_0_compat; [apply Rdiv_lt_0_compat; lra|apply Rpower_pos]).
  assert (HK' : 0 < K') by (apply Rmult_lt_0_compat; [apply Rdiv_lt_0_compat; lra|apply Rpower_pos]).
  pose proof (L r1 ltac:(cbn; auto)) as L1. pose proof (L r2 ltac:(cbn; auto)) as L2. pose proof (L r3 ltac:(cbn; auto)) as L3.
  assert (D : K * (Rpower r2 a - Rpower r1 a) = K' * (Rpower r2 a' - Rpower r1 a')).
  { unfold K, K'. lra. }
  assert (D' : K * (Rpower r3 a - Rpower r2 a) = K' * (Rpower r3 a' - Rpower r2 a')).
  { unfold K, K'. lra. }
  assert (X : (Rpower r3 a - Rpower r2 a) * (Rpower r2 a' - Rpower r1 a') = (Rpower r3 a' - Rpower r2 a') * (Rpower r2 a - Rpower r1 a)).
  { apply (Rmult_eq_reg_l (K * K')); [|apply Rgt_not_eq, Rmult_lt_0_compat; auto].
    replace (K * K' * ((Rpower r3 a - Rpower r2 a) * (Rpower r2 a' - Rpower r1 a'))) with
      ((K * (Rpower r3 a - Rpower r2 a)) * (K' * (Rpower r2 a' - Rpower r1 a'))) by ring. rewrite D', <- D. ring. }
  assert (Ea : a = a').
  { destruct (Rtotal_order a a') as [T|[T|T]]; auto; exfalso.
    - pose proof (power_ratio_r a a' r1 r2 r3 Ha T H1 H2 H3). lra.
    - pose proof (power_ratio_r a' a r1 r2 r3 Ha' T H1 H2 H3). lra. }
  subst a'. assert (EK : K = K').
  { pose proof (Rpower_incr r1 r2 a H1 H2 Ha). apply (Rmult_eq_reg_r (Rpower r2 a - Rpower r1 a)); auto; lra. }
  assert (Es : s = s').
  { unfold K, K' in EK. apply Rmult_eq_reg_l in EK; [|apply Rgt_not_eq, Rdiv_lt_0_compat; lra].
    destruct (Rtotal_order s s') as [T|[T|T]]; auto; exfalso.
    - pose proof (Rpower_decr s s' (- a) Hs T ltac:(lra)). lra.
    - pose proof (Rpower_decr s' s (- a) Hs' T ltac:(lra)). lra. }
  subst s'. split; auto. apply ln_inv; auto. lra.
Qed.

(* Two radii determine NFW and Hernquist parameters, three radii determine Einasto parameters. *)
Theorem C74_identifiable : forall rho rho' a a' s s' r1 r2 r3, 0 < rho -> 0 < rho' -> 0 < a -> 0 < a' -> 0 < s -> 0 < s' ->
  0 < r1 -> r1 < r2 -> r2 < r3 ->
  ((forall r, In r [r1; r2] -> getNFWProf r rho s = getNFWProf r rho' s') -> rho = rho' /\ s = s') /\
  ((forall r, In r [r1; r2] -> getHernquistProf r rho s = getHernquistProf r rho' s') -> rho = rho' /\ s = s') /\
  ((forall r, In r [r1; r2; r3] -> getEinastoProf r rho a s = getEinastoProf r rho' a' s') -> rho = rho' /\ a = a' /\ s = s').
Proof.
  intros rho rho' a a' s s' r1 r2 r3 Hrho Hrho' Ha Ha' Hs Hs' H1 H2 H3. split; [|split].
  - intros E. apply (nfw_ident 1 rho rho' s s' r1 r2); auto; apply E; cbn; auto.
  - intros E. apply (nfw_ident 2 rho rho' s s' r1 r2); auto; apply E; cbn; auto.
  - intros E. apply (einasto_ident rho rho' a a' s s' r1 r2 r3); auto.
Qed.
Print Assumptions C74_identifiable.
(* The alpha-beta-gamma model with beta = gamma is a power law whatever alpha is: its parameters are
   not determined by any number of radii. *)
Theorem C74_abg_degenerate : forall r rho alpha alpha' beta r_s, 
  getAlphaBetaGammaProf r rho alpha beta beta r_s = getAlphaBetaGammaProf r rho alpha' beta beta r_s.
Proof.
  intros r rho a a' b s. unfold getAlphaBetaGammaProf.
  assert (E : forall x z, Rpower x ((b - b) / z) = 1) by (intros; unfold Rpower, Rdiv; replace ((b - b) * / z * ln x) with 0 by ring; apply exp_0).
  rewrite !E. reflexivity.
Qed.
Print Assumptions C74_abg_degenerate.
(** Two different profiles differ at one of two radii; two different parameter sets of one profile. *)
Example C74_ident_example : (exists r, In r [1; 2] /\ getNFWProf r 4 1 <> getNFWProf r 5 1) /\
  getAlphaBetaGammaProf 2 3 1 2 2 1 = getAlphaBetaGammaProf 2 3 7 2 2 1.
Proof.
  split; [|apply C74_abg_degenerate]. destruct (C74_identifiable 4 5 1 1 1 1 1 2 3) as (H & _ & _); try lra.
  destruct (Req_dec (getNFWProf 1 4 1) (getNFWProf 1 5 1)) as [E1|E1]; [|exists 1; split; [cbn; auto|exact E1]].
  destruct (Req_dec (getNFWProf 2 4 1) (getNFWProf 2 5 1)) as [E2|E2]; [|exists 2; split; [cbn; auto|exact E2]].
  destruct H as [E _]; [|lra]. intros r [<-|[<-|[]]]; assumption.
Qed.
