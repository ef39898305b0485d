(** C117: an object that lies inside the ellipsoid of its own second moments gets the shape of its moments, and a
    stretched and turned isotropic object gets the axis ratios by which it was stretched. No new model. *)
From Coq Require Import List Reals ZArith Lra Lia Bool Arith.
From Verif Require Import ListUtil XR GeoModel GeoSpec GeoProofs ShapeModel ShapeSpec ShapeProofs ShapeKatz Spectral ShapeFacts ShapeExamples ShapeProps ShapeMoveProps ShapePar.
Import ListNotations.
Open Scope R_scope.

(** ** Specification *)
(** The second moments of all particles. *)
Definition all_moments (xyz ten : list vec) (masses : list R) (tcenter : vec) : nat -> nat -> R :=
  moment ten masses tcenter (fun _ => 1) (seq 0 (length xyz)).
(** All particles lie inside the ellipsoid around the centre that has the principal axes and axis ratios of the
    second moments and the major semi-axis d. *)
Definition in_own_ellipsoid (xyz ten : list vec) (masses : list R) (center tcenter : vec) (d : R) : Prop :=
  exists mi q s a b c, shape_of (all_moments xyz ten masses tcenter) d mi /\
    mq mi = Fin q /\ ms mi = Fin s /\ major mi = fv a /\ inter mi = fv b /\ minor mi = fv c /\
    forall p, In p xyz -> ellrad2 q s a b c center p < d * d.
(** Stretched by x, y, z along a, b, c. *)
Definition stretch (x y z : R) (a b c center u : vec) : vec := vadd center (lin3 (x * vx u) (y * vy u) (z * vz u) a b c).
(** The same second moment t in all directions. *)
Definition isotropic (us : list vec) (masses : list R) (t : R) : Prop :=
  forall i j, (i < 3)%nat -> (j < 3)%nat -> moment us masses v0 (fun _ => 1) (seq 0 (length us)) i j = if (i =? j)%nat then t else 0.

(** ** Algebra of frames *)
Lemma ip_comm a b : ip a b = ip b a.
Proof. unfold ip. ring. Qed.
Lemma ip_lin3 x y z a b c v : ip (lin3 x y z a b c) v = x * ip a v + y * ip b v + z * ip c v.
Proof. unfold ip, lin3, vadd, vscale. cbn [vx vy vz]. ring. Qed.
Lemma parseval a b c v w : orthonormal a b c -> ip v w = ip a v * ip a w + ip b v * ip b w + ip c v * ip c w.
Proof. intros Ho. rewrite (expand a b c v Ho) at 1. apply ip_lin3. Qed.
Lemma ap_lin h x y z a b c : ap h (lin3 x y z a b c) = lin3 x y z (ap h a) (ap h b) (ap h c).
Proof. unfold ap, lin3, vadd, vscale, ip. cbn [vx vy vz]. f_equal; ring. Qed.
Lemma ap_eigen h l e : eigenvector h l e -> ap h e = vscale l e.
Proof.
  intros H. pose proof (H 0%nat ltac:(lia)). pose proof (H 1%nat ltac:(lia)). pose proof (H 2%nat ltac:(lia)).
  unfold ap, row, ip, vscale. cbn [vx vy vz coord] in *. f_equal; assumption.
Qed.
Lemma ap_form h l2 l1 l0 a b c v : orthonormal a b c -> eigenvector h l2 a -> eigenvector h l1 b -> eigenvector h l0 c ->
  ap h v = lin3 (l2 * ip a v) (l1 * ip b v) (l0 * ip c v) a b c.
Proof.
  intros Ho A B C. rewrite (expand a b c v Ho) at 1. rewrite ap_lin, (ap_eigen _ _ _ A), (ap_eigen _ _ _ B), (ap_eigen _ _ _ C).
  unfold lin3, vadd, vscale. cbn [vx vy vz]. f_equal; ring.
Qed.
Lemma quad_form h l2 l1 l0 a b c v : orthonormal a b c -> eigenvector h l2 a -> eigenvector h l1 b -> eigenvector h l0 c ->
  ip v (ap h v) = l2 * (ip a v * ip a v) + l1 * (ip b v * ip b v) + l0 * (ip c v * ip c v).
Proof. intros Ho A B C. rewrite (ap_form _ _ _ _ _ _ _ _ Ho A B C), ip_comm, ip_lin3. ring. Qed.
Lemma trace_sum h l2 l1 l0 a b c : orthonormal a b c -> eigenvector h l2 a -> eigenvector h l1 b -> eigenvector h l0 c ->
  h 0%nat 0%nat + h 1%nat 1%nat + h 2%nat 2%nat = l2 + l1 + l0.
Proof.
  intros Ho A B C. pose proof (quad_form _ _ _ _ _ _ _ (mkV 1 0 0) Ho A B C) as X. pose proof (quad_form _ _ _ _ _ _ _ (mkV 0 1 0) Ho A B C) as Y.
  pose proof (quad_form _ _ _ _ _ _ _ (mkV 0 0 1) Ho A B C) as Z. destruct Ho as (Na & Nb & Nc & _).
  unfold ap, row, ip in X, Y, Z. cbn [vx vy vz] in X, Y, Z. unfold ip in Na, Nb, Nc.
  assert (E : h 0%nat 0%nat + h 1%nat 1%nat + h 2%nat 2%nat =
    l2 * (vx a * vx a + vy a * vy a + vz a * vz a) + l1 * (vx b * vx b + vy b * vy b + vz b * vz b) + l0 * (vx c * vx c + vy c * vy c + vz c * vz c)) by lra.
  rewrite E, Na, Nb, Nc. ring.
Qed.
(** Eigenvalues in order do not depend on the eigenvectors. *)
Lemma eigen_bounds h l2 l1 l0 a b c v l : l0 <= l1 <= l2 -> orthonormal a b c -> eigenvector h l2 a -> eigenvector h l1 b -> eigenvector h l0 c ->
  ip v v = 1 -> eigenvector h l v -> l0 <= l <= l2.
Proof.
  intros Hl Ho A B C N E. pose proof (quad_form _ _ _ _ _ _ _ v Ho A B C) as Q. rewrite (ap_eigen _ _ _ E) in Q.
  replace (ip v (vscale l v)) with (l * ip v v) in Q by (unfold ip, vscale; cbn; ring). rewrite N, Rmult_1_r in Q.
  pose proof (parseval a b c v v Ho) as P. rewrite N in P.
  set (x := ip a v * ip a v) in *. set (y := ip b v * ip b v) in *. set (z := ip c v * ip c v) in *.
  assert (0 <= x /\ 0 <= y /\ 0 <= z) as (Hx & Hy & Hz) by (unfold x, y, z; repeat split; nra). clearbody x y z. split; nra.
Qed.
Lemma eigen_unique h l2 l1 l0 a b c l2' l1' l0' a' b' c' : l0 <= l1 <= l2 -> l0' <= l1' <= l2' ->
  orthonormal a b c -> eigenvector h l2 a -> eigenvector h l1 b -> eigenvector h l0 c ->
  orthonormal a' b' c' -> eigenvector h l2' a' -> eigenvector h l1' b' -> eigenvector h l0' c' ->
  l0 = l0' /\ l1 = l1' /\ l2 = l2'.
Proof.
  intros L L' Ho A B C Ho' A' B' C'.
  pose proof (eigen_bounds _ _ _ _ _ _ _ _ _ L Ho A B C (proj1 Ho') A') as H1.
  pose proof (eigen_bounds _ _ _ _ _ _ _ _ _ L' Ho' A' B' C' (proj1 Ho) A) as H2.
  pose proof (eigen_bounds _ _ _ _ _ _ _ _ _ L Ho A B C (proj1 (proj2 (proj2 Ho'))) C') as H3.
  pose proof (eigen_bounds _ _ _ _ _ _ _ _ _ L' Ho' A' B' C' (proj1 (proj2 (proj2 Ho))) C) as H4.
  pose proof (trace_sum _ _ _ _ _ _ _ Ho A B C) as T. pose proof (trace_sum _ _ _ _ _ _ _ Ho' A' B' C') as T'. lra.
Qed.
Lemma sq_sqrt x y : 0 < x -> 0 < y -> sqrt (x / y) * sqrt (x / y) = x / y.
Proof. intros. apply sqrt_sqrt. apply Rlt_le, Rdiv_lt_0_compat; assumption. Qed.
(** The ellipsoidal radius as a quadratic form. *)
Lemma ellrad_form l2 l1 l0 a b c center p : 0 < l0 -> 0 < l1 -> 0 < l2 ->
  ellrad2 (sqrt (l1 / l2)) (sqrt (l0 / l2)) a b c center p =
  l2 * (ip a (vsub p center) * ip a (vsub p center) / l2 + ip b (vsub p center) * ip b (vsub p center) / l1 + ip c (vsub p center) * ip c (vsub p center) / l0).
Proof. intros H0 H1 H2. unfold ellrad2. cbv zeta. rewrite !sq_sqrt by assumption. field. lra. Qed.
Lemma form_unique h l2 l1 l0 a b c a' b' c' v : 0 < l0 -> 0 < l1 -> 0 < l2 ->
  orthonormal a b c -> eigenvector h l2 a -> eigenvector h l1 b -> eigenvector h l0 c ->
  orthonormal a' b' c' -> eigenvector h l2 a' -> eigenvector h l1 b' -> eigenvector h l0 c' ->
  ip a v * ip a v / l2 + ip b v * ip b v / l1 + ip c v * ip c v / l0 = ip a' v * ip a' v / l2 + ip b' v * ip b' v / l1 + ip c' v * ip c' v / l0.
Proof.
  intros H0 H1 H2 Ho A B C Ho' A' B' C'. set (w := lin3 (ip a' v / l2) (ip b' v / l1) (ip c' v / l0) a' b' c').
  assert (W : ap h w = v).
  { unfold w. rewrite ap_lin, (ap_eigen _ _ _ A'), (ap_eigen _ _ _ B'), (ap_eigen _ _ _ C'). rewrite (expand a' b' c' v Ho') at 4.
    unfold lin3, vadd, vscale. cbn [vx vy vz]. f_equal; field; lra. }
  assert (K : ip w v = ip a' v * ip a' v / l2 + ip b' v * ip b' v / l1 + ip c' v * ip c' v / l0) by (unfold w; rewrite ip_lin3; field; lra).
  rewrite <- K. rewrite (parseval a b c w v Ho).
  assert (E : ip a v = l2 * ip a w /\ ip b v = l1 * ip b w /\ ip c v = l0 * ip c w).
  { clear K. clearbody w. pose proof (ap_form _ _ _ _ _ _ _ w Ho A B C) as F. rewrite W in F. rewrite F. rewrite !(ip_comm _ (lin3 _ _ _ _ _ _)), !ip_lin3.
    destruct Ho as (Na & Nb & Nc & Nab & Nac & Nbc). rewrite (ip_comm b a), (ip_comm c a), (ip_comm c b), Na, Nb, Nc, Nab, Nac, Nbc. repeat split; ring. }
  destruct E as (-> & -> & ->). field. lra.
Qed.
(** Two shapes of one tensor have the same axis ratios and the same ellipsoid. *)
Lemma shape_same h d d' mi mi' : shape_of h d mi -> shape_of h d' mi' ->
  exists q s a b c a' b' c', mq mi = Fin q /\ ms mi = Fin s /\ major mi = fv a /\ inter mi = fv b /\ minor mi = fv c /\
    mq mi' = Fin q /\ ms mi' = Fin s /\ major mi' = fv a' /\ inter mi' = fv b' /\ minor mi' = fv c' /\
    0 < s <= q /\ q <= 1 /\
    (forall center p, ellrad2 q s a b c center p = ellrad2 q s a' b' c' center p) /\
    (forall center p, ip (vsub p center) (vsub p center) <= ellrad2 q s a b c center p).
Proof.
  intros H H'. destruct (shape_of_valid _ _ _ H) as (_ & q & s & a0 & b0 & c0 & Q & S & B1 & B2 & _).
  destruct H as (l0 & l1 & l2 & a & b & c & P & L & Ho & A & B & C & Ma & Mb & Mc & _ & Mq & Ms).
  destruct H' as (l0' & l1' & l2' & a' & b' & c' & P' & L' & Ho' & A' & B' & C' & Ma' & Mb' & Mc' & _ & Mq' & Ms').
  destruct (eigen_unique _ _ _ _ _ _ _ _ _ _ _ _ _ L L' Ho A B C Ho' A' B' C') as (<- & <- & <-).
  exists (sqrt (l1 / l2)), (sqrt (l0 / l2)), a, b, c, a', b', c'. do 10 (split; [assumption|]).
  rewrite Q in Mq. rewrite S in Ms. injection Mq as Eq. injection Ms as Es. rewrite <- Eq, <- Es. split; [exact B1|]. split; [exact B2|]. split.
  - intros center p. rewrite Eq, Es, !ellrad_form by lra. f_equal. apply (form_unique h); auto; lra.
  - intros center p. rewrite (parseval a b c _ _ Ho). unfold ellrad2. cbv zeta.
    set (x := ip a _). set (y := ip b _). set (z := ip c _). clearbody x y z.
    assert (K : forall r t, 0 < r <= 1 -> t * t <= t * t / (r * r)).
    { intros r t Hr. apply (Rmult_le_reg_r (r * r)); [nra|]. replace (t * t / (r * r) * (r * r)) with (t * t) by (field; lra).
      pose proof (Rmult_le_compat_l (t * t) (r * r) 1 ltac:(nra) ltac:(nra)). lra. }
    pose proof (K q y ltac:(lra)). pose proof (K s z ltac:(lra)). lra.
Qed.
Lemma shape_ext h h' d mi : (forall i j, (i < 3)%nat -> (j < 3)%nat -> h i j = h' i j) -> shape_of h d mi -> shape_of h' d mi.
Proof.
  intros E (l0 & l1 & l2 & a & b & c & P & L & Ho & A & B & C & R). exists l0, l1, l2, a, b, c.
  assert (K : forall l e, eigenvector h l e -> eigenvector h' l e) by (intros l e H i Hi; rewrite <- !E by lia; now apply H).
  auto 10.
Qed.

(** ** The run *)
Section Run.
  Variables (eig : nat -> list xr -> eigres) (xyz ten : list vec) (masses : list R) (center tcenter : vec) (d tol : R) (wall mn : Z) (mi0 : morph).
  Hypothesis Heig : eig_contract eig.
  Hypothesis Hm : nonneg xyz masses.
  Hypothesis Hin : in_own_ellipsoid xyz ten masses center tcenter d.
  Notation all := (seq 0 (length xyz)).
  Notation h := (all_moments xyz ten masses tcenter).
  Notation init := (katz_init xyz center d None mi0).
  Notation body := (katz_body eig xyz ten masses center tcenter d None false).
  Notation kinv' := (kinv xyz ten masses center tcenter d false mi0).
  Notation sinv' := (sinv xyz center d None wall mn).

  Lemma step_shape before T mi : step_ok xyz ten masses center tcenter d false before (all, T, mi) -> shape_of h d mi.
  Proof.
    intros (wt & Hw & _ & Hs). cbn [fst snd] in *. eapply shape_ext; [|exact Hs]. intros i j Hi Hj. unfold all_moments. apply moment_ext; auto.
  Qed.
  (** Every ellipsoid of that shape holds all particles. *)
  Lemma holds_all mi : shape_of h d mi ->
    forall i, In i all -> in_ell d None (mq mi) (ms mi) (princ mi center (nth i xyz v0)) = true /\ in_sphere center d None (nth i xyz v0) = true.
  Proof.
    intros H i Hi. apply in_seq in Hi. destruct Hin as (mi' & q' & s' & a' & b' & c' & H' & Mq & Ms & Ma & Mb & Mc & K).
    destruct (shape_same _ _ _ _ _ H H') as (q & s & a & b & c & a1 & b1 & c1 & Q & S & A & B & C & Q1 & S1 & A1 & B1 & C1 & R1 & R2 & E & F).
    rewrite Mq in Q1. rewrite Ms in S1. injection Q1 as ->. injection S1 as ->. rewrite Ma in A1. rewrite Mb in B1. rewrite Mc in C1.
    apply fv_inj in A1, B1, C1. subst a1 b1 c1. specialize (K (nth i xyz v0) ltac:(apply nth_In; lia)). rewrite <- E in K. pose proof (F center (nth i xyz v0)) as F'. split.
    - unfold in_ell. rewrite (princ_fv mi a b c center _ A B C), Q, S, ellval_fin by lra. cbn [vx vy vz xltb]. unfold ellrad2 in K. cbv zeta in K.
      destruct Rlt_dec; [reflexivity|contradiction].
    - unfold in_sphere, dist2. unfold ip, vsub in F'. cbn [vx vy vz] in F'. destruct Rlt_dec as [|N]; [reflexivity|]. exfalso. apply N.
      match goal with |- ?x < _ => eapply Rle_lt_trans; [|exact K]; eapply Rle_trans; [|exact F'] end. apply Req_le. ring.
  Qed.
  Lemma some_shape : exists mi, shape_of h d mi.
  Proof. destruct Hin as (mi & _ & _ & _ & _ & _ & H & _). eauto. Qed.
  Lemma first_all : sel_rule xyz center d None [] = all.
  Proof. destruct some_shape as (mi & H). unfold sel_rule. cbn [rev]. apply filter_all. intros i Hi. apply (holds_all mi H i Hi). Qed.
  Lemma next_all tr e : shape_of h d (snd e) -> sel_rule xyz center d None (tr ++ [e]) = all.
  Proof. intros H. unfold sel_rule. rewrite rev_app_distr. cbn [rev app]. apply filter_all. intros i Hi. apply (holds_all _ H i Hi). Qed.
  (** The moments are those of a body with mass that is not flat. *)
  Lemma no_trouble st : kinv' st -> ssel st = all -> existsb xzero (divisors eig xyz ten masses center tcenter d None false st) = false.
  Proof.
    intros K P. apply not_true_iff_false. intros H.
    apply (raises_trouble eig xyz ten masses center tcenter d None false Heig Hm mi0) in H; auto. rewrite P in H.
    destruct some_shape as (mi & l0 & l1 & l2 & a & b & c & P0 & L & Ho & A & B & C & _).
    assert (PD : forall n, ip n n = 1 -> 0 < ip n (ap h n)).
    { intros n Hn. rewrite (quad_form _ _ _ _ _ _ _ n Ho A B C). rewrite (parseval a b c n n Ho) in Hn.
      set (x := ip a n * ip a n) in *. set (y := ip b n * ip b n) in *. set (z := ip c n * ip c n) in *.
      assert (0 <= x /\ 0 <= y /\ 0 <= z) as (Hx & Hy & Hz) by (unfold x, y, z; repeat split; nra). clearbody x y z. nra. }
    destruct H as [H|[(H & _)|[(n & Hn & H)|(wt & mi' & q & s & dd & _ & _ & _ & _ & H & _)]]]; try discriminate.
    - specialize (PD (mkV 1 0 0) ltac:(unfold ip; cbn; ring)). unfold ap, row, ip in PD. cbn [vx vy vz] in PD. unfold all_moments, moment in PD. rewrite H in PD.
      unfold Rdiv in PD. rewrite Rinv_0 in PD. lra.
    - specialize (PD n Hn). assert (Z : ip n (ap h n) = 0); [|lra]. unfold ap, row, ip. cbn [vx vy vz]. unfold all_moments, moment, Rdiv.
      set (M := / total (fun k => nth k masses 0) all). clearbody M.
      assert (T : forall i, (i < 3)%nat -> vx n * total (fun k => nth k masses 0 * 1 * (coord (nth k ten v0) i - coord tcenter i) * (coord (nth k ten v0) 0 - coord tcenter 0)) all +
        vy n * total (fun k => nth k masses 0 * 1 * (coord (nth k ten v0) i - coord tcenter i) * (coord (nth k ten v0) 1 - coord tcenter 1)) all +
        vz n * total (fun k => nth k masses 0 * 1 * (coord (nth k ten v0) i - coord tcenter i) * (coord (nth k ten v0) 2 - coord tcenter 2)) all = 0).
      { intros i _. rewrite <- !total_scale, <- !total_plus. rewrite (total_ext _ (fun _ => 0)); [clear; induction all as [|k l IH]; cbn; [reflexivity|rewrite IH; ring]|].
        intros k Hk. assert (Mk : 0 <= nth k masses 0) by (apply Hm; apply in_seq in Hk; lia).
        destruct (Rle_lt_or_eq_dec _ _ Mk) as [G|G]; [|rewrite <- G; ring]. specialize (H k Hk G). unfold ip, vsub in H. cbn [vx vy vz coord] in H |- *.
        match goal with |- ?lhs = 0 => replace lhs with (nth k masses 0 * (coord (nth k ten v0) i - coord tcenter i) *
          (vx n * (vx (nth k ten v0) - vx tcenter) + vy n * (vy (nth k ten v0) - vy tcenter) + vz n * (vz (nth k ten v0) - vz tcenter))) by ring end.
        rewrite H. ring. }
      pose proof (T 0%nat ltac:(lia)) as T0. pose proof (T 1%nat ltac:(lia)) as T1. pose proof (T 2%nat ltac:(lia)) as T2. clear T.
      repeat match goal with |- context [total ?f all] => let t := fresh "t" in set (t := total f all) in *; clearbody t end.
      match goal with |- ?lhs = 0 => idtac end.
      transitivity (M * (vx n * 0 + vy n * 0 + vz n * 0)); [|ring]. rewrite <- T0 at 1. rewrite <- T1 at 1. rewrite <- T2 at 1. ring.
  Qed.
  (** One pass over all particles. *)
  Lemma one_pass st : kinv' st -> sinv' st -> ssel st = all -> (k_it st <= wall)%Z -> (mn <= Z.of_nat (length xyz))%Z ->
    existsb xzero (divisors eig xyz ten masses center tcenter d None false st) = false /\ kinv' (body st) /\ sinv' (body st) /\ ssel (body st) = all /\
    shape_of h d (k_mi (body st)) /\ exists T, k_trace (body st) = k_trace st ++ [(all, T, k_mi (body st))].
  Proof.
    intros K S P W N. pose proof (no_trouble st K P) as D.
    assert (K1 := kinv_body eig xyz ten masses center tcenter d None false Heig Hm mi0 st K D).
    assert (Np : k_pts st = length xyz) by (rewrite <- ssel_length, P, seq_length; reflexivity).
    assert (S1 := sinv_body eig xyz ten masses center tcenter d None wall mn false st S W ltac:(rewrite Np; exact N)).
    assert (T : exists T, k_trace (body st) = k_trace st ++ [(all, T, k_mi (body st))]).
    { destruct (body_parts eig xyz ten masses center tcenter d None false st) as (? & ? & ? & ? & ? & ? & _ & _ & _ & _ & _ & ->). cbn [k_trace k_mi]. rewrite P. eexists. reflexivity. }
    destruct T as (T & ET). assert (Hs : shape_of h d (k_mi (body st))) by (eapply step_shape; eapply (proj2 (proj2 (proj2 K1)) _ _ [] ET)).
    split; [exact D|]. split; [exact K1|]. split; [exact S1|]. split; [|split; [exact Hs|exists T; exact ET]].
    destruct S1 as (_ & -> & _). rewrite ET. apply next_all. exact Hs.
  Qed.
  Lemma run fuel : 0 <= tol < 1 -> (2 <= wall)%Z -> (mn <= Z.of_nat (length xyz))%Z ->
    exists mi tr, katz eig xyz ten masses center tcenter d None tol wall mn false (S (S fuel)) mi0 = Some (Ret mi, tr) /\ shape_of h d mi /\ (length tr <= 2)%nat.
  Proof.
    intros Ht Hw Hn. pose proof (sinv_init xyz center d None wall mn mi0) as S0. pose proof (kinv_init xyz ten masses center tcenter d None false mi0) as K0.
    assert (T0 : k_trace init = []) by (unfold katz_init; destruct compact; reflexivity).
    assert (P0 : ssel init = all) by (destruct S0 as (_ & -> & _); rewrite T0; apply first_all).
    assert (I0 : k_it init = 1%Z) by (unfold katz_init; destruct compact; reflexivity).
    assert (E0 : k_err init = Fin 1) by (unfold katz_init; destruct compact; reflexivity).
    destruct (one_pass init K0 S0 P0 ltac:(lia) Hn) as (D0 & K1 & S1 & P1 & H1 & TT & T1).
    assert (I1 : k_it (body init) = 2%Z) by (rewrite body_it, I0; reflexivity).
    assert (N : forall st, ssel st = all -> (Z.of_nat (k_pts st) <? mn)%Z = false) by (intros st P; apply Z.ltb_ge; rewrite <- ssel_length, P, seq_length; exact Hn).
    unfold katz. cbn [katz_loop]. rewrite E0, I0, (N _ P0). cbn [xltb]. destruct (Rlt_dec tol 1) as [_|X]; [|lra].
    destruct (Z.ltb_spec wall 1); [lia|]. rewrite D0.
    destruct (xltb (Fin tol) (k_err (body init))) eqn:X1.
    - destruct (one_pass (body init) K1 S1 P1 ltac:(lia) Hn) as (D1 & K2 & S2 & P2 & H2 & TT2 & T2).
      rewrite I1, (N _ P1). destruct (Z.ltb_spec wall 2); [lia|]. rewrite D1.
      assert (E2 : k_err (body (body init)) = Fin 0).
      { destruct (proj1 (proj2 (proj2 K2))) as [(F & _)|(bf & e & F & _ & q0 & s0 & q & s & Hp & _ & _ & Mq & Ms & He)].
        - rewrite T2, T1, T0 in F. discriminate.
        - rewrite T2 in F. apply app_inj_tail in F. destruct F as [F _]. rewrite <- F, T1, T0 in Hp. cbn [app] in Hp.
          destruct Hp as [(F' & _)|(bf' & e' & F' & Hq & Hs)]; [discriminate|].
          apply (app_inj_tail []) in F'. destruct F' as [_ <-]. cbn [snd] in Hq, Hs.
          destruct (shape_same _ _ _ _ _ H1 H2) as (q' & s' & _ & _ & _ & _ & _ & _ & A1 & A2 & _ & _ & _ & A3 & A4 & _ & _ & _ & R1 & R2 & _).
          rewrite A1 in Hq. rewrite A2 in Hs. rewrite A3 in Mq. rewrite A4 in Ms. injection Hq as <-. injection Hs as <-. injection Mq as <-. injection Ms as <-.
          rewrite He. f_equal. replace (q' - q') with 0 by ring. replace (s' - s') with 0 by ring. rewrite Rabs_R0. unfold Rdiv. rewrite !Rmult_0_l. apply Rmax_left. lra. }
      exists (k_mi (body (body init))), (k_trace (body (body init))). split; [|split; [exact H2|rewrite T2, T1, T0; cbn; lia]].
      unfold xltb in X1. destruct fuel; cbn [katz_loop]; rewrite E2; cbn [xltb]; (destruct (Rlt_dec tol 0); [lra|]; rewrite X1; reflexivity).
    - exists (k_mi (body init)), (k_trace (body init)). split; [unfold xltb in X1; rewrite X1; reflexivity|]. split; [exact H1|]. rewrite T1, T0. cbn. lia.
  Qed.
End Run.

(** ** Axes *)
Lemma only_along a b c v x y : orthonormal a b c -> ip v v = 1 -> x = ip b v -> y = ip c v -> x = 0 -> y = 0 -> exists e, e * e = 1 /\ v = vscale e a.
Proof.
  intros Ho N -> -> X Y. exists (ip a v). pose proof (parseval a b c v v Ho) as P. rewrite X, Y, N in P. split; [lra|].
  rewrite (expand a b c v Ho) at 1. rewrite X, Y. unfold lin3, vadd, vscale. cbn [vx vy vz]. f_equal; ring.
Qed.
Lemma axes_same h l2 l1 l0 a b c a' b' c' : l0 <= l1 <= l2 ->
  orthonormal a b c -> eigenvector h l2 a -> eigenvector h l1 b -> eigenvector h l0 c ->
  orthonormal a' b' c' -> eigenvector h l2 a' -> eigenvector h l1 b' -> eigenvector h l0 c' ->
  (l1 < l2 -> exists e, e * e = 1 /\ a' = vscale e a) /\ (l0 < l1 -> exists e, e * e = 1 /\ c' = vscale e c) /\
  (l0 < l1 < l2 -> exists e, e * e = 1 /\ b' = vscale e b).
Proof.
  intros L Ho A B C Ho' A' B' C'.
  assert (Qd : forall v l, ip v v = 1 -> eigenvector h l v ->
    l = l2 * (ip a v * ip a v) + l1 * (ip b v * ip b v) + l0 * (ip c v * ip c v) /\ ip a v * ip a v + ip b v * ip b v + ip c v * ip c v = 1).
  { intros v l N E. pose proof (quad_form _ _ _ _ _ _ _ v Ho A B C) as Q. rewrite (ap_eigen _ _ _ E) in Q.
    replace (ip v (vscale l v)) with (l * ip v v) in Q by (unfold ip, vscale; cbn; ring). rewrite N, Rmult_1_r in Q.
    rewrite <- (parseval a b c v v Ho). auto. }
  assert (Z : forall t, t * t <= 0 -> t = 0) by (intros t Ht; nra).
  assert (X1 : l1 < l2 -> ip b a' = 0 /\ ip c a' = 0).
  { intros H. destruct (Qd a' l2 (proj1 Ho') A') as (Q & P).
    pose proof (Rle_0_sqr (ip b a')) as Y0. pose proof (Rle_0_sqr (ip c a')) as Z0. unfold Rsqr in Y0, Z0.
    set (x := ip a a' * ip a a') in *. set (y := ip b a' * ip b a') in *. set (z := ip c a' * ip c a') in *.
    split; apply Z; [fold y|fold z]; clearbody x y z; nra. }
  assert (X2 : l0 < l1 -> ip a c' = 0 /\ ip b c' = 0).
  { intros H. destruct (Qd c' l0 (proj1 (proj2 (proj2 Ho'))) C') as (Q & P).
    pose proof (Rle_0_sqr (ip b c')) as Y0. pose proof (Rle_0_sqr (ip a c')) as Z0. unfold Rsqr in Y0, Z0.
    set (x := ip a c' * ip a c') in *. set (y := ip b c' * ip b c') in *. set (z := ip c c' * ip c c') in *.
    split; apply Z; [fold x|fold y]; clearbody x y z; nra. }
  assert (Oc : orthonormal c a b) by (destruct Ho as (? & ? & ? & ? & ? & ?); repeat split; auto; rewrite ip_comm; auto).
  assert (Ob : orthonormal b a c) by (destruct Ho as (? & ? & ? & ? & ? & ?); repeat split; auto; rewrite ip_comm; auto).
  split; [|split].
  - intros H. destruct (X1 H). eapply (only_along a b c); eauto. exact (proj1 Ho').
  - intros H. destruct (X2 H). eapply (only_along c a b); eauto. exact (proj1 (proj2 (proj2 Ho'))).
  - intros (H0 & H1). destruct (X1 H1) as (b1 & c1). destruct (X2 H0) as (a2 & b2).
    destruct (only_along a b c a' _ _ Ho (proj1 Ho') eq_refl eq_refl b1 c1) as (e & He & Ea).
    destruct (only_along c a b c' _ _ Oc (proj1 (proj2 (proj2 Ho'))) eq_refl eq_refl a2 b2) as (f & Hf & Ec).
    destruct Ho' as (Na & Nb & Nc & Nab & Nac & Nbc). subst a' c'.
    eapply (only_along b a c); eauto.
    + assert (e * ip a b' = 0) by (rewrite <- Nab; unfold ip, vscale; cbn; ring). nra.
    + assert (f * ip c b' = 0) by (rewrite <- Nbc; unfold ip, vscale; cbn; ring). nra.
Qed.

(** ** A stretched isotropic object *)
Section Stretched.
  Variables (us : list vec) (masses : list R) (t x y z d : R) (a b c center : vec).
  Hypothesis Hlen : length masses = length us.
  Hypothesis Ht : 0 < t.
  Hypothesis Hi : isotropic us masses t.
  Hypothesis Ho : orthonormal a b c.
  Hypothesis Hz : 0 < z <= y.
  Hypothesis Hy : y <= x.
  Notation xyz := (map (stretch x y z a b c center) us).
  Notation h := (all_moments xyz xyz masses center).
  Let M (i j : nat) : R := match j with O => x * coord a i | S O => y * coord b i | _ => z * coord c i end.

  Lemma stretched_moments i j : (i < 3)%nat -> (j < 3)%nat ->
    h i j = t * (x * x) * (coord a i * coord a j) + t * (y * y) * (coord b i * coord b j) + t * (z * z) * (coord c i * coord c j).
  Proof.
    intros I J. unfold all_moments. rewrite map_length.
    rewrite (moment_ext _ masses center _ _ (map (ap M) us) masses (fun _ => 1) (ap M v0)); auto.
    - rewrite (moment_linear us masses v0 (fun _ => 1) (seq 0 (length us))) by (auto; intros k Hk; unfold chosen in Hk; rewrite ?in_seq in Hk; lia).
      unfold total. cbn [map fold_right]. rewrite !Hi by lia. cbn [Nat.eqb M]. ring.
    - intros k Hk. apply in_seq in Hk. split; [reflexivity|]. split; [reflexivity|]. intros e He.
      rewrite (nth_indep (map (stretch x y z a b c center) us) v0 (stretch x y z a b c center v0)) by (rewrite map_length; lia).
      rewrite (nth_indep (map (ap M) us) v0 (ap M v0)) by (rewrite map_length; lia). rewrite !map_nth.
      destruct e as [|[|[|e]]]; [| | |lia]; unfold stretch, ap, row, ip, lin3, vadd, vscale, v0, M; cbn [vx vy vz coord]; ring.
  Qed.
  Lemma stretched_eigen : eigenvector h (t * (x * x)) a /\ eigenvector h (t * (y * y)) b /\ eigenvector h (t * (z * z)) c.
  Proof.
    destruct Ho as (Na & Nb & Nc & Nab & Nac & Nbc). unfold ip in *.
    repeat split; intros i I; rewrite !stretched_moments by lia; cbn [coord].
    - transitivity (t * (x * x) * coord a i * (vx a * vx a + vy a * vy a + vz a * vz a) + t * (y * y) * coord b i * (vx a * vx b + vy a * vy b + vz a * vz b)
        + t * (z * z) * coord c i * (vx a * vx c + vy a * vy c + vz a * vz c)); [ring|rewrite Na, Nab, Nac; ring].
    - transitivity (t * (x * x) * coord a i * (vx a * vx b + vy a * vy b + vz a * vz b) + t * (y * y) * coord b i * (vx b * vx b + vy b * vy b + vz b * vz b)
        + t * (z * z) * coord c i * (vx b * vx c + vy b * vy c + vz b * vz c)); [ring|rewrite Nb, Nab, Nbc; ring].
    - transitivity (t * (x * x) * coord a i * (vx a * vx c + vy a * vy c + vz a * vz c) + t * (y * y) * coord b i * (vx b * vx c + vy b * vy c + vz b * vz c)
        + t * (z * z) * coord c i * (vx c * vx c + vy c * vy c + vz c * vz c)); [ring|rewrite Nc, Nac, Nbc; ring].
  Qed.
  Lemma ratio u : 0 <= u -> sqrt (t * (u * u) / (t * (x * x))) = u / x.
  Proof.
    intros Hu. replace (t * (u * u) / (t * (x * x))) with (u / x * (u / x)) by (field; lra). apply sqrt_square.
    apply Rmult_le_pos; [lra|]. apply Rlt_le, Rinv_0_lt_compat. lra.
  Qed.
  Lemma stretched_order : 0 < t * (z * z) /\ t * (z * z) <= t * (y * y) <= t * (x * x).
  Proof. repeat split; [apply Rmult_lt_0_compat; nra| |]; apply Rmult_le_compat_l; nra. Qed.
  Lemma stretched_shape mi : shape_of h d mi -> md mi = Fin d /\ mq mi = Fin (y / x) /\ ms mi = Fin (z / x) /\
    (y < x -> exists e, e * e = 1 /\ major mi = fv (vscale e a)) /\ (z < y -> exists e, e * e = 1 /\ minor mi = fv (vscale e c)) /\
    (z < y < x -> exists e, e * e = 1 /\ inter mi = fv (vscale e b)).
  Proof.
    intros (l0 & l1 & l2 & a' & b' & c' & P & L & Ho' & A & B & C & Ma & Mb & Mc & Md & Mq & Ms).
    destruct stretched_eigen as (A0 & B0 & C0). destruct stretched_order as (P0 & L0).
    destruct (eigen_unique _ _ _ _ _ _ _ _ _ _ _ _ _ L0 L Ho A0 B0 C0 Ho' A B C) as (<- & <- & <-).
    rewrite !ratio in * by lra. split; [exact Md|]. split; [exact Mq|]. split; [exact Ms|].
    destruct (axes_same _ _ _ _ _ _ _ _ _ _ L0 Ho A0 B0 C0 Ho' A B C) as (Xa & Xc & Xb).
    assert (S1 : y < x -> t * (y * y) < t * (x * x)) by (intros; apply Rmult_lt_compat_l; nra).
    assert (S2 : z < y -> t * (z * z) < t * (y * y)) by (intros; apply Rmult_lt_compat_l; nra).
    split; [|split].
    - intros H. destruct (Xa (S1 H)) as (e & He & Ea). exists e. rewrite Ma, Ea. auto.
    - intros H. destruct (Xc (S2 H)) as (e & He & Ec). exists e. rewrite Mc, Ec. auto.
    - intros (H2 & H1). destruct (Xb (conj (S2 H2) (S1 H1))) as (e & He & Eb). exists e. rewrite Mb, Eb. auto.
  Qed.
  Lemma stretched_inside : (forall u, In u us -> x * x * ip u u < d * d) -> in_own_ellipsoid xyz xyz masses center center d.
  Proof.
    intros Hd. destruct stretched_eigen as (A0 & B0 & C0). destruct stretched_order as (P0 & L0).
    exists (mkM (Fin d) (Fin (y / x)) (Fin (z / x)) (fv a) (fv b) (fv c)), (y / x), (z / x), a, b, c.
    split; [|do 5 (split; [reflexivity|])].
    - exists (t * (z * z)), (t * (y * y)), (t * (x * x)), a, b, c. rewrite !ratio by lra. cbn [mq ms md major inter minor]. auto 20.
    - intros p Hp. apply in_map_iff in Hp. destruct Hp as (u & <- & Hu). eapply Rle_lt_trans; [|exact (Hd u Hu)]. apply Req_le.
      destruct Ho as (Na & Nb & Nc & Nab & Nac & Nbc).
      assert (E : vsub (stretch x y z a b c center u) center = lin3 (x * vx u) (y * vy u) (z * vz u) a b c) by (unfold stretch, vsub, vadd; cbn [vx vy vz]; destruct (lin3 _ _ _ _ _ _); cbn; f_equal; ring).
      unfold ellrad2. cbv zeta. rewrite E. rewrite !(ip_comm _ (lin3 _ _ _ _ _ _)), !ip_lin3.
      rewrite (ip_comm b a), (ip_comm c a), (ip_comm c b), Na, Nb, Nc, Nab, Nac, Nbc. unfold ip. field. lra.
  Qed.
End Stretched.

(** Particles in different places. *)
Lemma spread_apart xyz p p' : In p xyz -> In p' xyz -> p <> p' -> calcLocalSpread xyz <> 0.
Proof.
  intros Hp Hp' D. rewrite ShapeMoveProps.spread_total. set (n := INR (length xyz)).
  assert (Hn : 0 < n) by (unfold n; apply lt_0_INR; destruct xyz; [destruct Hp|cbn; lia]).
  intros E. apply Rmult_integral in E. destruct E as [E|E]; [|pose proof (Rinv_0_lt_compat n Hn); lra].
  assert (Z : forall q, In q xyz -> q = mkV (total vx xyz / n) (total vy xyz / n) (total vz xyz / n)).
  { intros q Hq. set (mx := total vx xyz / n) in *. set (my := total vy xyz / n) in *. set (mz := total vz xyz / n) in *. clearbody mx my mz.
    assert (F : forall (f : vec -> R) l, (forall v, 0 <= f v) -> total f l = 0 -> forall v, In v l -> f v = 0).
    { clear. intros f l Hf. induction l as [|w l IH]; intros H v Hv; [destruct Hv|]. cbn in H.
      assert (0 <= total f l) by (clear IH Hv H; induction l as [|w' l IH]; cbn; [lra|pose proof (Hf w'); lra]). pose proof (Hf w).
      destruct Hv as [->|Hv]; [lra|]. apply IH; [lra|exact Hv]. }
    specialize (F _ _ ltac:(intros v; apply sqrt_pos) E q Hq). cbn beta in F. destruct q as [qx qy qz]. cbn [vx vy vz] in F.
    pose proof (Rle_0_sqr (qx - mx)) as X. pose proof (Rle_0_sqr (qy - my)) as Y. pose proof (Rle_0_sqr (qz - mz)) as Z. unfold Rsqr in X, Y, Z.
    apply sqrt_eq_0 in F; [|lra]. assert (K : forall k, k * k = 0 -> k = 0) by (intros k Hk; apply Rmult_integral in Hk; tauto).
    assert (qx - mx = 0) by (apply K; lra). assert (qy - my = 0) by (apply K; lra). assert (qz - mz = 0) by (apply K; lra). f_equal; lra. }
  apply D. rewrite (Z p Hp), (Z p' Hp'). reflexivity.
Qed.

(** * C117 *)
Definition axes_are (a b c : vec) (x y z : R) (mi : morph) : Prop :=
  mq mi = Fin (y / x) /\ ms mi = Fin (z / x) /\
  (y < x -> exists e, e * e = 1 /\ major mi = fv (vscale e a)) /\
  (z < y -> exists e, e * e = 1 /\ minor mi = fv (vscale e c)) /\
  (z < y < x -> exists e, e * e = 1 /\ inter mi = fv (vscale e b)).

(** An object inside the ellipsoid of its own moments: at most two passes, and the result is the shape of the moments. *)
Theorem C117_fixed : forall eig xyz ten masses center tcenter d tol wall mn fuel mi0,
  eig_contract eig -> nonneg xyz masses -> in_own_ellipsoid xyz ten masses center tcenter d ->
  0 <= tol < 1 -> (2 <= wall)%Z -> (mn <= Z.of_nat (length xyz))%Z -> (2 <= fuel)%nat ->
  exists mi tr, katz eig xyz ten masses center tcenter d None tol wall mn false fuel mi0 = Some (Ret mi, tr) /\
    shape_of (all_moments xyz ten masses tcenter) d mi /\ (length tr <= 2)%nat.
Proof.
  intros eig xyz ten masses center tcenter d tol wall mn [|[|fuel]] mi0 He Hm Hin Ht Hw Hn Hf; try lia.
  apply run; auto.
Qed.
Print Assumptions C117_fixed.

(** A stretched and turned isotropic object that fits in: exactly the axis ratios and axes of the stretching. *)
Theorem C117_recovers : forall eig us masses t x y z a b c center d tol wall mn fuel mi0,
  eig_contract eig -> length masses = length us -> nonneg us masses -> 0 < t -> isotropic us masses t -> orthonormal a b c -> 0 < z <= y -> y <= x ->
  (forall u, In u us -> x * x * ip u u < d * d) ->
  0 <= tol < 1 -> (2 <= wall)%Z -> (mn <= Z.of_nat (length us))%Z -> (2 <= fuel)%nat ->
  let xyz := map (stretch x y z a b c center) us in
  exists mi tr, katz eig xyz xyz masses center center d None tol wall mn false fuel mi0 = Some (Ret mi, tr) /\
    md mi = Fin d /\ axes_are a b c x y z mi.
Proof.
  intros eig us masses t x y z a b c center d tol wall mn fuel mi0 He Hl Hm Ht Hi Ho Hz Hy Hd Htol Hw Hn Hf xyz.
  destruct (C117_fixed eig xyz xyz masses center center d tol wall mn fuel mi0) as (mi & tr & R & S & _); auto.
  - intros k Hk. apply Hm. unfold xyz in Hk. rewrite map_length in Hk. exact Hk.
  - apply (stretched_inside us masses t x y z d a b c center); auto.
  - unfold xyz. rewrite map_length. exact Hn.
  - exists mi, tr. split; [exact R|]. exact (stretched_shape us masses t x y z d a b c center Hl Ht Hi Ho Hz Hy mi S).
Qed.
Print Assumptions C117_recovers.

(** Isotropic objects have particles in different places, and so have stretched ones. *)
Lemma isotropic_apart us masses t : 0 < t -> isotropic us masses t -> exists u u', In u us /\ In u' us /\ u <> u'.
Proof.
  intros Ht Hi. destruct us as [|w us].
  - specialize (Hi 0%nat 0%nat ltac:(lia) ltac:(lia)). cbn in Hi. unfold moment, Rdiv, total in Hi. cbn in Hi. lra.
  - assert (Dec : forall v : vec, {v = w} + {v <> w}).
    { intros [vx0 vy0 vz0]. destruct w as [wx wy wz]. destruct (Req_EM_T vx0 wx); [|right; congruence].
      destruct (Req_EM_T vy0 wy); [|right; congruence]. destruct (Req_EM_T vz0 wz); [left|right]; congruence. }
    destruct (Forall_Exists_dec (fun v => v = w) Dec us) as [F|F].
    + exfalso. assert (E : forall i j, (i < 3)%nat -> (j < 3)%nat -> exists k : R, moment (w :: us) masses v0 (fun _ => 1) (seq 0 (length (w :: us))) i j = k * coord w i * coord w j /\
        k = total (fun n => nth n masses 0) (seq 0 (length (w :: us))) / total (fun n => nth n masses 0) (seq 0 (length (w :: us)))).
      { intros i j Li Lj. eexists. split; [|reflexivity]. unfold moment. set (T := total (fun n => nth n masses 0) _).
        rewrite (total_ext _ (fun n => (coord w i * coord w j) * nth n masses 0)).
        - rewrite total_scale. fold T. unfold Rdiv. ring.
        - intros n Hn. apply in_seq in Hn. assert (nth n (w :: us) v0 = w) as ->.
          { destruct n as [|n]; [reflexivity|]. cbn [nth]. rewrite Forall_forall in F. apply F. apply nth_In. cbn [length] in Hn. lia. }
          unfold v0. destruct i as [|[|[|i]]]; [| | |lia]; (destruct j as [|[|[|j]]]; [| | |lia]); cbn [coord vx vy vz]; ring. }
      destruct (E 0%nat 0%nat ltac:(lia) ltac:(lia)) as (k & E0 & K0). destruct (E 1%nat 1%nat ltac:(lia) ltac:(lia)) as (k1 & E1 & K1).
      destruct (E 0%nat 1%nat ltac:(lia) ltac:(lia)) as (k2 & E2 & K2). rewrite <- K0 in K1, K2. subst k1 k2. clear K0.
      rewrite Hi in E0, E1, E2 by lia. cbn [Nat.eqb coord] in E0, E1, E2.
      assert (Z : t * t = 0) by (rewrite E0 at 1; rewrite E1; transitivity ((k * vx w * vy w) * (k * vx w * vy w)); [ring|rewrite <- E2; ring]). nra.
    + apply Exists_exists in F. destruct F as (v & Hv & Nv). exists v, w. cbn. auto.
Qed.
Lemma stretched_apart us masses t x y z a b c center : 0 < t -> isotropic us masses t -> orthonormal a b c -> 0 < z <= y -> y <= x ->
  calcLocalSpread (map (stretch x y z a b c center) us) <> 0.
Proof.
  intros Ht Hi Ho Hz Hy. destruct (isotropic_apart us masses t Ht Hi) as (u & u' & Hu & Hu' & N).
  apply (spread_apart _ (stretch x y z a b c center u) (stretch x y z a b c center u')); try (apply in_map; assumption).
  intros E. apply N.
  assert (K : lin3 (x * vx u) (y * vy u) (z * vz u) a b c = lin3 (x * vx u') (y * vy u') (z * vz u') a b c).
  { unfold stretch, vadd in E. injection E as E1 E2 E3. unfold lin3, vadd, vscale in *. cbn [vx vy vz] in *. f_equal; lra. }
  destruct Ho as (Na & Nb & Nc & Nab & Nac & Nbc).
  assert (J : forall e, ip (lin3 (x * vx u) (y * vy u) (z * vz u) a b c) e = ip (lin3 (x * vx u') (y * vy u') (z * vz u') a b c) e) by (intros; rewrite K; reflexivity).
  pose proof (J a) as Ja. pose proof (J b) as Jb. pose proof (J c) as Jc. rewrite !ip_lin3 in Ja, Jb, Jc.
  rewrite (ip_comm b a), (ip_comm c a), Na, Nab, Nac in Ja. rewrite (ip_comm c b), Nb, Nab, Nbc in Jb. rewrite Nc, Nac, Nbc in Jc.
  assert (vx u = vx u') by (apply (Rmult_eq_reg_l x); lra). assert (vy u = vy u') by (apply (Rmult_eq_reg_l y); lra).
  assert (vz u = vz u') by (apply (Rmult_eq_reg_l z); lra). destruct u, u'. cbn in *. congruence.
Qed.

Lemma collect_all {X} (P : X -> Prop) (l : list (option (pyres X))) : Forall (fun r => exists x, r = Some (Ret x) /\ P x) l ->
  exists r, collect l = Some (Ret r) /\ length r = length l /\ Forall P r.
Proof.
  induction l as [|r l IH]; intros H; [exists []; repeat split; constructor|].
  inversion H as [|? ? (x & -> & Px) Hl]; subst. destruct (IH Hl) as (rs & E & L & F). exists (x :: rs). cbn. rewrite E, L. auto.
Qed.

(** The same for an object of a catalogue, as a whole and at every radius. *)
Section Objects.
  Variables (eig : nat -> list xr -> eigres) (fuel : nat) (c : kcfg) (L : R) (o : list vptc) (r200 : R) (center : vec).
  Variables (us : list vec) (t x y z : R) (e1 e2 e3 : vec).
  Hypothesis Heig : eig_contract eig.
  Hypothesis Hfuel : (2 <= fuel)%nat.
  Hypothesis Htol : 0 <= c_tol c < 1.
  Hypothesis Hwall : (2 <= c_wall c)%Z.
  Hypothesis Hmin : (c_min c <= Z.of_nat (length o))%Z.
  Hypothesis Hred : c_reduced c = false.
  Hypothesis Hgood : good_object o.
  Hypothesis Ht : 0 < t.
  Hypothesis Hiso : isotropic us (map snd o) t.
  Hypothesis Ho : orthonormal e1 e2 e3.
  Hypothesis Hz : 0 < z <= y.
  Hypothesis Hy : y <= x.
  (** The unwrapped positions are those of a stretched isotropic object. *)
  Hypothesis Hpos : cy_respectPBCNoRef (map pos o) L = map (stretch x y z e1 e2 e3 center) us.

  Lemma obj_length : length us = length o.
  Proof. apply (f_equal (@length vec)) in Hpos. rewrite cy_respect_length, !map_length in Hpos. auto. Qed.
  Lemma obj_run d : (forall u, In u us -> x * x * ip u u < d * d) ->
    exists mi, option_map fst (katz eig (map (stretch x y z e1 e2 e3 center) us) (map (stretch x y z e1 e2 e3 center) us) (map snd o) center center d None
      (c_tol c) (c_wall c) (c_min c) (c_reduced c) fuel (mkM (Fin d) (Fin 0) (Fin 0) x0 x0 x0)) = Some (Ret mi) /\ md mi = Fin d /\ axes_are e1 e2 e3 x y z mi.
  Proof.
    intros Hd. rewrite Hred.
    destruct (C117_recovers eig us (map snd o) t x y z e1 e2 e3 center d (c_tol c) (c_wall c) (c_min c) fuel (mkM (Fin d) (Fin 0) (Fin 0) x0 x0 x0)) as (mi & tr & R & K); auto.
    - rewrite map_length. symmetry. exact obj_length.
    - intros k Hk. apply Hgood. rewrite <- obj_length. exact Hk.
    - rewrite obj_length. exact Hmin.
    - exists mi. rewrite R. auto.
  Qed.

  Theorem C117_global : (forall u, In u us -> x * x * ip u u < (r200 + c_safe c) * (r200 + c_safe c)) ->
    exists mi, obj_shape eig fuel c L Global o r200 center = Some (Ret [mi]) /\ md mi = Fin (r200 + c_safe c) /\ axes_are e1 e2 e3 x y z mi.
  Proof.
    intros Hd. unfold obj_shape, calcObjMorphGlobal. rewrite Hpos.
    destruct Req_EM_T as [E|_]; [destruct (stretched_apart us (map snd o) t x y z e1 e2 e3 center Ht Hiso Ho Hz Hy E)|].
    destruct (obj_run _ Hd) as (mi & -> & K). exists mi. split; [reflexivity|exact K].
  Qed.
  Theorem C117_local : c_shell c = false -> r200 <> 0 ->
    (forall u k, In u us -> In k (c_log_d c) -> x * x * ip u u < (r200 * k) * (r200 * k)) ->
    exists l, obj_shape eig fuel c L Local o r200 center = Some (Ret l) /\ length l = length (c_log_d c) /\ Forall (axes_are e1 e2 e3 x y z) l.
  Proof.
    intros Hs Hr Hd. unfold obj_shape, calcObjMorphLocal. rewrite Hpos.
    destruct Req_EM_T as [E|_]; [destruct (stretched_apart us (map snd o) t x y z e1 e2 e3 center Ht Hiso Ho Hz Hy E)|].
    destruct Req_EM_T as [E|_]; [destruct (Hr E)|]. rewrite Hs. cbv zeta.
    match goal with |- context [collect ?m] => destruct (collect_all (axes_are e1 e2 e3 x y z) m) as (l & E & Ll & F) end.
    - apply Forall_forall. intros r Hin. apply in_map_iff in Hin. destruct Hin as (nb & <- & Hnb). apply in_seq in Hnb.
      destruct (obj_run (r200 * nth nb (c_log_d c) 0)) as (mi & K & _ & A).
      + intros u Hu. apply Hd; [exact Hu|]. apply nth_In. lia.
      + exists mi. split; [exact K|exact A].
    - exists l. rewrite E. split; [reflexivity|]. split; [|exact F]. rewrite Ll, map_length, seq_length. reflexivity.
  Qed.
End Objects.
Print Assumptions C117_global.
Print Assumptions C117_local.

(** Six unit masses at the ends of the axes, stretched by 3, 2, 1 and turned in the plane. *)
Definition star6 : list vec := [mkV 1 0 0; mkV (-1) 0 0; mkV 0 1 0; mkV 0 (-1) 0; mkV 0 0 1; mkV 0 0 (-1)].
Lemma star6_isotropic : isotropic star6 ones6 (1/3).
Proof.
  intros i j Hi Hj. unfold moment, total, v0. destruct i as [|[|[|i]]]; [| | |lia]; (destruct j as [|[|[|j]]]; [| | |lia]); cbn; field.
Qed.
Definition g1 := mkV (3/5) (4/5) 0.
Definition g2 := mkV (-4/5) (3/5) 0.
Definition g3 := mkV 0 0 1.
Lemma g_frame : orthonormal g1 g2 g3.
Proof. unfold orthonormal, ip, g1, g2, g3. cbn. repeat split; lra. Qed.
Lemma star6_in d u : 3 < d -> In u star6 -> 3 * 3 * ip u u < d * d.
Proof. intros Hd Hu. cbn in Hu. repeat destruct Hu as [<-|Hu]; try destruct Hu; unfold ip; cbn; nra. Qed.
Lemma star6_good : nonneg star6 ones6.
Proof. intros k Hk. cbn in Hk. do 6 (destruct k as [|k]; [cbn; lra|]). lia. Qed.

Example C117_ex : exists mi tr,
  let xyz := map (stretch 3 2 1 g1 g2 g3 (mkV 7 8 9)) star6 in
  katz exact_eig xyz xyz ones6 (mkV 7 8 9) (mkV 7 8 9) 4 None (1/100) 100 6 false 100 (mkM (Fin 4) (Fin 0) (Fin 0) x0 x0 x0) = Some (Ret mi, tr) /\
  md mi = Fin 4 /\ mq mi = Fin (2/3) /\ ms mi = Fin (1/3) /\ exists e, e * e = 1 /\ major mi = fv (vscale e g1).
Proof.
  destruct (C117_recovers exact_eig star6 ones6 (1/3) 3 2 1 g1 g2 g3 (mkV 7 8 9) 4 (1/100) 100 6 100 (mkM (Fin 4) (Fin 0) (Fin 0) x0 x0 x0)) as (mi & tr & R & D & Q & S & A & _);
    try lra; try lia; auto using exact_eig_contract, star6_isotropic, g_frame, star6_good.
  - intros u Hu. apply star6_in; [lra|exact Hu].
  - cbn. lia.
  - exists mi, tr. cbv zeta. split; [exact R|]. split; [exact D|]. split; [exact Q|]. split; [exact S|]. apply A. lra.
Qed.

Definition star_obj : list vptc := map (fun u => (stretch 3 2 1 g1 g2 g3 (mkV 7 8 9) u, v0, 1)) star6.
Definition star_cfg := mkC (1/100) 100 6 false false (1/2) [1; 2].
Example C117_objects_ex :
  (exists mi, obj_shape exact_eig 100 star_cfg 0 Global star_obj 4 (mkV 7 8 9) = Some (Ret [mi]) /\ md mi = Fin (9/2) /\ mq mi = Fin (2/3) /\ ms mi = Fin (1/3)) /\
  (exists m1 m2, obj_shape exact_eig 100 star_cfg 0 Local star_obj 4 (mkV 7 8 9) = Some (Ret [m1; m2]) /\ mq m1 = Fin (2/3) /\ mq m2 = Fin (2/3)).
Proof.
  assert (G : good_object star_obj) by (intros k Hk; cbn in Hk |- *; do 6 (destruct k as [|k]; [lra|]); lia).
  assert (P : cy_respectPBCNoRef (map pos star_obj) 0 = map (stretch 3 2 1 g1 g2 g3 (mkV 7 8 9)) star6) by (rewrite pbc_off; reflexivity).
  assert (M : map snd star_obj = ones6) by reflexivity. split.
  - destruct (C117_global exact_eig 100 star_cfg 0 star_obj 4 (mkV 7 8 9) star6 (1/3) 3 2 1 g1 g2 g3) as (mi & R & D & Q & S & _);
      try rewrite M; try (cbn; lra); try (cbn; lia); auto using exact_eig_contract, star6_isotropic, g_frame.
    + intros u Hu. apply star6_in; [cbn; lra|exact Hu].
    + exists mi. split; [exact R|]. split; [rewrite D; cbn; f_equal; lra|]. auto.
  - destruct (C117_local exact_eig 100 star_cfg 0 star_obj 4 (mkV 7 8 9) star6 (1/3) 3 2 1 g1 g2 g3) as (l & R & Ll & F);
      try rewrite M; try (cbn; lra); try (cbn; lia); auto using exact_eig_contract, star6_isotropic, g_frame.
    + intros u k Hu [<-|[<-|[]]]; apply star6_in; auto; lra.
    + destruct l as [|m1 [|m2 [|? ?]]]; try discriminate. exists m1, m2. split; [exact R|].
      inversion F as [|? ? (Q1 & _) F']; subst. inversion F' as [|? ? (Q2 & _) _]; subst. auto.
Qed.
