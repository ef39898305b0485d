(** C121: the reduced tensor. On a stretched object whose particles point evenly in all directions the iteration never moves
    away from the true shape, and the true shape is the only one that a pass reproduces. No new model. *)
From Coq Require Import List Reals ZArith Lra Lia Bool Arith.
From Verif Require Import ListUtil XR GeoModel GeoSpec GeoProofs ShapeModel ShapeSpec ShapeProofs ShapeKatz Spectral ShapeFacts ShapeExamples ShapeProps ShapeMoveProps RecoverProps.
Import ListNotations.
Open Scope R_scope.

(** ** Specification *)
(** No particle sits at the origin, and the directions of the particles have the same second moment along every axis. *)
Definition even_directions (us : list vec) (masses : list R) : Prop :=
  (forall u, In u us -> u <> v0) /\
  forall i j, (i < 3)%nat -> (j < 3)%nat ->
    moment us masses v0 (fun k => / ip (nth k us v0) (nth k us v0)) (seq 0 (length us)) i j = if (i =? j)%nat then 1 / 3 else 0.
(** The particles with mass are not all on one line or in the plane across it. *)
Definition spread_out (us : list vec) (masses : list R) : Prop :=
  forall e, ip e e = 1 -> exists k, (k < length us)%nat /\ 0 < nth k masses 0 /\
    ip e (nth k us v0) <> 0 /\ nth k us v0 <> vscale (ip e (nth k us v0)) e.
(** Squared ellipsoidal radius of a point with respect to a shape. *)
Definition radius2_in (mi : morph) (center : vec) (f : vec -> R) : Prop :=
  exists q s a b c, mq mi = Fin q /\ ms mi = Fin s /\ major mi = fv a /\ inter mi = fv b /\ minor mi = fv c /\
    forall p, f p = ellrad2 q s a b c center p.
(** The same axis ratios and the same ellipsoids. *)
Definition same_ellipsoids (center : vec) (mi mi' : morph) : Prop :=
  mq mi = mq mi' /\ ms mi = ms mi' /\ exists f, radius2_in mi center f /\ radius2_in mi' center f.
(** Up to a common scale the radii with respect to the shape agree with the radii with respect to the ellipsoid with semi-axes
    proportional to x, y, z along a, b, c, to within a factor k in the square. *)
Definition within (k x y z : R) (a b c center : vec) (mi : morph) : Prop :=
  exists al f, 0 < al /\ radius2_in mi center f /\
    forall p, al * ellrad2 (y / x) (z / x) a b c center p <= f p <= k * al * ellrad2 (y / x) (z / x) a b c center p.

(** ** Quadratic forms *)
Lemma um_form (f : nat -> vec) (m : nat -> R) v w sel :
  ip v (ap (fun i j => total (fun k => m k * coord (f k) i * coord (f k) j) sel) w) = total (fun k => m k * ip v (f k) * ip w (f k)) sel.
Proof.
  induction sel as [|k l IH]; [unfold ap, row, ip; cbn; ring|]. cbn [total]. rewrite <- IH. unfold ap, row, ip. cbn [total coord vx vy vz]. ring.
Qed.
Lemma moment_form ten masses c wt sel v w :
  ip v (ap (moment ten masses c wt sel) w) =
  total (fun k => nth k masses 0 * wt k * ip v (vsub (nth k ten v0) c) * ip w (vsub (nth k ten v0) c)) sel / total (fun k => nth k masses 0) sel.
Proof.
  rewrite <- (um_form (fun k => vsub (nth k ten v0) c) (fun k => nth k masses 0 * wt k)). unfold moment.
  set (T := total (fun k => nth k masses 0) sel). clearbody T. unfold ap, row, ip, Rdiv. cbn [vx vy vz coord vsub]. ring.
Qed.
(** What the inverse of a form bounds. *)
Lemma square_under l v p : 0 < l -> 2 * (v * p) - l * (v * v) <= p * p / l.
Proof.
  intros L. assert (E : p * p / l - (2 * (v * p) - l * (v * v)) = (p - l * v) * (p - l * v) / l) by (field; lra).
  assert (0 <= (p - l * v) * (p - l * v) / l); [|lra]. apply Rmult_le_pos; [exact (Rle_0_sqr _)|]. left. now apply Rinv_0_lt_compat.
Qed.
Definition inv_form (l2 l1 l0 : R) (a b c p : vec) : R := ip a p * ip a p / l2 + ip b p * ip b p / l1 + ip c p * ip c p / l0.
Definition dir_form (l2 l1 l0 : R) (a b c v : vec) : R := l2 * (ip a v * ip a v) + l1 * (ip b v * ip b v) + l0 * (ip c v * ip c v).
Definition inv_vec (l2 l1 l0 : R) (a b c p : vec) : vec := lin3 (ip a p / l2) (ip b p / l1) (ip c p / l0) a b c.
Lemma dual_le l2 l1 l0 a b c v p : 0 < l0 -> 0 < l1 -> 0 < l2 -> orthonormal a b c ->
  2 * ip v p - dir_form l2 l1 l0 a b c v <= inv_form l2 l1 l0 a b c p.
Proof.
  intros H0 H1 H2 Ho. rewrite (parseval a b c v p Ho). unfold dir_form, inv_form.
  pose proof (square_under l2 (ip a v) (ip a p) H2). pose proof (square_under l1 (ip b v) (ip b p) H1). pose proof (square_under l0 (ip c v) (ip c p) H0). lra.
Qed.
Lemma inv_vec_comp l2 l1 l0 a b c p : orthonormal a b c ->
  ip a (inv_vec l2 l1 l0 a b c p) = ip a p / l2 /\ ip b (inv_vec l2 l1 l0 a b c p) = ip b p / l1 /\ ip c (inv_vec l2 l1 l0 a b c p) = ip c p / l0.
Proof.
  intros (Na & Nb & Nc & Nab & Nac & Nbc). unfold inv_vec. rewrite !(ip_comm _ (lin3 _ _ _ _ _ _)), !ip_lin3.
  rewrite (ip_comm b a), (ip_comm c a), (ip_comm c b), Na, Nb, Nc, Nab, Nac, Nbc. repeat split; ring.
Qed.
Lemma inv_vec_dir l2 l1 l0 a b c p : 0 < l0 -> 0 < l1 -> 0 < l2 -> orthonormal a b c ->
  dir_form l2 l1 l0 a b c (inv_vec l2 l1 l0 a b c p) = inv_form l2 l1 l0 a b c p.
Proof. intros H0 H1 H2 Ho. unfold dir_form. destruct (inv_vec_comp l2 l1 l0 a b c p Ho) as (-> & -> & ->). unfold inv_form. field. lra. Qed.
Lemma inv_vec_ip l2 l1 l0 a b c p : 0 < l0 -> 0 < l1 -> 0 < l2 -> ip (inv_vec l2 l1 l0 a b c p) p = inv_form l2 l1 l0 a b c p.
Proof. intros H0 H1 H2. unfold inv_vec, inv_form. rewrite ip_lin3. field. lra. Qed.
(** The order of two forms is reversed by inversion. *)
Lemma inv_order l2 l1 l0 a b c m2 m1 m0 e f g k p : 0 < k -> 0 < l0 -> 0 < l1 -> 0 < l2 -> 0 < m0 -> 0 < m1 -> 0 < m2 ->
  orthonormal a b c -> orthonormal e f g ->
  (forall v, k * dir_form l2 l1 l0 a b c v <= dir_form m2 m1 m0 e f g v) ->
  k * inv_form m2 m1 m0 e f g p <= inv_form l2 l1 l0 a b c p.
Proof.
  intros K L0 L1 L2 M0 M1 M2 Ho Ho' H. set (w := inv_vec m2 m1 m0 e f g p). specialize (H w).
  pose proof (inv_vec_dir m2 m1 m0 e f g p M0 M1 M2 Ho') as E. fold w in E. pose proof (inv_vec_ip m2 m1 m0 e f g p M0 M1 M2) as F. fold w in F.
  rewrite E in H. pose proof (dual_le l2 l1 l0 a b c (vscale k w) p L0 L1 L2 Ho) as D.
  assert (X : dir_form l2 l1 l0 a b c (vscale k w) = k * (k * dir_form l2 l1 l0 a b c w)) by (unfold dir_form, ip, vscale; cbn; ring).
  assert (Y : ip (vscale k w) p = k * ip w p) by (unfold ip, vscale; cbn; ring). rewrite X, Y, F in D.
  set (i := inv_form m2 m1 m0 e f g p) in *. set (j := inv_form l2 l1 l0 a b c p) in *. set (g' := dir_form l2 l1 l0 a b c w) in *. clearbody i j g'.
  assert (k * (k * g') <= k * i) by (apply Rmult_le_compat_l; lra). lra.
Qed.
Lemma inv_pos l2 l1 l0 a b c p : 0 < l0 -> 0 < l1 -> 0 < l2 -> orthonormal a b c -> p <> v0 -> 0 < inv_form l2 l1 l0 a b c p.
Proof.
  intros H0 H1 H2 Ho N. apply ip_pos in N. rewrite (parseval a b c p p Ho) in N. unfold inv_form.
  assert (P : forall t l, 0 < l -> 0 <= t * t / l) by (intros t l L; apply Rmult_le_pos; [nra|left; now apply Rinv_0_lt_compat]).
  assert (P' : forall t l, 0 < l -> 0 < t * t -> 0 < t * t / l) by (intros t l L T; now apply Rdiv_lt_0_compat).
  pose proof (P (ip a p) l2 H2) as Xa. pose proof (P (ip b p) l1 H1) as Xb. pose proof (P (ip c p) l0 H0) as Xc.
  destruct (Req_EM_T (ip a p) 0) as [A|A].
  - destruct (Req_EM_T (ip b p) 0) as [B|B].
    + rewrite A, B in N. pose proof (P' (ip c p) l0 H0 ltac:(lra)). lra.
    + pose proof (P' (ip b p) l1 H1 ltac:(nra)). lra.
  - pose proof (P' (ip a p) l2 H2 ltac:(nra)). lra.
Qed.
Lemma total_zero {X} (f : X -> R) l : (forall x, In x l -> 0 <= f x) -> total f l = 0 -> forall x, In x l -> f x = 0.
Proof.
  induction l as [|a l IH]; cbn; intros P E x [].
  - subst. pose proof (P x (or_introl eq_refl)). pose proof (total_nonneg f l (fun y H => P y (or_intror H))). lra.
  - pose proof (P a (or_introl eq_refl)). pose proof (total_nonneg f l (fun y H => P y (or_intror H))). apply IH; auto. lra.
Qed.
Lemma total_le {X} (f g : X -> R) l : (forall x, In x l -> f x <= g x) -> total f l <= total g l.
Proof. induction l as [|a l IH]; cbn; intros H; [lra|]. pose proof (H a (or_introl eq_refl)). specialize (IH (fun y K => H y (or_intror K))). lra. Qed.

(** ** Passes over a stretched object *)
Section Red.
  Variables (us : list vec) (masses : list R) (x y z : R) (a b c center : vec).
  Hypothesis Hlen : length masses = length us.
  Hypothesis Hm : nonneg us masses.
  Hypothesis Hev : even_directions us masses.
  Hypothesis Ho : orthonormal a b c.
  Hypothesis Hz : 0 < z <= y.
  Hypothesis Hy : y <= x.
  Notation xyz := (map (stretch x y z a b c center) us).
  Notation all := (seq 0 (length us)).
  Notation f := (ellrad2 (y / x) (z / x) a b c center).
  Notation B := (dir_form (x * x) (y * y) (z * z) a b c).
  Notation m k := (nth k masses 0).
  Notation u k := (nth k us v0).
  Notation p k := (vsub (nth k xyz v0) center).
  Notation T := (total (fun k => m k) all).
  Notation mom wt := (moment xyz masses center wt all).

  Lemma p_lin k : (k < length us)%nat -> p k = lin3 (x * vx (u k)) (y * vy (u k)) (z * vz (u k)) a b c.
  Proof.
    intros Hk. rewrite (nth_indep xyz v0 (stretch x y z a b c center v0)) by (rewrite map_length; lia). rewrite map_nth.
    unfold stretch, vsub, vadd. cbn [vx vy vz]. destruct (lin3 _ _ _ _ _ _). cbn. f_equal; ring.
  Qed.
  Lemma ip_p v k : (k < length us)%nat -> ip v (p k) = ip (mkV (x * ip a v) (y * ip b v) (z * ip c v)) (u k).
  Proof. intros Hk. rewrite p_lin, ip_comm, ip_lin3 by exact Hk. unfold ip at 4. cbn [vx vy vz]. ring. Qed.
  Lemma u_pos k : (k < length us)%nat -> 0 < ip (u k) (u k).
  Proof. intros Hk. apply ip_pos. apply (proj1 Hev). apply nth_In. exact Hk. Qed.
  Lemma T_pos : 0 < T.
  Proof.
    assert (P : 0 <= T) by (apply total_nonneg; intros k Hk; apply in_seq in Hk; apply Hm; lia).
    destruct (Rle_lt_or_eq_dec _ _ P) as [|E]; [assumption|exfalso].
    pose proof (proj2 Hev 0%nat 0%nat ltac:(lia) ltac:(lia)) as X. unfold moment in X. rewrite <- E in X. unfold Rdiv in X. rewrite Rinv_0 in X. cbn in X. lra.
  Qed.
  Lemma even_form v : total (fun k => m k * / ip (u k) (u k) * ip v (u k) * ip v (u k)) all / T = / 3 * ip v v.
  Proof.
    transitivity (ip v (ap (moment us masses v0 (fun k => / ip (u k) (u k)) all) v)).
    - rewrite moment_form. unfold Rdiv. f_equal. apply total_ext. intros k _.
      replace (vsub (u k) v0) with (u k) by (destruct (u k); unfold vsub, v0; cbn; f_equal; ring). reflexivity.
    - unfold ap, row, ip. cbn [vx vy vz]. rewrite !(proj2 Hev) by lia. cbn [Nat.eqb]. field.
  Qed.
  Lemma true_form v : total (fun k => m k * / ip (u k) (u k) * ip v (p k) * ip v (p k)) all / T = / 3 * B v.
  Proof.
    transitivity (/ 3 * ip (mkV (x * ip a v) (y * ip b v) (z * ip c v)) (mkV (x * ip a v) (y * ip b v) (z * ip c v))).
    - rewrite <- even_form. unfold Rdiv. f_equal. apply total_ext. intros k Hk. apply in_seq in Hk. rewrite (ip_p v k) by lia. reflexivity.
    - unfold dir_form. unfold ip at 1. cbn [vx vy vz]. ring.
  Qed.
  Lemma f_form q : f q = x * x * inv_form (x * x) (y * y) (z * z) a b c (vsub q center).
  Proof. unfold ellrad2, inv_form. cbv zeta. field. lra. Qed.
  Lemma f_p k : (k < length us)%nat -> f (nth k xyz v0) = x * x * ip (u k) (u k).
  Proof.
    intros Hk. rewrite f_form. f_equal. unfold inv_form. rewrite p_lin by exact Hk. rewrite !(ip_comm _ (lin3 _ _ _ _ _ _)), !ip_lin3.
    destruct Ho as (Na & Nb & Nc & Nab & Nac & Nbc). rewrite (ip_comm b a), (ip_comm c a), (ip_comm c b), Na, Nb, Nc, Nab, Nac, Nbc.
    unfold ip. field. lra.
  Qed.
  (** A pass whose weights are the inverse squares of radii within the factor K of the true ones. *)
  Lemma pass_bounds K al wt d mi : 0 < al -> 0 < K ->
    (forall k, (k < length us)%nat -> exists r, wt k = / r /\ al * f (nth k xyz v0) <= r <= K * al * f (nth k xyz v0)) ->
    shape_of (mom wt) d mi -> within K x y z a b c center mi.
  Proof.
    intros Hal HK Hw (l0 & l1 & l2 & a' & b' & c' & P & L & Ho' & A & B' & C & Ma & Mb & Mc & _ & Mq & Ms).
    set (W := al * (x * x)). assert (HW : 0 < W) by (unfold W; apply Rmult_lt_0_compat; nra).
    assert (W' : forall k, (k < length us)%nat -> / (K * W) * / ip (u k) (u k) <= wt k <= / W * / ip (u k) (u k)).
    { intros k Hk. destruct (Hw k Hk) as (r & -> & R1 & R2). rewrite f_p in R1, R2 by exact Hk. pose proof (u_pos k Hk) as U. fold W in R1.
      replace (al * (x * x * ip (u k) (u k))) with (W * ip (u k) (u k)) in R1 by (unfold W; ring).
      replace (K * al * (x * x * ip (u k) (u k))) with (K * W * ip (u k) (u k)) in R2 by (unfold W; ring).
      assert (0 < W * ip (u k) (u k)) by (apply Rmult_lt_0_compat; assumption).
      rewrite <- !Rinv_mult. split; apply Rinv_le_contravar; lra. }
    assert (Q : forall v, / (3 * (K * W)) * B v <= dir_form l2 l1 l0 a' b' c' v <= / (3 * W) * B v).
    { intros v. unfold dir_form at 2 3. rewrite <- (quad_form _ _ _ _ _ _ _ v Ho' A B' C), moment_form.
      replace (/ (3 * (K * W)) * B v) with (/ (K * W) * (/ 3 * B v)) by (field; lra).
      replace (/ (3 * W) * B v) with (/ W * (/ 3 * B v)) by (field; lra). rewrite <- true_form. unfold Rdiv. rewrite <- !Rmult_assoc, <- !total_scale.
      pose proof T_pos as TP. assert (0 < / T) by (now apply Rinv_0_lt_compat).
      split; apply Rmult_le_compat_r; try lra; apply total_le; intros k Hk; apply in_seq in Hk;
        destruct (W' k ltac:(lia)) as (W1 & W2); pose proof (Hm k ltac:(lia)) as M; pose proof (Rle_0_sqr (ip v (p k))) as S; unfold Rsqr in S;
        assert (MS : 0 <= m k * (ip v (p k) * ip v (p k))) by (now apply Rmult_le_pos).
      - pose proof (Rmult_le_compat_r _ _ _ MS W1). lra.
      - pose proof (Rmult_le_compat_r _ _ _ MS W2). lra. }
    exists (3 * l2 * al). eexists. split; [apply Rmult_lt_0_compat; lra|]. split.
    - exists (sqrt (l1 / l2)), (sqrt (l0 / l2)), a', b', c'. do 5 (split; [assumption|]). intros q. reflexivity.
    - intros q. rewrite ellrad_form by lra. rewrite f_form. set (e := vsub q center).
      change (ip a' e * ip a' e / l2 + ip b' e * ip b' e / l1 + ip c' e * ip c' e / l0) with (inv_form l2 l1 l0 a' b' c' e).
      assert (HB : 0 < x * x /\ 0 < y * y /\ 0 < z * z) by (repeat split; nra). destruct HB as (X & Y & Z).
      assert (I1 : / (3 * (K * W)) * inv_form l2 l1 l0 a' b' c' e <= inv_form (x * x) (y * y) (z * z) a b c e).
      { apply inv_order; auto; try lra. { apply Rinv_0_lt_compat. apply Rmult_lt_0_compat; [lra|]. now apply Rmult_lt_0_compat. } intros v. apply Q. }
      assert (I2 : 3 * W * inv_form (x * x) (y * y) (z * z) a b c e <= inv_form l2 l1 l0 a' b' c' e).
      { apply inv_order; auto; try lra. intros v. destruct (Q v) as (_ & Q2). apply (Rmult_le_compat_l (3 * W)) in Q2; [|lra].
        replace (3 * W * (/ (3 * W) * B v)) with (B v) in Q2 by (field; lra). exact Q2. }
      set (i := inv_form l2 l1 l0 a' b' c' e) in *. set (j := inv_form (x * x) (y * y) (z * z) a b c e) in *. clearbody i j.
      assert (KW : 0 < K * W) by (now apply Rmult_lt_0_compat).
      apply (Rmult_le_compat_l (3 * (K * W))) in I1; [|lra]. replace (3 * (K * W) * (/ (3 * (K * W)) * i)) with i in I1 by (field; lra).
      split.
      + replace (3 * l2 * al * (x * x * j)) with (l2 * (3 * W * j)) by (unfold W; ring). apply Rmult_le_compat_l; lra.
      + replace (K * (3 * l2 * al) * (x * x * j)) with (l2 * (3 * (K * W) * j)) by (unfold W; ring). apply Rmult_le_compat_l; lra.
  Qed.
  (** The first pass uses the plain distances. *)
  Lemma f_bounds e : ip e e <= x * x * inv_form (x * x) (y * y) (z * z) a b c e <= x / z * (x / z) * ip e e.
  Proof.
    rewrite (parseval a b c e e Ho). unfold inv_form. set (r := ip a e). set (s := ip b e). set (t := ip c e). clearbody r s t.
    assert (X : 1 <= x * x / (y * y)) by (apply (Rmult_le_reg_r (y * y)); [nra|]; unfold Rdiv; rewrite Rmult_assoc, Rinv_l by nra; nra).
    assert (Y : x * x / (y * y) <= x * x / (z * z)).
    { apply Rmult_le_compat_l; [nra|]. apply Rinv_le_contravar; nra. }
    replace (x / z * (x / z)) with (x * x / (z * z)) by (field; lra). set (k1 := x * x / (y * y)) in *. set (k2 := x * x / (z * z)) in *.
    replace (x * x * (r * r / (x * x) + s * s / (y * y) + t * t / (z * z))) with (r * r + k1 * (s * s) + k2 * (t * t)) by (unfold k1, k2; field; lra).
    clearbody k1 k2. pose proof (Rle_0_sqr r) as R0. pose proof (Rle_0_sqr s) as S0. pose proof (Rle_0_sqr t) as T0. unfold Rsqr in *.
    set (r2 := r * r) in *. set (s2 := s * s) in *. set (t2 := t * t) in *. clearbody r2 s2 t2. split; nra.
  Qed.
  Lemma K_pos : 1 <= x / z * (x / z).
  Proof.
    assert (1 <= x / z); [|nra]. apply (Rmult_le_reg_r z); [lra|]. unfold Rdiv. rewrite Rmult_assoc, Rinv_l by lra. lra.
  Qed.
  Lemma first_pass wt d mi : (forall k, (k < length us)%nat -> wt k = / ip (p k) (p k)) -> shape_of (mom wt) d mi ->
    within (x / z * (x / z)) x y z a b c center mi.
  Proof.
    intros Hw. pose proof K_pos as KP. apply (pass_bounds (x / z * (x / z)) (/ (x / z * (x / z)))); [apply Rinv_0_lt_compat; lra|lra|].
    intros k Hk. eexists. split; [exact (Hw k Hk)|]. rewrite f_form. destruct (f_bounds (p k)) as (F1 & F2).
    set (K := x / z * (x / z)) in *. set (j := x * x * _) in *. clearbody K j. rewrite Rinv_r by lra. split; [|lra].
    apply (Rmult_le_reg_l K); [lra|]. rewrite <- Rmult_assoc, Rinv_r by lra. lra.
  Qed.
  (** Axis ratios of a shape within the factor K. *)
  Lemma unit_in r s : exists e, ip e e = 1 /\ ip r e = 0 /\ ip s e = 0.
  Proof.
    destruct (kernel r s v0) as (v & Nv & R & S & _); [unfold det3, v0, ip, cross; cbn; ring|].
    exists (vscale (/ sqrt (ip v v)) v). split; [now apply unit_of|].
    assert (E : forall w k, ip w (vscale k v) = k * ip w v) by (intros; unfold ip, vscale; cbn; ring). rewrite !E, R, S. split; ring.
  Qed.
  Lemma close K d mi : 0 < K -> valid_shape d mi -> within K x y z a b c center mi ->
    exists q s, mq mi = Fin q /\ ms mi = Fin s /\ y / x * (y / x) <= K * (q * q) /\ q * q <= K * (y / x * (y / x)) /\
      z / x * (z / x) <= K * (s * s) /\ s * s <= K * (z / x * (z / x)).
  Proof.
    intros HK (_ & q & s & a' & b' & c' & Mq & Ms & S0 & Q1 & Ma & Mb & Mc & Ho') (al & g & Hal & (q' & s' & a1 & b1 & c1 & Mq' & Ms' & Ma' & Mb' & Mc' & Hg) & Hw).
    rewrite Mq in Mq'. rewrite Ms in Ms'. rewrite Ma in Ma'. rewrite Mb in Mb'. rewrite Mc in Mc'. injection Mq' as <-. injection Ms' as <-.
    apply fv_inj in Ma', Mb', Mc'. subst a1 b1 c1. exists q, s. split; [exact Mq|]. split; [exact Ms|].
    set (Y := x / y * (x / y)). set (Z := x / z * (x / z)). set (Q := / q * / q). set (S := / s * / s).
    assert (W : forall e, al * (ip a e * ip a e + Y * (ip b e * ip b e) + Z * (ip c e * ip c e)) <=
                  ip a' e * ip a' e + Q * (ip b' e * ip b' e) + S * (ip c' e * ip c' e) <=
                  K * al * (ip a e * ip a e + Y * (ip b e * ip b e) + Z * (ip c e * ip c e))).
    { intros e. specialize (Hw (vadd center e)). rewrite Hg in Hw. unfold ellrad2 in Hw. cbv zeta in Hw.
      replace (vsub (vadd center e) center) with e in Hw by (destruct e; unfold vsub, vadd; cbn; f_equal; ring).
      replace (ip a e * ip a e + Y * (ip b e * ip b e) + Z * (ip c e * ip c e)) with
        (ip a e * ip a e + ip b e * ip b e / (y / x * (y / x)) + ip c e * ip c e / (z / x * (z / x))) by (unfold Y, Z; field; lra).
      replace (ip a' e * ip a' e + Q * (ip b' e * ip b' e) + S * (ip c' e * ip c' e)) with
        (ip a' e * ip a' e + ip b' e * ip b' e / (q * q) + ip c' e * ip c' e / (s * s)) by (unfold Q, S; field; lra). exact Hw. }
    clear Hw Hg. assert (G1 : forall r t, 0 < r <= t -> 1 <= t / r).
    { intros r t Hr. apply (Rmult_le_reg_r r); [lra|]. unfold Rdiv. rewrite Rmult_assoc, Rinv_l by lra. lra. }
    assert (Y1 : 1 <= Y) by (unfold Y; pose proof (G1 y x ltac:(lra)); nra).
    assert (Z1 : Y <= Z).
    { unfold Y, Z. assert (x / y <= x / z) by (apply Rmult_le_compat_l; [lra|apply Rinv_le_contravar; lra]).
      pose proof (G1 y x ltac:(lra)). apply Rmult_le_compat; lra. }
    assert (Q1' : 1 <= Q) by (unfold Q; pose proof (G1 q 1 ltac:(lra)) as G; unfold Rdiv in G; rewrite Rmult_1_l in G; nra).
    assert (S1 : Q <= S).
    { unfold Q, S. assert (/ q <= / s) by (apply Rinv_le_contravar; lra). pose proof (G1 q 1 ltac:(lra)) as G. unfold Rdiv in G. rewrite Rmult_1_l in G. apply Rmult_le_compat; lra. }
    assert (sq : forall t : R, 0 <= t * t) by (intros t; exact (Rle_0_sqr t)).
    (* scale *)
    assert (A1 : al <= 1).
    { destruct (W a') as (W1 & _). pose proof (parseval a b c a' a' Ho) as P. destruct Ho' as (Na & _ & _ & Nab & Nac & _). rewrite Na in *.
      rewrite (ip_comm b'), (ip_comm c'), Nab, Nac in W1.
      pose proof (sq (ip a a')). pose proof (sq (ip b a')). pose proof (sq (ip c a')).
      set (r := ip a a' * ip a a') in *. set (t := ip b a' * ip b a') in *. set (w := ip c a' * ip c a') in *. clearbody r t w.
      assert (1 <= r + Y * t + Z * w) by nra. nra. }
    assert (A2 : 1 <= K * al).
    { destruct (W a) as (_ & W2). pose proof (parseval a' b' c' a a Ho') as P. destruct Ho as (Na & _ & _ & Nab & Nac & _). rewrite Na in *.
      rewrite (ip_comm b), (ip_comm c), Nab, Nac in W2.
      pose proof (sq (ip a' a)). pose proof (sq (ip b' a)). pose proof (sq (ip c' a)).
      set (r := ip a' a * ip a' a) in *. set (t := ip b' a * ip b' a) in *. set (w := ip c' a * ip c' a) in *. clearbody r t w.
      assert (1 <= r + Q * t + S * w) by nra. nra. }
    assert (KA : 0 < K * al) by lra.
    (* minor axes *)
    assert (B1 : S <= K * Z).
    { destruct (W c') as (_ & W2). pose proof (parseval a b c c' c' Ho) as P. destruct Ho' as (_ & _ & Nc & _ & Nac & Nbc). rewrite Nc in *.
      rewrite Nac, Nbc in W2.
      pose proof (sq (ip a c')). pose proof (sq (ip b c')). pose proof (sq (ip c c')).
      set (r := ip a c' * ip a c') in *. set (t := ip b c' * ip b c') in *. set (w := ip c c' * ip c c') in *. clearbody r t w.
      assert (r + Y * t + Z * w <= Z) by nra. assert (K * al * (r + Y * t + Z * w) <= K * al * Z) by (apply Rmult_le_compat_l; lra).
      assert (K * al * Z <= K * 1 * Z) by (apply Rmult_le_compat_r; [lra|]; apply Rmult_le_compat_l; lra). lra. }
    assert (B2 : Z <= K * S).
    { destruct (W c) as (W1 & _). pose proof (parseval a' b' c' c c Ho') as P. destruct Ho as (_ & _ & Nc & _ & Nac & Nbc). rewrite Nc in *.
      rewrite Nac, Nbc in W1.
      pose proof (sq (ip a' c)). pose proof (sq (ip b' c)). pose proof (sq (ip c' c)).
      set (r := ip a' c * ip a' c) in *. set (t := ip b' c * ip b' c) in *. set (w := ip c' c * ip c' c) in *. clearbody r t w.
      assert (r + Q * t + S * w <= S) by nra. assert (K * (al * Z) <= K * S) by (apply Rmult_le_compat_l; lra).
      assert (1 * Z <= K * al * Z) by (apply Rmult_le_compat_r; lra). lra. }
    (* intermediate axes *)
    assert (C1 : Q <= K * Y).
    { destruct (unit_in c a') as (e & Ne & Ec & Ea). destruct (W e) as (_ & W2).
      pose proof (parseval a b c e e Ho) as P. pose proof (parseval a' b' c' e e Ho') as P'. rewrite Ne, Ec in P. rewrite Ne, Ea in P'. rewrite Ec, Ea in W2.
      pose proof (sq (ip a e)). pose proof (sq (ip b e)). pose proof (sq (ip b' e)). pose proof (sq (ip c' e)).
      set (r := ip a e * ip a e) in *. set (t := ip b e * ip b e) in *. set (v := ip b' e * ip b' e) in *. set (w := ip c' e * ip c' e) in *. clearbody r t v w.
      assert (r + Y * t <= Y) by nra. assert (Q <= Q * v + S * w) by nra.
      assert (K * al * (r + Y * t) <= K * al * Y) by (apply Rmult_le_compat_l; lra).
      assert (K * al * Y <= K * 1 * Y) by (apply Rmult_le_compat_r; [lra|]; apply Rmult_le_compat_l; lra). lra. }
    assert (C2 : Y <= K * Q).
    { destruct (unit_in a c') as (e & Ne & Ea & Ec). destruct (W e) as (W1 & _).
      pose proof (parseval a b c e e Ho) as P. pose proof (parseval a' b' c' e e Ho') as P'. rewrite Ne, Ea in P. rewrite Ne, Ec in P'. rewrite Ec, Ea in W1.
      pose proof (sq (ip c e)). pose proof (sq (ip b e)). pose proof (sq (ip b' e)). pose proof (sq (ip a' e)).
      set (r := ip c e * ip c e) in *. set (t := ip b e * ip b e) in *. set (v := ip b' e * ip b' e) in *. set (w := ip a' e * ip a' e) in *. clearbody r t v w.
      assert (Y <= Y * t + Z * r) by nra. assert (w + Q * v <= Q) by nra.
      assert (al * Y <= al * (Y * t + Z * r)) by (apply Rmult_le_compat_l; lra).
      assert (K * (al * Y) <= K * Q) by (apply Rmult_le_compat_l; lra).
      assert (1 * Y <= K * al * Y) by (apply Rmult_le_compat_r; lra). lra. }
    (* from inverses to ratios *)
    assert (I : forall r t, 0 < r -> 0 < t -> / r * / r <= K * (/ t * / t) -> t * t <= K * (r * r)).
    { intros r t R0 T0 H. apply (Rmult_le_compat_r (r * r * (t * t))) in H; [|apply Rmult_le_pos; apply sq].
      replace (/ r * / r * (r * r * (t * t))) with (t * t) in H by (field; lra).
      replace (K * (/ t * / t) * (r * r * (t * t))) with (K * (r * r)) in H by (field; lra). exact H. }
    assert (PY : 0 < y / x) by (apply Rdiv_lt_0_compat; lra). assert (PZ : 0 < z / x) by (apply Rdiv_lt_0_compat; lra).
    assert (EY : Y = / (y / x) * / (y / x)) by (unfold Y; field; lra). assert (EZ : Z = / (z / x) * / (z / x)) by (unfold Z; field; lra).
    rewrite EY in C1, C2. rewrite EZ in B1, B2. unfold Q in C1, C2. unfold S in B1, B2. repeat split; apply I; lra.
  Qed.
  (** ** Exact weights *)
  Lemma shape_axes h t d mi : 0 < t -> eigenvector h (t * (x * x)) a -> eigenvector h (t * (y * y)) b -> eigenvector h (t * (z * z)) c ->
    shape_of h d mi -> axes_are a b c x y z mi.
  Proof.
    intros Ht A0 B0 C0 (l0 & l1 & l2 & a' & b' & c' & P & L & Ho' & A & B & C & Ma & Mb & Mc & Md & Mq & Ms).
    assert (L0 : t * (z * z) <= t * (y * y) <= t * (x * x)) by (split; apply Rmult_le_compat_l; nra).
    destruct (eigen_unique _ _ _ _ _ _ _ _ _ _ _ _ _ L0 L Ho A0 B0 C0 Ho' A B C) as (<- & <- & <-).
    rewrite !(ratio t x y z Ht Hz Hy) in * by lra. split; [exact Mq|]. split; [exact Ms|].
    destruct (axes_same _ _ _ _ _ _ _ _ _ _ L0 Ho A0 B0 C0 Ho' A B C) as (Xa & Xc & Xb).
    assert (S1 : y < x -> t * (y * y) < t * (x * x)) by (intros; apply Rmult_lt_compat_l; nra).
    assert (S2 : z < y -> t * (z * z) < t * (y * y)) by (intros; apply Rmult_lt_compat_l; nra).
    split; [|split].
    - intros H. destruct (Xa (S1 H)) as (e & He & Ea). exists e. rewrite Ma, Ea. auto.
    - intros H. destruct (Xc (S2 H)) as (e & He & Ec). exists e. rewrite Mc, Ec. auto.
    - intros (H2 & H1). destruct (Xb (conj (S2 H2) (S1 H1))) as (e & He & Eb). exists e. rewrite Mb, Eb. auto.
  Qed.
  Lemma even_bil v w : total (fun k => m k * / ip (u k) (u k) * ip v (u k) * ip w (u k)) all / T = / 3 * ip v w.
  Proof.
    transitivity (ip v (ap (moment us masses v0 (fun k => / ip (u k) (u k)) all) w)).
    - rewrite moment_form. unfold Rdiv. f_equal. apply total_ext. intros k _.
      replace (vsub (u k) v0) with (u k) by (destruct (u k); unfold vsub, v0; cbn; f_equal; ring). reflexivity.
    - unfold ap, row, ip. cbn [vx vy vz]. rewrite !(proj2 Hev) by lia. cbn [Nat.eqb]. field.
  Qed.
  Lemma exact_pass al wt d mi : 0 < al -> (forall k, (k < length us)%nat -> wt k = / (al * f (nth k xyz v0))) -> shape_of (mom wt) d mi ->
    axes_are a b c x y z mi.
  Proof.
    intros Hal Hw. set (t := / (3 * al * (x * x))). assert (X : 0 < x * x) by nra.
    assert (Ht : 0 < t) by (apply Rinv_0_lt_compat; apply Rmult_lt_0_compat; lra).
    assert (E : forall v w, ip v (ap (mom wt) w) = t * (x * x * (ip a v * ip a w) + y * y * (ip b v * ip b w) + z * z * (ip c v * ip c w))).
    { intros v w. rewrite moment_form.
      transitivity (3 * t * (/ 3 * ip (mkV (x * ip a v) (y * ip b v) (z * ip c v)) (mkV (x * ip a w) (y * ip b w) (z * ip c w)))).
      - rewrite <- even_bil. unfold Rdiv. rewrite <- Rmult_assoc, <- total_scale. f_equal. apply total_ext. intros k Hk. apply in_seq in Hk.
        rewrite (ip_p v k), (ip_p w k), (Hw k), (f_p k) by lia. pose proof (u_pos k ltac:(lia)). unfold t. field. lra.
      - unfold ip at 1. cbn [vx vy vz]. field. }
    assert (C : forall w l, (forall v, ip v (ap (mom wt) w) = l * ip v w) -> eigenvector (mom wt) l w).
    { intros w l K. apply eigenvector_ap. set (A := ap (mom wt) w) in *. clearbody A.
      pose proof (K (mkV 1 0 0)) as K0. pose proof (K (mkV 0 1 0)) as K1. pose proof (K (mkV 0 0 1)) as K2. unfold ip in K0, K1, K2. cbn [vx vy vz] in K0, K1, K2.
      destruct A as [A1 A2 A3]. unfold vscale. cbn [vx vy vz] in *. f_equal; lra. }
    destruct Ho as (Na & Nb & Nc & Nab & Nac & Nbc).
    apply (shape_axes (mom wt) t d mi Ht); apply C; intros v; rewrite E; rewrite ?(ip_comm b a), ?(ip_comm c a), ?(ip_comm c b), ?Na, ?Nb, ?Nc, ?Nab, ?Nac, ?Nbc.
    - rewrite (ip_comm v a). ring.
    - rewrite (ip_comm v b). ring.
    - rewrite (ip_comm v c). ring.
  Qed.

  (** ** A shape that a pass reproduces *)
  Lemma p_pos k : (k < length us)%nat -> p k <> v0.
  Proof.
    intros Hk E. pose proof (f_p k Hk) as F. rewrite f_form, E in F. unfold inv_form in F.
    assert (Z : forall v, ip v v0 = 0) by (intros; unfold ip, v0; cbn; ring). rewrite !Z in F. pose proof (u_pos k Hk).
    assert (0 < x * x * ip (u k) (u k)) by (apply Rmult_lt_0_compat; nra). unfold Rdiv in F. lra.
  Qed.
  Section Only.
    Variables (l2 l1 l0 : R) (a' b' c' : vec) (h : nat -> nat -> R).
    Hypothesis P : 0 < l0.
    Hypothesis L : l0 <= l1 <= l2.
    Hypothesis Ho' : orthonormal a' b' c'.
    Hypothesis A : eigenvector h l2 a'.
    Hypothesis B' : eigenvector h l1 b'.
    Hypothesis C : eigenvector h l0 c'.
    Notation inv := (inv_form l2 l1 l0 a' b' c').
    Notation dir := (dir_form l2 l1 l0 a' b' c').
    Hypothesis Hh : forall v w, ip v (ap h w) = total (fun k => m k * / (l2 * inv (p k)) * ip v (p k) * ip w (p k)) all / T.
    Hypothesis Hsp : spread_out us masses.

    Lemma dir_is v : dir v = ip v (ap h v).
    Proof. symmetry. apply (quad_form _ _ _ _ _ _ _ v Ho' A B' C). Qed.
    Lemma inv_p k : (k < length us)%nat -> 0 < inv (p k).
    Proof. intros Hk. apply inv_pos; auto; try lra. apply p_pos. exact Hk. Qed.
    Lemma l2_third : l2 = / 3.
    Proof.
      assert (E : dir a' / l2 + dir b' / l1 + dir c' / l0 = / l2).
      { rewrite !dir_is, !Hh. pose proof T_pos as TP.
        transitivity (total (fun k => / l2 * m k) all / T); [|rewrite total_scale; field; lra].
        unfold Rdiv. rewrite !(Rmult_comm _ (/ T)), !(Rmult_comm (/ T * _)), <- !Rmult_assoc, !(Rmult_comm (_ * / T)), <- !Rmult_assoc.
        replace (total (fun k => / l2 * m k) all) with
          (/ l2 * total (fun k => m k * / (l2 * inv (p k)) * ip a' (p k) * ip a' (p k)) all +
           / l1 * total (fun k => m k * / (l2 * inv (p k)) * ip b' (p k) * ip b' (p k)) all +
           / l0 * total (fun k => m k * / (l2 * inv (p k)) * ip c' (p k) * ip c' (p k)) all); [ring|].
        rewrite <- !total_scale, <- !total_plus. apply total_ext. intros k Hk. apply in_seq in Hk. pose proof (inv_p k ltac:(lia)) as I.
        transitivity (m k * / (l2 * inv (p k)) * inv (p k)); [|field; lra]. set (i := / (l2 * inv (p k))). clearbody i. unfold inv_form, Rdiv. ring. }
      unfold dir_form in E. destruct Ho' as (Na & Nb & Nc & Nab & Nac & Nbc).
      rewrite (ip_comm b' a'), (ip_comm c' a'), (ip_comm c' b'), Na, Nb, Nc, Nab, Nac, Nbc in E.
      replace ((l2 * (1 * 1) + l1 * (0 * 0) + l0 * (0 * 0)) / l2 + (l2 * (0 * 0) + l1 * (1 * 1) + l0 * (0 * 0)) / l1 + (l2 * (0 * 0) + l1 * (0 * 0) + l0 * (1 * 1)) / l0) with 3 in E by (field; lra).
      rewrite E, Rinv_inv. reflexivity.
    Qed.
    Lemma dir_sum v : dir v = 3 * (total (fun k => m k * / inv (p k) * (ip v (p k) * ip v (p k))) all / T).
    Proof.
      rewrite dir_is, Hh, l2_third. unfold Rdiv. rewrite <- Rmult_assoc, <- total_scale. f_equal. apply total_ext. intros k Hk. apply in_seq in Hk.
      pose proof (inv_p k ltac:(lia)). rewrite Rinv_mult, Rinv_inv. ring.
    Qed.
    (** The form in the coordinates before the stretching. *)
    Definition G (e : vec) : vec := lin3 (vx e / x) (vy e / y) (vz e / z) a b c.
    Definition pre (v : vec) : vec := mkV (x * ip a v) (y * ip b v) (z * ip c v).
    Definition P3 (e : vec) : vec := lin3 (x * vx e) (y * vy e) (z * vz e) a b c.
    Definition post (v : vec) : vec := mkV (ip a v / x) (ip b v / y) (ip c v / z).
    Lemma lin_comp r s t : ip a (lin3 r s t a b c) = r /\ ip b (lin3 r s t a b c) = s /\ ip c (lin3 r s t a b c) = t.
    Proof.
      destruct Ho as (Na & Nb & Nc & Nab & Nac & Nbc). rewrite !(ip_comm _ (lin3 _ _ _ _ _ _)), !ip_lin3.
      rewrite (ip_comm b a), (ip_comm c a), (ip_comm c b), Na, Nb, Nc, Nab, Nac, Nbc. repeat split; ring.
    Qed.
    Lemma G_pre v : G (pre v) = v.
    Proof. unfold G, pre. cbn [vx vy vz]. rewrite (expand a b c v Ho) at 4. f_equal; field; lra. Qed.
    Lemma P3_post v : P3 (post v) = v.
    Proof. unfold P3, post. cbn [vx vy vz]. rewrite (expand a b c v Ho) at 4. f_equal; field; lra. Qed.
    Lemma ip_G e q : ip (G e) (P3 q) = ip e q.
    Proof. unfold G. rewrite ip_lin3. unfold P3. destruct (lin_comp (x * vx q) (y * vy q) (z * vz q)) as (-> & -> & ->). unfold ip. field. lra. Qed.
    Definition A' (i j : nat) : R :=
      ip (match i with O => vscale (/ x) a | S O => vscale (/ y) b | _ => vscale (/ z) c end)
         (ap h (match j with O => vscale (/ x) a | S O => vscale (/ y) b | _ => vscale (/ z) c end)).
    Lemma A'_sym i j : A' i j = A' j i.
    Proof. unfold A'. rewrite !Hh. unfold Rdiv. f_equal. apply total_ext. intros k _. ring. Qed.
    Lemma G_lin e : G e = lin3 (vx e) (vy e) (vz e) (vscale (/ x) a) (vscale (/ y) b) (vscale (/ z) c).
    Proof. unfold G, lin3, vadd, vscale. cbn [vx vy vz]. unfold Rdiv. f_equal; ring. Qed.
    Lemma dir_G e : dir (G e) = ip e (ap A' e).
    Proof.
      rewrite dir_is, G_lin, ap_lin, ip_lin3. rewrite !(ip_comm _ (lin3 _ _ _ (ap _ _) _ _)), !ip_lin3.
      unfold ap at 10, row. unfold ip at 10. cbn [vx vy vz]. unfold ip at 10 11 12. cbn [vx vy vz]. unfold A'.
      rewrite !(ip_comm _ (vscale (/ x) a)), !(ip_comm _ (vscale (/ y) b)), !(ip_comm _ (vscale (/ z) c)). ring.
    Qed.
    Lemma only_multiple : exists k, 0 < k /\ forall q, inv q = k * inv_form (x * x) (y * y) (z * z) a b c q.
    Proof.
      destruct (sorted A' A'_sym) as ([k0 k1 k2 e0 e1 e2] & (Oe & E0 & E1 & E2) & Lk). cbn [sl0 sl1 sl2 se0 se1 se2] in *.
      assert (DK : forall e, dir (G e) = dir_form k2 k1 k0 e2 e1 e0 e).
      { intros e. rewrite dir_G. apply (quad_form _ _ _ _ _ _ _ e Oe E2 E1 E0). }
      assert (Pk : 0 < k0).
      { destruct Oe as (N2 & N1 & N0 & N21 & N20 & N10).
        assert (X : dir (G e0) = k0) by (rewrite DK; unfold dir_form; rewrite N20, N10, N0; ring). rewrite <- X.
        assert (Z : G e0 <> v0).
        { intros Z. pose proof (ip_G e0 e0) as K. rewrite Z, N0 in K. rewrite ip_v0 in K. lra. }
        apply ip_pos in Z. rewrite (parseval a' b' c' _ _ Ho') in Z. unfold dir_form.
        pose proof (Rle_0_sqr (ip a' (G e0))) as R0. pose proof (Rle_0_sqr (ip b' (G e0))) as S0. pose proof (Rle_0_sqr (ip c' (G e0))) as T0. unfold Rsqr in *.
        set (r := ip a' (G e0) * _) in *. set (s := ip b' (G e0) * _) in *. set (t := ip c' (G e0) * _) in *. clearbody r s t. clear - P L R0 S0 T0 Z.
        assert (l0 * r <= l2 * r) by (apply Rmult_le_compat_r; lra). assert (l0 * s <= l1 * s) by (apply Rmult_le_compat_r; lra).
        assert (0 < l0 * (r + s + t)) by (now apply Rmult_lt_0_compat). lra. }
      (* the inverse form in those coordinates *)
      assert (IK : forall q, inv (P3 q) = inv_form k2 k1 k0 e2 e1 e0 q).
      { intros q. apply Rle_antisym.
        - set (v := inv_vec l2 l1 l0 a' b' c' (P3 q)). pose proof (inv_vec_dir l2 l1 l0 a' b' c' (P3 q) ltac:(lra) ltac:(lra) ltac:(lra) Ho') as D.
          pose proof (inv_vec_ip l2 l1 l0 a' b' c' (P3 q) ltac:(lra) ltac:(lra) ltac:(lra)) as I. fold v in D, I.
          pose proof (dual_le k2 k1 k0 e2 e1 e0 (pre v) q ltac:(lra) ltac:(lra) ltac:(lra) Oe) as K. rewrite <- DK, <- ip_G, G_pre in K. lra.
        - set (v := inv_vec k2 k1 k0 e2 e1 e0 q). pose proof (inv_vec_dir k2 k1 k0 e2 e1 e0 q ltac:(lra) ltac:(lra) ltac:(lra) Oe) as D.
          pose proof (inv_vec_ip k2 k1 k0 e2 e1 e0 q ltac:(lra) ltac:(lra) ltac:(lra)) as I. fold v in D, I.
          pose proof (dual_le l2 l1 l0 a' b' c' (G v) (P3 q) ltac:(lra) ltac:(lra) ltac:(lra) Ho') as K. rewrite ip_G, DK in K. lra. }
      assert (PP : forall k, (k < length us)%nat -> p k = P3 (u k)) by (intros k Hk; apply p_lin; exact Hk).
      assert (IKp : forall k, (k < length us)%nat -> inv (p k) = inv_form k2 k1 k0 e2 e1 e0 (u k)) by (intros k Hk; rewrite PP by exact Hk; apply IK).
      assert (sq : forall t : R, 0 <= t * t) by (intros t; exact (Rle_0_sqr t)).
      assert (inv_le : forall r t, 0 < r <= t -> / t <= / r) by (intros; apply Rinv_le_contravar; lra).
      (* along an axis of the largest value every particle is weighted alike *)
      assert (tight : forall e, ip e e = 1 -> dir (G e) = k2 -> forall k, (k < length us)%nat -> 0 < m k -> ip e (u k) <> 0 ->
        (ip e1 (u k) * ip e1 (u k)) * (/ k1 - / k2) + (ip e0 (u k) * ip e0 (u k)) * (/ k0 - / k2) = 0).
      { intros e Ne De. pose proof T_pos as TP.
        assert (S : total (fun k => m k * (ip e (u k) * ip e (u k)) * (k2 * / ip (u k) (u k) - / inv (p k))) all = 0).
        { assert (S1 := even_form e). rewrite Ne in S1. assert (S2 := dir_sum (G e)). rewrite De in S2.
          assert (Q1 : total (fun k => m k * / ip (u k) (u k) * ip e (u k) * ip e (u k)) all = T / 3).
          { apply (Rmult_eq_reg_r (/ T)); [|apply Rinv_neq_0_compat; lra]. unfold Rdiv in S1. rewrite S1. field. lra. }
          assert (Q2 : total (fun k => m k * / inv (p k) * (ip e (u k) * ip e (u k))) all = k2 * T / 3).
          { rewrite (total_ext _ (fun k => m k * / inv (p k) * (ip (G e) (p k) * ip (G e) (p k)))).
            - apply (Rmult_eq_reg_r (/ T)); [|apply Rinv_neq_0_compat; lra]. unfold Rdiv in S2 |- *. rewrite S2. field. lra.
            - intros k Hk. apply in_seq in Hk. rewrite (PP k) by lia. rewrite ip_G. reflexivity. }
          rewrite (total_ext _ (fun k => k2 * (m k * / ip (u k) (u k) * ip e (u k) * ip e (u k)) + (-1) * (m k * / inv (p k) * (ip e (u k) * ip e (u k))))) by (intros; ring).
          rewrite total_plus, !total_scale, Q1, Q2. field. }
        assert (LE : forall k, (k < length us)%nat -> 0 < ip (u k) (u k) * / k2 <= inv (p k) /\
          inv (p k) - ip (u k) (u k) * / k2 = (ip e1 (u k) * ip e1 (u k)) * (/ k1 - / k2) + (ip e0 (u k) * ip e0 (u k)) * (/ k0 - / k2)).
        { intros k Hk. rewrite IKp by exact Hk. pose proof (u_pos k Hk) as U. rewrite (parseval e2 e1 e0 (u k) (u k) Oe) in *. unfold inv_form.
          pose proof (inv_le k1 k2 ltac:(lra)). pose proof (inv_le k0 k2 ltac:(lra)). pose proof (Rinv_0_lt_compat k2 ltac:(lra)) as K2.
          unfold Rdiv. pose proof (sq (ip e2 (u k))) as Y2. pose proof (sq (ip e1 (u k))) as Y1. pose proof (sq (ip e0 (u k))) as Y0.
          set (r := ip e2 (u k) * ip e2 (u k)) in *. set (s := ip e1 (u k) * ip e1 (u k)) in *. set (t := ip e0 (u k) * ip e0 (u k)) in *. clearbody r s t.
          split; [|ring]. split; [now apply Rmult_lt_0_compat|].
          assert (s * / k2 <= s * / k1) by (now apply Rmult_le_compat_l). assert (t * / k2 <= t * / k0) by (now apply Rmult_le_compat_l). lra. }
        intros k Hk Mk Nk. destruct (LE k Hk) as (L1 & L2). rewrite <- L2.
        assert (NN : forall j, In j all -> 0 <= m j * (ip e (u j) * ip e (u j)) * (k2 * / ip (u j) (u j) - / inv (p j))).
        { intros j Hj. apply in_seq in Hj. destruct (LE j ltac:(lia)) as (L3 & _). pose proof (Hm j ltac:(lia)) as Mj.
          pose proof (inv_le _ _ L3) as I. rewrite Rinv_mult, Rinv_inv in I.
          apply Rmult_le_pos; [apply Rmult_le_pos; [exact Mj|apply sq]|lra]. }
        assert (Z := total_zero _ all NN S k ltac:(apply in_seq; lia)). cbn beta in Z.
        apply Rmult_integral in Z. destruct Z as [Z|Z].
        - exfalso. apply Rmult_integral in Z. destruct Z as [Z|Z]; [lra|]. apply Rmult_integral in Z. tauto.
        - pose proof (u_pos k Hk) as U. assert (Q : / inv (p k) = / (ip (u k) (u k) * / k2)) by (rewrite Rinv_mult, Rinv_inv; lra).
          apply (f_equal Rinv) in Q. rewrite !Rinv_inv in Q. lra. }
      assert (D2 : dir (G e2) = k2 /\ dir (G e1) = k1).
      { destruct Oe as (N2 & N1 & N0 & N21 & N20 & N10). rewrite !DK. unfold dir_form. rewrite (ip_comm e1 e2), (ip_comm e0 e2), (ip_comm e0 e1), N2, N1, N21, N20, N10. split; ring. }
      destruct D2 as (D2 & D1). pose proof (proj1 Oe) as N2. pose proof (proj1 (proj2 Oe)) as N1. pose proof (proj1 (proj2 (proj2 Oe))) as N0.
      assert (strict : forall r, 0 < r < k2 -> 0 < / r - / k2) by (intros r Hr; pose proof (Rinv_lt_contravar r k2 ltac:(apply Rmult_lt_0_compat; lra) ltac:(lra)); lra).
      assert (nonn : forall r, 0 < r <= k2 -> 0 <= / r - / k2) by (intros r Hr; pose proof (inv_le r k2 Hr); lra).
      assert (zsq : forall r t, 0 < t -> 0 <= r * r * t -> r * r * t <= 0 -> r = 0).
      { intros r t Ht _ H. destruct (Req_dec r 0) as [|N]; [assumption|]. exfalso. assert (0 < r * r) by (apply Rlt_0_sqr; exact N). assert (0 < r * r * t) by (now apply Rmult_lt_0_compat). lra. }
      assert (K02 : k0 = k2).
      { destruct (Rle_lt_or_eq_dec k0 k2 ltac:(lra)) as [K|K]; [exfalso|exact K].
        destruct (Rle_lt_or_eq_dec k1 k2 ltac:(lra)) as [K1|K1].
        - destruct (Hsp e2 N2) as (k & Hk & Mk & Nk & NN). pose proof (tight e2 N2 D2 k Hk Mk Nk) as Z.
          pose proof (strict k0 ltac:(lra)) as S0. pose proof (strict k1 ltac:(lra)) as S1.
          pose proof (Rmult_le_pos _ _ (sq (ip e1 (u k))) (Rlt_le _ _ S1)) as Y1. pose proof (Rmult_le_pos _ _ (sq (ip e0 (u k))) (Rlt_le _ _ S0)) as Y0.
          assert (Z1 : ip e1 (u k) = 0) by (apply (zsq _ _ S1 Y1); lra). assert (Z0 : ip e0 (u k) = 0) by (apply (zsq _ _ S0 Y0); lra).
          apply NN. rewrite (expand e2 e1 e0 (u k) Oe) at 1. rewrite Z1, Z0. unfold lin3, vadd, vscale. cbn [vx vy vz]. f_equal; ring.
        - destruct (Hsp e0 N0) as (k & Hk & Mk & Nk & NN).
          assert (Z : forall e, ip e e = 1 -> dir (G e) = k2 -> ip e (u k) = 0).
          { intros e Ne De. destruct (Req_dec (ip e (u k)) 0) as [|N]; [assumption|exfalso]. pose proof (tight e Ne De k Hk Mk N) as Z.
            pose proof (strict k0 ltac:(lra)) as S0. pose proof (nonn k1 ltac:(lra)) as S1.
            pose proof (Rmult_le_pos _ _ (sq (ip e1 (u k))) S1) as Y1. pose proof (Rmult_le_pos _ _ (sq (ip e0 (u k))) (Rlt_le _ _ S0)) as Y0.
            apply Nk. apply (zsq _ _ S0 Y0). lra. }
          pose proof (Z e2 N2 D2) as Z2. pose proof (Z e1 N1 ltac:(lra)) as Z1.
          apply NN. rewrite (expand e2 e1 e0 (u k) Oe) at 1. rewrite Z1, Z2. unfold lin3, vadd, vscale. cbn [vx vy vz]. f_equal; ring. }
      assert (K12 : k1 = k2) by lra. clear tight. exists (/ k2). split; [apply Rinv_0_lt_compat; lra|]. intros q.
      rewrite <- (P3_post q) at 1. rewrite IK, K02, K12.
      replace (inv_form k2 k2 k2 e2 e1 e0 (post q)) with (/ k2 * ip (post q) (post q)) by (rewrite (parseval e2 e1 e0 _ _ Oe); unfold inv_form; field; lra).
      unfold inv_form, post. unfold ip at 1. cbn [vx vy vz]. field. lra.
    Qed.
  End Only.
  Lemma only wt d g mi : (forall k, (k < length us)%nat -> wt k = / g (nth k xyz v0)) -> shape_of (mom wt) d mi -> radius2_in mi center g ->
    spread_out us masses -> exists al, 0 < al /\ forall q, g q = al * f q.
  Proof.
    intros Hw (l0 & l1 & l2 & a' & b' & c' & P & L & Ho' & A & B' & C & Ma & Mb & Mc & _ & Mq & Ms) (q & s & a1 & b1 & c1 & Mq' & Ms' & Ma' & Mb' & Mc' & Hg) Hsp.
    rewrite Mq in Mq'. rewrite Ms in Ms'. rewrite Ma in Ma'. rewrite Mb in Mb'. rewrite Mc in Mc'. injection Mq' as <-. injection Ms' as <-.
    apply fv_inj in Ma', Mb', Mc'. subst a1 b1 c1.
    assert (Hg' : forall q, g q = l2 * inv_form l2 l1 l0 a' b' c' (vsub q center)) by (intros q; rewrite Hg, ellrad_form by lra; reflexivity).
    destruct (only_multiple l2 l1 l0 a' b' c' (mom wt) P L Ho' A B' C) as (k & Hk & E); auto.
    - intros v w. rewrite moment_form. unfold Rdiv. f_equal. apply total_ext. intros j Hj. apply in_seq in Hj. rewrite (Hw j) by lia. rewrite Hg'. reflexivity.
    - exists (l2 * k / (x * x)). split.
      + apply Rdiv_lt_0_compat; [apply Rmult_lt_0_compat; lra|nra].
      + intros q. rewrite Hg', E, f_form. field. lra.
  Qed.
End Red.

(** * C121 *)
Section Runs.
  Variables (us : list vec) (masses : list R) (x y z : R) (a b c center : vec).
  Hypothesis Hlen : length masses = length us.
  Hypothesis Hm : nonneg us masses.
  Hypothesis Hev : even_directions us masses.
  Hypothesis Ho : orthonormal a b c.
  Hypothesis Hz : 0 < z <= y.
  Hypothesis Hy : y <= x.
  Notation xyz := (map (stretch x y z a b c center) us).
  Notation K := (x / z * (x / z)).
  Notation step_ok' d := (step_ok xyz xyz masses center center d true).

  Lemma nonneg_xyz : nonneg xyz masses.
  Proof. intros k Hk. rewrite map_length in Hk. now apply Hm. Qed.
  Lemma within_radius k mi center' q s a' b' c' : within k x y z a b c center' mi -> mq mi = Fin q -> ms mi = Fin s -> major mi = fv a' -> inter mi = fv b' -> minor mi = fv c' ->
    exists al, 0 < al /\ forall p, al * ellrad2 (y / x) (z / x) a b c center' p <= ellrad2 q s a' b' c' center' p <= k * al * ellrad2 (y / x) (z / x) a b c center' p.
  Proof.
    intros (al & g & Hal & (q1 & s1 & a1 & b1 & c1 & Q & S & A & B & C & Hg) & W) Q' S' A' B' C'.
    rewrite Q in Q'. rewrite S in S'. rewrite A in A'. rewrite B in B'. rewrite C in C'. injection Q' as <-. injection S' as <-.
    apply fv_inj in A', B', C'. subst. exists al. split; [exact Hal|]. intros p. rewrite <- Hg. apply W.
  Qed.
  Lemma step_first d e : fst (fst e) = seq 0 (length us) -> step_ok' d [] e -> within K x y z a b c center (snd e).
  Proof.
    intros Hs (wt & Hw & _ & Hsh). rewrite Hs in *. apply (first_pass us masses x y z a b c center Hlen Hm Hev Ho Hz Hy wt d); [|exact Hsh].
    intros k Hk. destruct (Hw k ltac:(apply in_seq; lia)) as (r & [(_ & Hr)|(tr' & e' & q & s & a' & b' & c' & F & _)] & _ & ->).
    - rewrite Hr. reflexivity.
    - destruct tr'; discriminate F.
  Qed.
  Lemma step_next k d pre e1 e2 : 0 < k -> fst (fst e2) = seq 0 (length us) -> step_ok' d (pre ++ [e1]) e2 ->
    within k x y z a b c center (snd e1) -> within k x y z a b c center (snd e2).
  Proof.
    intros Hk Hs (wt & Hw & _ & Hsh) H1. rewrite Hs in *. pose proof H1 as (al & g & Hal & Hg & W).
    apply (pass_bounds us masses x y z a b c center Hlen Hm Hev Ho Hz Hy k al wt d); auto.
    intros j Hj. destruct (Hw j ltac:(apply in_seq; lia)) as (r & [(F & _)|(tr' & e' & q & s & a' & b' & c' & F & Q & S & A & B & C & Hr)] & _ & ->); [destruct pre; discriminate F|].
    apply app_inj_tail in F. destruct F as (_ & <-). exists r. split; [reflexivity|].
    destruct Hg as (q1 & s1 & a1 & b1 & c1 & Q' & S' & A' & B' & C' & Hg). rewrite Q in Q'. rewrite S in S'. rewrite A in A'. rewrite B in B'. rewrite C in C'.
    injection Q' as <-. injection S' as <-. apply fv_inj in A', B', C'. subst a1 b1 c1. rewrite Hr, <- Hg. apply W.
  Qed.

  (** No pass over all particles takes the shape further from the true one than the pass before left it. *)
  Theorem C121_never_worse : forall eig d delta tol wall mn fuel mi0 r tr pre e1 e2 post k,
    eig_contract eig -> katz eig xyz xyz masses center center d delta tol wall mn true fuel mi0 = Some (r, tr) ->
    tr = pre ++ e1 :: e2 :: post -> fst (fst e2) = seq 0 (length us) -> 0 < k ->
    within k x y z a b c center (snd e1) -> within k x y z a b c center (snd e2).
  Proof.
    intros eig d delta tol wall mn fuel mi0 r tr pre e1 e2 post k He R E Hs Hk W.
    destruct (C30_principal eig xyz xyz masses center center d delta tol wall mn true fuel mi0 r tr He nonneg_xyz R) as (St & _).
    apply (step_next k d pre e1 e2 Hk Hs); auto. apply (St (pre ++ [e1]) e2 post). rewrite <- app_assoc. exact E.
  Qed.
  (** The true ellipsoid is reproduced, with the true ratios and axes. *)
  Theorem C121_stays : forall eig d delta tol wall mn fuel mi0 r tr pre e1 e2 post,
    eig_contract eig -> katz eig xyz xyz masses center center d delta tol wall mn true fuel mi0 = Some (r, tr) ->
    tr = pre ++ e1 :: e2 :: post -> fst (fst e2) = seq 0 (length us) ->
    within 1 x y z a b c center (snd e1) -> axes_are a b c x y z (snd e2).
  Proof.
    intros eig d delta tol wall mn fuel mi0 r tr pre e1 e2 post He R E Hs W.
    destruct (C30_principal eig xyz xyz masses center center d delta tol wall mn true fuel mi0 r tr He nonneg_xyz R) as (St & _).
    destruct (St (pre ++ [e1]) e2 post ltac:(rewrite <- app_assoc; exact E)) as (wt & Hw & _ & Hsh). rewrite Hs in *. destruct W as (al & g & Hal & Hg & W).
    apply (exact_pass us masses x y z a b c center Hlen Hev Ho Hz Hy al wt d (snd e2) Hal); [|exact Hsh].
    intros j Hj. destruct (Hw j ltac:(apply in_seq; lia)) as (q' & [(F & _)|(tr' & e' & q & s & a' & b' & c' & F & Q & S & A & B & C & Hr)] & _ & ->); [destruct pre; discriminate F|].
    apply app_inj_tail in F. destruct F as (_ & <-).
    destruct Hg as (q1 & s1 & a1 & b1 & c1 & Q' & S' & A' & B' & C' & Hg). rewrite Q in Q'. rewrite S in S'. rewrite A in A'. rewrite B in B'. rewrite C in C'.
    injection Q' as <-. injection S' as <-. apply fv_inj in A', B', C'. subst a1 b1 c1. rewrite Hr, <- Hg. f_equal. specialize (W (nth j xyz v0)). lra.
  Qed.
  (** Only the true ellipsoid is reproduced. *)
  Theorem C121_only : forall eig d delta tol wall mn fuel mi0 r tr pre e1 e2 post,
    eig_contract eig -> spread_out us masses -> katz eig xyz xyz masses center center d delta tol wall mn true fuel mi0 = Some (r, tr) ->
    tr = pre ++ e1 :: e2 :: post -> fst (fst e2) = seq 0 (length us) ->
    same_ellipsoids center (snd e1) (snd e2) -> within 1 x y z a b c center (snd e2) /\ axes_are a b c x y z (snd e2).
  Proof.
    intros eig d delta tol wall mn fuel mi0 r tr pre e1 e2 post He Hsp R E Hs (_ & _ & g & G1 & G2).
    assert (X : exists al, 0 < al /\ forall p, g p = al * ellrad2 (y / x) (z / x) a b c center p).
    { destruct (C30_principal eig xyz xyz masses center center d delta tol wall mn true fuel mi0 r tr He nonneg_xyz R) as (St & _).
      destruct (St (pre ++ [e1]) e2 post ltac:(rewrite <- app_assoc; exact E)) as (wt & Hw & _ & Hsh). rewrite Hs in *.
      apply (only us masses x y z a b c center Hlen Hm Hev Ho Hz Hy wt d g (snd e2)); auto.
      intros j Hj. destruct (Hw j ltac:(apply in_seq; lia)) as (q' & [(F & _)|(tr' & e' & q & s & a' & b' & c' & F & Q & S & A & B & C & Hr)] & _ & ->); [destruct pre; discriminate F|].
      apply app_inj_tail in F. destruct F as (_ & <-).
      destruct G1 as (q1 & s1 & a1 & b1 & c1 & Q' & S' & A' & B' & C' & Hg). rewrite Q in Q'. rewrite S in S'. rewrite A in A'. rewrite B in B'. rewrite C in C'.
      injection Q' as <-. injection S' as <-. apply fv_inj in A', B', C'. subst a1 b1 c1. rewrite Hr, <- Hg. reflexivity. }
    destruct X as (al & Hal & X).
    assert (W : forall mi, radius2_in mi center g -> within 1 x y z a b c center mi).
    { intros mi G. exists al, g. split; [exact Hal|]. split; [exact G|]. intros p. rewrite X. lra. }
    split; [exact (W _ G2)|]. apply (C121_stays eig d delta tol wall mn fuel mi0 r tr pre e1 e2 post He R E Hs (W _ G1)).
  Qed.
  (** Ratios of a shape within the factor k. *)
  Theorem C121_close : forall k d mi, 0 < k -> valid_shape d mi -> within k x y z a b c center mi ->
    exists q s, mq mi = Fin q /\ ms mi = Fin s /\ y / x * (y / x) <= k * (q * q) /\ q * q <= k * (y / x * (y / x)) /\
      z / x * (z / x) <= k * (s * s) /\ s * s <= k * (z / x * (z / x)).
  Proof. intros k d mi Hk V W. exact (close x y z a b c center Ho Hz Hy k d mi Hk V W). Qed.

  (** When the start is wide enough every pass uses all particles, nothing is raised, and no shape is further from the truth
      than the sphere with which the run starts. *)
  Theorem C121_run : forall eig d tol wall mn fuel mi0 r tr,
    eig_contract eig -> (forall u, In u us -> x / z * (x / z) * (x * x * ip u u) < d * d) ->
    katz eig xyz xyz masses center center d None tol wall mn true fuel mi0 = Some (r, tr) ->
    r <> ZeroDivision /\
    forall pre e post, tr = pre ++ e :: post -> fst (fst e) = seq 0 (length us) /\ within K x y z a b c center (snd e).
  Proof.
    intros eig d tol wall mn fuel mi0 r tr He Hd R.
    destruct (C30_principal eig xyz xyz masses center center d None tol wall mn true fuel mi0 r tr He nonneg_xyz R) as (St & _).
    assert (KP := K_pos x y z Hz Hy).
    assert (U : forall j, (j < length us)%nat -> 0 < ip (nth j us v0) (nth j us v0)) by (intros j Hj; apply (u_pos us masses Hev j Hj)).
    (* a selection after right passes *)
    assert (Sel : forall pre sel, right_selection xyz center d None pre sel ->
      (pre = [] \/ exists pre' e, pre = pre' ++ [e] /\ within K x y z a b c center (snd e) /\ valid_shape d (snd e)) -> sel = seq 0 (length us)).
    { intros pre sel ((g & Eg) & Hin) Hp. rewrite map_length in Eg. rewrite Eg. apply filter_all. intros k Hk.
      assert (Lk : (k < length us)%nat) by (apply in_seq in Hk; lia).
      assert (X : In k sel); [|rewrite Eg in X; apply filter_In in X; tauto].
      apply Hin. split; [rewrite map_length; exact Lk|]. split; [|exact I].
      pose proof (Hd (nth k us v0) (nth_In _ _ Lk)) as D. rewrite <- (f_p us masses x y z a b c center Hlen Ho Hz Hy k Lk) in D.
      set (q0 := nth k xyz v0) in *. rewrite f_form in D by assumption.
      destruct (f_bounds x y z a b c Ho Hz Hy (vsub q0 center)) as (F1 & F2). set (j := x * x * _) in *.
      assert (J : 0 <= ip (vsub q0 center) (vsub q0 center)) by (unfold ip; nra).
      destruct Hp as [->|(pre' & e & -> & W & V)].
      - eexists. split; [left; split; reflexivity|]. nra.
      - destruct V as (_ & q & s & a' & b' & c' & Mq & Ms & S0 & Q1 & Ma & Mb & Mc & Ho').
        eexists. split; [right; exists pre', e, q, s, a', b', c'; repeat (split; [first [reflexivity|assumption]|]); reflexivity|].
        destruct (within_radius K (snd e) center q s a' b' c' W Mq Ms Ma Mb Mc) as (al & Hal & Wr).
        assert (A1 : al <= 1).
        { destruct (Wr (vadd center a')) as (W1 & _). rewrite f_form in W1 by assumption.
          replace (vsub (vadd center a') center) with a' in W1 by (destruct a'; unfold vsub, vadd; cbn; f_equal; ring).
          destruct (f_bounds x y z a b c Ho Hz Hy a') as (G1 & _). unfold ellrad2 in W1. cbv zeta in W1.
          replace (vsub (vadd center a') center) with a' in W1 by (destruct a'; unfold vsub, vadd; cbn; f_equal; ring).
          destruct Ho' as (Na & Nb & Nc & Nab & Nac & Nbc). rewrite (ip_comm b' a'), (ip_comm c' a'), Na, Nab, Nac in W1. rewrite Na in G1.
          set (jj := x * x * _) in *. clearbody jj. unfold Rdiv in W1. nra. }
        destruct (Wr q0) as (_ & W2). rewrite f_form in W2 by assumption. fold j in W2.
        assert (J0 : 0 <= j) by lra. assert (K * al * j <= K * 1 * j) by (apply Rmult_le_compat_r; [exact J0|]; apply Rmult_le_compat_l; lra). lra. }
    assert (Hsel : forall pre e post, tr = pre ++ e :: post -> right_selection xyz center d None pre (fst (fst e))).
    { intros pre e post E. exact (C32_selection eig xyz xyz masses center center d None tol wall mn true fuel mi0 r tr He nonneg_xyz R pre e post E). }
    assert (Val : forall pre e, step_ok' d pre e -> valid_shape d (snd e)) by (intros pre e (wt & _ & _ & Hs); exact (shape_of_valid _ _ _ Hs)).
    assert (All : forall pre e post, tr = pre ++ e :: post -> fst (fst e) = seq 0 (length us) /\ within K x y z a b c center (snd e)).
    { intros pre. pattern pre. apply List.rev_ind; clear pre; [intros e post E|intros e1 pre IH e post E].
      - assert (S : fst (fst e) = seq 0 (length us)) by (apply (Sel [] _ (Hsel _ _ _ E)); left; reflexivity).
        split; [exact S|]. apply (step_first d e S). exact (St _ _ _ E).
      - assert (E' : tr = pre ++ e1 :: e :: post) by (rewrite <- app_assoc in E; exact E).
        destruct (IH _ _ E') as (_ & W1).
        assert (S : fst (fst e) = seq 0 (length us)).
        { apply (Sel _ _ (Hsel _ _ _ E)). right. exists pre, e1. split; [reflexivity|]. split; [exact W1|]. exact (Val _ _ (St _ _ _ E')). }
        split; [exact S|]. apply (step_next K d pre e1 e); auto; [lra|]. exact (St _ _ _ E). }
    split; [|exact All]. intros ->.
    destruct (C30_raises eig xyz xyz masses center center d None tol wall mn true fuel mi0 tr He nonneg_xyz R) as (sel & Hs & _ & Tr).
    assert (ES : sel = seq 0 (length us)).
    { apply (Sel _ _ Hs). assert (D : tr = [] \/ exists tr' e, tr = tr' ++ [e]) by (clear; pattern tr; apply List.rev_ind; [left; reflexivity|right; eauto]).
      destruct D as [D|(tr' & e & D)]; [left; exact D|right]. exists tr', e. split; [exact D|].
      split; [exact (proj2 (All tr' e [] D))|]. exact (Val _ _ (St tr' e [] D)). }
    subst sel. pose proof (T_pos us masses Hlen Hm Hev) as TP.
    destruct Tr as [Tr|[(_ & k & Hk & Tr)|[(n & Nn & Tr)|(wt & mi & q & s & dd & _ & _ & _ & _ & F & _)]]]; [lra| | |discriminate].
    - apply in_seq in Hk. apply (p_pos us masses x y z a b c center Hlen Hev Ho Hz Hy k ltac:(lia)). rewrite Tr. unfold vsub, v0. f_equal; ring.
    - pose proof (true_form us masses x y z a b c center Hlen Hev n) as X.
      rewrite (total_ext _ (fun _ => 0)) in X.
      + rewrite total_const in X. unfold dir_form in X. rewrite (parseval a b c n n Ho) in Nn.
        pose proof (Rle_0_sqr (ip a n)) as R0. pose proof (Rle_0_sqr (ip b n)) as S0. pose proof (Rle_0_sqr (ip c n)) as T0. unfold Rsqr in *.
        set (r0 := ip a n * _) in *. set (s0 := ip b n * _) in *. set (t0 := ip c n * _) in *. clearbody r0 s0 t0. unfold Rdiv in X.
        assert (z * z * r0 <= x * x * r0) by (apply Rmult_le_compat_r; nra). assert (z * z * s0 <= y * y * s0) by (apply Rmult_le_compat_r; nra).
        assert (0 < z * z) by nra. nra.
      + intros k Hk. pose proof (Hm k ltac:(apply in_seq in Hk; lia)) as Mk. destruct (Rle_lt_or_eq_dec _ _ Mk) as [G|G]; [|rewrite <- G; ring].
        rewrite (Tr k Hk G). ring.
  Qed.
End Runs.
Print Assumptions C121_never_worse.
Print Assumptions C121_stays.
Print Assumptions C121_only.
Print Assumptions C121_close.
Print Assumptions C121_run.

(** A pass is made, and what is returned is the marker of failure or a shape with ratios not below those bounds. *)
Theorem C121_result : forall eig us masses x y z a b c center d tol wall mn fuel mi0,
  eig_contract eig -> length masses = length us -> nonneg us masses -> even_directions us masses -> orthonormal a b c -> 0 < z <= y -> y <= x ->
  (forall u, In u us -> x / z * (x / z) * (x * x * ip u u) < d * d) ->
  tol < 1 -> (1 <= wall)%Z -> (mn <= Z.of_nat (length us))%Z -> (Z.to_nat wall <= fuel)%nat ->
  let xyz := map (stretch x y z a b c center) us in
  exists mi tr, katz eig xyz xyz masses center center d None tol wall mn true fuel mi0 = Some (Ret mi, tr) /\ tr <> [] /\
    (mi = zeros \/ exists q s, mq mi = Fin q /\ ms mi = Fin s /\ y / x * (z / x) <= q <= 1 /\ z / x * (z / x) <= s <= q).
Proof.
  intros eig us masses x y z a b c center d tol wall mn fuel mi0 He Hl Hm Hev Ho Hz Hy Hd Ht Hw Hn Hf xyz.
  assert (Hm' : nonneg xyz masses) by (intros k Hk; unfold xyz in Hk; rewrite map_length in Hk; now apply Hm).
  destruct (C31_terminates eig xyz xyz masses center center d None tol wall mn true fuel mi0 Hf) as (r & tr & R).
  destruct (C121_run us masses x y z a b c center Hl Hm Hev Ho Hz Hy eig d tol wall mn fuel mi0 r tr He Hd R) as (NZ & All).
  destruct r as [mi|]; [|congruence]. exists mi, tr. split; [exact R|]. split.
  - intros ->. destruct fuel as [|fuel]; [lia|]. unfold katz in R.
    assert (S0 := sinv_init xyz center d None wall mn mi0).
    assert (T0 : k_trace (katz_init xyz center d None mi0) = []) by (unfold katz_init; destruct compact; reflexivity).
    assert (I0 : k_it (katz_init xyz center d None mi0) = 1%Z) by (unfold katz_init; destruct compact; reflexivity).
    assert (E0 : k_err (katz_init xyz center d None mi0) = Fin 1) by (unfold katz_init; destruct compact; reflexivity).
    assert (P0 : k_pts (katz_init xyz center d None mi0) = length us).
    { rewrite <- ssel_length. destruct S0 as (_ & -> & _). rewrite T0. unfold sel_rule. cbn [rev]. rewrite filter_all; [rewrite seq_length; unfold xyz; apply map_length|].
      intros k Hk. apply in_seq in Hk. unfold xyz in Hk. rewrite map_length in Hk. unfold in_sphere, dist2.
      destruct Rlt_dec as [|N]; [reflexivity|exfalso]. apply N. pose proof (Hd (nth k us v0) (nth_In _ _ (proj2 Hk))) as D.
      rewrite <- (f_p us masses x y z a b c center Hl Ho Hz Hy k ltac:(lia)) in D. fold xyz in D. set (q0 := nth k xyz v0) in *. rewrite f_form in D by assumption.
      destruct (f_bounds x y z a b c Ho Hz Hy (vsub q0 center)) as (F1 & _). pose proof (K_pos x y z Hz Hy). set (j := x * x * _) in *. clearbody j.
      assert (J : 0 <= ip (vsub q0 center) (vsub q0 center)) by (unfold ip; nra). assert (j <= x / z * (x / z) * j) by nra.
      unfold ip, vsub in F1. cbn [vx vy vz] in F1. match goal with |- ?g < _ => assert (G : g <= j) by (eapply Rle_trans; [|exact F1]; apply Req_le; ring) end. lra. }
    cbn [katz_loop] in R. rewrite E0, I0, P0 in R. cbn [xltb] in R. destruct (Rlt_dec tol 1) as [_|X]; [|lra].
    destruct (Z.ltb_spec wall 1); [lia|]. destruct (Z.ltb_spec (Z.of_nat (length us)) mn); [lia|].
    destruct (existsb _ _); [discriminate|].
    assert (G : forall n st r' tr', katz_loop eig xyz xyz masses center center d None tol wall mn true n st = Some (r', tr') -> k_trace st <> [] -> tr' <> []).
    { clear. induction n as [|n IH]; intros st r' tr' H N; cbn [katz_loop] in H.
      - destruct xltb; [|injection H as <- <-; exact N]. destruct Z.ltb; [injection H as <- <-; exact N|]. destruct Z.ltb; [injection H as <- <-; exact N|discriminate].
      - destruct xltb; [|injection H as <- <-; exact N]. destruct Z.ltb; [injection H as <- <-; exact N|]. destruct Z.ltb; [injection H as <- <-; exact N|].
        destruct existsb; [injection H as <- <-; exact N|]. apply (IH _ _ _ H).
        destruct (body_parts eig xyz xyz masses center center d None true st) as (? & ? & ? & ? & ? & ? & _ & _ & _ & _ & _ & ->). cbn [k_trace]. destruct (k_trace st); discriminate. }
    apply (G _ _ _ _ R); [|reflexivity].
    destruct (body_parts eig xyz xyz masses center center d None true (katz_init xyz center d None mi0)) as (? & ? & ? & ? & ? & ? & _ & _ & _ & _ & _ & ->). cbn [k_trace]. rewrite T0. discriminate.
  - destruct (C30_partial eig xyz xyz masses center center d None tol wall mn true fuel mi0 mi tr He Hm' Ht R) as [Z|V]; [left; exact Z|].
    destruct (C30_principal eig xyz xyz masses center center d None tol wall mn true fuel mi0 _ tr He Hm' R) as (_ & L).
    destruct (L mi eq_refl) as [Z|[(_ & _ & B)|(before & e & E & <-)]]; [left; exact Z|lra|right].
    destruct (All before e [] E) as (_ & W). pose proof (K_pos x y z Hz Hy) as KP.
    destruct (C121_close x y z a b c center Ho Hz Hy (x / z * (x / z)) d (snd e) ltac:(lra) V W) as (q & s & Mq & Ms & B1 & _ & B3 & _).
    destruct V as (_ & q' & s' & _ & _ & _ & Mq' & Ms' & S0 & Q1 & _). rewrite Mq in Mq'. rewrite Ms in Ms'. injection Mq' as <-. injection Ms' as <-.
    exists q, s. split; [exact Mq|]. split; [exact Ms|].
    assert (PX : forall w, 0 < w -> 0 < w / x) by (intros w Hw'; apply Rdiv_lt_0_compat; lra).
    assert (I : forall w v, 0 < w -> 0 < v -> w / x * (w / x) <= x / z * (x / z) * (v * v) -> w / x * (z / x) <= v).
    { intros w v W0 V0 H. apply Rsqr_incr_0_var; [|lra]. unfold Rsqr.
      apply (Rmult_le_compat_r (z / x * (z / x))) in H; [|pose proof (PX z ltac:(lra)); nra].
      replace (x / z * (x / z) * (v * v) * (z / x * (z / x))) with (v * v) in H by (field; lra). lra. }
    split; split; try lra; apply I; lra.
Qed.
Print Assumptions C121_result.

(** ** The spread is needed *)
(** Unit masses at the ends of the axes point evenly in all directions, but every pass finds a sphere, however they are stretched. *)
Lemma star6_even : even_directions star6 ones6.
Proof.
  split; [intros u Hu E; cbn in Hu; repeat destruct Hu as [<-|Hu]; try destruct Hu; unfold v0 in E; injection E; lra|].
  intros i j Hi Hj. unfold moment. cbn [star6 length seq total nth ones6].
  destruct i as [|[|[|i]]]; [| | |lia]; (destruct j as [|[|[|j]]]; [| | |lia]); unfold ip, v0; cbn; field.
Qed.
Lemma star6_not_spread : ~ spread_out star6 ones6.
Proof.
  intros H. destruct (H (mkV 1 0 0) ltac:(unfold ip; cbn; ring)) as (k & Hk & _ & N & M). cbn in Hk.
  do 6 (destruct k as [|k]; [unfold ip in N, M; cbn in N, M; try lra; apply M; unfold vscale; cbn; f_equal; ring|]). lia.
Qed.
Theorem C121_axes : forall eig x y z a b c center d tol wall mn fuel mi0 r tr,
  eig_contract eig -> orthonormal a b c -> 0 < z <= y -> y <= x -> x / z * (x / z) * (x * x) < d * d ->
  let xyz := map (stretch x y z a b c center) star6 in
  katz eig xyz xyz ones6 center center d None tol wall mn true fuel mi0 = Some (r, tr) ->
  forall e, In e tr -> mq (snd e) = Fin 1 /\ ms (snd e) = Fin 1.
Proof.
  intros eig x y z a b c center d tol wall mn fuel mi0 r tr He Ho Hz Hy Hd xyz R.
  assert (Hl : length ones6 = length star6) by reflexivity.
  assert (Hm' : nonneg xyz ones6) by (intros k Hk; unfold xyz in Hk; rewrite map_length in Hk; now apply star6_good).
  assert (Hd' : forall u, In u star6 -> x / z * (x / z) * (x * x * ip u u) < d * d).
  { intros u Hu. replace (ip u u) with 1; [lra|]. cbn in Hu. repeat destruct Hu as [<-|Hu]; try destruct Hu; unfold ip; cbn; ring. }
  destruct (C121_run star6 ones6 x y z a b c center Hl star6_good star6_even Ho Hz Hy eig d tol wall mn fuel mi0 r tr He Hd' R) as (_ & All).
  destruct (C30_principal eig xyz xyz ones6 center center d None tol wall mn true fuel mi0 r tr He Hm' R) as (St & _).
  assert (Pass : forall wt mi, (forall k, (k < 6)%nat -> wt k = / ip (vsub (nth k xyz v0) center) (vsub (nth k xyz v0) center)) ->
    shape_of (moment xyz ones6 center wt (seq 0 6)) d mi -> mq mi = Fin 1 /\ ms mi = Fin 1).
  { intros wt mi Hw (l0 & l1 & l2 & a' & b' & c' & P & L & Ho' & A & B & C & _ & _ & _ & _ & Mq & Ms).
    assert (Q : forall v, ip v (ap (moment xyz ones6 center wt (seq 0 6)) v) = / 3 * ip v v).
    { intros v. rewrite moment_form. rewrite (parseval a b c v v Ho).
      transitivity (total (fun k => / ip (nth k (map (fun u => mkV (x * vx u) (y * vy u) (z * vz u)) star6) v0) (nth k (map (fun u => mkV (x * vx u) (y * vy u) (z * vz u)) star6) v0) *
        (ip (mkV (x * ip a v) (y * ip b v) (z * ip c v)) (nth k star6 v0) * ip (mkV (x * ip a v) (y * ip b v) (z * ip c v)) (nth k star6 v0))) (seq 0 6) / 6).
      - replace (total (fun k => nth k ones6 0) (seq 0 6)) with 6 by (cbn; ring). unfold Rdiv. f_equal. apply total_ext. intros k Hk. apply in_seq in Hk.
        rewrite (Hw k) by lia. unfold xyz. rewrite (ip_p star6 ones6 x y z a b c center Hl v k) by (cbn; lia).
        replace (ip (vsub (nth k (map (stretch x y z a b c center) star6) v0) center) (vsub (nth k (map (stretch x y z a b c center) star6) v0) center)) with
          (ip (nth k (map (fun u => mkV (x * vx u) (y * vy u) (z * vz u)) star6) v0) (nth k (map (fun u => mkV (x * vx u) (y * vy u) (z * vz u)) star6) v0)).
        + replace (nth k ones6 0) with 1; [ring|]. do 6 (destruct k as [|k]; [reflexivity|]). lia.
        + rewrite (p_lin star6 ones6 x y z a b c center Hl k) by (cbn; lia). match goal with |- _ = ip ?l ?l => rewrite (parseval a b c l l Ho) end.
          rewrite !(ip_comm _ (lin3 _ _ _ _ _ _)), !ip_lin3. destruct Ho as (Na & Nb & Nc & Nab & Nac & Nbc).
          rewrite (ip_comm b a), (ip_comm c a), (ip_comm c b), Na, Nb, Nc, Nab, Nac, Nbc.
          do 6 (destruct k as [|k]; [unfold ip; cbn; ring|]). lia.
      - set (r1 := ip a v). set (r2 := ip b v). set (r3 := ip c v). clearbody r1 r2 r3. cbn [star6 map seq total nth]. unfold ip. cbn [vx vy vz]. field. lra. }
    assert (V : forall l e, ip e e = 1 -> eigenvector (moment xyz ones6 center wt (seq 0 6)) l e -> l = / 3).
    { intros l e Ne E. apply ap_eigen in E. specialize (Q e). rewrite E in Q.
      replace (ip e (vscale l e)) with (l * ip e e) in Q by (unfold ip, vscale; cbn; ring). rewrite Ne in Q. lra. }
    destruct Ho' as (Na & Nb & Nc & _). apply V in A; auto. apply V in B; auto. apply V in C; auto. subst l0 l1 l2.
    rewrite Mq, Ms. replace (/ 3 / / 3) with 1 by field. rewrite sqrt_1. auto. }
  assert (G : forall pre e post, tr = pre ++ e :: post -> mq (snd e) = Fin 1 /\ ms (snd e) = Fin 1).
  { intros pre. pattern pre. apply List.rev_ind; clear pre; [intros e post E|intros e1 pre IH e post E].
    - destruct (St _ _ _ E) as (wt & Hw & _ & Hs). destruct (All _ _ _ E) as (S & _). cbn [length star6] in S. rewrite S in Hw, Hs. apply (Pass wt _); [|exact Hs].
      intros k Hk. destruct (Hw k ltac:(apply in_seq; lia)) as (r' & [(_ & ->)|(tr' & e' & ? & ? & ? & ? & ? & F & _)] & _ & ->); [reflexivity|destruct tr'; discriminate F].
    - assert (E' : tr = pre ++ e1 :: e :: post) by (rewrite <- app_assoc in E; exact E). destruct (IH _ _ E') as (Q1 & S1).
      destruct (St _ _ _ E') as (wt1 & _ & _ & Hs1). destruct (shape_of_valid _ _ _ Hs1) as (_ & q1 & s1 & a1 & b1 & c1 & _ & _ & _ & _ & A1 & B1 & C1 & Ho1).
      destruct (St _ _ _ E) as (wt & Hw & _ & Hs). destruct (All _ _ _ E) as (S & _). cbn [length star6] in S. rewrite S in Hw, Hs. apply (Pass wt _); [|exact Hs].
      intros k Hk. destruct (Hw k ltac:(apply in_seq; lia)) as (r' & [(F & _)|(tr' & e' & q & s & a2 & b2 & c2 & F & Q & S' & A2 & B2 & C2 & ->)] & _ & ->); [destruct pre; discriminate F|].
      apply app_inj_tail in F. destruct F as (_ & <-). rewrite Q1 in Q. rewrite S1 in S'. injection Q as <-. injection S' as <-.
      rewrite A1 in A2. rewrite B1 in B2. rewrite C1 in C2. apply fv_inj in A2, B2, C2. subst a2 b2 c2.
      f_equal. unfold ellrad2. cbv zeta. match goal with |- _ = ip ?l ?l => rewrite (parseval a1 b1 c1 l l Ho1) end. field. }
  intros e Hin. apply in_split in Hin. destruct Hin as (pre & post & E). exact (G pre e post E).
Qed.
Print Assumptions C121_axes.

(** ** Examples *)
(** The corners of a cube: even and spread out. *)
Definition cube8 : list vec := [mkV 1 1 1; mkV 1 1 (-1); mkV 1 (-1) 1; mkV 1 (-1) (-1); mkV (-1) 1 1; mkV (-1) 1 (-1); mkV (-1) (-1) 1; mkV (-1) (-1) (-1)].
Definition ones8 : list R := repeat 1 8.
Lemma cube8_good : nonneg cube8 ones8.
Proof. intros k Hk. cbn in Hk. do 8 (destruct k as [|k]; [cbn; lra|]). lia. Qed.
Lemma cube8_even : even_directions cube8 ones8.
Proof.
  split; [intros u Hu E; cbn in Hu; repeat destruct Hu as [<-|Hu]; try destruct Hu; unfold v0 in E; injection E; lra|].
  intros i j Hi Hj. unfold moment. cbn [cube8 length seq total nth ones8 repeat].
  destruct i as [|[|[|i]]]; [| | |lia]; (destruct j as [|[|[|j]]]; [| | |lia]); unfold ip, v0; cbn; field.
Qed.
Lemma cube8_spread : spread_out cube8 ones8.
Proof.
  intros [e f g] N. unfold ip in N. cbn [vx vy vz] in N.
  assert (D : forall k, (k < 8)%nat -> {ip (mkV e f g) (nth k cube8 v0) <> 0 /\ nth k cube8 v0 <> vscale (ip (mkV e f g) (nth k cube8 v0)) (mkV e f g)} +
    {ip (mkV e f g) (nth k cube8 v0) = 0 \/ nth k cube8 v0 = vscale (ip (mkV e f g) (nth k cube8 v0)) (mkV e f g)}).
  { intros k _. destruct (Req_EM_T (ip (mkV e f g) (nth k cube8 v0)) 0) as [|A]; [right; left; assumption|].
    set (v := nth k cube8 v0) in *. set (w := vscale _ _). destruct v as [v1 v2 v3], w as [w1 w2 w3].
    destruct (Req_EM_T v1 w1) as [->|]; [|left; split; [exact A|congruence]]. destruct (Req_EM_T v2 w2) as [->|]; [|left; split; [exact A|congruence]].
    destruct (Req_EM_T v3 w3) as [->|]; [right; right; reflexivity|left; split; [exact A|congruence]]. }
  assert (M : forall k, (k < 8)%nat -> 0 < nth k ones8 0) by (intros k Hk; do 8 (destruct k as [|k]; [cbn; lra|]); lia).
  destruct (D 0%nat ltac:(lia)) as [X|X0]; [exists 0%nat; split; [cbn; lia|]; split; [apply M; lia|exact X]|].
  destruct (D 1%nat ltac:(lia)) as [X|X1]; [exists 1%nat; split; [cbn; lia|]; split; [apply M; lia|exact X]|].
  destruct (D 2%nat ltac:(lia)) as [X|X2]; [exists 2%nat; split; [cbn; lia|]; split; [apply M; lia|exact X]|].
  destruct (D 4%nat ltac:(lia)) as [X|X4]; [exists 4%nat; split; [cbn; lia|]; split; [apply M; lia|exact X]|].
  exfalso. clear D M. unfold ip, vscale in X0, X1, X2, X4. cbn [cube8 nth vx vy vz] in X0, X1, X2, X4.
  assert (Y0 : e + f + g = 0 \/ (e = f /\ f = g /\ e <> 0)) by (destruct X0 as [X|X]; [left; lra|right; injection X as A B C; repeat split; nra]).
  assert (Y1 : e + f - g = 0 \/ (e = f /\ f = - g /\ e <> 0)) by (destruct X1 as [X|X]; [left; lra|right; injection X as A B C; repeat split; nra]).
  assert (Y2 : e - f + g = 0 \/ (e = - f /\ e = g /\ e <> 0)) by (destruct X2 as [X|X]; [left; lra|right; injection X as A B C; repeat split; nra]).
  assert (Y4 : - e + f + g = 0 \/ (e = - f /\ f = g /\ e <> 0)) by (destruct X4 as [X|X]; [left; lra|right; injection X as A B C; repeat split; nra]).
  clear X0 X1 X2 X4.
  destruct Y0 as [Y0|(A & B & C)]; destruct Y1 as [Y1|(A1 & B1 & C1)]; try lra; destruct Y2 as [Y2|(A2 & B2 & C2)]; try lra; destruct Y4 as [Y4|(A4 & B4 & C4)]; try lra.
  assert (e = 0) by lra. assert (f = 0) by lra. assert (g = 0) by lra. subst. lra.
Qed.
(** Stretched by 3, 2, 1 and turned: all hypotheses hold and a run makes its passes; not so spread, the star is taken for a sphere. *)
Example C121_ex :
  let run us ms := let xyz := map (stretch 3 2 1 g1 g2 g3 (mkV 7 8 9)) us in
    katz exact_eig xyz xyz ms (mkV 7 8 9) (mkV 7 8 9) 16 None (1/100) 100 6 true 100 (mkM (Fin 16) (Fin 0) (Fin 0) x0 x0 x0) in
  even_directions cube8 ones8 /\ spread_out cube8 ones8 /\
  (exists mi tr, run cube8 ones8 = Some (Ret mi, tr) /\ tr <> [] /\
     forall pre e post, tr = pre ++ e :: post -> fst (fst e) = seq 0 8 /\ within 9 3 2 1 g1 g2 g3 (mkV 7 8 9) (snd e)) /\
  (exists mi tr, run star6 ones6 = Some (Ret mi, tr) /\ tr <> [] /\ forall e, In e tr -> mq (snd e) = Fin 1 /\ ms (snd e) = Fin 1).
Proof.
  cbv zeta. split; [exact cube8_even|]. split; [exact cube8_spread|]. split.
  - assert (Hd : forall u, In u cube8 -> 3 / 1 * (3 / 1) * (3 * 3 * ip u u) < 16 * 16).
    { intros u Hu. cbn in Hu. repeat destruct Hu as [<-|Hu]; try destruct Hu; unfold ip; cbn; lra. }
    destruct (C121_result exact_eig cube8 ones8 3 2 1 g1 g2 g3 (mkV 7 8 9) 16 (1/100) 100 6 100 (mkM (Fin 16) (Fin 0) (Fin 0) x0 x0 x0)) as (mi & tr & R & N & _);
      try lra; try lia; auto using exact_eig_contract, cube8_even, g_frame, cube8_good; [cbn; lia|].
    exists mi, tr. split; [exact R|]. split; [exact N|].
    destruct (C121_run cube8 ones8 3 2 1 g1 g2 g3 (mkV 7 8 9) eq_refl cube8_good cube8_even g_frame ltac:(lra) ltac:(lra) _ _ _ _ _ _ _ _ _ exact_eig_contract Hd R) as (_ & All).
    intros pre e post E. replace 9 with (3 / 1 * (3 / 1)) at 1 by field. exact (All pre e post E).
  - assert (Hd : forall u, In u star6 -> 3 / 1 * (3 / 1) * (3 * 3 * ip u u) < 16 * 16).
    { intros u Hu. cbn in Hu. repeat destruct Hu as [<-|Hu]; try destruct Hu; unfold ip; cbn; lra. }
    destruct (C121_result exact_eig star6 ones6 3 2 1 g1 g2 g3 (mkV 7 8 9) 16 (1/100) 100 6 100 (mkM (Fin 16) (Fin 0) (Fin 0) x0 x0 x0)) as (mi & tr & R & N & _);
      try lra; try lia; auto using exact_eig_contract, star6_even, g_frame, star6_good; [cbn; lia|].
    exists mi, tr. split; [exact R|]. split; [exact N|].
    apply (C121_axes exact_eig 3 2 1 g1 g2 g3 (mkV 7 8 9) 16 (1/100) 100 6 100 (mkM (Fin 16) (Fin 0) (Fin 0) x0 x0 x0) (Ret mi) tr exact_eig_contract g_frame); try lra. exact R.
Qed.
