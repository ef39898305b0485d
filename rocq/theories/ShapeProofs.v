From Coq Require Import List Reals ZArith Lra Lia Bool Arith.
From Verif Require Import ListUtil XR GeoModel GeoSpec GeoProofs ShapeModel ShapeSpec.
Import ListNotations.
Open Scope R_scope.

(** ** Compaction *)
Lemma set_same buf k v : set buf k v k = v.
Proof. unfold set. rewrite Nat.eqb_refl. reflexivity. Qed.
Lemma set_other buf k v x : x <> k -> set buf k v x = buf x.
Proof. intros H. unfold set. destruct (Nat.eqb_spec x k); congruence. Qed.

Lemma compact_inv f n : forall buf0 buf pts corr,
  fold_left (compact_step f) (seq 0 n) (buf0, 0%nat, 0%nat) = (buf, pts, corr) ->
  (pts + corr = n)%nat /\ map buf (seq 0 pts) = filter f (seq 0 n).
Proof.
  induction n as [|n IH]; intros buf0 buf pts corr H.
  - simpl in H. injection H as <- <- <-. split; reflexivity.
  - rewrite seq_S, fold_left_app in H. cbn [plus] in H.
    destruct (fold_left (compact_step f) (seq 0 n) (buf0, 0%nat, 0%nat)) as [[b1 p1] c1] eqn:E.
    apply IH in E. destruct E as [E1 E2]. simpl in H.
    rewrite seq_S, filter_app. cbn [plus filter].
    destruct (f n) eqn:Ef; injection H as <- <- <-.
    + split; [lia|]. rewrite seq_S, map_app. cbn [map plus].
      replace (n - c1)%nat with p1 by lia. rewrite set_same. f_equal. rewrite <- E2.
      apply map_ext_in. intros x Hx. apply in_seq in Hx. apply set_other. lia.
    + split; [lia|]. rewrite app_nil_r. exact E2.
Qed.

Lemma compact_ok f n buf pts : compact f n = (buf, pts) ->
  map buf (seq 0 pts) = filter f (seq 0 n) /\ (pts <= n)%nat.
Proof.
  unfold compact. destruct fold_left as [[b p] c] eqn:E. intros [= <- <-].
  apply compact_inv in E. split; [tauto|lia].
Qed.

(** ** Tensor *)
Section Tensor.
  Variables (nns : list vec) (select : nat -> nat) (masses : list R) (center : vec)
            (nb : nat) (reduced : bool) (r_ell : list xr).
  Definition sel := map select (seq 0 nb).
  Definition mtot := total (fun k => nth k masses 0) sel.
  Definition tsum i j := xsum (map (tensor_term nns masses center mtot reduced r_ell i j) sel).

  Lemma mass_fold : fold_left (fun acc run => acc + nth (select run) masses 0) (seq 0 nb) 0 = mtot.
  Proof.
    unfold mtot, sel. rewrite total_map.
    assert (G : forall l a, fold_left (fun acc run => acc + nth (select run) masses 0) l a =
                a + total (fun x => nth (select x) masses 0) l).
    { induction l as [|x l IH]; intros a; simpl; [ring|]. rewrite IH. ring. }
    rewrite G. ring.
  Qed.

  Lemma mupd_at (T : mat) i j x a b : mupd T i j x a b = if (a =? i)%nat && (b =? j)%nat then x else T a b.
  Proof. reflexivity. Qed.

  Lemma inner_fold (g : nat -> xr) i j l : forall (T : mat) a b,
    fold_left (fun T run => mupd T i j (xadd (T i j) (g run))) l T a b =
    if (a =? i)%nat && (b =? j)%nat then fold_left xadd (map g l) (T i j) else T a b.
  Proof.
    induction l as [|x l IH]; intros T a b; cbn [fold_left map].
    - destruct ((a =? i)%nat && (b =? j)%nat) eqn:E; auto.
      apply andb_true_iff in E. destruct E as [E1 E2]. apply Nat.eqb_eq in E1, E2. subst. reflexivity.
    - rewrite IH. unfold mupd. rewrite !Nat.eqb_refl. cbn [andb].
      destruct ((a =? i)%nat && (b =? j)%nat); reflexivity.
  Qed.

  Lemma tensor_entry i j : (i < 3)%nat -> (j < 3)%nat ->
    calcShapeTensor nns select masses center nb reduced r_ell i j = tsum (Nat.max i j) (Nat.min i j).
  Proof.
    intros Hi Hj. unfold calcShapeTensor. rewrite mass_fold.
    assert (G : forall i j, fold_left xadd (map (fun run => tensor_term nns masses center mtot reduced r_ell i j (select run)) (seq 0 nb)) (Fin 0) = tsum i j).
    { intros. unfold tsum, xsum, sel. rewrite map_map. reflexivity. }
    cbn [list_prod map app fold_left Nat.leb Nat.ltb].
    destruct i as [|[|[|i]]]; [| | |lia]; (destruct j as [|[|[|j]]]; [| | |lia]);
      cbn [Nat.max Nat.min];
      repeat first [rewrite inner_fold; cbn [Nat.eqb andb] | rewrite mupd_at; cbn [Nat.eqb andb]];
      apply G.
  Qed.

  Lemma xsum_fin {X} (f : X -> xr) (g : X -> R) l : (forall x, In x l -> f x = Fin (g x)) ->
    xsum (map f l) = Fin (total g l).
  Proof.
    intros H. unfold xsum.
    assert (G : forall a, fold_left xadd (map f l) (Fin a) = Fin (a + total g l)).
    { induction l as [|x l IH]; intros a; cbn [map fold_left total]; [f_equal; ring|].
      rewrite (H x (or_introl eq_refl)). cbn [xadd]. rewrite IH by (intros; apply H; right; auto).
      f_equal. ring. }
    rewrite G. f_equal. ring.
  Qed.

  Definition good_rell : Prop := reduced = true -> forall k, In k sel -> exists r, nth k r_ell NaN = Fin r /\ r <> 0.
  Definition weight (k : nat) : R :=
    if reduced then match nth k r_ell NaN with Fin r => / (r * r) | _ => 0 end else 1.

  Lemma tensor_fin i j : mtot <> 0 -> good_rell ->
    tsum i j = Fin (moment nns masses center weight sel i j).
  Proof.
    intros HM Hr. unfold tsum, moment.
    rewrite (xsum_fin _ (fun k => / mtot * (nth k masses 0 * weight k * (coord (nth k nns v0) i - coord center i)
                  * (coord (nth k nns v0) j - coord center j)))).
    - rewrite total_scale. f_equal. fold mtot. unfold Rdiv. ring.
    - intros k Hk. unfold tensor_term, weight. destruct reduced eqn:Er.
      + destruct (Hr Er k Hk) as (r & -> & Hn). cbn [xsq xmul].
        rewrite xdiv_fin by (repeat apply Rmult_integral_contrapositive_currified; auto).
        f_equal. field. auto.
      + rewrite xdiv_fin by auto. f_equal. field. auto.
  Qed.

  Lemma freeze_ext (T U : mat) : (forall i j, (i < 3)%nat -> (j < 3)%nat -> T i j = U i j) -> freeze T = freeze U.
  Proof.
    intros H. unfold freeze. apply map_ext_in. intros [i j] Hin. apply in_prod_iff in Hin. cbn [fst snd].
    simpl in Hin. apply H; lia.
  Qed.

  Lemma moment_sym wt i j : moment nns masses center wt sel i j = moment nns masses center wt sel j i.
  Proof. unfold moment. f_equal. apply total_ext. intros k _. ring. Qed.

  Lemma tensor_frozen : mtot <> 0 -> good_rell ->
    freeze (calcShapeTensor nns select masses center nb reduced r_ell) =
    freeze (fun i j => Fin (moment nns masses center weight sel i j)).
  Proof.
    intros HM Hr. apply freeze_ext. intros i j Hi Hj. rewrite tensor_entry, tensor_fin by auto.
    destruct (Nat.le_ge_cases i j).
    - rewrite Nat.max_r, Nat.min_l by auto. f_equal. apply moment_sym.
    - rewrite Nat.max_l, Nat.min_r by auto. reflexivity.
  Qed.
End Tensor.

(** Quadratic form of a moment. *)
Definition quad (h : nat -> nat -> R) (v : vec) : R :=
  vx v * (h 0%nat 0%nat * vx v + h 0%nat 1%nat * vy v + h 0%nat 2%nat * vz v) +
  vy v * (h 1%nat 0%nat * vx v + h 1%nat 1%nat * vy v + h 1%nat 2%nat * vz v) +
  vz v * (h 2%nat 0%nat * vx v + h 2%nat 1%nat * vy v + h 2%nat 2%nat * vz v).

Lemma quad_moment ten masses c wt sel v :
  quad (moment ten masses c wt sel) v =
  total (fun k => nth k masses 0 * wt k * (ip v (vsub (nth k ten v0) c) * ip v (vsub (nth k ten v0) c))) sel
  / total (fun k => nth k masses 0) sel.
Proof.
  unfold quad, moment. set (M := total (fun k => nth k masses 0) sel). clearbody M.
  unfold Rdiv. set (iM := / M). clearbody iM.
  induction sel as [|k l IH]; cbn [total]; [ring|].
  match goal with |- _ = (?x + ?y) * iM => replace ((x + y) * iM) with (x * iM + y * iM) by ring end.
  rewrite <- IH. unfold ip, vsub, coord. cbn [vx vy vz]. ring.
Qed.

Lemma quad_nonneg ten masses c wt sel v : (forall k, In k sel -> 0 <= nth k masses 0 * wt k) ->
  0 < total (fun k => nth k masses 0) sel -> 0 <= quad (moment ten masses c wt sel) v.
Proof.
  intros H HM. rewrite quad_moment. apply Rmult_le_pos; [|left; apply Rinv_0_lt_compat; auto].
  apply total_nonneg. intros k Hk. apply Rmult_le_pos; [auto|].
  apply Rle_0_sqr.
Qed.

Lemma eigen_quad h l e : eigenvector h l e -> ip e e = 1 -> quad h e = l.
Proof.
  intros H He. unfold quad.
  pose proof (H 0%nat ltac:(lia)) as H0. pose proof (H 1%nat ltac:(lia)) as H1.
  pose proof (H 2%nat ltac:(lia)) as H2. cbn [coord] in *. rewrite H0, H1, H2.
  transitivity (l * ip e e); [unfold ip; ring|]. rewrite He. ring.
Qed.

(** ** Normalisation *)
Lemma ip_scale c v w : ip (vscale c v) w = c * ip v w.
Proof. unfold ip, vscale. simpl. ring. Qed.
Lemma ip_comm v w : ip v w = ip w v.
Proof. unfold ip. ring. Qed.

Lemma normed_fv v : 0 < ip v v -> normed (fv v) = fv (vscale (/ sqrt (ip v v)) v).
Proof.
  intros H. unfold normed, xnorm, fv. cbn [xx xy xz xsq xmul xadd].
  change (vx v * vx v + vy v * vy v + vz v * vz v) with (ip v v).
  rewrite xsqrt_fin by lra.
  assert (sqrt (ip v v) <> 0) by (apply Rgt_not_eq, sqrt_lt_R0; auto).
  rewrite !xdiv_fin by auto. unfold vscale. cbn [vx vy vz]. unfold Rdiv. f_equal; f_equal; ring.
Qed.

(* normalising a multiple of a unit vector gives the vector up to sign *)
Definition sg (c : R) : R := / sqrt (c * c) * c.
Lemma sg_sq c : c <> 0 -> sg c * sg c = 1.
Proof.
  intros H. unfold sg. assert (0 < c * c) by nra.
  replace (/ sqrt (c * c) * c * (/ sqrt (c * c) * c)) with (/ (sqrt (c * c) * sqrt (c * c)) * (c * c)).
  - rewrite sqrt_sqrt by lra. field. auto.
  - field. apply Rgt_not_eq, sqrt_lt_R0. auto.
Qed.
Lemma normed_unit c e : c <> 0 -> ip e e = 1 -> normed (fv (vscale c e)) = fv (vscale (sg c) e).
Proof.
  intros Hc He. assert (E : ip (vscale c e) (vscale c e) = c * c).
  { rewrite ip_scale, ip_comm, ip_scale, He. ring. }
  rewrite normed_fv by (rewrite E; nra). rewrite E. unfold sg, vscale. cbn [vx vy vz]. f_equal. f_equal; ring.
Qed.

Lemma orthonormal_signs a b c x y z : x * x = 1 -> y * y = 1 -> z * z = 1 ->
  orthonormal a b c -> orthonormal (vscale x a) (vscale y b) (vscale z c).
Proof.
  intros Hx Hy Hz (A & B & C & D & E & F).
  assert (S : forall k l u v, ip (vscale k u) (vscale l v) = k * l * ip u v).
  { intros. unfold ip, vscale. simpl. ring. }
  repeat split; rewrite S; rewrite ?A, ?B, ?C, ?D, ?E, ?F; lra.
Qed.

(** ** Axis ratios *)
Lemma ratio_valid l0 l1 l2 : 0 <= l0 -> l0 <= l1 <= l2 -> 0 < l2 ->
  exists q s, xsqrt (xdiv (Fin l1) (Fin l2)) = Fin q /\ xsqrt (xdiv (Fin l0) (Fin l2)) = Fin s /\
    0 <= s <= q /\ q <= 1.
Proof.
  intros H0 H1 H2. assert (Hi : 0 < / l2) by (apply Rinv_0_lt_compat; auto).
  rewrite !xdiv_fin by lra.
  assert (A : 0 <= l0 / l2) by (apply Rmult_le_pos; lra).
  assert (B : l0 / l2 <= l1 / l2) by (apply Rmult_le_compat_r; lra).
  assert (C : l1 / l2 <= 1).
  { replace 1 with (l2 / l2) by (field; lra). apply Rmult_le_compat_r; lra. }
  rewrite !xsqrt_fin by lra. exists (sqrt (l1 / l2)), (sqrt (l0 / l2)).
  repeat split; auto.
  - apply sqrt_pos.
  - apply sqrt_le_1_alt; auto.
  - rewrite <- sqrt_1. apply sqrt_le_1_alt; auto.
Qed.

Lemma ratio_zero l0 l1 l2 : 0 <= l0 -> l0 <= l1 <= l2 -> ~ 0 < l2 ->
  xsqrt (xdiv (Fin l1) (Fin l2)) = NaN /\ xsqrt (xdiv (Fin l0) (Fin l2)) = NaN.
Proof.
  intros H0 H1 H2. assert (l2 = 0) by lra. assert (l1 = 0) by lra. assert (l0 = 0) by lra. subst.
  rewrite xdiv_00. split; reflexivity.
Qed.
