(** Degenerate tensors, covariance of the tensor, axis-aligned clouds. *)
From Coq Require Import List Reals ZArith Lra Lia Bool Arith Permutation.
From Verif Require Import ListUtil XR GeoModel GeoSpec GeoProofs ShapeModel ShapeSpec ShapeProofs ShapeKatz Spectral.
Import ListNotations.
Open Scope R_scope.

(** A shape is valid. *)
Lemma shape_of_valid h d mi : shape_of h d mi -> valid_shape d mi.
Proof.
  intros (l0 & l1 & l2 & a & b & c & Hl & Hl' & Ho & _ & _ & _ & Ma & Mb & Mc & Md & Mq & Ms).
  split; auto. exists (sqrt (l1 / l2)), (sqrt (l0 / l2)), a, b, c.
  assert (I : 0 < / l2) by (apply Rinv_0_lt_compat; lra).
  split; auto. split; auto. split; [|split; [|auto]].
  - split; [apply sqrt_lt_R0; apply Rmult_lt_0_compat; auto|]. apply sqrt_le_1_alt. unfold Rdiv. apply Rmult_le_compat_r; lra.
  - rewrite <- sqrt_1. apply sqrt_le_1_alt. unfold Rdiv. rewrite <- (Rinv_r l2) by lra.
    apply Rmult_le_compat_r; lra.
Qed.

(** ** Covariance *)
Section Cov.
  Variables (ten : list vec) (masses : list R) (c : vec) (wt : nat -> R) (sel : list nat).
  Hypothesis Hin : forall k, In k sel -> (k < length ten)%nat /\ (k < length masses)%nat.

  Lemma moment_mass k : k <> 0 -> forall i j,
    moment ten (map (Rmult k) masses) c wt sel i j = moment ten masses c wt sel i j.
  Proof.
    intros Hk i j. unfold moment.
    assert (E : forall x, nth x (map (Rmult k) masses) 0 = k * nth x masses 0).
    { intros x. rewrite <- (map_nth (Rmult k)). f_equal. ring. }
    rewrite (total_ext (fun x => nth x (map (Rmult k) masses) 0 * wt x * _ * _)
             (fun x => k * (nth x masses 0 * wt x * (coord (nth x ten v0) i - coord c i) * (coord (nth x ten v0) j - coord c j))))
      by (intros; rewrite E; ring).
    rewrite (total_ext (fun x => nth x (map (Rmult k) masses) 0) (fun x => k * nth x masses 0)) by (intros; apply E).
    rewrite !total_scale. set (T := total _ sel). set (M := total _ sel).
    destruct (Req_EM_T M 0) as [-> |HM]; [rewrite Rmult_0_r; unfold Rdiv; rewrite Rinv_0; ring|field; auto].
  Qed.

  Lemma moment_perm sel' : Permutation sel sel' -> forall i j,
    moment ten masses c wt sel i j = moment ten masses c wt sel' i j.
  Proof. intros H i j. unfold moment. rewrite (total_perm _ _ _ H), (total_perm (fun k => nth k masses 0) _ _ H). reflexivity. Qed.

  Lemma moment_ext ten' masses' wt' c' : (forall k, In k sel ->
      nth k masses 0 = nth k masses' 0 /\ wt k = wt' k /\
      forall i, (i < 3)%nat -> coord (nth k ten v0) i - coord c i = coord (nth k ten' v0) i - coord c' i) ->
    forall i j, (i < 3)%nat -> (j < 3)%nat -> moment ten masses c wt sel i j = moment ten' masses' c' wt' sel i j.
  Proof.
    intros H i j Hi Hj. unfold moment, Rdiv. apply f_equal2; [|apply f_equal]; apply total_ext; intros k Hk; destruct (H k Hk) as (A & B & C).
    - rewrite A, B, !C by auto. reflexivity.
    - exact A.
  Qed.

  Lemma nth_map_in f k : In k sel -> nth k (map f ten) v0 = f (nth k ten v0).
  Proof.
    intros Hk. destruct (Hin k Hk). rewrite (nth_indep _ v0 (f v0)) by (rewrite map_length; auto). apply map_nth.
  Qed.

  Lemma moment_linear M : forall i j, (i < 3)%nat -> (j < 3)%nat ->
    moment (map (ap M) ten) masses (ap M c) wt sel i j =
    total (fun a => total (fun b => M i a * M j b * moment ten masses c wt sel a b) [0;1;2]%nat) [0;1;2]%nat.
  Proof.
    intros i j Hi Hj. unfold moment. set (T := total (fun k => nth k masses 0) sel). unfold Rdiv. set (iT := / T).
    clearbody iT. clear T.
    rewrite (total_ext (fun k => nth k masses 0 * wt k * (coord (nth k (map (ap M) ten) v0) i - _) * _)
      (fun k => nth k masses 0 * wt k *
         (M i 0%nat * (vx (nth k ten v0) - vx c) + M i 1%nat * (vy (nth k ten v0) - vy c) + M i 2%nat * (vz (nth k ten v0) - vz c)) *
         (M j 0%nat * (vx (nth k ten v0) - vx c) + M j 1%nat * (vy (nth k ten v0) - vy c) + M j 2%nat * (vz (nth k ten v0) - vz c)))).
    - clear Hin. induction sel as [|k l IH]; cbn [total coord] in *; [ring|].
      rewrite Rmult_plus_distr_r, IH. ring.
    - intros k Hk. rewrite nth_map_in by auto.
      assert (E : forall i, (i < 3)%nat -> coord (ap M (nth k ten v0)) i - coord (ap M c) i =
         M i 0%nat * (vx (nth k ten v0) - vx c) + M i 1%nat * (vy (nth k ten v0) - vy c) + M i 2%nat * (vz (nth k ten v0) - vz c)).
      { intros i' Hi'. destruct i' as [|[|[|i']]]; [| | |lia]; unfold ap, row, ip; cbn [coord vx vy vz]; ring. }
      rewrite !E by auto. reflexivity.
  Qed.
End Cov.

(** ** Axis-aligned clouds *)
Lemma diag_axis h l v : h 0%nat 1%nat = 0 -> h 0%nat 2%nat = 0 -> h 1%nat 0%nat = 0 -> h 1%nat 2%nat = 0 ->
  h 2%nat 0%nat = 0 -> h 2%nat 1%nat = 0 -> eigenvector h l v ->
  (h 0%nat 0%nat - l) * vx v = 0 /\ (h 1%nat 1%nat - l) * vy v = 0 /\ (h 2%nat 2%nat - l) * vz v = 0.
Proof.
  intros H01 H02 H10 H12 H20 H21 H.
  pose proof (H 0%nat ltac:(lia)) as E0. pose proof (H 1%nat ltac:(lia)) as E1. pose proof (H 2%nat ltac:(lia)) as E2.
  cbn [coord] in *. rewrite H01, H02 in E0. rewrite H10, H12 in E1. rewrite H20, H21 in E2. repeat split; lra.
Qed.

Definition along (k : nat) (v : vec) : Prop := forall i, (i < 3)%nat -> i <> k -> coord v i = 0.

Lemma along_of x y z l v : x <> y -> y <> z -> x <> z -> ip v v = 1 ->
  (x - l) * vx v = 0 -> (y - l) * vy v = 0 -> (z - l) * vz v = 0 ->
  (l = x /\ along 0 v) \/ (l = y /\ along 1 v) \/ (l = z /\ along 2 v).
Proof.
  intros Hxy Hyz Hxz Hv A B C.
  apply Rmult_integral in A, B, C.
  assert (N : ~ (vx v = 0 /\ vy v = 0 /\ vz v = 0)) by (intros (P & Q & S); unfold ip in Hv; rewrite P, Q, S in Hv; lra).
  unfold along. destruct A as [A|A].
  - left. split; [lra|]. intros [|[|[|i]]] Hi Hn; try lia; cbn [coord].
    + destruct B; [exfalso; lra|auto].
    + destruct C; [exfalso; lra|auto].
  - destruct B as [B|B].
    + right. left. split; [lra|]. intros [|[|[|i]]] Hi Hn; try lia; cbn [coord]; auto.
      destruct C; [exfalso; lra|auto].
    + right. right. destruct C as [C|C]; [|exfalso; tauto]. split; [lra|].
      intros [|[|[|i]]] Hi Hn; try lia; cbn [coord]; auto.
Qed.

(** For a diagonal tensor x > y > z the principal axes are the coordinate axes. *)
Lemma diag_shape h d mi x y z : 0 <= z -> z < y -> y < x ->
  (forall i j, (i < 3)%nat -> (j < 3)%nat -> i <> j -> h i j = 0) ->
  h 0%nat 0%nat = x -> h 1%nat 1%nat = y -> h 2%nat 2%nat = z ->
  shape_of h d mi ->
  mq mi = Fin (sqrt (y / x)) /\ ms mi = Fin (sqrt (z / x)) /\ md mi = Fin d /\
  exists a b c, major mi = fv a /\ inter mi = fv b /\ minor mi = fv c /\ orthonormal a b c /\
    along 0 a /\ along 1 b /\ along 2 c.
Proof.
  intros Hz Hzy Hyx Hoff Hx Hy Hzz (l0 & l1 & l2 & a & b & c & Hl & Hl' & Ho & Ea & Eb & Ec & Ma & Mb & Mc & Md & Mq & Ms).
  assert (Ho' := Ho). destruct Ho' as (Na & Nb & Nc & Dab & Dac & Dbc).
  assert (K : forall l v, eigenvector h l v -> ip v v = 1 ->
     (l = x /\ along 0 v) \/ (l = y /\ along 1 v) \/ (l = z /\ along 2 v)).
  { intros l v Hv Hn. destruct (diag_axis h l v) as (A & B & C); try (apply Hoff; lia); auto.
    apply along_of; try lra; congruence. }
  assert (P : forall k u v, (k < 3)%nat -> along k u -> along k v -> ip u u = 1 -> ip v v = 1 -> ip u v <> 0).
  { intros k u v Hk Hu Hv Nu Nv E.
    assert (U0 := Hu 0%nat ltac:(lia)). assert (U1 := Hu 1%nat ltac:(lia)). assert (U2 := Hu 2%nat ltac:(lia)).
    assert (V0 := Hv 0%nat ltac:(lia)). assert (V1 := Hv 1%nat ltac:(lia)). assert (V2 := Hv 2%nat ltac:(lia)).
    cbn [coord] in *. unfold ip in *.
    destruct k as [|[|[|k]]]; [| | |lia].
    - rewrite U1, U2 in * by lia. rewrite V1, V2 in * by lia.
      assert ((vx u * vx v) * (vx u * vx v) = 1) by nra. nra.
    - rewrite U0, U2 in * by lia. rewrite V0, V2 in * by lia.
      assert ((vy u * vy v) * (vy u * vy v) = 1) by nra. nra.
    - rewrite U0, U1 in * by lia. rewrite V0, V1 in * by lia.
      assert ((vz u * vz v) * (vz u * vz v) = 1) by nra. nra. }
  destruct (K l2 a Ea Na) as [(A1 & A2)|[(A1 & A2)|(A1 & A2)]];
  destruct (K l1 b Eb Nb) as [(B1 & B2)|[(B1 & B2)|(B1 & B2)]];
  destruct (K l0 c Ec Nc) as [(C1 & C2)|[(C1 & C2)|(C1 & C2)]];
    try (exfalso; lra);
    try (exfalso; first [apply (P 0%nat a b); auto; lia | apply (P 1%nat a b); auto; lia | apply (P 2%nat a b); auto; lia
                       | apply (P 0%nat a c); auto; lia | apply (P 1%nat a c); auto; lia | apply (P 2%nat a c); auto; lia
                       | apply (P 0%nat b c); auto; lia | apply (P 1%nat b c); auto; lia | apply (P 2%nat b c); auto; lia]).
  subst l0 l1 l2.
  split; auto. split; auto. split; auto. exists a, b, c. auto 12.
Qed.
