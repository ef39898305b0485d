From Coq Require Import List Reals ZArith Lra Lia Bool Arith FunctionalExtensionality.
From Verif Require Import ListUtil ParModel ParProofs XR CatModel GeoModel GeoSpec GeoProofs ShapeModel ShapeSpec ShapeProofs
  ShapePar DensModel DensSpec.
Import ListNotations.
Open Scope R_scope.

(** ** put *)
Lemma put_length {X} (l : list X) : forall k x, length (put l k x) = length l.
Proof. induction l; intros [|k] x; cbn; auto. Qed.
Lemma put_same {X} (l : list X) : forall k x d, (k < length l)%nat -> nth k (put l k x) d = x.
Proof. induction l; intros [|k] x d H; cbn in *; try lia; auto. apply IHl. lia. Qed.
Lemma put_other {X} (l : list X) : forall k j x d, j <> k -> nth j (put l k x) d = nth j l d.
Proof. induction l; intros [|k] [|j] x d H; cbn; auto; try lia. Qed.
Lemma put_put {X} (l : list X) : forall k x y, put (put l k x) k y = put l k y.
Proof. induction l; intros [|k] x y; cbn; auto. f_equal. auto. Qed.
Lemma put_id {X} (l : list X) : forall k d, put l k (nth k l d) = l.
Proof. induction l; intros [|k] d; cbn; auto. f_equal. auto. Qed.

Lemma fold_put_acc {X Z} (op : X -> Z -> X) (d : X) (l : list Z) : forall (dens : list X) k, (k < length dens)%nat ->
  fold_left (fun dens z => put dens k (op (nth k dens d) z)) l dens = put dens k (fold_left op l (nth k dens d)).
Proof.
  induction l as [|z l IH]; intros dens k Hk; cbn [fold_left]; [symmetry; apply put_id|].
  rewrite IH by (rewrite put_length; auto). rewrite put_same by auto. apply put_put.
Qed.

Lemma fold_total {Z} (g : Z -> R) l : forall a, fold_left (fun acc z => acc + g z) l a = a + total g l.
Proof. induction l as [|z l IH]; intros a; cbn; [ring|]. rewrite IH. ring. Qed.

(** ** Loops over bins *)
Section Bins.
  Context {Y : Type} (dflt : Y) (B : Type) (step : pyres (list Y) * B -> nat -> pyres (list Y) * B).
  Hypothesis Hindep : forall x b b' i, fst (step (x, b) i) = fst (step (x, b') i).
  Lemma bins_indep l : forall x b b', fst (fold_left step l (x, b)) = fst (fold_left step l (x, b')).
  Proof.
    induction l as [|i l IH]; intros x b b'; cbn [fold_left]; auto.
    destruct (step (x, b) i) as [x1 b1] eqn:E1. destruct (step (x, b') i) as [x2 b2] eqn:E2.
    assert (x1 = x2) by (change x1 with (fst (x1, b1)); rewrite <- E1, (Hindep x b b'), E2; reflexivity).
    subst x2. apply IH.
  Qed.

  Variable v : nat -> Y -> Y.
  Variable n : nat.
  Hypothesis Hstep : forall d b i, (i < n)%nat -> length d = n ->
    fst (step (Ret d, b) i) = Ret (put d i (v i (nth i d dflt))).
  Lemma bins_run k : (k <= n)%nat -> forall d b, length d = n ->
    exists d', fst (fold_left step (seq 0 k) (Ret d, b)) = Ret d' /\ length d' = n /\
      forall i, (i < n)%nat -> nth i d' dflt = if (i <? k)%nat then v i (nth i d dflt) else nth i d dflt.
  Proof.
    induction k as [|k IH]; intros Hk d b Hd.
    - exists d. cbn. repeat split; auto.
    - destruct (IH ltac:(lia) d b Hd) as (d1 & E1 & L1 & N1).
      rewrite seq_S, fold_left_app. cbn [fold_left plus].
      destruct (fold_left step (seq 0 k) (Ret d, b)) as [x b1]. cbn in E1. subst x.
      exists (put d1 k (v k (nth k d1 dflt))). rewrite Hstep by (auto; lia). repeat split.
      + rewrite put_length. auto.
      + intros i Hi. destruct (Nat.eq_dec i k) as [-> |Hn].
        * rewrite put_same by lia. rewrite N1 by auto. rewrite Nat.ltb_irrefl.
          destruct (Nat.ltb_spec k (S k)); [reflexivity|lia].
        * rewrite put_other by auto. rewrite N1 by auto.
          destruct (Nat.ltb_spec i k), (Nat.ltb_spec i (S k)); auto; lia.
  Qed.
End Bins.

Lemma compact_into_spec buf f n : exists buf' pts, compact_into buf f n = (buf', pts) /\
  map buf' (seq 0 pts) = filter f (seq 0 n) /\ pts = length (filter f (seq 0 n)).
Proof.
  unfold compact_into. destruct fold_left as [[b p] c] eqn:E. apply compact_inv in E. exists b, p. split; auto.
  destruct E as [_ E]. split; auto. rewrite <- E, map_length, seq_length. reflexivity.
Qed.

(** Sums over selected indices. *)
Lemma total_filter {X} (f : X -> bool) (g : X -> R) l : total g (filter f l) = total (fun x => if f x then g x else 0) l.
Proof. induction l as [|x l IH]; cbn; auto. destruct (f x); cbn; rewrite IH; ring. Qed.
Lemma total_indices {X} (g : X -> R) (d : X) l : total (fun i => g (nth i l d)) (seq 0 (length l)) = total g l.
Proof.
  induction l as [|x l IH]; cbn [length seq total]; auto. cbn [nth]. f_equal. rewrite <- seq_shift, total_map. exact IH.
Qed.
Definition p0 : vec * R := (v0, 0).
Lemma nth_fst (ps : list (vec * R)) i : nth i (map fst ps) v0 = fst (nth i ps p0).
Proof. change v0 with (fst p0). apply map_nth. Qed.
Lemma nth_snd (ps : list (vec * R)) i : nth i (map snd ps) 0 = snd (nth i ps p0).
Proof. change 0 with (snd p0) at 1. apply map_nth. Qed.
Lemma total_selected (f : vec -> bool) (ps : list (vec * R)) :
  total (fun i => nth i (map snd ps) 0) (filter (fun i => f (nth i (map fst ps) v0)) (seq 0 (length ps))) =
  total (fun q => if f (fst q) then snd q else 0) ps.
Proof.
  rewrite total_filter. rewrite <- (total_indices _ p0 ps). apply total_ext. intros i _.
  rewrite nth_fst, nth_snd. reflexivity.
Qed.

(** ** Distances *)
Lemma sqdist_nonneg c p : 0 <= sqdist c p.
Proof.
  unfold sqdist. pose proof (Rle_0_sqr (vx c - vx p)). pose proof (Rle_0_sqr (vy c - vy p)). pose proof (Rle_0_sqr (vz c - vz p)).
  unfold Rsqr in *. lra.
Qed.
Lemma distance_sqrt c p : distance p c = sqrt (sqdist c p).
Proof. unfold distance, norm, sqdist, vsub. cbn [vx vy vz]. f_equal. ring. Qed.
Lemma distance_nonneg p c : 0 <= distance p c.
Proof. apply sqrt_pos. Qed.
Lemma distance_sq c p : sqdist c p = distance p c * distance p c.
Proof. rewrite distance_sqrt. symmetry. apply sqrt_sqrt. apply sqdist_nonneg. Qed.
Lemma sq_lt a b : 0 <= a -> 0 <= b -> (a * a < b * b <-> a < b).
Proof. intros Ha Hb. split; intros H; [apply Rsqr_incrst_0 in H; auto|apply Rsqr_incrst_1; auto]. Qed.
Lemma in_shell_iff c r lo hi p : 0 <= lo * r -> 0 <= hi * r ->
  in_shell c r lo hi p = true <-> lo * r <= distance p c < hi * r.
Proof.
  intros Hl Hh. unfold in_shell, Rltb, Rleb. rewrite distance_sq. pose proof (distance_nonneg p c).
  pose proof (sq_lt _ _ H Hh). pose proof (sq_lt _ _ H Hl). rewrite andb_true_iff.
  destruct Rlt_dec, Rle_dec; split; try (intros [? ?]; discriminate); try tauto;
  intros; repeat split; try discriminate; try tauto; try lra.
Qed.
Lemma in_ball_iff c r rad p : 0 <= rad * r -> Rltb (sqdist c p) (rad * r * (rad * r)) = true <-> distance p c < rad * r.
Proof. intros H. unfold Rltb. rewrite distance_sq. pose proof (sq_lt _ _ (distance_nonneg p c) H). destruct Rlt_dec; split; auto; try discriminate; tauto. Qed.

(** A particle in a shell makes its volume non-zero. *)
Lemma cube_diff_zero x y : y ^ 3 - x ^ 3 = 0 -> x = y.
Proof.
  intros H. destruct (Rtotal_order x y) as [L|[E|L]]; auto; exfalso.
  - assert (0 < (y - x) * (x * x + x * y + y * y)); [apply Rmult_lt_0_compat; [lra|]|simpl in H; lra].
    assert (0 <= (x + y / 2) * (x + y / 2)) by apply Rle_0_sqr. 
    destruct (Req_dec y 0) as [-> |N]; [assert (0 < x * x) by nra; nra|]. assert (0 < y * y) by nra. nra.
  - assert (0 < (x - y) * (x * x + x * y + y * y)); [apply Rmult_lt_0_compat; [lra|]|simpl in H; lra].
    assert (0 <= (x + y / 2) * (x + y / 2)) by apply Rle_0_sqr.
    destruct (Req_dec y 0) as [-> |N]; [assert (0 < x * x) by nra; nra|]. assert (0 < y * y) by nra. nra.
Qed.
Lemma volume_zero r lo hi : shell_volume r lo hi = 0 -> lo * r = hi * r.
Proof.
  unfold shell_volume. intros H. apply Rmult_integral in H. destruct H as [H|H].
  - pose proof PI_RGT_0. lra.
  - apply cube_diff_zero. exact H.
Qed.
Lemma in_shell_volume c r lo hi p : in_shell c r lo hi p = true -> shell_volume r lo hi <> 0.
Proof.
  intros H V. apply volume_zero in V. unfold in_shell, Rltb, Rleb in H. rewrite V in H. apply andb_true_iff in H.
  destruct Rlt_dec, Rle_dec; destruct H; try discriminate. lra.
Qed.

(** ** Spherical densities *)
Section SphProofs.
  Variables (ps : list (vec * R)) (c : vec) (r200 : R) (edges : list R).
  Notation step := (dens_sph_step (map fst ps) (map snd ps) c r200 edges).

  Lemma sph_step_value d b i : (i < length d)%nat ->
    fst (step (Ret d, b) i) = Ret (put d i (nth i d 0 +
      total (fun q => if in_shell c r200 (nth i edges 0) (nth (S i) edges 0) (fst q) then snd q else 0) ps
      / shell_volume r200 (nth i edges 0) (nth (S i) edges 0))).
  Proof.
    intros Hi. unfold dens_sph_step. set (lo := nth i edges 0). set (hi := nth (S i) edges 0).
    rewrite map_length.
    destruct (compact_into_spec b (fun i => in_shell c r200 lo hi (nth i (map fst ps) v0)) (length ps)) as (b' & pts & E & Hm & Hp).
    rewrite E. set (vol := shell_volume r200 lo hi).
    assert (Hraise : negb (pts =? 0)%nat && (if Req_EM_T vol 0 then true else false) = false).
    { destruct (Nat.eqb_spec pts 0); [reflexivity|]. cbn. destruct (Req_EM_T vol 0) as [V|]; auto. exfalso.
      destruct (filter (fun i => in_shell c r200 lo hi (nth i (map fst ps) v0)) (seq 0 (length ps))) as [|k l] eqn:F;
        [cbn in Hp; lia|].
      assert (Hk : In k (k :: l)) by (left; auto). rewrite <- F in Hk. apply filter_In in Hk. destruct Hk as [_ Hk].
      apply in_shell_volume in Hk. auto. }
    rewrite Hraise. cbn [fst]. f_equal.
    rewrite (fold_put_acc (fun acc n => acc + nth (b' n) (map snd ps) 0 / vol) 0) by auto.
    f_equal. rewrite fold_total. f_equal.
    rewrite <- total_selected. rewrite <- Hm, total_map. unfold Rdiv.
    rewrite (total_ext _ (fun n => / vol * nth (b' n) (map snd ps) 0)) by (intros; ring).
    rewrite total_scale. ring.
  Qed.

  Lemma sph_step_indep x b b' i : fst (step (x, b) i) = fst (step (x, b') i).
  Proof.
    destruct x as [d|]; [|reflexivity]. unfold dens_sph_step. rewrite map_length.
    set (f := fun i0 => in_shell c r200 (nth i edges 0) (nth (S i) edges 0) (nth i0 (map fst ps) v0)).
    destruct (compact_into_spec b f (length ps)) as (b1 & n1 & E1 & M1 & P1).
    destruct (compact_into_spec b' f (length ps)) as (b2 & n2 & E2 & M2 & P2).
    rewrite E1, E2, P1, P2. destruct (_ && _); [reflexivity|]. cbn [fst]. f_equal.
    rewrite <- P1. rewrite <- P2 in P1. subst n2.
    assert (G : forall l d0, map b1 l = map b2 l ->
      fold_left (fun d n => put d i (nth i d 0 + nth (b1 n) (map snd ps) 0 / shell_volume r200 (nth i edges 0) (nth (S i) edges 0))) l d0 =
      fold_left (fun d n => put d i (nth i d 0 + nth (b2 n) (map snd ps) 0 / shell_volume r200 (nth i edges 0) (nth (S i) edges 0))) l d0).
    { induction l as [|x l IH]; intros d0 H; cbn [fold_left]; auto. cbn in H. injection H as H1 H2. rewrite H1. apply IH; auto. }
    apply G. rewrite M1, <- M2. subst n1. reflexivity.
  Qed.

  (** The profile of one object from a zeroed row. *)
  Definition sph_value (i : nat) : R :=
    total (fun q => if in_shell c r200 (nth i edges 0) (nth (S i) edges 0) (fst q) then snd q else 0) ps
      / shell_volume r200 (nth i edges 0) (nth (S i) edges 0).
  Lemma sph_profile b n : n = (length edges - 1)%nat ->
    fst (calcDensProfBruteForceSph (map fst ps) (map snd ps) c r200 edges (repeat 0 n) b) =
    Ret (map sph_value (seq 0 n)).
  Proof.
    intros Hn. unfold calcDensProfBruteForceSph. rewrite <- Hn.
    destruct (bins_run 0 _ step (fun i y => y + sph_value i) n) with (k := n) (d := repeat 0 n) (b := b) as (d' & E & Ld & N);
      auto using repeat_length.
    - intros d b0 i Hi Hd. apply sph_step_value. lia.
    - rewrite E. f_equal. apply (nth_ext _ _ 0 0); [rewrite map_length, seq_length; auto|].
      intros i Hi. rewrite Ld in Hi. rewrite N by auto. destruct (Nat.ltb_spec i n); [|lia].
      rewrite nth_repeat, Rplus_0_l. rewrite (nth_indep _ 0 (sph_value 0)) by (rewrite map_length, seq_length; auto).
      rewrite map_nth, seq_nth by auto. reflexivity.
  Qed.
  Lemma sph_indep d b b' :
    fst (calcDensProfBruteForceSph (map fst ps) (map snd ps) c r200 edges d b) =
    fst (calcDensProfBruteForceSph (map fst ps) (map snd ps) c r200 edges d b').
  Proof. unfold calcDensProfBruteForceSph. apply bins_indep. intros; apply sph_step_indep. Qed.
End SphProofs.

(** ** Enclosed masses *)
Lemma mencl_profile ps c r200 radii b :
  fst (calcMenclsBruteForceSph (map fst ps) (map snd ps) c r200 radii (repeat 0 (length radii)) b) =
  map (fun rad => total (fun q => if Rltb (sqdist c (fst q)) (rad * r200 * (rad * r200)) then snd q else 0) ps) radii.
Proof.
  unfold calcMenclsBruteForceSph.
  set (val := fun i => total (fun q : vec * R => if Rltb (sqdist c (fst q)) (nth i radii 0 * r200 * (nth i radii 0 * r200)) then snd q else 0) ps).
  assert (Hs : forall d b0 i, (i < length d)%nat -> fst (mencl_sph_step (map fst ps) (map snd ps) c r200 radii (d, b0) i) = put d i (nth i d 0 + val i)).
  { intros d b0 i Hi. unfold mencl_sph_step. rewrite map_length.
    destruct (compact_into_spec b0 (fun i0 => Rltb (sqdist c (nth i0 (map fst ps) v0)) (nth i radii 0 * r200 * (nth i radii 0 * r200))) (length ps)) as (b' & pts & E & Hm & Hp).
    rewrite E. cbn [fst]. rewrite (fold_put_acc (fun acc n => acc + nth (b' n) (map snd ps) 0) 0) by auto. f_equal.
    rewrite fold_total. f_equal. unfold val. rewrite <- (total_selected (fun p => Rltb (sqdist c p) (nth i radii 0 * r200 * (nth i radii 0 * r200)))).
    rewrite <- Hm, total_map. reflexivity. }
  assert (G : forall k, (k <= length radii)%nat -> exists d' b', fold_left (mencl_sph_step (map fst ps) (map snd ps) c r200 radii) (seq 0 k) (repeat 0 (length radii), b) = (d', b') /\
     length d' = length radii /\ forall i, (i < length radii)%nat -> nth i d' 0 = if (i <? k)%nat then val i else 0).
  { induction k as [|k IH]; intros Hk.
    - exists (repeat 0 (length radii)), b. repeat split; [apply repeat_length|]. intros i Hi. apply nth_repeat.
    - destruct IH as (d1 & b1 & E1 & L1 & N1); [lia|]. rewrite seq_S, fold_left_app, E1. cbn [fold_left plus].
      specialize (Hs d1 b1 k ltac:(lia)). destruct mencl_sph_step as [d2 b2]. cbn in Hs. subst d2.
      eexists _, _. split; [reflexivity|]. split; [rewrite put_length; auto|]. intros i Hi.
      destruct (Nat.eq_dec i k) as [-> |Hn].
      + rewrite put_same by lia. rewrite N1, Nat.ltb_irrefl by auto. destruct (Nat.ltb_spec k (S k)); [ring|lia].
      + rewrite put_other by auto. rewrite N1 by auto. destruct (Nat.ltb_spec i k), (Nat.ltb_spec i (S k)); auto; lia. }
  destruct (G (length radii) (le_n _)) as (d' & b' & E & Ld & N). rewrite E. cbn [fst].
  apply (nth_ext _ _ 0 0); [rewrite map_length; auto|]. intros i Hi. rewrite Ld in Hi. rewrite N by auto.
  destruct (Nat.ltb_spec i (length radii)); [|lia]. unfold val.
  set (g := fun rad => total (fun q : vec * R => if Rltb (sqdist c (fst q)) (rad * r200 * (rad * r200)) then snd q else 0) ps).
  rewrite (nth_indep (map g radii) 0 (g 0)) by (rewrite map_length; auto). rewrite map_nth. reflexivity.
Qed.

Lemma telescope (F : nat -> R) n : total (fun i => F (S i) - F i) (seq 0 n) = F n - F 0%nat.
Proof. induction n as [|n IH]; [cbn; ring|]. rewrite seq_S, total_app, IH. cbn. ring. Qed.

Lemma shell_ball c lo hi ps : lo <= hi -> shell_mass c lo hi ps = ball_mass c hi ps - ball_mass c lo ps.
Proof.
  intros H. unfold shell_mass, ball_mass. induction ps as [|q ps IH]; cbn [total]; [ring|]. rewrite IH.
  destruct (Rle_dec lo (distance (fst q) c)), (Rlt_dec (distance (fst q) c) hi), (Rlt_dec (distance (fst q) c) lo); try lra.
Qed.

(** ** The driver *)
Lemma dupd_same {Y} (m : dloc -> dval Y) x v : dupd m x v x = v.
Proof. unfold dupd. destruct dloc_eq; congruence. Qed.
Lemma dupd_other {Y} (m : dloc -> dval Y) x v y : y <> x -> dupd m x v y = m y.
Proof. unfold dupd. destruct dloc_eq; congruence. Qed.
Ltac dup := repeat first [rewrite dupd_same | rewrite dupd_other by (intro; congruence)].

Section DriverProofs.
  Context {Y : Type}.
  Variables (L : R) (objs : list (list ptc)) (calc : nat -> list vec -> list R -> (nat -> nat) -> pyres (list Y) * (nat -> nat)).
  Hypothesis Hcalc : forall p x ms b b', length x = length ms -> fst (calc p x ms b) = fst (calc p x ms b').
  Notation run := (runl dloc (dval Y)).

  Lemma dfills t (obj : list ptc) : forall n0 m,
    let m' := run (flat_map (dfill (Y := Y) t) (combine (seq n0 (length obj)) obj)) m in
    (forall i q, nth_error obj i = Some q -> m' (DXyz t (n0 + i)) = DV (fst q) /\ m' (DM t (n0 + i)) = DR (snd q)) /\
    (forall n, (n < n0)%nat -> m' (DXyz t n) = m (DXyz t n) /\ m' (DM t n) = m (DM t n)).
  Proof.
    induction obj as [|q obj IH]; intros n0 m; cbn [length seq combine flat_map]; cbv zeta.
    - split; [intros i q H; destruct i; discriminate|auto].
    - rewrite runl_app. set (m1 := run (dfill t (n0, q)) m).
      assert (A : m1 (DXyz t n0) = DV (fst q) /\ m1 (DM t n0) = DR (snd q)).
      { unfold m1. cbv [runl fold_left dfill]. cbn [fst snd]. dup. auto. }
      assert (B : forall n, n <> n0 -> m1 (DXyz t n) = m (DXyz t n) /\ m1 (DM t n) = m (DM t n)).
      { intros n Hn. unfold m1. cbv [runl fold_left dfill]. cbn [fst snd]. dup. auto. }
      destruct (IH (S n0) m1) as (I1 & I2). cbv zeta in *.
      set (m2 := run (flat_map (dfill t) (combine (seq (S n0) (length obj)) obj)) m1) in *. split.
      + intros [|i] q' Hq.
        * injection Hq as <-. rewrite Nat.add_0_r. destruct (I2 n0) as (X & Z); [lia|]. rewrite X, Z. auto.
        * specialize (I1 i q' Hq). replace (n0 + S i)%nat with (S n0 + i)%nat by lia. exact I1.
      + intros n Hn. destruct (I2 n) as (X & Z); [lia|]. rewrite X, Z. apply B. lia.
  Qed.
  Lemma dwrite_run t l : forall n0 (m : dloc -> dval Y),
    let m' := fold_left (fun m nv => dupd m (DXyz t (fst nv)) (DV (snd nv))) (combine (seq n0 (length l)) l) m in
    (forall i x, nth_error l i = Some x -> m' (DXyz t (n0 + i)%nat) = DV x) /\
    (forall y, (forall i, (n0 <= i < n0 + length l)%nat -> y <> DXyz t i) -> m' y = m y).
  Proof.
    induction l as [|x l IH]; intros n0 m; cbn [length seq combine fold_left]; cbv zeta.
    - split; [intros [|i] x H; discriminate|auto].
    - cbn [fst snd]. destruct (IH (S n0) (dupd m (DXyz t n0) (DV x))) as (I1 & I2). cbv zeta in *. split.
      + intros [|i] y H.
        * injection H as <-. rewrite Nat.add_0_r. rewrite I2; [dup; reflexivity|]. intros i Hi E. injection E. lia.
        * replace (n0 + S i)%nat with (S n0 + i)%nat by lia. apply I1. exact H.
      + intros y Hy. rewrite I2; [|intros i Hi; apply Hy; lia]. rewrite dupd_other; auto. apply Hy. lia.
  Qed.

  Lemma dwrite_run0 t l (m : dloc -> dval Y) :
    (forall i x, nth_error l i = Some x -> dwrite m t l (DXyz t i) = DV x) /\
    (forall y, (forall i, (i < length l)%nat -> y <> DXyz t i) -> dwrite m t l y = m y).
  Proof.
    destruct (dwrite_run t l 0 m) as (A & B). split; [exact A|]. intros y Hy. apply B. intros i Hi. apply Hy. lia.
  Qed.

  Definition dens_result (p : nat) : pyres (list Y) :=
    fst (calc p (cy_respectPBCNoRef (map fst (nth p objs [])) L) (map snd (nth p objs [])) (fun _ => 0%nat)).

  Lemma dens_body_run t p m : run (dens_body L objs calc t p) m (DRow p) = DL (dens_result p).
  Proof.
    unfold dens_body, dens_result. set (obj := nth p objs []). rewrite runl_app.
    destruct (dfills t obj 0 m) as (A & _). cbv zeta in A.
    set (m1 := run (flat_map (dfill t) (combine (seq 0 (length obj)) obj)) m) in *.
    assert (R1 : drows m1 t (length obj) = map fst obj).
    { apply map_seq_nth_error. intros i q Hq. unfold dgetv. rewrite (proj1 (A i q Hq)). reflexivity. }
    unfold runl. cbn [fold_left]. rewrite R1. set (X := cy_respectPBCNoRef (map fst obj) L).
    assert (HX : length X = length obj) by (unfold X; rewrite cy_respect_length, map_length; reflexivity).
    destruct (dwrite_run0 t X m1) as (W1 & W2). set (m2 := dwrite m1 t X) in *.
    assert (R2 : drows m2 t (length obj) = X).
    { rewrite <- HX. transitivity (map (fun x => x) X); [|apply map_id]. apply map_seq_nth_error.
      intros i x Hx. unfold dgetv. cbn [plus]. rewrite (W1 i x Hx). reflexivity. }
    assert (R3 : dmasses m2 t (length obj) = map snd obj).
    { apply map_seq_nth_error. intros i q Hq. unfold dgetr. rewrite W2 by (intros; discriminate).
      rewrite (proj2 (A i q Hq)). reflexivity. }
    rewrite R2, R3. rewrite (Hcalc p X (map snd obj) (fun _ => 0%nat) (fun n => dgetn m2 (DShell t n))) by (rewrite HX, map_length; reflexivity).
    destruct calc as [res buf]. rewrite Nat.eqb_refl. reflexivity.
  Qed.

  Lemma dens_loop_result r : dens_loop L objs calc r ->
    r = if existsb (fun p => is_zerodiv (dens_result p)) (seq 0 (length objs)) then DZeroDivision
        else DOk (map (fun p => ret_of (dens_result p)) (seq 0 (length objs))).
  Proof.
    intros H. destruct H as [m' H].
    assert (E : forall p, (p < length objs)%nat -> m' (DRow p) = DL (dens_result p)).
    { eapply (prange_spec _ _ (length objs) (dens_body L objs calc) (fun p x => x = DRow p)
        (fun t x => exists n, x = DXyz t n \/ x = DM t n \/ x = DShell t n) (fun p _ => DL (dens_result p))) in H.
      - destruct H as [H _]. intros p Hp. apply H; auto.
      - intros p q x Hpq _ _ -> E. congruence.
      - intros s t x Hst (n & [-> |[-> | ->]]) (n' & [E|[E|E]]); congruence.
      - intros p t x _ -> (n & [E|[E|E]]); discriminate.
      - intros t p Hp. unfold dens_body. apply Forall_app. split.
        + apply Forall_forall. intros a Ha. apply in_flat_map in Ha. destruct Ha as ((n & q) & _ & Ha).
          destruct Ha as [<-|[<-|[]]]; cbn [fst snd]; split.
          * intros m x Hx. apply dupd_other. intros ->. apply Hx. right. eauto.
          * intros m m2 Hm x Hx. unfold dupd. destruct dloc_eq; auto.
          * intros m x Hx. apply dupd_other. intros ->. apply Hx. right. eauto.
          * intros m m2 Hm x Hx. unfold dupd. destruct dloc_eq; auto.
        + assert (Rr : forall m m2 k, (forall y, (y = DRow p \/ exists n, y = DXyz t n \/ y = DM t n \/ y = DShell t n) -> m y = m2 y) ->
             @drows Y m t k = drows m2 t k /\ @dmasses Y m t k = dmasses m2 t k).
          { intros m m2 k Hm. split; apply map_ext; intros n; unfold dgetv, dgetr; rewrite Hm; eauto 10. }
          repeat constructor.
          * intros m x Hx. destruct (dwrite_run0 t (cy_respectPBCNoRef (drows m t (length (nth p objs []))) L) m) as (_ & W).
            apply W. intros i _ ->. apply Hx. right. eauto.
          * intros m m2 Hm x Hx. rewrite (proj1 (Rr m m2 (length (nth p objs [])) Hm)).
            set (l := cy_respectPBCNoRef _ L). clearbody l. unfold dwrite.
            assert (G : forall l n0 (a b : dloc -> dval Y), a x = b x ->
              fold_left (fun m nv => dupd m (DXyz t (fst nv)) (DV (snd nv))) (combine (seq n0 (length l)) l) a x =
              fold_left (fun m nv => dupd m (DXyz t (fst nv)) (DV (snd nv))) (combine (seq n0 (length l)) l) b x).
            { clear. induction l as [|v l IH]; intros n0 a b E; cbn; auto. apply IH. unfold dupd. destruct dloc_eq; auto. }
            apply G. auto.
          * intros m x Hx. destruct calc as [res buf]. destruct x; auto.
            -- destruct (Nat.eqb_spec t0 t); auto. subst. exfalso. apply Hx. right. eauto.
            -- destruct (Nat.eqb_spec p1 p); auto. subst. exfalso. apply Hx. left. eauto.
          * intros m m2 Hm x Hx. destruct (Rr m m2 (length (nth p objs [])) Hm) as [-> ->].
            assert (Eb : (forall n, dgetn m (DShell t n) = dgetn m2 (DShell t n))) by (intros n; unfold dgetn; rewrite Hm; eauto 10).
            replace (fun n => dgetn m (DShell t n)) with (fun n => dgetn m2 (DShell t n))
              by (apply functional_extensionality; intros n; symmetry; apply Eb).
            destruct calc as [res buf]. destruct x; auto; destruct Nat.eqb; auto.
      - intros t p m Hp _ x ->. apply dens_body_run. }
    assert (E' : forall p, (p < length objs)%nat -> drow m' p = dens_result p) by (intros p Hp; unfold drow; rewrite E; auto).
    assert (X : existsb (fun p => is_zerodiv (drow m' p)) (seq 0 (length objs)) = existsb (fun p => is_zerodiv (dens_result p)) (seq 0 (length objs))).
    { apply eq_true_iff_eq. rewrite !existsb_exists. split; intros (p & Hp & Hz); exists p; split; auto; apply in_seq in Hp;
      [rewrite <- E'|rewrite E']; auto; lia. }
    rewrite X. clear X. destruct existsb; [reflexivity|]. f_equal. apply map_ext_in. intros p Hp. apply in_seq in Hp. rewrite E'; auto. lia.
  Qed.
End DriverProofs.
