From Coq Require Import List Reals ZArith Lra Lia Bool Arith.
From Verif Require Import ListUtil ParModel ParProofs XR CatModel GeoModel GeoSpec GeoProofs ShapeModel ShapeSpec ShapeProofs
  ShapePar DensModel DensSpec DensProofs.
Import ListNotations.
Open Scope R_scope.

(** ** Ellipsoidal shells: the value of a bin *)
Section EllValue.
  Variables (ps : list (vec * R)) (center : vec) (a b c : list xr) (major inter minor : list xvec).
  Notation sel i p := (in_ell_shell a b c i (frame center major inter minor i p)).
  Notation vol i := (xsub (ell_volume a b c (S i)) (ell_volume a b c i)).
  Definition ell_bad (i : nat) : bool :=
    existsb xzero (flat_map (shell_divisors center a b c major inter minor i) (map fst ps)) ||
    (existsb (fun q => sel i (fst q)) ps && xzero (vol i)).
  Definition ell_value (i : nat) (y : xr) : xr :=
    if existsb (fun q => sel i (fst q)) ps
    then fold_left (fun acc q => xadd acc (xdiv (Fin (snd q)) (vol i))) (filter (fun q => sel i (fst q)) ps) y
    else NaN.

  Lemma sel_map (f : vec -> bool) : map (fun i => nth i ps p0) (filter (fun i => f (nth i (map fst ps) v0)) (seq 0 (length ps))) =
    filter (fun q => f (fst q)) ps.
  Proof.
    clear. assert (G : forall pre l, ps = pre ++ l ->
      map (fun i => nth i ps p0) (filter (fun i => f (nth i (map fst ps) v0)) (seq (length pre) (length l))) = filter (fun q => f (fst q)) l).
    { intros pre l. revert pre. induction l as [|q l IH]; intros pre E; [reflexivity|]. cbn [length seq filter].
      assert (Eq : nth (length pre) ps p0 = q) by (rewrite E, app_nth2, Nat.sub_diag by lia; reflexivity).
      rewrite nth_fst, Eq. specialize (IH (pre ++ [q])). rewrite app_length in IH. cbn in IH. rewrite Nat.add_1_r in IH.
      rewrite <- app_assoc in IH. specialize (IH E). destruct (f (fst q)); cbn [map]; rewrite ?Eq; [f_equal|]; exact IH. }
    apply (G [] ps eq_refl).
  Qed.

  Lemma existsb_filter {X} (f : X -> bool) l : existsb f l = negb (length (filter f l) =? 0)%nat.
  Proof. induction l as [|x l IH]; cbn; auto. destruct (f x); cbn; auto. Qed.

  Lemma ell_step_value d buf i : (i < length d)%nat ->
    fst (dens_ell_step (map fst ps) (map snd ps) center a b c major inter minor (Ret d, buf) i) =
    if ell_bad i then ZeroDivision else Ret (put d i (ell_value i (nth i d NaN))).
  Proof.
    intros Hi. unfold dens_ell_step. rewrite map_length.
    destruct (compact_into_spec buf (fun k => sel i (nth k (map fst ps) v0)) (length ps)) as (b' & pts & E & Hm & Hp).
    rewrite E. unfold ell_bad, ell_value.
    pose proof (sel_map (fun p => sel i p)) as S. cbv beta in S.
    assert (Ex : existsb (fun q => sel i (fst q)) ps = negb (pts =? 0)%nat).
    { rewrite existsb_filter, <- S, map_length, <- Hp. reflexivity. }
    rewrite Ex. destruct (_ || _); [reflexivity|].
    destruct (Nat.eqb_spec pts 0) as [Z|Z]; cbn [negb fst]; [reflexivity|]. f_equal.
    rewrite (fold_put_acc (fun acc n => xadd acc (xdiv (Fin (nth (b' n) (map snd ps) 0)) (vol i))) NaN) by auto. f_equal.
    rewrite <- S, <- Hm. rewrite map_map. generalize (nth i d NaN). clear.
    induction (seq 0 pts) as [|n l IH]; intros y; cbn [fold_left map]; auto. rewrite nth_snd. apply IH.
  Qed.

  Lemma ell_step_indep x b1 b2 i :
    fst (dens_ell_step (map fst ps) (map snd ps) center a b c major inter minor (x, b1) i) =
    fst (dens_ell_step (map fst ps) (map snd ps) center a b c major inter minor (x, b2) i).
  Proof.
    destruct x as [d|]; [|reflexivity]. destruct (Nat.ltb_spec i (length d)) as [H|H].
    - rewrite !ell_step_value by auto. reflexivity.
    - assert (P : forall (l : list xr) k x, (length l <= k)%nat -> put l k x = l).
      { induction l; intros [|k] x Hk; cbn in *; auto; try lia. f_equal. apply IHl. lia. }
      unfold dens_ell_step. rewrite map_length.
      destruct (compact_into_spec b1 (fun k => sel i (nth k (map fst ps) v0)) (length ps)) as (u1 & n1 & E1 & M1 & P1).
      destruct (compact_into_spec b2 (fun k => sel i (nth k (map fst ps) v0)) (length ps)) as (u2 & n2 & E2 & M2 & P2).
      rewrite E1, E2. rewrite <- P2 in P1. subst n2. destruct (_ || _); [reflexivity|].
      destruct Nat.eqb; [reflexivity|]. cbn [fst]. f_equal.
      assert (G : forall (f : list xr -> nat -> xr) l d0, (length d0 <= i)%nat -> fold_left (fun d n => put d i (f d n)) l d0 = d0).
      { clear - P. induction l as [|n l IH]; intros d0 Hd; cbn [fold_left]; auto. rewrite P by auto. auto. }
      rewrite (G (fun d n => xadd (nth i d NaN) (xdiv (Fin (nth (u1 n) (map snd ps) 0)) (vol i)))) by auto.
      rewrite (G (fun d n => xadd (nth i d NaN) (xdiv (Fin (nth (u2 n) (map snd ps) 0)) (vol i)))) by auto. reflexivity.
  Qed.

  Lemma ell_indep d b1 b2 :
    fst (calcDensProfBruteForceEll (map fst ps) (map snd ps) center a b c major inter minor d b1) =
    fst (calcDensProfBruteForceEll (map fst ps) (map snd ps) center a b c major inter minor d b2).
  Proof. unfold calcDensProfBruteForceEll. apply bins_indep. intros; apply ell_step_indep. Qed.

  Lemma ell_zerodiv_stuck l buf :
    fold_left (dens_ell_step (map fst ps) (map snd ps) center a b c major inter minor) l (ZeroDivision, buf) = (ZeroDivision, buf).
  Proof. induction l; cbn; auto. Qed.

  Lemma ell_profile n d buf : n = (length a - 1)%nat -> length d = n ->
    fst (calcDensProfBruteForceEll (map fst ps) (map snd ps) center a b c major inter minor d buf) =
    if existsb ell_bad (seq 0 n) then ZeroDivision else Ret (map (fun i => ell_value i (nth i d NaN)) (seq 0 n)).
  Proof.
    intros Hn Hd. unfold calcDensProfBruteForceEll. rewrite <- Hn.
    assert (G : forall k, (k <= n)%nat -> if existsb ell_bad (seq 0 k)
       then exists bf, fold_left (dens_ell_step (map fst ps) (map snd ps) center a b c major inter minor) (seq 0 k) (Ret d, buf) = (ZeroDivision, bf)
       else exists d' bf, fold_left (dens_ell_step (map fst ps) (map snd ps) center a b c major inter minor) (seq 0 k) (Ret d, buf) = (Ret d', bf)
         /\ length d' = n /\ forall i, (i < n)%nat -> nth i d' NaN = if (i <? k)%nat then ell_value i (nth i d NaN) else nth i d NaN).
    { induction k as [|k IH]; intros Hk.
      - cbn. exists d, buf. auto.
      - specialize (IH ltac:(lia)). rewrite seq_S, existsb_app. cbn [existsb plus]. rewrite orb_false_r.
        rewrite fold_left_app. destruct (existsb ell_bad (seq 0 k)) eqn:Eb.
        + destruct IH as (bf & E). rewrite E. cbn [orb fold_left]. exists bf. reflexivity.
        + destruct IH as (d1 & bf & E & L1 & N1). rewrite E. cbn [orb fold_left].
          pose proof (ell_step_value d1 bf k ltac:(lia)) as S.
          destruct dens_ell_step as [x b2]. cbn [fst] in S. destruct (ell_bad k); subst x; [eauto|].
          eexists _, _. split; [reflexivity|]. split; [rewrite put_length; auto|]. intros i Hi.
          destruct (Nat.eq_dec i k) as [-> |Hn'].
          * rewrite put_same by lia. rewrite N1, Nat.ltb_irrefl by auto. destruct (Nat.ltb_spec k (S k)); [reflexivity|lia].
          * rewrite put_other by auto. rewrite N1 by auto. destruct (Nat.ltb_spec i k), (Nat.ltb_spec i (S k)); auto; lia. }
    specialize (G n (le_n _)). destruct existsb.
    - destruct G as (bf & ->). reflexivity.
    - destruct G as (d' & bf & E & Ld & N). rewrite E. cbn [fst]. f_equal.
      apply (nth_ext _ _ NaN NaN); [rewrite map_length, seq_length; auto|]. intros i Hi. rewrite Ld in Hi. rewrite N by auto.
      destruct (Nat.ltb_spec i n); [|lia]. set (g := fun i => ell_value i (nth i d NaN)).
      rewrite (nth_indep (map g (seq 0 n)) NaN (g 0%nat)) by (rewrite map_length, seq_length; auto). rewrite map_nth, seq_nth by auto. reflexivity.
  Qed.
End EllValue.

(** ** Ellipsoids with finite axes *)
Lemma Fin_add x y : xadd (Fin x) (Fin y) = Fin (x + y). Proof. reflexivity. Qed.
Lemma Fin_mul x y : xmul (Fin x) (Fin y) = Fin (x * y). Proof. reflexivity. Qed.

Section EllFinite.
  Variables (ps : list (vec * R)) (o u v w : vec) (A B E : list R) (n : nat).
  Hypothesis Hu : 0 < ip u u.
  Hypothesis Hv : 0 < ip v v.
  Hypothesis Hw : 0 < ip w w.
  Hypothesis HA : length A = S n.
  Hypothesis HB : length B = S n.
  Hypothesis HE : length E = S n.
  Hypothesis PA : forall i, (i <= n)%nat -> 0 < nth i A 0.
  Hypothesis PB : forall i, (i <= n)%nat -> 0 < nth i B 0.
  Hypothesis PE : forall i, (i <= n)%nat -> 0 < nth i E 0.
  Hypothesis GA : forall i, (i < n)%nat -> nth i A 0 < nth (S i) A 0.
  Hypothesis GB : forall i, (i < n)%nat -> nth i B 0 < nth (S i) B 0.
  Hypothesis GE : forall i, (i < n)%nat -> nth i E 0 < nth (S i) E 0.
  Notation inside i := (inside_ellipsoid u v w o (nth i A 0) (nth i B 0) (nth i E 0)).
  Notation inside_d i := (inside_dec u v w o (nth i A 0) (nth i B 0) (nth i E 0)).

  Lemma xnorm_fv x : xnorm (fv x) = Fin (sqrt (ip x x)).
  Proof.
    unfold xnorm, fv, xsq, ip. cbn [xx xy xz]. rewrite !Fin_mul, !Fin_add. apply xsqrt_fin.
    pose proof (Rle_0_sqr (vx x)). pose proof (Rle_0_sqr (vy x)). pose proof (Rle_0_sqr (vz x)). unfold Rsqr in *. lra.
  Qed.
  Lemma sqrt_ip x : 0 < ip x x -> sqrt (ip x x) <> 0.
  Proof. intros H. apply Rgt_not_eq, sqrt_lt_R0. exact H. Qed.
  Lemma along_fin x p : 0 < ip x x -> along o (fv x) p = Fin (coord_along x o p).
  Proof.
    intros H. pose proof (sqrt_ip x H) as N. unfold along. rewrite xnorm_fv. unfold fv at 1 2 3. cbn [xx xy xz].
    rewrite !xdiv_fin by auto. rewrite !Fin_mul, !Fin_add. f_equal. unfold coord_along, ip, vsub. cbn [vx vy vz].
    field. exact N.
  Qed.
  Lemma frame_fin i p : (i < n)%nat ->
    frame o (repeat (fv u) n) (repeat (fv v) n) (repeat (fv w) n) i p =
    mkX (Fin (coord_along u o p)) (Fin (coord_along v o p)) (Fin (coord_along w o p)).
  Proof.
    intros Hi. unfold frame.
    assert (R : forall x, nth i (repeat (fv x) n) x0 = fv x).
    { intros x. rewrite (nth_indep _ x0 (fv x)) by (rewrite repeat_length; auto). apply nth_repeat. }
    rewrite !R, !along_fin by auto. reflexivity.
  Qed.
  Lemma nth_Fin l k : (k < length l)%nat -> nth k (map Fin l) NaN = Fin (nth k l 0).
  Proof. intros H. rewrite (nth_indep _ NaN (Fin 0)) by (rewrite map_length; auto). apply map_nth. Qed.
  Lemma level_fin k x y z : (k <= n)%nat ->
    level (map Fin A) (map Fin B) (map Fin E) k (mkX (Fin x) (Fin y) (Fin z)) =
    Fin ((x / nth k A 0) * (x / nth k A 0) + (y / nth k B 0) * (y / nth k B 0) + (z / nth k E 0) * (z / nth k E 0)).
  Proof.
    intros Hk. unfold level. cbn [xx xy xz]. rewrite !nth_Fin by lia.
    pose proof (PA k Hk). pose proof (PB k Hk). pose proof (PE k Hk).
    rewrite !xdiv_fin by (apply Rgt_not_eq; auto). reflexivity.
  Qed.
  Lemma in_shell_ell i p : (i < n)%nat ->
    in_ell_shell (map Fin A) (map Fin B) (map Fin E) i
      (frame o (repeat (fv u) n) (repeat (fv v) n) (repeat (fv w) n) i p) = true <->
    inside (S i) p /\ ~ inside i p.
  Proof.
    intros Hi. rewrite frame_fin by auto. unfold in_ell_shell, in_ellipsoid. rewrite !level_fin by lia.
    unfold inside_ellipsoid. rewrite andb_true_iff. unfold xltb, xleb.
    destruct Rlt_dec; destruct Rle_dec; split; intros [? ?]; split; try discriminate; try tauto; try lra.
  Qed.

  (** Growing axes: nested ellipsoids. *)
  Lemma sq_shrink x p q : 0 < p -> p <= q -> x / q * (x / q) <= x / p * (x / p).
  Proof.
    intros Hp Hq. assert (0 < q) by lra.
    assert (0 < / q) by (apply Rinv_0_lt_compat; auto).
    assert (/ q <= / p) by (apply Rinv_le_contravar; auto).
    assert (/ q * / q <= / p * / p) by (apply Rmult_le_compat; lra).
    unfold Rdiv. replace (x * / q * (x * / q)) with (x * x * (/ q * / q)) by ring.
    replace (x * / p * (x * / p)) with (x * x * (/ p * / p)) by ring.
    apply Rmult_le_compat_l; auto. apply Rle_0_sqr.
  Qed.
  Lemma nested i p : (i < n)%nat -> inside i p -> inside (S i) p.
  Proof.
    intros Hi. unfold inside_ellipsoid. intros H.
    pose proof (sq_shrink (coord_along u o p) _ (nth (S i) A 0) (PA i ltac:(lia)) (Rlt_le _ _ (GA i Hi))).
    pose proof (sq_shrink (coord_along v o p) _ (nth (S i) B 0) (PB i ltac:(lia)) (Rlt_le _ _ (GB i Hi))).
    pose proof (sq_shrink (coord_along w o p) _ (nth (S i) E 0) (PE i ltac:(lia)) (Rlt_le _ _ (GE i Hi))).
    lra.
  Qed.
  Lemma nested_le i j p : (i <= j)%nat -> (j <= n)%nat -> inside i p -> inside j p.
  Proof. intros Hij. induction Hij as [|j Hij IH]; intros Hj H; auto. apply nested; [lia|]. apply IH; auto. lia. Qed.

  Definition ell_vol (i : nat) : R := 4 / 3 * PI * nth i A 0 * nth i B 0 * nth i E 0.
  Lemma vol_fin i : (i <= n)%nat -> ell_volume (map Fin A) (map Fin B) (map Fin E) i = Fin (ell_vol i).
  Proof. intros Hi. unfold ell_volume. rewrite !nth_Fin by lia. reflexivity. Qed.
  Lemma vol_grow i : (i < n)%nat -> ell_vol i < ell_vol (S i).
  Proof.
    intros Hi. unfold ell_vol. pose proof PI_RGT_0.
    pose proof (PA i ltac:(lia)). pose proof (PB i ltac:(lia)). pose proof (PE i ltac:(lia)).
    pose proof (GA i Hi). pose proof (GB i Hi). pose proof (GE i Hi).
    assert (0 < 4 / 3 * PI) by lra.
    rewrite !(Rmult_assoc (4 / 3 * PI)). apply Rmult_lt_compat_l; auto. rewrite !Rmult_assoc.
    assert (X : 0 <= nth i B 0 * nth i E 0) by (apply Rmult_le_pos; lra).
    apply Rmult_gt_0_lt_compat; auto; try lra; [|apply Rmult_gt_0_lt_compat; lra].
    apply Rmult_lt_0_compat; lra.
  Qed.

  Definition ell_sel (i : nat) (q : vec * R) : bool :=
    if inside_d (S i) (fst q) then if inside_d i (fst q) then false else true else false.
  Lemma sel_eq i q : (i < n)%nat ->
    in_ell_shell (map Fin A) (map Fin B) (map Fin E) i
      (frame o (repeat (fv u) n) (repeat (fv v) n) (repeat (fv w) n) i (fst q)) = ell_sel i q.
  Proof.
    intros Hi. apply eq_true_iff_eq. rewrite in_shell_ell by auto. unfold ell_sel.
    destruct (inside_d (S i) (fst q)), (inside_d i (fst q)); split; try tauto; try discriminate; auto.
  Qed.

  Definition ell_shell_mass (i : nat) : R := total (fun q => if ell_sel i q then snd q else 0) ps.

  Lemma fold_xadd V l : V <> 0 -> forall y, fold_left (fun acc (q : vec * R) => xadd acc (xdiv (Fin (snd q)) (Fin V))) l (Fin y) =
    Fin (y + total snd l / V).
  Proof.
    intros HV. induction l as [|q l IH]; intros y; cbn [fold_left total].
    - f_equal. unfold Rdiv. rewrite Rmult_0_l. ring.
    - rewrite xdiv_fin by auto. rewrite Fin_add, IH. f_equal. field. exact HV.
  Qed.

  Lemma xzero_fin x : x <> 0 -> xzero (Fin x) = false.
  Proof. intros H. unfold xzero, xeqb. destruct (Req_EM_T x 0); congruence. Qed.

  Lemma ell_fin_profile buf :
    fst (calcDensProfBruteForceEll (map fst ps) (map snd ps) o (map Fin A) (map Fin B) (map Fin E)
           (repeat (fv u) n) (repeat (fv v) n) (repeat (fv w) n) (repeat (Fin 0) n) buf) =
    Ret (map (fun i => if existsb (ell_sel i) ps then Fin (ell_shell_mass i / (ell_vol (S i) - ell_vol i)) else NaN) (seq 0 n)).
  Proof.
    rewrite (ell_profile _ _ _ _ _ _ _ _ n) by (rewrite ?map_length, ?repeat_length; lia).
    assert (Xs : forall i, (i < n)%nat -> existsb (fun q => in_ell_shell (map Fin A) (map Fin B) (map Fin E) i
        (frame o (repeat (fv u) n) (repeat (fv v) n) (repeat (fv w) n) i (fst q))) ps = existsb (ell_sel i) ps).
    { intros i Hi. induction ps as [|q l IH]; cbn; auto. rewrite sel_eq by auto. f_equal. auto. }
    assert (Xv : forall i, (i < n)%nat -> xsub (ell_volume (map Fin A) (map Fin B) (map Fin E) (S i)) (ell_volume (map Fin A) (map Fin B) (map Fin E) i)
        = Fin (ell_vol (S i) - ell_vol i)).
    { intros i Hi. rewrite !vol_fin by lia. apply xsub_fin. }
    match goal with |- (if existsb ?f ?l then _ else _) = _ => assert (Hb : existsb f l = false) end.
    { apply not_true_iff_false. rewrite existsb_exists. intros (i & Hi & Hz). apply in_seq in Hi.
      unfold ell_bad in Hz. apply orb_true_iff in Hz. destruct Hz as [Hz|Hz].
      - apply existsb_exists in Hz. destruct Hz as (x & Hx & Hz). apply in_flat_map in Hx. destruct Hx as (p & _ & Hx).
        assert (R : forall x, nth i (repeat (fv x) n) x0 = fv x).
        { intros y. rewrite (nth_indep _ x0 (fv y)) by (rewrite repeat_length; lia). apply nth_repeat. }
        unfold shell_divisors in Hx. rewrite in_app_iff, in_app_iff in Hx.
        assert (Hax : forall k, (k <= n)%nat -> In x (axes_of (map Fin A) (map Fin B) (map Fin E) k) -> xzero x = false).
        { intros k Hk H. unfold axes_of in H. rewrite !nth_Fin in H by lia.
          pose proof (PA k Hk). pose proof (PB k Hk). pose proof (PE k Hk).
          destruct H as [<-|[<-|[<-|[]]]]; apply xzero_fin; apply Rgt_not_eq; auto. }
        assert (xzero x = false); [|congruence].
        destruct Hx as [Hx|[Hx|Hx]].
        + unfold frame_divisors in Hx. rewrite !R, !xnorm_fv in Hx.
          destruct Hx as [<-|[<-|[<-|[]]]]; apply xzero_fin; apply sqrt_ip; auto.
        + apply (Hax (S i)); auto. lia.
        + destruct in_ellipsoid; [|destruct Hx]. apply (Hax i); auto. lia.
      - apply andb_true_iff in Hz. destruct Hz as [_ Hz]. rewrite Xv in Hz by lia. rewrite xzero_fin in Hz; [discriminate|].
        pose proof (vol_grow i ltac:(lia)). lra. }
    rewrite Hb. f_equal. apply map_ext_in. intros i Hi. apply in_seq in Hi. unfold ell_value. rewrite Xs by lia.
    destruct (existsb (ell_sel i) ps); [|reflexivity]. rewrite Xv by lia.
    rewrite (nth_indep _ NaN (Fin 0)) by (rewrite repeat_length; lia). rewrite nth_repeat.
    rewrite fold_xadd by (pose proof (vol_grow i ltac:(lia)); lra). f_equal. rewrite Rplus_0_l. f_equal.
    unfold ell_shell_mass. rewrite <- total_filter. f_equal. apply filter_ext. intros q. apply sel_eq. lia.
  Qed.

  Lemma ell_shell_diff i : (i < n)%nat -> ell_shell_mass i =
    ellipsoid_mass u v w o (nth (S i) A 0) (nth (S i) B 0) (nth (S i) E 0) ps - ellipsoid_mass u v w o (nth i A 0) (nth i B 0) (nth i E 0) ps.
  Proof.
    intros Hi. unfold ell_shell_mass, ellipsoid_mass, ell_sel. induction ps as [|q l IH]; cbn [total]; [ring|]. rewrite IH.
    pose proof (nested i (fst q) Hi). destruct (inside_d (S i) (fst q)), (inside_d i (fst q)); try tauto; ring.
  Qed.
  Lemma ell_empty i : existsb (ell_sel i) ps = false -> ell_shell_mass i = 0.
  Proof.
    unfold ell_shell_mass. induction ps as [|q l IH]; cbn; auto. intros H. apply orb_false_iff in H. destruct H as [H1 H2].
    rewrite H1, IH; auto. ring.
  Qed.
  Lemma ell_sum : total (fun i => if existsb (ell_sel i) ps then ell_shell_mass i else 0) (seq 0 n) =
    ellipsoid_mass u v w o (nth n A 0) (nth n B 0) (nth n E 0) ps - ellipsoid_mass u v w o (nth 0 A 0) (nth 0 B 0) (nth 0 E 0) ps.
  Proof.
    rewrite <- (telescope (fun i => ellipsoid_mass u v w o (nth i A 0) (nth i B 0) (nth i E 0) ps)).
    apply total_ext. intros i Hi. apply in_seq in Hi. rewrite <- ell_shell_diff by lia.
    destruct existsb eqn:X; auto. symmetry. apply ell_empty. exact X.
  Qed.
End EllFinite.

(** ** Overwritten catalogues *)
Lemma offsets_S obj_size p : (p < length obj_size)%nat ->
  nth (S p) (offsets obj_size) 0%nat = (nth p (offsets obj_size) 0 + nth p obj_size 0)%nat.
Proof.
  unfold offsets. cbn [nth]. assert (G : forall l acc p, (p < length l)%nat ->
    nth p (cumsum acc l) 0%nat = (nth p (acc :: cumsum acc l) 0 + nth p l 0)%nat).
  { induction l as [|x l IH]; intros acc [|q] Hp; cbn [length] in *; try lia; cbn [cumsum nth]; [reflexivity|].
    rewrite (IH (acc + x)%nat q) by lia. reflexivity. }
  apply G.
Qed.
Lemma offsets_mono obj_size p q : (p <= q)%nat -> (q <= length obj_size)%nat ->
  (nth p (offsets obj_size) 0 <= nth q (offsets obj_size) 0)%nat.
Proof. intros H. induction H; intros Hq; auto. rewrite offsets_S by lia. specialize (IHle ltac:(lia)). lia. Qed.
Lemma slice_length {X} i j (l : list X) : (i <= j)%nat -> (j <= length l)%nat -> length (slice i j l) = (j - i)%nat.
Proof. intros. unfold slice. rewrite firstn_length, skipn_length. lia. Qed.
Lemma nth_slice {X} i j (l : list X) k d : (k < j - i)%nat -> nth k (slice i j l) d = nth (i + k) l d.
Proof.
  intros H. unfold slice.
  assert (F : forall (l : list X) n k, (k < n)%nat -> nth k (firstn n l) d = nth k l d).
  { clear. induction l as [|x l IH]; intros [|n] [|k] H; cbn; auto; try lia. apply IH. lia. }
  assert (S : forall (l : list X) n k, nth k (skipn n l) d = nth (n + k) l d).
  { clear. induction l as [|x l IH]; intros [|n] k; cbn; auto. destruct k; auto. }
  rewrite F by auto. apply S.
Qed.

Lemma overwrite_nth obj_size l p l2 : (p < length obj_size)%nat ->
  (nth (S p) (offsets obj_size) 0 <= length l)%nat ->
  overwrite obj_size (Some l) p = Some l2 ->
  length l2 = length l /\ forall m, nth m l2 0%nat = if ((nth p (offsets obj_size) 0 <=? m) && (m <? nth (S p) (offsets obj_size) 0))%nat then nth p l 0%nat else nth m l 0%nat.
Proof.
  intros Hp Hj H. unfold overwrite in H. destruct (nth_error l p) as [v|] eqn:Ev; [|discriminate]. cbv zeta in H.
  assert (E2 : forall x y : list nat, Some x = Some y -> y = x) by congruence. apply E2 in H. subst l2.
  pose proof (offsets_S obj_size p Hp) as HS.
  set (i := nth p (offsets obj_size) 0%nat) in *. set (j := nth (S p) (offsets obj_size) 0%nat) in *. clearbody i j.
  rewrite slice_length by lia. apply nth_error_nth with (d := 0%nat) in Ev. rewrite Ev.
  split; [rewrite !app_length, firstn_length, repeat_length, skipn_length; lia|].
  intros m. assert (Lf : length (firstn i l) = i) by (rewrite firstn_length; lia).
  destruct (Nat.leb_spec i m); cbn [andb].
  - destruct (Nat.ltb_spec m j).
    + rewrite app_nth2 by lia. rewrite app_nth1 by (rewrite repeat_length; lia).
      rewrite (nth_indep _ 0%nat v) by (rewrite repeat_length; lia). apply nth_repeat.
    + rewrite !app_nth2; rewrite ?repeat_length; try lia. rewrite Lf.
      rewrite <- (firstn_skipn j l) at 2. rewrite (app_nth2 (firstn j l)) by (rewrite firstn_length; lia).
      f_equal. rewrite firstn_length. lia.
  - rewrite app_nth1 by lia. rewrite <- (firstn_skipn i l) at 2. rewrite app_nth1 by lia. reflexivity.
Qed.

Lemma overwritten_parts idx obj_size l : nth (length obj_size) (offsets obj_size) 0%nat = length idx ->
  overwritten idx obj_size = Some l ->
  length l = length idx /\ (forall x, In x l -> In x idx) /\ forall p, (p < length obj_size)%nat -> exists v, nth p (parts l obj_size) [] = repeat v (nth p obj_size 0%nat) /\ (p < length idx)%nat.
Proof.
  intros Hlen H. unfold overwritten in H.
  assert (G : forall k, (k <= length obj_size)%nat -> forall l, fold_left (overwrite obj_size) (seq 0 k) (Some idx) = Some l ->
    length l = length idx /\ (forall x, In x l -> In x idx) /\ forall p, (p < k)%nat -> (p < length idx)%nat /\ exists v, forall m, (nth p (offsets obj_size) 0 <= m < nth (S p) (offsets obj_size) 0)%nat -> nth m l 0%nat = v).
  { induction k as [|k IH]; intros Hk l1 H1.
    - cbn in H1. injection H1 as <-. repeat split; auto; lia.
    - rewrite seq_S, fold_left_app in H1. cbn [fold_left plus] in H1.
      destruct (fold_left (overwrite obj_size) (seq 0 k) (Some idx)) as [l0|] eqn:E0; [|discriminate H1].
      destruct (IH ltac:(lia) l0 eq_refl) as (L0 & I0 & V0).
      pose proof (offsets_mono obj_size (S k) (length obj_size) ltac:(lia) (le_n _)).
      assert (Hkk : (k < length l0)%nat).
      { cbn [overwrite] in H1. destruct (nth_error l0 k) eqn:En; [|discriminate]. apply nth_error_Some. congruence. }
      destruct (overwrite_nth obj_size l0 k l1 ltac:(lia) ltac:(lia) H1) as (L1 & N1).
      split; [congruence|]. split.
      + intros x Hx. apply (In_nth _ _ 0%nat) in Hx. destruct Hx as (m & Hm & <-). rewrite N1.
        destruct (_ && _); apply I0; apply nth_In; lia.
      + intros p Hp. destruct (Nat.eq_dec p k) as [-> |Hn].
        * split; [lia|]. exists (nth k l0 0%nat). intros m Hm. rewrite N1.
          destruct (Nat.leb_spec (nth k (offsets obj_size) 0%nat) m); [|lia].
          destruct (Nat.ltb_spec m (nth (S k) (offsets obj_size) 0%nat)); [reflexivity|lia].
        * destruct (V0 p ltac:(lia)) as (Hp1 & v & Hv). split; auto. exists v. intros m Hm. rewrite N1.
          pose proof (offsets_mono obj_size (S p) k ltac:(lia) ltac:(lia)).
          destruct (Nat.leb_spec (nth k (offsets obj_size) 0%nat) m); [lia|]. cbn [andb]. auto. }
  destruct (G _ (le_n _) l H) as (L & I & V). split; auto. split; auto.
  intros p Hp. destruct (V p Hp) as (Hp1 & v & Hv). exists v. split; auto.
  unfold parts. set (g := fun p => slice (nth p (offsets obj_size) 0%nat) (nth (S p) (offsets obj_size) 0%nat) l).
  rewrite (nth_indep _ [] (g 0%nat)) by (rewrite map_length, seq_length; auto). rewrite map_nth, seq_nth by auto. cbn [plus].
  unfold g. pose proof (offsets_S obj_size p Hp).
  pose proof (offsets_mono obj_size (S p) (length obj_size) ltac:(lia) (le_n _)).
  apply (nth_ext _ _ 0%nat 0%nat).
  - rewrite slice_length, repeat_length by lia. lia.
  - intros m Hm. rewrite slice_length in Hm by lia. rewrite nth_slice by lia.
    rewrite Hv by lia. symmetry. rewrite (nth_indep _ 0%nat v) by (rewrite repeat_length; lia). apply nth_repeat.
Qed.

(** Slices of a catalogue given as one list per object. *)
Lemma parts_concat cat : parts (concat cat) (map (@length nat) cat) = cat.
Proof.
  unfold parts. rewrite map_length.
  assert (G : forall pre post l, length pre = l ->
    map (fun p => slice (nth p (l :: cumsum l (map (@length nat) post)) 0%nat) (nth (S p) (l :: cumsum l (map (@length nat) post)) 0%nat) (pre ++ concat post))
      (seq 0 (length post)) = post).
  { intros pre post. revert pre. induction post as [|o post IH]; intros pre l Hl; [reflexivity|].
    cbn [length seq map]. f_equal.
    - cbn. unfold slice. replace (l + length o - l)%nat with (length o) by lia. subst l.
      rewrite skipn_app, skipn_all, Nat.sub_diag. cbn. rewrite firstn_app, firstn_all, Nat.sub_diag. cbn. apply app_nil_r.
    - rewrite <- seq_shift, map_map. cbn [map cumsum nth concat]. rewrite app_assoc.
      apply (IH (pre ++ o)). rewrite app_length. lia. }
  apply (G [] cat 0%nat eq_refl).
Qed.
Lemma offsets_total cat : nth (length (map (@length nat) cat)) (offsets (map (@length nat) cat)) 0%nat = length (concat cat).
Proof.
  unfold offsets. assert (G : forall acc, nth (length (map (@length nat) cat)) (acc :: cumsum acc (map (@length nat) cat)) 0%nat = (acc + length (concat cat))%nat).
  { induction cat as [|o cat IH]; intros acc; cbn [map length concat cumsum]; [cbn; lia|].
    transitivity (nth (length (map (@length nat) cat)) ((acc + length o)%nat :: cumsum (acc + length o) (map (@length nat) cat)) 0%nat); [reflexivity|].
    rewrite IH, app_length. lia. }
  apply G.
Qed.

(** ** Coincident particles *)
Lemma xdiv_zero y : xdiv (Fin 0) y = Fin 0 \/ xdiv (Fin 0) y = NaN.
Proof.
  destruct y as [y| | |]; cbn; auto. destruct (Req_EM_T y 0) as [-> |H]; auto.
  - right. rewrite sgn_0. reflexivity.
  - left. f_equal. unfold Rdiv. ring.
Qed.
Definition zeroish (y : xr) : Prop := y = Fin 0 \/ y = NaN.
Lemma zeroish_add x y : zeroish x -> zeroish y -> zeroish (xadd x y).
Proof. intros [-> | ->] [-> | ->]; cbn; unfold zeroish; rewrite ?Rplus_0_l; auto. Qed.
Lemma zeroish_mul0 x y : y = 0 -> zeroish (xmul x (Fin y)).
Proof. intros ->. destruct x; cbn; unfold zeroish; rewrite ?sgn_0, ?Rmult_0_r; auto. Qed.
Lemma zeroish_div x y : zeroish x -> zeroish (xdiv x y).
Proof. intros [-> | ->]; [apply xdiv_zero|destruct y; cbn; unfold zeroish; auto]. Qed.
Lemma zeroish_sq x : zeroish x -> zeroish (xsq x).
Proof. intros [-> | ->]; cbn; unfold zeroish; rewrite ?Rmult_0_l; auto. Qed.
Lemma along_center o w : zeroish (along o w o).
Proof. unfold along. repeat apply zeroish_add; apply zeroish_mul0; ring. Qed.
Lemma center_outside o a b c major inter minor i :
  in_ell_shell a b c i (frame o major inter minor i o) = false.
Proof.
  unfold in_ell_shell. apply andb_false_intro2.
  assert (Z : zeroish (level a b c i (frame o major inter minor i o))).
  { unfold level, frame. cbn [xx xy xz]. repeat apply zeroish_add; apply zeroish_sq, zeroish_div, along_center. }
  destruct Z as [-> | ->]; cbn; [|reflexivity]. destruct Rle_dec; [lra|reflexivity].
Qed.

Lemma ref_const choose xyz p : valid_choice choose (length xyz) -> xyz <> [] -> (forall q, In q xyz -> q = p) ->
  ref_of choose xyz = p.
Proof.
  intros (_ & Hin & Hl) Hne Hc.
  assert (Hk : INR (length choose) <> 0).
  { apply not_0_INR. rewrite Hl. destruct xyz; [congruence|]. cbn [length]. lia. }
  apply vec_ext. intros ax Hax. unfold ref_of. rewrite ax_scale, ax_vsum, total_map by auto.
  rewrite (total_ext _ (fun _ => ax p)) by (intros i Hi; rewrite (Hc _ (nth_In xyz v0 (Hin i Hi))); reflexivity).
  assert (T : forall (l : list nat) x, total (fun _ => x) l = INR (length l) * x).
  { clear. induction l; intros x; cbn [total length]; [cbn; ring|]. rewrite IHl, S_INR. ring. }
  rewrite T. field. exact Hk.
Qed.

Lemma respect_const choose p k L : 0 <= L -> (0 < k)%nat -> valid_choice choose k ->
  respectPBCNoRef choose (repeat p k) L = repeat p k /\ cy_respectPBCNoRef (repeat p k) L = repeat p k.
Proof.
  intros HL Hk Hv.
  assert (Hr : ref_of choose (repeat p k) = p).
  { apply ref_const; [rewrite repeat_length; auto|destruct k; [lia|discriminate]|]. intros q Hq. apply repeat_spec in Hq. auto. }
  assert (Z : forall x, Rabs (x - x) <= L / 2) by (intros x; rewrite Rminus_diag_eq, Rabs_R0 by auto; lra).
  assert (M : forall (f : vec -> vec) n, f p = p -> map f (repeat p n) = repeat p n).
  { intros f n E. induction n; cbn; congruence. }
  split.
  - unfold respectPBCNoRef. destruct Req_EM_T; auto. rewrite Hr. apply M.
    rewrite !unwrap1_id by auto. destruct p; reflexivity.
  - unfold cy_respectPBCNoRef. destruct Req_EM_T; auto.
    assert (R : cy_row L p p = p).
    { unfold cy_row, cy_reflect. pose proof (Z (vx p)). pose proof (Z (vy p)).
      destruct Rlt_dec; [lra|]. destruct (Rlt_dec (L / 2) (Rabs (vy p - vy p))); [lra|]. destruct Rlt_dec; [lra|]. destruct p; reflexivity. }
    destruct k as [|k]; [lia|]. cbn [repeat]. cbv zeta. rewrite R. f_equal. apply M. exact R.
Qed.

Lemma center_const fuel kind choose L p m k : 0 <= L -> (0 < k)%nat -> valid_choice choose k -> 0 < m ->
  match kind with
  | CCom => center_of fuel kind choose 1000 L (repeat (p, m) k) = Some p
  | CMode => (5 <= k)%nat -> center_of fuel kind choose 1000 L (repeat (p, m) k) = None
  end.
Proof.
  intros HL Hk Hv Hm.
  assert (E : combine (respectPBCNoRef choose (map fst (repeat (p, m) k)) L) (map snd (repeat (p, m) k)) = repeat (p, m) k).
  { assert (MR : forall {X Y} (f : X -> Y) x n, map f (repeat x n) = repeat (f x) n) by (intros X Y f x n; induction n; cbn; congruence).
    rewrite !MR. cbn [fst snd]. rewrite (proj1 (respect_const choose p k L HL Hk Hv)).
    clear. induction k; cbn; congruence. }
  destruct kind; unfold center_of; rewrite E.
  - intros H5. apply (mode_diverges _ p); try lra.
    + rewrite repeat_length. auto.
    + apply Forall_forall. intros q Hq. apply repeat_spec in Hq. subst. reflexivity.
    + intros q Hq. apply repeat_spec in Hq. subst. exact Hm.
  - f_equal. apply vec_ext. intros ax Hax.
    rewrite com_mean; auto.
    + apply mean_const.
      * apply Rgt_not_eq. apply total_pos; [|destruct k; [lia|discriminate]]. intros q Hq. apply repeat_spec in Hq. subst. exact Hm.
      * intros q Hq. apply repeat_spec in Hq. subst. reflexivity.
    + apply Rgt_not_eq. apply total_pos; [|destruct k; [lia|discriminate]]. intros q Hq. apply repeat_spec in Hq. subst. exact Hm.
Qed.

(** The ellipsoidal profile of coincident particles about their common position. *)
Lemma ell_coincident p ms a b c major inter minor n buf d :
  n = (length a - 1)%nat -> length d = n ->
  fst (calcDensProfBruteForceEll (repeat p (length ms)) ms p a b c major inter minor d buf) = ZeroDivision \/
  fst (calcDensProfBruteForceEll (repeat p (length ms)) ms p a b c major inter minor d buf) = Ret (repeat NaN n).
Proof.
  intros Hn Hd. set (ps := map (fun m => (p, m)) ms).
  assert (E1 : repeat p (length ms) = map fst ps).
  { unfold ps. rewrite map_map. cbn [fst]. clear. induction ms; cbn; congruence. }
  assert (E2 : ms = map snd ps) by (unfold ps; rewrite map_map, map_id; auto).
  rewrite E1. rewrite E2 at 1 2. rewrite (ell_profile ps p a b c major inter minor n) by auto.
  destruct existsb; auto. right. f_equal.
  assert (V : forall i y, ell_value ps p a b c major inter minor i y = NaN).
  { intros i y. unfold ell_value.
    replace (existsb _ ps) with false; auto. symmetry. apply not_true_iff_false. rewrite existsb_exists.
    intros (q & Hq & Hs). apply in_map_iff in Hq. destruct Hq as (m & <- & _). cbn [fst] in Hs.
    rewrite center_outside in Hs. discriminate. }
  generalize 0%nat. clear - V. induction n; intros s; cbn [seq map repeat]; auto. rewrite V. f_equal. apply IHn.
Qed.

(** ** Kernel estimate *)
Definition kernel_terms (r r200 : R) (center : vec) (ps : list (vec * R)) : pyres xr :=
  fold_left (fun d q => kernel_add d (kernel_term r r200 (norm (vsub (fst q) center)) (snd q))) ps (Ret (Fin 0)).

Lemma kernel_object_result rs r200 center L o r : kernel_object rs r200 center L o r ->
  let ps := combine (cy_respectPBCNoRef (map fst o) L) (map snd o) in
  r = if existsb (fun x => is_zerodiv (kernel_terms x r200 center ps)) rs then DZeroDivision
      else DOk (map (fun x => match kernel_terms x r200 center ps with Ret x => x | _ => NaN end) rs).
Proof.
  intros H ps. destruct H as [m' H]. fold ps in H.
  assert (E : forall i, (i < length rs)%nat -> m' i = kernel_terms (nth i rs 0) r200 center ps).
  { destruct (prange_spec nat (pyres xr) (length rs) (kernel_body rs r200 center ps) (fun p y => y = p) (fun _ _ => False)
      (fun p _ => kernel_terms (nth p rs 0) r200 center ps) (fun _ => Ret (Fin 0)) m') as [R1 _]; auto.
    - intros p q x Hpq _ _ -> E. auto.
    - intros t p _. unfold kernel_body. apply Forall_forall. intros a Ha. apply in_map_iff in Ha.
      destruct Ha as (q & <- & _). split.
      + intros m x Hx. destruct (Nat.eqb_spec x p); [subst; tauto|reflexivity].
      + intros m m1 He x Hx. destruct (Nat.eqb_spec x p); [rewrite (He p) by auto; reflexivity|]. auto.
    - intros t p m _ Hm x ->. unfold kernel_terms.
      rewrite <- (Hm p eq_refl). clear Hm. revert m.
      unfold kernel_body, runl. generalize (nth p rs 0). intros r m.
      assert (G : forall l m y, m p = y -> fold_left (fun m f => f m) (map (fun (q : ptc) (m : mem nat (pyres xr)) y => if (y =? p)%nat
          then kernel_add (m p) (kernel_term r r200 (norm (vsub (fst q) center)) (snd q)) else m y) l) m p =
          fold_left (fun d q => kernel_add d (kernel_term r r200 (norm (vsub (fst q) center)) (snd q))) l y).
      { induction l as [|q l IH]; intros m2 y Hy; cbn [map fold_left]; auto. apply IH. rewrite Nat.eqb_refl, Hy. reflexivity. }
      apply (G ps m (m p) eq_refl). }
  assert (Ers : rs = map (fun i => nth i rs 0) (seq 0 (length rs))).
  { apply (nth_ext _ _ 0 0); [rewrite map_length, seq_length; auto|]. intros i Hi.
    rewrite (nth_indep (map _ _) 0 (nth 0 rs 0)) by (rewrite map_length, seq_length; auto).
    rewrite (map_nth (fun i => nth i rs 0)), seq_nth by auto. reflexivity. }
  assert (X1 : existsb (fun r => is_zerodiv (m' r)) (seq 0 (length rs)) = existsb (fun x => is_zerodiv (kernel_terms x r200 center ps)) rs).
  { rewrite Ers at 2. apply eq_true_iff_eq. rewrite !existsb_exists. split.
    - intros (i & Hi & Hz). exists (nth i rs 0). split; [apply in_map_iff; eauto|]. apply in_seq in Hi. rewrite <- E by lia. auto.
    - intros (x & Hx & Hz). apply in_map_iff in Hx. destruct Hx as (i & <- & Hi). exists i. split; auto. apply in_seq in Hi. rewrite E by lia. auto. }
  rewrite X1. destruct (existsb (fun x => is_zerodiv (kernel_terms x r200 center ps)) rs); [reflexivity|]. f_equal.
  rewrite Ers at 2. rewrite map_map. apply map_ext_in. intros i Hi. apply in_seq in Hi. rewrite E by lia. reflexivity.
Qed.
