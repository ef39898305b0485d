(** C41 for ellipsoids: enclosed mass in the ellipsoids of the bin edges. *)
From Coq Require Import List Reals ZArith Lra Lia Bool Arith.
From Verif Require Import ListUtil ParModel ParProofs XR CatModel GeoModel GeoSpec GeoProofs ShapeModel ShapeSpec ShapeProofs
  ShapePar ShapeProps DensModel DensSpec DensProofs DensEll DensProps.
Import ListNotations.
Open Scope R_scope.

Notation ell_mencl ps c u v w A B E n b :=
  (fst (calcMenclsBruteForceEll (map fst ps) (map snd ps) c (map Fin A) (map Fin B) (map Fin E)
     (repeat (fv u) n) (repeat (fv v) n) (repeat (fv w) n) (repeat (Fin 0) n) b)).

Section MenclEll.
  Variables (ps : list (vec * R)) (c u v w : vec) (A B E : list R) (n : nat).
  Hypothesis Hu : 0 < ip u u.
  Hypothesis Hv : 0 < ip v v.
  Hypothesis Hw : 0 < ip w w.
  Hypothesis HA : length A = S n.
  Hypothesis HB : length B = S n.
  Hypothesis HE : length E = S n.
  Hypothesis PA : forall i, (i <= n)%nat -> 0 < nth i A 0.
  Hypothesis PB : forall i, (i <= n)%nat -> 0 < nth i B 0.
  Hypothesis PE : forall i, (i <= n)%nat -> 0 < nth i E 0.
  Notation inside i := (inside_ellipsoid u v w c (nth i A 0) (nth i B 0) (nth i E 0)).
  Notation inside_d i := (inside_dec u v w c (nth i A 0) (nth i B 0) (nth i E 0)).
  Notation step := (mencl_ell_step (map fst ps) (map snd ps) c (map Fin A) (map Fin B) (map Fin E) (repeat (fv u) n) (repeat (fv v) n) (repeat (fv w) n)).
  Definition isel (i : nat) (q : vec * R) : bool := if inside_d (S i) (fst q) then true else false.
  Definition mvalue (i : nat) : xr :=
    if existsb (isel i) ps then Fin (ellipsoid_mass u v w c (nth (S i) A 0) (nth (S i) B 0) (nth (S i) E 0) ps) else NaN.

  Lemma isel_eq i p : (i < n)%nat -> in_ellipsoid (map Fin A) (map Fin B) (map Fin E) (S i)
      (frame c (repeat (fv u) n) (repeat (fv v) n) (repeat (fv w) n) i p) = if inside_d (S i) p then true else false.
  Proof.
    intros Hi. rewrite (frame_fin c u v w n Hu Hv Hw i p Hi). unfold in_ellipsoid.
    rewrite (level_fin A B E n HA HB HE PA PB PE (S i)) by lia.
    unfold xltb. destruct (inside_d (S i) p) as [H|H]; unfold inside_ellipsoid in H; destruct Rlt_dec; auto; contradiction.
  Qed.

  Lemma mencl_step d buf i : length d = n -> (i < n)%nat -> nth i d NaN = Fin 0 ->
    exists b', step (Ret d, buf) i = (Ret (put d i (mvalue i)), b').
  Proof.
    intros Ld Hi Hz. unfold mencl_ell_step. rewrite map_length.
    destruct (compact_into_spec buf (fun k => in_ellipsoid (map Fin A) (map Fin B) (map Fin E) (S i)
      (frame c (repeat (fv u) n) (repeat (fv v) n) (repeat (fv w) n) i (nth k (map fst ps) v0))) (length ps)) as (b' & pts & Ec & Hm & Hp).
    rewrite Ec.
    pose proof (sel_map ps (fun p => in_ellipsoid (map Fin A) (map Fin B) (map Fin E) (S i)
      (frame c (repeat (fv u) n) (repeat (fv v) n) (repeat (fv w) n) i p))) as Sm. cbv beta in Sm.
    rewrite (filter_ext (fun q : vec * R => in_ellipsoid (map Fin A) (map Fin B) (map Fin E) (S i)
      (frame c (repeat (fv u) n) (repeat (fv v) n) (repeat (fv w) n) i (fst q))) (isel i)) in Sm by (intros q; apply isel_eq; auto).
    assert (Ex : existsb (isel i) ps = negb (pts =? 0)%nat).
    { rewrite existsb_filter, <- Sm, map_length, <- Hp. reflexivity. }
    match goal with |- context [existsb xzero ?l] => assert (Hb : existsb xzero l = false) end.
    { apply not_true_iff_false. rewrite existsb_exists. intros (x & Hx & Hq). apply in_flat_map in Hx. destruct Hx as (p & _ & Hx).
      assert (Rr : forall x, nth i (repeat (fv x) n) x0 = fv x).
      { intros y. rewrite (nth_indep _ x0 (fv y)) by (rewrite repeat_length; lia). apply nth_repeat. }
      assert (xzero x = false); [|congruence]. apply in_app_iff in Hx. destruct Hx as [Hx|Hx].
      - unfold frame_divisors in Hx. rewrite !Rr, !xnorm_fv in Hx.
        destruct Hx as [<-|[<-|[<-|[]]]]; apply xzero_fin; apply sqrt_ip; auto.
      - unfold axes_of in Hx. rewrite !nth_Fin in Hx by lia.
        pose proof (PA (S i) Hi). pose proof (PB (S i) Hi). pose proof (PE (S i) Hi).
        destruct Hx as [<-|[<-|[<-|[]]]]; apply xzero_fin; apply Rgt_not_eq; auto. }
    rewrite Hb. unfold mvalue. rewrite Ex. destruct (Nat.eqb_spec pts 0) as [Z|Z]; cbn [negb]; [eauto|].
    exists b'. f_equal. f_equal.
    rewrite (fold_put_acc (fun acc k => xadd acc (Fin (nth (b' k) (map snd ps) 0))) NaN) by lia. f_equal.
    assert (T : ellipsoid_mass u v w c (nth (S i) A 0) (nth (S i) B 0) (nth (S i) E 0) ps = total snd (filter (isel i) ps)).
    { unfold ellipsoid_mass. clear - ps. induction ps as [|q l IH]; cbn [total filter]; auto. unfold isel at 1.
      destruct inside_dec; cbn [total]; rewrite IH; ring. }
    assert (Gf : forall l y, fold_left (fun acc k => xadd acc (Fin (nth (b' k) (map snd ps) 0))) l (Fin y) =
      Fin (y + total snd (map (fun x => nth (b' x) ps p0) l))).
    { clear. induction l as [|k l IH]; intros y; cbn [fold_left map total]; [f_equal; ring|].
      rewrite Fin_add, IH. rewrite nth_snd. f_equal. ring. }
    rewrite T, <- Sm, <- Hm, map_map, Hz, Gf. f_equal. ring.
  Qed.

  (* Each entry is the mass inside the ellipsoid of the outer edge of its bin, or NaN if that ellipsoid is empty. *)
  Theorem C41_ellipsoid : forall b, exists d, ell_mencl ps c u v w A B E n b = Ret d /\ length d = n /\
    forall i, (i < n)%nat ->
      ((forall q, In q ps -> ~ inside (S i) (fst q)) /\ nth i d NaN = NaN) \/
      ((exists q, In q ps /\ inside (S i) (fst q)) /\
       nth i d NaN = Fin (ellipsoid_mass u v w c (nth (S i) A 0) (nth (S i) B 0) (nth (S i) E 0) ps)).
  Proof.
    intros b.
    assert (G : forall k, (k <= n)%nat -> exists d bf, fold_left step (seq 0 k) (Ret (repeat (Fin 0) n), b) = (Ret d, bf) /\ length d = n /\
      forall i, (i < n)%nat -> nth i d NaN = if (i <? k)%nat then mvalue i else Fin 0).
    { induction k as [|k IH]; intros Hk.
      - cbn. eexists _, _. split; [reflexivity|]. split; [apply repeat_length|]. intros i Hi.
        rewrite (nth_indep _ NaN (Fin 0)) by (rewrite repeat_length; auto). apply nth_repeat.
      - destruct (IH ltac:(lia)) as (d & bf & Ef & Ld & N). rewrite seq_S, fold_left_app, Ef. cbn [fold_left plus].
        destruct (mencl_step d bf k Ld ltac:(lia)) as (b' & Es).
        { rewrite N, Nat.ltb_irrefl by lia. reflexivity. }
        rewrite Es. eexists _, _. split; [reflexivity|]. split; [rewrite put_length; auto|]. intros i Hi.
        destruct (Nat.eq_dec i k) as [-> |Hn'].
        + rewrite put_same by lia. destruct (Nat.ltb_spec k (S k)); [reflexivity|lia].
        + rewrite put_other by auto. rewrite N by auto. destruct (Nat.ltb_spec i k), (Nat.ltb_spec i (S k)); auto; lia. }
    destruct (G n (le_n _)) as (d & bf & Ef & Ld & N). exists d. split; [|split; auto].
    - unfold calcMenclsBruteForceEll. rewrite map_length, HA. cbn [Nat.sub]. rewrite Nat.sub_0_r, Ef. reflexivity.
    - intros i Hi. rewrite N by auto. destruct (Nat.ltb_spec i n); [|lia]. unfold mvalue. destruct (existsb (isel i) ps) eqn:X.
      + right. split; auto. apply existsb_exists in X. destruct X as (q & Hq & Hs). exists q. split; auto.
        unfold isel in Hs. destruct inside_dec; [auto|discriminate].
      + left. split; auto. intros q Hq Hs. assert (existsb (isel i) ps = true); [|congruence].
        apply existsb_exists. exists q. split; auto. unfold isel. destruct inside_dec; auto.
  Qed.
End MenclEll.
Print Assumptions C41_ellipsoid.

(* The enclosed mass grows from one ellipsoid to the next, and never exceeds the total mass. *)
Theorem C41_ellipsoid_monotone : forall (ps : list (vec * R)) c u v w A B E n b d i j x y,
  0 < ip u u -> 0 < ip v v -> 0 < ip w w -> length A = S n -> length B = S n -> length E = S n ->
  growing A -> growing B -> growing E -> (forall q, In q ps -> 0 <= snd q) ->
  ell_mencl ps c u v w A B E n b = Ret d -> (i <= j)%nat -> (j < n)%nat ->
  nth i d NaN = Fin x -> nth j d NaN = Fin y -> 0 <= x <= y /\ y <= mass ps.
Proof.
  intros ps c u v w A B E n b d i j x y Hu Hv Hw HA HB HE GA GB GE Hm Ed Hij Hj Hx Hy.
  assert (P : forall l, length l = S n -> growing l -> forall k, (k <= n)%nat -> 0 < nth k l 0) by (intros; apply growing_pos; auto; lia).
  destruct (C41_ellipsoid ps c u v w A B E n Hu Hv Hw HA HB HE (P A HA GA) (P B HB GB) (P E HE GE) b) as (d' & Ed' & _ & N).
  assert (d' = d) by congruence. subst d'.
  destruct (N i ltac:(lia)) as [[_ Z]|[_ Z]]; [congruence|]. assert (Ex : x = ellipsoid_mass u v w c (nth (S i) A 0) (nth (S i) B 0) (nth (S i) E 0) ps) by congruence.
  destruct (N j ltac:(lia)) as [[_ Z']|[_ Z']]; [congruence|]. assert (Ey : y = ellipsoid_mass u v w c (nth (S j) A 0) (nth (S j) B 0) (nth (S j) E 0) ps) by congruence.
  assert (NE : forall p, inside_ellipsoid u v w c (nth (S i) A 0) (nth (S i) B 0) (nth (S i) E 0) p -> inside_ellipsoid u v w c (nth (S j) A 0) (nth (S j) B 0) (nth (S j) E 0) p).
  { intros p. apply (nested_le c u v w A B E n); auto; try lia; intros k Hk; [apply GA|apply GB|apply GE]; lia. }
  rewrite Ex, Ey. unfold ellipsoid_mass, mass. clear - Hm NE.
  induction ps as [|q l IH]; cbn [total]; [lra|].
  destruct IH as ((I1 & I2) & I3); [intros; apply Hm; right; auto|]. pose proof (Hm q (or_introl eq_refl)).
  destruct (inside_dec _ _ _ _ (nth (S i) A 0) (nth (S i) B 0) (nth (S i) E 0) (fst q)) as [X|X];
  destruct (inside_dec _ _ _ _ (nth (S j) A 0) (nth (S j) B 0) (nth (S j) E 0) (fst q)) as [Y|Y]; try (exfalso; auto; fail); lra.
Qed.
Print Assumptions C41_ellipsoid_monotone.

(** Spheres of radii 1, 2, 3 and a particle between the outer two: nothing inside 2, mass 3 inside 3. *)
Example C41_ellipsoid_example : exists d,
  ell_mencl [(mkV (5 / 2) 0 0, 3)] (mkV 0 0 0) (mkV 1 0 0) (mkV 0 1 0) (mkV 0 0 1) [1; 2; 3] [1; 2; 3] [1; 2; 3] 2 (fun _ => 0%nat) = Ret d /\
  nth 0 d NaN = NaN /\ nth 1 d NaN = Fin 3.
Proof.
  assert (G : forall i, (i <= 2)%nat -> 0 < nth i [1; 2; 3] 0).
  { intros [|[|[|i]]] Hi; cbn; try lra; lia. }
  assert (I : forall k, 0 < k -> inside_ellipsoid (mkV 1 0 0) (mkV 0 1 0) (mkV 0 0 1) (mkV 0 0 0) k k k (mkV (5 / 2) 0 0) <-> (5 / 2 / k) * (5 / 2 / k) < 1).
  { intros k Hk. unfold inside_ellipsoid, coord_along, ip, vsub. cbn [vx vy vz].
    replace (1 * 1 + 0 * 0 + 0 * 0) with 1 by ring. replace (0 * 0 + 1 * 1 + 0 * 0) with 1 by ring. replace (0 * 0 + 0 * 0 + 1 * 1) with 1 by ring.
    rewrite sqrt_1. match goal with |- ?X < 1 <-> ?Y < 1 => replace X with Y by (field; lra) end. tauto. }
  destruct (C41_ellipsoid [(mkV (5 / 2) 0 0, 3)] (mkV 0 0 0) (mkV 1 0 0) (mkV 0 1 0) (mkV 0 0 1) [1; 2; 3] [1; 2; 3] [1; 2; 3] 2) with (b := fun _ : nat => 0%nat)
    as (d & E & Hl & N); auto; try (unfold ip; cbn; lra).
  exists d. split; auto. split.
  - destruct (N 0%nat ltac:(lia)) as [[_ X]|[(q & [<-|[]] & Hs) X]]; auto.
    exfalso. cbn [nth fst] in Hs. apply I in Hs; lra.
  - destruct (N 1%nat ltac:(lia)) as [[X _]|[_ X]].
    + exfalso. apply (X (mkV (5 / 2) 0 0, 3)); [left; auto|]. cbn [nth fst]; rewrite I by lra; lra.
    + rewrite X. cbn [nth]. f_equal. unfold ellipsoid_mass. cbn [total fst snd].
      destruct (inside_dec _ _ _ _ 3 3 3 _) as [H3|H3]; [|exfalso; apply H3; apply I; lra]. ring.
Qed.
