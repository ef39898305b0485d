(** C104: what the visualisations of single objects show; C105: axes of equal scale. *)
From Coq Require Import List Reals ZArith Lra Lia Bool Arith.
From Verif Require Import MockModel MockPts ListUtil XR GeoModel GeoSpec GeoProofs GeoProps ShapeModel ShapeSpec ShapeProofs ShapePar EpsModel DensMove ShapeMoveModel
  ShapeExamples ShapeProps ShapeMoveProps VizModel.
Import ListNotations.
Open Scope R_scope.

(** ** Specification *)
(** [p] is on the ellipsoid about [c] with semi-axes d, q d, s d along the given directions. *)
Definition on_surface (c : vec) (s : vshape) (p : vec) : Prop :=
  (ip (s_major s) (vsub p c) / s_d s) ^ 2 + (ip (s_inter s) (vsub p c) / (s_q s * s_d s)) ^ 2
  + (ip (s_minor s) (vsub p c) / (s_s s * s_d s)) ^ 2 = 1.
(** A converged row. *)
Definition proper (s : vshape) : Prop :=
  0 < s_d s /\ 0 < s_q s /\ 0 < s_s s /\ orthonormal (s_major s) (s_inter s) (s_minor s).
(** Mean of points weighted by masses. *)
Definition weighted_mean (ax : vec -> R) (pts : list vec) (masses : list R) : R := mean ax (combine pts masses).

(** ** Lemmas *)
Lemma unit_id v : ip v v = 1 -> unit v = v.
Proof.
  intros H. unfold unit, norm. fold (ip v v). rewrite H, sqrt_1, Rinv_1. destruct v. unfold vscale. cbn. f_equal; ring.
Qed.
Lemma frame_ip a b c x y z cen : orthonormal a b c -> let p := vadd (frame a b c (x, y, z)) cen in
  ip a (vsub p cen) = x /\ ip b (vsub p cen) = y /\ ip c (vsub p cen) = z.
Proof.
  intros (A & B & C & AB & AC & BC). cbv zeta. unfold frame. rewrite !unit_id by auto.
  assert (E : forall w, vsub (vadd w cen) cen = w) by (intros []; unfold vsub, vadd; cbn; f_equal; ring). rewrite E.
  assert (L : forall u, ip u (vadd (vadd (vscale x a) (vscale y b)) (vscale z c)) = x * ip u a + y * ip u b + z * ip u c).
  { intros u. unfold ip, vadd, vscale. cbn. ring. }
  rewrite !L. assert (S : forall u w, ip u w = ip w u) by (intros; unfold ip; ring).
  rewrite (S b a), (S c a), (S c b), A, B, C, AB, AC, BC. lra.
Qed.
Lemma surface_points c s : proper s -> exists pts, viz_surface c s = MOk pts /\ length pts = 500%nat /\ forall p, In p pts -> on_surface c s p.
Proof.
  intros (Hd & Hq & Hs & Ho). unfold viz_surface.
  destruct (C54_ellipsoid (s_d s) (s_q s * s_d s) (s_s s * s_d s) 500 ltac:(lia)) as (pts & E & L & _ & F).
  rewrite E. cbn [mbind]. eexists. split; [reflexivity|]. split; [rewrite map_length; exact L|].
  intros p Hp. apply in_map_iff in Hp. destruct Hp as ([[x y] z] & <- & Hp).
  destruct (frame_ip (s_major s) (s_inter s) (s_minor s) x y z c Ho) as (A & B & C).
  unfold on_surface. rewrite A, B, C.
  assert (Nq : s_q s * s_d s <> 0) by (apply Rgt_not_eq, Rmult_lt_0_compat; auto).
  assert (Ns : s_s s * s_d s <> 0) by (apply Rgt_not_eq, Rmult_lt_0_compat; auto).
  specialize (F ltac:(lra) Nq Ns _ Hp). exact F.
Qed.
Lemma heads_on c s p : proper s -> In p (viz_heads c s) -> on_surface c s p.
Proof.
  intros (Hd & Hq & Hs & A & B & C & AB & AC & BC) Hp.
  assert (E : forall w, vsub (vadd c w) c = w) by (intros []; unfold vsub, vadd; cbn; f_equal; ring).
  assert (L : forall u w k, ip u (vscale k w) = k * ip u w) by (intros; unfold ip, vscale; cbn; ring).
  assert (S : forall u w, ip u w = ip w u) by (intros; unfold ip; ring).
  unfold on_surface. cbn [viz_heads In] in Hp. destruct Hp as [<-|[<-|[<-|[]]]]; rewrite E, !L, ?A, ?B, ?C, ?AB, ?AC, ?BC.
  - rewrite (S (s_inter s) (s_major s)), (S (s_minor s) (s_major s)), AB, AC. field. lra.
  - rewrite (S (s_minor s) (s_inter s)), BC. field. lra.
  - field. lra.
Qed.

Lemma arange_in a b i : In i (arange a b) <-> (a <= i < b)%Z.
Proof.
  unfold arange. rewrite in_map_iff. split.
  - intros (n & <- & Hn). apply in_seq in Hn. lia.
  - intros H. exists (Z.to_nat (i - a)). split; [lia|]. apply in_seq. lia.
Qed.
Lemma arange_one a : arange a (a + 1) = [a].
Proof. unfold arange. replace (Z.to_nat (a + 1 - a)) with 1%nat by lia. cbn [seq map]. f_equal. apply Z.add_0_r. Qed.
Lemma last_row {X} (rows : list X) x0 : pyindex rows (-1) x0 = last rows x0.
Proof.
  unfold pyindex. cbn [Z.ltb Z.compare]. destruct rows as [|r rows] using rev_ind; [reflexivity|].
  rewrite last_last, app_length. cbn [length]. destruct (Z.ltb_spec (-1) (- Z.of_nat (length rows + 1))); [lia|]. replace (Z.to_nat _) with (length rows) by lia.
  rewrite app_nth2, Nat.sub_diag by lia. reflexivity.
Qed.
Lemma pyindex_in {X} (rows : list X) i x0 : (- Z.of_nat (length rows) <= i < Z.of_nat (length rows))%Z -> In (pyindex rows i x0) rows.
Proof. intros H. unfold pyindex. destruct (Z.ltb_spec i (- Z.of_nat (length rows))); [lia|]. destruct (Z.ltb_spec i 0); apply nth_In; lia. Qed.

(** ** C104 *)
(* Ellipsoids: 500 points on the surface given by a row of the profile, about the drawn centre. *)
Theorem C104_surfaces : forall choose k L center rows o, rows <> [] -> (forall s, In s rows -> proper s) ->
  let f := viz_local choose k L center rows o in
  (exists pts, f_green f = MOk pts /\ length pts = 500%nat /\ forall p, In p pts -> on_surface (f_center f) (last rows (mkS 0 0 0 v0 v0 v0)) p) /\
  (forall m, In m (f_red f) -> exists pts s, m = MOk pts /\ length pts = 500%nat /\ In s rows /\ forall p, In p pts -> on_surface (f_center f) s p) /\
  length (f_red f) = 1%nat.
Proof.
  intros choose k L center rows o Hne Hp. cbv zeta. unfold viz_local. cbn [f_green f_red f_center].
  set (D := (Z.of_nat (length rows) - 1)%Z). set (c := viz_center k L center). set (s0 := mkS 0 0 0 v0 v0 v0).
  assert (N : (0 <= D)%Z) by (unfold D; destruct rows; [congruence|cbn [length]; lia]).
  split; [|split].
  - rewrite last_row. apply surface_points. apply Hp. destruct rows as [|r rows] using rev_ind; [congruence|]. rewrite last_last. apply in_or_app. right. left. reflexivity.
  - intros m Hm. rewrite arange_one in Hm. cbn [map In] in Hm. destruct Hm as [<-|[]].
    assert (I : In (pyindex rows (- D / 5) s0) rows).
    { apply pyindex_in. assert (E : (Z.of_nat (length rows) = D + 1)%Z) by (unfold D; lia). rewrite E.
      assert (- D / 5 <= 0)%Z by (apply Z.div_le_upper_bound; lia). assert (- D <= - D / 5)%Z by (apply Z.div_le_lower_bound; lia). lia. }
    destruct (surface_points c _ (Hp _ I)) as (pts & E & L1 & F). eauto 8.
  - rewrite arange_one. reflexivity.
Qed.
Print Assumptions C104_surfaces.

(* Whole-object figures: one ellipsoid, and the arrows end on it. *)
Theorem C104_global : forall choose k L center row o, proper row ->
  let f := viz_global choose k L center row o in
  (exists pts, f_green f = MOk pts /\ length pts = 500%nat /\ forall p, In p pts -> on_surface (f_center f) row p) /\
  (exists heads, f_arrows f = [(Some Axis, heads)] /\ length heads = 3%nat /\ forall p, In p heads -> on_surface (f_center f) row p) /\
  f_red f = [].
Proof.
  intros choose k L center row o Hp. cbv zeta. unfold viz_global, pyindex. cbn [f_green f_center f_arrows f_red Z.ltb Z.compare length nth Z.to_nat Z.of_nat Z.add Z.opp].
  split; [apply surface_points; auto|]. split; [|reflexivity]. eexists. split; [reflexivity|]. split; [reflexivity|].
  intros p H. apply heads_on; auto.
Qed.
Print Assumptions C104_global.

(* Profiles: the arrows with the number of a row end on the red ellipsoid, *)
Theorem C104_special : forall choose k L center rows o, rows <> [] -> (forall s, In s rows -> proper s) ->
  let f := viz_local choose k L center rows o in
  exists i heads s, In (Some (Special i), heads) (f_arrows f) /\ length heads = 3%nat /\ In s rows /\
    f_red f = [viz_surface (f_center f) s] /\ forall p, In p heads -> on_surface (f_center f) s p.
Proof.
  intros choose k L center rows o Hne Hp. cbv zeta. unfold viz_local. cbn [f_green f_red f_center f_arrows].
  set (D := (Z.of_nat (length rows) - 1)%Z). set (c := viz_center k L center). set (s0 := mkS 0 0 0 v0 v0 v0).
  assert (N : (0 <= D)%Z) by (unfold D; destruct rows; [congruence|cbn [length]; lia]).
  assert (I : In (pyindex rows (- D / 5) s0) rows).
  { apply pyindex_in. assert (E : (Z.of_nat (length rows) = D + 1)%Z) by (unfold D; lia). rewrite E.
    assert (- D / 5 <= 0)%Z by (apply Z.div_le_upper_bound; lia). assert (- D <= - D / 5)%Z by (apply Z.div_le_lower_bound; lia). lia. }
  exists (- D / 5)%Z, (viz_heads c (pyindex rows (- D / 5) s0)), (pyindex rows (- D / 5) s0). rewrite !arange_one. cbn [map].
  split; [apply in_or_app; right; left; reflexivity|]. split; [reflexivity|]. split; [exact I|]. split; [reflexivity|].
  intros p H. apply heads_on; auto.
Qed.
Print Assumptions C104_special.

(* but those called Major, Intermediate and Minor belong to the last row but one, while the green
   ellipsoid is that of the last row; with fewer than six radii there are none. *)
Theorem C104_labels : forall choose k L center rows o heads,
  In (Some Axis, heads) (f_arrows (viz_local choose k L center rows o)) ->
  (6 <= length rows)%nat /\ heads = viz_heads (f_center (viz_local choose k L center rows o)) (nth (length rows - 2) rows (mkS 0 0 0 v0 v0 v0)).
Proof.
  intros choose k L center rows o heads H. unfold viz_local in *. cbn [f_center f_arrows] in *.
  set (D := (Z.of_nat (length rows) - 1)%Z) in *. set (c := viz_center k L center) in *.
  apply in_app_or in H. destruct H as [H|H]; apply in_map_iff in H; destruct H as (i & E & Hi); [|discriminate].
  apply arange_in in Hi. destruct (Z.eqb_spec i (D - 1)) as [Ei|Ei]; [|discriminate]. injection E as <-. rewrite Ei in *.
  assert (1 <= D / 5)%Z by lia. assert (5 * (D / 5) <= D)%Z by (apply Z.mul_div_le; lia).
  assert (6 <= length rows)%nat by (unfold D in *; lia).
  split; [exact H1|]. f_equal. unfold pyindex. destruct (Z.ltb_spec (D - 1) (- Z.of_nat (length rows))); [lia|]. destruct (Z.ltb_spec (D - 1) 0); [lia|]. f_equal. unfold D. lia.
Qed.
Print Assumptions C104_labels.

(* All arrows of a profile figure: those of the last fifth of the rows, but never of the last row, and
   those of one special row; three heads each. *)
Theorem C104_rows : forall choose k L center rows o, rows <> [] ->
  let f := viz_local choose k L center rows o in let n := length rows in
  (length (f_arrows f) = (n - 1) / 5 + 1)%nat /\
  forall lab heads, In (lab, heads) (f_arrows f) ->
    (exists i, lab = Some (Special i)) \/
    exists j s, (n - 1 - (n - 1) / 5 <= j <= n - 2)%nat /\ nth_error rows j = Some s /\ heads = viz_heads (f_center f) s /\ (lab = Some Axis <-> j = n - 2)%nat.
Proof.
  intros choose k L center rows o Hne. cbv zeta. unfold viz_local. cbn [f_arrows f_center].
  set (D := (Z.of_nat (length rows) - 1)%Z). set (c := viz_center k L center). set (s0 := mkS 0 0 0 v0 v0 v0).
  assert (N : (0 < length rows)%nat) by (destruct rows; [congruence|cbn; lia]).
  assert (ED : D = Z.of_nat (length rows - 1)) by (unfold D; lia).
  assert (E5 : (D / 5)%Z = Z.of_nat ((length rows - 1) / 5)) by (rewrite ED; symmetry; apply (Nat2Z.inj_div _ 5)).
  assert (L5 : ((length rows - 1) / 5 <= length rows - 1)%nat) by (apply Nat.div_le_upper_bound; lia).
  split.
  - rewrite app_length, !map_length, arange_one. unfold arange. rewrite map_length, seq_length. cbn [length]. f_equal. rewrite E5, ED. lia.
  - intros lab heads H. apply in_app_or in H. destruct H as [H|H]; apply in_map_iff in H; destruct H as (i & E & Hi).
    + right. injection E as <- <-. apply arange_in in Hi. rewrite E5, ED in Hi.
      assert (Hn : (Z.to_nat i < length rows)%nat) by lia.
      exists (Z.to_nat i), (nth (Z.to_nat i) rows s0). split; [lia|]. split; [apply nth_error_nth'; lia|]. split.
      * unfold pyindex. destruct (Z.ltb_spec i (- Z.of_nat (length rows))); [lia|]. destruct (Z.ltb_spec i 0); [lia|]. reflexivity.
      * destruct (Z.eqb_spec i (D - 1)) as [Ei|Ei]; (split; [|]); intros X; try reflexivity; try discriminate; lia.
    + left. injection E as <- <-. eauto.
Qed.
Print Assumptions C104_rows.
Example C104_rows_example : let s := mkS 1 1 1 (mkV 1 0 0) (mkV 0 1 0) (mkV 0 0 1) in
  length (f_arrows (viz_local [0%nat] 1 0 v0 (repeat s 11) [])) = 3%nat /\ length (f_arrows (viz_local [0%nat] 1 0 v0 (repeat s 5) [])) = 1%nat.
Proof. split; apply C104_rows; discriminate. Qed.
Lemma basis : orthonormal (mkV 1 0 0) (mkV 0 1 0) (mkV 0 0 1).
Proof. unfold orthonormal, ip. cbn. lra. Qed.
(* Six spheres of radii 1, ..., 6: the labelled arrows end inside the green sphere. *)
Theorem C104_arrows_refuted : exists rows, (forall s, In s rows -> proper s) /\
  exists heads, In (Some Axis, heads) (f_arrows (viz_local [0%nat] 1 0 v0 rows [])) /\
    forall p, In p heads -> ~ on_surface (f_center (viz_local [0%nat] 1 0 v0 rows [])) (last rows (mkS 0 0 0 v0 v0 v0)) p.
Proof.
  exists (map (fun i => mkS (INR i) 1 1 (mkV 1 0 0) (mkV 0 1 0) (mkV 0 0 1)) (seq 1 6)). split.
  - intros s Hs. apply in_map_iff in Hs. destruct Hs as (i & <- & Hi). apply in_seq in Hi. unfold proper. cbn [s_d s_q s_s s_major s_inter s_minor].
    assert (0 < INR i) by (apply lt_0_INR; lia). pose proof basis. repeat split; try lra; apply H0.
  - eexists. split; [left; reflexivity|]. intros p Hp.
    assert (C0 : viz_center 1 0 v0 = v0).
    { unfold viz_center, recentreObject. cbn [map nth]. rewrite !recentre1_zero. unfold vscale, v0. cbn. f_equal; ring. }
    unfold viz_local in *. cbn [f_center] in *. rewrite C0 in *.
    unfold on_surface. cbn [last map seq s_d s_q s_s s_major s_inter s_minor]. unfold viz_heads, pyindex in Hp. cbn -[INR] in Hp.
    change (Pos.to_nat 4) with 4%nat in Hp. cbn [nth s_d s_q s_s s_major s_inter s_minor] in Hp.
    replace (INR 6) with 6 by (cbn; lra). replace (INR 5) with 5 in Hp by (cbn; lra).
    destruct Hp as [<-|[<-|[<-|[]]]]; unfold ip, vsub, vadd, vscale, v0; cbn [vx vy vz]; intros HH; field_simplify in HH; lra.
Qed.
Print Assumptions C104_arrows_refuted.

(* The drawn centre is the centre of the drawn particles if the object's centre is in the box. *)
Theorem C104_partial : forall mfuel choose (k L : R) o center,
  (L = 0 \/ in_box_ho L center) -> (forall q : vptc, In q o -> 0 < snd q) -> o <> [] ->
  shape_center mfuel CCom choose L o = Some center ->
  forall ax, In ax axes -> ax (viz_center k L center) = weighted_mean ax (viz_particles choose k L o) (map snd o).
Proof.
  intros mfuel choose k L o center Hb Hp Hne Hc ax Hax.
  assert (R : recentreObject [center] L = [center]).
  { destruct Hb as [->|Hb]; [apply C27_no_box|]. unfold recentreObject. cbn [map]. f_equal. apply vec_ext. intros f Hf.
    assert (B := Hb f Hf). axis Hf; cbn [vx vy vz]; apply recentre1_in; exact B. }
  unfold viz_center. rewrite R. cbn [nth]. rewrite ax_scale by auto.
  unfold shape_center, center_of in Hc. set (xs := respectPBCNoRef choose (map fst (map pm o)) L) in *.
  injection Hc as <-. replace (map snd (map pm o)) with (map snd o) by (rewrite map_map; reflexivity).
  assert (Lx : length xs = length o).
  { unfold xs, respectPBCNoRef. destruct Req_EM_T; rewrite ?map_length; reflexivity. }
  assert (HM : forall l, length l = length o -> mass (combine l (map snd o)) = total snd o).
  { intros l Hl. unfold mass. clear - Hl. revert l Hl. induction o as [|q o IH]; intros [|x l] Hl; try discriminate; cbn; auto. rewrite IH; auto. }
  assert (HP : total snd o <> 0) by (apply Rgt_not_eq, total_pos; auto).
  unfold viz_particles. fold xs. unfold weighted_mean. rewrite com_mean by (auto; rewrite HM; auto).
  unfold mean. rewrite !HM by (auto; rewrite map_length; auto).
  assert (T : total (fun p => snd p * ax (fst p)) (combine (map (vscale k) xs) (map snd o)) = k * total (fun p => snd p * ax (fst p)) (combine xs (map snd o))).
  { clear - Hax. generalize (map snd o). induction xs as [|x l IH]; intros [|m ms]; cbn; try ring. rewrite IH, ax_scale by auto. ring. }
  rewrite T. unfold Rdiv. ring.
Qed.
Print Assumptions C104_partial.

(* Four particles just inside the box and two just beyond its end: they are drawn at x = 99 and 105,
   the centre and the ellipsoid at x = 1. *)
Definition edge6 : list vptc := object [mkV 99 50 50; mkV 99 50 50; mkV 99 50 50; mkV 99 50 50; mkV 5 50 50; mkV 5 50 50] still6 ones6.
Theorem C104_refuted : exists L o center, 0 < L /\ (forall q, In q o -> in_box L (pos q)) /\ (forall q, In q o -> 0 < snd q) /\
  valid_choice (seq 0 6) (length o) /\
  shape_center 1 CCom (seq 0 6) L o = Some center /\
  forall p, In p (viz_particles (seq 0 6) 1 L o) -> vx p - vx (viz_center 1 L center) >= 98 / 100 * L.
Proof.
  exists 100, edge6, (mkV 101 50 50). split; [lra|].
  split; [intros q Hq ax Hax; cbn in Hq; intuition subst; axis Hax; cbn; lra|].
  split; [intros q Hq; eapply ones6_pos; exact Hq|]. split; [apply choice6; reflexivity|].
  set (raw := [mkV 99 50 50; mkV 99 50 50; mkV 99 50 50; mkV 99 50 50; mkV 5 50 50; mkV 5 50 50]).
  assert (RF : ref_of (seq 0 6) raw = mkV (406 / 6) 50 50).
  { unfold ref_of, vscale, np_vsum, vadd, v0, raw. simpl. f_equal; field. }
  assert (E : respectPBCNoRef (seq 0 6) raw 100 = [mkV 99 50 50; mkV 99 50 50; mkV 99 50 50; mkV 99 50 50; mkV 105 50 50; mkV 105 50 50]).
  { unfold respectPBCNoRef. destruct Req_EM_T; [lra|]. rewrite RF. unfold raw. cbn [map vx vy vz]. unfold unwrap1. decide_lt. repeat f_equal; ring. }
  split.
  - unfold shape_center, center_of. change (map fst (map pm edge6)) with raw. rewrite E. f_equal.
    change (map snd (map pm edge6)) with ones6. apply vec_ext. intros ax Hax. rewrite com6 by auto. axis Hax; cbn; lra.
  - unfold viz_particles. change (map fst (map pm edge6)) with raw. rewrite E. unfold viz_center, recentreObject, recentre1. cbn [map nth vx vy vz].
    intros p Hp. cbn in Hp. destruct (Rle_dec 100 101); [|lra]. unfold vscale. cbn [vx]. destruct (Rlt_dec (101 - 100) 0); [lra|].
    intuition subst; cbn; lra.
Qed.
Print Assumptions C104_refuted.
Example C104_example : in_box_ho 100 (mkV 50 50 50) /\ shape_center 1 CCom (seq 0 6) 100 halo6 = Some (mkV 50 50 50) /\ proper (mkS 3 (2/3) (1/3) (mkV 1 0 0) (mkV 0 1 0) (mkV 0 0 1)).
Proof.
  split; [intros ax Hax; axis Hax; cbn; lra|]. split; [apply halo6_center|]. unfold proper. cbn. pose proof basis as B. repeat split; try lra; apply B.
Qed.

(** ** C105 *)
Theorem C105_axes : forall lims, lims <> [] ->
  let new := set_axes_equal lims in
  length new = length lims /\
  (forall a b, In a new -> In b new -> snd a - fst a = snd b - fst b) /\
  (forall i, (i < length lims)%nat -> let '(lo, hi) := nth i lims (0, 0) in let '(lo', hi') := nth i new (0, 0) in
     lo' <= Rmin lo hi /\ Rmax lo hi <= hi' /\ lo' + hi' = lo + hi) /\
  (exists i, (i < length lims)%nat /\ let '(lo, hi) := nth i lims (0, 0) in let '(lo', hi') := nth i new (0, 0) in
     lo' = Rmin lo hi /\ hi' = Rmax lo hi).
Proof.
  intros lims Hne. cbv zeta. unfold set_axes_equal. destruct lims as [|l0 lims]; [congruence|]. clear Hne. cbn [tl].
  set (m := fold_left Rmax _ _).
  assert (G : forall l a, (forall x, In x (a :: l) -> x <= fold_left Rmax l a) /\ In (fold_left Rmax l a) (a :: l)).
  { induction l as [|x l IH]; intros a; cbn [fold_left]; [split; [intros x [<-|[]]; lra|left; reflexivity]|].
    destruct (IH (Rmax a x)) as (A & B). split.
    - intros y [<-|[<-|Hy]].
      + eapply Rle_trans; [apply Rmax_l|]. apply A. left. reflexivity.
      + eapply Rle_trans; [apply Rmax_r|]. apply A. left. reflexivity.
      + apply A. right. exact Hy.
    - destruct B as [<-|B]; [|right; right; exact B]. unfold Rmax. destruct Rle_dec; [right; left; reflexivity|left; reflexivity]. }
  set (wd := fun l : R * R => Rabs (snd l - fst l)).
  destruct (G (map wd lims) (wd l0)) as (A & B). assert (EM : fold_left Rmax (map wd lims) (wd l0) = m) by reflexivity. rewrite EM in A, B. clear EM.
  change (wd l0 :: map wd lims) with (map wd (l0 :: lims)) in A, B. set (all := l0 :: lims) in *. clearbody m all. clear G l0 lims.
  assert (NT : forall i, (i < length all)%nat -> nth i (map (fun o => (o - 1 / 2 * m, o + 1 / 2 * m)) (map (fun l => (fst l + snd l) / 2) all)) (0, 0) =
     ((fst (nth i all (0, 0)) + snd (nth i all (0, 0))) / 2 - 1 / 2 * m, (fst (nth i all (0, 0)) + snd (nth i all (0, 0))) / 2 + 1 / 2 * m)).
  { intros i Hi. rewrite map_map. rewrite (nth_indep _ (0, 0) ((fun l : R * R => ((fst l + snd l) / 2 - 1 / 2 * m, (fst l + snd l) / 2 + 1 / 2 * m)) (0, 0))) by (rewrite map_length; auto).
    exact (map_nth (fun l : R * R => ((fst l + snd l) / 2 - 1 / 2 * m, (fst l + snd l) / 2 + 1 / 2 * m)) all (0, 0) i). }
  split; [now rewrite !map_length|]. split; [|split].
  - intros a b Ha Hb. apply in_map_iff in Ha, Hb. destruct Ha as (x & <- & _), Hb as (y & <- & _). cbn. ring.
  - intros i Hi. rewrite NT by auto. pose proof (A _ (in_map wd _ _ (nth_In all (0, 0) Hi))) as W.
    destruct (nth i all (0, 0)) as [lo hi]. unfold wd in W. cbn [fst snd] in *.
    pose proof (Rle_abs (hi - lo)). pose proof (Rle_abs (- (hi - lo))) as X. rewrite Rabs_Ropp in X.
    unfold Rmin, Rmax. destruct Rle_dec; lra.
  - apply in_map_iff in B. destruct B as (x & E & Hx). apply (In_nth _ _ (0, 0)) in Hx. destruct Hx as (i & Hi & En). exists i. split; [exact Hi|].
    rewrite NT by auto. rewrite En. destruct x as [lo hi]. unfold wd in E. cbn [fst snd] in *. rewrite <- E.
    unfold Rmin, Rmax, Rabs. destruct Rcase_abs, Rle_dec; split; lra.
Qed.
Print Assumptions C105_axes.
Example C105_example : set_axes_equal [(0, 2); (5, 6); (1, -3)] = [(-1, 3); (11/2 - 2, 11/2 + 2); (-3, 1)].
Proof.
  unfold set_axes_equal. cbn [tl map fst snd fold_left].
  replace (Rabs (2 - 0)) with 2 by (rewrite Rabs_right; lra). replace (Rabs (6 - 5)) with 1 by (rewrite Rabs_right; lra).
  replace (Rabs (-3 - 1)) with 4 by (rewrite Rabs_left; lra).
  rewrite (Rmax_left 2 1), (Rmax_right 2 4) by lra. repeat f_equal; lra.
Qed.
