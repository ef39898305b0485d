(** C103: shapes of an object that is moved in the periodic box. *)
From Coq Require Import List Reals ZArith Lra Lia Bool Arith.
From Verif Require Import ListUtil ParModel ParProofs XR CatModel GeoModel GeoSpec GeoProofs GeoProps ShapeModel ShapeSpec ShapeProofs
  ShapeKatz Spectral ShapePar ShapeFacts ShapeExamples ShapeProps EpsModel DensMove ShapeMoveModel.
Import ListNotations.
Open Scope R_scope.

(** ** A run depends only on positions relative to the centre *)
Lemma fold_ext {X Y} (f g : Y -> X -> Y) l : (forall y x, In x l -> f y x = g y x) -> forall y, fold_left f l y = fold_left g l y.
Proof. induction l as [|x l IH]; intros H y; cbn; auto. rewrite H by (left; auto). apply IH. intros; apply H; right; auto. Qed.
Lemma compact_ext f g n : (forall i, (i < n)%nat -> f i = g i) -> compact f n = compact g n.
Proof.
  intros H. unfold compact. rewrite (fold_ext (compact_step f) (compact_step g)); [reflexivity|].
  intros y i Hi. apply in_seq in Hi. unfold compact_step. destruct y as [[b p] q]. rewrite (H i) by lia. reflexivity.
Qed.

Section Rel.
  Variable eig : nat -> list xr -> eigres.
  Variables (xyz ten xyz' ten' : list vec) (masses : list R) (center tcenter center' tcenter' : vec).
  Variables (d : R) (delta : option R) (tol : R) (wall mn : Z) (reduced : bool).
  Hypothesis Hx : map (fun p => vsub p center) xyz = map (fun p => vsub p center') xyz'.
  Hypothesis Ht : map (fun p => vsub p tcenter) ten = map (fun p => vsub p tcenter') ten'.
  Hypothesis Hl : length masses = length ten.

  Lemma len_xyz : length xyz = length xyz'.
  Proof. apply (f_equal (@length _)) in Hx. now rewrite !map_length in Hx. Qed.
  Lemma len_ten : length ten = length ten'.
  Proof. apply (f_equal (@length _)) in Ht. now rewrite !map_length in Ht. Qed.
  Lemma rel_nth c c' (l l' : list vec) i : map (fun p => vsub p c) l = map (fun p => vsub p c') l' -> (i < length l)%nat ->
    vsub (nth i l v0) c = vsub (nth i l' v0) c'.
  Proof.
    intros H Hi. assert (length l = length l') as E by (apply (f_equal (@length _)) in H; now rewrite !map_length in H).
    apply (f_equal (fun m => nth i m v0)) in H.
    rewrite (nth_indep _ v0 (vsub v0 c)) in H by (rewrite map_length; auto).
    rewrite (nth_indep (map _ l') v0 (vsub v0 c')) in H by (rewrite map_length; lia).
    rewrite (map_nth (fun p => vsub p c)), (map_nth (fun p => vsub p c')) in H. exact H.
  Qed.
  Lemma rel_coord a c a' c' : vsub a c = vsub a' c' -> vx a - vx c = vx a' - vx c' /\ vy a - vy c = vy a' - vy c' /\ vz a - vz c = vz a' - vz c'.
  Proof. unfold vsub. intros [= A B C]. auto. Qed.
  Lemma dist2_rel p p' : vsub p center = vsub p' center' -> dist2 center p = dist2 center' p'.
  Proof.
    intros H. apply rel_coord in H. destruct H as (A & B & C). unfold dist2.
    replace (vx center - vx p) with (vx center' - vx p') by lra. replace (vy center - vy p) with (vy center' - vy p') by lra.
    replace (vz center - vz p) with (vz center' - vz p') by lra. reflexivity.
  Qed.
  Lemma init_rel mi0 : katz_init xyz center d delta mi0 = katz_init xyz' center' d delta mi0.
  Proof.
    unfold katz_init. rewrite <- len_xyz.
    rewrite (compact_ext _ (fun i => in_sphere center' d delta (nth i xyz' v0))).
    - destruct compact as [buf pts]. f_equal.
      transitivity (map (fun v => xsqrt (ellval (Fin 1) (Fin 1) (mkX (Fin (- vx v)) (Fin (- vy v)) (Fin (- vz v))))) (map (fun p => vsub p center) xyz)).
      + rewrite map_map. apply map_ext. intros p. unfold vsub. cbn [vx vy vz]. rewrite !Ropp_minus_distr. reflexivity.
      + rewrite Hx, map_map. apply map_ext. intros p. unfold vsub. cbn [vx vy vz]. rewrite !Ropp_minus_distr. reflexivity.
    - intros i Hi. unfold in_sphere. rewrite (dist2_rel _ (nth i xyz' v0)) by (apply rel_nth; auto). reflexivity.
  Qed.
  Lemma princ_rel mi : map (princ mi center) xyz = map (princ mi center') xyz'.
  Proof.
    transitivity (map (fun v => mkX (xdot (major mi) v) (xdot (inter mi) v) (xdot (minor mi) v)) (map (fun p => vsub p center) xyz)).
    - rewrite map_map. reflexivity.
    - rewrite Hx, map_map. reflexivity.
  Qed.
  Lemma tensor_rel select nb rell : calcShapeTensor ten select masses tcenter nb reduced rell = calcShapeTensor ten' select masses tcenter' nb reduced rell.
  Proof.
    unfold calcShapeTensor. apply fold_ext. intros T [i j] _. destruct (j <=? i)%nat; [|reflexivity].
    assert (E : forall l T0, fold_left (fun T run => mupd T i j (xadd (T i j) (tensor_term ten masses tcenter (fold_left (fun acc run => acc + nth (select run) masses 0) (seq 0 nb) 0) reduced rell i j (select run)))) l T0 =
      fold_left (fun T run => mupd T i j (xadd (T i j) (tensor_term ten' masses tcenter' (fold_left (fun acc run => acc + nth (select run) masses 0) (seq 0 nb) 0) reduced rell i j (select run)))) l T0).
    { intros l T0. apply fold_ext. intros T1 k _. f_equal. f_equal. unfold tensor_term.
      assert (C : nth (select k) masses 0 * (coord (nth (select k) ten v0) i - coord tcenter i) * (coord (nth (select k) ten v0) j - coord tcenter j) =
                  nth (select k) masses 0 * (coord (nth (select k) ten' v0) i - coord tcenter' i) * (coord (nth (select k) ten' v0) j - coord tcenter' j)).
      { destruct (lt_dec (select k) (length ten)) as [Hk|Hk].
        - pose proof (rel_coord _ _ _ _ (rel_nth tcenter tcenter' ten ten' (select k) Ht Hk)) as (A & B & C).
          destruct i as [|[|i]], j as [|[|j]]; cbn [coord]; rewrite ?A, ?B, ?C; reflexivity.
        - rewrite (nth_overflow masses) by lia. ring. }
      rewrite C. reflexivity. }
    rewrite E. reflexivity.
  Qed.
  Lemma body_rel st : katz_body eig xyz ten masses center tcenter d delta reduced st = katz_body eig xyz' ten' masses center' tcenter' d delta reduced st.
  Proof.
    unfold katz_body. rewrite tensor_rel.
    rewrite princ_rel, len_xyz. reflexivity.
  Qed.
  Lemma flat_map_map {X Y Z} (f : Y -> list Z) (g : X -> Y) l : flat_map f (map g l) = flat_map (fun x => f (g x)) l.
  Proof. induction l as [|x l IH]; cbn; auto. rewrite IH. reflexivity. Qed.
  Lemma divisors_rel st : divisors eig xyz ten masses center tcenter d delta reduced st = divisors eig xyz' ten' masses center' tcenter' d delta reduced st.
  Proof.
    unfold divisors. rewrite tensor_rel. f_equal. f_equal.
    set (T := freeze _). set (e := eig _ _). set (q := xsqrt _). set (s := xsqrt (xdiv (ev0 e) _)). set (mi := mkM _ _ _ _ _ _).
    set (g := fun x : xvec => [xsq q; xsq s] ++ match delta with
      | None => []
      | Some dd => if Req_EM_T d dd then []
          else if xltb (ellval q s x) (Fin (d * d))
          then [xsq (Fin (d - dd)); xsq (xsub (xmul q (Fin d)) (Fin dd)); xsq (xsub (xmul s (Fin d)) (Fin dd))]
          else [] end).
    transitivity (flat_map g (map (princ mi center) xyz)); [rewrite flat_map_map; reflexivity|].
    rewrite princ_rel, flat_map_map. reflexivity.
  Qed.
  Lemma loop_rel fuel : forall st, katz_loop eig xyz ten masses center tcenter d delta tol wall mn reduced fuel st =
    katz_loop eig xyz' ten' masses center' tcenter' d delta tol wall mn reduced fuel st.
  Proof.
    induction fuel as [|fuel IH]; intros st; cbn [katz_loop]; [reflexivity|].
    rewrite divisors_rel, body_rel, IH. reflexivity.
  Qed.
  Lemma katz_rel fuel mi0 : katz eig xyz ten masses center tcenter d delta tol wall mn reduced fuel mi0 =
    katz eig xyz' ten' masses center' tcenter' d delta tol wall mn reduced fuel mi0.
  Proof. unfold katz. rewrite init_rel. apply loop_rel. Qed.
End Rel.

(** ** Moving an object *)
(** The object moved by t, without wrapping. *)
Definition shift (t : vec) (o : list vptc) : list vptc := map (fun q => (vadd (pos q) t, vel q, snd q)) o.
Definition shiftp (t : vec) (o : list ptc) : list ptc := map (fun q => (vadd (fst q) t, snd q)) o.
Definition shiftv (t : vec) (l : list vec) : list vec := map (fun p => vadd p t) l.
Lemma pm_shift t o : map pm (shift t o) = shiftp t (map pm o).
Proof. unfold shift, shiftp. rewrite !map_map. reflexivity. Qed.
Lemma fst_shiftp t o : map fst (shiftp t o) = shiftv t (map fst o).
Proof. unfold shiftv, shiftp. rewrite !map_map. reflexivity. Qed.
Lemma snd_shiftp t o : map snd (shiftp t o) = map snd o.
Proof. unfold shiftp. rewrite !map_map. reflexivity. Qed.
Lemma pos_shift t o : map pos (shift t o) = shiftv t (map pos o).
Proof. unfold shift, shiftv. rewrite !map_map. reflexivity. Qed.
Lemma rel_shift t c l : map (fun p => vsub p c) l = map (fun p => vsub p (vadd c t)) (shiftv t l).
Proof. unfold shiftv. rewrite map_map. apply map_ext. intros p. unfold vsub, vadd. cbn [vx vy vz]. f_equal; ring. Qed.

Lemma fold_div (f : vec -> R) n l : forall a, fold_left (fun a p => a + f p / n) l a = a + total f l / n.
Proof. induction l as [|p l IH]; intros a; cbn; [unfold Rdiv; ring|]. rewrite IH. unfold Rdiv. ring. Qed.
Lemma spread_total l : let n := INR (length l) in calcLocalSpread l =
  total (fun p => sqrt ((vx p - total vx l / n) * (vx p - total vx l / n) + (vy p - total vy l / n) * (vy p - total vy l / n)
                        + (vz p - total vz l / n) * (vz p - total vz l / n))) l / n.
Proof.
  cbv zeta. unfold calcLocalSpread. set (n := INR (length l)).
  rewrite !fold_div, !Rplus_0_l. reflexivity.
Qed.
Lemma spread_shift t l : calcLocalSpread (shiftv t l) = calcLocalSpread l.
Proof.
  destruct l as [|p0 l0]; [reflexivity|]. set (l := p0 :: l0). assert (Hn : INR (length l) <> 0) by (apply not_0_INR; discriminate). clearbody l.
  rewrite !spread_total. replace (length (shiftv t l)) with (length l) by (unfold shiftv; now rewrite map_length). set (n := INR (length l)) in *.
  assert (M : forall f, In f axes -> total f (shiftv t l) / n = total f l / n + f t).
  { intros f Hf. unfold shiftv. rewrite total_map. rewrite (total_ext _ (fun p => f p + f t)) by (intros; apply ax_add; auto).
    rewrite total_plus, total_const. fold n. field. exact Hn. }
  rewrite (M vx), (M vy), (M vz) by (cbn; auto).
  f_equal. unfold shiftv. rewrite total_map. apply total_ext. intros p _. unfold vadd. cbn [vx vy vz]. f_equal. ring.
Qed.

Lemma fold_max_shift k l : forall a, fold_left Rmax (map (fun x => x + k) l) (a + k) = fold_left Rmax l a + k.
Proof. induction l as [|x l IH]; intros a; cbn; auto. rewrite <- IH. f_equal. unfold Rmax. destruct (Rle_dec (a + k) (x + k)), (Rle_dec a x); lra. Qed.
Lemma fold_min_shift k l : forall a, fold_left Rmin (map (fun x => x + k) l) (a + k) = fold_left Rmin l a + k.
Proof. induction l as [|x l IH]; intros a; cbn; auto. rewrite <- IH. f_equal. unfold Rmin. destruct (Rle_dec (a + k) (x + k)), (Rle_dec a x); lra. Qed.
Lemma extent_shift t l : extent (shiftv t l) = extent l.
Proof.
  assert (S : forall f, In f axes -> spread f (shiftv t l) = spread f l).
  { intros f Hf. unfold spread, shiftv. destruct l as [|p l]; cbn [map]; [reflexivity|]. rewrite ax_add by auto.
    replace (map f (map (fun p => vadd p t) l)) with (map (fun x => x + f t) (map f l)) by (rewrite !map_map; apply map_ext; intros; symmetry; apply ax_add; auto).
    rewrite fold_max_shift, fold_min_shift. ring. }
  unfold extent. rewrite !S by (cbn; auto). reflexivity.
Qed.

Lemma mass_shift t o : mass (shiftp t o) = mass o.
Proof. unfold mass, shiftp. rewrite total_map. reflexivity. Qed.
Lemma mode_com_shift t ps : mass ps <> 0 -> mode_com (shiftp t ps) = vadd (mode_com ps) t.
Proof.
  intros HM. apply vec_ext. intros ax Hax. rewrite ax_add by auto. rewrite !mode_com_mean by auto. unfold mean. rewrite mass_shift.
  unfold shiftp. rewrite total_map. rewrite (total_ext _ (fun p => snd p * ax (fst p) + ax t * snd p)).
  - rewrite total_plus, total_scale. fold (mass ps). field. exact HM.
  - intros p _. cbn [fst snd]. rewrite ax_add by auto. ring.
Qed.
Lemma filter_map_comm {X Y} (f : Y -> bool) (g : X -> Y) l : filter f (map g l) = map g (filter (fun x => f (g x)) l).
Proof. induction l as [|x l IH]; cbn; auto. destruct (f (g x)); cbn; rewrite IH; reflexivity. Qed.
Lemma mode_shift t fuel : forall ps rad, ps <> [] -> (forall p, In p ps -> 0 < snd p) ->
  calcMode fuel (shiftp t ps) rad = option_map (fun v => vadd v t) (calcMode fuel ps rad).
Proof.
  induction fuel as [|fuel IH]; intros ps rad Hne Hp; cbn [calcMode]; [reflexivity|].
  assert (HM : mass ps <> 0) by (apply Rgt_not_eq, total_pos; auto).
  rewrite mode_com_shift by auto.
  assert (F : filter (fun p => Rltb (norm (vsub (fst p) (vadd (mode_com ps) t))) rad) (shiftp t ps) =
              shiftp t (filter (fun p => Rltb (norm (vsub (fst p) (mode_com ps))) rad) ps)).
  { unfold shiftp. rewrite filter_map_comm. f_equal. apply filter_ext. intros p. cbn [fst]. f_equal. f_equal.
    unfold vsub, vadd. cbn [vx vy vz]. f_equal; ring. }
  rewrite F. unfold shiftp at 1. rewrite map_length. destruct Nat.ltb eqn:E; [reflexivity|]. apply IH.
  - intros Z. rewrite Z in E. discriminate.
  - intros p H. apply filter_In in H. apply Hp. tauto.
Qed.

(** No box, or an object that is not split by it. *)
Definition unsplit (L : R) (o : list vptc) : Prop := L = 0 \/ 0 < L /\ together L (map pm o).
Lemma together_shift L t o : together L o -> together L (shiftp t o).
Proof.
  intros Ht q q' ax Hq Hq' Hax. apply in_map_iff in Hq, Hq'. destruct Hq as (a & <- & Ha). destruct Hq' as (b & <- & Hb). cbn [fst].
  rewrite !ax_add by auto. replace (ax (fst a) + ax t - (ax (fst b) + ax t)) with (ax (fst a) - ax (fst b)) by ring. apply Ht; auto.
Qed.
Lemma unsplit_shift L t o : unsplit L o -> unsplit L (shift t o).
Proof. intros [H|[H H']]; [left; auto|right]. split; auto. rewrite pm_shift. apply together_shift. auto. Qed.
Lemma unsplit_both L choose o : unsplit L o -> o <> [] -> valid_choice choose (length o) ->
  respectPBCNoRef choose (map pos o) L = map pos o /\ cy_respectPBCNoRef (map pos o) L = map pos o.
Proof.
  assert (EP : map pos o = map fst (map pm o)) by (rewrite map_map; reflexivity).
  intros [->|[HL Ht]] Hne Hv; [split; [apply C23_no_box|apply pbc_off]|].
  destruct (together_respect choose L (map pm o) HL) as [A B]; auto.
  - destruct o; [congruence|discriminate].
  - rewrite map_length. exact Hv.
  - rewrite EP. split; [exact A|]. unfold DensProps.seen in B. apply (f_equal (map fst)) in B.
    rewrite map_fst_combine in B; [exact B|]. rewrite cy_respect_length, !map_length. reflexivity.
Qed.

Section Obj.
  Variables (eig : nat -> list xr -> eigres) (fuel : nat) (c : kcfg) (r200 : R) (xyz ten xyz' ten' : list vec) (masses : list R)
    (center tcenter center' tcenter' : vec).
  Hypothesis Hs : calcLocalSpread xyz = calcLocalSpread xyz'.
  Hypothesis Hx : map (fun p => vsub p center) xyz = map (fun p => vsub p center') xyz'.
  Hypothesis Ht : map (fun p => vsub p tcenter) ten = map (fun p => vsub p tcenter') ten'.
  Hypothesis Hl : length masses = length ten.
  Lemma local_rel : calcObjMorphLocal eig fuel c r200 xyz ten masses center tcenter = calcObjMorphLocal eig fuel c r200 xyz' ten' masses center' tcenter'.
  Proof.
    unfold calcObjMorphLocal. rewrite Hs. destruct Req_EM_T; auto. destruct Req_EM_T; auto. f_equal. apply map_ext. intros nb.
    cbv zeta. rewrite (katz_rel eig xyz ten xyz' ten' masses center tcenter center' tcenter') by auto. reflexivity.
  Qed.
  Lemma global_rel : calcObjMorphGlobal eig fuel c r200 xyz ten masses center tcenter = calcObjMorphGlobal eig fuel c r200 xyz' ten' masses center' tcenter'.
  Proof.
    unfold calcObjMorphGlobal. rewrite Hs. destruct Req_EM_T; auto.
    rewrite (katz_rel eig xyz ten xyz' ten' masses center tcenter center' tcenter') by auto. reflexivity.
  Qed.
End Obj.

Lemma shape_shift eig fuel c L vt o r200 cen t choose : unsplit L o -> o <> [] -> valid_choice choose (length o) ->
  obj_shape eig fuel c L vt (shift t o) r200 (vadd cen t) = obj_shape eig fuel c L vt o r200 cen.
Proof.
  intros Hu Hne Hv. destruct (unsplit_both L choose o Hu Hne Hv) as (_ & A).
  assert (A' : cy_respectPBCNoRef (map pos (shift t o)) L = map pos (shift t o)).
  { apply (unsplit_both L choose); [apply unsplit_shift; auto|destruct o; [congruence|discriminate]|]. unfold shift. now rewrite map_length. }
  assert (EM : map snd (shift t o) = map snd o) by (unfold shift; rewrite map_map; reflexivity).
  assert (EV : map vel (shift t o) = map vel o) by (unfold shift; rewrite map_map; reflexivity).
  assert (EZ : map (fun _ => v0) (shift t o) = map (fun _ => v0) o) by (unfold shift; rewrite map_map; reflexivity).
  unfold obj_shape. rewrite A, A', EM, EV, EZ, pos_shift.
  destruct vt; try destruct (com_raises _); try reflexivity; symmetry; (apply local_rel || apply global_rel);
    try (symmetry; apply spread_shift); try apply rel_shift; try reflexivity; rewrite !map_length; reflexivity.
Qed.

Lemma center_shift mfuel kind choose L o t : unsplit L o -> o <> [] -> valid_choice choose (length o) -> (forall q, In q o -> 0 < snd q) ->
  shape_center mfuel kind choose L (shift t o) = option_map (fun v => vadd v t) (shape_center mfuel kind choose L o).
Proof.
  intros Hu Hne Hv Hp. destruct (unsplit_both L choose o Hu Hne Hv) as (A & _).
  assert (A' : respectPBCNoRef choose (map pos (shift t o)) L = map pos (shift t o)).
  { apply (unsplit_both L choose); [apply unsplit_shift; auto|destruct o; [congruence|discriminate]|]. unfold shift. now rewrite map_length. }
  assert (EP : forall o, map fst (map pm o) = map pos o) by (intros; rewrite map_map; reflexivity).
  assert (CF : forall l : list ptc, combine (map fst l) (map snd l) = l).
  { induction l as [|[x m] l IH]; [reflexivity|]. cbn. f_equal. exact IH. }
  assert (Hp' : forall q, In q (map pm o) -> 0 < snd q).
  { intros q Hq. apply in_map_iff in Hq. destruct Hq as (q' & <- & Hq). apply Hp in Hq. exact Hq. }
  assert (Hne' : map pm o <> []) by (destruct o; [congruence|discriminate]).
  unfold shape_center, center_of. rewrite !EP, A, A'.
  replace (combine (map pos (shift t o)) (map snd (map pm (shift t o)))) with (shiftp t (map pm o)) by (rewrite <- pm_shift, <- EP, CF; reflexivity).
  replace (combine (map pos o) (map snd (map pm o))) with (map pm o) by (rewrite <- EP, CF; reflexivity).
  destruct kind.
  - rewrite pos_shift, extent_shift. apply mode_shift; auto.
  - cbn [option_map]. f_equal. refine (proj1 (C25_equivariant choose (map pm o) t 1 _ _)); [|lra]. apply Rgt_not_eq, total_pos; auto.
Qed.

(** ** C103 *)
(** Each object moved by its own vector. *)
Definition shift_all (ts : list vec) (objs : list (list vptc)) : list (list vptc) := map (fun x => shift (fst x) (snd x)) (combine ts objs).

Theorem C103_partial : forall mfuel kind choose eig fuel c L vt objs ts r200 r r' cs cs',
  length ts = length objs ->
  (forall p o, nth_error objs p = Some o ->
     unsplit L o /\ o <> [] /\ valid_choice (choose p) (length o) /\ forall q, In q o -> 0 < snd q) ->
  morph_call mfuel kind choose eig fuel c L vt objs r200 (r, cs) ->
  morph_call mfuel kind choose eig fuel c L vt (shift_all ts objs) r200 (r', cs') ->
  r = r'.
Proof.
  intros mfuel kind choose eig fuel c L vt objs ts r200 r r' cs cs' Hlen Ho H H'.
  inversion H as [cen r0 HF HM E0]; subst. inversion H' as [cen' r0' HF' HM' E0']; subst.
  apply driver_result in HM. apply driver_result in HM'. cbv zeta in HM, HM'.
  assert (EL : length (shift_all ts objs) = length objs).
  { unfold shift_all. rewrite map_length, combine_length. lia. }
  assert (NT : forall p o, nth_error objs p = Some o -> exists t, nth_error (shift_all ts objs) p = Some (shift t o)).
  { unfold shift_all. clear - Hlen. revert ts Hlen. induction objs as [|a objs IH]; intros [|t ts] Hlen p o Hp; try (destruct p; discriminate); try discriminate.
    destruct p as [|p]; cbn in *; [injection Hp as ->; exists t; reflexivity|]. apply IH; auto. }
  assert (LC : length cen = length objs).
  { apply Forall2_length in HF. rewrite combine_length, seq_length in HF. lia. }
  assert (LC' : length cen' = length objs).
  { apply Forall2_length in HF'. rewrite combine_length, seq_length, EL in HF'. lia. }
  assert (G : forall p, In p (seq 0 (length objs)) ->
     obj_shape eig fuel c L vt (nth p (shift_all ts objs) []) (nth p r200 0) (nth p cen' v0) =
     obj_shape eig fuel c L vt (nth p objs []) (nth p r200 0) (nth p cen v0) /\
     total snd (nth p (shift_all ts objs) []) = total snd (nth p objs [])).
  { intros p Hp. apply in_seq in Hp.
    destruct (nth_error objs p) as [o|] eqn:E; [|apply nth_error_None in E; lia].
    destruct (NT p o E) as (t & E'). destruct (Ho p o E) as (Hu & Hne & Hv & Hm).
    rewrite (nth_error_nth objs p [] E), (nth_error_nth _ p [] E').
    assert (CEN : forall (obs : list (list vptc)) ce ob, Forall2 (fun po cen => shape_center mfuel kind (choose (fst po)) L (snd po) = Some cen) (combine (seq 0 (length obs)) obs) ce ->
        nth_error obs p = Some ob -> shape_center mfuel kind (choose p) L ob = Some (nth p ce v0)).
    { intros obs ce ob F N. assert (Lc : length ce = length obs) by (apply Forall2_length in F; rewrite combine_length, seq_length in F; lia).
      assert (Lp : (p < length obs)%nat) by (apply nth_error_Some; congruence).
      destruct (nth_error ce p) as [x|] eqn:Ex; [|apply nth_error_None in Ex; lia].
      destruct (Forall2_nth_r _ _ _ F p x Ex) as ([p1 o1] & N1 & S1). cbn [fst snd] in S1.
      assert (N2 : nth_error (combine (seq 0 (length obs)) obs) p = Some (p, ob)).
      { rewrite (nth_error_nth' _ (0%nat, @nil vptc)) by (rewrite combine_length, seq_length; lia).
        rewrite combine_nth by apply seq_length. rewrite seq_nth by auto. rewrite (nth_error_nth obs p [] N). reflexivity. }
      rewrite N2 in N1. injection N1 as <- <-. rewrite (nth_error_nth ce p v0 Ex). exact S1. }
    pose proof (CEN _ _ _ HF E) as C1. pose proof (CEN _ _ _ HF' E') as C2.
    rewrite center_shift in C2 by auto. rewrite C1 in C2. cbn [option_map] in C2. injection C2 as C2. rewrite <- C2. split.
    - apply (shape_shift _ _ _ _ _ _ _ _ _ (choose p)); auto.
    - unfold shift. rewrite total_map. reflexivity. }
  rewrite EL in HM'. rewrite HM, HM'. clear HM HM' H H'.
  assert (EX : forall (f g : nat -> bool) l, (forall p, In p l -> f p = g p) -> existsb f l = existsb g l).
  { intros f g l Hl. induction l as [|a l IH]; cbn; [reflexivity|]. rewrite Hl by (left; auto). rewrite IH by (intros; apply Hl; right; auto). reflexivity. }
  rewrite (EX _ (fun p => raised (VMs (obj_shape eig fuel c L vt (nth p (shift_all ts objs) []) (nth p r200 0) (nth p cen' v0))))).
  2:{ intros p Hp. rewrite (proj1 (G p Hp)). reflexivity. }
  match goal with |- context [existsb ?f ?l] => destruct (existsb f l) end; [reflexivity|]. f_equal. f_equal; apply map_ext_in; intros p Hp; destruct (G p Hp) as (G1 & G2); congruence.
Qed.
Print Assumptions C103_partial.

(** The object moved by t and put back into the box [0, L). *)
Definition moved_in (L : R) (t : vec) (o : list vptc) : list vptc :=
  map (fun q => (mkV (wrap1 L (vx (pos q) + vx t)) (wrap1 L (vy (pos q) + vy t)) (wrap1 L (vz (pos q) + vz t)), vel q, snd q)) o.

(** Six particles about the middle of a box of side 100, and the same moved by 51 along x. *)
Definition halo6 : list vptc := shift (mkV 50 50 50) (object cloud6 still6 ones6).
Definition split6 : list vec := [mkV 2 50 50; mkV 96 50 50; mkV 99 52 50; mkV 99 48 50; mkV 99 50 51; mkV 99 50 49].
Lemma halo6_moved : moved_in 100 (mkV (-51) 0 0) halo6 = object split6 still6 ones6.
Proof.
  unfold moved_in, halo6, shift, object, split6, cloud6, still6, ones6, pos, vel, wrap1, vadd. cbn [combine map fst snd vx vy vz].
  decide_lt. repeat match goal with |- context [Rle_dec ?a ?b] => destruct (Rle_dec a b); try lra end. repeat f_equal; ring.
Qed.
Lemma choice6 {X} (l : list X) : length l = 6%nat -> valid_choice (seq 0 6) (length l).
Proof. intros ->. split; [apply seq_NoDup|]. split; [intros i Hi; apply in_seq in Hi; lia|reflexivity]. Qed.
Lemma unsplit6 : unsplit 100 (object cloud6 still6 ones6).
Proof.
  right. split; [lra|]. intros q q' ax Hq Hq' Hax. apply Rabs_le.
  assert (B : forall q, In q (map pm (object cloud6 still6 ones6)) -> -3 <= ax (fst q) <= 3).
  { intros x Hx. cbn in Hx. intuition subst; axis Hax; cbn; lra. }
  pose proof (B q Hq). pose proof (B q' Hq'). lra.
Qed.
Lemma ones6_pos xyz q : In q (object xyz still6 ones6) -> 0 < snd q.
Proof. intros H. destruct q as [a m]. apply in_combine_r in H. cbn in *. intuition lra. Qed.
Lemma com6 l : length l = 6%nat -> forall ax, In ax axes ->
  ax (calcCoM (seq 0 6) (combine l ones6)) = total ax l / 6.
Proof.
  intros Hl ax Hax. destruct l as [|a [|b [|c [|d [|e [|f [|? ?]]]]]]]; try discriminate.
  rewrite com_mean by (auto; unfold mass; cbn; lra). unfold mean, mass. cbn [combine ones6 total fst snd]. unfold Rdiv. f_equal; [ring|f_equal; ring].
Qed.

Lemma halo6_center mfuel : shape_center mfuel CCom (seq 0 6) 100 halo6 = Some (mkV 50 50 50).
Proof.
  unfold halo6. rewrite center_shift; [| apply unsplit6 | discriminate | apply choice6; reflexivity | apply ones6_pos].
  unfold shape_center, center_of. destruct (unsplit_both 100 (seq 0 6) _ unsplit6 ltac:(discriminate) ltac:(apply choice6; reflexivity)) as (A & _).
  replace (map fst (map pm (object cloud6 still6 ones6))) with (map pos (object cloud6 still6 ones6)) by reflexivity. rewrite A.
  cbn [option_map]. f_equal. change (combine (map pos (object cloud6 still6 ones6)) (map snd (map pm (object cloud6 still6 ones6)))) with (combine cloud6 ones6).
  apply vec_ext. intros ax Hax. rewrite ax_add, com6 by auto. axis Hax; cbn; lra.
Qed.
Lemma split6_center mfuel : shape_center mfuel CCom (seq 0 6) 100 (object split6 still6 ones6) = Some (mkV 99 50 50).
Proof.
  unfold shape_center, center_of. change (map fst (map pm (object split6 still6 ones6))) with split6. f_equal.
  assert (RF : ref_of (seq 0 6) split6 = mkV (494 / 6) 50 50).
  { unfold ref_of, vscale, np_vsum, vadd, v0, split6. simpl. f_equal; field. }
  assert (E : respectPBCNoRef (seq 0 6) split6 100 = [mkV 102 50 50; mkV 96 50 50; mkV 99 52 50; mkV 99 48 50; mkV 99 50 51; mkV 99 50 49]).
  { unfold respectPBCNoRef. destruct Req_EM_T; [lra|]. rewrite RF. unfold split6. cbn [map vx vy vz]. unfold unwrap1.
    decide_lt. repeat f_equal; ring. }
  rewrite E. change (map snd (map pm (object split6 still6 ones6))) with ones6.
  apply vec_ext. intros ax Hax. rewrite com6 by auto. axis Hax; cbn; lra.
Qed.
Lemma halo6_shape eig : obj_shape eig 100 cfg1 100 Global halo6 10 (mkV 50 50 50) =
  collect [option_map fst (katz eig cloud6 cloud6 ones6 v0 v0 10 None (1/100) 100 1 false 100 (mkM (Fin 10) (Fin 0) (Fin 0) x0 x0 x0))].
Proof.
  rewrite <- (global6 eig still6 eq_refl). unfold halo6.
  replace (mkV 50 50 50) with (vadd v0 (mkV 50 50 50)) at 2 by (unfold vadd, v0; cbn; f_equal; ring).
  rewrite (shape_shift _ _ _ _ _ _ _ _ _ (seq 0 6)); [| apply unsplit6 | discriminate | apply choice6; reflexivity].
  unfold obj_shape. rewrite pbc_off. destruct (unsplit_both 100 (seq 0 6) _ unsplit6 ltac:(discriminate) ltac:(apply choice6; reflexivity)) as (_ & ->). reflexivity.
Qed.
Lemma split6_shape eig : obj_shape eig 100 cfg1 100 Global (object split6 still6 ones6) 10 (mkV 99 50 50) = Some (Ret [zeros]).
Proof.
  unfold obj_shape. change (map pos (object split6 still6 ones6)) with split6. change (map snd (object split6 still6 ones6)) with ones6.
  assert (E : cy_respectPBCNoRef split6 100 = [mkV 2 50 50; mkV 4 50 50; mkV 1 52 50; mkV 1 48 50; mkV 1 50 51; mkV 1 50 49]).
  { assert (N : forall r x, Rabs (r - x) <= 50 -> cy_reflect 100 r x = x) by (intros; unfold cy_reflect; destruct Rlt_dec; lra).
    assert (F : forall r x, 50 < Rabs (r - x) -> cy_reflect 100 r x = 100 - x) by (intros; unfold cy_reflect; destruct Rlt_dec; lra).
    assert (Z : forall r y z, Rabs (r - y) <= 50 -> (if Rlt_dec (100 / 2) (Rabs (r - y)) then 100 - z else z) = z) by (intros; destruct Rlt_dec; lra).
    unfold cy_respectPBCNoRef. destruct Req_EM_T; [lra|]. unfold split6, cy_row. cbn [map vx vy vz].
    rewrite !(N 50), (N 2 2) by (apply Rabs_le; lra).
    rewrite (F 2 96), (F 2 99) by (rewrite Rabs_left; lra).
    rewrite !Z by (apply Rabs_le; lra). repeat f_equal; ring. }
  rewrite E. unfold calcObjMorphGlobal. destruct Req_EM_T; [reflexivity|]. set (l := [mkV 2 50 50; _; _; _; _; _]).
  cbn [c_safe cfg1 c_tol c_wall c_min c_reduced]. rewrite Rplus_0_r. unfold katz, katz_init.
  rewrite (compact_ext _ (fun _ => false)).
  - cbn [compact length l seq fold_left compact_step]. unfold compact_step. cbn. destruct (Rlt_dec (1 / 100) 1); [reflexivity|lra].
  - intros i Hi. cbn in Hi. unfold in_sphere, dist2. destruct Rlt_dec as [Z|]; [exfalso|reflexivity].
    destruct i as [|[|[|[|[|[|i]]]]]]; cbn in Z; try lra; lia.
Qed.

(* The halo in the middle of the box has the right shape; moved across the boundary it has none,
   whatever the eigensolver and the schedule do. *)
Theorem C103_refuted : forall eig, eig_contract eig ->
  let o := halo6 in let o' := moved_in 100 (mkV (-51) 0 0) o in
  (forall q, In q o -> in_box 100 (pos q)) /\
  (exists r, morph_call 1 CCom (fun _ => seq 0 6) eig 100 cfg1 100 Global [o] [10] r) /\
  (exists r, morph_call 1 CCom (fun _ => seq 0 6) eig 100 cfg1 100 Global [o'] [10] r) /\
  forall r cs r' cs',
    morph_call 1 CCom (fun _ => seq 0 6) eig 100 cfg1 100 Global [o] [10] (r, cs) ->
    morph_call 1 CCom (fun _ => seq 0 6) eig 100 cfg1 100 Global [o'] [10] (r', cs') ->
    exists x x' m, r = Ret ([Some [x]], m) /\ r' = Ret ([Some [x']], m) /\
      is_conv x = true /\ mq x = Fin (2/3) /\ ms x = Fin (1/3) /\ is_conv x' = false.
Proof.
  intros eig He. cbv zeta. rewrite halo6_moved.
  assert (Ex : forall o cen, shape_center 1 CCom (seq 0 6) 100 o = Some cen -> exists r, morph_call 1 CCom (fun _ => seq 0 6) eig 100 cfg1 100 Global [o] [10] r).
  { intros o cen Hc. destruct (runs_exist eig 100 cfg1 100 Global [o] [10] [cen]) as (r & Hr). exists (r, recentreObject [cen] 100).
    constructor; [|exact Hr]. repeat constructor. exact Hc. }
  split.
  { intros q Hq ax Hax. unfold halo6, shift in Hq. apply in_map_iff in Hq. destruct Hq as (q0 & <- & Hq). cbn in Hq.
    intuition subst; axis Hax; cbn; lra. }
  split; [apply (Ex _ _ (halo6_center 1))|]. split; [apply (Ex _ _ (split6_center 1))|].
  assert (CE : forall o cen r cs, shape_center 1 CCom (seq 0 6) 100 o = Some cen -> morph_call 1 CCom (fun _ => seq 0 6) eig 100 cfg1 100 Global [o] [10] (r, cs) ->
     calcMorph eig 100 cfg1 100 Global [o] [10] [cen] r).
  { intros o cen r cs Hc H. inversion H as [ce r0 HF HM E0]; subst. cbn [length seq combine] in HF. inversion HF as [|? y ? l' A B]; subst. inversion B; subst.
    assert (A' : shape_center 1 CCom (seq 0 6) 100 o = Some y) by exact A. rewrite Hc in A'. injection A' as <-. exact HM. }
  intros r cs r' cs' H H'. apply (CE _ _ _ _ (halo6_center 1)) in H. apply (CE _ _ _ _ (split6_center 1)) in H'.
  apply driver_result in H. apply driver_result in H'. cbv zeta in H, H'. cbn [length seq map nth existsb] in H, H'.
  rewrite halo6_shape in H. rewrite split6_shape in H'.
  destruct (run6 eig He (mkM (Fin 10) (Fin 0) (Fin 0) x0 x0 x0) 98) as (mi & tr & K & Q & S & _).
  rewrite K in H. cbn [option_map fst map collect raised orb entry] in H, H'. subst r r'.
  exists (nan_morph mi), (nan_morph zeros), [6]. unfold nan_morph, is_conv. cbn [mq ms]. rewrite Q, S, !nanz_fin. unfold shown.
  split; [|split; [|split; [|split; [|split]]]].
  - f_equal. f_equal. f_equal. unfold halo6, shift. rewrite total_map. cbn. ring.
  - f_equal. f_equal. f_equal. cbn. ring.
  - destruct Req_EM_T; [lra|reflexivity].
  - destruct Req_EM_T; [lra|reflexivity].
  - destruct Req_EM_T; [lra|reflexivity].
  - unfold zeros. cbn [mq]. rewrite nanz_fin. unfold shown. destruct Req_EM_T; [reflexivity|lra].
Qed.
Print Assumptions C103_refuted.
Example C103_refuted_example : eig_contract exact_eig.
Proof. exact exact_eig_contract. Qed.

(* The hypotheses of C103_partial are met by the halo and its copy moved by (20, -30, 10). *)
Example C103_example : exists r r' cs cs',
  unsplit 100 halo6 /\ valid_choice (seq 0 6) (length halo6) /\ (forall q, In q halo6 -> 0 < snd q) /\
  morph_call 1 CCom (fun _ => seq 0 6) exact_eig 100 cfg1 100 Global [halo6] [10] (r, cs) /\
  morph_call 1 CCom (fun _ => seq 0 6) exact_eig 100 cfg1 100 Global (shift_all [mkV 20 (-30) 10] [halo6]) [10] (r', cs').
Proof.
  assert (U : unsplit 100 halo6) by (apply unsplit_shift, unsplit6).
  assert (V : valid_choice (seq 0 6) (length halo6)) by (apply choice6; reflexivity).
  assert (P : forall q, In q halo6 -> 0 < snd q).
  { intros q Hq. unfold halo6, shift in Hq. apply in_map_iff in Hq. destruct Hq as (q0 & <- & Hq). exact (ones6_pos cloud6 q0 Hq). }
  assert (Ex : forall o cen, shape_center 1 CCom (seq 0 6) 100 o = Some cen -> exists r, morph_call 1 CCom (fun _ => seq 0 6) exact_eig 100 cfg1 100 Global [o] [10] r).
  { intros o cen Hc. destruct (runs_exist exact_eig 100 cfg1 100 Global [o] [10] [cen]) as (r & Hr). exists (r, recentreObject [cen] 100).
    constructor; [|exact Hr]. repeat constructor. exact Hc. }
  destruct (Ex _ _ (halo6_center 1)) as ([r cs] & H).
  destruct (Ex (shift (mkV 20 (-30) 10) halo6) (vadd (mkV 50 50 50) (mkV 20 (-30) 10))) as ([r' cs'] & H').
  { rewrite center_shift; [rewrite halo6_center; reflexivity|auto|discriminate|auto|auto]. }
  exists r, r', cs, cs'. auto.
Qed.
