(** C36: the projected ellipticity. *)
From Coq Require Import List Reals Lra Lia.
From Verif Require Import ListUtil XR GeoModel GeoSpec GeoProofs ShapeModel ShapeSpec ShapeProofs ShapeKatz ShapeFacts EpsModel.
Import ListNotations.
Open Scope R_scope.

Lemma np_sum_total l : np_sum l = total (fun x => x) l.
Proof.
  unfold np_sum. assert (G : forall a, fold_left Rplus l a = a + total (fun x => x) l).
  { induction l as [|x l IH]; intros a; cbn; [ring|]. rewrite IH. ring. }
  rewrite G. ring.
Qed.

Lemma tensor2_total ps f g : tensor2 ps f g = total (fun p => snd p * (f (fst p) * g (fst p))) ps / total snd ps.
Proof. unfold tensor2. rewrite !np_sum_total, !total_map. reflexivity. Qed.

Lemma Some_inj {X} (a b : X) : Some a = Some b -> a = b.
Proof. congruence. Qed.

(** Cauchy-Schwarz for sums with non-negative weights. *)
Lemma cauchy {X} (w f g : X -> R) l : (forall x, In x l -> 0 <= w x) ->
  total (fun x => w x * (f x * g x)) l * total (fun x => w x * (f x * g x)) l <=
  total (fun x => w x * (f x * f x)) l * total (fun x => w x * (g x * g x)) l.
Proof.
  intros Hw.
  set (A := total (fun x => w x * (f x * f x)) l). set (B := total (fun x => w x * (g x * g x)) l).
  set (C := total (fun x => w x * (f x * g x)) l).
  assert (Q : forall s t, 0 <= s * s * A + 2 * s * t * C + t * t * B).
  { intros s t. replace (s * s * A + 2 * s * t * C + t * t * B) with (total (fun x => w x * ((s * f x + t * g x) * (s * f x + t * g x))) l).
    - apply total_nonneg. intros x Hx. apply Rmult_le_pos; [auto|apply Rle_0_sqr].
    - unfold A, B, C. rewrite <- !total_scale, <- !total_plus. apply total_ext. intros. ring. }
  assert (HA : 0 <= A) by (specialize (Q 1 0); lra). assert (HB : 0 <= B) by (specialize (Q 0 1); lra).
  destruct (Req_EM_T A 0) as [E|E].
  - assert (C = 0).
    { destruct (Req_EM_T C 0) as [|n]; auto. exfalso. pose proof (Q (- ((B + 1) / (2 * C))) 1) as H1. rewrite E in H1.
      replace (2 * - ((B + 1) / (2 * C)) * 1 * C) with (- (B + 1)) in H1 by (field; auto). lra. }
    rewrite H, E. lra.
  - pose proof (Q C (- A)) as H. assert (0 <= A * (A * B - C * C)) by nra.
    assert (0 <= A * B - C * C); [|lra].
    apply (Rmult_le_reg_l A); [lra|]. lra.
Qed.

(** The modulus of the ellipticity is at most 1 whenever the projected size is not zero. *)
Theorem C36_bounded : forall fuel kind choose L angle objs p o e1 e2,
  nth_error objs p = Some o ->
  (forall q, In q o -> 0 <= snd q) -> 0 < mass o ->
  nth_error (getEpsilon fuel kind choose L angle objs) p = Some (Some (Fin e1, Fin e2)) ->
  e1 * e1 + e2 * e2 <= 1.
Proof.
  intros fuel kind choose L angle objs p o e1 e2 Ho Hm HM H. unfold getEpsilon in H.
  rewrite nth_error_map in H. pose proof (nth_error_combine_seq objs p o Ho) as HE. unfold ptc in *. rewrite HE in H. cbn [option_map fst snd] in H.
  apply Some_inj in H. unfold obj_epsilon in H.
  destruct center_of as [center|]; [|discriminate]. apply Some_inj in H.
  set (ps := combine _ _) in *.
  assert (Hin : forall q, In q ps -> 0 <= snd q).
  { intros [v m] Hq. apply in_combine_r in Hq. apply in_map_iff in Hq. destruct Hq as (q & <- & Hq). exact (Hm q Hq). }
  unfold epsilon in H. cbv zeta in H. rewrite !tensor2_total in H.
  set (M := total snd ps) in *. set (a := total (fun p => snd p * (vx (fst p) * vx (fst p))) ps) in *.
  set (b := total (fun p => snd p * (vy (fst p) * vy (fst p))) ps) in *.
  set (c := total (fun p => snd p * (vx (fst p) * vy (fst p))) ps) in *.
  assert (HC : c * c <= a * b) by (apply (cauchy snd (fun p => vx (fst p)) (fun p => vy (fst p))); auto).
  set (qa := a / M) in *. set (qb := b / M) in *. set (qc := c / M) in *.
  assert (HQ : qc * qc <= qa * qb).
  { unfold qa, qb, qc, Rdiv. replace (c * / M * (c * / M)) with (c * c * (/ M * / M)) by ring.
    replace (a * / M * (b * / M)) with (a * b * (/ M * / M)) by ring. apply Rmult_le_compat_r; [apply Rle_0_sqr|auto]. }
  destruct (Req_EM_T (qa + qb) 0) as [Z|Z].
  - rewrite Z in H. apply (f_equal fst) in H. cbn [xdiv fst] in H. destruct (Req_EM_T 0 0); [|congruence].
    destruct (sgn (qa - qb)); discriminate.
  - rewrite !xdiv_fin in H by auto. injection H as <- <-.
    replace ((qa - qb) / (qa + qb) * ((qa - qb) / (qa + qb)) + 2 * qc / (qa + qb) * (2 * qc / (qa + qb)))
      with (((qa - qb) * (qa - qb) + 4 * (qc * qc)) / ((qa + qb) * (qa + qb))) by (field; auto).
    assert (S : 0 < (qa + qb) * (qa + qb)) by (apply Rlt_0_sqr in Z; exact Z).
    apply (Rmult_le_reg_r ((qa + qb) * (qa + qb))); [auto|].
    unfold Rdiv. rewrite Rmult_assoc, Rinv_l, Rmult_1_r by lra. lra.
Qed.
Print Assumptions C36_bounded.

Lemma rot_tensor ps phi (rot := fun q : ptc => (rotz phi (fst q), snd q)) :
  let c := cos phi in let s := sin phi in
  tensor2 (map rot ps) vx vx = c * c * tensor2 ps vx vx - 2 * c * s * tensor2 ps vx vy + s * s * tensor2 ps vy vy /\
  tensor2 (map rot ps) vy vy = s * s * tensor2 ps vx vx + 2 * c * s * tensor2 ps vx vy + c * c * tensor2 ps vy vy /\
  tensor2 (map rot ps) vx vy = c * s * tensor2 ps vx vx + (c * c - s * s) * tensor2 ps vx vy - c * s * tensor2 ps vy vy.
Proof.
  cbv zeta. rewrite !tensor2_total, !total_map. unfold rot, rotz. cbn [fst snd vx vy vz].
  unfold Rdiv. set (iM := / total snd ps).
  replace (total (fun p => snd p) ps) with (total snd ps) by reflexivity. fold iM.
  repeat split.
  - transitivity (iM * total (fun x => cos phi * cos phi * (snd x * (vx (fst x) * vx (fst x))) +
       (- (2 * cos phi * sin phi) * (snd x * (vx (fst x) * vy (fst x))) + sin phi * sin phi * (snd x * (vy (fst x) * vy (fst x))))) ps).
    + rewrite (Rmult_comm iM). f_equal. apply total_ext. intros. ring.
    + rewrite !total_plus, !total_scale. ring.
  - transitivity (iM * total (fun x => sin phi * sin phi * (snd x * (vx (fst x) * vx (fst x))) +
       ((2 * cos phi * sin phi) * (snd x * (vx (fst x) * vy (fst x))) + cos phi * cos phi * (snd x * (vy (fst x) * vy (fst x))))) ps).
    + rewrite (Rmult_comm iM). f_equal. apply total_ext. intros. ring.
    + rewrite !total_plus, !total_scale. ring.
  - transitivity (iM * total (fun x => cos phi * sin phi * (snd x * (vx (fst x) * vx (fst x))) +
       ((cos phi * cos phi - sin phi * sin phi) * (snd x * (vx (fst x) * vy (fst x))) + - (cos phi * sin phi) * (snd x * (vy (fst x) * vy (fst x))))) ps).
    + rewrite (Rmult_comm iM). f_equal. apply total_ext. intros. ring.
    + rewrite !total_plus, !total_scale. ring.
Qed.

Lemma rotz_add a b v : rotz (a + b) v = rotz a (rotz b v).
Proof. unfold rotz. cbn. rewrite cos_plus, sin_plus. f_equal; ring. Qed.

Lemma combine_map_l {A B C} (f : A -> B) (l : list A) (m : list C) :
  combine (map f l) m = map (fun x => (f (fst x), snd x)) (combine l m).
Proof. revert m. induction l; intros [|y m]; cbn; auto. f_equal. auto. Qed.

(** Rotating by a further angle multiplies the ellipticity by exp(2 i phi). *)
Theorem C36_spin2 : forall fuel kind choose L angle phi objs p e1 e2,
  nth_error (getEpsilon fuel kind choose L angle objs) p = Some (Some (Fin e1, Fin e2)) ->
  nth_error (getEpsilon fuel kind choose L (phi + angle) objs) p =
    Some (Some (Fin (cos (2 * phi) * e1 - sin (2 * phi) * e2), Fin (sin (2 * phi) * e1 + cos (2 * phi) * e2))).
Proof.
  intros fuel kind choose L angle phi objs p e1 e2 H. unfold getEpsilon in *.
  rewrite nth_error_map in *. destruct nth_error as [[n o]|]; [|discriminate]. cbn [option_map fst snd] in *.
  f_equal. apply Some_inj in H. unfold obj_epsilon in *.
  destruct center_of as [center|]; [|discriminate]. apply Some_inj in H. f_equal.
  set (xyz := respectPBCNoRef _ _ _) in *.
  set (ps := combine (map (fun p => rotz angle (vsub p center)) xyz) (map snd o)) in *.
  assert (E : combine (map (fun p => rotz (phi + angle) (vsub p center)) xyz) (map snd o) =
              map (fun q : ptc => (rotz phi (fst q), snd q)) ps).
  { unfold ps. rewrite !combine_map_l, map_map. apply map_ext. intros [v m]. cbn [fst snd]. rewrite rotz_add. reflexivity. }
  rewrite E. destruct (rot_tensor ps phi) as (A & B & C). unfold epsilon in *. cbv zeta in *. rewrite A, B, C.
  set (qa := tensor2 ps vx vx) in *. set (qb := tensor2 ps vy vy) in *. set (qc := tensor2 ps vx vy) in *.
  assert (U := sin2_cos2 phi). unfold Rsqr in U.
  set (c := cos phi) in *. set (s := sin phi) in *.
  replace (c * c * qa - 2 * c * s * qc + s * s * qb + (s * s * qa + 2 * c * s * qc + c * c * qb)) with (qa + qb)
    by (transitivity ((s * s + c * c) * (qa + qb)); [rewrite U; ring|ring]).
  destruct (Req_EM_T (qa + qb) 0) as [Z|Z].
  - exfalso. rewrite Z in H. apply (f_equal fst) in H. cbn [xdiv fst] in H. destruct (Req_EM_T 0 0); [|congruence].
    destruct (sgn (qa - qb)); discriminate.
  - rewrite !xdiv_fin in * by auto. injection H as <- <-. rewrite cos_2a, sin_2a. fold c s. f_equal; f_equal; field; auto.
Qed.
Print Assumptions C36_spin2.

(** With centres of mass there is always a result; for positive masses it is a number unless
    all particles of the object coincide in projection. *)
Theorem C36_defined : forall fuel kind choose L angle objs p o e a b,
  nth_error objs p = Some o -> (forall q, In q o -> 0 < snd q) ->
  nth_error (getEpsilon fuel kind choose L angle objs) p = Some (Some e) ->
  In a (respectPBCNoRef (choose p) (map fst o) L) -> In b (respectPBCNoRef (choose p) (map fst o) L) ->
  (vx a <> vx b \/ vy a <> vy b) -> exists e1 e2, e = (Fin e1, Fin e2).
Proof.
  intros fuel kind choose L angle objs p o e a b Ho Hm H Ha Hb Hab. unfold getEpsilon in H.
  rewrite nth_error_map in H. pose proof (nth_error_combine_seq objs p o Ho) as HE. unfold ptc in *. rewrite HE in H.
  cbn [option_map fst snd] in H. apply Some_inj in H. unfold obj_epsilon in H.
  destruct center_of as [center|]; [|discriminate]. apply Some_inj in H. subst e.
  set (xyz := respectPBCNoRef _ _ _) in *.
  assert (Hlen : length xyz = length o).
  { unfold xyz, respectPBCNoRef. destruct Req_EM_T; rewrite !map_length; reflexivity. }
  set (ps := combine _ _).
  assert (Hin : forall q, In q ps -> 0 < snd q).
  { intros [v m] Hq. apply in_combine_r in Hq. apply in_map_iff in Hq. destruct Hq as (q & <- & Hq). exact (Hm q Hq). }
  assert (HM : 0 < total snd ps).
  { apply total_pos; auto. intros E. apply (f_equal (@length _)) in E. unfold ps in E.
    rewrite combine_length, !map_length, Hlen, Nat.min_id in E. cbn in E.
    destruct xyz; [destruct Ha|]. cbn in Hlen. unfold ptc in *. lia. }
  unfold epsilon. cbv zeta.
  assert (Z : tensor2 ps vx vx + tensor2 ps vy vy <> 0).
  { rewrite !tensor2_total. intros Z.
    assert (T : total (fun p => snd p * (vx (fst p) * vx (fst p)) + snd p * (vy (fst p) * vy (fst p))) ps = 0).
    { rewrite total_plus. apply (Rmult_eq_compat_r (total snd ps)) in Z. unfold Rdiv in Z.
      rewrite Rmult_plus_distr_r, !Rmult_assoc, Rinv_l in Z by lra. lra. }
    assert (A : forall q, In q ps -> vx (fst q) = 0 /\ vy (fst q) = 0).
    { intros q Hq. assert (F : snd q * (vx (fst q) * vx (fst q)) + snd q * (vy (fst q) * vy (fst q)) = 0).
      { apply (total_zero (fun p : vec * R => snd p * (vx (fst p) * vx (fst p)) + snd p * (vy (fst p) * vy (fst p))) ps); auto.
        intros x Hx. pose proof (Hin x Hx). pose proof (Rle_0_sqr (vx (fst x))). pose proof (Rle_0_sqr (vy (fst x))).
        unfold Rsqr in *. nra. }
      pose proof (Hin q Hq). set (m := snd q) in *. set (x := vx (fst q)) in *. set (y := vy (fst q)) in *.
      pose proof (Rle_0_sqr x). pose proof (Rle_0_sqr y). unfold Rsqr in *.
      assert (x * x = 0) by nra. assert (y * y = 0) by nra. split; nra. }
    assert (C : forall v, In v xyz -> vx v = vx center /\ vy v = vy center).
    { intros v Hv. apply In_nth_error in Hv. destruct Hv as (k & Hk).
      assert (Hk' : exists m, nth_error (map snd o) k = Some m).
      { destruct (nth_error (map snd o) k) eqn:E; [eauto|]. apply nth_error_None in E. rewrite map_length in E.
        assert (k < length xyz)%nat by (apply nth_error_Some; congruence). lia. }
      destruct Hk' as (m & Hk').
      assert (Hq : In (rotz angle (vsub v center), m) ps).
      { unfold ps. apply (nth_error_In _ k). apply nth_error_combine2; auto. rewrite nth_error_map, Hk. reflexivity. }
      apply A in Hq. unfold rotz, vsub in Hq. cbn [fst vx vy vz] in Hq. destruct Hq as [X Y].
      assert (U := sin2_cos2 angle). unfold Rsqr in U.
      set (x := vx v - vx center) in *. set (y := vy v - vy center) in *.
      assert (x = 0).
      { transitivity ((sin angle * sin angle + cos angle * cos angle) * x); [rewrite U; ring|].
        transitivity (cos angle * (cos angle * x - sin angle * y) + sin angle * (sin angle * x + cos angle * y)); [ring|].
        rewrite X, Y. ring. }
      assert (y = 0).
      { transitivity ((sin angle * sin angle + cos angle * cos angle) * y); [rewrite U; ring|].
        transitivity (- sin angle * (cos angle * x - sin angle * y) + cos angle * (sin angle * x + cos angle * y)); [ring|].
        rewrite X, Y. ring. }
      unfold x, y in *. split; lra. }
    destruct (C a Ha) as [A1 A2]. destruct (C b Hb) as [B1 B2].
    destruct Hab as [N|N]; apply N; congruence. }
  rewrite !xdiv_fin by auto. eauto.
Qed.
Print Assumptions C36_defined.

Theorem C36_com : forall fuel choose L angle objs p o,
  nth_error objs p = Some o -> exists e, nth_error (getEpsilon fuel CCom choose L angle objs) p = Some (Some e).
Proof.
  intros fuel choose L angle objs p o H. unfold getEpsilon. rewrite nth_error_map.
  pose proof (nth_error_combine_seq objs p o H) as HE. unfold ptc in *. rewrite HE.
  cbn [option_map fst snd]. unfold obj_epsilon. cbn [center_of]. eexists. reflexivity.
Qed.
Print Assumptions C36_com.

(** Two particles on the x axis: ellipticity 1; rotated by a quarter turn: -1. *)
Example C36_example : let objs := [[(mkV 1 0 0, 1); (mkV 3 0 0, 1)]] in
  nth_error (getEpsilon 5 CCom (fun _ => [0;1]%nat) 0 0 objs) 0 = Some (Some (Fin 1, Fin 0)).
Proof.
  cbv zeta. unfold getEpsilon. cbn [length seq combine map nth_error fst snd].
  unfold obj_epsilon, center_of, respectPBCNoRef. destruct Req_EM_T as [_|n]; [|exfalso; apply n; reflexivity].
  cbn [map fst snd combine].
  assert (E : calcCoM [0;1]%nat [(mkV 1 0 0, 1); (mkV 3 0 0, 1)] = mkV 2 0 0).
  { unfold calcCoM, ref_of, np_sum, np_vsum. cbn [map fst snd fold_left length nth INR].
    unfold vsub, vadd, vscale, v0. cbn [vx vy vz]. f_equal; field. }
  rewrite E. clear E. unfold vsub, rotz. cbn [vx vy vz]. rewrite cos_0, sin_0.
  unfold epsilon. cbv zeta.
  set (ps := [_; _]).
  assert (A : tensor2 ps vx vx = 1) by (unfold ps, tensor2, np_sum; cbn [map fst snd fold_left vx]; field).
  assert (B : tensor2 ps vy vy = 0) by (unfold ps, tensor2, np_sum; cbn [map fst snd fold_left vy]; field).
  assert (C : tensor2 ps vx vy = 0) by (unfold ps, tensor2, np_sum; cbn [map fst snd fold_left vx vy]; field).
  rewrite A, B, C, !xdiv_fin by lra. do 2 f_equal. f_equal; f_equal; field.
Qed.
