(** C72: profiles of an object that is moved in the periodic box. *)
From Coq Require Import List Reals ZArith Lra Lia Bool Arith.
From Verif Require Import ListUtil ParModel ParProofs CatMpi XR CatModel GeoModel GeoSpec GeoProofs GeoProps ShapeModel ShapeSpec ShapeProofs
  ShapePar ShapeProps DensModel DensSpec DensProofs DensEll DensProps.
Import ListNotations.
Open Scope R_scope.

(** ** C72: moving an object in the periodic box *)
(** The particles moved by t and put back into the box [0, L). *)
Definition wrap1 (L x : R) : R := if Rlt_dec x 0 then x + L else if Rle_dec L x then x - L else x.
Definition moved (L : R) (t : vec) (o : list ptc) : list ptc :=
  map (fun q => (mkV (wrap1 L (vx (fst q) + vx t)) (wrap1 L (vy (fst q) + vy t)) (wrap1 L (vz (fst q) + vz t)), snd q)) o.

(** The row of a single object about its centre of mass, from [sph_driver]. *)
Lemma single_row choose xyz masses r200 rs L idx edges r : edges_sph rs = DOk edges ->
  calcDensProfsSphDirectBinning 1 CCom choose xyz masses [r200] rs (concat [idx]) (map (@length nat) [idx]) L r ->
  let o := ptcs xyz masses idx in
  r = DOk [map (sph_value (seen L o) (calcCoM (choose 0%nat) (combine (respectPBCNoRef (choose 0%nat) (map fst o) L) (map snd o))) r200 edges) (seq 0 (length rs))].
Proof.
  intros He H o. destruct (sph_driver _ _ _ _ _ _ _ _ _ _ _ H ltac:(discriminate) He) as [[_ (p & Hp & X)]|[-> _]].
  - discriminate X.
  - reflexivity.
Qed.

(* An object that is moved as a whole, without being split by the box, keeps its profile. *)
Definition together (L : R) (o : list ptc) : Prop :=
  forall q q' ax, In q o -> In q' o -> In ax axes -> Rabs (ax (fst q) - ax (fst q')) <= L / 2.
Lemma together_respect choose L o : 0 < L -> o <> [] -> valid_choice choose (length o) -> together L o ->
  respectPBCNoRef choose (map fst o) L = map fst o /\ seen L o = o.
Proof.
  intros HL Hne Hv Ht. split.
  - unfold respectPBCNoRef. destruct Req_EM_T; [lra|]. rewrite <- (map_id (map fst o)) at 2. apply map_ext_in. intros p Hp.
    assert (B : forall ax, In ax axes -> Rabs (ax p - ax (ref_of choose (map fst o))) <= L / 2).
    { intros ax Hax. apply in_map_iff in Hp. destruct Hp as (q & <- & Hq).
      assert (I : in_bbox (ref_of choose (map fst o)) (map fst o)).
      { apply ref_in_bbox; [rewrite map_length; auto|]. destruct o; [congruence|discriminate]. }
      specialize (I ax (ax (fst q) - L / 2) (ax (fst q) + L / 2) Hax). apply Rabs_le.
      assert (ax (fst q) - L / 2 <= ax (ref_of choose (map fst o)) <= ax (fst q) + L / 2); [|lra]. apply I.
      intros x Hx. apply in_map_iff in Hx. destruct Hx as (q' & <- & Hq'). pose proof (Ht q q' ax Hq Hq' Hax) as X.
      unfold Rabs in X. destruct Rcase_abs in X; lra. }
    rewrite !unwrap1_id by (apply B; cbn; auto). destruct p; reflexivity.
  - apply seen_unmoved. unfold unmoved, cy_respectPBCNoRef. destruct Req_EM_T; auto. destruct o as [|q0 o]; [congruence|]. cbn [map].
    assert (R : forall q, In q (q0 :: o) -> cy_row L (fst q0) (fst q) = fst q).
    { intros q Hq. unfold cy_row, cy_reflect.
      pose proof (Ht q0 q vx (or_introl eq_refl) Hq ltac:(cbn; auto)). pose proof (Ht q0 q vy (or_introl eq_refl) Hq ltac:(cbn; auto)).
      destruct (Rlt_dec (L / 2) (Rabs (vx (fst q0) - vx (fst q)))); [lra|].
      destruct (Rlt_dec (L / 2) (Rabs (vy (fst q0) - vy (fst q)))); [lra|].
      destruct (Rlt_dec (L / 2) (Rabs (vy (fst q0) - vy (fst q)))); [lra|]. destruct (fst q); reflexivity. }
    cbv zeta. rewrite (R q0) by (left; auto). f_equal. rewrite <- (map_id (map fst o)) at 2. rewrite !map_map. apply map_ext_in.
    intros q Hq. apply R. right. auto.
Qed.

Ltac decide_lt := repeat match goal with |- context [Rlt_dec ?a ?b] =>
    lazymatch a with context [Rlt_dec] => fail | _ => lazymatch b with context [Rlt_dec] => fail | _ => destruct (Rlt_dec a b); try lra end end end.
(* Three particles of a halo at x = 1, 1, 3 in a box of side 10, and the same halo moved by -2:
   the outermost particle is counted in another bin. *)
Theorem C72_refuted : exists L t xyz masses r200 rs r r',
  let idx := [0; 1; 2]%nat in
  let xyz' := map fst (moved L t (ptcs xyz masses idx)) in
  (forall v, In v xyz -> in_box L v) /\
  calcDensProfsSphDirectBinning 1 CCom (fun _ => idx) xyz masses [r200] rs (concat [idx]) (map (@length nat) [idx]) L r /\
  calcDensProfsSphDirectBinning 1 CCom (fun _ => idx) xyz' masses [r200] rs (concat [idx]) (map (@length nat) [idx]) L r' /\
  exists row row', r = DOk [row] /\ r' = DOk [row'] /\ nth 1 row 0 <> 0 /\ nth 1 row' 0 = 0.
Proof.
  exists 10, (mkV (-2) 0 0), [mkV 1 5 5; mkV 1 5 5; mkV 3 5 5], [1; 1; 1], 1, [1 / 2; 3 / 2].
  set (idx := [0; 1; 2]%nat). cbv zeta.
  assert (E8 : 0 < / 10 ^ 8 < 1).
  { split; [apply Rinv_0_lt_compat, pow_lt; lra|]. rewrite <- Rinv_1. apply Rinv_lt_contravar; [rewrite Rmult_1_l; apply pow_lt; lra|].
    apply Rlt_pow_R1; [lra|lia]. }
  assert (He : edges_sph [1 / 2; 3 / 2] = DOk [/ 10 ^ 8; 1; 3 / 2]).
  { unfold edges_sph. cbn [midpoints app last]. replace ((1 / 2 + 3 / 2) / 2) with 1 by lra. reflexivity. }
  assert (Hi : increasing [/ 10 ^ 8; 1; 3 / 2]).
  { split; [cbn [hd]; lra|]. intros [|[|i]] Hi; cbn [nth length] in *; try lra; lia. }
  assert (Ex : forall xyz, exists r, calcDensProfsSphDirectBinning 1 CCom (fun _ => idx) xyz [1; 1; 1] [1] [1 / 2; 3 / 2] (concat [idx]) (map (@length nat) [idx]) 10 r).
  { intros xyz. edestruct (@prange_exists dloc (dval R)) as [m' Hm]. eexists.
    eapply sph_ok; [discriminate|exact He|reflexivity|]. econstructor. exact Hm. }
  assert (Hmv : map fst (moved 10 (mkV (-2) 0 0) (ptcs [mkV 1 5 5; mkV 1 5 5; mkV 3 5 5] [1; 1; 1] idx)) = [mkV 9 5 5; mkV 9 5 5; mkV 1 5 5]).
  { unfold moved, ptcs, idx, wrap1. cbn [map fst snd nth vx vy vz].
    decide_lt.
    repeat match goal with |- context [Rle_dec ?a ?b] => destruct (Rle_dec a b); try lra end.
    repeat f_equal; ring. }
  rewrite Hmv.
  destruct (Ex [mkV 1 5 5; mkV 1 5 5; mkV 3 5 5]) as (r & R1). destruct (Ex [mkV 9 5 5; mkV 9 5 5; mkV 1 5 5]) as (r' & R2).
  exists r, r'. split; [intros v Hv ax Hax; cbn in Hv; intuition subst; axis Hax; lra|]. split; auto. split; auto.
  eexists _, _. split; [apply (single_row _ _ _ _ _ _ _ _ _ He R1)|]. split; [apply (single_row _ _ _ _ _ _ _ _ _ He R2)|].
  clear R1 R2 Ex Hmv r r'.
  assert (D : forall x y, distance (mkV x 5 5) (mkV y 5 5) = Rabs (x - y)).
  { intros x y. unfold distance, norm, vsub. cbn [vx vy vz]. rewrite <- sqrt_Rsqr_abs. f_equal. unfold Rsqr. ring. }
  assert (A : forall x, Rabs x = if Rlt_dec x 0 then - x else x).
  { intros x. unfold Rabs. destruct Rcase_abs, Rlt_dec; lra. }
  assert (EM : forall x, ptcs x [1; 1; 1] idx = [(nth 0 x v0, 1); (nth 1 x v0, 1); (nth 2 x v0, 1)]) by reflexivity.
  assert (RF : forall a b c, ref_of idx [mkV a 5 5; mkV b 5 5; mkV c 5 5] = mkV ((a + b + c) / 3) 5 5).
  { intros a b c. unfold ref_of, vscale, np_vsum, vadd, v0, idx. simpl. f_equal; field. }
  assert (CM : forall a b c, calcCoM idx [(mkV a 5 5, 1); (mkV b 5 5, 1); (mkV c 5 5, 1)] = mkV ((a + b + c) / 3) 5 5).
  { intros a b c. apply vec_ext. intros ax Hax. rewrite com_mean by (auto; unfold mass; cbn; lra). unfold mean, mass. axis Hax; cbn; field. }
  rewrite !nth_map_seq by (cbn; lia).
  assert (U1 : respectPBCNoRef idx [mkV 1 5 5; mkV 1 5 5; mkV 3 5 5] 10 = [mkV 1 5 5; mkV 1 5 5; mkV 3 5 5]).
  { unfold respectPBCNoRef. destruct Req_EM_T; [lra|]. rewrite RF. cbn [map vx vy vz]. unfold unwrap1.
    decide_lt. reflexivity. }
  assert (U2 : respectPBCNoRef idx [mkV 9 5 5; mkV 9 5 5; mkV 1 5 5] 10 = [mkV 9 5 5; mkV 9 5 5; mkV 11 5 5]).
  { unfold respectPBCNoRef. destruct Req_EM_T; [lra|]. rewrite RF. cbn [map vx vy vz]. unfold unwrap1.
    decide_lt. repeat f_equal; ring. }
  assert (S1 : seen 10 [(mkV 1 5 5, 1); (mkV 1 5 5, 1); (mkV 3 5 5, 1)] = [(mkV 1 5 5, 1); (mkV 1 5 5, 1); (mkV 3 5 5, 1)]).
  { apply (together_respect idx); [lra|discriminate| |].
    - split; [repeat constructor; cbn; lia|]. split; [cbn; lia|reflexivity].
    - intros q q' ax Hq Hq' Hax. cbn in Hq, Hq'. apply Rabs_le. intuition subst; axis Hax; cbn; lra. }
  assert (S2 : seen 10 [(mkV 9 5 5, 1); (mkV 9 5 5, 1); (mkV 1 5 5, 1)] = [(mkV 9 5 5, 1); (mkV 9 5 5, 1); (mkV 9 5 5, 1)]).
  { assert (F5 : cy_reflect 10 5 5 = 5) by (unfold cy_reflect; rewrite Rminus_diag_eq, Rabs_R0 by auto; destruct Rlt_dec; lra).
    assert (F9 : cy_reflect 10 9 9 = 9) by (unfold cy_reflect; rewrite Rminus_diag_eq, Rabs_R0 by auto; destruct Rlt_dec; lra).
    assert (F1 : cy_reflect 10 9 1 = 9) by (unfold cy_reflect; rewrite Rabs_pos_eq by lra; destruct Rlt_dec; lra).
    assert (Z : (if Rlt_dec (10 / 2) (Rabs (5 - 5)) then 10 - 5 else 5) = 5) by exact F5.
    assert (R9 : cy_row 10 (mkV 9 5 5) (mkV 9 5 5) = mkV 9 5 5) by (unfold cy_row; cbn [vx vy vz]; rewrite F5, F9, Z; reflexivity).
    assert (R1 : cy_row 10 (mkV 9 5 5) (mkV 1 5 5) = mkV 9 5 5) by (unfold cy_row; cbn [vx vy vz]; rewrite F5, F1, Z; reflexivity).
    unfold seen, cy_respectPBCNoRef. destruct Req_EM_T; [lra|]. cbn [map fst snd combine]. rewrite !R9, R1. reflexivity. }
  rewrite !EM. cbn [nth map fst snd combine] in *. rewrite U1, U2. cbn [combine]. rewrite !CM, S1, S2.
  pose proof (fun ps c => sph_value_mass ps c 1 [/ 10 ^ 8; 1; 3 / 2] 1 ltac:(lra) Hi ltac:(cbn; lia)) as V. cbn [nth] in V. rewrite !Rmult_1_r in V.
  split.
  - destruct (V [(mkV 1 5 5, 1); (mkV 1 5 5, 1); (mkV 3 5 5, 1)] (mkV ((1 + 1 + 3) / 3) 5 5)) as (_ & P & ->).
    unfold shell_mass. cbn [total fst snd]. rewrite !D, !A.
    decide_lt.
    repeat match goal with |- context [Rle_dec ?a ?b] => destruct (Rle_dec a b); try lra end.
    apply Rgt_not_eq, Rmult_lt_0_compat; [lra|apply Rinv_0_lt_compat; lra].
  - destruct (V [(mkV 9 5 5, 1); (mkV 9 5 5, 1); (mkV 9 5 5, 1)] (mkV ((9 + 9 + 11) / 3) 5 5)) as (_ & P & ->).
    unfold shell_mass. cbn [total fst snd]. rewrite !D, !A.
    decide_lt.
    repeat match goal with |- context [Rle_dec ?a ?b] => destruct (Rle_dec a b); try lra end.
Qed.
Print Assumptions C72_refuted.


Theorem C72_partial : forall choose xyz masses idx xyz' masses' idx' t r200 rs L r r',
  let o := ptcs xyz masses idx in
  ptcs xyz' masses' idx' = map (fun q => (vadd (fst q) t, snd q)) o ->
  0 < L -> together L o -> o <> [] -> mass o <> 0 -> valid_choice (choose 0%nat) (length idx) ->
  calcDensProfsSphDirectBinning 1 CCom choose xyz masses [r200] rs (concat [idx]) (map (@length nat) [idx]) L r ->
  calcDensProfsSphDirectBinning 1 CCom choose xyz' masses' [r200] rs (concat [idx']) (map (@length nat) [idx']) L r' ->
  r = r'.
Proof.
  intros choose xyz masses idx xyz' masses' idx' t r200 rs L r r' o Eo HL Ht Hne HM Hv H H'.
  destruct (edges_sph rs) as [edges| | | |] eqn:He; try (unfold edges_sph in He; destruct rs; discriminate).
  2:{ assert (N : forall fuel kind ch x m rr ix sz LL r0, sz <> [] -> calcDensProfsSphDirectBinning fuel kind ch x m rr rs ix sz LL r0 -> r0 = DIndexError).
      { intros fuel kind ch x m rr ix sz LL r0 Hs Hr. destruct Hr; congruence. }
      apply N in H; [|discriminate]. apply N in H'; [|discriminate]. congruence. }
  apply (single_row _ _ _ _ _ _ _ _ _ He) in H. apply (single_row _ _ _ _ _ _ _ _ _ He) in H'. cbv zeta in H, H'.
  fold o in H. rewrite Eo in H'. set (o' := map (fun q => (vadd (fst q) t, snd q)) o) in *.
  assert (Hv1 : valid_choice (choose 0%nat) (length o)) by (unfold o, ptcs; rewrite map_length; auto).
  assert (Hv2 : valid_choice (choose 0%nat) (length o')) by (unfold o'; rewrite map_length; auto).
  assert (Hne' : o' <> []) by (unfold o'; destruct o; [congruence|discriminate]).
  assert (Ht' : together L o').
  { intros q q' ax Hq Hq' Hax. apply in_map_iff in Hq, Hq'. destruct Hq as (a & <- & Ha). destruct Hq' as (b & <- & Hb). cbn [fst].
    rewrite !ax_add by auto. replace (ax (fst a) + ax t - (ax (fst b) + ax t)) with (ax (fst a) - ax (fst b)) by ring. apply Ht; auto. }
  destruct (together_respect _ _ _ HL Hne Hv1 Ht) as (R1 & S1). destruct (together_respect _ _ _ HL Hne' Hv2 Ht') as (R2 & S2).
  rewrite R1, S1 in H. rewrite R2, S2 in H'.
  assert (CF : forall l : list ptc, combine (map fst l) (map snd l) = l).
  { induction l as [|[x m] l IH]; [reflexivity|]. cbn. f_equal. exact IH. }
  rewrite CF in H, H'. destruct (C25_equivariant (choose 0%nat) o t 1 HM ltac:(lra)) as (Ec & _). fold o' in Ec. rewrite Ec in H'.
  rewrite H, H'. f_equal. f_equal. apply map_ext. intros i. unfold sph_value. f_equal. unfold o'. rewrite total_map. apply total_ext.
  intros q _. cbn [fst snd].
  replace (in_shell (vadd (calcCoM (choose 0%nat) o) t) r200 (nth i edges 0) (nth (S i) edges 0) (vadd (fst q) t))
    with (in_shell (calcCoM (choose 0%nat) o) r200 (nth i edges 0) (nth (S i) edges 0) (fst q)); [reflexivity|].
  unfold in_shell. replace (sqdist (vadd (calcCoM (choose 0%nat) o) t) (vadd (fst q) t)) with (sqdist (calcCoM (choose 0%nat) o) (fst q)); [reflexivity|].
  unfold sqdist, vadd. cbn [vx vy vz]. ring.
Qed.
Print Assumptions C72_partial.
Example C72_example : together 10 [(mkV 1 5 5, 1); (mkV 3 5 5, 2)] /\ mass [(mkV 1 5 5, 1); (mkV 3 5 5, 2)] <> 0 /\
  ptcs [mkV 4 5 5; mkV 6 5 5] [1; 2] [0; 1]%nat = map (fun q => (vadd (fst q) (mkV 3 0 0), snd q)) (ptcs [mkV 1 5 5; mkV 3 5 5] [1; 2] [0; 1]%nat).
Proof.
  split.
  - intros q q' ax Hq Hq' Hax. cbn in Hq, Hq'. apply Rabs_le. intuition subst; axis Hax; cbn; lra.
  - split; [unfold mass; cbn; lra|]. unfold ptcs, vadd. cbn. repeat f_equal; ring.
Qed.
