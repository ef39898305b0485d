(** C23 - C27, C68, C69: periodic unwrapping, centres and masses of objects. *)
From Coq Require Import List Reals ZArith Lra Lia.
From Verif Require Import ListUtil ParModel ParProofs CatModel CatPar CatMpi GeoModel GeoSpec GeoProofs.
Import ListNotations.
Open Scope R_scope.

(** ** C23: respectPBCNoRef moves every particle to its image nearest the reference point *)
Theorem C23_unwrap : forall choose xyz L,
  0 < L -> valid_choice choose (length xyz) -> xyz <> [] -> (forall p, In p xyz -> in_box L p) ->
  exists ref,
    (* the reference is the average of min(50, N) of the particles *)
    (forall ax, In ax axes ->
       ax ref = total (fun i => ax (nth i xyz v0)) choose / INR (length choose)) /\
    Forall2 (fun p q => forall ax, In ax axes ->
       (exists k : Z, (-1 <= k <= 1)%Z /\ ax q = ax p + IZR k * L) /\
       Rabs (ax q - ax ref) <= L / 2) xyz (respectPBCNoRef choose xyz L).
Proof.
  intros choose xyz L HL Hv Hne Hb. exists (ref_of choose xyz). split.
  - intros ax Hax. apply ref_axis; auto.
  - rewrite respect_map by lra. apply Forall2_map_r. intros p Hp ax Hax.
    rewrite ax_unwrap by auto. apply unwrap1_spec; auto.
    + apply (ref_in_bbox choose xyz); auto. intros q Hq. apply Hb; auto.
    + apply Hb; auto.
Qed.
Print Assumptions C23_unwrap.

Theorem C23_no_box : forall choose xyz, respectPBCNoRef choose xyz 0 = xyz.
Proof. intros. unfold respectPBCNoRef. destruct Req_EM_T; [reflexivity|congruence]. Qed.
Print Assumptions C23_no_box.

(* three particles near the left edge and one near the right edge of a box of side 10 *)
Example C23_example : let xyz := [mkV 1 1 1; mkV 1 1 1; mkV 1 1 1; mkV 9 1 1] in
  valid_choice [0;1;2;3]%nat (length xyz) /\ (forall p, In p xyz -> in_box 10 p) /\
  respectPBCNoRef [0;1;2;3]%nat xyz 10 = [mkV 1 1 1; mkV 1 1 1; mkV 1 1 1; mkV (-1) 1 1].
Proof.
  cbv zeta. split; [|split].
  - split; [|split].
    + repeat constructor; simpl; intuition lia.
    + simpl. intuition lia.
    + reflexivity.
  - intros p Hp ax Hax. simpl in Hp. intuition subst; axis Hax; lra.
  - rewrite respect_map by lra. cbn [map].
    assert (E : ref_of [0;1;2;3]%nat [mkV 1 1 1; mkV 1 1 1; mkV 1 1 1; mkV 9 1 1] = mkV 3 1 1).
    { unfold ref_of, vscale, np_vsum, vadd, v0. simpl. f_equal; field. }
    rewrite E. unfold unwrap, unwrap1. simpl.
    repeat (match goal with |- context [Rlt_dec ?a ?b] => destruct (Rlt_dec a b) end; try lra).
    repeat f_equal; lra.
Qed.

(** ** C24: the Cython version reflects instead of translating *)
(* Particles 0 and 1 are L/5 apart across the boundary; the unwrapped position of particle 1
   is not an image of it. *)
Theorem C24_image_refuted : exists xyz L, 0 < L /\ (forall p, In p xyz -> in_box L p) /\
  ~ Forall2 (image L) xyz (cy_respectPBCNoRef xyz L).
Proof.
  exists [mkV 1 1 1; mkV 9 1 1], 10. split; [lra|]. split.
  - intros p Hp ax Hax. simpl in Hp. intuition subst; axis Hax; lra.
  - unfold cy_respectPBCNoRef. destruct Req_EM_T; [lra|]. intros H.
    inversion H as [|? ? ? ? _ H2]; subst. inversion H2 as [|? ? ? ? H3 _]; subst.
    destruct (H3 vx (or_introl eq_refl)) as (k & Hk).
    revert Hk. unfold cy_row, cy_reflect. simpl.
    rewrite (Rabs_right (1 - 1)) by lra.
    destruct (Rlt_dec (10 / 2) (1 - 1)); [lra|]. rewrite (Rabs_left (1 - 9)) by lra.
    destruct Rlt_dec; [|lra]. intros Hk.
    assert (Hz : IZR (k * 10) = IZR (-8)) by (rewrite mult_IZR; lra).
    apply eq_IZR in Hz. lia.
Qed.
Print Assumptions C24_image_refuted.

(* The z coordinate of a particle on the other side of the box is left alone. *)
Theorem C24_z_refuted : exists xyz L, 0 < L /\ (forall p, In p xyz -> in_box L p) /\
  exists p q, nth_error (cy_respectPBCNoRef xyz L) 0 = Some p /\
              nth_error (cy_respectPBCNoRef xyz L) 1 = Some q /\ L / 2 < Rabs (vz q - vz p).
Proof.
  exists [mkV 1 1 1; mkV 1 1 9], 10. split; [lra|]. split.
  - intros p Hp ax Hax. simpl in Hp. intuition subst; axis Hax; lra.
  - unfold cy_respectPBCNoRef. destruct Req_EM_T; [lra|]. cbn [nth_error map].
    assert (E : forall z, cy_row 10 (mkV 1 1 1) (mkV 1 1 z) = mkV 1 1 z).
    { intros z. unfold cy_row, cy_reflect. cbn [vx vy vz].
      replace (1 - 1) with 0 by ring. rewrite Rabs_R0. destruct Rlt_dec; [lra|].
      replace (1 - 1) with 0 by ring. rewrite Rabs_R0. destruct Rlt_dec; [lra|reflexivity]. }
    rewrite !E. eexists _, _. split; [reflexivity|]. split; [reflexivity|]. simpl. rewrite Rabs_right; lra.
Qed.
Print Assumptions C24_z_refuted.

(* What does hold: particles stay in the box, an object within L/2 of its first particle is
   unchanged, and the first particle never moves. *)
Theorem C24_partial : forall xyz L, 0 < L -> (forall p, In p xyz -> in_box L p) ->
  (forall q, In q (cy_respectPBCNoRef xyz L) -> in_box L q) /\
  length (cy_respectPBCNoRef xyz L) = length xyz /\
  (forall p, hd_error xyz = Some p -> hd_error (cy_respectPBCNoRef xyz L) = Some p) /\
  ((forall p r ax, In ax axes -> hd_error xyz = Some r -> In p xyz -> Rabs (ax r - ax p) <= L / 2) ->
   cy_respectPBCNoRef xyz L = xyz).
Proof.
  intros xyz L HL Hb. unfold cy_respectPBCNoRef. destruct Req_EM_T; [lra|].
  destruct xyz as [|r rest]; [simpl; intuition discriminate|].
  assert (Hr : cy_row L r r = r).
  { destruct r as [a b c]. unfold cy_row, cy_reflect. simpl.
    rewrite !(Rminus_diag_eq _ _ eq_refl), Rabs_R0. destruct (Rlt_dec (L / 2) 0); [lra|].
    rewrite (Rminus_diag_eq b b eq_refl), Rabs_R0. destruct (Rlt_dec (L / 2) 0); [lra|reflexivity]. }
  rewrite Hr. split; [|split; [|split]].
  - intros q [<-|Hq]; [apply Hb; left; auto|].
    apply in_map_iff in Hq. destruct Hq as (p & <- & Hp).
    assert (Hp' : in_box L p) by (apply Hb; right; auto).
    intros ax Hax. pose proof (Hp' vx ltac:(simpl; auto)). pose proof (Hp' vy ltac:(simpl; auto)).
    pose proof (Hp' vz ltac:(simpl; auto)). unfold cy_row, cy_reflect.
    axis Hax; destruct Rlt_dec; lra.
  - simpl. rewrite map_length. reflexivity.
  - simpl. auto.
  - intros Hc. f_equal. rewrite <- (map_id rest) at 2. apply map_ext_in. intros p Hp.
    assert (C : forall ax, In ax axes -> Rabs (ax r - ax p) <= L / 2).
    { intros ax Hax. apply Hc; simpl; auto. }
    destruct p as [a b c]. unfold cy_row, cy_reflect. simpl.
    pose proof (C vx ltac:(simpl; auto)) as C1. pose proof (C vy ltac:(simpl; auto)) as C2.
    simpl in C1, C2.
    destruct (Rlt_dec (L / 2) (Rabs (vx r - a))); [lra|].
    destruct (Rlt_dec (L / 2) (Rabs (vy r - b))); [lra|].
    destruct (Rlt_dec (L / 2) (Rabs (vy r - b))); [lra|]. reflexivity.
Qed.
Print Assumptions C24_partial.

Example C24_example : let xyz := [mkV 1 1 1; mkV 4 2 3] in
  (forall p, In p xyz -> in_box 10 p) /\
  (forall p r ax, In ax axes -> hd_error xyz = Some r -> In p xyz -> Rabs (ax r - ax p) <= 10 / 2).
Proof.
  cbv zeta. split.
  - intros p Hp ax Hax. simpl in Hp. intuition subst; axis Hax; lra.
  - intros p r ax Hax [= <-] Hp. simpl in Hp. intuition subst; axis Hax; apply Rabs_le; lra.
Qed.

(** ** C25: centre of mass *)
Theorem C25_com : forall choose ps ax, In ax axes -> mass ps <> 0 ->
  ax (calcCoM choose ps) = mean ax ps /\ ax (cy_calcCoM ps) = mean ax ps.
Proof. intros. split; [apply com_mean; auto|apply cy_com_mean; auto]. Qed.
Print Assumptions C25_com.

Theorem C25_order : forall choose choose' ps ps',
  Permutation.Permutation ps ps' -> mass ps <> 0 ->
  calcCoM choose ps = calcCoM choose' ps' /\ cy_calcCoM ps = cy_calcCoM ps' /\
  calcCoM choose ps = cy_calcCoM ps.
Proof.
  intros choose choose' ps ps' HP HM.
  assert (E : mass ps = mass ps') by (apply total_perm; auto).
  assert (M : forall ax, mean ax ps = mean ax ps').
  { intros ax. unfold mean. rewrite E. f_equal. apply total_perm. auto. }
  repeat split; apply vec_ext; intros ax Hax; rewrite ?com_mean, ?cy_com_mean by (auto; congruence); auto.
Qed.
Print Assumptions C25_order.

Theorem C25_bbox : forall choose ps, (forall p, In p ps -> 0 <= snd p) -> 0 < mass ps ->
  in_bbox (calcCoM choose ps) (map fst ps) /\ in_bbox (cy_calcCoM ps) (map fst ps).
Proof.
  intros choose ps Hm HM.
  assert (G : forall c, (forall ax, In ax axes -> ax c = mean ax ps) -> in_bbox c (map fst ps)).
  { intros c Hc ax lo hi Hax Hb. rewrite Hc by auto. apply mean_bounds; auto.
    intros p Hp. apply Hb. apply in_map; auto. }
  split; apply G; intros ax Hax; [apply com_mean|apply cy_com_mean]; auto; lra.
Qed.
Print Assumptions C25_bbox.

(* Translating all particles translates the centre; rescaling all masses does not move it. *)
Theorem C25_equivariant : forall choose ps t k, mass ps <> 0 -> k <> 0 ->
  calcCoM choose (map (fun p => (vadd (fst p) t, snd p)) ps) = vadd (calcCoM choose ps) t /\
  calcCoM choose (map (fun p => (fst p, k * snd p)) ps) = calcCoM choose ps.
Proof.
  intros choose ps t k HM Hk. split; apply vec_ext; intros ax Hax.
  - assert (E : mass (map (fun p => (vadd (fst p) t, snd p)) ps) = mass ps)
      by (unfold mass; rewrite total_map; reflexivity).
    rewrite ax_add by auto. rewrite !com_mean by (auto; congruence). unfold mean. rewrite E, total_map.
    rewrite (total_ext _ (fun p => snd p * ax (fst p) + ax t * snd p)).
    + rewrite total_plus, total_scale. fold (mass ps).
      change (total (fun x => snd x) ps) with (mass ps). field. exact HM.
    + intros p _. cbn [fst snd]. rewrite ax_add by auto. ring.
  - assert (E : mass (map (fun p => (fst p, k * snd p)) ps) = k * mass ps).
    { unfold mass. rewrite total_map. cbn [snd]. rewrite total_scale. reflexivity. }
    rewrite !com_mean; auto.
    + unfold mean. rewrite E, total_map. cbn [fst snd].
      rewrite (total_ext _ (fun p => k * (snd p * ax (fst p)))) by (intros; ring).
      rewrite total_scale. field. auto.
    + rewrite E. apply Rmult_integral_contrapositive. auto.
Qed.
Print Assumptions C25_equivariant.

Example C25_example : let ps := [(mkV 0 0 0, 1); (mkV 4 8 0, 3)] in
  mass ps <> 0 /\ cy_calcCoM ps = mkV 3 6 0.
Proof.
  cbv zeta. split.
  - unfold mass. simpl. lra.
  - unfold cy_calcCoM. simpl. f_equal; field.
Qed.

(** ** C26: calcMode *)
(* Five particles at one place: the recursion never ends, however small the search radius. *)
Theorem C26_terminates_refuted : exists ps rad, 0 < rad /\ (forall p, In p ps -> 0 < snd p) /\
  forall fuel, calcMode fuel ps rad = None.
Proof.
  exists (repeat (mkV 1 2 3, 1) 5), 1000. split; [lra|]. split.
  - intros p Hp. apply repeat_spec in Hp. subst. simpl. lra.
  - intros fuel. apply (mode_diverges _ (mkV 1 2 3)); try lra.
    + simpl. lia.
    + apply Forall_forall. intros p Hp. apply repeat_spec in Hp. subst. reflexivity.
    + intros p Hp. apply repeat_spec in Hp. subst. simpl. lra.
Qed.
Print Assumptions C26_terminates_refuted.

(* The same for every cloud of five or more coincident particles. *)
Theorem C26_diverges : forall ps v rad, (5 <= length ps)%nat -> Forall (fun p => fst p = v) ps ->
  (forall p, In p ps -> 0 < snd p) -> 0 < rad -> forall fuel, calcMode fuel ps rad = None.
Proof. intros. eapply mode_diverges; eauto. Qed.
Print Assumptions C26_diverges.

(* Unless five particles coincide the recursion ends, for every initial radius; more fuel
   does not change the answer; the answer lies among the particles. *)
Theorem C26_mode_partial : forall ps rad, ps <> [] -> (forall p, In p ps -> 0 < snd p) ->
  ~ crowded 5 ps ->
  exists fuel v, calcMode fuel ps rad = Some v /\ in_bbox v (map fst ps) /\
    forall fuel' v', calcMode fuel' ps rad = Some v' -> v' = v.
Proof.
  intros ps rad Hne Hm Hc. destruct (mode_terminates ps rad Hc) as (fuel & v & H).
  exists fuel, v. split; auto. split; [eapply mode_bbox; eauto|].
  intros fuel' v' H'. apply (mode_fuel_mono _ (Nat.max fuel fuel')) in H; [|lia].
  apply (mode_fuel_mono _ (Nat.max fuel fuel')) in H'; [|lia]. congruence.
Qed.
Print Assumptions C26_mode_partial.

(* Fewer than five particles within the radius: the centre of mass itself. *)
Theorem C26_few : forall ps rad fuel, (length ps < 5)%nat -> mass ps <> 0 ->
  exists v, calcMode (S fuel) ps rad = Some v /\ forall ax, In ax axes -> ax v = mean ax ps.
Proof.
  intros ps rad fuel Hl HM. exists (mode_com ps). split.
  - simpl. match goal with |- context [filter ?f ps] =>
      pose proof (filter_len_le f ps) end.
    unfold ptc in *.
    match goal with |- context [Nat.ltb ?a 5] => destruct (Nat.ltb_spec a 5); [reflexivity|lia] end.
  - intros ax Hax. apply mode_com_mean; auto.
Qed.
Print Assumptions C26_few.

Example C26_example : let ps := map (fun n => (mkV (INR n) 0 0, 1)) (seq 0 6) in
  (forall p, In p ps -> 0 < snd p) /\ ~ crowded 5 ps.
Proof.
  cbv zeta. split.
  - intros p Hp. apply in_map_iff in Hp. destruct Hp as (n & <- & _). simpl. lra.
  - intros (v & a & b & HP & Hl & HF).
    assert (ND : NoDup (map fst (map (fun n => (mkV (INR n) 0 0, 1)) (seq 0 6)))).
    { rewrite map_map. apply FinFun.Injective_map_NoDup; [|apply seq_NoDup].
      intros i j Hij. simpl in Hij. injection Hij as Hij. apply INR_eq. exact Hij. }
    apply (Permutation.Permutation_map fst) in HP.
    apply (Permutation.Permutation_NoDup HP) in ND. rewrite map_app in ND.
    destruct a as [|x [|y a]]; simpl in Hl; try lia.
    inversion HF as [|? ? Hx HF2]; subst. inversion HF2 as [|? ? Hy _]; subst.
    simpl in ND. inversion ND as [|? ? Hn _]; subst. apply Hn. left. auto.
Qed.

(** ** C27: recentreObject *)
Theorem C27_recentre : forall xyz L, 0 < L ->
  (forall p ax, In p xyz -> In ax axes -> - L <= ax p < 2 * L) ->
  Forall2 (fun p q => in_box_ho L q /\ image L p q /\ (in_box_ho L p -> q = p)) xyz (recentreObject xyz L).
Proof.
  intros xyz L HL Hr. unfold recentreObject. apply Forall2_map_r. intros p Hp. split; [|split].
  - intros ax Hax. rewrite ax_recentre by auto. apply recentre1_spec; auto.
  - intros ax Hax. destruct (recentre1_spec L (ax p) HL (Hr p ax Hp Hax)) as (_ & k & _ & Hk).
    exists k. rewrite ax_recentre by auto. exact Hk.
  - intros Hb. apply vec_ext. intros ax Hax. rewrite ax_recentre by auto. apply recentre1_in. apply Hb; auto.
Qed.
Print Assumptions C27_recentre.

Theorem C27_no_box : forall xyz, recentreObject xyz 0 = xyz.
Proof.
  intros. unfold recentreObject. rewrite <- (map_id xyz) at 2. apply map_ext. intros p.
  apply vec_ext. intros ax Hax. rewrite ax_recentre by auto. apply recentre1_zero.
Qed.
Print Assumptions C27_no_box.

(* Two box lengths away one shift is not enough: the bound on the input is needed. *)
Theorem C27_far_refuted : exists xyz L, 0 < L /\ exists q, In q (recentreObject xyz L) /\ ~ in_box_ho L q.
Proof.
  exists [mkV 25 0 0], 10. split; [lra|]. eexists. split; [left; reflexivity|].
  intros H. specialize (H vx (or_introl eq_refl)). revert H. simpl. unfold recentre1.
  destruct Rle_dec; [|lra]. destruct Rlt_dec; lra.
Qed.
Print Assumptions C27_far_refuted.

Example C27_example : let xyz := [mkV (-3) 5 12; mkV 10 0 9] in
  (forall p ax, In p xyz -> In ax axes -> - 10 <= ax p < 2 * 10) /\
  recentreObject xyz 10 = [mkV 7 5 2; mkV 0 0 9].
Proof.
  cbv zeta. split.
  - intros p ax Hp Hax. simpl in Hp. intuition subst; axis Hax; lra.
  - unfold recentreObject, recentre1. simpl.
    repeat (match goal with |- context [Rle_dec ?a ?b] => destruct (Rle_dec a b) end; try lra).
    repeat (match goal with |- context [Rlt_dec ?a ?b] => destruct (Rlt_dec a b) end; try lra).
    repeat f_equal; lra.
Qed.

(** ** C68: objects of small periodic extent are made contiguous *)
(* Two particles within L/50 of each other across the boundary; the average of their raw
   coordinates is the middle of the box, so neither is moved. *)
Theorem C68_contiguous_refuted : exists choose xyz L,
  0 < L /\ valid_choice choose (length xyz) /\ (forall p, In p xyz -> in_box L p) /\
  (forall p q ax, In p xyz -> In q xyz -> In ax axes -> periodically_close L (L / 10) (ax p) (ax q)) /\
  exists p q, In p (respectPBCNoRef choose xyz L) /\ In q (respectPBCNoRef choose xyz L) /\
    9 / 10 * L < Rabs (vx p - vx q).
Proof.
  exists [0;1]%nat, [mkV 1 50 50; mkV 99 50 50], 100. split; [lra|]. split; [|split; [|split]].
  - split; [|split]; [repeat constructor; simpl; intuition lia| simpl; intuition lia|reflexivity].
  - intros p Hp ax Hax. simpl in Hp. intuition subst; axis Hax; lra.
  - intros p q ax Hp Hq Hax.
    assert (Z0 : forall a, periodically_close 100 (100 / 10) a a).
    { intros a. exists 0%Z. rewrite Rabs_right; lra. }
    simpl in Hp, Hq. intuition subst; axis Hax; auto.
    + exists 1%Z. rewrite Rabs_right; lra.
    + exists (-1)%Z. rewrite Rabs_left; lra.
  - assert (E : ref_of [0;1]%nat [mkV 1 50 50; mkV 99 50 50] = mkV 50 50 50).
    { unfold ref_of, vscale, np_vsum, vadd, v0. simpl. f_equal; field. }
    rewrite respect_map, E by lra. cbn [map].
    exists (unwrap 100 (mkV 50 50 50) (mkV 1 50 50)), (unwrap 100 (mkV 50 50 50) (mkV 99 50 50)).
    split; [left; auto|]. split; [right; left; auto|].
    unfold unwrap. cbn [vx].
    rewrite !unwrap1_id by (apply Rabs_le; lra). rewrite Rabs_left; lra.
Qed.
Print Assumptions C68_contiguous_refuted.

(* What holds: objects whose raw coordinates already span at most L/2 are left alone, and
   afterwards no two particles of any object are more than L apart along an axis. *)
Theorem C68_partial : forall choose xyz L,
  0 < L -> valid_choice choose (length xyz) -> (forall p, In p xyz -> in_box L p) ->
  (forall p q ax, In ax axes -> In p (respectPBCNoRef choose xyz L) -> In q (respectPBCNoRef choose xyz L) ->
     Rabs (ax p - ax q) <= L) /\
  ((forall p q ax, In p xyz -> In q xyz -> In ax axes -> Rabs (ax p - ax q) <= L / 2) ->
   respectPBCNoRef choose xyz L = xyz).
Proof.
  intros choose xyz L HL Hv Hb.
  destruct xyz as [|x0 xyz0] eqn:E.
  { rewrite respect_map by lra. simpl. intuition. }
  rewrite <- E in *. assert (Hne : xyz <> []) by (rewrite E; discriminate). clear E x0 xyz0.
  rewrite respect_map by lra. set (ref := ref_of choose xyz).
  assert (Hr : forall ax, In ax axes -> 0 <= ax ref <= L).
  { intros ax Hax. apply (ref_in_bbox choose xyz); auto. intros q Hq. apply Hb; auto. }
  split.
  - intros p q ax Hax Hp Hq. apply in_map_iff in Hp. apply in_map_iff in Hq.
    destruct Hp as (p1 & <- & Hp), Hq as (q1 & <- & Hq). rewrite !ax_unwrap by auto.
    destruct (unwrap1_spec L (ax ref) (ax p1) HL (Hr ax Hax) (Hb p1 Hp ax Hax)) as [_ A].
    destruct (unwrap1_spec L (ax ref) (ax q1) HL (Hr ax Hax) (Hb q1 Hq ax Hax)) as [_ B].
    set (a := unwrap1 L (ax ref) (ax p1)) in *. set (b := unwrap1 L (ax ref) (ax q1)) in *.
    replace (a - b) with ((a - ax ref) - (b - ax ref)) by ring.
    eapply Rle_trans; [apply Rabs_triang|]. rewrite Rabs_Ropp. lra.
  - intros Hc. rewrite <- (map_id xyz) at 2. apply map_ext_in. intros p Hp.
    apply vec_ext. intros ax Hax. rewrite ax_unwrap by auto. apply unwrap1_id.
    assert (A : ax p - L / 2 <= ax ref <= ax p + L / 2).
    { apply (ref_in_bbox choose xyz); auto. intros q Hq.
      specialize (Hc p q ax Hp Hq Hax). unfold Rabs in Hc. destruct Rcase_abs in Hc; lra. }
    apply Rabs_le. lra.
Qed.
Print Assumptions C68_partial.

Example C68_example : let xyz := [mkV 20 50 50; mkV 60 50 50] in
  (forall p, In p xyz -> in_box 100 p) /\
  (forall p q ax, In p xyz -> In q xyz -> In ax axes -> Rabs (ax p - ax q) <= 100 / 2).
Proof.
  cbv zeta. split.
  - intros p Hp ax Hax. simpl in Hp. intuition subst; axis Hax; lra.
  - intros p q ax Hp Hq Hax. simpl in Hp, Hq. intuition subst; axis Hax; apply Rabs_le; lra.
Qed.

(** ** C69: masses and centres of all objects *)
Theorem C69_masses_centers : forall fuel kind choose objs L centers m,
  0 < L ->
  (forall p o, nth_error objs p = Some o -> o <> [] /\ valid_choice (choose p) (length o) /\
     forall q, In q o -> in_box L (fst q) /\ 0 < snd q) ->
  calcMassesCenters fuel kind choose objs L (Some (centers, m)) ->
  m = map mass objs /\ length centers = length objs /\ forall c, In c centers -> in_box_ho L c.
Proof.
  intros fuel kind choose objs L centers m HL Hobj H. inversion H as [|cs m' HF HP]; subst.
  split; [apply masses_ok; auto|]. split.
  - unfold recentreObject. rewrite map_length. apply Forall2_length in HF.
    rewrite <- HF, combine_length, seq_length. apply Nat.min_id.
  - intros c Hc. unfold recentreObject in Hc. apply in_map_iff in Hc. destruct Hc as (d & <- & Hd).
    destruct (In_nth_error _ _ Hd) as (k & Hk).
    destruct (Forall2_nth_r _ _ _ HF k d Hk) as ([p o] & Hpo & Hc). cbn [fst snd] in Hc.
    assert (Hnth : nth_error objs p = Some o).
    { apply nth_error_In in Hpo. apply (in_seq_combine objs p o) in Hpo. exact Hpo. }
    destruct (Hobj p o Hnth) as (Hne & Hv & Hin).
    intros ax Hax. rewrite ax_recentre by auto. apply recentre1_spec; auto.
    pose proof (center_in_range fuel kind (choose p) 1000 L o d HL Hne Hv Hin Hc ax Hax). lra.
Qed.
Print Assumptions C69_masses_centers.

(* With centre of mass every object list has a run. *)
(* With centre of mass, each centre is an image of the mean of the object's particles after
   every particle is taken to its image nearest a common reference point. *)
Theorem C69_com_center : forall fuel choose objs L centers m,
  0 < L ->
  (forall p o, nth_error objs p = Some o -> o <> [] /\ valid_choice (choose p) (length o) /\
     forall q, In q o -> in_box L (fst q) /\ 0 < snd q) ->
  calcMassesCenters fuel CCom choose objs L (Some (centers, m)) ->
  forall p o c, nth_error objs p = Some o -> nth_error centers p = Some c ->
  exists ref o', Forall2 (fun a b => snd b = snd a /\ image L (fst a) (fst b) /\
       forall ax, In ax axes -> Rabs (ax (fst b) - ax ref) <= L / 2) o o' /\
    forall ax, In ax axes -> exists k : Z, ax c = mean ax o' + IZR k * L.
Proof.
  intros fuel choose objs L centers m HL Hobj H p o c Ho Hc. inversion H as [|cs m' HF HP]; subst.
  unfold recentreObject in Hc. rewrite nth_error_map in Hc.
  destruct (nth_error cs p) as [d|] eqn:Hd; [|discriminate]. injection Hc as <-.
  destruct (Forall2_nth_r _ _ _ HF p d Hd) as ([p' o1] & Hpo & Hcen). cbn [fst snd] in Hcen.
  assert (p' = p /\ o1 = o).
  { pose proof (nth_error_In _ _ Hpo) as Hin. apply in_seq_combine in Hin.
    assert (Hp : nth_error (seq 0 (length objs)) p = Some p).
    { assert (p < length objs)%nat by (apply nth_error_Some; congruence).
      rewrite (nth_error_nth' _ 0%nat) by (rewrite seq_length; auto). rewrite seq_nth; auto. }
    pose proof (map_nth_error fst p (combine (seq 0 (length objs)) objs) Hpo) as H0. cbn [fst] in H0.
    rewrite map_fst_combine in H0 by apply seq_length. rewrite Hp in H0. injection H0 as <-.
    split; auto. unfold ptc in *; congruence. }
  destruct H0 as [-> ->]. destruct (Hobj p o Ho) as (Hne & Hv & Hin).
  exists (ref_of (choose p) (map fst o)).
  exists (map (fun q => (unwrap L (ref_of (choose p) (map fst o)) (fst q), snd q)) o).
  assert (Hr : forall ax, In ax axes -> 0 <= ax (ref_of (choose p) (map fst o)) <= L).
  { intros ax Hax. apply (ref_in_bbox (choose p) (map fst o)); auto.
    - rewrite map_length. auto.
    - destruct o; [congruence|discriminate].
    - intros q Hq. apply in_map_iff in Hq. destruct Hq as (q' & <- & Hq). apply Hin; auto. }
  split.
  - apply Forall2_map_r. intros q Hq. cbn [fst snd]. split; [reflexivity|].
    assert (G : forall ax, In ax axes -> _) by
      exact (fun ax Hax => unwrap1_spec L _ (ax (fst q)) HL (Hr ax Hax) (proj1 (Hin q Hq) ax Hax)).
    split.
    + intros ax Hax. destruct (G ax Hax) as [(k & _ & Hk) _]. exists k. rewrite ax_unwrap by auto. exact Hk.
    + intros ax Hax. rewrite ax_unwrap by auto. apply G; auto.
  - intros ax Hax. pose proof (center_in_range fuel CCom (choose p) 1000 L o d HL Hne Hv Hin Hcen ax Hax) as Hb.
    unfold center_of in Hcen. rewrite respect_map in Hcen by lra. rewrite combine_fst_snd in Hcen.
    injection Hcen as <-.
    assert (HM : mass (map (fun q => (unwrap L (ref_of (choose p) (map fst o)) (fst q), snd q)) o) <> 0).
    { apply Rgt_not_eq, total_pos.
      - intros q Hq. apply in_map_iff in Hq. destruct Hq as (q' & <- & Hq). simpl. apply Hin; auto.
      - destruct o; [congruence|discriminate]. }
    match goal with |- context [mean ax ?l] => set (o' := l) in * end.
    rewrite ax_recentre by auto.
    destruct (recentre1_spec L (ax (calcCoM (choose p) o'))) as (_ & k & _ & Hk); [auto|lra|].
    exists k. rewrite Hk. rewrite com_mean by auto. reflexivity.
Qed.
Print Assumptions C69_com_center.

Theorem C69_com_runs : forall fuel choose objs L, exists r,
  calcMassesCenters fuel CCom choose objs L (Some r).
Proof.
  intros. destruct (prange_exists (length objs) (mass_body objs) (fun _ => 0)) as (m' & Hm).
  eexists. eapply cmc_ok; [|exact Hm].
  instantiate (1 := map (fun po => calcCoM (choose (fst po))
      (combine (respectPBCNoRef (choose (fst po)) (map fst (snd po)) L) (map snd (snd po))))
      (combine (seq 0 (length objs)) objs)).
  apply Forall2_map_r. intros [p o] _. reflexivity.
Qed.
Print Assumptions C69_com_runs.

Theorem C69_deterministic : forall fuel kind choose objs L r r',
  calcMassesCenters fuel kind choose objs L (Some r) ->
  calcMassesCenters fuel kind choose objs L (Some r') -> r = r'.
Proof.
  intros fuel kind choose objs L r r' H H'.
  inversion H as [|cs m HF HP]; subst. inversion H' as [|cs' m' HF' HP']; subst.
  f_equal.
  - f_equal. clear - HF HF'. revert cs' HF'. induction HF as [|a c l cs Ha HF IH]; intros cs' HF';
      inversion HF'; subst; f_equal; [congruence|auto].
  - rewrite !masses_ok; auto.
Qed.
Print Assumptions C69_deterministic.

Example C69_example : let objs := [[(mkV 1 1 1, 2); (mkV 3 1 1, 2)]; [(mkV 9 9 9, 5)]] in
  forall p o, nth_error objs p = Some o -> o <> [] /\ valid_choice (seq 0 (length o)) (length o) /\
     forall q, In q o -> in_box 10 (fst q) /\ 0 < snd q.
Proof.
  cbv zeta. intros [|[|[|p]]] o H; simpl in H; try discriminate; injection H as <-;
    (split; [discriminate|split]).
  1,3: split; [repeat constructor; simpl; intuition lia|split; [simpl; intuition lia|reflexivity]].
  all: intros q Hq; simpl in Hq; intuition subst; simpl; try lra; intros ax Hax; axis Hax; lra.
Qed.
