(** C124: densities with kernels, from the arrays of the user to the answer of estDensProfs. *)
From Coq Require Import List Reals ZArith QArith Lra Lia Bool.
From Verif Require Import ListUtil ParModel XR ConfigModel ConfigUnits CatModel CatSpec CatProofs CatMpi GeoModel GeoSpec GeoProofs GeoProps ShapeModel ShapeSpec ShapeProofs
  Spectral ShapeExamples ShapePar ShapeProps ShapeMoveModel DensModel DensSpec DensProofs DensEll DensProps DensSimProps FitModel FitProps FitErr EndModel EndProps.
Import ListNotations.
Local Open Scope R_scope.

(** ** Vocabulary *)
(** Reed et al.: the width of the kernel of a particle at distance d. *)
Definition spread (r200 d : R) : R := 5 / 1000 * r200 * sqrt (d / (1 / 10 * r200)).
(** Density at distance r from the centre of a unit mass at distance d, smeared out by a normal distribution of
    width h and averaged over the directions. *)
Definition smeared (r d h : R) : R :=
  (exp (- (d - r) ^ 2 / (2 * h ^ 2)) - exp (- (d + r) ^ 2 / (2 * h ^ 2))) / (2 * Rpower (2 * PI) (3 / 2) * r * d * h).
Lemma spread_pos r200 d : 0 < r200 -> 0 < d -> 0 < spread r200 d.
Proof.
  intros Hr Hd. unfold spread. apply Rmult_lt_0_compat; [lra|]. apply sqrt_lt_R0. apply Rdiv_lt_0_compat; lra.
Qed.
Lemma unit_smeared x r200 d : 0 < x -> 0 < r200 -> 0 < d -> unit_density x r200 d = smeared (x * r200) d (spread r200 d).
Proof.
  intros Hx Hr Hd. pose proof (spread_pos r200 d Hr Hd) as Hh. unfold unit_density, kernel_term.
  change (width r200 d) with (spread r200 d). set (h := spread r200 d) in *. unfold calcKTilde.
  assert (Hhh : 0 < h * h) by (apply Rmult_lt_0_compat; auto). assert (Hxr : 0 < x * r200) by (apply Rmult_lt_0_compat; auto).
  destruct (Req_EM_T (h * h) 0); [lra|].
  assert (Hq : 0 < x * r200 * d / (h * h)) by (apply Rdiv_lt_0_compat; auto; apply Rmult_lt_0_compat; auto).
  destruct Req_EM_T; [lra|]. assert (Hh3 : h * h * h <> 0) by (apply Rgt_not_eq; apply Rmult_lt_0_compat; auto).
  destruct (Req_EM_T (h * h * h) 0); [lra|]. rewrite Fin_mul, xdiv_fin by auto. unfold smeared.
  assert (HP : Rpower (2 * PI) (3 / 2) <> 0) by (apply Rgt_not_eq; apply exp_pos).
  replace (- (d - x * r200) ^ 2 / (2 * h ^ 2)) with (- ((d - x * r200) * (d - x * r200)) / (2 * (h * h))) by (field; lra).
  replace (- (d + x * r200) ^ 2 / (2 * h ^ 2)) with (- ((d + x * r200) * (d + x * r200)) / (2 * (h * h))) by (field; lra).
  field. repeat split; lra.
Qed.

(** ** Objects one by one *)
Lemma kernel_each fuel kind choose rs L p objs r200s rows : kernel_objects fuel kind choose rs L p objs r200s (DOk rows) ->
  length rows = length objs /\ forall k o, nth_error objs k = Some o -> exists c row,
    center_of fuel kind (choose (p + k)%nat) 1000 L o = Some c /\ nth_error rows k = Some row /\ kernel_object rs (nth k r200s 0) c L o (DOk row).
Proof.
  revert p r200s rows. induction objs as [|o objs IH]; intros p r200s rows H; inversion H; subst.
  - split; [reflexivity|]. intros [|k] o E; discriminate.
  - destruct rest as [rows'| | | |]; try discriminate. match goal with E : DOk _ = DOk _ |- _ => injection E as <- end.
    match goal with K : kernel_objects _ _ _ _ _ (S p) _ _ _ |- _ => destruct (IH _ _ _ K) as (Hl & Hk) end.
    split; [cbn [length]; lia|]. intros [|k] o' E.
    + cbn in E. injection E as <-. rewrite Nat.add_0_r. eexists c, row. split; [auto|]. split; [reflexivity|]. destruct r200s; assumption.
    + cbn [nth_error] in E. destruct (Hk k o' E) as (c' & row' & A & B & C). exists c', row'.
      replace (p + S k)%nat with (S p + k)%nat by lia. split; [auto|]. split; [auto|]. destruct r200s as [|y r200s]; [destruct k|]; exact C.
Qed.
Lemma kernel_stops fuel kind choose rs L p objs r200s r : kernel_objects fuel kind choose rs L p objs r200s r ->
  (exists rows, r = DOk rows) \/
  (r = DRecursionError /\ exists k o, nth_error objs k = Some o /\ center_of fuel kind (choose (p + k)%nat) 1000 L o = None) \/
  (r = DZeroDivision /\ exists k o c, nth_error objs k = Some o /\ center_of fuel kind (choose (p + k)%nat) 1000 L o = Some c /\
     kernel_object rs (nth k r200s 0) c L o DZeroDivision).
Proof.
  intros H. induction H as [p r200s|p o objs r200s Hc|p o objs r200s c Hc Hk|p o objs r200s c row rest Hc Hk Hrest IH].
  - left. eauto.
  - right. left. split; auto. exists 0%nat, o. rewrite Nat.add_0_r. auto.
  - right. right. split; auto. exists 0%nat, o, c. rewrite Nat.add_0_r. split; [reflexivity|]. split; [auto|]. destruct r200s; assumption.
  - destruct IH as [(rows & ->)|[(-> & k & o' & A & B)|(-> & k & o' & c' & A & B & C)]].
    + left. eauto.
    + right. left. split; auto. exists (S k), o'. replace (p + S k)%nat with (S p + k)%nat by lia. auto.
    + right. right. split; auto. exists (S k), o', c'. replace (p + S k)%nat with (S p + k)%nat by lia. split; [auto|]. split; [auto|].
      destruct r200s as [|y r200s]; [destruct k|]; exact C.
Qed.
Lemma distance_zero p c : distance p c = 0 -> p = c.
Proof.
  unfold distance, norm, vsub. cbn [vx vy vz]. intros H.
  destruct p as [a b e], c as [a' b' e']; cbn [vx vy vz] in *.
  pose proof (Rle_0_sqr (a - a')) as A. pose proof (Rle_0_sqr (b - b')) as B. pose proof (Rle_0_sqr (e - e')) as C. unfold Rsqr in *.
  apply sqrt_eq_0 in H; [|lra].
  assert (Z : forall u, u * u = 0 -> u = 0) by (intros u U; apply Rmult_integral in U; tauto).
  pose proof (Z (a - a') ltac:(lra)). pose proof (Z (b - b') ltac:(lra)). pose proof (Z (e - e') ltac:(lra)). f_equal; lra.
Qed.
Lemma distance_nonneg p c : 0 <= distance p c.
Proof. apply sqrt_pos. Qed.
Lemma ok_off rs r200 c L o row : rs <> [] -> kernel_object rs r200 c L o (DOk row) -> off_centre L c o.
Proof.
  intros Hrs H q Hq. destruct (distance_nonneg (fst q) c) as [P|P]; [exact P|]. symmetry in P. apply distance_zero in P.
  pose proof (C43_raises _ _ _ _ _ _ q H Hrs Hq P). discriminate.
Qed.
Lemma off_or L c o : off_centre L c o \/ exists q, In q (seen L o) /\ fst q = c.
Proof.
  unfold off_centre. induction (seen L o) as [|q l IH]; [left; intros q []|].
  destruct (distance_nonneg (fst q) c) as [P|P].
  - destruct IH as [H|(q' & A & B)]; [left; intros q' [<-|]; auto|right; exists q'; split; [right|]; auto].
  - right. exists q. split; [left; auto|]. apply distance_zero. auto.
Qed.
Lemma factor_ok h c' : h <> 0 -> usable_out h c' -> exists fd, dens_factor c' = inl fd /\ fd * (out_m c' / out_l c' ^ 3) = gr h / cm h ^ 3.
Proof.
  intros Hh Hu. pose proof (cm_nz _ Hh) as Cn. pose proof (gr_nz _ Hh) as Gn.
  assert (Mu : MASS_UNIT <> 0) by (unfold MASS_UNIT; apply pow_nonzero; lra).
  destruct Hu as (Hu & Hol & Hom). unfold dens_factor, dens_to_out. rewrite internal_cm by congruence. rewrite Hu.
  rewrite !pydiv_ok by auto. unfold pow_m3. destruct Req_EM_T as [Z|Z].
  - exfalso. unfold Rdiv in Z. apply Rmult_integral in Z. destruct Z as [Z|Z]; [auto|]. revert Z. apply Rinv_neq_0_compat. auto.
  - eexists. split; [reflexivity|]. field. auto.
Qed.

(** ** C124 *)
(* Densities: in physical units, the sum over the object's own particles of their smeared out masses. *)
Theorem C124_densities : forall mfuel choose rs c a d c' s zs tab,
  0 < little_h c -> 0 < in_l c -> fits a -> make c a = inl d -> usable_out (little_h c) c' -> asks s zs ->
  (forall x, In x rs -> 0 < x) -> (forall x, In x (a_r200 a) -> 0 < x) ->
  estDensProfsKernel mfuel choose rs c' d s (inl tab) ->
  good_selection zs (length (listed a)) /\ length tab = length zs /\
  forall k z, nth_error zs k = Some z -> exists o x center row,
    nth_error (listed a) (Z.to_nat z) = Some (o, x) /\ nth_error tab k = Some row /\ length row = length rs /\
    let f := in_l c / cm (little_h c) in let L := a_box a * f in
    center_of mfuel (a_kind a) (choose k) 1000 L (map pm (inner c a o)) = Some center /\
    forall i, (i < length rs)%nat -> exists v, nth i row NaN = Fin v /\
      v * (out_m c' / out_l c' ^ 3) =
        total (fun q => let dist := distance (fst q) center in snd q * smeared (nth i rs 0 * (x * f)) dist (spread (x * f) dist))
              (seen L (map pm (inner c a o))) * (gr (little_h c) / cm (little_h c) ^ 3).
Proof.
  intros mfuel choose rs c a d c' s zs tab Hh Hin Hf Hd Hu Ha Hrs Hr H.
  assert (Hh0 : little_h c <> 0) by lra.
  rewrite make_ok in Hd by auto. injection Hd as <-.
  destruct (good_or_value a s zs Ha) as [N|Hg].
  { pose proof (chosen_bad c a s zs Ha N) as E. inversion H; congruence. }
  split; auto. pose proof (chosen_ok c a s zs Ha Hg) as E. cbv zeta in E.
  inversion H as [| | | | |sub sz r rows fd E1 E2 Hm E3 E4]; subst. clear H.
  rewrite E in E1. injection E1 as <- <- <-.
  destruct (factor_ok _ _ Hh0 Hu) as (fd' & Ef & Fd). rewrite Ef in E3. injection E3 as <-.
  set (p := picked a (map Z.to_nat zs)) in *. set (f := in_l c / cm (little_h c)) in *.
  assert (Pf : 0 < f) by (unfold f; apply Rdiv_lt_0_compat; auto; apply cm_pos; auto).
  assert (Lp : length p = length zs) by (unfold p, picked; rewrite !map_length; auto).
  inversion Hm as [|r Hne Hk]; subst. clear Hm. rewrite parts_concat in Hk. unfold p in Hk. rewrite objs_ptcs in Hk by auto. fold p in Hk.
  unfold built in Hk. cbn [d_kind d_box] in Hk. fold f in Hk.
  destruct (kernel_each _ _ _ _ _ _ _ _ _ Hk) as (Lr & Each). rewrite !map_length in Lr.
  split; [rewrite map_length; lia|].
  intros k z Hz. destruct (picked_nth a zs k z Hg Hz) as (o & x & H1 & H2). fold p in H2.
  assert (Ho : nth_error (map (fun o => map pm (inner c a o)) (map fst p)) k = Some (map pm (inner c a o))) by (rewrite !nth_error_map, H2; reflexivity).
  destruct (Each k _ Ho) as (center & row & Hc & Hrow & Hob). cbn [plus] in Hc.
  assert (Nr : nth k (map (fun or => snd or * f) p) 0 = x * f) by (apply nth_error_nth; rewrite nth_error_map, H2; reflexivity).
  rewrite Nr in Hob.
  assert (Px : 0 < x * f).
  { apply Rmult_lt_0_compat; auto. apply Hr. apply nth_error_In in H1. unfold listed, large in H1. apply filter_In in H1. destruct H1 as (H1 & _). apply in_combine_r in H1. exact H1. }
  exists o, x, center, (map (fun v => xmul v (Fin fd')) row). split; [auto|]. split; [rewrite nth_error_map, Hrow; reflexivity|].
  assert (Ll : length row = length rs).
  { apply kernel_object_result in Hob. cbv zeta in Hob. destruct existsb in Hob; [discriminate|]. injection Hob as ->. apply map_length. }
  split; [rewrite map_length; auto|]. cbv zeta. split; [exact Hc|]. intros i Hi.
  assert (Hrs0 : rs <> []) by (intros ->; cbn in Hi; lia).
  pose proof (ok_off _ _ _ _ _ _ Hrs0 Hob) as Off.
  destruct (C43_sum _ _ _ _ _ _ Hob Px Hrs Off) as (Es & _). injection Es as ->.
  rewrite map_map. eexists. split.
  { erewrite nth_indep by (rewrite map_length; exact Hi). rewrite (map_nth (fun y => xmul _ _)) with (d := 0). rewrite Fin_mul. reflexivity. }
  rewrite Rmult_assoc, Fd. f_equal. apply total_ext. intros q Hq. cbv zeta. rewrite unit_smeared; auto.
  apply Hrs. apply nth_In. auto.
Qed.
Print Assumptions C124_densities.

(* What can go wrong with a good selection: the centre of a selected object is not found, or a particle of a selected
   object sits at its centre. Then there is no answer for any of the objects. *)
Theorem C124_fails : forall mfuel choose rs c a d c' s zs,
  0 < little_h c -> 0 < in_l c -> fits a -> make c a = inl d -> usable_out (little_h c) c' -> asks s zs ->
  (forall x, In x rs -> 0 < x) -> (forall x, In x (a_r200 a) -> 0 < x) ->
  let L := a_box a * (in_l c / cm (little_h c)) in
  let found k z r := exists o x, nth_error zs k = Some z /\ nth_error (listed a) (Z.to_nat z) = Some (o, x) /\
     center_of mfuel (a_kind a) (choose k) 1000 L (map pm (inner c a o)) = r in
  let sits k z := exists o x center q, nth_error zs k = Some z /\ nth_error (listed a) (Z.to_nat z) = Some (o, x) /\
     center_of mfuel (a_kind a) (choose k) 1000 L (map pm (inner c a o)) = Some center /\ In q (seen L (map pm (inner c a o))) /\ fst q = center in
  (~ good_selection zs (length (listed a)) -> forall out, estDensProfsKernel mfuel choose rs c' d s out <-> out = inr EValue) /\
  (good_selection zs (length (listed a)) ->
     (exists out, estDensProfsKernel mfuel choose rs c' d s out) /\
     (forall e, estDensProfsKernel mfuel choose rs c' d s (inr e) ->
        (e = ERecursion /\ exists k z, found k z None) \/ (e = EZeroDivision /\ rs <> [] /\ exists k z, sits k z)) /\
     (rs <> [] -> forall k z, sits k z -> forall tab, ~ estDensProfsKernel mfuel choose rs c' d s (inl tab))).
Proof.
  intros mfuel choose rs c a d c' s zs Hh Hin Hf Hd Hu Ha Hrs Hr L found sits.
  assert (Hh0 : little_h c <> 0) by lra.
  pose proof Hd as Hd'. rewrite make_ok in Hd by auto. injection Hd as <-. split.
  { intros N. pose proof (chosen_bad c a s zs Ha N) as E. intros out. split.
    - intros H. inversion H; subst; congruence.
    - intros ->. apply ek_selection. exact E. }
  intros Hg. pose proof (chosen_ok c a s zs Ha Hg) as E. cbv zeta in E. pose proof (exist_ok c a zs Hf Hg) as X.
  destruct (factor_ok _ _ Hh0 Hu) as (fd & Ef & _).
  set (p := picked a (map Z.to_nat zs)) in *. set (f := in_l c / cm (little_h c)) in *.
  assert (Pf : 0 < f) by (unfold f; apply Rdiv_lt_0_compat; auto; apply cm_pos; auto).
  assert (Lp : length p = length zs) by (unfold p, picked; rewrite !map_length; auto).
  assert (Ne : map (@length nat) (map fst p) <> []).
  { destruct Hg as (Hz & _). destruct zs; [congruence|]. unfold p, picked. discriminate. }
  assert (OP : map (ptcs (d_xyz (built c a)) (d_masses (built c a))) (parts (concat (map fst p)) (map (@length nat) (map fst p))) = map (fun o => map pm (inner c a o)) (map fst p)).
  { rewrite parts_concat. unfold p. rewrite objs_ptcs by auto. reflexivity. }
  assert (Back : forall k o, nth_error (map (fun o => map pm (inner c a o)) (map fst p)) k = Some o -> exists z oi x,
     nth_error zs k = Some z /\ nth_error (listed a) (Z.to_nat z) = Some (oi, x) /\ o = map pm (inner c a oi) /\
     nth k (map (fun or => snd or * f) p) 0 = x * f).
  { intros k o Ho. destruct (nth_error zs k) as [z|] eqn:Ez.
    - destruct (picked_nth a zs k z Hg Ez) as (oi & x & H1 & H2). fold p in H2. exists z, oi, x. split; [auto|]. split; [auto|].
      rewrite !nth_error_map, H2 in Ho. cbn [option_map fst] in Ho. split; [congruence|]. apply nth_error_nth. rewrite nth_error_map, H2. reflexivity.
    - exfalso. apply nth_error_None in Ez. assert (Z : (k < length (map (fun o => map pm (inner c a o)) (map fst p)))%nat) by (apply nth_error_Some; congruence).
      rewrite !map_length in Z. lia. }
  split; [|split].
  - destruct (kernel_runs mfuel (d_kind (built c a)) choose rs (d_box (built c a)) (map (ptcs (d_xyz (built c a)) (d_masses (built c a))) (parts (concat (map fst p)) (map (@length nat) (map fst p)))) 0 (map (fun or => snd or * f) p)) as (r & K).
    pose proof (ker_run mfuel _ _ _ _ _ _ _ _ _ _ Ne K) as M.
    destruct r as [rows| | | |]; eexists; try (eapply ek_raise; [exact E|exact X|exact M|reflexivity]). eapply ek_ok; eauto.
  - intros e H. inversion H as [e' E1|sub sz r rows E1 E2|sub sz r x e' E1 E2|sub sz r x e' E1 E2 Hm E3|sub sz r rows e' E1 E2 Hm E3|]; subst; clear H; try congruence.
    rewrite E in E1. injection E1 as <- <- <-. inversion Hm as [|r' _ K]; subst; [congruence|]. clear Hm. rewrite OP in K.
    destruct (kernel_stops _ _ _ _ _ _ _ _ _ K) as [(rows & ->)|[(-> & k & o & A & B)|(-> & k & o & ce & A & B & C)]].
    + discriminate.
    + left. cbn in E3. injection E3 as <-. split; auto. destruct (Back k o A) as (z & oi & x & Z1 & Z2 & -> & _). exists k, z, oi, x. auto.
    + right. cbn in E3. injection E3 as <-. split; auto. destruct (Back k o A) as (z & oi & x & Z1 & Z2 & -> & Nr). rewrite Nr in C.
      assert (Px : 0 < x * f).
      { apply Rmult_lt_0_compat; auto. apply Hr. apply nth_error_In in Z2. unfold listed, large in Z2. apply filter_In in Z2. destruct Z2 as (Z2 & _). apply in_combine_r in Z2. exact Z2. }
      split.
      { intros ->. inversion C. }
      destruct (off_or (d_box (built c a)) ce (map pm (inner c a oi))) as [Off|(q & Q1 & Q2)].
      * destruct (C43_sum _ _ _ _ _ _ C Px Hrs Off) as (Es & _). discriminate.
      * exists k, z, oi, x, ce, q. auto.
  - intros Hrs0 k z (o & x & ce & q & Z1 & Z2 & Hc & Hq & Eq) tab H.
    inversion H as [| | | | |sub sz r rows fd' E1 E2 Hm E3 E4]; subst. clear H. rewrite E in E1. injection E1 as <- <- <-.
    inversion Hm as [|r Hne Hk]; subst. clear Hm. rewrite OP in Hk. destruct (kernel_each _ _ _ _ _ _ _ _ _ Hk) as (_ & Each).
    destruct (picked_nth a zs k z Hg Z1) as (o' & x' & H1 & H2). fold p in H2. rewrite Z2 in H1. injection H1 as <- <-.
    assert (Ho : nth_error (map (fun o => map pm (inner c a o)) (map fst p)) k = Some (map pm (inner c a o))) by (rewrite !nth_error_map, H2; reflexivity).
    destruct (Each k _ Ho) as (ce' & row & Hc' & _ & Hob). cbn [plus] in Hc'. unfold built in Hc', Hob. cbn [d_kind d_box] in Hc', Hob. fold f in Hc', Hob.
    fold L in Hc', Hob. rewrite Hc in Hc'. injection Hc' as <-.
    pose proof (C43_raises _ _ _ _ _ _ q Hob Hrs0 Hq eq_refl). discriminate.
Qed.
Print Assumptions C124_fails.

(* A selected object with a particle that does not exist: IndexError, unless an object that exists, selected before it,
   fails already. *)
Lemma before_in d objs k o : nth_error (before_missing d objs) k = Some o -> nth_error objs k = Some o /\ exist d o = true.
Proof.
  revert k. induction objs as [|o' objs IH]; intros k H; cbn [before_missing] in H; [destruct k; discriminate|].
  destruct (exist d o') eqn:E; [|destruct k; discriminate]. destruct k as [|k]; [|exact (IH k H)]. cbn in H. injection H as <-. split; [reflexivity|exact E].
Qed.
Lemma before_stop d objs j o k : nth_error objs j = Some o -> exist d o = false -> (j <= k)%nat -> nth_error (before_missing d objs) k = None.
Proof.
  revert j k. induction objs as [|o' objs IH]; intros j k H X Hjk; [destruct k; reflexivity|]. cbn [before_missing].
  destruct j as [|j].
  - cbn in H. injection H as ->. rewrite X. destruct k; reflexivity.
  - destruct (exist d o'); [|destruct k; reflexivity]. destruct k as [|k]; [lia|]. cbn [nth_error] in *. eapply IH; eauto. lia.
Qed.
Theorem C124_missing : forall mfuel choose rs c a d c' s zs j z o x i,
  0 < little_h c -> 0 < in_l c -> shaped a -> make c a = inl d -> asks s zs -> good_selection zs (length (listed a)) ->
  (forall x, In x rs -> 0 < x) -> (forall x, In x (a_r200 a) -> 0 < x) ->
  nth_error zs j = Some z -> nth_error (listed a) (Z.to_nat z) = Some (o, x) -> In i o -> (length (a_xyz a) <= i)%nat ->
  let L := a_box a * (in_l c / cm (little_h c)) in
  let earlier e := exists k z o x r, (k < j)%nat /\ nth_error zs k = Some z /\ nth_error (listed a) (Z.to_nat z) = Some (o, x) /\
     center_of mfuel (a_kind a) (choose k) 1000 L (map pm (inner c a o)) = r /\
     match r with None => e = ERecursion | Some center => e = EZeroDivision /\ rs <> [] /\ exists q, In q (seen L (map pm (inner c a o))) /\ fst q = center end in
  (exists out, estDensProfsKernel mfuel choose rs c' d s out) /\
  forall out, estDensProfsKernel mfuel choose rs c' d s out -> out = inr EIndex \/ exists e, out = inr e /\ earlier e.
Proof.
  intros mfuel choose rs c a d c' s zs j z o x i Hh Hin Hs Hd Ha Hg Hrs Hr Hz Ho Hi Hl L earlier.
  assert (Hh0 : little_h c <> 0) by lra. pose proof Hs as (HL & _).
  rewrite make_shaped in Hd by auto. injection Hd as <-.
  pose proof (chosen_ok c a s zs Ha Hg) as E. cbv zeta in E.
  set (p := picked a (map Z.to_nat zs)) in *. set (f := in_l c / cm (little_h c)) in *.
  assert (Pf : 0 < f) by (unfold f; apply Rdiv_lt_0_compat; auto; apply cm_pos; auto).
  assert (Xo : exist (built c a) o = false).
  { apply not_true_iff_false. intros X. unfold exist in X. rewrite forallb_forall in X. specialize (X i Hi).
    unfold built in X. cbn [d_xyz] in X. rewrite map_length, Nat.ltb_lt in X. lia. }
  destruct (picked_nth a zs j z Hg Hz) as (o' & x' & H1 & H2). fold p in H2. rewrite Ho in H1. injection H1 as <- <-.
  assert (Hj : nth_error (map fst p) j = Some o) by (rewrite nth_error_map, H2; reflexivity).
  assert (X : exist (built c a) (concat (map fst p)) = false).
  { apply not_true_iff_false. intros X. apply not_true_iff_false in Xo. apply Xo. unfold exist in *. rewrite forallb_forall in *.
    intros n Hn. apply X. apply in_concat. exists o. split; auto. eapply nth_error_In; eauto. }
  set (objs := map (ptcs (d_xyz (built c a)) (d_masses (built c a))) (before_missing (built c a) (parts (concat (map fst p)) (map (@length nat) (map fst p))))) in *.
  assert (Back : forall k ob, nth_error objs k = Some ob -> exists z oi x, (k < j)%nat /\
     nth_error zs k = Some z /\ nth_error (listed a) (Z.to_nat z) = Some (oi, x) /\ ob = map pm (inner c a oi) /\
     nth k (map (fun or => snd or * f) p) 0 = x * f).
  { intros k ob Hk. unfold objs in Hk. rewrite parts_concat, nth_error_map in Hk.
    destruct (nth_error (before_missing (built c a) (map fst p)) k) as [oi|] eqn:Ek; [|discriminate]. injection Hk as <-.
    assert (kj : (k < j)%nat).
    { destruct (Nat.lt_ge_cases k j) as [?|G]; [auto|]. rewrite (before_stop _ _ _ _ _ Hj Xo G) in Ek. discriminate. }
    destruct (before_in _ _ _ _ Ek) as (Ek1 & Ek2). rewrite nth_error_map in Ek1. destruct (nth_error p k) as [(oi', xi)|] eqn:Ep; [|discriminate].
    cbn [option_map fst] in Ek1. injection Ek1 as ->.
    destruct (nth_error zs k) as [zk|] eqn:Ez.
    2:{ exfalso. apply nth_error_None in Ez. assert (Q : (j < length zs)%nat) by (apply nth_error_Some; congruence). lia. }
    destruct (picked_nth a zs k zk Hg Ez) as (o2 & x2 & P1 & P2). fold p in P2. rewrite Ep in P2. injection P2 as <- <-.
    exists zk, oi, xi. split; [auto|]. split; [auto|]. split; [auto|]. split.
    - apply ptcs_inner; auto. intros n Hn. unfold exist in Ek2. rewrite forallb_forall in Ek2. specialize (Ek2 n Hn).
      unfold built in Ek2. cbn [d_xyz] in Ek2. rewrite map_length, Nat.ltb_lt in Ek2. exact Ek2.
    - apply nth_error_nth. rewrite nth_error_map, Ep. reflexivity. }
  split.
  - destruct (kernel_runs mfuel (d_kind (built c a)) choose rs (d_box (built c a)) objs 0 (map (fun or => snd or * f) p)) as (r & K).
    destruct r as [rows| | | |]; eexists; try (eapply ek_earlier; [exact E|exact X|exact K|reflexivity]). eapply ek_missing; eauto.
  - intros out H. inversion H as [e' E1|sub sz r rows E1 E2 K|sub sz r y e' E1 E2 K E3|sub sz r y e' E1 E2|sub sz r rows e' E1 E2|sub sz r rows f' E1 E2]; subst; clear H; try congruence.
    + left. reflexivity.
    + right. rewrite E in E1. injection E1 as <- <- <-. fold objs in K. exists e'. split; [reflexivity|]. unfold earlier.
      destruct (kernel_stops _ _ _ _ _ _ _ _ _ K) as [(rows & ->)|[(-> & k & ob & A & B)|(-> & k & ob & ce & A & B & C)]].
      * discriminate.
      * cbn in E3. injection E3 as <-. destruct (Back k ob A) as (zk & oi & xi & kj & Z1 & Z2 & -> & _). exists k, zk, oi, xi, None. auto.
      * cbn in E3. injection E3 as <-. destruct (Back k ob A) as (zk & oi & xi & kj & Z1 & Z2 & -> & Nr). rewrite Nr in C.
        assert (Px : 0 < xi * f).
        { apply Rmult_lt_0_compat; auto. apply Hr. apply nth_error_In in Z2. unfold listed, large in Z2. apply filter_In in Z2. destruct Z2 as (Z2 & _). apply in_combine_r in Z2. exact Z2. }
        exists k, zk, oi, xi, (Some ce). split; [auto|]. split; [auto|]. split; [auto|]. split; [exact B|]. split; [reflexivity|].
        split; [intros ->; inversion C|].
        destruct (off_or (d_box (built c a)) ce (map pm (inner c a oi))) as [Off|Q]; [|exact Q].
        destruct (C43_sum _ _ _ _ _ _ C Px Hrs Off) as (Es & _). discriminate.
Qed.
Print Assumptions C124_missing.
Example C124_missing_example : let a := mkArgs cloud6 ones6 (Nested [[0; 1]; [0; 6]]%nat) [5; 10] 0 2 CCom in
  shaped a /\ exists d, make cfg_e a = inl d /\ good_selection [1%Z] (length (listed a)) /\
  nth_error (listed a) 1 = Some ([0; 6]%nat, 10) /\ forall out, estDensProfsKernel 1 (fun _ => [0; 1]%nat) [1] cfg_e d (SelList [1%Q]) out <-> out = inr EIndex.
Proof.
  intros a. assert (Hs : shaped a) by (repeat split; discriminate).
  assert (Hg : good_selection [1%Z] (length (listed a))).
  { split; [discriminate|]. split; [repeat constructor; intros []|]. intros z [<-|[]]. cbn. lia. }
  assert (Hh : little_h cfg_e <> 0) by (cbn; lra).
  split; [exact Hs|]. exists (built cfg_e a). split; [apply make_shaped; auto|]. split; [exact Hg|]. split; [reflexivity|].
  destruct (C124_missing 1 (fun _ => [0; 1]%nat) [1] cfg_e a (built cfg_e a) cfg_e (SelList [1%Q]) [1%Z] 0 1%Z [0; 6]%nat 10 6%nat) as ((o & Ho) & H);
    auto; try reflexivity; try (cbn; lra); try apply MPC_pos; try (apply make_shaped; auto); try (intros x [<-|[]]; lra); try (intros x [<-|[<-|[]]]; lra); try (cbn; auto).
  assert (T : forall out, estDensProfsKernel 1 (fun _ => [0; 1]%nat) [1] cfg_e (built cfg_e a) (SelList [1%Q]) out -> out = inr EIndex).
  { intros out Q. destruct (H out Q) as [->|(e & _ & k & _ & _ & _ & _ & L & _)]; [reflexivity|lia]. }
  intros out. split; [apply T|]. intros ->. rewrite <- (T _ Ho). exact Ho.
Qed.

(** ** Example and refutation *)
(** Object 0 has six particles around its centre; object 1 has three in a row, the middle one at the centre. *)
Definition args_r : args := mkArgs (cloud6 ++ [mkV (-1) 0 0; mkV 0 0 0; mkV 1 0 0]) (repeat 1 9)
  (Nested [[0; 1; 2; 3; 4; 5]; [6; 7; 8]]%nat) [10; 10] 0 2 CCom.
Definition any_choice (k : nat) : list nat := seq 0 (if (k =? 0)%nat then 6 else 3).
Lemma fits_r : fits args_r.
Proof. unfold fits, args_r. cbn. repeat split; try discriminate; try lia. intros o i [<-|[<-|[]]] Hi; cbn in Hi; lia. Qed.
Lemma usable_e : usable_out (little_h cfg_e) cfg_e.
Proof.
  pose proof MPC_pos. pose proof MSUN10_pos. assert (0 < 10 ^ 10) by (apply pow_lt; lra).
  unfold usable_out, cfg_e. cbn [little_h out_l out_m]. repeat split; apply Rgt_not_eq; apply Rdiv_lt_0_compat; lra.
Qed.
Lemma scale_e : in_l cfg_e / cm (little_h cfg_e) = 1.
Proof. unfold cm. cbn. field. pose proof MPC_pos. lra. Qed.
Lemma inner_r o : inner cfg_e args_r o = map (fun i => (nth i (a_xyz args_r) v0, v0, nth i (a_masses args_r) 0)) o.
Proof.
  unfold inner. rewrite scale_e. replace (in_m cfg_e / gr (little_h cfg_e)) with 1 by (unfold gr; cbn; field; pose proof MSUN10_pos; lra).
  apply map_ext. intros i. rewrite Rmult_1_r. f_equal. f_equal. unfold vscale. rewrite !Rmult_1_l. destruct (nth i (a_xyz args_r) v0). reflexivity.
Qed.
Lemma seen_zero o : seen 0 o = o.
Proof. apply seen_unmoved. unfold unmoved, cy_respectPBCNoRef. destruct Req_EM_T; [reflexivity|lra]. Qed.
Lemma center_r1 mfuel : center_of mfuel CCom (any_choice 1) 1000 0 (map pm (inner cfg_e args_r [6; 7; 8]%nat)) = Some v0.
Proof.
  rewrite inner_r. unfold center_of. f_equal. unfold respectPBCNoRef. destruct Req_EM_T; [|lra]. apply vec_ext. intros ax Hax.
  rewrite com_mean by (auto; unfold mass; cbn; lra). unfold mean, mass. axis Hax; cbn; lra.
Qed.
Lemma center_r0 mfuel : center_of mfuel CCom (any_choice 0) 1000 0 (map pm (inner cfg_e args_r [0; 1; 2; 3; 4; 5]%nat)) = Some v0.
Proof.
  rewrite inner_r. unfold center_of. f_equal. unfold respectPBCNoRef. destruct Req_EM_T; [|lra]. apply vec_ext. intros ax Hax.
  rewrite com_mean by (auto; unfold mass; cbn; lra). unfold mean, mass. axis Hax; cbn; lra.
Qed.

(* Object 0 alone gets a profile; asked for together with object 1 there is none for either. *)
Theorem C124_refuted : exists d, make cfg_e args_r = inl d /\ fits args_r /\ usable_out (little_h cfg_e) cfg_e /\
  good_selection [0%Z; 1%Z] (length (listed args_r)) /\
  (exists v, estDensProfsKernel 1 any_choice [1/10] cfg_e d (SelList [0%Q]) (inl [[Fin v]])) /\
  forall out, estDensProfsKernel 1 any_choice [1/10] cfg_e d (SelList [0%Q; 1%Q]) out <-> out = inr EZeroDivision.
Proof.
  pose proof fits_r as Hf. pose proof usable_e as Hu. assert (Hh : 0 < little_h cfg_e) by (cbn; lra). assert (Hi : 0 < in_l cfg_e) by apply MPC_pos.
  assert (Hx : forall x, In x [1/10] -> 0 < x) by (intros x [<-|[]]; lra).
  assert (Hr : forall x, In x (a_r200 args_r) -> 0 < x) by (intros x [<-|[<-|[]]]; lra).
  assert (G0 : good_selection [0%Z] (length (listed args_r))).
  { split; [discriminate|]. split; [repeat constructor; intros []|]. intros z [<-|[]]. cbn. lia. }
  assert (G1 : good_selection [0%Z; 1%Z] (length (listed args_r))).
  { split; [discriminate|]. split; [repeat constructor; cbn; intuition discriminate|]. intros z [<-|[<-|[]]]; cbn; lia. }
  assert (L0 : a_box args_r * (in_l cfg_e / cm (little_h cfg_e)) = 0) by (cbn [args_r a_box]; ring).
  assert (Hm : make cfg_e args_r = inl (built cfg_e args_r)) by (apply make_ok; auto; lra).
  exists (built cfg_e args_r). split; [exact Hm|]. split; [exact Hf|]. split; [exact Hu|]. split; [exact G1|].
  destruct (C124_fails 1 any_choice [1/10] cfg_e args_r _ cfg_e (SelList [0%Q]) [0%Z] Hh Hi Hf Hm Hu eq_refl Hx Hr) as (_ & A).
  destruct (C124_fails 1 any_choice [1/10] cfg_e args_r _ cfg_e (SelList [0%Q; 1%Q]) [0%Z; 1%Z] Hh Hi Hf Hm Hu eq_refl Hx Hr) as (_ & B).
  cbv zeta in A, B. rewrite L0 in A, B. destruct (A G0) as ((out & Ho) & A2 & _). destruct (B G1) as ((out' & Ho') & B2 & B3). split.
  - destruct out as [tab|e].
    + destruct (C124_densities 1 any_choice [1/10] cfg_e args_r _ cfg_e (SelList [0%Q]) [0%Z] tab Hh Hi Hf Hm Hu eq_refl Hx Hr Ho) as (_ & Lt & D).
      destruct (D 0%nat 0%Z eq_refl) as (o & x & ce & row & _ & Er & Lr & _ & V). destruct (V 0%nat) as (v & Ev & _); [cbn; lia|].
      destruct tab as [|r0 [|? ?]]; try discriminate. cbn in Er. injection Er as ->. destruct row as [|y [|? ?]]; try discriminate.
      cbn in Ev. subst y. exists v. exact Ho.
    + exfalso. destruct (A2 e Ho) as [(_ & k & z & o & x & Z1 & Z2 & Z3)|(_ & _ & k & z & o & x & ce & q & Z1 & Z2 & Z3 & Z4 & Z5)].
      * discriminate Z3.
      * destruct k as [|[|k]]; try discriminate. cbn in Z1. injection Z1 as <-. cbn in Z2. injection Z2 as <- <-.
        change (a_kind args_r) with CCom in Z3. rewrite center_r0 in Z3. injection Z3 as <-. rewrite seen_zero, inner_r in Z4. cbn in Z4.
        unfold v0 in Z5. destruct Z4 as [<-|[<-|[<-|[<-|[<-|[<-|[]]]]]]]; cbn in Z5; injection Z5; intros; lra.
  - assert (S : forall tab, ~ estDensProfsKernel 1 any_choice [1/10] cfg_e (built cfg_e args_r) (SelList [0%Q; 1%Q]) (inl tab)).
    { apply (B3 ltac:(discriminate) 1%nat 1%Z). exists [6; 7; 8]%nat, 10, v0, (v0, 1). split; [reflexivity|]. split; [reflexivity|].
      split; [apply center_r1|]. split; [|reflexivity]. rewrite seen_zero, inner_r. cbn. auto. }
    assert (T : forall out, estDensProfsKernel 1 any_choice [1/10] cfg_e (built cfg_e args_r) (SelList [0%Q; 1%Q]) out -> out = inr EZeroDivision).
    { intros [tab|e] H; [destruct (S tab H)|]. destruct (B2 e H) as [(_ & k & z & o & x & Z1 & Z2 & Z3)|(-> & _)]; [|reflexivity]. exfalso.
      discriminate Z3. }
    intros out2. split; [apply T|]. intros ->. rewrite <- (T _ Ho'). exact Ho'.
Qed.
Print Assumptions C124_refuted.
(** The hypotheses of C124_densities and C124_fails for object 0. *)
Example C124_example : exists d v, 0 < little_h cfg_e /\ 0 < in_l cfg_e /\ fits args_r /\ make cfg_e args_r = inl d /\ usable_out (little_h cfg_e) cfg_e /\
  asks (SelList [0%Q]) [0%Z] /\ (forall x, In x [1/10] -> 0 < x) /\ (forall x, In x (a_r200 args_r) -> 0 < x) /\
  estDensProfsKernel 1 any_choice [1/10] cfg_e d (SelList [0%Q]) (inl [[Fin v]]).
Proof.
  destruct C124_refuted as (d & Hm & Hf & Hu & _ & (v & H) & _). exists d, v. split; [cbn; lra|]. split; [apply MPC_pos|].
  split; [auto|]. split; [auto|]. split; [auto|]. split; [reflexivity|]. split; [intros x [<-|[]]; lra|]. split; [intros x [<-|[<-|[]]]; lra|]. exact H.
Qed.
