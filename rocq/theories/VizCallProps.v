(** C132: the shape figures of whole calls. *)
From Coq Require Import List Reals ZArith QArith Lra Lia Bool.
From Verif Require Import ListUtil ParModel XR ConfigModel ConfigUnits CatModel CatSpec CatProofs CatMpi GeoModel GeoSpec GeoProofs GeoProps
  ShapeModel ShapeSpec ShapeProofs Spectral ShapeExamples ShapePar ShapeProps LocalTProps ShapeMoveModel DensModel DensSpec DensProofs DensEll DensProps FitModel FitProps FitErr
  EndModel EndProps VizModel PlotCallModel PlotCallProps VizCallModel.
Import ListNotations.
Local Open Scope R_scope.

Lemma out_factor_ok c : little_h c <> 0 -> out_l c <> 0 -> out_factor c = inl (cm (little_h c) / out_l c).
Proof. intros Hh Hl. unfold out_factor. rewrite internal_cm by auto. rewrite pydiv_ok by auto. reflexivity. Qed.
Lemma nth_panels again fl d ns tab cs k n : nth_error ns k = Some n ->
  nth_error (panels again fl d ns tab cs) k =
    Some (mkPanel n (viz_particles (again k) fl (d_box d) (drawn d n)) (vscale fl (nth k cs v0)) (option_map (map (to_row fl)) (nth k tab None))).
Proof.
  intros H. unfold panels. rewrite nth_error_map.
  assert (G : forall m l i, nth_error l i = Some n -> nth_error (combine (seq m (length l)) l) i = Some ((m + i)%nat, n)).
  { clear. intros m l. revert m. induction l as [|y l IH]; intros m i H; [destruct i; discriminate|]. destruct i as [|i]; cbn [length seq combine nth_error] in *.
    - injection H as ->. rewrite Nat.add_0_r. reflexivity.
    - rewrite (IH (S m) i H). do 2 f_equal. lia. }
  rewrite (G 0%nat ns k H). reflexivity.
Qed.
Lemma run_numbers_ok c a s zs : asks s zs -> good_selection zs (length (listed a)) -> run_numbers (built c a) s = map Z.to_nat zs.
Proof.
  intros Ha Hg. unfold run_numbers, built. cbn [d_sizes]. rewrite map_length.
  destruct (select_ok s zs _ Ha Hg) as (arr & -> & E). exact E.
Qed.
Lemma drawn_ok c a n o x : fits a -> nth_error (listed a) n = Some (o, x) -> drawn (built c a) n = inner c a o.
Proof.
  intros Hf H. unfold drawn, built at 2 3. cbn [d_cat d_sizes]. rewrite <- (map_map fst (@length nat)), parts_concat.
  rewrite (nth_error_nth _ n [] (eq_trans (nth_error_map fst n (listed a)) (f_equal (option_map fst) H))). cbn [fst].
  destruct Hf as (Hl & _ & _ & _ & Hi). apply particles_inner; auto. intros i Hin. apply (Hi o i); auto. apply nth_error_In in H. eapply listed_in; eauto.
Qed.

(* Figure k carries number zs[k] in its name and shows the object with this number: its particles, the centre used for its
   shape, and the shape its particles alone give, all lengths in the output unit. *)
Theorem C132_panels : forall mfuel choose again eig fuel kc vt c a d c' s zs ps,
  little_h c <> 0 -> fits a -> make c a = inl d -> little_h c' = little_h c -> out_l c' <> 0 -> asks s zs ->
  vizShapes mfuel choose again eig fuel kc vt c' d s (inl ps) ->
  good_selection zs (length (listed a)) /\ length ps = length zs /\
  forall k z, nth_error zs k = Some z -> exists o x center e m p,
    nth_error (listed a) (Z.to_nat z) = Some (o, x) /\ nth_error ps k = Some p /\ Z.of_nat (p_number p) = z /\
    let u := in_l c / cm (little_h c) in let v := cm (little_h c) / out_l c' in let L := a_box a * u in
    p_particles p = map (vscale v) (respectPBCNoRef (again k) (map (fun i => vscale u (nth i (a_xyz a) v0)) o) L) /\
    shape_center mfuel (a_kind a) (choose k) L (inner c a o) = Some center /\
    [p_center p] = map (vscale v) (recentreObject [center] L) /\
    calcMorph eig fuel kc L vt [inner c a o] [x * u] [center] (Ret ([e], [m])) /\
    match e, p_rows p with Some l, Some l' => Forall2 (reported v) l l' | None, None => True | _, _ => False end.
Proof.
  intros mfuel choose again eig fuel kc vt c a d c' s zs ps Hh Hf Hd Eh Hl Ha H.
  rewrite make_ok in Hd by auto. injection Hd as <-.
  inversion H as [| |sub sz r tab cs fl E1 E2 Hm E3 E4]; subst. clear H.
  assert (Hg : good_selection zs (length (listed a))).
  { destruct (valid_numbers zs (length (listed a))) eqn:V; [apply valid_good; exact V|]. exfalso.
    assert (N : ~ good_selection zs (length (listed a))) by (intros G; apply valid_good in G; congruence).
    pose proof (chosen_bad c a s zs Ha N) as E. congruence. }
  split; auto. pose proof (chosen_ok c a s zs Ha Hg) as E. cbv zeta in E.
  rewrite E in E1. injection E1 as <- <- <-. rewrite out_factor_ok in E3 by congruence. injection E3 as <-. rewrite Eh.
  rewrite parts_concat, objs_inner in Hm by auto. unfold built in Hm at 1 2. cbn [d_kind d_box] in Hm.
  rewrite (run_numbers_ok c a s zs) by auto.
  set (p := picked a (map Z.to_nat zs)) in *. set (f := in_l c / cm (little_h c)) in *.
  inversion Hm as [centers r HF HC]; subst. clear Hm. apply Forall2_seq_nth in HF. destruct HF as (Lc & HF).
  split. { unfold panels. rewrite map_length, combine_length, seq_length, !map_length. lia. }
  intros k z Hk. destruct (picked_nth a zs k z Hg Hk) as (o & x & H1 & H2). fold p in H2.
  assert (Ho : nth_error (map (inner c a) (map fst p)) k = Some (inner c a o)) by (rewrite !nth_error_map, H2; reflexivity).
  destruct (HF k _ Ho) as (center & Hc & Hs). cbn [fst snd] in Hs.
  destruct (runs_exist eig fuel kc (a_box a * f) vt [inner c a o] [x * f] [center]) as (r1 & Hr1).
  assert (Nr : nth k (map (fun or => snd or * f) p) 0 = x * f).
  { apply nth_error_nth. rewrite nth_error_map, H2. reflexivity. }
  assert (Nc : nth k centers v0 = center) by (apply nth_error_nth; auto).
  destruct (C35_own _ _ _ _ _ _ _ _ _ k (inner c a o) r1 HC Ho) as (e & m & -> & He & _).
  { rewrite Nr, Nc. exact Hr1. }
  eexists o, x, center, e, m, _. split; [exact H1|]. split; [apply nth_panels; rewrite nth_error_map, Hk; reflexivity|].
  cbn [p_number p_particles p_center p_rows]. split.
  { apply Z2Nat.id. destruct Hg as (_ & Hg). apply nth_error_In in Hk. apply Hg in Hk. lia. }
  cbv zeta. rewrite (drawn_ok c a _ o x Hf H1). split.
  { unfold viz_particles, inner. change (d_box (built c a)) with (a_box a * f). rewrite !map_map. reflexivity. }
  split; [exact Hs|]. split.
  { unfold recentreObject. cbn [map]. do 2 f_equal. apply nth_error_nth. rewrite nth_error_map, Hc. reflexivity. }
  split; [exact Hr1|].
  rewrite (nth_error_nth _ _ None He). destruct e as [l|]; cbn [option_map]; [|exact Logic.I].
  clear. induction l as [|mi l IH]; cbn [map]; constructor; [apply to_row_ok|exact IH].
Qed.
Print Assumptions C132_panels.

(* The rows drawn are the rows that getShapeCatLocal or getShapeCatGlobal returns for the same selection, in the same order. *)
Theorem C132_catalogue : forall mfuel choose again eig fuel kc vt c a d c' s zs ps,
  little_h c <> 0 -> fits a -> make c a = inl d -> usable_out (little_h c) c' -> asks s zs ->
  vizShapes mfuel choose again eig fuel kc vt c' d s (inl ps) ->
  getShapeCat mfuel choose eig fuel kc vt c' d s (inl (map p_rows ps)).
Proof.
  intros mfuel choose again eig fuel kc vt c a d c' s zs ps Hh Hf Hd Hu Ha H.
  assert (Hz : good_selection zs (length (listed a)) /\ length ps = length zs).
  { destruct Hu as (E & Hl & _). destruct (C132_panels mfuel choose again eig fuel kc vt c a d c' s zs ps Hh Hf Hd E Hl Ha H) as (X & Y & _). auto. }
  destruct Hz as (Hg & Lp). rewrite make_ok in Hd by auto. injection Hd as <-.
  inversion H as [| |sub sz r tab cs fl E1 E2 Hm E3 E4]; subst.
  pose proof (to_out_ok (little_h c) c' Hh Hu) as T.
  assert (F : fl = cm (little_h c) / out_l c').
  { destruct Hu as (E & Hl & _). rewrite out_factor_ok in E3 by congruence. injection E3 as <-. rewrite E. reflexivity. }
  subst fl.
  replace (map p_rows _) with (map (option_map (map (to_row (cm (little_h c) / out_l c')))) (fst tab)); [eapply gs_ok; eauto|].
  assert (G : getShapeCat mfuel choose eig fuel kc vt c' (built c a) s (inl (map (option_map (map (to_row (cm (little_h c) / out_l c')))) (fst tab)))) by (eapply gs_ok; eauto).
  destruct (C123_shapes _ _ _ _ _ _ c a (built c a) c' s zs _ Hh Hf (make_ok c a Hh Hf) Hu Ha G) as (_ & Lt & _). rewrite map_length in Lt.
  rewrite (run_numbers_ok c a s zs Ha Hg) in *.
  unfold panels in Lp. apply nth_error_ext_len; [unfold panels; rewrite !map_length in *; exact (eq_trans Lt (eq_sym Lp))|].
  intros k w w' Hw Hw'. assert (Kt : (k < length (fst tab))%nat) by (rewrite <- (map_length (option_map (map (to_row (cm (little_h c) / out_l c')))) (fst tab)); apply nth_error_Some; congruence).
  destruct (nth_error zs k) as [z|] eqn:Ez; [|apply nth_error_None in Ez; lia].
  rewrite nth_error_map in Hw'. rewrite (nth_panels _ _ _ _ _ _ k (Z.to_nat z)) in Hw' by (rewrite nth_error_map, Ez; reflexivity). cbn [option_map p_rows] in Hw'.
  rewrite nth_error_map, (nth_error_nth' (fst tab) None Kt) in Hw. cbn [option_map] in Hw. congruence.
Qed.
Print Assumptions C132_catalogue.

(* A selection with an invalid number ends in ValueError, an output length unit of zero in ZeroDivisionError (or in the exception
   of the shapes); the output mass unit does not matter. *)
Theorem C132_failures : forall mfuel choose again eig fuel kc vt c a d c' s zs,
  little_h c <> 0 -> fits a -> make c a = inl d -> asks s zs ->
  (~ good_selection zs (length (listed a)) -> forall out, vizShapes mfuel choose again eig fuel kc vt c' d s out <-> out = inr EValue) /\
  (out_l c' = 0 -> forall out, vizShapes mfuel choose again eig fuel kc vt c' d s out ->
     out = inr EZeroDivision \/ exists e, out = inr e /\ shapeTables mfuel choose eig fuel kc vt d s (inr e)) /\
  (forall c2 out, little_h c2 = little_h c' -> out_l c2 = out_l c' ->
     vizShapes mfuel choose again eig fuel kc vt c' d s out -> vizShapes mfuel choose again eig fuel kc vt c2 d s out).
Proof.
  intros mfuel choose again eig fuel kc vt c a d c' s zs Hh Hf Hd Ha. rewrite make_ok in Hd by auto. injection Hd as <-. split; [|split].
  - intros N. pose proof (chosen_bad c a s zs Ha N) as E.
    assert (T : forall out, shapeTables mfuel choose eig fuel kc vt (built c a) s out <-> out = inr EValue).
    { intros out. split; [intros H; inversion H; subst; congruence|intros ->; apply st_selection; exact E]. }
    intros out. split; [|intros ->; apply vz_fail, T; reflexivity].
    intros H. inversion H as [e H1|x e H1|]; subst; [apply T in H1; congruence|apply T in H1; discriminate|congruence].
  - intros Z0 out H. assert (F : out_factor c' = inr EZeroDivision).
    { unfold out_factor. rewrite Z0. unfold pydiv. destruct (internal c') as [((li & mi) & vi)|]; [|reflexivity]. destruct (Req_EM_T 0 0); [reflexivity|congruence]. }
    inversion H as [e H1|x e H1 H2|]; subst; [right; eauto| |congruence]. left. congruence.
  - intros c2 out Eh El H. assert (F : out_factor c2 = out_factor c') by (unfold out_factor, internal; rewrite Eh, El; reflexivity).
    inversion H; subst; [eapply vz_fail; eauto|eapply vz_units; eauto; congruence|eapply vz_ok; eauto; congruence].
Qed.
Print Assumptions C132_failures.

(* With usable output units every call has an outcome, and the exceptions are those of getShapeCatLocal or getShapeCatGlobal. *)
Theorem C132_outcomes : forall mfuel choose again eig fuel kc vt c a d c' s zs,
  little_h c <> 0 -> fits a -> make c a = inl d -> usable_out (little_h c) c' -> asks s zs ->
  (exists out, vizShapes mfuel choose again eig fuel kc vt c' d s out) /\
  (forall e, vizShapes mfuel choose again eig fuel kc vt c' d s (inr e) <-> getShapeCat mfuel choose eig fuel kc vt c' d s (inr e)) /\
  ((exists ps, vizShapes mfuel choose again eig fuel kc vt c' d s (inl ps)) <-> exists tab, getShapeCat mfuel choose eig fuel kc vt c' d s (inl tab)).
Proof.
  intros mfuel choose again eig fuel kc vt c a d c' s zs Hh Hf Hd Hu Ha.
  pose proof (to_out_ok (little_h c) c' Hh Hu) as T.
  assert (F : exists fl, out_factor c' = inl fl) by (destruct Hu as (E & Hl & _); eexists; apply out_factor_ok; congruence). destruct F as (fl & F).
  assert (Err : forall e, vizShapes mfuel choose again eig fuel kc vt c' d s (inr e) <-> getShapeCat mfuel choose eig fuel kc vt c' d s (inr e)).
  { intros e. split.
    - intros H. inversion H as [e0 H1|x e0 H1 H2|]; subst; [|congruence]. apply (proj1 (C130_returned mfuel choose eig fuel kc vt c' d s _ Hh Hu)); exact H1.
    - intros H. apply vz_fail. inversion H; subst; try congruence; [eapply st_selection|eapply st_missing|eapply st_mode|eapply st_raise]; eauto. }
  assert (Ret : (exists ps, vizShapes mfuel choose again eig fuel kc vt c' d s (inl ps)) <-> exists tab, getShapeCat mfuel choose eig fuel kc vt c' d s (inl tab)).
  { split.
    - intros (ps & H). eexists. eapply (C132_catalogue _ _ _ _ _ _ _ c a d c' s zs ps); eauto.
    - intros (tab & H). inversion H; subst. eexists. eapply vz_ok; eauto. }
  split; [|split; auto].
  destruct (C123_failures mfuel choose eig fuel kc vt [] c a d c' s zs Hh Hf Hd Hu Ha) as (Bad & Good).
  assert (X : exists out, getShapeCat mfuel choose eig fuel kc vt c' d s out).
  { destruct (good_or_value a s zs Ha) as [N|G]; [|apply Good; exact G]. exists (inr EValue). apply (Bad N). reflexivity. }
  destruct X as ([tab|e] & X); [destruct (proj2 Ret (ex_intro _ tab X)) as (ps & P); eauto|exists (inr e); apply Err; exact X].
Qed.
Print Assumptions C132_outcomes.

Lemma reported_fun k mi w w' : reported k mi w -> reported k mi w' -> w = w'.
Proof.
  destruct w, w'. unfold reported. cbn.
  intros (-> & -> & -> & C & -> & -> & ->) (-> & -> & -> & C' & -> & -> & ->). f_equal.
  apply eq_true_iff_eq. tauto.
Qed.
(* The figure of an object does not depend on what else is selected, nor on its place in the selection, if the random choices made for it
   agree. *)
Theorem C132_alone : forall mfuel eig fuel kc vt c a d c' choose again s zs ps choose' again' s' zs' ps' k k' z,
  little_h c <> 0 -> fits a -> make c a = inl d -> little_h c' = little_h c -> out_l c' <> 0 -> asks s zs -> asks s' zs' ->
  vizShapes mfuel choose again eig fuel kc vt c' d s (inl ps) -> vizShapes mfuel choose' again' eig fuel kc vt c' d s' (inl ps') ->
  nth_error zs k = Some z -> nth_error zs' k' = Some z -> choose k = choose' k' -> again k = again' k' ->
  exists p, nth_error ps k = Some p /\ nth_error ps' k' = Some p.
Proof.
  intros mfuel eig fuel kc vt c a d c' choose again s zs ps choose' again' s' zs' ps' k k' z Hh Hf Hd Eh Hl Ha Ha' H H' Hk Hk' Ec Eg.
  destruct (C132_panels _ _ _ _ _ _ _ _ _ _ _ _ _ _ Hh Hf Hd Eh Hl Ha H) as (_ & _ & X). destruct (X k z Hk) as (o & x & cen & e & m & p & A1 & A2 & A3 & B). clear X.
  destruct (C132_panels _ _ _ _ _ _ _ _ _ _ _ _ _ _ Hh Hf Hd Eh Hl Ha' H') as (_ & _ & X). destruct (X k' z Hk') as (o' & x' & cen' & e' & m' & p' & A1' & A2' & A3' & B'). clear X.
  cbv zeta in B, B'. destruct B as (B1 & B2 & B3 & B4 & B5). destruct B' as (B1' & B2' & B3' & B4' & B5').
  rewrite A1 in A1'. injection A1' as <- <-. rewrite <- Ec, B2 in B2'. injection B2' as <-.
  apply driver_result in B4, B4'. cbv zeta in B4, B4'. assert (Ee : e' = e) by congruence. rewrite Ee in B5'. clear Ee B4 B4'.
  exists p. split; [exact A2|]. rewrite A2'. f_equal.
  destruct p as [n pt ce ro], p' as [n' pt' ce' ro']. cbn [p_number p_particles p_center p_rows] in *.
  f_equal; [lia|rewrite B1, B1', Eg; reflexivity|congruence|].
  destruct e as [l|], ro as [l1|], ro' as [l2|]; try contradiction; [|reflexivity]. f_equal.
  clear - B5 B5'. revert l1 l2 B5 B5'. induction l as [|mi l IH]; intros l1 l2 F F'; inversion F; inversion F'; subst; [reflexivity|].
  f_equal; [eapply reported_fun; eauto|eapply IH; eauto].
Qed.
Print Assumptions C132_alone.

(* The figures of C104 for object number zs[k] and the centre of its shape show the particles and the centre of figure k, global or
   local and whatever the rows. *)
Theorem C132_figures : forall mfuel choose again eig fuel kc vt c a d c' s zs ps k z p,
  little_h c <> 0 -> fits a -> make c a = inl d -> little_h c' = little_h c -> out_l c' <> 0 -> asks s zs ->
  vizShapes mfuel choose again eig fuel kc vt c' d s (inl ps) -> nth_error zs k = Some z -> nth_error ps k = Some p ->
  exists o x center,
    nth_error (listed a) (Z.to_nat z) = Some (o, x) /\
    let v := cm (little_h c) / out_l c' in let L := a_box a * (in_l c / cm (little_h c)) in
    shape_center mfuel (a_kind a) (choose k) L (inner c a o) = Some center /\
    (forall f, let g := viz_global (again k) v L center f (inner c a o) in f_particles g = p_particles p /\ f_center g = p_center p) /\
    (forall fs, let g := viz_local (again k) v L center fs (inner c a o) in f_particles g = p_particles p /\ f_center g = p_center p).
Proof.
  intros mfuel choose again eig fuel kc vt c a d c' s zs ps k z p Hh Hf Hd Eh Hl Ha H Hk Hp.
  destruct (C132_panels _ _ _ _ _ _ _ _ _ _ _ _ _ _ Hh Hf Hd Eh Hl Ha H) as (_ & _ & X). destruct (X k z Hk) as (o & x & cen & e & m & p' & A1 & A2 & _ & B).
  rewrite Hp in A2. injection A2 as <-. cbv zeta in B. destruct B as (B1 & B2 & B3 & _).
  exists o, x, cen. split; [exact A1|]. cbv zeta. split; [exact B2|].
  assert (P : viz_particles (again k) (cm (little_h c) / out_l c') (a_box a * (in_l c / cm (little_h c))) (inner c a o) = p_particles p).
  { rewrite B1. unfold viz_particles, inner. rewrite !map_map. reflexivity. }
  assert (C : viz_center (cm (little_h c) / out_l c') (a_box a * (in_l c / cm (little_h c))) cen = p_center p).
  { unfold viz_center. unfold recentreObject in *. cbn [map nth] in *. congruence. }
  split; intros; split; [exact P|exact C|exact P|exact C].
Qed.
Print Assumptions C132_figures.

(** ** Example *)
(* The six particles of C130_example: one figure is saved, for object number 0. *)
Example C132_example : little_h cfg_e <> 0 /\ fits args_e /\ asks (SelList [0%Q]) [0%Z] /\ usable_out (little_h cfg_e) cfg_e /\
  ~ good_selection [1%Z] (length (listed args_e)) /\
  exists d p mi, make cfg_e args_e = inl d /\ mq mi = Fin (2/3) /\ ms mi = Fin (1/3) /\
    vizShapes 1 (fun _ => seq 0 6) (fun _ => seq 0 6) exact_eig 100 cfg1 Global cfg_e d (SelList [0%Q]) (inl [p]) /\
    p_number p = 0%nat /\ length (p_particles p) = 6%nat /\ p_rows p = Some [to_row (cm (little_h cfg_e) / out_l cfg_e) mi].
Proof.
  destruct C123_example as (Hf & Hu & Ha & Hg & _ & _ & Hb & _). assert (Hh : little_h cfg_e <> 0) by (cbn; lra).
  split; [exact Hh|]. split; [exact Hf|]. split; [exact Ha|]. split; [exact Hu|]. split; [exact Hb|].
  destruct (tables_e Global (or_introl eq_refl)) as (mi & m & Q & S & T).
  inversion T as [| | | |sub sz r tab cs E X M Eq]; subst.
  assert (F : out_factor cfg_e = inl (cm (little_h cfg_e) / out_l cfg_e)) by (apply out_factor_ok; apply Hu || exact Hh).
  pose proof (vz_ok 1 (fun _ => seq 0 6) (fun _ => seq 0 6) exact_eig 100 cfg1 Global cfg_e (built cfg_e args_e) (SelList [0%Q]) sub sz _ tab cs _ E X M F) as V.
  rewrite (run_numbers_ok cfg_e args_e _ [0%Z] Ha Hg) in V.
  eexists (built cfg_e args_e), _, mi. split; [apply make_ok; auto|]. split; [exact Q|]. split; [exact S|]. split; [exact V|].
  cbn [p_number p_particles p_rows fst snd]. split; [reflexivity|]. split.
  - unfold viz_particles. rewrite map_length. change (Z.to_nat 0) with 0%nat. rewrite (drawn_ok cfg_e args_e 0 [0; 1; 2; 3; 4; 5]%nat 10 Hf eq_refl).
    unfold respectPBCNoRef. destruct (Req_EM_T _ 0); [reflexivity|]. cbv zeta. rewrite map_length. reflexivity.
  - replace (fst tab) with (map Some [[mi]]) by congruence. reflexivity.
Qed.
(* Two objects of a catalogue (of the same six particles): the second alone, and both; the hypotheses of C132_alone are met. *)
Definition args_2 : args := mkArgs cloud6 ones6 (Nested [[0; 1; 2; 3; 4; 5]; [0]; [0; 1; 2; 3; 4; 5]]%nat) [10; 5; 10] 0 2 CCom.
Example C132_alone_example : little_h cfg_e <> 0 /\ fits args_2 /\ out_l cfg_e <> 0 /\ asks (SelList [1%Q]) [1%Z] /\ asks (SelList [0%Q; 1%Q]) [0%Z; 1%Z] /\
  exists d p ps', make cfg_e args_2 = inl d /\
    vizShapes 1 (fun _ => seq 0 6) (fun _ => seq 0 6) exact_eig 100 cfg1 Global cfg_e d (SelList [1%Q]) (inl [p]) /\
    vizShapes 1 (fun _ => seq 0 6) (fun _ => seq 0 6) exact_eig 100 cfg1 Global cfg_e d (SelList [0%Q; 1%Q]) (inl ps') /\
    nth_error ps' 1 = Some p /\ p_number p = 1%nat /\ length ps' = 2%nat.
Proof.
  destruct C132_example as (Hh & Hfe & Hae & Hu & _ & de & pe & mi0 & Hde & _ & _ & V & _).
  assert (Hf : fits args_2). { unfold fits, args_2. cbn. repeat split; try discriminate; try lia. intros o i [<-|[<-|[<-|[]]]] Hi; cbn in Hi; lia. }
  assert (Hl : out_l cfg_e <> 0) by apply Hu. pose proof (make_ok cfg_e args_2 Hh Hf) as Hd.
  assert (Ha1 : asks (SelList [1%Q]) [1%Z]) by reflexivity. assert (Ha2 : asks (SelList [0%Q; 1%Q]) [0%Z; 1%Z]) by reflexivity.
  split; [exact Hh|]. split; [exact Hf|]. split; [exact Hl|]. split; [exact Ha1|]. split; [exact Ha2|].
  assert (R : forall s zs, asks s zs -> good_selection zs (length (listed args_2)) ->
    exists ps, vizShapes 1 (fun _ => seq 0 6) (fun _ => seq 0 6) exact_eig 100 cfg1 Global cfg_e (built cfg_e args_2) s (inl ps)).
  { intros s zs Ha Hg. destruct (C132_outcomes 1 (fun _ => seq 0 6) (fun _ => seq 0 6) exact_eig 100 cfg1 Global cfg_e args_2 _ cfg_e _ _ Hh Hf Hd Hu Ha) as ((out & O) & Er & _).
    destruct out as [ps'|e]; [eauto|]. exfalso. apply Er in O.
    destruct (C123_failures 1 (fun _ => seq 0 6) exact_eig 100 cfg1 Global [] cfg_e args_2 _ cfg_e _ _ Hh Hf Hd Hu Ha) as (_ & G).
    destruct (G Hg) as (_ & G'). destruct (G' e O) as (k & z & o & x & _ & K2 & W). cbv zeta in W.
    assert (Eo : o = [0; 1; 2; 3; 4; 5]%nat /\ x = 10).
    { apply nth_error_In in K2. destruct K2 as [K|[K|[]]]; injection K as <- <-; split; reflexivity. }
    destruct Eo as (-> & ->).
    destruct (C132_panels _ _ _ _ _ _ _ _ _ _ _ _ _ _ Hh Hfe Hde eq_refl Hl Hae V) as (_ & _ & X).
    destruct (X 0%nat 0%Z eq_refl) as (o' & x' & cen & e' & m' & p' & A1 & _ & _ & Y). cbv zeta in Y. destruct Y as (_ & B2 & _ & B4 & _).
    injection A1 as <- <-.
    change (inner cfg_e args_2) with (inner cfg_e args_e) in W. change (a_box args_2) with (a_box args_e) in W. change (a_kind args_2) with (a_kind args_e) in W.
    destruct W as [(_ & W)|(_ & cen' & W1 & W2)]; [congruence|].
    rewrite B2 in W1. injection W1 as <-. apply driver_result in B4, W2. cbv zeta in B4, W2. congruence. }
  destruct (R _ _ Ha1) as (ps & V1). { split; [discriminate|]. split; [repeat constructor; intros []|]. intros z [<-|[]]. cbn. lia. }
  destruct (R _ _ Ha2) as (ps' & V2). { split; [discriminate|]. split; [|intros z [<-|[<-|[]]]; cbn; lia]. constructor; [intros [?|[]]; discriminate|]. repeat constructor. intros []. }
  destruct (C132_panels _ _ _ _ _ _ _ _ _ _ _ _ _ _ Hh Hf Hd eq_refl Hl Ha1 V1) as (_ & L1 & X).
  destruct (X 0%nat 1%Z eq_refl) as (? & ? & ? & ? & ? & p & _ & A2 & A3 & _).
  destruct (C132_panels _ _ _ _ _ _ _ _ _ _ _ _ _ _ Hh Hf Hd eq_refl Hl Ha2 V2) as (_ & L2 & _).
  destruct ps as [|p0 [|]]; try discriminate. injection A2 as ->.
  destruct (C132_alone 1 exact_eig 100 cfg1 Global cfg_e args_2 _ cfg_e _ _ _ [1%Z] [p] _ _ _ [0%Z; 1%Z] ps' 0 1 1%Z Hh Hf Hd eq_refl Hl Ha1 Ha2 V1 V2 eq_refl eq_refl eq_refl eq_refl) as (q & Q1 & Q2).
  injection Q1 as <-. exists (built cfg_e args_2), p, ps'. repeat (split; [first [exact Hd|exact V1|exact V2|exact Q2|lia]|]). exact L2.
Qed.
