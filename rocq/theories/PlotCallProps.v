(** C130: the triaxiality histograms of whole calls. *)
From Coq Require Import List Reals ZArith QArith Lra Lia Bool.
From Verif Require Import ListUtil ParModel XR ConfigModel ConfigUnits CatModel CatSpec CatProofs CatMpi GeoModel GeoSpec GeoProofs GeoProps StatModel StatProps StatProps2 HistModel HistProps
  ShapeModel ShapeSpec ShapeProofs ShapeKatz Spectral ShapeFacts ShapeExamples ShapePar ShapeProps LocalTProps ShapeMoveModel DensModel DensSpec DensProofs DensEll DensProps FitModel FitProps FitErr
  EndModel EndProps EndEllModel EndEll PlotCallModel.
Import ListNotations.
Local Open Scope R_scope.

(** ** The tables *)
Section Tables.
  Variables (mfuel : nat) (choose : nat -> list nat) (eig : nat -> list xr -> eigres) (fuel : nat).
  (* Entry k belongs to object number zs[k] and is what its particles alone give. *)
  Lemma tables_own kc vt c a d s zs tab masses rr :
    little_h c <> 0 -> fits a -> make c a = inl d -> asks s zs ->
    shapeTables mfuel choose eig fuel kc vt d s (inl (tab, masses, rr)) ->
    good_selection zs (length (listed a)) /\ length tab = length zs /\ length rr = length zs /\
    forall k z, nth_error zs k = Some z -> exists o x center e m,
      nth_error (listed a) (Z.to_nat z) = Some (o, x) /\
      let f := in_l c / cm (little_h c) in
      shape_center mfuel (a_kind a) (choose k) (a_box a * f) (inner c a o) = Some center /\
      calcMorph eig fuel kc (a_box a * f) vt [inner c a o] [x * f] [center] (Ret ([e], [m])) /\
      nth_error tab k = Some e /\ nth_error rr k = Some (x * f).
  Proof.
    intros Hh Hf Hd Ha H. rewrite make_ok in Hd by auto. injection Hd as <-.
    assert (Hg : good_selection zs (length (listed a))).
    { destruct (valid_numbers zs (length (listed a))) eqn:V; [apply valid_good; exact V|]. exfalso.
      assert (N : ~ good_selection zs (length (listed a))) by (intros G; apply valid_good in G; congruence).
      pose proof (chosen_bad c a s zs Ha N) as E. inversion H; congruence. }
    split; auto. pose proof (chosen_ok c a s zs Ha Hg) as E. cbv zeta in E.
    inversion H as [| | | |sub sz r tab0 cs E1 E2 Hm E3]; subst. clear H.
    rewrite E in E1. injection E1 as <- <- <-.
    rewrite parts_concat, objs_inner in Hm by auto. unfold built in Hm at 1 2. cbn [d_kind d_box] in Hm.
    set (p := picked a (map Z.to_nat zs)) in *. set (f := in_l c / cm (little_h c)) in *.
    inversion Hm as [centers r HF HC]; subst. clear Hm. apply Forall2_seq_nth in HF. destruct HF as (Lc & HF).
    assert (Lp : length p = length zs) by (unfold p, picked; rewrite !map_length; auto).
    split; [|split].
    { assert (Hz : (0 < length zs)%nat) by (destruct Hg as (Hz & _); destruct zs; [congruence|cbn; lia]).
      destruct p as [|ox p'] eqn:Ep; [cbn in Lp; lia|].
      destruct (driver_ret _ _ _ _ _ _ _ _ _ HC 0%nat (inner c a (fst ox)) eq_refl) as (_ & _ & _ & X & _). rewrite X, !map_length. exact Lp. }
    { rewrite map_length. exact Lp. }
    intros k z Hk. destruct (picked_nth a zs k z Hg Hk) as (o & x & H1 & H2). fold p in H2.
    assert (Ho : nth_error (map (inner c a) (map fst p)) k = Some (inner c a o)) by (rewrite !nth_error_map, H2; reflexivity).
    destruct (HF k _ Ho) as (center & Hc & Hs). cbn [fst snd] in Hs.
    destruct (runs_exist eig fuel kc (a_box a * f) vt [inner c a o] [x * f] [center]) as (r1 & Hr1).
    assert (Nr : nth_error (map (fun or => snd or * f) p) k = Some (x * f)) by (rewrite nth_error_map, H2; reflexivity).
    assert (Nc : nth k centers v0 = center) by (apply nth_error_nth; auto).
    destruct (C35_own _ _ _ _ _ _ _ _ _ k (inner c a o) r1 HC Ho) as (e & m & -> & He & _).
    { rewrite (nth_error_nth _ _ _ Nr), Nc. exact Hr1. }
    exists o, x, center, e, m. repeat split; auto.
  Qed.
End Tables.

(** ** The values drawn *)
(** The triaxiality of an object; no value without a shape and for q = 1 (see C76). *)
Definition drawn_value (q s : xr) (v : xr) : Prop :=
  (q = NaN /\ v = NaN) \/ exists q' s', q = Fin q' /\ s = Fin s' /\ 0 < s' <= q' /\ q' <= 1 /\
    ((q' = 1 /\ v = NaN) \/ (q' < 1 /\ v = Fin ((1 - q' * q') / (1 - s' * s')) /\ 0 < (1 - q' * q') / (1 - s' * s') <= 1)).
Definition valid_entry (mi : morph) : Prop :=
  (mq mi = NaN /\ ms mi = NaN) \/ exists q s, mq mi = Fin q /\ ms mi = Fin s /\ 0 < s <= q /\ q <= 1.
Lemma entry_value big mi : valid_entry mi -> drawn_value (mq mi) (ms mi) (zero_to_nan (nan_to_num big (triaxiality (mq mi) (ms mi)))).
Proof.
  assert (Z0 : zero_to_nan (Fin 0) = NaN) by (unfold zero_to_nan; cbn [xeqb]; destruct (Req_EM_T 0 0); [reflexivity|contradiction]).
  intros [(-> & ->)|(q & s & -> & -> & B1 & B2)]; [left; split; [reflexivity|exact Z0]|]. right. exists q, s. split; [reflexivity|]. split; [reflexivity|]. split; [exact B1|]. split; [exact B2|].
  destruct (Req_EM_T q 1) as [->|Hq].
  - left. split; [reflexivity|]. destruct (Req_EM_T s 1) as [->|Hs]; [rewrite C76_sphere; exact Z0|].
    destruct (C76_range 1 s ltac:(lra) ltac:(lra) ltac:(lra)) as (t & -> & _ & E & _). rewrite (proj2 E eq_refl). exact Z0.
  - right. split; [lra|]. destruct (C76_range q s ltac:(lra) ltac:(lra) ltac:(lra)) as (t & Et & Hr & E & _). rewrite Et.
    rewrite (triax_fin q s ltac:(nra)) in Et. injection Et as ->. assert (N : t <> 0) by tauto.
    cbn [nan_to_num]. unfold zero_to_nan. cbn [xeqb]. destruct (Req_EM_T t 0); [contradiction|]. split; [reflexivity|lra].
Qed.
Lemma nanz_pos x : 0 < x -> nanz (Fin x) = Fin x.
Proof. intros Hx. unfold nanz. cbn [xeqb]. destruct (Req_EM_T x 0); [lra|reflexivity]. Qed.
Lemma nan_valid d mi : mi = zeros \/ valid_shape d mi -> valid_entry (nan_morph mi).
Proof.
  intros [->|(_ & q & s & _ & _ & _ & Q & S & B1 & B2 & _)]; [left; cbn [nan_morph mq ms zeros]; rewrite nanz_zero; auto|].
  right. exists q, s. cbn [nan_morph mq ms]. rewrite Q, S, !nanz_pos by lra. auto.
Qed.
Lemma nonneg_inner c a o : 0 <= in_m c / gr (little_h c) -> (forall m, In m (a_masses a) -> 0 <= m) -> forall xyz, nonneg xyz (map snd (inner c a o)).
Proof.
  intros Hf Hm xyz k _. unfold inner. rewrite map_map. cbn [snd].
  destruct (nth_in_or_default k (map (fun i => nth i (a_masses a) 0 * (in_m c / gr (little_h c))) o) 0) as [H|H]; [|lra].
  apply in_map_iff in H. destruct H as (i & <- & _). apply Rmult_le_pos; auto.
  destruct (nth_in_or_default i (a_masses a) 0) as [H|H]; [auto|lra].
Qed.
(* What the driver returns for one object. *)
Lemma single_shape eig fuel kc L vt ps x center e m : calcMorph eig fuel kc L vt [ps] [x] [center] (Ret ([Some e], [m])) ->
  exists l, obj_shape eig fuel kc L vt ps x center = Some (Ret l) /\ e = map nan_morph l.
Proof.
  intros H. destruct (driver_ret _ _ _ _ _ _ _ _ _ H 0%nat ps eq_refl) as (_ & E & _). cbn [nth fst] in E.
  destruct obj_shape as [[l|]|]; try discriminate. exists l. split; auto. cbn [entry] in E. congruence.
Qed.
Lemma global_valid eig fuel kc r xyz masses center l : eig_contract eig -> nonneg xyz masses -> c_tol kc < 1 ->
  calcObjMorphGlobal eig fuel kc r xyz xyz masses center center = Some (Ret l) -> exists mi, l = [mi] /\ valid_entry (nan_morph mi).
Proof.
  intros He G Ht H. unfold calcObjMorphGlobal in H. destruct Req_EM_T; [injection H as <-; exists zeros; split; [reflexivity|apply (nan_valid 0); auto]|].
  apply collect_spec in H. destruct (ShapeModel.katz _ _ _ _ _ _ _ _ _ _ _ _ _ _) as [[r0 tr]|] eqn:K; [|destruct l; discriminate]. cbn [option_map fst] in H.
  destruct l as [|mi [|? ?]]; try discriminate. cbn [map] in H. injection H as ->. exists mi. split; [reflexivity|].
  apply (nan_valid (r + c_safe kc)). eapply C30_partial; eauto.
Qed.

(** ** The figures *)
(* The histogram of global shapes shows one value per selected object, from the shape of its own particles. *)
Theorem C130_global : forall mfuel choose eig fuel big kc c a d s zs nb bars,
  eig_contract eig -> c_tol kc < 1 -> little_h c <> 0 -> 0 <= in_m c / gr (little_h c) -> fits a -> (forall m, In m (a_masses a) -> 0 <= m) ->
  make c a = inl d -> asks s zs -> (2 <= nb)%nat ->
  plotGlobalTHist mfuel choose eig fuel big nb kc d s (inl bars) ->
  good_selection zs (length (listed a)) /\
  exists ts, shows (nb - 1) ts bars /\ length ts = length zs /\
  forall k z, nth_error zs k = Some z -> exists o x center mi m v,
    nth_error (listed a) (Z.to_nat z) = Some (o, x) /\
    let f := in_l c / cm (little_h c) in
    shape_center mfuel (a_kind a) (choose k) (a_box a * f) (inner c a o) = Some center /\
    calcMorph eig fuel kc (a_box a * f) Global [inner c a o] [x * f] [center] (Ret ([Some [mi]], [m])) /\
    nth_error ts k = Some v /\ drawn_value (mq mi) (ms mi) v.
Proof.
  intros mfuel choose eig fuel big kc c a d s zs nb bars He Ht Hh Hm0 Hf Hm Hd Ha Hnb H.
  inversion H as [| |rows masses r b HT HB]; subst. clear H.
  destruct (tables_own _ _ _ _ _ _ _ _ _ _ _ _ _ _ Hh Hf Hd Ha HT) as (Hg & L1 & L2 & G). rewrite map_length in L1.
  split; auto. unfold getGlobalTHist in HB.
  set (ts := T_column big (map (fun row => last row NaN) (map (map mq) rows)) (map (fun row => last row NaN) (map (map ms) rows))) in *.
  destruct (C113_partial nb ts Hnb) as (b & E & S). assert (b = bars) by congruence. subst b.
  exists ts. split; auto.
  assert (TE : forall k row, nth_error rows k = Some row -> nth_error ts k = Some (zero_to_nan (nan_to_num big (triaxiality (last (map mq row) NaN) (last (map ms row) NaN))))).
  { unfold ts, T_column. clear. induction rows as [|r0 rows IH]; intros [|k] row H; try discriminate; cbn [map combine nth_error fst snd]; [|apply IH; exact H].
    cbn in H. injection H as ->. reflexivity. }
  split; [unfold ts, T_column; rewrite map_length, combine_length, !map_length; lia|].
  intros k z Hk. destruct (G k z Hk) as (o & x & center & e & m & H1 & H2). cbv zeta in H2. destruct H2 as (H2 & H3 & H4 & H5).
  rewrite nth_error_map in H4. destruct (nth_error rows k) as [row|] eqn:Er; [|discriminate]. cbn [option_map] in H4. injection H4 as <-.
  destruct (single_shape _ _ _ _ _ _ _ _ _ _ H3) as (l & O & ->). cbn [obj_shape] in O.
  destruct (global_valid _ _ _ _ _ _ _ _ He (nonneg_inner c a o Hm0 Hm _) Ht O) as (mi & -> & V).
  exists o, x, center, (nan_morph mi), m, (zero_to_nan (nan_to_num big (triaxiality (mq (nan_morph mi)) (ms (nan_morph mi))))).
  split; auto. cbv zeta. split; auto. split; auto. split; [exact (TE k _ Er)|]. apply entry_value. exact V.
Qed.
Print Assumptions C130_global.

(* The histogram at a depth shows, for a selected object that has a shape at every radius, its triaxiality at the radius nearest
   to frac times its own R200, and nothing for other objects. *)
Theorem C130_local : forall mfuel choose eig fuel big kc c a d s zs nb frac bars,
  eig_contract eig -> c_tol kc < 1 -> (forall x, In x (c_log_d kc) -> x <> 0) -> c_log_d kc <> [] ->
  little_h c <> 0 -> 0 <= in_m c / gr (little_h c) -> fits a -> (forall m, In m (a_masses a) -> 0 <= m) ->
  make c a = inl d -> asks s zs -> (2 <= nb)%nat ->
  plotLocalTHist mfuel choose eig fuel big nb frac kc d s (inl bars) ->
  good_selection zs (length (listed a)) /\
  exists ts, shows (nb - 1) ts bars /\ length ts = length zs /\
  forall k z, nth_error zs k = Some z -> exists o x center l m v,
    nth_error (listed a) (Z.to_nat z) = Some (o, x) /\
    let f := in_l c / cm (little_h c) in
    shape_center mfuel (a_kind a) (choose k) (a_box a * f) (inner c a o) = Some center /\
    calcMorph eig fuel kc (a_box a * f) Local [inner c a o] [x * f] [center] (Ret ([Some l], [m])) /\
    nth_error ts k = Some v /\ length l = length (c_log_d kc) /\
    (In NaN (map mq l) -> v = NaN) /\
    (~ In NaN (map mq l) -> exists j mi, nearest (map (fun y => x * f * y) (c_log_d kc)) (x * f * frac) j /\ nth_error l j = Some mi /\ drawn_value (mq mi) (ms mi) v).
Proof.
  intros mfuel choose eig fuel big kc c a d s zs nb frac bars He Ht HR HN Hh Hm0 Hf Hm Hd Ha Hnb H.
  inversion H as [| |rows masses r b HT HB]; subst. clear H.
  destruct (tables_own _ _ _ _ _ _ _ _ _ _ _ _ _ _ Hh Hf Hd Ha HT) as (Hg & L1 & L2 & G). rewrite map_length in L1.
  split; auto. unfold getLocalTHist in HB. fold (column md rows) (column mq rows) (column ms rows) in HB. fold (drawn_T big r frac rows) in HB.
  destruct (C113_partial nb (drawn_T big r frac rows) Hnb) as (b & E & S). assert (b = bars) by congruence. subst b.
  exists (drawn_T big r frac rows). split; auto.
  assert (LT : length (drawn_T big r frac rows) = length zs).
  { unfold drawn_T, local_T, T_column, take_at, column. rewrite map_length, combine_length, !map_length, !combine_length, !map_length, combine_length, !map_length. lia. }
  split; auto.
  intros k z Hk. destruct (G k z Hk) as (o & x & center & e & m & H1 & H2). cbv zeta in H2. destruct H2 as (H2 & H3 & H4 & H5).
  rewrite nth_error_map in H4. destruct (nth_error rows k) as [row|] eqn:Er; [|discriminate]. cbn [option_map] in H4. injection H4 as <-.
  destruct (single_shape _ _ _ _ _ _ _ _ _ _ H3) as (l & O & ->). cbn [obj_shape] in O.
  pose proof (nonneg_inner c a o Hm0 Hm (cy_respectPBCNoRef (map pos (inner c a o)) (a_box a * (in_l c / cm (little_h c))))) as NN.
  destruct (rows_ok _ _ _ _ _ _ _ _ _ _ He NN Ht HR O) as (LL & K).
  assert (exists v, nth_error (drawn_T big r frac rows) k = Some v) as (v & Hv).
  { destruct (nth_error (drawn_T big r frac rows) k) eqn:X; [eauto|]. apply nth_error_None in X. assert (k < length zs)%nat by (apply nth_error_Some; congruence). lia. }
  assert (NZ : In NaN (map mq (map nan_morph l)) -> In zeros l).
  { rewrite map_map. intros X. apply in_map_iff in X. destruct X as (mi & Q & Hi). destruct (In_nth_error _ _ Hi) as (j & Hj).
    destruct (K j mi Hj) as [->|((_ & q & s0 & _ & _ & _ & Q' & _ & B1 & B2 & _) & _)]; [exact Hi|]. cbn [nan_morph mq] in Q. rewrite Q', nanz_pos in Q by lra. discriminate. }
  exists o, x, center, (map nan_morph l), m, v. split; auto. cbv zeta. split; auto. split; auto. split; auto. split; [rewrite map_length; exact LL|]. split.
  - intros X. apply NZ in X. pose proof (C114_dropped _ _ _ _ _ _ _ _ _ _ big r frac rows k He NN Ht HR O X Er H5) as D. congruence.
  - intros X. assert (NZ' : ~ In zeros l).
    { intros Z. apply X. rewrite map_map. apply in_map_iff. exists zeros. split; [cbn [nan_morph mq zeros]; apply nanz_zero|exact Z]. }
    destruct (C114_partial _ _ _ _ _ _ _ _ _ _ big r frac rows k He NN Ht HR HN O NZ' Er H5) as (j & mi & q & s0 & P1 & P2 & P3 & P4 & P5 & P6 & P7 & P8).
    exists j, (nan_morph mi). split; [exact P1|]. split; [rewrite nth_error_map, P2; reflexivity|].
    cbn [nan_morph mq ms]. rewrite P3, P4, !nanz_pos by lra. right. exists q, s0. split; [reflexivity|]. split; [reflexivity|]. split; [lra|]. split; [lra|].
    rewrite P7 in Hv. injection Hv as <-. destruct (Req_EM_T q 1) as [->|Hq]; [left; auto|right]. split; [lra|]. split; [reflexivity|].
    split; [|apply P8; lra]. apply Rdiv_lt_0_compat; nra.
Qed.
Print Assumptions C130_local.

(* Selections that are not valid raise ValueError and nothing is drawn. *)
Theorem C130_failures : forall mfuel choose eig fuel big kc c a d s zs nb frac,
  little_h c <> 0 -> fits a -> make c a = inl d -> asks s zs -> ~ good_selection zs (length (listed a)) ->
  (forall out, plotGlobalTHist mfuel choose eig fuel big nb kc d s out <-> out = inr EValue) /\
  (forall out, plotLocalTHist mfuel choose eig fuel big nb frac kc d s out <-> out = inr EValue).
Proof.
  intros mfuel choose eig fuel big kc c a d s zs nb frac Hh Hf Hd Ha N. rewrite make_ok in Hd by auto. injection Hd as <-.
  pose proof (chosen_bad c a s zs Ha N) as E.
  assert (T : forall vt out, shapeTables mfuel choose eig fuel kc vt (built c a) s out <-> out = inr EValue).
  { intros vt out. split; [intros H; inversion H; subst; congruence|intros ->; apply st_selection; exact E]. }
  split; intros out; (split; [intros H; inversion H as [e H1|? ? ? H1|? ? ? ? H1]; subst; apply T in H1; congruence|intros ->; apply pl_fail, T; reflexivity]).
Qed.
Print Assumptions C130_failures.
(* The figures are made of the shapes that getShapeCatLocal and getShapeCatGlobal return, whatever the output units. *)
Theorem C130_returned : forall mfuel choose eig fuel kc vt c' d s h, h <> 0 -> usable_out h c' ->
  (forall e, shapeTables mfuel choose eig fuel kc vt d s (inr e) -> getShapeCat mfuel choose eig fuel kc vt c' d s (inr e)) /\
  forall tab, getShapeCat mfuel choose eig fuel kc vt c' d s (inl tab) <->
    exists tab0 masses r, shapeTables mfuel choose eig fuel kc vt d s (inl (tab0, masses, r)) /\
      tab = map (option_map (map (to_row (cm h / out_l c')))) tab0.
Proof.
  intros mfuel choose eig fuel kc vt c' d s h Hh Hu. pose proof (to_out_ok h c' Hh Hu) as T. split.
  - intros e H. inversion H as [? E|? ? ? E X|? ? ? ? ? E X P C|? ? ? ? E X M|]; subst;
      [eapply gs_selection; eauto|eapply gs_missing; eauto|eapply gs_mode; eauto|eapply gs_raise; eauto].
  - intros tab. split.
    + intros H. inversion H as [| | | | |sub sz r tab0 cs fl fm E X M T1]; subst. rewrite T in T1. injection T1 as <- <-.
      exists (fst tab0), (snd tab0), r. split; [eapply st_ok; eauto|reflexivity].
    + intros (tab0 & masses & r & H & ->). inversion H as [| | | |sub sz r0 tab1 cs E X M Eq]; subst. eapply gs_ok; eauto.
Qed.
Print Assumptions C130_returned.

(** ** Examples *)
(* Six particles with q = 2/3 and s = 1/3, the objects of C123_example: both figures are drawn. *)
Lemma tables_e vt : vt = Global \/ vt = Local -> exists mi m, mq mi = Fin (2/3) /\ ms mi = Fin (1/3) /\
  shapeTables 1 (fun _ => seq 0 6) exact_eig 100 cfg1 vt (built cfg_e args_e) (SelList [0%Q]) (inl (map Some [[mi]], m, [10])).
Proof.
  intros Hv. destruct C123_example as (Hf & _ & Ha & Hg & _). pose proof MPC_pos as Pm.
  pose proof (chosen_ok cfg_e args_e _ _ Ha Hg) as E. cbv zeta in E. pose proof (exist_ok cfg_e args_e _ Hf Hg) as X. pose proof (objs_inner cfg_e args_e _ Hf Hg) as OI.
  assert (P : picked args_e (map Z.to_nat [0%Z]) = [([0; 1; 2; 3; 4; 5]%nat, 10)]) by reflexivity. rewrite P in *.
  assert (F1 : in_l cfg_e / cm (little_h cfg_e) = 1) by (unfold cm; cbn; field; lra). rewrite F1 in E.
  assert (B0 : d_box (built cfg_e args_e) = 0) by (unfold built; cbn [d_box args_e a_box]; ring).
  cbn [map fst snd] in OI. rewrite inner_e in OI. cbn [map fst snd] in E, X. rewrite Rmult_1_r in E.
  change [length [0; 1; 2; 3; 4; 5]%nat] with (map (@length nat) [[0; 1; 2; 3; 4; 5]%nat]) in E.
  destruct (run6 exact_eig exact_eig_contract (mkM (Fin 10) (Fin 0) (Fin 0) x0 x0 x0) 98) as (mi & tr & H & Q & S & D & _).
  destruct (runs_exist exact_eig 100 cfg1 0 vt [object cloud6 still6 ones6] [10] [v0]) as (r & Hr).
  assert (G := driver_result _ _ _ _ _ _ _ _ _ Hr). cbn [length seq map nth existsb] in G.
  assert (O : obj_shape exact_eig 100 cfg1 0 vt (object cloud6 still6 ones6) 10 v0 = Some (Ret [mi])).
  { assert (O1 : obj_shape exact_eig 100 cfg1 0 Global (object cloud6 still6 ones6) 10 v0 = Some (Ret [mi])) by (rewrite global6 by auto; rewrite H; reflexivity).
    destruct Hv as [-> | ->]; [exact O1|rewrite local6; exact O1]. }
  rewrite O in G. cbn [raised orb entry map] in G. subst r.
  exists (nan_morph mi), [GeoSpec.total snd (object cloud6 still6 ones6)]. cbn [nan_morph mq ms]. rewrite Q, S, !nanz_pos by lra. split; [reflexivity|]. split; [reflexivity|].
  assert (M : exists cs, morph_call 1 (d_kind (built cfg_e args_e)) (fun _ => seq 0 6) exact_eig 100 cfg1 (d_box (built cfg_e args_e)) vt
     (map (particles (built cfg_e args_e)) (parts (concat [[0; 1; 2; 3; 4; 5]%nat]) (map (@length nat) [[0; 1; 2; 3; 4; 5]%nat]))) [10] (Ret ([Some [nan_morph mi]], [GeoSpec.total snd (object cloud6 still6 ones6)]), cs)).
  { rewrite parts_concat. cbn [map fst]. rewrite OI, B0. eexists. constructor; [|exact Hr]. repeat constructor. cbn [fst snd]. unfold shape_center. exact (center_e 1 0 eq_refl). }
  destruct M as (cs & M). exact (st_ok _ _ _ _ _ _ _ _ _ _ _ _ _ E X M).
Qed.
Example C130_example : eig_contract exact_eig /\ c_tol cfg1 < 1 /\ (forall x, In x (c_log_d cfg1) -> x <> 0) /\ c_log_d cfg1 <> [] /\
  little_h cfg_e <> 0 /\ 0 <= in_m cfg_e / gr (little_h cfg_e) /\ fits args_e /\ (forall m, In m (a_masses args_e) -> 0 <= m) /\
  asks (SelList [0%Q]) [0%Z] /\ ~ good_selection [1%Z] (length (listed args_e)) /\ usable_out (little_h cfg_e) cfg_e /\
  exists d bars bars', make cfg_e args_e = inl d /\
    plotGlobalTHist 1 (fun _ => seq 0 6) exact_eig 100 1000 2 cfg1 d (SelList [0%Q]) (inl bars) /\
    plotLocalTHist 1 (fun _ => seq 0 6) exact_eig 100 1000 2 1 cfg1 d (SelList [0%Q]) (inl bars').
Proof.
  destruct C123_example as (Hf & Hu & Ha & Hg & _ & _ & Hb & _). assert (Hh : little_h cfg_e <> 0) by (cbn; lra). pose proof MSUN10_pos as Pm.
  split; [exact exact_eig_contract|]. split; [cbn; lra|]. split; [intros x [<-|[]]; lra|]. split; [discriminate|]. split; [exact Hh|].
  split. { unfold gr. cbn [cfg_e in_m little_h]. apply Rlt_le, Rdiv_lt_0_compat; lra. }
  split; [exact Hf|]. split. { intros m Hm. cbn [args_e a_masses] in Hm. unfold ones6 in Hm. repeat (destruct Hm as [<-|Hm]; [lra|]). destruct Hm. }
  split; [exact Ha|]. split; [exact Hb|]. split; [exact Hu|].
  destruct (tables_e Global (or_introl eq_refl)) as (mi & m & _ & _ & T). destruct (tables_e Local (or_intror eq_refl)) as (mi' & m' & _ & _ & T').
  edestruct (C113_partial 2) as (bars & E & _); [apply le_n|]. edestruct (C113_partial 2) as (bars' & E' & _); [apply le_n|].
  exists (built cfg_e args_e), bars, bars'. split; [apply make_ok; auto|]. split; (eapply pl_ok; [eassumption|]); [exact E|exact E'].
Qed.
