(** C50: concentrations; C63: checks of the two configuration dictionaries. *)
From Coq Require Import Reals String Bool ZArith QArith Permutation Lra Lia List.
From Verif Require Import XR ConfigModel ConfigUnits CatModel ParModel DensModel FitModel FitProps.
Import ListNotations.
Close Scope Q_scope.
Local Open Scope string_scope.
Local Open Scope R_scope.

(** ** C50 *)
(** All that is asked of the minimiser: one number per bound. *)
Definition sized (minimize : minimiser) : Prop := forall mm obj x0 b x, minimize mm obj x0 b (Some x) -> length x = length b.
Lemma respects_sized minimize : respects minimize -> sized minimize.
Proof. intros H mm obj x0 b x E. apply H in E. eapply F2_length; exact E. Qed.
Lemma sized_row minimize RO m median r200 nb row : sized minimize -> fitDensProf minimize RO m median r200 nb (row, nb) -> length row = ncols m.
Proof.
  intros Hs F. inversion F as [md r2 n rho rest Hm E1 E2 E3|md r2 n Hm E1 E2 E3]; subst.
  - apply Hs in Hm. cbn [length] in *. rewrite Hm. unfold bounds, ncols. destruct (is_str _ "einasto"); [|destruct (is_str _ "alpha_beta_gamma")]; reflexivity.
  - rewrite map_length. unfold iguess, ncols. destruct (is_str _ "einasto"); [|destruct (is_str _ "alpha_beta_gamma")]; reflexivity.
Qed.
Lemma last_is_rs m row : checkDensFitMethod m = true -> nth (ncols m - 1) row NaN = f_r_s (to_fields m row).
Proof.
  intros Hc. unfold to_fields, ncols. destruct (checked_profile m Hc) as [P|[P|[P|P]]]; rewrite P; cbn [is_str];
    repeat (destruct string_dec; [try discriminate|try congruence]); reflexivity.
Qed.

Definition nofit := mkFit NaN None None None NaN false.
(** cs are the radii R200, in the unit of the fits, over the scale radii of the fits. *)
Definition concentrations_of (c : config) (o : obj) (sel : list Z) (fits : list fitrow) (cs : list xr) : Prop :=
  length cs = length fits /\ exists R200, getR200 c o = inl R200 /\
  forall p, (p < length fits)%nat -> nth p cs NaN = xdiv (Fin (nth (Z.to_nat (nth p sel 0%Z)) R200 0)) (f_r_s (nth p fits nofit)).

Lemma conc_rows minimize c o nobj dens RO m sel f rows g : sized minimize -> 0 < little_h c -> 0 < out_l c -> 0 < out_m c ->
  checkDensFitMethod m = true -> length dens = length sel ->
  fitDensProfHelper minimize (scale_rows f dens) RO (pick (o_r200 o) sel) m rows ->
  valid_numbers sel nobj = true -> length (o_r200 o) = nobj ->
  concentrations_of c o sel (map (to_fields m) (map (scale_fit m g (MPC / little_h c / out_l c)) rows))
    (map (fun '(r, row) => xdiv (Fin r) (nth (ncols m - 1) row NaN)) (combine (pick (o_r200 o) sel) rows)).
Proof.
  intros Hs Hh Hl Hm Hc Hlen Hrows Hv Ho. destruct (helper_rows _ _ _ _ _ _ Hrows) as (Lr & Hrow).
  assert (Lr' : length rows = length sel) by (rewrite Lr; unfold scale_rows; rewrite map_length; auto).
  set (k := MPC / little_h c / out_l c).
  assert (Pk : 0 < k) by (unfold k; repeat apply Rdiv_lt_0_compat; auto; apply MPC_pos).
  split; [rewrite !map_length, combine_length; unfold pick; rewrite map_length; lia|].
  exists (map (fun x => x * k) (o_r200 o)). split.
  { unfold getR200. rewrite internal_ok by lra. rewrite pydiv_ok by lra. reflexivity. }
  intros p Hp. rewrite !map_length in Hp.
  rewrite (nth_indep _ NaN (xdiv (Fin 0) (nth (ncols m - 1) [] NaN))) by (rewrite map_length, combine_length; unfold pick; rewrite map_length; lia).
  rewrite (map_nth (fun '(r, row) => xdiv (Fin r) (nth (ncols m - 1) row NaN)) (combine (pick (o_r200 o) sel) rows) (0, [])).
  rewrite combine_nth by (unfold pick; rewrite map_length; lia).
  rewrite (nth_indep _ nofit (to_fields m (scale_fit m g k []))) by (rewrite !map_length; auto).
  rewrite map_map, (map_nth (fun row => to_fields m (scale_fit m g k row))).
  specialize (Hrow p ltac:(rewrite <- Lr; auto)). pose proof (sized_row _ _ _ _ _ _ _ Hs Hrow) as Len.
  destruct (scale_fit_conv m g k _ Hc Len) as (_ & _ & _ & _ & Ers & _). rewrite Ers, last_is_rs by auto.
  rewrite <- (xdiv_scale k (Fin (nth p (pick (o_r200 o) sel) 0))) by auto. cbn [xmul]. f_equal. f_equal.
  unfold pick. rewrite (nth_indep _ 0 ((fun z => nth (Z.to_nat z) (o_r200 o) 0) 0%Z)) by (rewrite map_length; lia).
  rewrite (map_nth (fun z => nth (Z.to_nat z) (o_r200 o) 0)).
  replace 0 with (0 * k) at 2 by ring. rewrite (map_nth (fun x => x * k)). reflexivity.
Qed.

(* A run of estConcentrations returns R200 over the scale radii of a run of fitDensProfs on the
   same input, and every run of fitDensProfs is matched like this. *)
Theorem C50_concentrations : forall minimize c o nobj dens RO m sel, sized minimize -> 0 < little_h c -> 0 < out_l c -> 0 < out_m c ->
  length (o_r200 o) = nobj ->
  (forall cs, estConcentrations minimize c (o_r200 o) nobj dens RO m sel (OOk cs) ->
    exists fits, fitDensProfs minimize c (o_r200 o) nobj dens RO m sel (OOk fits) /\ concentrations_of c o sel fits cs) /\
  (forall fits, fitDensProfs minimize c (o_r200 o) nobj dens RO m sel (OOk fits) ->
    exists cs, estConcentrations minimize c (o_r200 o) nobj dens RO m sel (OOk cs) /\ concentrations_of c o sel fits cs).
Proof.
  intros minimize c o nobj dens RO m sel Hs Hh Hl Hm Ho. destruct (units_ok c) as (El & Eo & Ef); try lra.
  split; intros res H.
  - inversion H as [| | | |f rows Hc Hlen Hf Hv Hrows]; subst. eexists. split.
    + eapply fp_ok; auto. eapply fb_ok; eauto.
    + eapply conc_rows; eauto.
  - inversion H as [| |rows Hc Hb]; subst. inversion Hb as [| | | |f g fl rws Hlen Hf Hv Hrows Hg Hfl]; subst.
    rewrite El in Hfl. assert (fl = MPC / little_h c / out_l c) by congruence. subst fl.
    eexists. split; [eapply ec_ok; eauto|]. eapply conc_rows; eauto.
Qed.
Print Assumptions C50_concentrations.

(* With a deterministic minimiser any two runs agree. *)
Lemma helper_det minimize dens RO r200s m rows rows' : deterministic minimize ->
  fitDensProfHelper minimize dens RO r200s m rows -> fitDensProfHelper minimize dens RO r200s m rows' -> rows = rows'.
Proof.
  intros D H H'. destruct (helper_rows _ _ _ _ _ _ H) as (L & F). destruct (helper_rows _ _ _ _ _ _ H') as (L' & F').
  apply (nth_ext _ _ [] []); [congruence|]. intros p Hp. rewrite L in Hp.
  pose proof (fit_det _ _ _ _ _ _ _ _ _ D (F p Hp) (F' p Hp)) as E. exact E.
Qed.
Theorem C50_deterministic : forall minimize c o nobj dens RO m sel fits cs, deterministic minimize -> sized minimize ->
  0 < little_h c -> 0 < out_l c -> 0 < out_m c -> length (o_r200 o) = nobj ->
  fitDensProfs minimize c (o_r200 o) nobj dens RO m sel (OOk fits) -> estConcentrations minimize c (o_r200 o) nobj dens RO m sel (OOk cs) ->
  concentrations_of c o sel fits cs.
Proof.
  intros minimize c o nobj dens RO m sel fits cs D Hs Hh Hl Hm Ho Hf Hcs.
  destruct (units_ok c) as (El & Eo & Ef); try lra.
  inversion Hcs as [| | | |f rows Hc Hlen Hfr Hv Hrows]; subst.
  inversion Hf as [| |rows' Hc' Hb]; subst. inversion Hb as [| | | |f' g fl rws Hlen' Hfr' Hv' Hrows' Hg Hfl]; subst.
  rewrite El in Hfl. assert (fl = MPC / little_h c / out_l c) by congruence. subst fl.
  assert (f' = f) by congruence. subst f'. rewrite <- (helper_det _ _ _ _ _ _ _ D Hrows Hrows'). eapply conc_rows; eauto.
Qed.
Print Assumptions C50_deterministic.

(** The profile of an object in output units, as estDensProfs returns it. *)
Definition in_output (c : config) (D : list (list xr)) : list (list xr) :=
  match dens_to_out c with inl g => scale_rows g D | inr _ => [] end.
Lemma scale_rows_2 f g D : 0 < f -> 0 < g -> scale_rows f (scale_rows g D) = scale_rows (g * f) D.
Proof.
  intros Hf Hg. unfold scale_rows. rewrite map_map. apply map_ext. intros row. rewrite map_map. apply map_ext. intros x. apply xmul_fin_assoc; auto.
Qed.
Lemma scale_rows_1 D : scale_rows 1 D = D.
Proof. unfold scale_rows. rewrite (map_ext _ (fun row => row)); [apply map_id|]. intros row. rewrite (map_ext _ (fun x => x)); [apply map_id|]. apply xmul_1. Qed.
(* Converting a profile to output units and back is the identity. *)
Lemma round_trip c D : 0 < little_h c -> 0 < out_l c -> 0 < out_m c ->
  exists f, dens_from_out c = inl f /\ scale_rows f (in_output c D) = D.
Proof.
  intros Hh Hl Hm. destruct (units_ok c) as (El & Eo & Ef); try lra. eexists. split; [exact Ef|]. unfold in_output. rewrite Eo.
  pose proof MPC_pos. pose proof MSUN10_pos. pose proof MASS_UNIT_pos.
  rewrite scale_rows_2.
  - match goal with |- scale_rows ?k _ = _ => replace k with 1; [apply scale_rows_1|] end. field. repeat split; lra.
  - apply Rmult_lt_0_compat; [repeat apply Rdiv_lt_0_compat; auto|apply Rinv_0_lt_compat, pow_lt; repeat apply Rdiv_lt_0_compat; auto].
  - apply Rmult_lt_0_compat; [repeat apply Rdiv_lt_0_compat; auto|apply Rinv_0_lt_compat, pow_lt; repeat apply Rdiv_lt_0_compat; auto].
Qed.
Lemma in_output_length c D : 0 < little_h c -> 0 < out_l c -> 0 < out_m c -> length (in_output c D) = length D.
Proof. intros. unfold in_output. destruct (units_ok c) as (El & Eo & Ef); try lra. rewrite Eo. unfold scale_rows. apply map_length. Qed.

(* The same profiles, written in the output units of either configuration, give the same concentrations. *)
Theorem C50_units : forall minimize c c' r200 nobj D RO m sel out,
  0 < little_h c -> 0 < out_l c -> 0 < out_m c -> 0 < little_h c' -> 0 < out_l c' -> 0 < out_m c' ->
  estConcentrations minimize c r200 nobj (in_output c D) RO m sel out -> estConcentrations minimize c' r200 nobj (in_output c' D) RO m sel out.
Proof.
  intros minimize c c' r200 nobj D RO m sel out Hh Hl Hm Hh' Hl' Hm' H.
  destruct (round_trip c D Hh Hl Hm) as (f & Ef & Rf). destruct (round_trip c' D Hh' Hl' Hm') as (f' & Ef' & Rf').
  pose proof (in_output_length c D Hh Hl Hm) as L. pose proof (in_output_length c' D Hh' Hl' Hm') as L'.
  inversion H as [Hc|Hc Hn|e Hc Hn He|f2 Hc Hn He Hv|f2 rows Hc Hn He Hv Hr]; subst.
  - apply ec_assert; auto.
  - apply ec_len; auto. congruence.
  - congruence.
  - eapply ec_sel; eauto. congruence.
  - assert (f2 = f) by congruence. subst f2. rewrite Rf in Hr. eapply ec_ok; eauto; [congruence|]. rewrite Rf'. exact Hr.
Qed.
Print Assumptions C50_units.

(** Two fits that agree but for the mass unit of rho_s. *)
Definition same_but_mass (k : R) (f f' : fitrow) : Prop :=
  f_rho_s f' = xmul (f_rho_s f) (Fin k) /\ f_alpha f' = f_alpha f /\ f_beta f' = f_beta f /\ f_gamma f' = f_gamma f /\
  f_r_s f' = f_r_s f /\ f_is_conv f' = f_is_conv f.
(* The fit of a profile does not depend on the mass unit it is written in. *)
Theorem C47_units : forall minimize c c' r200 nobj D RO m sel fits, sized minimize ->
  0 < little_h c -> 0 < out_l c -> 0 < out_m c -> 0 < out_m c' -> little_h c' = little_h c -> out_l c' = out_l c ->
  fitDensProfs minimize c r200 nobj (in_output c D) RO m sel (OOk fits) ->
  exists fits', fitDensProfs minimize c' r200 nobj (in_output c' D) RO m sel (OOk fits') /\
    Forall2 (same_but_mass (out_m c / out_m c')) fits fits'.
Proof.
  intros minimize c c' r200 nobj D RO m sel fits Hs Hh Hl Hm Hm' Eh El H.
  assert (Hh' : 0 < little_h c') by lra. assert (Hl' : 0 < out_l c') by lra.
  destruct (round_trip c D Hh Hl Hm) as (f & Ef & Rf). destruct (round_trip c' D Hh' Hl' Hm') as (f' & Ef' & Rf').
  pose proof (in_output_length c D Hh Hl Hm) as L. pose proof (in_output_length c' D Hh' Hl' Hm') as L'.
  destruct (units_ok c) as (E1 & E2 & _); try lra. destruct (units_ok c') as (E1' & E2' & _); try lra. rewrite Eh, El in *.
  inversion H as [| |rows Hc Hb]; subst. inversion Hb as [| | | |f2 g fl rws Hlen Hf Hv Hr Hg Hfl]; subst.
  assert (f2 = f) by congruence. subst f2. rewrite Rf in Hr.
  assert (Efl : fl = MPC / little_h c / out_l c) by congruence.
  assert (Eg : g = MSUN10 / little_h c / MASS_UNIT / out_m c * / (MPC / little_h c / out_l c) ^ 3) by congruence.
  pose proof MPC_pos. pose proof MSUN10_pos. pose proof MASS_UNIT_pos.
  assert (Pfl : 0 < fl) by (rewrite Efl; repeat apply Rdiv_lt_0_compat; auto).
  assert (Pg : 0 < g) by (rewrite Eg; apply Rmult_lt_0_compat; [repeat apply Rdiv_lt_0_compat; auto|apply Rinv_0_lt_compat, pow_lt; rewrite <- Efl; auto]).
  set (g' := g * (out_m c / out_m c')).
  exists (map (to_fields m) (map (scale_fit m g' fl) rws)). split.
  - apply fp_ok; auto. apply fb_ok with (f := f') (g := g') (fl := fl) (rows := rws); auto; [congruence|rewrite Rf'; exact Hr| |congruence]. rewrite E2'. f_equal. unfold g'. rewrite Eg.
    assert (0 < MPC / little_h c / out_l c) by (rewrite <- Efl; auto). assert ((MPC / little_h c / out_l c) ^ 3 <> 0) by (apply pow_nonzero; lra).
    generalize dependent ((MPC / little_h c / out_l c) ^ 3). intros z _ _ _ Hz. field. repeat split; auto; lra.
  - destruct (helper_rows _ _ _ _ _ _ Hr) as (Lr & Hrow).
    assert (Hlr : forall row, In row rws -> length row = ncols m).
    { intros row Hi. destruct (In_nth _ _ [] Hi) as (p & Hp & Ep). rewrite Lr in Hp. specialize (Hrow p Hp). rewrite Ep in Hrow. eapply sized_row; eauto. }
    rewrite !map_map. clear - Hlr Hc Pfl Pg Hm Hm'. induction rws as [|row rws IH]; cbn [map]; constructor; [|apply IH; intros; apply Hlr; right; auto].
    destruct (scale_fit_conv m g fl row Hc (Hlr row ltac:(left; auto))) as (A1 & A2 & A3 & A4 & A5 & A6).
    destruct (scale_fit_conv m g' fl row Hc (Hlr row ltac:(left; auto))) as (B1 & B2 & B3 & B4 & B5 & B6).
    unfold same_but_mass. rewrite A1, A2, A3, A4, A5, B1, B2, B3, B4, B5, A6, B6 by auto. repeat split; auto.
    unfold g'. rewrite xmul_fin_assoc; auto. apply Rdiv_lt_0_compat; auto.
Qed.
Print Assumptions C47_units.
Lemma round_trip_back c D : 0 < little_h c -> 0 < out_l c -> 0 < out_m c -> exists f, in_output c (scale_rows f D) = D.
Proof.
  intros Hh Hl Hm. destruct (units_ok c) as (El & Eo & Ef); try lra. eexists. unfold in_output. rewrite Eo.
  pose proof MPC_pos. pose proof MSUN10_pos. pose proof MASS_UNIT_pos.
  match type of Ef with _ = inl ?f => instantiate (1 := f) end. rewrite scale_rows_2.
  - match goal with |- scale_rows ?k _ = _ => replace k with 1; [apply scale_rows_1|] end. field. repeat split; lra.
  - apply Rmult_lt_0_compat; [repeat apply Rdiv_lt_0_compat; auto|apply Rinv_0_lt_compat, pow_lt; repeat apply Rdiv_lt_0_compat; auto].
  - apply Rmult_lt_0_compat; [repeat apply Rdiv_lt_0_compat; auto|apply Rinv_0_lt_compat, pow_lt; repeat apply Rdiv_lt_0_compat; auto].
Qed.
(** A profile and its fit, written with twice the mass unit: half of rho_s. *)
Example C47_units_example : let c := cfg_out (MPC / 1000) in let c' := mkConfig 1 1 1 1 (MPC / 1000) (MSUN10 / MASS_UNIT * 2) 1 in
  exists D fits', in_output c D = [[Fin 1]] /\ fitDensProfs careful_min c' [5] 1 (in_output c' D) [1] m_rs [0%Z] (OOk fits') /\ map f_rho_s fits' = [Fin (1 / 20)].
Proof.
  intros c c'. pose proof MPC_pos. pose proof MSUN10_pos as P1. pose proof MASS_UNIT_pos as P2. assert (Hs : sized careful_min) by (apply respects_sized, careful_respects).
  assert (Pl : 0 < out_l c) by (cbn [out_l c cfg_out]; lra). assert (Pm : 0 < out_m c) by (apply Rdiv_lt_0_compat; assumption). assert (Ph : 0 < little_h c) by (cbn; lra).
  assert (Pm' : 0 < out_m c') by (cbn [out_m c']; apply Rmult_lt_0_compat; [exact Pm|lra]).
  destruct (round_trip_back c [[Fin 1]] Ph Pl Pm) as (f & ED).
  pose proof (proj2 C45_example) as F. fold c in F. rewrite <- ED in F.
  destruct (C47_units careful_min c c' [5] 1 (scale_rows f [[Fin 1]]) [1] m_rs [0%Z] _ Hs Ph Pl Pm Pm' eq_refl eq_refl F) as (fits' & F' & H').
  exists (scale_rows f [[Fin 1]]), fits'. split; [exact ED|]. split; [exact F'|]. inversion H' as [|x y l l' (E & _) Hn]; subst. inversion Hn; subst. cbn [map]. rewrite E. cbn [f_rho_s xmul out_m c c' cfg_out].
  do 2 f_equal. field. lra.
Qed.

(** One object with R200 = 5 Mpc/h, scale radius fixed at 1 Mpc/h; reported in kpc/h; concentration 5. *)
Example C50_example : let c := cfg_out (MPC / 1000) in let o := mkObj [] [] [5] 10 in
  sized careful_min /\ deterministic careful_min /\ length (o_r200 o) = 1%nat /\ 0 < little_h c /\ 0 < out_l c /\ 0 < out_m c /\
  fitDensProfs careful_min c (o_r200 o) 1 [[Fin 1]] [1] m_rs [0%Z] (OOk [mkFit (Fin (1 / 10)) None None None (Fin 1000) true]) /\
  exists cs, estConcentrations careful_min c (o_r200 o) 1 [[Fin 1]] [1] m_rs [0%Z] (OOk cs) /\ cs = [Fin 5].
Proof.
  intros c o. assert (Hs : sized careful_min) by (apply respects_sized, careful_respects).
  assert (Pl : 0 < out_l c) by (cbn [out_l c cfg_out]; pose proof MPC_pos; lra).
  assert (Pm : 0 < out_m c) by (apply Rdiv_lt_0_compat; [apply MSUN10_pos|apply MASS_UNIT_pos]).
  assert (Ph : 0 < little_h c) by (cbn; lra).
  pose proof (proj2 C45_example) as F. fold c in F. change [5] with (o_r200 o) in F at 1.
  repeat split; auto; [apply careful_deterministic|].
  destruct (proj2 (C50_concentrations careful_min c o 1 [[Fin 1]] [1] m_rs [0%Z] Hs Ph Pl Pm eq_refl) _ F) as (cs & Hcs & (L & R200 & Er & Hn)).
  exists cs. split; [exact Hcs|]. destruct cs as [|x [|? ?]]; try discriminate L. f_equal. specialize (Hn 0%nat ltac:(cbn; lia)). cbn [nth f_r_s] in Hn. subst x.
  unfold getR200 in Er. rewrite internal_ok in Er by lra. rewrite pydiv_ok in Er by lra. fold MPC in Er.
  assert (E : R200 = [5000]).
  { assert (E : map (fun x => x * (MPC / little_h c / out_l c)) [5] = R200) by (cbn [o_r200 o] in Er; congruence). rewrite <- E. cbn [map little_h out_l c cfg_out]. f_equal. pose proof MPC_pos. field. lra. }
  rewrite E. cbn. destruct Req_EM_T; [lra|]. f_equal. lra.
Qed.

(** ** C63 *)
(** The documented parameters of each profile. *)
Definition parameters (prof : string) : option (list string) :=
  if string_dec prof "einasto" then Some ["rho_s"; "alpha"; "r_s"]
  else if string_dec prof "alpha_beta_gamma" then Some ["rho_s"; "alpha"; "beta"; "gamma"; "r_s"]
  else if string_dec prof "hernquist" then Some ["rho_s"; "r_s"]
  else if string_dec prof "nfw" then Some ["rho_s"; "r_s"] else None.
Definition minimisers : list string := ["Nelder-Mead"; "L-BFGS-B"; "TNC"; "SLSQP"; "Powell"; "trust-constr"].
Definition documented (m : mdict) : Prop :=
  exists prof pars, lookup m "profile" = Some (MStr prof) /\ parameters prof = Some pars /\
    (forall k v, In (k, v) m -> k = "profile" \/ k = "min_method" \/ In k pars) /\
    (forall v, lookup m "min_method" = Some v -> exists s, v = MStr s /\ In s minimisers).
Lemma keys_in_iff m al : keys_in m al = true <-> forall k v, In (k, v) m -> In k al.
Proof.
  unfold keys_in. rewrite forallb_forall. split.
  - intros H k v Hi. specialize (H _ Hi). cbn [fst] in H. destruct in_dec; auto. discriminate.
  - intros H [k v] Hi. cbn [fst]. destruct in_dec as [|N]; auto. exfalso. apply N. eapply H; eauto.
Qed.
Lemma min_ok m : (if mem_key m "min_method" then existsb (is_str (lookup m "min_method")) minimisers else true) = true <->
  forall v, lookup m "min_method" = Some v -> exists s, v = MStr s /\ In s minimisers.
Proof.
  unfold mem_key. destruct (lookup m "min_method") as [v|]; [|split; auto; discriminate]. rewrite existsb_exists. split.
  - intros (s & Hi & E) w Ew. apply is_str_eq in E. exists s. split; auto. congruence.
  - intros H. destruct (H v eq_refl) as (s & -> & Hi). exists s. split; auto. apply is_str_eq. auto.
Qed.
(* A fit method is accepted exactly if it is documented. *)
Theorem C63_method : forall m, checkDensFitMethod m = true <-> documented m.
Proof.
  intros m. unfold checkDensFitMethod, documented. rewrite !andb_true_iff, min_ok.
  assert (S : forall s t, is_str (Some (MStr s)) t = true <-> s = t).
  { intros s t. rewrite is_str_eq. split; [intros E; injection E; auto|intros ->; auto]. }
  assert (S' : forall s t, s <> t -> is_str (Some (MStr s)) t = false).
  { intros s t N. destruct is_str eqn:E; auto. apply S in E. contradiction. }
  split.
  - intros (((_ & Hp) & Hk) & Hm). rewrite !orb_true_iff, !is_str_eq in Hp.
    destruct Hp as [[[P|P]|P]|P]; rewrite P in Hk; cbn [is_str] in Hk; repeat (destruct string_dec in Hk; [try discriminate|try congruence]);
      eexists; eexists; split; [exact P| |exact P| |exact P| |exact P|]; (split; [reflexivity|]); split; auto;
      intros k v Hi; rewrite keys_in_iff in Hk; specialize (Hk k v Hi); cbn in Hk |- *; intuition.
  - intros (prof & pars & P & Ep & Hk & Hm). unfold mem_key. rewrite P. unfold parameters in Ep.
    assert (K : forall al, (forall k, k = "profile" \/ k = "min_method" \/ In k pars -> In k al) -> keys_in m al = true).
    { intros al Ha. apply keys_in_iff. intros k v Hi. apply Ha. eapply Hk; eauto. }
    repeat split; auto.
    + cbn [is_str]. repeat (destruct string_dec in Ep; [subst; reflexivity|]). discriminate.
    + cbn [is_str]. destruct (string_dec prof "einasto"); [subst|destruct (string_dec prof "alpha_beta_gamma"); [subst|]];
        [| |destruct (string_dec prof "hernquist"); [subst|destruct (string_dec prof "nfw"); [subst|discriminate]]]; injection Ep as <-; apply K; intros k; cbn; intuition.
Qed.
Print Assumptions C63_method.
Example C63_method_example : documented [("profile", MStr "einasto"); ("alpha", MNum (18 / 100)); ("min_method", MStr "Powell")] /\
  ~ documented [("profile", MStr "nfw"); ("alpha", MNum 1)] /\ ~ documented [("profile", MStr "nfw"); ("min_method", MStr "BFGS")].
Proof. repeat split; try (rewrite <- C63_method; cbn; discriminate). apply C63_method. reflexivity. Qed.
(** What the minimiser is told for a documented method: the minimiser asked for or Powell, and the first
    guess of every parameter. *)
Theorem C63_start : forall m, documented m -> exists prof, lookup m "profile" = Some (MStr prof) /\
  (forall s, lookup m "min_method" = Some (MStr s) -> min_method m = s) /\ (lookup m "min_method" = None -> min_method m = "Powell") /\
  forall r200, (prof = "einasto" -> iguess m r200 = [/ 10; 18 / 100; r200 / 5]) /\ (prof = "alpha_beta_gamma" -> iguess m r200 = [/ 10; 1; 1; 1; r200 / 5]) /\
    (prof = "nfw" \/ prof = "hernquist" -> iguess m r200 = [/ 10; r200 / 5]).
Proof.
  intros m (prof & pars & P & _ & _ & _). exists prof. split; [exact P|]. unfold min_method. split; [intros s ->; reflexivity|]. split; [intros ->; reflexivity|].
  intros r200. unfold iguess. rewrite P. cbn [is_str]. replace (1 / 10) with (/ 10) by lra.
  split; [intros ->; destruct string_dec; congruence|]. split; [intros ->|intros [->| ->]]; repeat (destruct string_dec; try congruence).
Qed.
Print Assumptions C63_start.
Example C63_start_example : let m := [("profile", MStr "alpha_beta_gamma"); ("min_method", MStr "TNC")] in
  documented m /\ min_method m = "TNC" /\ nth 3 (iguess m 200) 0 = 1.
Proof. repeat split. apply C63_method. reflexivity. Qed.

(** Documented Katz configurations. *)
Definition katz_fields : list string := ["ROverR200"; "IT_TOL"; "IT_WALL"; "IT_MIN"; "REDUCED"; "SHELL_BASED"].
(* Exactly the dictionaries with all six fields of the right kinds pass, and come back unchanged. *)
Theorem C63_katz : forall d k,
  (klookup d "ROverR200" = Some (KArr (k_RO k)) /\ klookup d "IT_TOL" = Some (KFloat (k_TOL k)) /\
   klookup d "IT_WALL" = Some (KInt (k_WALL k)) /\ klookup d "IT_MIN" = Some (KInt (k_MIN k)) /\
   klookup d "REDUCED" = Some (KBool (k_REDUCED k)) /\ klookup d "SHELL_BASED" = Some (KBool (k_SHELL k))) ->
  checkKatzConfig d = inl k.
Proof. intros d [ro t w i r s] (E1 & E2 & E3 & E4 & E5 & E6). unfold checkKatzConfig. rewrite E1, E2, E3, E4, E5, E6. reflexivity. Qed.
Print Assumptions C63_katz.
Definition float_like (v : option kval) : Prop := exists w, v = Some w /\ forall l, w <> KArr l.
Theorem C63_katz_accepts : forall d, (exists k, checkKatzConfig d = inl k) <->
  (exists l, klookup d "ROverR200" = Some (KArr l)) /\ float_like (klookup d "IT_TOL") /\ float_like (klookup d "IT_WALL") /\ float_like (klookup d "IT_MIN") /\
  (exists b, klookup d "REDUCED" = Some (KBool b)) /\ (exists b, klookup d "SHELL_BASED" = Some (KBool b)).
Proof.
  intros d. split.
  - intros (k & H). unfold checkKatzConfig in H.
    destruct (klookup d "ROverR200") as [ro|]; [|discriminate]. destruct (klookup d "IT_TOL") as [t|]; [|discriminate].
    destruct (klookup d "IT_WALL") as [w|]; [|discriminate]. destruct (klookup d "IT_MIN") as [i|]; [|discriminate].
    destruct (klookup d "REDUCED") as [r|]; [|discriminate]. destruct (klookup d "SHELL_BASED") as [s|]; [|discriminate].
    destruct s; try discriminate. destruct r; try discriminate. destruct ro; try discriminate.
    assert (F : forall v, (forall l, v <> KArr l) -> float_like (Some v)) by (intros v Hv; exists v; auto).
    assert (Ht : forall l, t <> KArr l) by (intros x ->; cbn in H; discriminate).
    assert (Hw : forall l, w <> KArr l) by (intros x ->; cbn in H; destruct to_float; discriminate).
    assert (Hi : forall l, i <> KArr l) by (intros x ->; cbn in H; destruct to_float, to_int; discriminate).
    repeat split; eauto.
  - intros ((l & E1) & (t & E2 & Ht) & (w & E3 & Hw) & (i & E4 & Hi) & (r & E5) & (s & E6)). unfold checkKatzConfig. rewrite E1, E2, E3, E4, E5, E6.
    assert (T : exists x, to_float t = Some x) by (destruct t as [| | | |q]; cbn; eauto; destruct (Ht q); auto).
    assert (W : exists x, to_int w = Some x) by (destruct w as [| | | |q]; cbn; eauto; destruct (Hw q); auto).
    assert (I : exists x, to_int i = Some x) by (destruct i as [| | | |q]; cbn; eauto; destruct (Hi q); auto).
    destruct T as (? & ->), W as (? & ->), I as (? & ->). eauto.
Qed.
Print Assumptions C63_katz_accepts.
(* The values that come back: booleans count as 0 and 1, the iteration limits lose their fractions. *)
Inductive stands_for : kval -> R -> Prop :=
| sf_true : stands_for (KBool true) 1 | sf_false : stands_for (KBool false) 0
| sf_nptrue : stands_for (KNpBool true) 1 | sf_npfalse : stands_for (KNpBool false) 0
| sf_int z : stands_for (KInt z) (IZR z) | sf_float x : stands_for (KFloat x) x.
Definition towards_zero (x : R) (z : Z) : Prop := Rabs (IZR z) <= Rabs x < Rabs (IZR z) + 1 /\ 0 <= IZR z * x.
Lemma Ztrunc_towards x : towards_zero x (Ztrunc x).
Proof.
  unfold towards_zero, Ztrunc. destruct Rle_dec as [H|H].
  - destruct (base_Int_part x) as (A & B). assert (0 <= IZR (Int_part x)).
    { apply IZR_le. assert (-1 < Int_part x)%Z; [|lia]. apply lt_IZR. lra. }
    rewrite !Rabs_pos_eq by lra. split; [lra|]. apply Rmult_le_pos; lra.
  - destruct (base_Int_part (- x)) as (A & B). assert (0 <= IZR (Int_part (- x))).
    { apply IZR_le. assert (-1 < Int_part (- x))%Z; [|lia]. apply lt_IZR. lra. }
    rewrite opp_IZR, Rabs_Ropp, (Rabs_left x) by lra. rewrite Rabs_pos_eq by lra. split; [lra|].
    replace (- IZR (Int_part (- x)) * x) with (IZR (Int_part (- x)) * (- x)) by ring. apply Rmult_le_pos; lra.
Qed.
Lemma towards_int z : towards_zero (IZR z) z.
Proof. unfold towards_zero. split; [lra|]. apply Rle_0_sqr. Qed.
Theorem C63_katz_values : forall d k, checkKatzConfig d = inl k -> exists t w i x y z,
  klookup d "ROverR200" = Some (KArr (k_RO k)) /\ klookup d "REDUCED" = Some (KBool (k_REDUCED k)) /\ klookup d "SHELL_BASED" = Some (KBool (k_SHELL k)) /\
  klookup d "IT_TOL" = Some t /\ klookup d "IT_WALL" = Some w /\ klookup d "IT_MIN" = Some i /\
  stands_for t x /\ stands_for w y /\ stands_for i z /\ k_TOL k = x /\ towards_zero y (k_WALL k) /\ towards_zero z (k_MIN k).
Proof.
  intros d k H. unfold checkKatzConfig in H.
  destruct (klookup d "ROverR200") as [ro|]; [|discriminate]. destruct (klookup d "IT_TOL") as [t|]; [|discriminate].
  destruct (klookup d "IT_WALL") as [w|]; [|discriminate]. destruct (klookup d "IT_MIN") as [i|]; [|discriminate].
  destruct (klookup d "REDUCED") as [r|]; [|discriminate]. destruct (klookup d "SHELL_BASED") as [s|]; [|discriminate].
  destruct s; try discriminate. destruct r; try discriminate. destruct ro; try discriminate.
  destruct (to_float t) as [x|] eqn:Et; [|discriminate]. destruct (to_int w) as [y|] eqn:Ew; [|discriminate]. destruct (to_int i) as [z|] eqn:Ei; [|discriminate].
  injection H as <-. cbn [k_RO k_REDUCED k_SHELL k_TOL k_WALL k_MIN].
  assert (F : forall v x, to_float v = Some x -> stands_for v x).
  { intros v u Hv. destruct v as [[]|[]|q|q|q]; cbn in Hv; try discriminate; injection Hv as <-; constructor. }
  assert (G : forall v n, to_int v = Some n -> exists u, stands_for v u /\ towards_zero u n).
  { intros v n Hv. destruct v as [[]|[]|q|q|q]; cbn in Hv; try discriminate; injection Hv as <-; eexists; (split; [constructor|]);
      try apply (towards_int 1); try apply (towards_int 0); try apply towards_int. apply Ztrunc_towards. }
  destruct (G _ _ Ew) as (y' & Y1 & Y2), (G _ _ Ei) as (z' & Z1 & Z2). apply F in Et.
  exists t, w, i, x, y', z'. repeat split; auto; try apply Y2; try apply Z2.
Qed.
Print Assumptions C63_katz_values.
Example C63_values_example : forall k, checkKatzConfig [("ROverR200", KArr [1]); ("IT_TOL", KBool false); ("IT_WALL", KFloat (5 / 2)); ("IT_MIN", KFloat (- (5 / 2)));
    ("REDUCED", KBool false); ("SHELL_BASED", KBool true)] = inl k -> k_TOL k = 0 /\ k_WALL k = 2%Z /\ k_MIN k = (-2)%Z.
Proof.
  intros k H. destruct (C63_katz_values _ _ H) as (t & w & i & x & y & z & _ & _ & _ & Et & Ew & Ei & X & Y & Z & -> & (W1 & W2) & (I1 & I2)).
  cbn in Et, Ew, Ei. injection Et as <-. injection Ew as <-. injection Ei as <-. inversion X; subst. inversion Y; subst. inversion Z; subst. split; [reflexivity|].
  rewrite (Rabs_pos_eq (5 / 2)) in W1 by lra. rewrite Rabs_Ropp, (Rabs_pos_eq (5 / 2)) in I1 by lra. split.
  - assert (0 <= IZR (k_WALL k)) by nra. rewrite Rabs_pos_eq in W1 by auto. assert (1 < k_WALL k < 3)%Z; [|lia]. split; apply lt_IZR; lra.
  - assert (IZR (k_MIN k) <= 0) by nra. rewrite Rabs_left1 in I1 by auto. assert (-3 < k_MIN k < -1)%Z; [|lia]. split; apply lt_IZR; lra.
Qed.
(* A missing field raises KeyError, whatever the other fields hold. *)
Theorem C63_katz_missing : forall d f, In f katz_fields -> klookup d f = None -> checkKatzConfig d = inr KKeyError.
Proof.
  intros d f Hf E. unfold checkKatzConfig. cbn in Hf.
  repeat (destruct Hf as [<-|Hf]; [rewrite E; repeat (destruct klookup as [|]; auto)|]). destruct Hf.
Qed.
Print Assumptions C63_katz_missing.
Example C63_katz_example : let d := [("ROverR200", KArr [1 / 2; 1]); ("IT_TOL", KFloat (1 / 100)); ("IT_WALL", KInt 100); ("IT_MIN", KInt 10); ("REDUCED", KBool false); ("SHELL_BASED", KBool true)] in
  checkKatzConfig d = inl (mkKatz [1 / 2; 1] (1 / 100) 100 10 false true) /\ checkKatzConfig (tl d) = inr KKeyError /\
  checkKatzConfig [("ROverR200", KArr [1]); ("IT_TOL", KFloat 1); ("IT_WALL", KInt 100); ("IT_MIN", KInt 10); ("REDUCED", KNpBool false); ("SHELL_BASED", KBool true)] = inr KAssertionError.
Proof. repeat split; reflexivity. Qed.
