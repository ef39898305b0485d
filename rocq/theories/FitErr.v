(** C122: when fitDensProfs and estConcentrations raise, and when they return. *)
From Coq Require Import Reals String Bool ZArith QArith Permutation Lra Lia List.
From Verif Require Import XR ConfigModel ConfigUnits CatModel CatSpec CatProofs ParModel DensModel FitModel FitProps FitConc.
Import ListNotations.
Close Scope Q_scope.
Local Open Scope string_scope.
Local Open Scope R_scope.

(** A selection of objects that exist, each listed once. *)
Definition good_selection (sel : list Z) (nobj : nat) : Prop :=
  sel <> [] /\ NoDup sel /\ forall z, In z sel -> (0 <= z < Z.of_nat nobj)%Z.
(** A minimiser that gives an answer for each of its inputs: a non-empty vector or ValueError. *)
Definition answers (minimize : minimiser) : Prop := forall mm obj x0 b, exists r, minimize mm obj x0 b r /\ r <> Some [].

Lemma legal_good sel nobj : legal (map inject_Z sel) (Z.of_nat nobj) <-> good_selection sel nobj.
Proof.
  unfold legal, good_selection. split.
  - intros (Hn & _ & Hd & Hr). split; [intros ->; apply Hn; reflexivity|]. split.
    + apply NoDup_nth_error. intros i j Hi E. destruct (nth_error sel i) as [x|] eqn:Ei; [|apply nth_error_None in Ei; lia].
      symmetry in E. apply (Hd i j (inject_Z x) (inject_Z x)); [apply map_nth_error; auto|apply map_nth_error; auto|apply Qeq_refl].
    + intros z Hz. rewrite Forall_forall in Hr. destruct (Hr (inject_Z z)) as (H1 & H2); [apply in_map; auto|].
      change 0%Q with (inject_Z 0) in H1. rewrite <- Zle_Qle in H1. rewrite <- Zlt_Qlt in H2. lia.
  - intros (Hn & Hd & Hr). split; [destruct sel; [contradiction|discriminate]|]. split.
    + apply Forall_forall. intros x Hx. apply in_map_iff in Hx. destruct Hx as (z & <- & _). exists z. reflexivity.
    + split.
      * intros i j x y Hi Hj Hxy. rewrite nth_error_map in Hi, Hj.
        destruct (nth_error sel i) as [a|] eqn:Ei; [|discriminate]. destruct (nth_error sel j) as [b|] eqn:Ej; [|discriminate].
        cbn in Hi, Hj. injection Hi as <-. injection Hj as <-. apply (proj1 (NoDup_nth_error sel) Hd).
        { apply nth_error_Some. congruence. } { rewrite Ei, Ej. f_equal. apply inject_Z_injective. exact Hxy. }
      * apply Forall_forall. intros x Hx. apply in_map_iff in Hx. destruct Hx as (z & <- & Hz). specialize (Hr z Hz).
        change 0%Q with (inject_Z 0). rewrite <- Zle_Qle, <- Zlt_Qlt. lia.
Qed.
Lemma valid_good sel nobj : valid_numbers sel nobj = true <-> good_selection sel nobj.
Proof.
  rewrite <- legal_good, <- isValidSelection_ok. unfold valid_numbers.
  destruct (isValidSelection_total (map inject_Z sel) (Z.of_nat nobj)) as [E|E]; rewrite E; split; auto; discriminate.
Qed.

Lemma run_exists minimize dens RO r200s m : answers minimize -> exists rows, fitDensProfHelper minimize dens RO r200s m rows.
Proof.
  intros H.
  assert (One : forall md r200 p, exists r, fitDensProf minimize RO m md r200 p r).
  { intros md r200 p. destruct (H (min_method m) (toMinimize m (rescaled_points (kept RO md r200))) (iguess m r200) (bounds m)) as ([[|rho rest]|] & Hr & Hn).
    - congruence.
    - eexists. eapply fit_found. exact Hr.
    - eexists. eapply fit_value_error. exact Hr. }
  assert (All : forall ps, exists rs, Forall2 (fun p r => fitDensProf minimize RO m (nth p dens []) (nth p r200s 0) p r) ps rs).
  { induction ps as [|p ps (rs & IH)]; [exists []; constructor|]. destruct (One (nth p dens []) (nth p r200s 0) p) as (r & Hr). exists (r :: rs). constructor; auto. }
  destruct (All (seq 0 (length dens))) as (rs & F). eexists. apply helper_done. eapply pool_done; [exact F|apply Permutation_refl].
Qed.

(** What a call does: raise one of the two documented exceptions or return n entries. *)
Definition outcome_is {X} (m : mdict) (ndens : nat) (sel : list Z) (nobj : nat) (out : outcome (list X)) : Prop :=
  (out = OErr AssertionError <-> ~ documented m) /\
  (out = OErr ValueError <-> documented m /\ (ndens <> length sel \/ ~ good_selection sel nobj)) /\
  ((exists l, out = OOk l /\ length l = length sel) <-> documented m /\ ndens = length sel /\ good_selection sel nobj).

Ltac outcomes := (split; [split|split; split]); intros X; first
  [ discriminate X | destruct X as (? & ? & ?); discriminate | reflexivity | exfalso; intuition congruence
  | intuition congruence | idtac ].

(* With a usable h and usable output units: AssertionError exactly for an undocumented method,
   ValueError exactly for a documented one with a wrong number of profiles or a wrong selection,
   otherwise one fit per selected object. *)
Theorem C122_fits : forall minimize c r200 nobj dens RO m sel, little_h c <> 0 -> out_l c <> 0 -> out_m c <> 0 ->
  (forall out, fitDensProfs minimize c r200 nobj dens RO m sel out -> outcome_is m (length dens) sel nobj out) /\
  (answers minimize -> exists out, fitDensProfs minimize c r200 nobj dens RO m sel out).
Proof.
  intros minimize c r200 nobj dens RO m sel Hh Hl Hm. destruct (units_ok c Hh Hl Hm) as (E1 & E2 & E3). split.
  - intros out H. unfold outcome_is. rewrite <- C63_method, <- valid_good. inversion H as [Hc|e Hc Hb|rows Hc Hb]; subst.
    + rewrite Hc. outcomes.
    + inversion Hb as [Hn|e' Hn Hd|f Hn Hd Hv|f e' rws Hn Hd Hv Hr Ho|]; subst; try congruence.
      * rewrite Hc. outcomes.
      * rewrite Hc, Hv. outcomes.
    + inversion Hb as [| | | |f g fl rws Hn Hd Hv Hr Ho Hlo]; subst. rewrite Hc, Hv. outcomes.
      eexists. split; [reflexivity|]. rewrite !map_length. destruct (helper_rows _ _ _ _ _ _ Hr) as (Lr & _). rewrite Lr.
      unfold scale_rows. rewrite map_length. auto.
  - intros Ha. destruct (checkDensFitMethod m) eqn:Hc; [|eexists; apply fp_assert; auto].
    destruct (Nat.eq_dec (length dens) (length sel)) as [Hn|Hn]; [|eexists; apply fp_err; auto; apply fb_len; auto].
    destruct (valid_numbers sel nobj) eqn:Hv; [|eexists; apply fp_err; auto; eapply fb_sel; eauto].
    destruct (run_exists minimize (scale_rows (out_m c / (MSUN10 / little_h c / MASS_UNIT) * / (out_l c / (MPC / little_h c)) ^ 3) dens) RO (pick r200 sel) m Ha) as (rows & Hr).
    eexists. apply fp_ok; auto. eapply fb_ok; eauto.
Qed.
Print Assumptions C122_fits.

Theorem C122_concentrations : forall minimize c r200 nobj dens RO m sel, little_h c <> 0 -> out_l c <> 0 -> out_m c <> 0 ->
  (forall out, estConcentrations minimize c r200 nobj dens RO m sel out -> outcome_is m (length dens) sel nobj out) /\
  (answers minimize -> exists out, estConcentrations minimize c r200 nobj dens RO m sel out).
Proof.
  intros minimize c r200 nobj dens RO m sel Hh Hl Hm. destruct (units_ok c Hh Hl Hm) as (E1 & E2 & E3). split.
  - intros out H. unfold outcome_is. rewrite <- C63_method, <- valid_good.
    inversion H as [Hc|Hc Hn|e Hc Hn Hd|f Hc Hn Hd Hv|f rows Hc Hn Hd Hv Hr]; subst; try congruence.
    + rewrite Hc. outcomes.
    + rewrite Hc. outcomes.
    + rewrite Hc, Hv. outcomes.
    + rewrite Hc, Hv. outcomes.
      eexists. split; [reflexivity|]. destruct (helper_rows _ _ _ _ _ _ Hr) as (Lr & _).
      rewrite map_length, combine_length, Lr. unfold pick, scale_rows. rewrite !map_length, Hn. lia.
  - intros Ha. destruct (checkDensFitMethod m) eqn:Hc; [|eexists; apply ec_assert; auto].
    destruct (Nat.eq_dec (length dens) (length sel)) as [Hn|Hn]; [|eexists; apply ec_len; auto].
    destruct (valid_numbers sel nobj) eqn:Hv; [|eexists; eapply ec_sel; eauto].
    destruct (run_exists minimize (scale_rows (out_m c / (MSUN10 / little_h c / MASS_UNIT) * / (out_l c / (MPC / little_h c)) ^ 3) dens) RO (pick r200 sel) m Ha) as (rows & Hr).
    eexists. eapply ec_ok; eauto.
Qed.
Print Assumptions C122_concentrations.

(* h = 0 (which stays in place although the setter raises), or 0 as output length unit (which
   the setter accepts): a division by zero, before the selection is looked at. 0 as output mass unit: the fits are made, and lost to a
   division by zero afterwards; the concentrations are returned. *)
Lemma pow_m3_0 x : x = 0 -> pow_m3 x = inr ZeroDivisionError.
Proof. intros ->. unfold pow_m3. destruct Req_EM_T; auto. contradiction. Qed.
Lemma from_out_zero c : little_h c = 0 \/ out_l c = 0 -> dens_from_out c = inr ZeroDivisionError.
Proof.
  intros H. unfold dens_from_out. destruct (Req_EM_T (little_h c) 0) as [E|E].
  - unfold internal, admissible. destruct Req_EM_T; [reflexivity|contradiction].
  - destruct H as [H|H]; [contradiction|]. rewrite internal_ok by auto. fold MPC MSUN10.
    assert (Ml : 0 < MPC) by apply MPC_pos. assert (Mm : 0 < MSUN10) by apply MSUN10_pos. assert (Mu : 0 < MASS_UNIT) by apply MASS_UNIT_pos.
    assert (D : forall a b, a <> 0 -> b <> 0 -> a / b <> 0) by (intros; apply Rmult_integral_contrapositive_currified; auto; apply Rinv_neq_0_compat; auto).
    rewrite !pydiv_ok by (repeat apply D; auto; lra). rewrite pow_m3_0; [reflexivity|]. rewrite H. unfold Rdiv. ring.
Qed.
Theorem C122_units : forall minimize c r200 nobj dens RO m sel, documented m -> length dens = length sel ->
  (little_h c = 0 \/ out_l c = 0 ->
   (forall out, fitDensProfs minimize c r200 nobj dens RO m sel out <-> out = OErr ZeroDivisionError) /\
   (forall out, estConcentrations minimize c r200 nobj dens RO m sel out <-> out = OErr ZeroDivisionError)) /\
  (little_h c <> 0 -> out_l c <> 0 -> out_m c = 0 -> good_selection sel nobj -> answers minimize ->
   (forall out, fitDensProfs minimize c r200 nobj dens RO m sel out <-> out = OErr ZeroDivisionError) /\
   (exists cs, estConcentrations minimize c r200 nobj dens RO m sel (OOk cs) /\ length cs = length sel)).
Proof.
  intros minimize c r200 nobj dens RO m sel Hc Hn. rewrite <- C63_method in Hc. split.
  - intros Hz. apply from_out_zero in Hz. split; intros out; split.
    + intros H. inversion H as [|e _ Hb|rows _ Hb]; subst; [congruence| |]; inversion Hb; subst; congruence.
    + intros ->. apply fp_err; auto. apply fb_unit; auto.
    + intros H. inversion H; subst; congruence.
    + intros ->. apply ec_unit; auto.
  - intros Hh Hl Hm Hg Ha. apply valid_good in Hg.
    assert (Ml : 0 < MPC) by apply MPC_pos. assert (Mm : 0 < MSUN10) by apply MSUN10_pos. assert (Mu : 0 < MASS_UNIT) by apply MASS_UNIT_pos.
    assert (D : forall a b, a <> 0 -> b <> 0 -> a / b <> 0) by (intros; apply Rmult_integral_contrapositive_currified; auto; apply Rinv_neq_0_compat; auto).
    assert (Ef : exists f, dens_from_out c = inl f).
    { unfold dens_from_out. rewrite internal_ok by auto. fold MPC MSUN10. rewrite !pydiv_ok by (repeat apply D; auto; lra).
      unfold pow_m3. destruct Req_EM_T as [E|_]; [|eauto]. exfalso. revert E. repeat apply D; auto; lra. }
    destruct Ef as (f & Ef).
    assert (Eo : dens_to_out c = inr ZeroDivisionError).
    { unfold dens_to_out. rewrite internal_ok by auto. fold MPC MSUN10. rewrite pydiv_ok by auto. unfold pydiv. destruct Req_EM_T; [reflexivity|contradiction]. }
    destruct (run_exists minimize (scale_rows f dens) RO (pick r200 sel) m Ha) as (rows & Hr). split.
    + intros out. split.
      * intros H. inversion H as [|e _ Hb|rws _ Hb]; subst; [congruence| |]; inversion Hb; subst; congruence.
      * intros ->. apply fp_err; auto. eapply fb_out; eauto.
    + eexists. split; [eapply ec_ok; eauto|]. destruct (helper_rows _ _ _ _ _ _ Hr) as (Lr & _).
      rewrite map_length, combine_length, Lr. unfold pick, scale_rows. rewrite !map_length, Hn. lia.
Qed.
Print Assumptions C122_units.

(** Two profiles: objects 2 and 0 of three are fitted; a repeated object, an object that does not
    exist, one profile too few and an unknown profile name are refused. *)
Definition start_min : minimiser := fun _ _ x0 _ r => match x0 with [] => r = None | _ => r = Some (map Fin x0) end.
Definition ex_cfg : config := cfg_out (MPC / 1000).
Example C122_example :
  let fit dens m sel := fitDensProfs start_min ex_cfg [5; 6; 7] 3 dens [1] m sel in
  answers start_min /\ little_h ex_cfg <> 0 /\ out_l ex_cfg <> 0 /\ out_m ex_cfg <> 0 /\
  (exists fits, fit [[Fin 1]; [Fin 2]] m_nfw [2; 0]%Z (OOk fits) /\ length fits = 2%nat) /\
  fit [[Fin 1]; [Fin 2]] m_nfw [2; 2]%Z (OErr ValueError) /\ fit [[Fin 1]; [Fin 2]] m_nfw [2; 3]%Z (OErr ValueError) /\
  fit [[Fin 1]] m_nfw [2; 0]%Z (OErr ValueError) /\ fit [[Fin 1]] [("profile", MStr "burkert")] [2]%Z (OErr AssertionError) /\
  estConcentrations start_min (mkConfig 1 1 1 0 1 1 1) [5; 6; 7] 3 [[Fin 1]] [1] m_nfw [9]%Z (OErr ZeroDivisionError).
Proof.
  intros fit.
  assert (Ha : answers start_min).
  { intros mm obj x0 b. destruct x0 as [|x l]; [exists None; split; [reflexivity|discriminate]|]. exists (Some (map Fin (x :: l))). split; [reflexivity|discriminate]. }
  assert (Ph : little_h ex_cfg <> 0) by (cbn; lra).
  assert (Pl : out_l ex_cfg <> 0) by (cbn [out_l ex_cfg cfg_out]; pose proof MPC_pos; lra).
  assert (Pm : out_m ex_cfg <> 0) by (cbn [out_m ex_cfg cfg_out]; apply Rgt_not_eq, Rdiv_lt_0_compat; [apply MSUN10_pos|apply MASS_UNIT_pos]).
  assert (Doc : documented m_nfw) by (apply C63_method; reflexivity).
  assert (Run : forall dens m sel, exists out, fit dens m sel out /\ outcome_is m (length dens) sel 3 out).
  { intros dens m sel. destruct (C122_fits start_min ex_cfg [5; 6; 7] 3 dens [1] m sel Ph Pl Pm) as (H & E). destruct (E Ha) as (out & Ho). exists out. split; auto. }
  split; [exact Ha|]. split; [exact Ph|]. split; [exact Pl|]. split; [exact Pm|]. repeat split.
  - destruct (Run [[Fin 1]; [Fin 2]] m_nfw [2; 0]%Z) as (out & Ho & (_ & _ & Hk)). destruct (proj2 Hk) as (l & -> & Ll); [|exists l; auto].
    split; auto. split; auto. split; [discriminate|]. split; [repeat constructor; cbn; intuition discriminate|]. intros z [<-|[<-|[]]]; cbn; lia.
  - destruct (Run [[Fin 1]; [Fin 2]] m_nfw [2; 2]%Z) as (out & Ho & (_ & Hk & _)). rewrite <- (proj2 Hk); auto. split; auto. right.
    intros (_ & H & _). inversion H; subst. cbn in *. tauto.
  - destruct (Run [[Fin 1]; [Fin 2]] m_nfw [2; 3]%Z) as (out & Ho & (_ & Hk & _)). rewrite <- (proj2 Hk); auto. split; auto. right.
    intros (_ & _ & H). specialize (H 3%Z ltac:(cbn; auto)). cbn in H. lia.
  - destruct (Run [[Fin 1]] m_nfw [2; 0]%Z) as (out & Ho & (_ & Hk & _)). rewrite <- (proj2 Hk); auto. split; auto. left. discriminate.
  - destruct (Run [[Fin 1]] [("profile", MStr "burkert")] [2]%Z) as (out & Ho & (Hk & _)). rewrite <- (proj2 Hk); auto. rewrite <- C63_method. discriminate.
  - apply (proj2 (proj1 (C122_units start_min (mkConfig 1 1 1 0 1 1 1) [5; 6; 7] 3 [[Fin 1]] [1] m_nfw [9]%Z Doc eq_refl) (or_introl eq_refl))). reflexivity.
Qed.
