(** C131: the ellipticity histogram of a whole call. *)
From Coq Require Import List Reals ZArith QArith Lra Lia Bool.
From Verif Require Import ListUtil ParModel XR ConfigModel ConfigUnits CatModel CatSpec CatProofs CatMpi GeoModel GeoSpec GeoProofs GeoProps EpsModel EpsProps HistModel HistProps
  ShapeModel ShapeSpec ShapeProofs ShapeExamples ShapePar ShapeProps ShapeMoveModel DensModel DensSpec DensProofs DensEll DensProps FitModel FitProps FitErr EndModel EndProps EndEllModel EndEll EpsCallModel.
Import ListNotations.
Local Open Scope R_scope.

Lemma eps_nth fuel kind choose L angle objs k o : nth_error objs k = Some o ->
  nth_error (getEpsilon fuel kind choose L angle objs) k = Some (obj_epsilon fuel kind (choose k) L angle o).
Proof.
  intros H. unfold getEpsilon. rewrite nth_error_map. pose proof (nth_error_combine_seq objs k o H) as HE. unfold ptc in *. rewrite HE. reflexivity.
Qed.
Lemma all_some_eq {A} (l : list (option A)) r : all_some l = Some r -> l = map Some r.
Proof.
  revert r. induction l as [|[a|] l IH]; intros r H; cbn in H; [injection H as <-; reflexivity| |discriminate].
  destruct (all_some l) as [r'|]; [|discriminate]. injection H as <-. cbn. f_equal. apply IH. reflexivity.
Qed.
Lemma picked_length a zs : length (picked a (map Z.to_nat zs)) = length zs.
Proof. unfold picked. rewrite !map_length. reflexivity. Qed.

(* One value per selected object: the absolute value of the ellipticity of the particles of this object. *)
Theorem C131_values : forall mfuel choose c a d s zs nb bars,
  little_h c <> 0 -> fits a -> make c a = inl d -> asks s zs -> (2 <= nb)%nat ->
  plotGlobalEpsHist mfuel choose nb d s (inl bars) ->
  good_selection zs (length (listed a)) /\
  exists eps, shows (nb - 1) (map cabs eps) bars /\ length eps = length zs /\
  forall k z, nth_error zs k = Some z -> exists o x e, nth_error (listed a) (Z.to_nat z) = Some (o, x) /\ nth_error eps k = Some e /\
    obj_epsilon mfuel (a_kind a) (choose k) (a_box a * (in_l c / cm (little_h c))) 0 (map pm (inner c a o)) = Some e.
Proof.
  intros mfuel choose c a d s zs nb bars Hh Hf Hd Ha Hnb H. rewrite make_ok in Hd by auto. injection Hd as <-.
  destruct (good_or_value a s zs Ha) as [N|Hg].
  { pose proof (chosen_bad c a s zs Ha N) as E. inversion H; congruence. }
  split; auto. pose proof (chosen_ok c a s zs Ha Hg) as E. cbv zeta in E.
  inversion H as [| | | |sub sz r b E1 E2 Hb]; subst. rewrite E in E1. injection E1 as <- <- <-.
  rewrite parts_concat, objs_ptcs in Hb by auto. unfold built in Hb. cbn [d_kind d_box] in Hb.
  unfold getGlobalEpsHist in Hb. set (objs := map (fun o => map pm (inner c a o)) (map fst (picked a (map Z.to_nat zs)))) in *.
  destruct (all_some (getEpsilon mfuel (a_kind a) choose (a_box a * (in_l c / cm (little_h c))) 0 objs)) as [eps|] eqn:A; [|discriminate].
  apply all_some_eq in A. destruct (C113_partial nb (map cabs eps) Hnb) as (b & B1 & B2). assert (b = bars) by congruence. subst b.
  assert (Lo : length objs = length zs) by (unfold objs; rewrite !map_length; apply picked_length).
  exists eps. split; auto. split.
  { rewrite <- Lo, <- (map_length Some eps), <- A. unfold getEpsilon. rewrite map_length, combine_length, seq_length. apply Nat.min_id. }
  intros k z Hk. destruct (picked_nth a zs k z Hg Hk) as (o & x & H1 & H2).
  assert (Ho : nth_error objs k = Some (map pm (inner c a o))) by (unfold objs; rewrite !nth_error_map, H2; reflexivity).
  pose proof (eps_nth mfuel (a_kind a) choose (a_box a * (in_l c / cm (little_h c))) 0 objs k _ Ho) as Q. rewrite A, nth_error_map in Q.
  destruct (nth_error eps k) as [e|]; [|discriminate]. cbn [option_map] in Q. exists o, x, e. repeat split; auto. congruence.
Qed.
Print Assumptions C131_values.

(* With the centre of mass every valid selection is drawn. Objects with positive masses whose particles do not all lie on one
   line of sight are all counted, with a value between 0 and 1. *)
Theorem C131_drawn : forall mfuel choose c a d s zs nb,
  little_h c <> 0 -> fits a -> make c a = inl d -> asks s zs -> good_selection zs (length (listed a)) -> a_kind a = CCom -> (2 <= nb)%nat ->
  (exists bars, plotGlobalEpsHist mfuel choose nb d s (inl bars)) /\
  ((forall k z o x, nth_error zs k = Some z -> nth_error (listed a) (Z.to_nat z) = Some (o, x) ->
      (forall q, In q (map pm (inner c a o)) -> 0 < snd q) /\
      exists u v, let w := respectPBCNoRef (choose k) (map fst (map pm (inner c a o))) (a_box a * (in_l c / cm (little_h c))) in
        In u w /\ In v w /\ (vx u <> vx v \/ vy u <> vy v)) ->
   exists es bars, plotGlobalEpsHist mfuel choose nb d s (inl bars) /\ shows (nb - 1) (map Fin es) bars /\ length es = length zs /\ count in01 (map Fin es) = length zs).
Proof.
  intros mfuel choose c a d s zs nb Hh Hf Hd Ha Hg Hk Hnb. rewrite make_ok in Hd by auto. injection Hd as <-.
  pose proof (chosen_ok c a s zs Ha Hg) as E. cbv zeta in E. pose proof (exist_ok c a zs Hf Hg) as X.
  set (objs := map (fun o => map pm (inner c a o)) (map fst (picked a (map Z.to_nat zs)))).
  set (L := a_box a * (in_l c / cm (little_h c))).
  assert (Lo : length objs = length zs) by (unfold objs; rewrite !map_length; apply picked_length).
  assert (G : forall bars, getGlobalEpsHist mfuel CCom choose L 0 objs nb = Some bars -> plotGlobalEpsHist mfuel choose nb (built c a) s (inl bars)).
  { intros bars B. eapply pe_ok; [exact E|exact X|]. rewrite parts_concat, objs_ptcs by auto. unfold built. cbn [d_kind d_box]. rewrite Hk. exact B. }
  split.
  - destruct (all_some_nth (getEpsilon mfuel CCom choose L 0 objs)) as (r & A & _).
    { intros p x Hx Hn. subst x. destruct (nth_error objs p) as [o|] eqn:Ho.
      - destruct (C36_com mfuel choose L 0 objs p o Ho) as (e & He). congruence.
      - apply nth_error_None in Ho. assert (p < length (getEpsilon mfuel CCom choose L 0 objs))%nat by (apply nth_error_Some; congruence).
        unfold getEpsilon in H. rewrite map_length, combine_length, seq_length in H. lia. }
    destruct (C113_partial nb (map cabs r) Hnb) as (bars & B & _). exists bars. apply G. unfold getGlobalEpsHist. rewrite A. exact B.
  - intros HP. destruct (C113_eps_partial mfuel CCom choose L 0 objs nb Hnb) as (es & bars & B & Le & S & Cn & _).
    { intros p o Ho. unfold objs in Ho. rewrite !nth_error_map in Ho. destruct (nth_error (picked a (map Z.to_nat zs)) p) as [(o', x)|] eqn:Hp; [|discriminate].
      cbn [option_map fst] in Ho. injection Ho as <-. assert (p < length zs)%nat by (rewrite <- (picked_length a zs); apply nth_error_Some; congruence).
      destruct (nth_error zs p) as [z|] eqn:Hz; [|apply nth_error_None in Hz; lia].
      destruct (picked_nth a zs p z Hg Hz) as (o2 & x2 & Q1 & Q2). assert (o2 = o' /\ x2 = x) as (-> & ->) by (split; congruence).
      destruct (HP p z o' x Hz Q1) as (P1 & u & v & P2). split; [exact P1|]. split; [discriminate|]. exists u, v. exact P2. }
    exists es, bars. split; [apply G; exact B|]. split; [exact S|]. split; [exact (eq_trans Le Lo)|exact (eq_trans Cn Lo)].
Qed.
Print Assumptions C131_drawn.

(* The figure does not depend on the units, and a selection that is not valid raises ValueError. *)
Theorem C131_units : forall mfuel choose c1 a1 c2 a2 d1 d2 s nb out, little_h c1 <> 0 -> same_data c1 a1 c2 a2 ->
  make c1 a1 = inl d1 -> make c2 a2 = inl d2 -> plotGlobalEpsHist mfuel choose nb d1 s out -> plotGlobalEpsHist mfuel choose nb d2 s out.
Proof. intros mfuel choose c1 a1 c2 a2 d1 d2 s nb out Hh Hs H1 H2 H. rewrite (same_make _ _ _ _ Hh Hs) in H1. congruence. Qed.
Print Assumptions C131_units.
Theorem C131_failures : forall mfuel choose c a d s zs nb, little_h c <> 0 -> fits a -> make c a = inl d -> asks s zs ->
  (~ good_selection zs (length (listed a)) -> forall out, plotGlobalEpsHist mfuel choose nb d s out <-> out = inr EValue) /\
  (good_selection zs (length (listed a)) -> a_kind a = CCom -> forall e, plotGlobalEpsHist mfuel choose nb d s (inr e) <-> nb = 0%nat /\ e = EIndex).
Proof.
  intros mfuel choose c a d s zs nb Hh Hf Hd Ha. rewrite make_ok in Hd by auto. injection Hd as <-. split.
  - intros N out. pose proof (chosen_bad c a s zs Ha N) as E. split; [intros H; inversion H; congruence|intros ->; apply pe_selection; exact E].
  - intros Hg Hk e. pose proof (chosen_ok c a s zs Ha Hg) as E. cbv zeta in E. pose proof (exist_ok c a zs Hf Hg) as X.
    assert (NN : forall objs, ~ In None (getEpsilon mfuel CCom choose (d_box (built c a)) 0 objs)).
    { intros objs HI. apply In_nth_error in HI. destruct HI as (p & Hp). destruct (nth_error objs p) as [o|] eqn:Ho.
      - destruct (C36_com mfuel choose (d_box (built c a)) 0 objs p o Ho) as (e0 & He). congruence.
      - apply nth_error_None in Ho. assert (p < length (getEpsilon mfuel CCom choose (d_box (built c a)) 0 objs))%nat by (apply nth_error_Some; congruence).
        unfold getEpsilon in H. rewrite map_length, combine_length, seq_length in H. lia. }
    assert (Kd : d_kind (built c a) = CCom) by exact Hk. split.
    + intros H. inversion H as [? E1|? ? ? E1 X1|? ? ? E1 X1 I1|? ? ? E1 X1 I1 Z|]; subst.
      * congruence.
      * rewrite E in E1. injection E1 as <- <- <-. congruence.
      * rewrite Kd in I1. destruct (NN _ I1).
      * auto.
    + intros (-> & ->). eapply pe_edges; [exact E|exact X| |reflexivity]. rewrite Kd. apply NN.
Qed.
Print Assumptions C131_failures.
(* For valid selections RecursionError is raised exactly if the mode of a selected object is not found. *)
Theorem C131_mode : forall mfuel choose c a d s zs nb, little_h c <> 0 -> fits a -> make c a = inl d -> asks s zs -> good_selection zs (length (listed a)) ->
  (plotGlobalEpsHist mfuel choose nb d s (inr ERecursion) <->
   exists k z o x, nth_error zs k = Some z /\ nth_error (listed a) (Z.to_nat z) = Some (o, x) /\
     obj_epsilon mfuel (a_kind a) (choose k) (a_box a * (in_l c / cm (little_h c))) 0 (map pm (inner c a o)) = None).
Proof.
  intros mfuel choose c a d s zs nb Hh Hf Hd Ha Hg. rewrite make_ok in Hd by auto. injection Hd as <-.
  pose proof (chosen_ok c a s zs Ha Hg) as E. cbv zeta in E. pose proof (exist_ok c a zs Hf Hg) as X.
  set (objs := map (fun o => map pm (inner c a o)) (map fst (picked a (map Z.to_nat zs)))).
  assert (Lo : length objs = length zs) by (unfold objs; rewrite !map_length; apply picked_length).
  assert (P : map (ptcs (d_xyz (built c a)) (d_masses (built c a))) (parts (concat (map fst (picked a (map Z.to_nat zs)))) (map (@length nat) (map fst (picked a (map Z.to_nat zs))))) = objs)
    by (rewrite parts_concat; apply objs_ptcs; auto).
  assert (N : In None (getEpsilon mfuel (a_kind a) choose (a_box a * (in_l c / cm (little_h c))) 0 objs) <->
    exists k z o x, nth_error zs k = Some z /\ nth_error (listed a) (Z.to_nat z) = Some (o, x) /\
     obj_epsilon mfuel (a_kind a) (choose k) (a_box a * (in_l c / cm (little_h c))) 0 (map pm (inner c a o)) = None).
  { split.
    - intros HI. apply In_nth_error in HI. destruct HI as (k & Hk).
      assert (Lk : (k < length (getEpsilon mfuel (a_kind a) choose (a_box a * (in_l c / cm (little_h c))) 0 objs))%nat) by (apply nth_error_Some; congruence).
      assert (LE : length (getEpsilon mfuel (a_kind a) choose (a_box a * (in_l c / cm (little_h c))) 0 objs) = length zs).
      { unfold getEpsilon. rewrite map_length, combine_length, seq_length, Nat.min_id. exact Lo. }
      rewrite LE in Lk. destruct (nth_error zs k) as [z|] eqn:Hz; [|apply nth_error_None in Hz; lia].
      destruct (picked_nth a zs k z Hg Hz) as (o & x & H1 & H2). exists k, z, o, x. repeat split; auto.
      assert (Ho : nth_error objs k = Some (map pm (inner c a o))) by (unfold objs; rewrite !nth_error_map, H2; reflexivity).
      pose proof (eps_nth mfuel (a_kind a) choose (a_box a * (in_l c / cm (little_h c))) 0 objs k _ Ho). congruence.
    - intros (k & z & o & x & Hz & H1 & HN). destruct (picked_nth a zs k z Hg Hz) as (o2 & x2 & Q1 & Q2). assert (o2 = o) by congruence. subst o2.
      assert (Ho : nth_error objs k = Some (map pm (inner c a o))) by (unfold objs; rewrite !nth_error_map, Q2; reflexivity).
      pose proof (eps_nth mfuel (a_kind a) choose (a_box a * (in_l c / cm (little_h c))) 0 objs k _ Ho) as Q. rewrite HN in Q. eapply nth_error_In; exact Q. }
  rewrite <- N. split.
  - intros H. inversion H as [? E1|? ? ? E1 X1|? ? ? E1 X1 I1|? ? ? E1 X1 I1 Z|]; subst; [congruence|]. rewrite E in E1. injection E1 as <- <- <-. rewrite P in I1. exact I1.
  - intros HI. eapply pe_mode; [exact E|exact X|]. rewrite P. exact HI.
Qed.
Print Assumptions C131_mode.

(** The objects of C123_example. *)
Example C131_example : fits args_e /\ asks (SelList [0%Q]) [0%Z] /\ good_selection [0%Z] (length (listed args_e)) /\ same_data cfg_e args_e cfg_k args_k /\
  ~ good_selection [1%Z] (length (listed args_e)) /\
  (forall k z o x, nth_error [0%Z] k = Some z -> nth_error (listed args_e) (Z.to_nat z) = Some (o, x) ->
      (forall q, In q (map pm (inner cfg_e args_e o)) -> 0 < snd q) /\
      exists u v, let w := respectPBCNoRef (seq 0 6) (map fst (map pm (inner cfg_e args_e o))) (a_box args_e * (in_l cfg_e / cm (little_h cfg_e))) in
        In u w /\ In v w /\ (vx u <> vx v \/ vy u <> vy v)) /\
  exists d es bars, make cfg_e args_e = inl d /\ plotGlobalEpsHist 1 (fun _ => seq 0 6) 11 d (SelList [0%Q]) (inl bars) /\ length bars = 10%nat /\ length es = 1%nat /\ shows 10 (map Fin es) bars.
Proof.
  destruct C123_example as (Hf & Hu & Ha & Hg & Hs & _ & Hb & _). assert (Hh : little_h cfg_e <> 0) by (cbn; lra).
  assert (HP : forall k z o x, nth_error [0%Z] k = Some z -> nth_error (listed args_e) (Z.to_nat z) = Some (o, x) ->
      (forall q, In q (map pm (inner cfg_e args_e o)) -> 0 < snd q) /\
      exists u v, let w := respectPBCNoRef (seq 0 6) (map fst (map pm (inner cfg_e args_e o))) (a_box args_e * (in_l cfg_e / cm (little_h cfg_e))) in
        In u w /\ In v w /\ (vx u <> vx v \/ vy u <> vy v)).
  { intros [|[|k]] z o x Hz Ho; try discriminate. injection Hz as <-. injection Ho as <- _. rewrite inner_e. split.
    - intros q Hq. cbn in Hq. repeat (destruct Hq as [<-|Hq]; [cbn; lra|]). destruct Hq.
    - replace (a_box args_e * (in_l cfg_e / cm (little_h cfg_e))) with 0 by (cbn [args_e a_box]; ring).
      exists (mkV 3 0 0), (mkV (-3) 0 0). cbv zeta. unfold respectPBCNoRef. destruct Req_EM_T as [_|Q]; [|lra]. cbn. split; [auto|]. split; [auto|]. left. lra. }
  split; [exact Hf|]. split; [exact Ha|]. split; [exact Hg|]. split; [exact Hs|]. split; [exact Hb|]. split; [exact HP|].
  destruct (proj2 (C131_drawn 1 (fun _ => seq 0 6) cfg_e args_e (built cfg_e args_e) (SelList [0%Q]) [0%Z] 11 Hh Hf (make_ok _ _ Hh Hf) Ha Hg eq_refl ltac:(lia)) HP)
    as (es & bars & B & S & Le & _).
  exists (built cfg_e args_e), es, bars. split; [apply make_ok; auto|]. split; [exact B|]. split; [exact (proj1 S)|]. split; [exact Le|exact S].
Qed.
