(** C111, continued: when plotDensProfs raises. *)
From Coq Require Import Reals Lra Lia String Bool ZArith Permutation Sorted List.
From Verif Require Import XR ConfigModel CatModel DensModel FitModel StatModel SplitProps FigModel ConfigUnits FitProps FitConc FitErr FigProps.
Import ListNotations.
Local Open Scope R_scope.

Ltac cases := repeat match goal with
  | |- _ /\ _ => split | |- _ <-> _ => split | |- _ -> _ => intros ? | |- ~ _ => intros ?
  | H : _ /\ _ |- _ => destruct H | H : _ \/ _ |- _ => destruct H | H : exists _, _ |- _ => destruct H end; try discriminate; try congruence; try tauto; try lia; eauto.

(* With usable units and at least one bin there is always an outcome: AssertionError exactly for a method that is
   not documented, ValueError exactly for a wrong number of profiles or a wrong selection, IndexError
   only if rows for the fit are missing, and figures otherwise. *)
Theorem C111_errors : forall minimize c r200 nobj masses args dens RO densfit ROfit m nb sel, positive c -> length masses = length sel -> (0 < nb)%nat ->
  (forall out, plotDensProfs minimize c r200 nobj masses args dens RO densfit ROfit m nb sel out ->
     (out = inr (FE AssertionError) <-> ~ documented m) /\
     (out = inr (FE ValueError) <-> documented m /\ (length dens <> length sel \/ ~ good_selection sel nobj)) /\
     (out = inr FIndexError -> (length densfit < length sel)%nat) /\
     (out = inr FIndexError \/ (exists figs, out = inl figs) <-> documented m /\ length dens = length sel /\ good_selection sel nobj)) /\
  (total minimize -> exists out, plotDensProfs minimize c r200 nobj masses args dens RO densfit ROfit m nb sel out).
Proof.
  intros minimize c r200 nobj masses args dens RO densfit ROfit m nb sel Hc Lm Hb. destruct (factors c Hc) as (f & g & Ef & Eg & _).
  assert (exists sp, M_split tt masses [] None args nb = Some sp) as [sp Hsp].
  { unfold M_split. destruct nb; [lia|]. match goal with |- context [if ?b then _ else _] => destruct b end; eexists; reflexivity. }
  assert (Row : forall nfit objs p, In objs (tl (figure_objs masses sp nfit)) -> In p objs -> (p < length sel)%nat).
  { intros nfit objs p Ho Hp. cbn [figure_objs tl] in Ho. apply in_map_iff in Ho. destruct Ho as (k & <- & _).
    pose proof (members_shown masses (edges sp) k) as [_ S]. apply S in Hp. lia. }
  split.
  - intros out H. rewrite <- C63_method, <- valid_good.
    destruct H as [Hm|Hm Hl|e Hm Hl Hd|f0 Hm Hl Hd Hv|f0 o Hm Hl Hd Hv HD].
    + rewrite Hm. cases.
    + rewrite Hm. cases.
    + congruence.
    + rewrite Hm, Hv. cases.
    + rewrite Hm, Hv. destruct HD as [Hs|e sp' Hs Hf|f1 sp' objs p Hs Hf Ho Hp Hn|f1 sp' figs Hs Hf Hr HF]; try congruence.
      * assert (sp' = sp) by congruence. subst sp'. specialize (Row _ _ _ Ho Hp). unfold in_unit in Hn. rewrite map_length in Hn.
        cases.
      * cases.
  - intros T. destruct (checkDensFitMethod m) eqn:Hm; [|eexists; apply pp_assert; auto].
    destruct (Nat.eq_dec (length dens) (length sel)) as [Hn|Hn]; [|eexists; apply pp_len; auto].
    destruct (valid_numbers sel nobj) eqn:Hv; [|eexists; eapply pp_sel; eauto].
    destruct (existsb (fun objs => existsb (fun p => (length (in_unit f densfit) <=? p)%nat) objs) (tl (figure_objs masses sp (length (pick r200 sel))))) eqn:X.
    + apply existsb_exists in X. destruct X as (objs & Ho & X). apply existsb_exists in X. destruct X as (p & Hp & X). apply Nat.leb_le in X.
      eexists. eapply pp_draw; eauto. eapply dd_index; eauto.
    + assert (R : forall objs p, In objs (tl (figure_objs masses sp (length (pick r200 sel)))) -> In p objs -> (p < length (in_unit f densfit))%nat).
      { intros objs p Ho Hp. apply Nat.nle_gt. intros L. apply not_true_iff_false in X. apply X. apply existsb_exists. exists objs. split; auto.
        apply existsb_exists. exists p. split; auto. apply Nat.leb_le. auto. }
      set (l := combine (figure_objs masses sp (length (pick r200 sel))) (figure_fobjs masses sp (length (in_unit f densfit)))).
      assert (exists figs, Forall2 (fun g' fig => drawn minimize g m ROfit RO (in_unit f densfit) (in_unit f dens) (pick r200 sel) (fst g') (snd g') fig) l figs) as [figs HF].
      { clearbody l. induction l as [|x l [figs IH]]; [exists []; constructor|].
        destruct (drawn_exists minimize g m ROfit RO (in_unit f densfit) (in_unit f dens) (pick r200 sel) (fst x) (snd x) T) as [fig Hfig]. exists (fig :: figs). constructor; assumption. }
      eexists. eapply pp_draw; eauto. eapply dd_ok; eauto.
Qed.
Print Assumptions C111_errors.

(* A method that is documented with two profiles for one object, and with an object that does not exist. *)
Example C111_errors_ex : positive mpc_cfg /\ total gives_up /\ documented nfw /\
  plotDensProfs gives_up mpc_cfg [1] 1 [1] [0%nat] [[1]; [5]] [1] [[1]] [1] nfw 1 [0%Z] (inr (FE ValueError)) /\
  plotDensProfs gives_up mpc_cfg [1] 1 [1] [0%nat] [[1]] [1] [[1]] [1] nfw 1 [1%Z] (inr (FE ValueError)) /\
  exists figs, plotDensProfs gives_up mpc_cfg [1] 1 [1] [0%nat] [[1]] [1] [[1]] [1] nfw 1 [0%Z] (inl figs).
Proof.
  split; [apply mpc_positive|]. split; [apply gives_up_total|]. split; [apply C63_method, nfw_method|].
  destruct (factors mpc_cfg mpc_positive) as (f & g & Ef & _).
  split; [apply pp_len; [reflexivity|discriminate]|]. split; [eapply pp_sel; [reflexivity|reflexivity|exact Ef|reflexivity]|].
  destruct (plot_runs gives_up mpc_cfg [1] 1 [1] [0%nat] [[1]] [1] [[1]] [1] nfw 1 [0%Z]) as (figs & _ & H);
    [apply gives_up_total|apply mpc_positive|apply nfw_method|reflexivity|reflexivity|cbn; lia|reflexivity|lia|]. eauto.
Qed.
