(** C123: from the arrays of the user to the answers of the public methods. *)
From Coq Require Import List Reals ZArith QArith Lra Lia Bool.
From Verif Require Import ListUtil ParModel XR ConfigModel ConfigUnits CatModel CatSpec CatProofs CatMpi GeoModel GeoSpec GeoProofs GeoProps ShapeModel ShapeSpec ShapeProofs
  Spectral ShapeExamples ShapePar ShapeProps ShapeMoveModel DensModel DensSpec DensProofs DensEll DensProps FitModel FitProps FitErr EndModel.
Import ListNotations.
Local Open Scope R_scope.

(** ** Vocabulary *)
(** Usable arguments: as many masses as positions, one radius per object, particles that exist, and a
    minimum size of at least one particle. *)
Definition fits (a : args) : Prop :=
  length (a_xyz a) = length (a_masses a) /\ objects_of (a_idx a) <> [] /\ length (a_r200 a) = length (objects_of (a_idx a)) /\
  (1 <= a_minp a)%Z /\ forall o i, In o (objects_of (a_idx a)) -> In i o -> (i < length (a_xyz a))%nat.
(** The objects of the catalogue the methods number: those that are large enough. *)
Definition listed (a : args) : list (list nat * R) := large (a_minp a) (objects_of (a_idx a)) (a_r200 a).
(** cm per unit and g per unit of the internal system, MPC/h and 10^10 solar masses/h. *)
Definition cm (h : R) : R := MPC / h.
Definition gr (h : R) : R := MSUN10 / h.
(** Positions (with zero velocity) and masses of an object in internal units. *)
Definition inner (c : config) (a : args) (o : list nat) : list vptc :=
  map (fun i => (vscale (in_l c / cm (little_h c)) (nth i (a_xyz a) v0), v0, nth i (a_masses a) 0 * (in_m c / gr (little_h c)))) o.
(** Usable output units. *)
Definition usable_out (h : R) (c : config) : Prop := little_h c = h /\ out_l c <> 0 /\ out_m c <> 0.
(** A selection, list or array, of the integers [zs]. *)
Definition asks (s : selection) (zs : list Z) : Prop := entries s = map inject_Z zs.

(** ** Construction *)
Lemma cm_nz h : h <> 0 -> cm h <> 0.
Proof. intros H. unfold cm, MPC. apply Rmult_integral_contrapositive. split; [|apply Rinv_neq_0_compat; auto]. apply Rmult_integral_contrapositive. split; [lra|apply pow_nonzero; lra]. Qed.
Lemma gr_nz h : h <> 0 -> gr h <> 0.
Proof. intros H. unfold gr, MSUN10. apply Rmult_integral_contrapositive. split; [|apply Rinv_neq_0_compat; auto]. apply Rmult_integral_contrapositive. split; [lra|apply pow_nonzero; lra]. Qed.
Lemma internal_cm c : little_h c <> 0 -> internal c = inl (cm (little_h c), gr (little_h c), 10 ^ 5).
Proof. intros H. rewrite internal_ok by auto. reflexivity. Qed.

Definition built (c : config) (a : args) : direct :=
  let fl := in_l c / cm (little_h c) in let fm := in_m c / gr (little_h c) in
  mkDirect (map (vscale fl) (a_xyz a)) (map (fun x => x * fm) (a_masses a)) (concat (map fst (listed a)))
           (map (fun or => snd or * fl) (listed a)) (map (fun or => length (fst or)) (listed a)) (a_box a * fl) (a_kind a).
(** Usable arguments, whether or not all particles exist. *)
Definition shaped (a : args) : Prop :=
  length (a_xyz a) = length (a_masses a) /\ objects_of (a_idx a) <> [] /\ length (a_r200 a) = length (objects_of (a_idx a)).
Lemma fits_shaped a : fits a -> shaped a.
Proof. intros (H1 & H2 & H3 & _). repeat split; auto. Qed.
Lemma make_shaped c a : little_h c <> 0 -> shaped a -> make c a = inl (built c a).
Proof.
  intros Hh (Hl & Hne & Hr). unfold make. rewrite Hl, Nat.eqb_refl. cbn [negb].
  rewrite internal_cm by auto. rewrite !pydiv_ok by (apply cm_nz || apply gr_nz; auto).
  rewrite (construct_ok _ (a_idx a) (objects_of (a_idx a))) by auto. reflexivity.
Qed.
Lemma make_ok c a : little_h c <> 0 -> fits a -> make c a = inl (built c a).
Proof. intros Hh Hf. apply make_shaped; auto. apply fits_shaped; auto. Qed.

(** ** Selections *)
Definition picked (a : args) (ns : list nat) : list (list nat * R) := map (fun n => nth n (listed a) ([], 0)) ns.
Lemma take_ok {X} (l : list X) dflt ns : (forall n, In n ns -> (n < length l)%nat) -> take l ns = Some (map (fun n => nth n l dflt) ns).
Proof.
  induction ns as [|n ns IH]; intros H; [reflexivity|]. cbn [take map].
  rewrite (nth_error_nth' l dflt (H n (or_introl eq_refl))). rewrite IH by (intros k Hk; apply H; right; auto). reflexivity.
Qed.
Lemma select_ok s zs nobj : asks s zs -> good_selection zs nobj ->
  exists arr, select s (Z.of_nat nobj) = inl arr /\ map (fun x => Z.to_nat (trunc x)) arr = map Z.to_nat zs.
Proof.
  intros Ha Hg. unfold asks in Ha.
  assert (T : forall z, trunc (inject_Z z) = z) by (intros z; apply trunc_int; reflexivity).
  assert (E : (match s with SelList l => map (fun x => inject_Z (trunc x)) l | SelArray l => l end) = map inject_Z zs).
  { destruct s as [l|l]; cbn [entries] in Ha; rewrite Ha; [|reflexivity]. rewrite map_map. apply map_ext. intros z. rewrite T. reflexivity. }
  exists (map inject_Z zs). split.
  - unfold select. rewrite E. apply legal_good in Hg. apply isValidSelection_ok in Hg. rewrite Hg. reflexivity.
  - rewrite map_map. apply map_ext. intros z. rewrite T. reflexivity.
Qed.
Lemma select_bad s zs nobj : asks s zs -> ~ good_selection zs nobj -> exists e, select s (Z.of_nat nobj) = inr e.
Proof.
  intros Ha Hg. unfold asks in Ha.
  assert (T : forall z, trunc (inject_Z z) = z) by (intros z; apply trunc_int; reflexivity).
  assert (E : (match s with SelList l => map (fun x => inject_Z (trunc x)) l | SelArray l => l end) = map inject_Z zs).
  { destruct s as [l|l]; cbn [entries] in Ha; rewrite Ha; [|reflexivity]. rewrite map_map. apply map_ext. intros z. rewrite T. reflexivity. }
  unfold select. rewrite E. destruct (isValidSelection_total (map inject_Z zs) (Z.of_nat nobj)) as [F|F]; rewrite F; [|eauto].
  exfalso. apply Hg. apply legal_good, isValidSelection_ok. exact F.
Qed.

Lemma picked_range a zs : good_selection zs (length (listed a)) -> forall n, In n (map Z.to_nat zs) -> (n < length (listed a))%nat.
Proof. intros (_ & _ & Hr) n Hn. apply in_map_iff in Hn. destruct Hn as (z & <- & Hz). specialize (Hr z Hz). lia. Qed.
Lemma chosen_ok c a s zs : asks s zs -> good_selection zs (length (listed a)) ->
  let p := picked a (map Z.to_nat zs) in
  chosen (built c a) s = inl (concat (map fst p), map (@length nat) (map fst p), map (fun or => snd or * (in_l c / cm (little_h c))) p).
Proof.
  intros Ha Hg p. unfold chosen, built. cbn [d_sizes d_cat d_r200]. rewrite map_length.
  destruct (select_ok s zs _ Ha Hg) as (arr & -> & ->). pose proof (picked_range a zs Hg) as Hr. set (ns := map Z.to_nat zs) in *.
  rewrite (map_map fst (@length nat)) with (l := p). rewrite <- (map_map fst (@length nat)) with (l := listed a).
  rewrite (getSubSet_ok (map fst (listed a)) ns (map fst p)).
  - rewrite (map_map fst (@length nat)).
    rewrite (take_ok _ (length (fst (@nil nat, 0)))) by (rewrite map_length; auto).
    rewrite (take_ok _ (snd (@nil nat, 0) * (in_l c / cm (little_h c)))) by (rewrite map_length; auto).
    do 2 f_equal; [f_equal|]; unfold p, picked; rewrite map_map; apply map_ext; intros n.
    + apply (map_nth (fun or => length (fst or))).
    + apply (map_nth (fun or => snd or * (in_l c / cm (little_h c)))).
  - unfold p, picked. rewrite map_map. clear -Hr. induction ns as [|n ns IH]; cbn [map]; constructor.
    + rewrite nth_error_map. rewrite (nth_error_nth' (listed a) ([], 0)) by (apply Hr; left; auto). reflexivity.
    + apply IH. intros k Hk. apply Hr. right. auto.
Qed.
Lemma chosen_bad c a s zs : asks s zs -> ~ good_selection zs (length (listed a)) -> chosen (built c a) s = inr EValue.
Proof.
  intros Ha Hg. unfold chosen, built. cbn [d_sizes]. rewrite map_length. destruct (select_bad s zs _ Ha Hg) as (e & ->). reflexivity.
Qed.
Lemma listed_in a o x : In (o, x) (listed a) -> In o (objects_of (a_idx a)).
Proof. unfold listed, large. intros H. apply filter_In in H. destruct H as (H & _). apply in_combine_l in H. auto. Qed.
Lemma picked_in a zs : good_selection zs (length (listed a)) -> forall ox, In ox (picked a (map Z.to_nat zs)) -> In ox (listed a).
Proof. intros Hg ox H. unfold picked in H. apply in_map_iff in H. destruct H as (n & <- & Hn). apply nth_In. apply (picked_range a zs Hg n Hn). Qed.
Lemma exist_ok c a zs : fits a -> good_selection zs (length (listed a)) -> exist (built c a) (concat (map fst (picked a (map Z.to_nat zs)))) = true.
Proof.
  intros (_ & _ & _ & _ & Hi) Hg. unfold exist, built. cbn [d_xyz]. rewrite map_length. apply forallb_forall. intros i H. apply in_concat in H.
  destruct H as (o & Ho & H). apply in_map_iff in Ho. destruct Ho as ((o' & x) & <- & Hp). apply picked_in in Hp; auto. apply listed_in in Hp.
  apply Nat.ltb_lt. eapply Hi; eauto.
Qed.
Lemma particles_inner c a o : (forall i, In i o -> (i < length (a_xyz a))%nat) -> length (a_xyz a) = length (a_masses a) ->
  particles (built c a) o = inner c a o.
Proof.
  intros H Hl. unfold particles, inner, built. cbn [d_xyz d_masses]. apply map_ext_in. intros i Hi. specialize (H i Hi).
  rewrite (nth_indep _ v0 (vscale (in_l c / cm (little_h c)) v0)) by (rewrite map_length; auto). rewrite map_nth.
  rewrite (nth_indep _ 0 (0 * (in_m c / gr (little_h c)))) by (rewrite map_length; lia).
  rewrite (map_nth (fun x => x * (in_m c / gr (little_h c)))). reflexivity.
Qed.
Lemma ptcs_inner c a o : (forall i, In i o -> (i < length (a_xyz a))%nat) -> length (a_xyz a) = length (a_masses a) ->
  ptcs (d_xyz (built c a)) (d_masses (built c a)) o = map pm (inner c a o).
Proof.
  intros H Hl. rewrite <- (particles_inner c a o H Hl). unfold particles, ptcs. rewrite map_map. reflexivity.
Qed.
Lemma to_out_ok h c : h <> 0 -> usable_out h c -> to_out c = inl (cm h / out_l c, gr h / out_m c).
Proof. intros Hh (<- & Hl & Hm). unfold to_out. rewrite internal_cm by auto. rewrite !pydiv_ok by auto. reflexivity. Qed.

(** ** C123: what the methods return *)
Lemma objs_inner c a zs : fits a -> good_selection zs (length (listed a)) ->
  map (particles (built c a)) (map fst (picked a (map Z.to_nat zs))) = map (inner c a) (map fst (picked a (map Z.to_nat zs))).
Proof.
  intros (Hl & _ & _ & _ & Hi) Hg. apply map_ext_in. intros o Ho. apply in_map_iff in Ho. destruct Ho as ((o' & x) & <- & Hp).
  apply picked_in in Hp; auto. apply listed_in in Hp. apply particles_inner; auto. intros i H. eapply Hi; eauto.
Qed.
Lemma objs_ptcs c a zs : fits a -> good_selection zs (length (listed a)) ->
  map (ptcs (d_xyz (built c a)) (d_masses (built c a))) (map fst (picked a (map Z.to_nat zs))) = map (fun o => map pm (inner c a o)) (map fst (picked a (map Z.to_nat zs))).
Proof.
  intros (Hl & _ & _ & _ & Hi) Hg. apply map_ext_in. intros o Ho. apply in_map_iff in Ho. destruct Ho as ((o' & x) & <- & Hp).
  apply picked_in in Hp; auto. apply listed_in in Hp. apply ptcs_inner; auto. intros i H. eapply Hi; eauto.
Qed.
Lemma picked_nth a zs k z : good_selection zs (length (listed a)) -> nth_error zs k = Some z ->
  exists o x, nth_error (listed a) (Z.to_nat z) = Some (o, x) /\ nth_error (picked a (map Z.to_nat zs)) k = Some (o, x).
Proof.
  intros Hg Hk. assert (Hn : (Z.to_nat z < length (listed a))%nat).
  { apply (picked_range a zs Hg). apply in_map. apply nth_error_In in Hk. auto. }
  destruct (nth (Z.to_nat z) (listed a) ([], 0)) as (o & x) eqn:E. exists o, x. split.
  - rewrite (nth_error_nth' _ ([], 0) Hn). congruence.
  - unfold picked. rewrite map_map. rewrite nth_error_map, Hk. cbn [option_map]. congruence.
Qed.
Lemma Forall2_seq_nth {X Y} (P : nat * X -> Y -> Prop) (l : list X) ys : Forall2 P (combine (seq 0 (length l)) l) ys ->
  length ys = length l /\ forall k x, nth_error l k = Some x -> exists y, nth_error ys k = Some y /\ P (k, x) y.
Proof.
  intros H. split.
  - apply Forall2_length in H. rewrite <- H, combine_length, seq_length. lia.
  - assert (G : forall n l ys, Forall2 P (combine (seq n (length l)) l) ys -> forall k x, nth_error l k = Some x -> exists y, nth_error ys k = Some y /\ P ((n + k)%nat, x) y).
    { clear. intros n l. revert n. induction l as [|a l IH]; intros n ys H k x Hk; [destruct k; discriminate|].
      cbn [length seq combine] in H. inversion H as [|? y ? ys' Hp Hr]; subst. destruct k as [|k]; cbn [nth_error] in *.
      - injection Hk as <-. exists y. rewrite Nat.add_0_r. auto.
      - destruct (IH (S n) ys' Hr k x Hk) as (y' & Hy & Hp'). exists y'. split; auto. replace (n + S k)%nat with (S n + k)%nat by lia. exact Hp'. }
    intros k x Hk. destruct (G 0%nat l ys H k x Hk) as (y & Hy & Hp). eauto.
Qed.

(** Row [w] reports the result [mi], with lengths multiplied by [k]. *)
Definition reported (k : R) (mi : morph) (w : row) : Prop :=
  w_d w = xmul (md mi) (Fin k) /\ w_q w = mq mi /\ w_s w = ms mi /\ (w_conv w = true <-> mq mi <> NaN) /\
  w_minor w = minor mi /\ w_inter w = inter mi /\ w_major w = major mi.
Lemma to_row_ok k mi : reported k mi (to_row k mi).
Proof.
  unfold reported, to_row, is_conv. cbn [w_d w_q w_s w_conv w_minor w_inter w_major]. repeat split; auto; destruct (mq mi); cbn; congruence.
Qed.
(* Entry k of the table belongs to object number zs[k] of the catalogue: it is what the shape routine
   gives for this object alone, about its own centre, with its own radius; d is in the output unit. *)
Theorem C123_shapes : forall mfuel choose eig fuel kc vt c a d c' s zs tab,
  little_h c <> 0 -> fits a -> make c a = inl d -> usable_out (little_h c) c' -> asks s zs ->
  getShapeCat mfuel choose eig fuel kc vt c' d s (inl tab) ->
  good_selection zs (length (listed a)) /\ length tab = length zs /\
  forall k z, nth_error zs k = Some z -> exists o x center e m,
    nth_error (listed a) (Z.to_nat z) = Some (o, x) /\
    let L := a_box a * (in_l c / cm (little_h c)) in
    shape_center mfuel (a_kind a) (choose k) L (inner c a o) = Some center /\
    calcMorph eig fuel kc L vt [inner c a o] [x * (in_l c / cm (little_h c))] [center] (Ret ([e], [m])) /\
    exists e', nth_error tab k = Some e' /\
      match e, e' with Some l, Some l' => Forall2 (reported (cm (little_h c) / out_l c')) l l' | None, None => True | _, _ => False end.
Proof.
  intros mfuel choose eig fuel kc vt c a d c' s zs tab Hh Hf Hd Hu Ha H.
  rewrite make_ok in Hd by auto. injection Hd as <-.
  assert (Hg : good_selection zs (length (listed a))).
  { destruct (valid_numbers zs (length (listed a))) eqn:V; [apply valid_good; exact V|]. exfalso.
    assert (N : ~ good_selection zs (length (listed a))) by (intros G; apply valid_good in G; congruence).
    pose proof (chosen_bad c a s zs Ha N) as E. inversion H; congruence. }
  split; auto. pose proof (chosen_ok c a s zs Ha Hg) as E. cbv zeta in E.
  inversion H as [| | | | |sub sz r tab0 cs fl fm E1 E2 Hm E3 E4]; subst. clear H.
  rewrite E in E1. injection E1 as <- <- <-. rewrite (to_out_ok (little_h c)) in E3 by auto. injection E3 as <- <-.
  rewrite parts_concat, objs_inner in Hm by auto. unfold built in Hm at 1 2. cbn [d_kind d_box] in Hm.
  set (p := picked a (map Z.to_nat zs)) in *. set (f := in_l c / cm (little_h c)) in *.
  inversion Hm as [centers r HF HC]; subst. clear Hm. apply Forall2_seq_nth in HF. destruct HF as (Lc & HF).
  assert (Lp : length p = length zs) by (unfold p, picked; rewrite !map_length; auto).
  split.
  { rewrite map_length. assert (Hz : (0 < length zs)%nat) by (destruct Hg as (Hz & _); destruct zs; [congruence|cbn; lia]).
    destruct p as [|ox p'] eqn:Ep; [cbn in Lp; lia|].
    destruct (driver_ret _ _ _ _ _ _ _ _ _ HC 0%nat (inner c a (fst ox)) eq_refl) as (_ & _ & _ & X & _). rewrite X, !map_length. exact Lp. }
  intros k z Hk. destruct (picked_nth a zs k z Hg Hk) as (o & x & H1 & H2). fold p in H2.
  assert (Ho : nth_error (map (inner c a) (map fst p)) k = Some (inner c a o)) by (rewrite !nth_error_map, H2; reflexivity).
  destruct (HF k _ Ho) as (center & Hc & Hs). cbn [fst snd] in Hs.
  destruct (runs_exist eig fuel kc (a_box a * f) vt [inner c a o] [x * f] [center]) as (r1 & Hr1).
  assert (Nr : nth k (map (fun or => snd or * f) p) 0 = x * f).
  { apply nth_error_nth. rewrite nth_error_map, H2. reflexivity. }
  assert (Nc : nth k centers v0 = center) by (apply nth_error_nth; auto).
  destruct (C35_own _ _ _ _ _ _ _ _ _ k (inner c a o) r1 HC Ho) as (e & m & -> & He & _).
  { rewrite Nr, Nc. exact Hr1. }
  exists o, x, center, e, m. split; auto. cbv zeta. split; auto. split; auto.
  eexists. rewrite nth_error_map, He. split; [reflexivity|]. destruct e as [l|]; cbn [option_map]; [|exact Logic.I].
  clear. induction l as [|mi l IH]; cbn [map]; constructor; [apply to_row_ok|exact IH].
Qed.
Print Assumptions C123_shapes.

(* Masses are the sums of the masses handed over, in the output unit; centres are those of the object
   alone, brought into the box. *)
Theorem C123_masses_centers : forall mfuel choose c a d c' s zs tab,
  little_h c <> 0 -> fits a -> make c a = inl d -> usable_out (little_h c) c' -> asks s zs ->
  getMassesCenters mfuel choose c' d s (inl tab) ->
  good_selection zs (length (listed a)) /\ length tab = length zs /\
  forall k z, nth_error zs k = Some z -> exists o x center row,
    nth_error (listed a) (Z.to_nat z) = Some (o, x) /\ nth_error tab k = Some row /\
    snd row = total (fun i => nth i (a_masses a) 0) o * in_m c / out_m c' /\
    let L := a_box a * (in_l c / cm (little_h c)) in
    center_of mfuel (a_kind a) (choose k) 1000 L (map pm (inner c a o)) = Some center /\
    [fst row] = map (vscale (cm (little_h c) / out_l c')) (recentreObject [center] L).
Proof.
  intros mfuel choose c a d c' s zs tab Hh Hf Hd Hu Ha H.
  rewrite make_ok in Hd by auto. injection Hd as <-.
  assert (Hg : good_selection zs (length (listed a))).
  { destruct (valid_numbers zs (length (listed a))) eqn:V; [apply valid_good; exact V|]. exfalso.
    assert (N : ~ good_selection zs (length (listed a))) by (intros G; apply valid_good in G; congruence).
    pose proof (chosen_bad c a s zs Ha N) as E. inversion H; congruence. }
  split; auto. pose proof (chosen_ok c a s zs Ha Hg) as E. cbv zeta in E.
  inversion H as [| | | |sub sz r centers ms fl fm E1 E2 Hm E3 E4]; subst. clear H.
  rewrite E in E1. injection E1 as <- <- <-. rewrite (to_out_ok (little_h c)) in E3 by auto. injection E3 as <- <-.
  rewrite parts_concat, objs_ptcs in Hm by auto. unfold built in Hm at 1 2. cbn [d_kind d_box] in Hm.
  set (p := picked a (map Z.to_nat zs)) in *. set (f := in_l c / cm (little_h c)) in *.
  inversion Hm as [|cs m' HF HP]; subst. clear Hm. apply Forall2_seq_nth in HF. destruct HF as (Lc & HF).
  rewrite masses_ok by auto. rewrite !map_length in Lc.
  assert (Lp : length p = length zs) by (unfold p, picked; rewrite !map_length; auto).
  split.
  { rewrite combine_length. unfold recentreObject. rewrite !map_length. lia. }
  intros k z Hk. destruct (picked_nth a zs k z Hg Hk) as (o & x & H1 & H2). fold p in H2.
  assert (Ho : nth_error (map (fun o => map pm (inner c a o)) (map fst p)) k = Some (map pm (inner c a o))) by (rewrite !nth_error_map, H2; reflexivity).
  destruct (HF k _ Ho) as (center & Hc & Hs). cbn [fst snd] in Hs.
  eexists o, x, center, (_, _). split; [auto|]. split.
  { assert (G : forall {X Y} (l : list X) (l' : list Y) k u v, nth_error l k = Some u -> nth_error l' k = Some v -> nth_error (combine l l') k = Some (u, v)).
    { clear. induction l as [|a l IH]; intros [|b l'] [|k] u v H1 H2; try discriminate; cbn in *; try congruence. apply IH; auto. }
    apply G.
    - unfold recentreObject. rewrite !nth_error_map, Hc. reflexivity.
    - rewrite !nth_error_map, H2. reflexivity. }
  cbn [fst snd]. split; [|split; [exact Hs|reflexivity]].
  unfold mass. pose proof (gr_nz _ Hh). destruct Hu as (Hu & Hol & Hom).
  clear -H Hom Hh. unfold inner. rewrite map_map. induction o as [|i o IH]; cbn [total map]; [unfold Rdiv; ring|].
  cbn [pm fst snd] in *. rewrite Rmult_plus_distr_r, IH. field. auto.
Qed.
Print Assumptions C123_masses_centers.

Lemma good_or_value a s zs : asks s zs -> ~ good_selection zs (length (listed a)) \/ good_selection zs (length (listed a)).
Proof.
  intros _. destruct (valid_numbers zs (length (listed a))) eqn:V; [right; apply valid_good; exact V|left].
  intros G; apply valid_good in G; congruence.
Qed.
(* Densities: in physical units, the mass of the object's own particles in a shell over its volume. *)
Theorem C123_densities : forall mfuel choose rs c a d c' s zs tab edges,
  0 < little_h c -> 0 < in_l c -> fits a -> make c a = inl d -> usable_out (little_h c) c' -> asks s zs ->
  edges_sph rs = DOk edges -> increasing edges -> (forall x, In x (a_r200 a) -> 0 < x) ->
  estDensProfs mfuel choose rs c' d s (inl tab) ->
  good_selection zs (length (listed a)) /\ length tab = length zs /\
  forall k z, nth_error zs k = Some z -> exists o x center row,
    nth_error (listed a) (Z.to_nat z) = Some (o, x) /\ nth_error tab k = Some row /\ length row = length rs /\
    let f := in_l c / cm (little_h c) in let L := a_box a * f in
    center_of mfuel (a_kind a) (choose k) 1000 L (map pm (inner c a o)) = Some center /\
    forall i, (i < length rs)%nat ->
      let lo := nth i edges 0 * (x * f) in let hi := nth (S i) edges 0 * (x * f) in
      nth i row 0 * (out_m c' / out_l c' ^ 3) =
        (shell_mass center lo hi (seen L (map pm (inner c a o))) * gr (little_h c)) /
        ((ball_volume hi - ball_volume lo) * cm (little_h c) ^ 3).
Proof.
  intros mfuel choose rs c a d c' s zs tab edges Hh Hin Hf Hd Hu Ha He Hinc Hr H.
  assert (Hh0 : little_h c <> 0) by lra.
  rewrite make_ok in Hd by auto. injection Hd as <-.
  destruct (good_or_value a s zs Ha) as [N|Hg].
  { pose proof (chosen_bad c a s zs Ha N) as E. inversion H; congruence. }
  split; auto. pose proof (chosen_ok c a s zs Ha Hg) as E. cbv zeta in E.
  inversion H as [| | | |sub sz r rows fd E1 E2 Hm E3 E4]; subst. clear H.
  rewrite E in E1. injection E1 as <- <- <-. pose proof (cm_nz _ Hh0) as Cn. pose proof (gr_nz _ Hh0) as Gn.
  assert (Mu : MASS_UNIT <> 0) by (unfold MASS_UNIT; apply pow_nonzero; lra).
  assert (Fd : fd * (out_m c' / out_l c' ^ 3) = gr (little_h c) / cm (little_h c) ^ 3).
  { destruct Hu as (Hu & Hol & Hom). unfold dens_factor, dens_to_out in E3. rewrite internal_cm in E3 by congruence. rewrite Hu in E3.
    rewrite !pydiv_ok in E3 by auto. unfold pow_m3 in E3. destruct Req_EM_T as [Z|Z].
    - exfalso. unfold Rdiv in Z. apply Rmult_integral in Z. destruct Z as [Z|Z]; [auto|]. revert Z. apply Rinv_neq_0_compat. auto.
    - injection E3 as <-. field. auto. }
  set (p := picked a (map Z.to_nat zs)) in *. set (f := in_l c / cm (little_h c)) in *.
  assert (Pc : 0 < cm (little_h c)).
  { unfold cm, MPC. apply Rdiv_lt_0_compat; [|auto]. apply Rmult_lt_0_compat; [lra|apply pow_lt; lra]. }
  assert (Pf : 0 < f) by (unfold f; apply Rdiv_lt_0_compat; auto).
  assert (Lp : length p = length zs) by (unfold p, picked; rewrite !map_length; auto).
  assert (Hne : map fst p <> []).
  { destruct Hg as (Hz & _). destruct zs; [congruence|]. unfold p, picked. discriminate. }
  destruct (C39_driver _ _ _ _ _ _ _ _ _ _ _ Hm Hne He Hinc) as [X|(rows' & X & Lr & Hrow)].
  { intros q Hq. rewrite map_length in Hq.
    destruct (nth_error p q) as [(o, x)|] eqn:Eq; [|apply nth_error_None in Eq; lia].
    replace (nth q (map (fun or => snd or * f) p) 0) with (x * f) by (symmetry; apply nth_error_nth; rewrite nth_error_map, Eq; reflexivity).
    apply Rmult_lt_0_compat; auto. apply Hr. apply nth_error_In in Eq. apply picked_in in Eq; auto.
    unfold listed, large in Eq. apply filter_In in Eq. destruct Eq as (Eq & _). apply in_combine_r in Eq. exact Eq. }
  { discriminate. }
  injection X as <-. rewrite map_length in Lr. split; [rewrite map_length; lia|].
  intros k z Hk. destruct (picked_nth a zs k z Hg Hk) as (o & x & H1 & H2). fold p in H2.
  assert (Hkp : (k < length (map fst p))%nat) by (rewrite map_length, Lp; apply nth_error_Some; congruence).
  destruct (Hrow k Hkp) as (center & Hc & Ll & Hv).
  assert (Eo : obj_of (d_xyz (built c a)) (d_masses (built c a)) (map fst p) k = map pm (inner c a o)).
  { rewrite <- nth_objs. apply nth_error_nth. unfold p. rewrite objs_ptcs by auto. fold p. rewrite !nth_error_map, H2. reflexivity. }
  assert (Nr : nth k (map (fun or => snd or * f) p) 0 = x * f).
  { apply nth_error_nth. rewrite nth_error_map, H2. reflexivity. }
  rewrite Eo in Hc, Hv. rewrite Nr in Hv. unfold built in Hc, Hv. cbn [d_kind d_box] in Hc, Hv. fold f in Hc, Hv.
  exists o, x, center, (map (fun v => v * fd) (nth k rows [])). split; [auto|]. split.
  { rewrite nth_error_map. rewrite (nth_error_nth' rows [] ) by (rewrite map_length in Hkp; lia). reflexivity. }
  split; [rewrite map_length; auto|]. cbv zeta. split; [exact Hc|]. intros i Hi.
  replace (nth i (map (fun v => v * fd) (nth k rows [])) 0) with (nth i (nth k rows []) 0 * fd).
  2:{ rewrite <- (map_nth (fun v => v * fd)). apply nth_indep. rewrite map_length. lia. }
  rewrite (Hv i Hi). rewrite Rmult_assoc, Fd. cbv zeta.
  assert (Px : 0 < x * f).
  { apply Rmult_lt_0_compat; auto. apply Hr. apply nth_error_In in H1. unfold listed, large in H1. apply filter_In in H1. destruct H1 as (H1 & _). apply in_combine_r in H1. exact H1. }
  destruct (edges_sph_length _ _ He) as (Le & _).
  destruct (sph_value_mass [] center (x * f) edges i Px Hinc ltac:(lia)) as (_ & V & _). cbv zeta in V.
  unfold Rdiv. rewrite Rinv_mult by (try apply pow_nonzero; lra). ring.
Qed.
Print Assumptions C123_densities.

(** ** Failures *)
(* A selection that is not a set of existing object numbers is a ValueError, before anything is
   computed; with a good one shapes can only fail because the centre of a selected object is not
   found or because the shape routine fails on a selected object by itself. *)
Theorem C123_failures : forall mfuel choose eig fuel kc vt rs c a d c' s zs,
  little_h c <> 0 -> fits a -> make c a = inl d -> usable_out (little_h c) c' -> asks s zs ->
  (~ good_selection zs (length (listed a)) ->
   (forall out, getShapeCat mfuel choose eig fuel kc vt c' d s out <-> out = inr EValue) /\
   (forall out, getMassesCenters mfuel choose c' d s out <-> out = inr EValue) /\
   (forall out, estDensProfs mfuel choose rs c' d s out <-> out = inr EValue)) /\
  (good_selection zs (length (listed a)) ->
   (exists out, getShapeCat mfuel choose eig fuel kc vt c' d s out) /\
   forall e, getShapeCat mfuel choose eig fuel kc vt c' d s (inr e) ->
     exists k z o x, nth_error zs k = Some z /\ nth_error (listed a) (Z.to_nat z) = Some (o, x) /\
     let f := in_l c / cm (little_h c) in let L := a_box a * f in
     (e = ERecursion /\ shape_center mfuel (a_kind a) (choose k) L (inner c a o) = None \/
      e = EZeroDivision /\ exists center, shape_center mfuel (a_kind a) (choose k) L (inner c a o) = Some center /\
        calcMorph eig fuel kc L vt [inner c a o] [x * f] [center] ZeroDivision)).
Proof.
  intros mfuel choose eig fuel kc vt rs c a d c' s zs Hh Hf Hd Hu Ha.
  rewrite make_ok in Hd by auto. injection Hd as <-. split.
  - intros N. pose proof (chosen_bad c a s zs Ha N) as E.
    split; [|split]; intros out; (split; [intros H; inversion H; congruence|intros ->; constructor; auto]).
  - intros Hg. pose proof (chosen_ok c a s zs Ha Hg) as E. cbv zeta in E. pose proof (exist_ok c a zs Hf Hg) as X.
    pose proof (to_out_ok (little_h c) c' Hh Hu) as T.
    pose proof (objs_inner c a zs Hf Hg) as OI.
    set (p := picked a (map Z.to_nat zs)) in *. set (f := in_l c / cm (little_h c)) in *.
    assert (KZ : forall k o, nth_error (map (inner c a) (map fst p)) k = Some o -> exists z i x, nth_error zs k = Some z /\
        nth_error (listed a) (Z.to_nat z) = Some (i, x) /\ o = inner c a i /\ nth k (map (fun or => snd or * f) p) 0 = x * f).
    { intros k o Ho. destruct (nth_error zs k) as [z|] eqn:Ez.
      - destruct (picked_nth a zs k z Hg Ez) as (i & x & H1 & H2). fold p in H2. exists z, i, x. split; auto. split; auto.
        split; [|apply nth_error_nth; rewrite nth_error_map, H2; reflexivity]. rewrite !nth_error_map, H2 in Ho. injection Ho as <-. reflexivity.
      - exfalso. apply nth_error_None in Ez. assert (Hl : (k < length (map (inner c a) (map fst p)))%nat) by (apply nth_error_Some; congruence).
        unfold p, picked in Hl. rewrite !map_length in Hl. lia. }
    split.
    + assert (G : forall n objs, (exists k o, nth_error objs k = Some o /\ shape_center mfuel (a_kind a) (choose (n + k)%nat) (a_box a * f) o = None) \/
         exists centers, Forall2 (fun po cen => shape_center mfuel (a_kind a) (choose (fst po)) (a_box a * f) (snd po) = Some cen)
            (combine (seq n (length objs)) objs) centers).
      { clear. intros n objs. revert n. induction objs as [|o objs IH]; intros n; [right; exists []; constructor|].
        destruct (shape_center mfuel (a_kind a) (choose n) (a_box a * f) o) as [cen|] eqn:Ec.
        - destruct (IH (S n)) as [(k & o' & Hk & Hn)|(cs & HF)].
          + left. exists (S k), o'. split; auto. replace (n + S k)%nat with (S n + k)%nat by lia. auto.
          + right. exists (cen :: cs). cbn [length seq combine]. constructor; auto.
        - left. exists 0%nat, o. rewrite Nat.add_0_r. auto. }
      destruct (G 0%nat (map (inner c a) (map fst p))) as [(k & o & Hk & Hn)|(centers & HF)].
      * exists (inr ERecursion). eapply gs_mode with (p := k) (o := o); [exact E|exact X| |].
        -- rewrite parts_concat, OI. exact Hk.
        -- exact Hn.
      * destruct (runs_exist eig fuel kc (a_box a * f) vt (map (inner c a) (map fst p)) (map (fun or => snd or * f) p) centers) as (r & Hr).
        assert (M : morph_call mfuel (a_kind a) choose eig fuel kc (a_box a * f) vt (map (inner c a) (map fst p)) (map (fun or => snd or * f) p) (r, recentreObject centers (a_box a * f)))
          by (constructor; auto).
        destruct r as [tab|].
        -- eexists. eapply gs_ok; [exact E|exact X| |exact T]. rewrite parts_concat, OI. exact M.
        -- eexists. eapply gs_raise; [exact E|exact X|]. rewrite parts_concat, OI. exact M.
    + intros e H. inversion H as [e0 E1|sub sz r E1 E2|sub sz r k o E1 E2 Hk Hn|sub sz r cs E1 E2 Hm|sub sz r tab cs e0 E1 E2 Hm E3|]; subst; clear H.
      * congruence.
      * rewrite E in E1. injection E1 as <- <- <-. congruence.
      * rewrite E in E1. injection E1 as <- <- <-. rewrite parts_concat, OI in Hk. destruct (KZ k o Hk) as (z & i & x & K1 & K2 & -> & _).
        exists k, z, i, x. cbv zeta. split; [auto|]. split; [auto|]. left. split; [reflexivity|]. exact Hn.
      * rewrite E in E1. injection E1 as <- <- <-. rewrite parts_concat, OI in Hm. unfold built in Hm at 1 2. cbn [d_kind d_box] in Hm. fold f in Hm.
        inversion Hm as [centers r HF HC]; subst. apply Forall2_seq_nth in HF. destruct HF as (Lc & HF).
        destruct (proj1 (driver_raise _ _ _ _ _ _ _ _ _ HC) eq_refl) as (k & o & Ho & Hs).
        destruct (KZ k o Ho) as (z & i & x & K1 & K2 & -> & K3). destruct (HF k _ Ho) as (center & Hc & Hcs). cbn [fst snd] in Hcs.
        exists k, z, i, x. cbv zeta. split; [auto|]. split; [auto|]. right. split; [reflexivity|]. exists center. split; [auto|].
        destruct (runs_exist eig fuel kc (a_box a * f) vt [inner c a i] [x * f] [center]) as (r1 & Hr1).
        replace ZeroDivision with r1; [exact Hr1|]. apply (driver_raise _ _ _ _ _ _ _ _ _ Hr1). exists 0%nat, (inner c a i). split; [reflexivity|].
        cbn [nth]. rewrite K3, (nth_error_nth _ _ v0 Hc) in Hs. exact Hs.
      * congruence.
Qed.
Print Assumptions C123_failures.

(** ** Missing particles and other failures *)
Lemma masses_runs mfuel kind choose objs L : (exists r, calcMassesCenters mfuel kind choose objs L (Some r)) \/
  exists k o, nth_error objs k = Some o /\ center_of mfuel kind (choose k) 1000 L o = None.
Proof.
  assert (G : forall n, (exists cs, Forall2 (fun po c => center_of mfuel kind (choose (fst po)) 1000 L (snd po) = Some c) (combine (seq n (length objs)) objs) cs) \/
     exists k o, nth_error objs k = Some o /\ center_of mfuel kind (choose (n + k)%nat) 1000 L o = None).
  { induction objs as [|o objs IH]; intros n; [left; exists []; constructor|].
    destruct (center_of mfuel kind (choose n) 1000 L o) as [c|] eqn:Ec.
    - destruct (IH (S n)) as [(cs & H)|(k & o' & H1 & H2)].
      + left. exists (c :: cs). cbn [length seq combine]. constructor; auto.
      + right. exists (S k), o'. split; auto. replace (n + S k)%nat with (S n + k)%nat by lia. auto.
    - right. exists 0%nat, o. rewrite Nat.add_0_r. auto. }
  destruct (G 0%nat) as [(cs & H)|H]; [left|right; exact H].
  destruct (prange_exists (length objs) (mass_body objs) (fun _ => 0)) as (m' & Hm). eexists. eapply cmc_ok; eauto.
Qed.
Lemma sph_runs mfuel kind choose xyz masses r200s rs cat L : cat <> [] -> rs <> [] ->
  exists r, calcDensProfsSphDirectBinning mfuel kind choose xyz masses r200s rs (concat cat) (map (@length nat) cat) L r.
Proof.
  intros Hc Hr. assert (Hz : map (@length nat) cat <> []) by (destruct cat; [congruence|discriminate]).
  destruct rs as [|x rs'] eqn:Er; [congruence|]. rewrite <- Er in *.
  assert (He : exists e, edges_sph rs = DOk e) by (rewrite Er; cbn; eauto). destruct He as (e & He).
  destruct (existsb is_none (obj_centers mfuel kind choose L (map (ptcs xyz masses) (parts (concat cat) (map (@length nat) cat))))) eqn:Ex.
  - eexists. eapply sph_center; eauto.
  - edestruct (@prange_exists dloc (dval R)) as [m' Hm]. eexists. eapply sph_ok; [auto|exact He|exact Ex|]. econstructor. exact Hm.
Qed.
Lemma sph_no_radii mfuel kind choose xyz masses r200s cat L r : cat <> [] ->
  calcDensProfsSphDirectBinning mfuel kind choose xyz masses r200s [] (concat cat) (map (@length nat) cat) L r <-> r = DIndexError.
Proof.
  intros Hc. assert (Hz : map (@length nat) cat <> []) by (destruct cat; [congruence|discriminate]). split.
  - intros H. inversion H as [E|E1 E2|e E1 E2 E3|e y E1 E2 ob cs E3 E4]; subst; try discriminate; try congruence.
  - intros ->. apply sph_radii; auto.
Qed.

(* A selected object with a particle that does not exist: IndexError, in all methods. *)
Theorem C123_missing : forall mfuel choose eig fuel kc vt rs c a d c' s zs z o x i,
  little_h c <> 0 -> shaped a -> make c a = inl d -> asks s zs -> good_selection zs (length (listed a)) ->
  In z zs -> nth_error (listed a) (Z.to_nat z) = Some (o, x) -> In i o -> (length (a_xyz a) <= i)%nat ->
  (forall out, getShapeCat mfuel choose eig fuel kc vt c' d s out <-> out = inr EIndex) /\
  (forall out, getMassesCenters mfuel choose c' d s out <-> out = inr EIndex) /\
  (forall out, estDensProfs mfuel choose rs c' d s out <-> out = inr EIndex).
Proof.
  intros mfuel choose eig fuel kc vt rs c a d c' s zs z o x i Hh Hs Hd Ha Hg Hz Ho Hi Hl.
  rewrite make_shaped in Hd by auto. injection Hd as <-.
  pose proof (chosen_ok c a s zs Ha Hg) as E. cbv zeta in E.
  assert (X : exist (built c a) (concat (map fst (picked a (map Z.to_nat zs)))) = false).
  { apply not_true_iff_false. intros X. unfold exist in X. rewrite forallb_forall in X. specialize (X i).
    unfold built in X. cbn [d_xyz] in X. rewrite map_length in X. rewrite Nat.ltb_lt in X. enough ((i < length (a_xyz a))%nat) by lia. apply X.
    apply in_concat. exists o. split; auto. apply in_map_iff. exists (o, x). split; auto. unfold picked. apply in_map_iff. exists (Z.to_nat z).
    split; [apply nth_error_nth; auto|apply in_map; auto]. }
  split; [|split]; intros out; (split; [intros H; inversion H; subst; clear H; congruence|intros ->]).
  - eapply gs_missing; eauto.
  - eapply gm_missing; eauto.
  - eapply ed_missing; eauto.
Qed.
Print Assumptions C123_missing.

(* Otherwise masses, centres and densities are returned, unless a centre does not come to rest; only
   an empty list of radii is refused. *)
Theorem C123_runs : forall mfuel choose rs c a d c' s zs,
  little_h c <> 0 -> fits a -> make c a = inl d -> usable_out (little_h c) c' -> asks s zs -> good_selection zs (length (listed a)) ->
  let wanders e := e = ERecursion /\ exists k z o x, nth_error zs k = Some z /\ nth_error (listed a) (Z.to_nat z) = Some (o, x) /\
     center_of mfuel (a_kind a) (choose k) 1000 (a_box a * (in_l c / cm (little_h c))) (map pm (inner c a o)) = None in
  ((exists out, getMassesCenters mfuel choose c' d s out) /\ forall e, getMassesCenters mfuel choose c' d s (inr e) -> wanders e) /\
  (rs = [] -> forall out, estDensProfs mfuel choose rs c' d s out <-> out = inr EIndex) /\
  (rs <> [] -> (exists out, estDensProfs mfuel choose rs c' d s out) /\ forall e, estDensProfs mfuel choose rs c' d s (inr e) -> wanders e).
Proof.
  intros mfuel choose rs c a d c' s zs Hh Hf Hd Hu Ha Hg wanders.
  rewrite make_ok in Hd by auto. injection Hd as <-.
  pose proof (chosen_ok c a s zs Ha Hg) as E. cbv zeta in E. pose proof (exist_ok c a zs Hf Hg) as X.
  pose proof (to_out_ok (little_h c) c' Hh Hu) as T. pose proof (objs_ptcs c a zs Hf Hg) as OP.
  set (p := picked a (map Z.to_nat zs)) in *. set (f := in_l c / cm (little_h c)) in *.
  assert (Lp : length p = length zs) by (unfold p, picked; rewrite !map_length; auto).
  assert (Ne : map fst p <> []).
  { destruct Hg as (Hz & _). destruct p; [|discriminate]. destruct zs; [congruence|discriminate]. }
  assert (KZ : forall k o, nth_error (map fst p) k = Some o -> center_of mfuel (a_kind a) (choose k) 1000 (a_box a * f) (map pm (inner c a o)) = None -> wanders ERecursion).
  { intros k o Ho Hn. split; [reflexivity|]. destruct (nth_error zs k) as [z|] eqn:Ez.
    - destruct (picked_nth a zs k z Hg Ez) as (i & x & H1 & H2). fold p in H2. exists k, z, i, x. split; auto. split; auto.
      rewrite nth_error_map, H2 in Ho. injection Ho as <-. exact Hn.
    - exfalso. apply nth_error_None in Ez. assert (Hl : (k < length (map fst p))%nat) by (apply nth_error_Some; congruence).
      rewrite map_length in Hl. lia. }
  assert (D : exists fd, dens_factor c' = inl fd).
  { unfold dens_factor, dens_to_out. destruct Hu as (Hu & U1 & U2). rewrite internal_cm by congruence. rewrite Hu.
    pose proof (cm_nz _ Hh) as Cn. rewrite !pydiv_ok by auto. unfold pow_m3. destruct Req_EM_T as [Z|Z]; [|eauto].
    exfalso. unfold Rdiv in Z. apply Rmult_integral in Z. destruct Z as [Z|Z]; [auto|]. revert Z. apply Rinv_neq_0_compat. auto. }
  destruct D as (fd & D).
  split; [|split].
  - split.
    + destruct (masses_runs mfuel (a_kind a) choose (map (fun o => map pm (inner c a o)) (map fst p)) (a_box a * f)) as [((cs & ms) & H)|(k & o & H1 & H2)].
      * eexists. eapply gm_ok; [exact E|exact X| |exact T]. rewrite parts_concat, OP. exact H.
      * eexists. eapply gm_mode; [exact E|exact X|]. rewrite parts_concat, OP. eapply cmc_fail; eauto.
    + intros e H. inversion H as [e0 E1|sub sz r E1 E2|sub sz r E1 E2 Hm|sub sz r y e0 E1 E2 Hm E3|]; subst; clear H.
      * congruence.
      * rewrite E in E1. injection E1 as <- <- <-. congruence.
      * rewrite E in E1. injection E1 as <- <- <-. rewrite parts_concat, OP in Hm. inversion Hm as [k o Ho Hn|]; subst.
        rewrite nth_error_map in Ho. destruct (nth_error (map fst p) k) as [o'|] eqn:Ek; [|discriminate]. injection Ho as <-. apply (KZ k o'); auto.
      * congruence.
  - intros -> out. split.
    + intros H. inversion H as [e0 E1|sub sz r E1 E2|sub sz r y e E1 E2 Hm E3|sub sz r rows e E1 E2 Hm E3|sub sz r rows g E1 E2 Hm E3]; subst; clear H.
      * congruence.
      * reflexivity.
      * rewrite E in E1. injection E1 as <- <- <-. apply sph_no_radii in Hm; auto. subst y. cbn in E3. congruence.
      * congruence.
      * rewrite E in E1. injection E1 as <- <- <-. apply sph_no_radii in Hm; auto. discriminate.
    + intros ->. eapply ed_raise with (x := DIndexError); [exact E|exact X| |reflexivity]. apply sph_no_radii; auto.
  - intros Hr. assert (He : exists ed, edges_sph rs = DOk ed) by (destruct rs; [congruence|cbn; eauto]). destruct He as (ed & He). split.
    + destruct (sph_runs mfuel (a_kind a) choose (d_xyz (built c a)) (d_masses (built c a)) (map (fun or => snd or * f) p) rs (map fst p) (a_box a * f) Ne Hr) as (r & Hm).
      destruct (sph_driver _ _ _ _ _ _ _ _ _ _ _ Hm Ne He) as [(-> & _)|(-> & _)].
      * eexists. eapply ed_raise; [exact E|exact X|exact Hm|reflexivity].
      * eexists. eapply ed_ok; [exact E|exact X|exact Hm|exact D].
    + intros e H. inversion H as [e0 E1|sub sz r E1 E2|sub sz r y e0 E1 E2 Hm E3|sub sz r rows e0 E1 E2 Hm E3|]; subst; clear H.
      * congruence.
      * rewrite E in E1. injection E1 as <- <- <-. congruence.
      * rewrite E in E1. injection E1 as <- <- <-.
        destruct (sph_driver _ _ _ _ _ _ _ _ _ _ _ Hm Ne He) as [(-> & k & Hk & Hc)|(-> & _)]; [|discriminate]. cbn in E3. injection E3 as <-.
        destruct (nth_error (map fst p) k) as [o|] eqn:Ek; [|apply nth_error_None in Ek; lia]. apply (KZ k o); auto.
        unfold obj_of in Hc. rewrite (nth_error_nth _ _ [] Ek) in Hc.
        assert (Q : nth_error (map (ptcs (d_xyz (built c a)) (d_masses (built c a))) (map fst p)) k = Some (map pm (inner c a o))).
        { rewrite OP, nth_error_map, Ek. reflexivity. }
        rewrite nth_error_map, Ek in Q. cbn [option_map] in Q. assert (Q' : ptcs (d_xyz (built c a)) (d_masses (built c a)) o = map pm (inner c a o)) by congruence.
        rewrite <- Q'. exact Hc.
      * congruence.
Qed.
Print Assumptions C123_runs.

(* Unusable units: h = 0 is refused by the constructor. An output unit of zero is noticed only when
   the work is done, and nothing is returned. *)
Theorem C123_zero_units : forall mfuel choose eig fuel kc vt rs c a d c' s zs,
  (forall c0, little_h c0 = 0 -> length (a_xyz a) = length (a_masses a) -> make c0 a = inr EZeroDivision) /\
  (forall c0, length (a_xyz a) <> length (a_masses a) -> make c0 a = inr EAssertion) /\
  (little_h c <> 0 -> fits a -> make c a = inl d -> little_h c' = little_h c -> out_l c' = 0 \/ out_m c' = 0 ->
   asks s zs -> good_selection zs (length (listed a)) -> rs <> [] ->
   (forall out, getShapeCat mfuel choose eig fuel kc vt c' d s out -> out = inr EZeroDivision \/ out = inr ERecursion) /\
   (forall out, getMassesCenters mfuel choose c' d s out -> out = inr EZeroDivision \/ out = inr ERecursion) /\
   (forall out, estDensProfs mfuel choose rs c' d s out -> out = inr EZeroDivision \/ out = inr ERecursion) /\
   (a_kind a = CCom -> exists out, getMassesCenters mfuel choose c' d s out /\ out = inr EZeroDivision)).
Proof.
  intros mfuel choose eig fuel kc vt rs c a d c' s zs. split; [|split].
  - intros c0 H0 Hl. unfold make. rewrite Hl, Nat.eqb_refl. cbn [negb]. destruct (internal c0) as [[[li mi] vi]|e] eqn:Ei; [exfalso|reflexivity].
    revert Ei. unfold internal, admissible. rewrite H0. unfold pydiv. destruct Req_EM_T; [discriminate|congruence].
  - intros c0 Hl. unfold make. apply Nat.eqb_neq in Hl. rewrite Hl. reflexivity.
  - intros Hh Hf Hd Hu Hz Ha Hg Hr. rewrite make_ok in Hd by auto. injection Hd as <-.
    pose proof (chosen_ok c a s zs Ha Hg) as E. cbv zeta in E. pose proof (exist_ok c a zs Hf Hg) as X.
    pose proof (objs_ptcs c a zs Hf Hg) as OP.
    set (p := picked a (map Z.to_nat zs)) in *. set (f := in_l c / cm (little_h c)) in *.
    assert (Lp : length p = length zs) by (unfold p, picked; rewrite !map_length; auto).
    assert (Ne : map fst p <> []).
    { destruct Hg as (Hn & _). destruct p; [|discriminate]. destruct zs; [congruence|discriminate]. }
    assert (P0 : forall u, exists e, pydiv u 0 = inr e) by (intros u; unfold pydiv; destruct Req_EM_T; [eauto|congruence]).
    assert (T : to_out c' = inr EZeroDivision).
    { unfold to_out. rewrite internal_cm by congruence. destruct Hz as [-> | ->]; destruct (P0 (cm (little_h c'))) as (e1 & E1), (P0 (gr (little_h c'))) as (e2 & E2);
        rewrite ?E1, ?E2; [|destruct (pydiv (cm (little_h c')) (out_l c'))]; reflexivity. }
    assert (D : dens_factor c' = inr EZeroDivision).
    { unfold dens_factor, dens_to_out. rewrite internal_cm by congruence. destruct Hz as [-> | ->];
        destruct (P0 (cm (little_h c'))) as (e1 & E1), (P0 (gr (little_h c') / MASS_UNIT)) as (e2 & E2); rewrite ?E1, ?E2; [|destruct (pydiv (cm (little_h c')) (out_l c'))]; reflexivity. }
    assert (He : exists ed, edges_sph rs = DOk ed) by (destruct rs; [congruence|cbn; eauto]). destruct He as (ed & He).
    split; [|split; [|split]].
    + intros out H. inversion H; subst; clear H; try (left; congruence); try (right; reflexivity); try congruence.
    + intros out H. inversion H; subst; clear H; try (left; congruence); try (right; reflexivity); try congruence.
    + intros out H. inversion H as [e0 E1|sub sz r E1 E2|sub sz r y e E1 E2 Hm E3|sub sz r rows e E1 E2 Hm E3|sub sz r rows g E1 E2 Hm E3]; subst; clear H; try congruence.
      * rewrite E in E1. injection E1 as <- <- <-.
        destruct (sph_driver _ _ _ _ _ _ _ _ _ _ _ Hm Ne He) as [(-> & _)|(-> & _)]; [|discriminate]. cbn in E3. injection E3 as <-. auto.
      * left. congruence.
    + intros Hk. destruct (C69_com_runs mfuel choose (map (ptcs (d_xyz (built c a)) (d_masses (built c a))) (map fst p)) (a_box a * f)) as (r & Hm).
      exists (inr EZeroDivision). split; [|reflexivity]. eapply gm_units; [exact E|exact X| |exact T]. rewrite parts_concat.
      unfold built at 1. cbn [d_kind]. rewrite Hk. exact Hm.
Qed.
Print Assumptions C123_zero_units.

(** ** Units *)
(** The same physical data in the units of [c1] and of [c2], with the same h. *)
Definition same_data (c1 : config) (a1 : args) (c2 : config) (a2 : args) : Prop :=
  little_h c1 = little_h c2 /\
  Forall2 (fun x y => vscale (in_l c1) x = vscale (in_l c2) y) (a_xyz a1) (a_xyz a2) /\
  Forall2 (fun x y => x * in_m c1 = y * in_m c2) (a_masses a1) (a_masses a2) /\
  Forall2 (fun x y => x * in_l c1 = y * in_l c2) (a_r200 a1) (a_r200 a2) /\
  a_box a1 * in_l c1 = a_box a2 * in_l c2 /\
  a_idx a1 = a_idx a2 /\ a_minp a1 = a_minp a2 /\ a_kind a1 = a_kind a2.
(** Two entries that state the same shape, d in units of [u1] and [u2]. *)
Definition same_shape (u1 u2 : R) (w1 w2 : row) : Prop :=
  xmul (w_d w1) (Fin u1) = xmul (w_d w2) (Fin u2) /\ w_q w1 = w_q w2 /\ w_s w1 = w_s w2 /\ w_conv w1 = w_conv w2 /\
  w_minor w1 = w_minor w2 /\ w_inter w1 = w_inter w2 /\ w_major w1 = w_major w2.

Lemma take_map {X Y} (g : X -> Y) l ns : take (map g l) ns = option_map (map g) (take l ns).
Proof.
  induction ns as [|n ns IH]; [reflexivity|]. cbn [take]. rewrite nth_error_map, IH.
  destruct (nth_error l n); [|reflexivity]. destruct (take l ns); reflexivity.
Qed.
Lemma construct_scale {A} (g : A -> A) arg r minp : construct_cat g arg r minp = construct_cat (fun x => x) arg (map g r) minp.
Proof.
  unfold construct_cat. destruct arg as [[|x l]|[|x l]]; try reflexivity; cbv zeta;
  rewrite (take_map g r); (destruct (take r _); [|reflexivity]); cbn [option_map]; (destruct (take _ _); [|reflexivity]); rewrite map_id; reflexivity.
Qed.
Lemma same_make c1 a1 c2 a2 : little_h c1 <> 0 -> same_data c1 a1 c2 a2 -> make c1 a1 = make c2 a2.
Proof.
  intros Hh (Eh & Fx & Fm & Fr & Eb & Ei & Ep & Ek). unfold make.
  assert (Lx := Fx). assert (Lm := Fm). apply Forall2_length in Lx, Lm. rewrite Lx, Lm. destruct negb; [reflexivity|].
  rewrite !internal_cm by congruence. rewrite <- Eh. set (h := little_h c1) in *. pose proof (cm_nz h Hh) as Hc. pose proof (gr_nz h Hh) as Hg.
  rewrite !pydiv_ok by auto.
  rewrite (construct_scale _ (a_idx a1)), (construct_scale _ (a_idx a2)).
  assert (M : forall (l m : list R) u v k, k <> 0 -> Forall2 (fun x y => x * u = y * v) l m -> map (fun x => x * (u / k)) l = map (fun x => x * (v / k)) m).
  { clear. intros l m u v k Hk H. induction H as [|x y l m Hxy H IH]; [reflexivity|]. cbn [map]. f_equal; [|exact IH].
    unfold Rdiv. rewrite <- !Rmult_assoc, Hxy. reflexivity. }
  rewrite (M _ _ _ _ (cm h) Hc Fr), (M _ _ _ _ (gr h) Hg Fm), Ei, Ep, Ek.
  replace (a_box a1 * (in_l c1 / cm h)) with (a_box a2 * (in_l c2 / cm h)) by (unfold Rdiv; rewrite <- !Rmult_assoc, Eb; reflexivity).
  replace (map (vscale (in_l c1 / cm h)) (a_xyz a1)) with (map (vscale (in_l c2 / cm h)) (a_xyz a2)); [reflexivity|].
  clear -Hc Fx. induction Fx as [|x y l m Hxy H IH]; [reflexivity|]. cbn [map]. f_equal; [|exact IH].
  unfold vscale in *. injection Hxy as H1 H2 H3. unfold Rdiv. f_equal.
  - replace (in_l c2 * / cm h * vx y) with (in_l c2 * vx y * / cm h) by ring. rewrite <- H1. ring.
  - replace (in_l c2 * / cm h * vy y) with (in_l c2 * vy y * / cm h) by ring. rewrite <- H2. ring.
  - replace (in_l c2 * / cm h * vz y) with (in_l c2 * vz y * / cm h) by ring. rewrite <- H3. ring.
Qed.
Lemma xmul_undo x k u : 0 < k -> 0 < u -> xmul (xmul x (Fin (k / u))) (Fin u) = xmul x (Fin k).
Proof.
  intros Hk Hu. assert (Hq : 0 < k / u) by (apply Rdiv_lt_0_compat; auto).
  assert (S : forall t, 0 < t -> sgn t = Gt).
  { intros t Ht. unfold sgn. repeat destruct Rlt_dec; try lra; try reflexivity; destruct total_order_T; lra. }
  destruct x as [x| | |]; cbn [xmul xsgn]; rewrite ?S by auto; cbn [inf_of xmul xsgn]; rewrite ?S by auto; try reflexivity.
  f_equal. field. lra.
Qed.
Lemma Forall2_fun {X Y} (g : X -> option Y) l ys ys' : Forall2 (fun x y => g x = Some y) l ys -> Forall2 (fun x y => g x = Some y) l ys' -> ys = ys'.
Proof.
  intros H. revert ys'. induction H as [|x y l ys Hx H IH]; intros ys' H'; inversion H'; subst; [reflexivity|].
  f_equal; [congruence|]. apply IH. auto.
Qed.
Lemma morph_det mfuel kind choose eig fuel kc L vt objs r200 r r' :
  morph_call mfuel kind choose eig fuel kc L vt objs r200 r -> morph_call mfuel kind choose eig fuel kc L vt objs r200 r' -> r = r'.
Proof.
  intros H H'. inversion H as [cs t HF HC]; subst. inversion H' as [cs' t' HF' HC']; subst.
  rewrite (Forall2_fun (fun po => shape_center mfuel kind (choose (fst po)) L (snd po)) _ _ _ HF' HF) in *.
  apply driver_result in HC, HC'. cbv zeta in *. congruence.
Qed.
Lemma masses_det mfuel kind choose objs L x y :
  calcMassesCenters mfuel kind choose objs L (Some x) -> calcMassesCenters mfuel kind choose objs L (Some y) -> x = y.
Proof.
  intros H H'. inversion H as [|cs m HF HP]; subst. inversion H' as [|cs' m' HF' HP']; subst.
  rewrite (Forall2_fun (fun po => center_of mfuel kind (choose (fst po)) 1000 L (snd po)) _ _ _ HF' HF).
  rewrite !masses_ok by auto. reflexivity.
Qed.
Lemma Forall2_same {X Y} (P : Y -> Y -> Prop) (g g' : X -> Y) l : (forall x, In x l -> P (g x) (g' x)) -> Forall2 P (map g l) (map g' l).
Proof. induction l as [|x l IH]; intros H; cbn [map]; constructor; [apply H; left; auto|]. apply IH. intros y Hy. apply H. right. auto. Qed.
Lemma cm_pos h : 0 < h -> 0 < cm h.
Proof. intros H. unfold cm, MPC. apply Rdiv_lt_0_compat; auto. apply Rmult_lt_0_compat; [lra|apply pow_lt; lra]. Qed.

(** Two entries of a table of shapes: both not over in time, or the same shapes at each radius. *)
Definition same_entry (u1 u2 : R) (e1 e2 : option (list row)) : Prop :=
  match e1, e2 with Some l1, Some l2 => Forall2 (same_shape u1 u2) l1 l2 | None, None => True | _, _ => False end.

(* The same data in other input units build the same object; what the methods return in two output
   unit systems are the same physical quantities (for one h, and the same random choices). *)
Theorem C123_units : forall mfuel choose eig fuel kc vt rs c1 a1 c2 a2 o1 o2 s,
  little_h c1 <> 0 -> same_data c1 a1 c2 a2 ->
  little_h o1 = little_h o2 -> 0 < little_h o1 -> 0 < out_l o1 -> 0 < out_l o2 -> 0 < out_m o1 -> 0 < out_m o2 ->
  make c1 a1 = make c2 a2 /\
  forall d1 d2, make c1 a1 = inl d1 -> make c2 a2 = inl d2 ->
  (forall t1 t2, getShapeCat mfuel choose eig fuel kc vt o1 d1 s (inl t1) -> getShapeCat mfuel choose eig fuel kc vt o2 d2 s (inl t2) ->
     Forall2 (same_entry (out_l o1) (out_l o2)) t1 t2) /\
  (forall t1 t2, getMassesCenters mfuel choose o1 d1 s (inl t1) -> getMassesCenters mfuel choose o2 d2 s (inl t2) ->
     Forall2 (fun x y => vscale (out_l o1) (fst x) = vscale (out_l o2) (fst y) /\ snd x * out_m o1 = snd y * out_m o2) t1 t2) /\
  (forall t1 t2, estDensProfs mfuel choose rs o1 d1 s (inl t1) -> estDensProfs mfuel choose rs o2 d2 s (inl t2) ->
     Forall2 (Forall2 (fun x y => x * (out_m o1 / out_l o1 ^ 3) = y * (out_m o2 / out_l o2 ^ 3))) t1 t2).
Proof.
  intros mfuel choose eig fuel kc vt rs c1 a1 c2 a2 o1 o2 s Hh Hs Eh Ph Pl1 Pl2 Pm1 Pm2.
  pose proof (same_make c1 a1 c2 a2 Hh Hs) as E. split; [exact E|]. intros d d2 M1 M2. assert (d2 = d) by congruence. subst d2. clear M1 M2.
  set (h := little_h o1) in *. pose proof (cm_pos h Ph) as Pc.
  assert (T1 : to_out o1 = inl (cm h / out_l o1, gr h / out_m o1)) by (apply to_out_ok; [lra|repeat split; auto; lra]).
  assert (T2 : to_out o2 = inl (cm h / out_l o2, gr h / out_m o2)) by (apply to_out_ok; [lra|repeat split; auto; lra]).
  split; [|split].
  - intros t1 t2 H1 H2. inversion H1 as [| | | | |sub sz r tab cs fl fm E1 E2 Hm E3 E4]; subst. inversion H2 as [| | | | |sub' sz' r' tab' cs' fl' fm' E1' E2' Hm' E3' E4']; subst.
    rewrite E1 in E1'. injection E1' as <- <- <-. rewrite T1 in E3. injection E3 as <- <-. rewrite T2 in E3'. injection E3' as <- <-.
    pose proof (morph_det _ _ _ _ _ _ _ _ _ _ _ _ Hm Hm') as X. injection X as <- _. apply Forall2_same.
    intros [l|] _; cbn [option_map same_entry]; [|exact Logic.I]. apply Forall2_same. intros mi _. unfold same_shape, to_row.
    cbn [w_d w_q w_s w_conv w_minor w_inter w_major]. rewrite !xmul_undo by auto. repeat split; reflexivity.
  - intros t1 t2 H1 H2. inversion H1 as [| | | |sub sz r cen ms fl fm E1 E2 Hm E3 E4]; subst. inversion H2 as [| | | |sub' sz' r' cen' ms' fl' fm' E1' E2' Hm' E3' E4']; subst.
    rewrite E1 in E1'. injection E1' as <- <- <-. rewrite T1 in E3. injection E3 as <- <-. rewrite T2 in E3'. injection E3' as <- <-.
    pose proof (masses_det _ _ _ _ _ _ _ Hm Hm') as X. injection X as <- <-. clear -Pl1 Pl2 Pm1 Pm2.
    revert ms. induction cen as [|v cen IH]; intros [|m ms]; cbn [map combine]; constructor; auto. cbn [fst snd]. split; [|field; lra].
    unfold vscale. cbn [vx vy vz]. f_equal; field; lra.
  - intros t1 t2 H1 H2. inversion H1 as [| | | |sub sz r rows f E1 E2 Hm E3 E4]; subst. inversion H2 as [| | | |sub' sz' r' rows' f' E1' E2' Hm' E3' E4']; subst.
    rewrite E1 in E1'. injection E1' as <- <- <-.
    assert (X : DOk rows = DOk rows').
    { inversion Hm as [| | |e x B1 B2 ob cs B3 B4]; subst. inversion Hm' as [| | |e' x' B1' B2' ob' cs' B3' B4']; subst. rewrite B2 in B2'. injection B2' as <-.
      apply dens_loop_result in B4; [|intros; apply calc_sph_indep; auto]. apply dens_loop_result in B4'; [|intros; apply calc_sph_indep; auto].
      rewrite B4. symmetry. exact B4'. }
    injection X as <-.
    assert (Mu : MASS_UNIT <> 0) by (unfold MASS_UNIT; apply pow_nonzero; lra).
    assert (D : forall o g, little_h o = h -> 0 < out_l o -> 0 < out_m o -> dens_factor o = inl g -> g * (out_m o / out_l o ^ 3) = gr h / cm h ^ 3).
    { intros o g Ho Po Pm D. unfold dens_factor, dens_to_out in D. rewrite internal_cm in D by lra. rewrite Ho in D. rewrite !pydiv_ok in D by lra.
      unfold pow_m3 in D. destruct Req_EM_T as [Z|Z]; [discriminate|]. injection D as <-. field. repeat split; lra. }
    apply Forall2_same. intros l _. apply Forall2_same. intros x _. rewrite !Rmult_assoc. f_equal.
    rewrite (D o1 f), (D o2 f') by auto. reflexivity.
Qed.
Print Assumptions C123_units.

(** ** Example *)
(** Two objects, the first too small; data in Mpc and 10^10 solar masses with h = 1, answers in kpc and
    solar masses; then the same data in kpc. *)
Definition cfg_e : config := mkConfig MPC MSUN10 (10 ^ 5) 1 (MPC / 1000) (MSUN10 / 10 ^ 10) (10 ^ 5).
Definition cfg_k : config := mkConfig (MPC / 1000) MSUN10 (10 ^ 5) 1 (MPC / 1000) (MSUN10 / 10 ^ 10) (10 ^ 5).
Definition args_e : args := mkArgs cloud6 ones6 (Nested [[0]; [0; 1; 2; 3; 4; 5]]%nat) [5; 10] 0 2 CCom.
Definition args_k : args := mkArgs (map (vscale 1000) cloud6) ones6 (Nested [[0]; [0; 1; 2; 3; 4; 5]]%nat) [5000; 10000] 0 2 CCom.

Lemma MPC_pos : 0 < MPC.
Proof. unfold MPC. apply Rmult_lt_0_compat; [lra|apply pow_lt; lra]. Qed.
Lemma MSUN10_pos : 0 < MSUN10.
Proof. unfold MSUN10. apply Rmult_lt_0_compat; [lra|apply pow_lt; lra]. Qed.
Lemma inner_e : inner cfg_e args_e [0; 1; 2; 3; 4; 5]%nat = object cloud6 still6 ones6.
Proof.
  unfold inner. replace (in_l cfg_e / cm (little_h cfg_e)) with 1 by (unfold cm; cbn; field; pose proof MPC_pos; lra).
  replace (in_m cfg_e / gr (little_h cfg_e)) with 1 by (unfold gr; cbn; field; pose proof MSUN10_pos; lra).
  cbn [map nth args_e a_xyz a_masses cloud6 ones6 object combine still6]. unfold vscale. cbn [vx vy vz].
  rewrite !Rmult_1_l. reflexivity.
Qed.
Lemma center_e mfuel L : L = 0 -> center_of mfuel CCom (seq 0 6) 1000 L (map pm (object cloud6 still6 ones6)) = Some v0.
Proof.
  intros ->. unfold center_of. f_equal. change (map fst (map pm (object cloud6 still6 ones6))) with cloud6.
  unfold respectPBCNoRef. destruct Req_EM_T; [|lra]. apply vec_ext. intros ax Hax.
  rewrite com_mean by (auto; unfold mass; cbn; lra). unfold mean, mass. axis Hax; cbn; lra.
Qed.

Example C123_example :
  fits args_e /\ usable_out (little_h cfg_e) cfg_e /\ asks (SelList [0%Q]) [0%Z] /\ good_selection [0%Z] (length (listed args_e)) /\
  same_data cfg_e args_e cfg_k args_k /\ asks (SelList [1%Q]) [1%Z] /\ ~ good_selection [1%Z] (length (listed args_e)) /\
  exists d, make cfg_e args_e = inl d /\ make cfg_k args_k = inl d /\
  (exists w, getShapeCat 1 (fun _ => seq 0 6) exact_eig 100 cfg1 Global cfg_e d (SelList [0%Q]) (inl [Some [w]]) /\
     w_d w = Fin 10000 /\ w_q w = Fin (2/3) /\ w_s w = Fin (1/3) /\ w_conv w = true) /\
  getMassesCenters 1 (fun _ => seq 0 6) cfg_e d (SelList [0%Q]) (inl [(v0, 6 * 10 ^ 10)]) /\
  exists tab, estDensProfs 1 (fun _ => seq 0 6) [1/10; 1] cfg_e d (SelList [0%Q]) (inl tab).
Proof.
  pose proof MPC_pos as Pm. pose proof MSUN10_pos as Ps.
  assert (Pt : 0 < 10 ^ 10) by (apply pow_lt; lra).
  assert (Hf : fits args_e).
  { unfold fits, args_e. cbn. repeat split; try discriminate; try lia. intros o i [<-|[<-|[]]] Hi; cbn in Hi; lia. }
  assert (Hu : usable_out (little_h cfg_e) cfg_e).
  { unfold usable_out, cfg_e. cbn [little_h out_l out_m]. repeat split; apply Rgt_not_eq; apply Rdiv_lt_0_compat; lra. }
  assert (Ha : asks (SelList [0%Q]) [0%Z]) by reflexivity.
  assert (Hg : good_selection [0%Z] (length (listed args_e))).
  { split; [discriminate|]. split; [repeat constructor; intros []|]. intros z [<-|[]]. cbn. lia. }
  assert (Hs : same_data cfg_e args_e cfg_k args_k).
  { unfold same_data, cfg_e, cfg_k, args_e, args_k. cbn [in_l in_m little_h a_xyz a_masses a_r200 a_box a_idx a_minp a_kind]. split; [reflexivity|].
    split; [|split; [|split]].
    - apply Forall2_map_r. intros x _. unfold vscale. cbn [vx vy vz]. f_equal; field.
    - unfold ones6. repeat (constructor; [reflexivity|]). constructor.
    - constructor; [field|]. constructor; [field|constructor].
    - repeat split; try reflexivity. field. }
  assert (Hh : little_h cfg_e <> 0) by (cbn; lra).
  split; [exact Hf|]. split; [exact Hu|]. split; [exact Ha|]. split; [exact Hg|]. split; [exact Hs|]. split; [reflexivity|].
  split. { intros (_ & _ & H). specialize (H 1%Z (or_introl eq_refl)). cbn in H. lia. }
  exists (built cfg_e args_e). split; [apply make_ok; auto|]. split; [rewrite <- (same_make _ _ _ _ Hh Hs); apply make_ok; auto|].
  pose proof (chosen_ok cfg_e args_e _ _ Ha Hg) as E. cbv zeta in E. pose proof (exist_ok cfg_e args_e _ Hf Hg) as X.
  pose proof (to_out_ok _ _ Hh Hu) as T. pose proof (objs_inner cfg_e args_e _ Hf Hg) as OI. pose proof (objs_ptcs cfg_e args_e _ Hf Hg) as OP.
  assert (P : picked args_e (map Z.to_nat [0%Z]) = [([0; 1; 2; 3; 4; 5]%nat, 10)]) by reflexivity. rewrite P in *.
  assert (F1 : in_l cfg_e / cm (little_h cfg_e) = 1) by (unfold cm; cbn; field; lra). rewrite F1 in E.
  assert (Fl : cm (little_h cfg_e) / out_l cfg_e = 1000) by (unfold cm; cbn [cfg_e little_h out_l]; field; lra).
  assert (Fm : gr (little_h cfg_e) / out_m cfg_e = 10 ^ 10) by (unfold gr; cbn [cfg_e little_h out_m]; field; lra).
  assert (B0 : d_box (built cfg_e args_e) = 0) by (unfold built; cbn [d_box args_e a_box]; ring).
  cbn [map fst snd] in OI, OP. rewrite inner_e in OI, OP. cbn [map fst snd] in E, X. rewrite Rmult_1_r in E.
  change [length [0; 1; 2; 3; 4; 5]%nat] with (map (@length nat) [[0; 1; 2; 3; 4; 5]%nat]) in E.
  split; [|split].
  - destruct (run6 exact_eig exact_eig_contract (mkM (Fin 10) (Fin 0) (Fin 0) x0 x0 x0) 98) as (mi & tr & H & Q & S & D & _).
    destruct (runs_exist exact_eig 100 cfg1 0 Global [object cloud6 still6 ones6] [10] [v0]) as (r & Hr).
    assert (G := driver_result _ _ _ _ _ _ _ _ _ Hr). cbn [length seq map nth existsb] in G. rewrite global6 in G by auto.
    rewrite H in G. cbn [option_map fst map collect raised orb entry] in G. subst r.
    exists (to_row 1000 (nan_morph mi)). split.
    + rewrite <- Fl.
      assert (M : exists cs, morph_call 1 (d_kind (built cfg_e args_e)) (fun _ => seq 0 6) exact_eig 100 cfg1 (d_box (built cfg_e args_e)) Global
         (map (particles (built cfg_e args_e)) (parts (concat [[0; 1; 2; 3; 4; 5]%nat]) (map (@length nat) [[0; 1; 2; 3; 4; 5]%nat]))) [10] (Ret ([Some [nan_morph mi]], [total snd (object cloud6 still6 ones6)]), cs)).
      { rewrite parts_concat. cbn [map fst]. rewrite OI, B0. eexists. constructor; [|exact Hr]. repeat constructor. cbn [fst snd].
        unfold shape_center. exact (center_e 1 0 eq_refl). }
      destruct M as (cs & M). exact (gs_ok _ _ _ _ _ _ _ _ _ _ _ _ _ _ _ _ E X M T).
    + unfold to_row, nan_morph, is_conv. cbn [w_d w_q w_s w_conv md mq ms]. rewrite Q, S, D, !nanz_fin. unfold shown.
      repeat (destruct Req_EM_T; [lra|]). cbn [xmul]. repeat split. f_equal. ring.
  - destruct (prange_exists 1 (mass_body [map pm (object cloud6 still6 ones6)]) (fun _ => 0)) as (m' & Hm).
    assert (M : calcMassesCenters 1 (d_kind (built cfg_e args_e)) (fun _ => seq 0 6)
       (map (ptcs (d_xyz (built cfg_e args_e)) (d_masses (built cfg_e args_e))) (parts (concat [[0; 1; 2; 3; 4; 5]%nat]) (map (@length nat) [[0; 1; 2; 3; 4; 5]%nat])))
       (d_box (built cfg_e args_e)) (Some (recentreObject [v0] 0, map m' (seq 0 1)))).
    { rewrite parts_concat. cbn [map fst]. rewrite OP, B0. eapply cmc_ok with (centers := [v0]); [|exact Hm].
      repeat constructor. cbn [fst snd]. exact (center_e 1 0 eq_refl). }
    pose proof (gm_ok _ _ _ _ _ _ _ _ _ _ _ _ E X M T) as G. rewrite Fl, Fm in G.
    rewrite (masses_ok [map pm (object cloud6 still6 ones6)] m' Hm : map m' (seq 0 1) = map mass [map pm (object cloud6 still6 ones6)]) in G. unfold recentreObject, mass in G. cbn [map combine v0 vx vy vz] in G.
    replace (vscale 1000 (mkV (recentre1 0 0) (recentre1 0 0) (recentre1 0 0))) with v0 in G.
    + replace (6 * 10 ^ 10) with (total snd (map pm (object cloud6 still6 ones6)) * 10 ^ 10); [exact G|]. f_equal. cbn. ring.
    + unfold vscale, recentre1, v0. cbn [vx vy vz]. destruct Rle_dec; [|lra]. destruct Rlt_dec; [lra|]. f_equal; ring.
  - assert (He : edges_sph [1/10; 1] = DOk [/ 10 ^ 8; 11 / 20; 1]).
    { unfold edges_sph. cbn [midpoints app last]. replace ((1/10 + 1) / 2) with (11 / 20) by lra. reflexivity. }
    assert (Rn : exists r, calcDensProfsSphDirectBinning 1 CCom (fun _ => seq 0 6) (d_xyz (built cfg_e args_e)) (d_masses (built cfg_e args_e)) [10] [1/10; 1]
       [0; 1; 2; 3; 4; 5]%nat [6]%nat (d_box (built cfg_e args_e)) r).
    { edestruct (@prange_exists dloc (dval R)) as [m' Hm]. eexists.
      eapply sph_ok; [discriminate|exact He|reflexivity|]. econstructor. exact Hm. }
    destruct Rn as (r & Rn).
    destruct (C39_driver 1 CCom (fun _ => seq 0 6) (d_xyz (built cfg_e args_e)) (d_masses (built cfg_e args_e)) [10] [1/10; 1] [[0; 1; 2; 3; 4; 5]%nat] (d_box (built cfg_e args_e)) r _
       Rn ltac:(discriminate) He) as [Hx|(rows & Hr & _)].
    + assert (E8 : 0 < / 10 ^ 8 < 1 / 10).
      { split; [apply Rinv_0_lt_compat, pow_lt; lra|]. replace (1 / 10) with (/ 10) by lra. apply Rinv_lt_contravar; [apply Rmult_lt_0_compat; [lra|apply pow_lt; lra]|].
        replace 10 with (10 ^ 1) at 1 by ring. apply Rlt_pow; [lra|lia]. }
      split; [cbn [hd]; lra|]. intros [|[|i]] Hi; cbn [nth length] in *; try lra; lia.
    + intros p Hp. destruct p as [|p]; cbn in *; try lra; lia.
    + destruct (sph_driver 1 CCom (fun _ => seq 0 6) (d_xyz (built cfg_e args_e)) (d_masses (built cfg_e args_e)) [10] [1/10; 1] [[0; 1; 2; 3; 4; 5]%nat] (d_box (built cfg_e args_e)) r _
        Rn ltac:(discriminate) He) as [[_ (p & Hp & Hc)]|[Hr _]]; [|congruence]. destruct p as [|p]; [discriminate Hc|cbn in Hp; lia].
    + subst r. eexists. eapply ed_ok; [exact E|exact X|exact Rn|].
      unfold dens_factor, dens_to_out. rewrite internal_cm by auto. destruct Hu as (_ & U1 & U2).
      pose proof (cm_nz _ Hh) as Cn. rewrite !pydiv_ok by auto. rewrite Fl. unfold pow_m3. destruct Req_EM_T; [lra|]. reflexivity.
Qed.
Example C123_missing_example : let a := mkArgs cloud6 ones6 (Nested [[0; 1]; [0; 6]]%nat) [5; 10] 0 2 CCom in
  shaped a /\ good_selection [1%Z] (length (listed a)) /\ nth_error (listed a) 1 = Some ([0; 6]%nat, 10) /\
  exists d, make cfg_e a = inl d /\ getMassesCenters 1 (fun _ => [0; 1]%nat) cfg_e d (SelList [1%Q]) (inr EIndex).
Proof.
  intros a. assert (Hs : shaped a) by (repeat split; discriminate).
  assert (Hg : good_selection [1%Z] (length (listed a))).
  { split; [discriminate|]. split; [repeat constructor; intros []|]. intros z [<-|[]]. cbn. lia. }
  assert (Hh : little_h cfg_e <> 0) by (cbn; lra).
  split; [exact Hs|]. split; [exact Hg|]. split; [reflexivity|]. eexists. split; [apply make_shaped; auto|].
  apply (C123_missing 1 (fun _ => [0; 1]%nat) exact_eig 1 cfg1 Global [] cfg_e a (built cfg_e a) cfg_e (SelList [1%Q]) [1%Z] 1%Z [0; 6]%nat 10 6%nat Hh Hs
    (make_shaped _ _ Hh Hs) eq_refl Hg (or_introl eq_refl) eq_refl (or_intror (or_introl eq_refl)) (le_n 6)). reflexivity.
Qed.
Example C123_zero_example : let z := mkConfig MPC MSUN10 (10 ^ 5) 1 (MPC / 1000) 0 (10 ^ 5) in exists d, make cfg_e args_e = inl d /\
  getMassesCenters 1 (fun _ => seq 0 6) z d (SelList [0%Q]) (inr EZeroDivision) /\
  make (mkConfig MPC MSUN10 (10 ^ 5) 0 MPC MSUN10 (10 ^ 5)) args_e = inr EZeroDivision.
Proof.
  intros z. destruct C123_example as (Hf & _ & Ha & Hg & _). assert (Hh : little_h cfg_e <> 0) by (cbn; lra).
  destruct (C123_zero_units 1 (fun _ => seq 0 6) exact_eig 1 cfg1 Global [1] cfg_e args_e (built cfg_e args_e) z (SelList [0%Q]) [0%Z]) as (Z1 & _ & Z2).
  destruct (Z2 Hh Hf (make_ok _ _ Hh Hf) eq_refl (or_intror eq_refl) Ha Hg ltac:(discriminate)) as (_ & _ & _ & Z3).
  destruct (Z3 eq_refl) as (out & H & ->). exists (built cfg_e args_e). split; [apply make_ok; auto|]. split; [exact H|]. apply Z1; reflexivity.
Qed.
