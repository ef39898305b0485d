(** C133: what is returned for an object depends on its own particles only. *)
From Coq Require Import List Reals ZArith QArith Lra Lia Bool.
From Verif Require Import ListUtil ParModel XR ConfigModel ConfigUnits CatModel CatSpec CatProofs CatMpi GeoModel GeoSpec GeoProofs GeoProps
  ShapeModel ShapeSpec ShapeProofs Spectral ShapeExamples ShapePar ShapeProps LocalTProps ShapeMoveModel DensModel DensSpec DensProofs DensEll DensProps FitModel FitProps FitErr
  EndModel EndProps PlotCallModel PlotCallProps VizModel VizCallModel VizCallProps.
Import ListNotations.
Local Open Scope R_scope.

(** Positions and masses of the particles of an object, as passed by the user. *)
Definition content (a : args) (o : list nat) : list (vec * R) := map (fun i => (nth i (a_xyz a) v0, nth i (a_masses a) 0)) o.
(** Object number [z] of one catalogue and object number [z'] of another have the same particles in the same order and the same
    radius; box and kind of centre are the same. The indices of the particles and the other objects may differ. *)
Definition same_object (a : args) (z : Z) (a' : args) (z' : Z) : Prop :=
  a_box a = a_box a' /\ a_kind a = a_kind a' /\ exists o o' x, nth_error (listed a) (Z.to_nat z) = Some (o, x) /\
    nth_error (listed a') (Z.to_nat z') = Some (o', x) /\ content a o = content a' o'.

Lemma inner_content c a o a' o' : content a o = content a' o' -> inner c a o = inner c a' o'.
Proof.
  intros H. assert (G : forall b l, inner c b l = map (fun pm => (vscale (in_l c / cm (little_h c)) (fst pm), v0, snd pm * (in_m c / gr (little_h c)))) (content b l)).
  { intros b l. unfold inner, content. rewrite map_map. reflexivity. }
  rewrite !G, H. reflexivity.
Qed.
Lemma total_content a o a' o' : content a o = content a' o' -> GeoSpec.total (fun i => nth i (a_masses a) 0) o = GeoSpec.total (fun i => nth i (a_masses a') 0) o'.
Proof.
  intros H. assert (G : forall b l, GeoSpec.total (fun i => nth i (a_masses b) 0) l = GeoSpec.total snd (content b l)) by (intros b l; unfold content; rewrite total_map; reflexivity).
  rewrite !G, H. reflexivity.
Qed.

Theorem C133_shapes : forall mfuel eig fuel kc vt c c' a d choose s zs tab a' d' choose' s' zs' tab' k k' z z',
  little_h c <> 0 -> usable_out (little_h c) c' ->
  fits a -> make c a = inl d -> asks s zs -> getShapeCat mfuel choose eig fuel kc vt c' d s (inl tab) ->
  fits a' -> make c a' = inl d' -> asks s' zs' -> getShapeCat mfuel choose' eig fuel kc vt c' d' s' (inl tab') ->
  nth_error zs k = Some z -> nth_error zs' k' = Some z' -> same_object a z a' z' -> choose k = choose' k' ->
  exists e, nth_error tab k = Some e /\ nth_error tab' k' = Some e.
Proof.
  intros mfuel eig fuel kc vt c c' a d choose s zs tab a' d' choose' s' zs' tab' k k' z z' Hh Hu Hf Hd Ha H Hf' Hd' Ha' H' Hk Hk' (Eb & Ek & o & o' & x & N & N' & C) Ec.
  destruct (C123_shapes _ _ _ _ _ _ _ _ _ _ _ _ _ Hh Hf Hd Hu Ha H) as (_ & _ & X). destruct (X k z Hk) as (o1 & x1 & cen & e & m & A1 & A2 & A3 & w & A4 & A5). clear X.
  destruct (C123_shapes _ _ _ _ _ _ _ _ _ _ _ _ _ Hh Hf' Hd' Hu Ha' H') as (_ & _ & X). destruct (X k' z' Hk') as (o2 & x2 & cen' & e' & m' & B1 & B2 & B3 & w' & B4 & B5). clear X.
  rewrite N in A1. injection A1 as <- <-. rewrite N' in B1. injection B1 as <- <-. cbv zeta in *.
  rewrite <- (inner_content c a o a' o' C), <- Eb in *. rewrite <- Ek, <- Ec, A2 in B2. injection B2 as <-.
  apply driver_result in A3, B3. cbv zeta in A3, B3. assert (Ee : e' = e) by congruence. rewrite Ee in B5.
  exists w. split; [exact A4|]. rewrite B4. f_equal. clear - A5 B5.
  destruct e as [l|], w as [l1|], w' as [l2|]; try contradiction; [|reflexivity]. f_equal.
  revert l1 l2 A5 B5. induction l as [|mi l IH]; intros l1 l2 F F'; inversion F; inversion F'; subst; [reflexivity|].
  f_equal; [eapply reported_fun; eauto|eapply IH; eauto].
Qed.
Print Assumptions C133_shapes.

Theorem C133_masses_centers : forall mfuel c c' a d choose s zs tab a' d' choose' s' zs' tab' k k' z z',
  little_h c <> 0 -> usable_out (little_h c) c' ->
  fits a -> make c a = inl d -> asks s zs -> getMassesCenters mfuel choose c' d s (inl tab) ->
  fits a' -> make c a' = inl d' -> asks s' zs' -> getMassesCenters mfuel choose' c' d' s' (inl tab') ->
  nth_error zs k = Some z -> nth_error zs' k' = Some z' -> same_object a z a' z' -> choose k = choose' k' ->
  exists e, nth_error tab k = Some e /\ nth_error tab' k' = Some e.
Proof.
  intros mfuel c c' a d choose s zs tab a' d' choose' s' zs' tab' k k' z z' Hh Hu Hf Hd Ha H Hf' Hd' Ha' H' Hk Hk' (Eb & Ek & o & o' & x & N & N' & C) Ec.
  destruct (C123_masses_centers _ _ _ _ _ _ _ _ _ Hh Hf Hd Hu Ha H) as (_ & _ & X). destruct (X k z Hk) as (o1 & x1 & cen & w & A1 & A2 & A3 & A4 & A5). clear X.
  destruct (C123_masses_centers _ _ _ _ _ _ _ _ _ Hh Hf' Hd' Hu Ha' H') as (_ & _ & X). destruct (X k' z' Hk') as (o2 & x2 & cen' & w' & B1 & B2 & B3 & B4 & B5). clear X.
  rewrite N in A1. injection A1 as <- <-. rewrite N' in B1. injection B1 as <- <-. cbv zeta in *.
  rewrite <- (inner_content c a o a' o' C), <- Eb, <- Ek, <- Ec, A4 in B4. injection B4 as <-. rewrite <- Eb in B5. rewrite <- (total_content a o a' o' C) in B3.
  exists w. split; [exact A2|]. rewrite B2. f_equal. destruct w, w'. cbn [fst snd] in *. f_equal; congruence.
Qed.
Print Assumptions C133_masses_centers.

Theorem C133_densities : forall mfuel rs edges c c' a d choose s zs tab a' d' choose' s' zs' tab' k k' z z',
  0 < little_h c -> 0 < in_l c -> usable_out (little_h c) c' -> edges_sph rs = DOk edges -> increasing edges ->
  fits a -> make c a = inl d -> asks s zs -> (forall x, In x (a_r200 a) -> 0 < x) -> estDensProfs mfuel choose rs c' d s (inl tab) ->
  fits a' -> make c a' = inl d' -> asks s' zs' -> (forall x, In x (a_r200 a') -> 0 < x) -> estDensProfs mfuel choose' rs c' d' s' (inl tab') ->
  nth_error zs k = Some z -> nth_error zs' k' = Some z' -> same_object a z a' z' -> choose k = choose' k' ->
  exists e, nth_error tab k = Some e /\ nth_error tab' k' = Some e.
Proof.
  intros mfuel rs edges c c' a d choose s zs tab a' d' choose' s' zs' tab' k k' z z' Hh Hi Hu He Hinc Hf Hd Ha Hr H Hf' Hd' Ha' Hr' H' Hk Hk' (Eb & Ek & o & o' & x & N & N' & C) Ec.
  destruct (C123_densities _ _ _ _ _ _ _ _ _ _ _ Hh Hi Hf Hd Hu Ha He Hinc Hr H) as (_ & _ & X). destruct (X k z Hk) as (o1 & x1 & cen & w & A1 & A2 & A3 & A4 & A5). clear X.
  destruct (C123_densities _ _ _ _ _ _ _ _ _ _ _ Hh Hi Hf' Hd' Hu Ha' He Hinc Hr' H') as (_ & _ & X). destruct (X k' z' Hk') as (o2 & x2 & cen' & w' & B1 & B2 & B3 & B4 & B5). clear X.
  rewrite N in A1. injection A1 as <- <-. rewrite N' in B1. injection B1 as <- <-. cbv zeta in *.
  rewrite <- (inner_content c a o a' o' C), <- Eb in *. rewrite <- Ek, <- Ec, A4 in B4. injection B4 as <-.
  assert (U : out_m c' / out_l c' ^ 3 <> 0).
  { destruct Hu as (_ & Hl & Hm). unfold Rdiv. apply Rmult_integral_contrapositive. split; [exact Hm|]. apply Rinv_neq_0_compat, pow_nonzero; exact Hl. }
  exists w. split; [exact A2|]. rewrite B2. f_equal. apply (nth_ext _ _ 0 0); [congruence|].
  intros i Hl. rewrite B3 in Hl. apply (Rmult_eq_reg_r _ _ _ (eq_trans (B5 i Hl) (eq_sym (A5 i Hl))) U).
Qed.
Print Assumptions C133_densities.

(* The figures of the two objects differ only in the number in their names. *)
Theorem C133_figures : forall mfuel eig fuel kc vt c c' a d choose again s zs ps a' d' choose' again' s' zs' ps' k k' z z',
  little_h c <> 0 -> little_h c' = little_h c -> out_l c' <> 0 ->
  fits a -> make c a = inl d -> asks s zs -> vizShapes mfuel choose again eig fuel kc vt c' d s (inl ps) ->
  fits a' -> make c a' = inl d' -> asks s' zs' -> vizShapes mfuel choose' again' eig fuel kc vt c' d' s' (inl ps') ->
  nth_error zs k = Some z -> nth_error zs' k' = Some z' -> same_object a z a' z' -> choose k = choose' k' -> again k = again' k' ->
  exists p p', nth_error ps k = Some p /\ nth_error ps' k' = Some p' /\ Z.of_nat (p_number p) = z /\ Z.of_nat (p_number p') = z' /\
    p_particles p = p_particles p' /\ p_center p = p_center p' /\ p_rows p = p_rows p'.
Proof.
  intros mfuel eig fuel kc vt c c' a d choose again s zs ps a' d' choose' again' s' zs' ps' k k' z z' Hh Eh Hl Hf Hd Ha H Hf' Hd' Ha' H' Hk Hk' (Eb & Ek & o & o' & x & N & N' & C) Ec Eg.
  destruct (C132_panels _ _ _ _ _ _ _ _ _ _ _ _ _ _ Hh Hf Hd Eh Hl Ha H) as (_ & _ & X). destruct (X k z Hk) as (o1 & x1 & cen & e & m & p & A1 & A2 & A3 & B). clear X.
  destruct (C132_panels _ _ _ _ _ _ _ _ _ _ _ _ _ _ Hh Hf' Hd' Eh Hl Ha' H') as (_ & _ & X). destruct (X k' z' Hk') as (o2 & x2 & cen' & e' & m' & p' & A1' & A2' & A3' & B'). clear X.
  rewrite N in A1. injection A1 as <- <-. rewrite N' in A1'. injection A1' as <- <-.
  cbv zeta in B, B'. destruct B as (B1 & B2 & B3 & B4 & B5). destruct B' as (B1' & B2' & B3' & B4' & B5').
  rewrite <- (inner_content c a o a' o' C), <- Eb, <- Ek, <- Ec, B2 in B2'. injection B2' as <-.
  rewrite <- (inner_content c a o a' o' C), <- Eb in B4'. rewrite <- Eb in B1', B3'.
  apply driver_result in B4, B4'. cbv zeta in B4, B4'. assert (Ee : e' = e) by congruence. rewrite Ee in B5'. clear Ee B4 B4'.
  exists p, p'. split; [exact A2|]. split; [exact A2'|]. split; [exact A3|]. split; [exact A3'|]. split; [|split; [congruence|]].
  - rewrite B1, B1', Eg. do 2 f_equal. apply (f_equal (map (fun q => vscale (in_l c / cm (little_h c)) (fst q)))) in C. unfold content in C. rewrite !map_map in C. exact C.
  - clear - B5 B5'. destruct e as [l|], (p_rows p) as [l1|], (p_rows p') as [l2|]; try contradiction; [|reflexivity]. f_equal.
    revert l1 l2 B5 B5'. induction l as [|mi l IH]; intros l1 l2 F F'; inversion F; inversion F'; subst; [reflexivity|].
    f_equal; [eapply reported_fun; eauto|eapply IH; eauto].
Qed.
Print Assumptions C133_figures.

(** ** Example *)
(* Object 0 of args_e and object 1 of args_2: another catalogue, another number, another place in the selection. *)
Example C133_example : exists edges d d' ps ps' tab tab' mc mc' dn dn',
  0 < little_h cfg_e /\ 0 < in_l cfg_e /\ usable_out (little_h cfg_e) cfg_e /\ edges_sph [1; 2] = DOk edges /\ increasing edges /\
  fits args_e /\ fits args_2 /\ make cfg_e args_e = inl d /\ make cfg_e args_2 = inl d' /\ asks (SelList [0%Q]) [0%Z] /\ asks (SelList [0%Q; 1%Q]) [0%Z; 1%Z] /\
  (forall x, In x (a_r200 args_e) -> 0 < x) /\ (forall x, In x (a_r200 args_2) -> 0 < x) /\ same_object args_e 0 args_2 1 /\
  vizShapes 1 (fun _ => seq 0 6) (fun _ => seq 0 6) exact_eig 100 cfg1 Global cfg_e d (SelList [0%Q]) (inl ps) /\
  vizShapes 1 (fun _ => seq 0 6) (fun _ => seq 0 6) exact_eig 100 cfg1 Global cfg_e d' (SelList [0%Q; 1%Q]) (inl ps') /\
  getShapeCat 1 (fun _ => seq 0 6) exact_eig 100 cfg1 Global cfg_e d (SelList [0%Q]) (inl tab) /\
  getShapeCat 1 (fun _ => seq 0 6) exact_eig 100 cfg1 Global cfg_e d' (SelList [0%Q; 1%Q]) (inl tab') /\
  getMassesCenters 1 (fun _ => seq 0 6) cfg_e d (SelList [0%Q]) (inl mc) /\ getMassesCenters 1 (fun _ => seq 0 6) cfg_e d' (SelList [0%Q; 1%Q]) (inl mc') /\
  estDensProfs 1 (fun _ => seq 0 6) [1; 2] cfg_e d (SelList [0%Q]) (inl dn) /\ estDensProfs 1 (fun _ => seq 0 6) [1; 2] cfg_e d' (SelList [0%Q; 1%Q]) (inl dn').
Proof.
  destruct C132_example as (Hh & Hf & Ha & Hu & _ & d & p & mi & Hd & _ & _ & V & _).
  destruct C132_alone_example as (_ & Hf' & _ & _ & Ha' & d' & p' & ps' & Hd' & _ & V' & _).
  assert (Hg : good_selection [0%Z] (length (listed args_e))) by apply (C132_panels _ _ _ _ _ _ _ _ _ _ _ _ _ _ Hh Hf Hd eq_refl (proj1 (proj2 Hu)) Ha V).
  assert (Hg' : good_selection [0%Z; 1%Z] (length (listed args_2))) by apply (C132_panels _ _ _ _ _ _ _ _ _ _ _ _ _ _ Hh Hf' Hd' eq_refl (proj1 (proj2 Hu)) Ha' V').
  assert (R : forall a b s zs, fits a -> a_kind a = CCom -> make cfg_e a = inl b -> asks s zs -> good_selection zs (length (listed a)) ->
    (exists m, getMassesCenters 1 (fun _ => seq 0 6) cfg_e b s (inl m)) /\ exists n, estDensProfs 1 (fun _ => seq 0 6) [1; 2] cfg_e b s (inl n)).
  { intros a b s zs Fa Ka Ma Sa Ga. destruct (C123_runs 1 (fun _ => seq 0 6) [1; 2] cfg_e a b cfg_e s zs Hh Fa Ma Hu Sa Ga) as (((o1 & O1) & E1) & _ & X).
    destruct X as ((o2 & O2) & E2); [discriminate|]. rewrite Ka in *. split.
    - destruct o1 as [m|e]; [eauto|]. exfalso. destruct (E1 e O1) as (_ & k & z & o & x & _ & _ & W). cbn in W. discriminate.
    - destruct o2 as [m|e]; [eauto|]. exfalso. destruct (E2 e O2) as (_ & k & z & o & x & _ & _ & W). cbn in W. discriminate. }
  destruct (R _ _ _ _ Hf eq_refl Hd Ha Hg) as ((mc & M) & dn & D). destruct (R _ _ _ _ Hf' eq_refl Hd' Ha' Hg') as ((mc' & M') & dn' & D').
  pose proof MPC_pos as Pm.
  assert (P8 : / 10 ^ 8 < 1). { rewrite <- Rinv_1. apply Rinv_lt_contravar; [|apply Rlt_pow_R1; [lra|lia]]. rewrite Rmult_1_l. apply pow_lt. lra. }
  destruct (C39_edges [1; 2]) as (edges & He & Hi & _); [discriminate|exact P8| |].
  { split; [cbn [hd]; lra|]. intros [|i] Hi; cbn [nth length] in *; [lra|lia]. }
  exists edges, d, d', [p], ps'. do 2 eexists. exists mc, mc', dn, dn'.
  split; [cbn; lra|]. split; [exact Pm|]. split; [exact Hu|].
  split; [exact He|]. split; [exact Hi|].
  split; [exact Hf|]. split; [exact Hf'|]. split; [exact Hd|]. split; [exact Hd'|]. split; [exact Ha|]. split; [exact Ha'|].
  split. { intros x [<-|[<-|[]]]; lra. } split. { intros x [<-|[<-|[<-|[]]]]; lra. }
  split. { split; [reflexivity|]. split; [reflexivity|]. exists [0; 1; 2; 3; 4; 5]%nat, [0; 1; 2; 3; 4; 5]%nat, 10. repeat split. }
  split; [exact V|]. split; [exact V'|].
  split; [exact (C132_catalogue _ _ _ _ _ _ _ _ _ _ _ _ _ _ Hh Hf Hd Hu Ha V)|]. split; [exact (C132_catalogue _ _ _ _ _ _ _ _ _ _ _ _ _ _ Hh Hf' Hd' Hu Ha' V')|]. repeat (split; [assumption|]). assumption.
Qed.
