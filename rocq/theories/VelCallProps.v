(** C129: velocity shapes of a Gadget object come from the velocities of its objects. *)
From Coq Require Import List Reals ZArith QArith Lra Lia Bool.
From Verif Require Import ListUtil XR ConfigModel ConfigUnits CatModel CatSpec CatProofs CatProps CatMpi GeoModel GeoSpec GeoProofs GeoProps ShapeModel ShapeSpec ShapeProofs Spectral ShapeExamples ShapePar ShapeProps ShapeMoveModel ShapeMoveProps
  DensModel DensSpec DensProofs DensEll DensProps FitModel FitProps FitErr GadObjModel EndModel EndProps GadCallModel GadCallProps VelCallModel.
Import ListNotations.
Local Open Scope R_scope.

(** ** Vocabulary *)
(** Particles [off .. off+n-1] of the snapshot in internal units: Mpc/h, km/s, 10^10 solar masses/h. *)
Definition vstretch (c : config) (xyz vels : list vec) (mass : list R) (off n : nat) : list vptc :=
  map (fun i => (vscale (in_l c / cm (little_h c)) (nth i xyz v0), vscale (in_v c / 10 ^ 5) (nth i vels v0), nth i mass 0 * (in_m c / gr (little_h c)))) (seq off n).
(** The input units are those with which the object was made. *)
Definition same_lengths (c0 c : config) : Prop := little_h c = little_h c0 /\ in_l c = in_l c0.

(** ** What is read again *)
Lemma p5 : 10 ^ 5 <> 0. Proof. apply pow_nonzero; lra. Qed.
Lemma read_vel_ok c vels : usable_in c -> read_velocities c vels = inl (map (vscale (in_v c / 10 ^ 5)) vels).
Proof.
  intros (Hh & Hl & Hm & Hv). unfold read_velocities, unit_facs. rewrite internal_cm by auto. rewrite !pydiv_ok by auto.
  f_equal. apply map_ext. intros v. unfold vscale. pose proof p5. f_equal; field; auto.
Qed.
Lemma reread_ok c0 c xyz mass box hs rest minp kind d vels out :
  usable_in c0 -> usable_in c -> same_lengths c0 c -> consistent xyz mass hs -> (1 <= minp)%Z ->
  make_gadget c0 (written xyz mass box hs rest) minp kind (inl d) ->
  reread c (written xyz mass box hs rest) vels minp d out <-> out = inl (built c (same_arrays xyz mass box hs minp kind), map (vscale (in_v c / 10 ^ 5)) vels).
Proof.
  intros Hu0 Hu (Eh & El) (Hl & Hn & _) Hm Hd. apply C128_same in Hd; auto.
  rewrite make_shaped in Hd by (apply Hu0 || auto using shaped_same). injection Hd as ->.
  set (A := same_arrays xyz mass box hs minp kind). change (d_kind (built c0 A)) with kind.
  assert (M : forall o, make_gadget c (written xyz mass box hs rest) minp kind o <-> o = inl (built c A)).
  { intros o. rewrite C128_same by auto. rewrite make_shaped by (apply Hu || auto using shaped_same). reflexivity. }
  assert (Eb : d_box (built c0 A) = d_box (built c A)) by (unfold built; cbn [d_box]; rewrite Eh, El; reflexivity).
  split.
  - intros H. inversion H as [e H1|d' e H1 H2|d' w H1 H2]; subst; change (d_kind (built c0 A)) with kind in H1; apply M in H1.
    + discriminate.
    + rewrite read_vel_ok in H2 by auto. discriminate.
    + rewrite read_vel_ok in H2 by auto. injection H2 as <-. injection H1 as ->. rewrite Eb. reflexivity.
  - intros ->. replace (built c A) with (mkDirect (d_xyz (built c A)) (d_masses (built c A)) (d_cat (built c A)) (d_r200 (built c A)) (d_sizes (built c A)) (d_box (built c0 A)) (d_kind (built c0 A)))
      by (rewrite Eb; reflexivity).
    apply rr_ok; [apply M; reflexivity|apply read_vel_ok; auto].
Qed.

Lemma vparticles_inner c a vels o : (forall i, In i o -> (i < length (a_xyz a))%nat) -> length (a_xyz a) = length (a_masses a) -> length vels = length (a_xyz a) ->
  vparticles (built c a) (map (vscale (in_v c / 10 ^ 5)) vels) o =
  map (fun i => (vscale (in_l c / cm (little_h c)) (nth i (a_xyz a) v0), vscale (in_v c / 10 ^ 5) (nth i vels v0), nth i (a_masses a) 0 * (in_m c / gr (little_h c)))) o.
Proof.
  intros H Hl Hv. unfold vparticles, built. cbn [d_xyz d_masses]. apply map_ext_in. intros i Hi. specialize (H i Hi).
  rewrite (nth_indep _ v0 (vscale (in_l c / cm (little_h c)) v0)) by (rewrite map_length; auto). rewrite map_nth.
  rewrite (nth_indep (map (vscale (in_v c / 10 ^ 5)) vels) v0 (vscale (in_v c / 10 ^ 5) v0)) by (rewrite map_length; lia). rewrite map_nth.
  rewrite (nth_indep _ 0 (0 * (in_m c / gr (little_h c)))) by (rewrite map_length; lia).
  rewrite (map_nth (fun x => x * (in_m c / gr (little_h c)))). reflexivity.
Qed.

(** ** What is written *)
(* Entry k of the catalogue belongs to object number zs[k] and is what the routine gives for the particles of its
   central subhalo alone. *)
Theorem C129_objects : forall mfuel choose eig fuel kc vt c0 c xyz vels mass box hs rest minp kind d s zs rows centers ms,
  usable_in c0 -> usable_in c -> same_lengths c0 c -> consistent xyz mass hs -> length vels = length xyz -> (1 <= minp)%Z ->
  make_gadget c0 (written xyz mass box hs rest) minp kind (inl d) -> usable_out (little_h c) c -> asks s zs ->
  velShapes mfuel choose eig fuel kc vt c (written xyz mass box hs rest) vels minp d s (inl (rows, centers, ms)) ->
  good_selection zs (length (objects minp hs)) /\ length rows = length zs /\ length centers = length zs /\ length ms = length zs /\
  forall k z, nth_error zs k = Some z -> exists off h center e m,
    nth_error (objects minp hs) (Z.to_nat z) = Some (off, h) /\
    let L := box * (in_l c / cm (little_h c)) in let ps := vstretch c xyz vels mass off (central h) in
    shape_center mfuel kind (choose k) L ps = Some center /\
    calcMorph eig fuel kc L vt [ps] [h_r h * (in_l c / cm (little_h c))] [center] (Ret ([e], [m])) /\
    (exists e', nth_error rows k = Some e' /\
      match e, e' with Some l, Some l' => Forall2 (reported (cm (little_h c) / out_l c)) l l' | None, None => True | _, _ => False end) /\
    (exists x, nth_error centers k = Some x /\ [x] = map (vscale (cm (little_h c) / out_l c)) (recentreObject [center] L)) /\
    nth_error ms k = Some (total (fun i => nth i mass 0) (seq off (central h)) * in_m c / out_m c).
Proof.
  intros mfuel choose eig fuel kc vt c0 c xyz vels mass box hs rest minp kind d s zs rows cents ms Hu0 Hu Hs Hc Hv Hm Hd Ho Ha H.
  pose proof (consistent_fits xyz mass box hs minp kind Hc Hm) as Hf.
  set (a := same_arrays xyz mass box hs minp kind) in *. set (w := map (vscale (in_v c / 10 ^ 5)) vels).
  assert (RR : forall d' w', reread c (written xyz mass box hs rest) vels minp d (inl (d', w')) -> d' = built c a /\ w' = w).
  { intros d' w' R. apply (reread_ok c0 c xyz mass box hs rest minp kind d vels _ Hu0 Hu Hs Hc Hm Hd) in R. fold a in R. fold w in R. injection R as -> ->. split; reflexivity. }
  assert (Hh : little_h c <> 0) by apply Hu.
  assert (El : length (listed a) = length (objects minp hs)) by (unfold a; rewrite listed_same, map_length by auto; reflexivity).
  inversion H as [| | | | | |d' w' sub sz r tab cs fl fm R1 E1 E2 Hmc E3 E4]; subst. clear H.
  destruct (RR _ _ R1) as (-> & ->). clear R1.
  assert (Hg : good_selection zs (length (listed a))).
  { destruct (valid_numbers zs (length (listed a))) eqn:V; [apply valid_good; exact V|]. exfalso.
    assert (N : ~ good_selection zs (length (listed a))) by (intros G; apply valid_good in G; congruence).
    pose proof (chosen_bad c a s zs Ha N) as E. congruence. }
  rewrite <- El. split; auto. pose proof (chosen_ok c a s zs Ha Hg) as E. cbv zeta in E.
  rewrite E in E1. injection E1 as <- <- <-. rewrite (to_out_ok (little_h c)) in E3 by auto. injection E3 as <- <-.
  rewrite parts_concat in Hmc. change (d_kind (built c a)) with kind in Hmc. change (d_box (built c a)) with (box * (in_l c / cm (little_h c))) in Hmc.
  set (p := picked a (map Z.to_nat zs)) in *. set (f := in_l c / cm (little_h c)) in *.
  inversion Hmc as [centers rr HF HC]; subst. clear Hmc. apply Forall2_seq_nth in HF. destruct HF as (Lc & HF).
  assert (Lp : length p = length zs) by (unfold p, picked; rewrite !map_length; auto).
  assert (Hz : (0 < length zs)%nat) by (destruct Hg as (Hz & _); destruct zs; [congruence|cbn; lia]).
  assert (Ln : length (fst tab) = length zs /\ length (snd tab) = length zs).
  { destruct p as [|ox p'] eqn:Ep; [cbn in Lp; lia|].
    destruct (driver_ret _ _ _ _ _ _ _ _ _ HC 0%nat (vparticles (built c a) w (fst ox)) eq_refl) as (_ & _ & _ & X & Y). rewrite X, Y, !map_length. auto. }
  rewrite !map_length in Lc. unfold recentreObject. rewrite !map_length.
  split; [apply Ln|]. split; [lia|]. split; [apply Ln|].
  intros k z Hk. destruct (picked_nth a zs k z Hg Hk) as (o & x & H1 & H2). fold p in H2.
  destruct (entry_object _ _ _ _ _ _ _ _ _ Hm H1) as (off & h & H3 & Eo & Ex).
  assert (Hps : vparticles (built c a) w o = vstretch c xyz vels mass off (central h)).
  { unfold w. rewrite (vparticles_inner c a vels); [rewrite Eo; reflexivity| |apply Hf|exact Hv].
    intros i Hi. destruct Hf as (_ & _ & _ & _ & Hf). apply (Hf o i); auto. apply nth_error_In in H1. eapply listed_in; eauto. }
  assert (Hob : nth_error (map (vparticles (built c a) w) (map fst p)) k = Some (vstretch c xyz vels mass off (central h))) by (rewrite !nth_error_map, H2; cbn [option_map fst]; rewrite Hps; reflexivity).
  destruct (HF k _ Hob) as (center & Hce & Hs'). cbn [fst snd] in Hs'.
  destruct (runs_exist eig fuel kc (box * f) vt [vstretch c xyz vels mass off (central h)] [h_r h * f] [center]) as (r1 & Hr1).
  assert (Nr : nth k (map (fun or => snd or * f) p) 0 = h_r h * f).
  { apply nth_error_nth. rewrite nth_error_map, H2. cbn [option_map snd]. rewrite Ex. reflexivity. }
  assert (Nc : nth k centers v0 = center) by (apply nth_error_nth; auto).
  destruct (C35_own _ _ _ _ _ _ _ _ _ k _ r1 HC Hob) as (e & m & -> & He & Hme).
  { rewrite Nr, Nc. exact Hr1. }
  exists off, h, center, e, m. split; auto. cbv zeta. split; auto. split; auto. split; [|split].
  - eexists. rewrite nth_error_map, He. split; [reflexivity|]. destruct e as [l|]; cbn [option_map]; [|exact Logic.I].
    clear. induction l as [|mi l IH]; cbn [map]; constructor; [apply to_row_ok|exact IH].
  - eexists. rewrite !nth_error_map, Hce. split; reflexivity.
  - rewrite nth_error_map, Hme. cbn [option_map]. f_equal.
    destruct (driver_ret _ _ _ _ _ _ _ _ _ Hr1 0%nat _ eq_refl) as (_ & _ & Hmt & _). cbn [snd nth] in Hmt. rewrite Hmt.
    unfold vstretch. rewrite total_map. cbn [snd].
    rewrite (total_ext _ (fun i => (in_m c / gr (little_h c)) * nth i mass 0)) by (intros; ring). rewrite total_scale.
    pose proof (gr_nz _ Hh). destruct Ho as (_ & _ & Hom). field. auto.
Qed.
Print Assumptions C129_objects.

(** ** What the answers depend on *)
(** Two sets of particles with the same positions and masses and the same shape. *)
Definition alike (vt : variant) (o o' : list vptc) : Prop :=
  map pm o' = map pm o /\ forall eig fuel c L r cen, obj_shape eig fuel c L vt o' r cen = obj_shape eig fuel c L vt o r cen.
Lemma alike_total vt o o' : alike vt o o' -> total snd o' = total snd o.
Proof. intros (H & _). pose proof (f_equal (total snd) H) as E. rewrite !total_map in E. exact E. Qed.
Lemma call_alike mfuel kind choose eig fuel kc L vt objs objs' r x : Forall2 (alike vt) objs objs' ->
  morph_call mfuel kind choose eig fuel kc L vt objs r x -> morph_call mfuel kind choose eig fuel kc L vt objs' r x.
Proof.
  intros HA H. inversion H as [cen r0 HF HM E0]; subst. clear H.
  assert (EL : length objs' = length objs) by (symmetry; eapply Forall2_length; eauto).
  constructor.
  - rewrite EL. clear HM EL. revert cen HF. generalize 0%nat as n. induction HA as [|o o' objs objs' Ho HA IH]; intros n cen HF; cbn [length seq combine] in *; [exact HF|].
    inversion HF as [|? y ? ys Hp Hr]; subst. constructor; [|apply IH; auto]. cbn [fst snd] in *. rewrite <- Hp. unfold shape_center. destruct Ho as (E & _). rewrite E. reflexivity.
  - destruct (runs_exist eig fuel kc L vt objs' r cen) as (r1 & H1). replace r0 with r1; [exact H1|].
    apply driver_result in HM. apply driver_result in H1. cbv zeta in HM, H1. rewrite EL in H1.
    assert (G : forall p, In p (seq 0 (length objs)) -> alike vt (nth p objs []) (nth p objs' [])).
    { intros p Hp. apply in_seq in Hp. clear - HA Hp. revert p Hp. induction HA as [|o o' objs objs' Ho HA IH]; intros p Hp; cbn [length] in Hp; [lia|].
      destruct p as [|p]; cbn [nth]; auto. apply IH. lia. }
    rewrite HM, H1.
    assert (X : existsb (fun p => raised (VMs (obj_shape eig fuel kc L vt (nth p objs' []) (nth p r 0) (nth p cen v0)))) (seq 0 (length objs)) =
                existsb (fun p => raised (VMs (obj_shape eig fuel kc L vt (nth p objs []) (nth p r 0) (nth p cen v0)))) (seq 0 (length objs))).
    { clear - G. induction (seq 0 (length objs)) as [|p l IH]; cbn [existsb]; [reflexivity|]. rewrite IH by (intros; apply G; right; auto).
      destruct (G p (or_introl eq_refl)) as (_ & E). rewrite E. reflexivity. }
    rewrite X. destruct existsb; [reflexivity|]. f_equal. f_equal; apply map_ext_in; intros p Hp.
    + destruct (G p Hp) as (_ & E). rewrite E. reflexivity.
    + eapply alike_total; eauto.
Qed.

Lemma in_parts sub sz o i : In o (parts sub sz) -> In i o -> In i sub.
Proof.
  unfold parts. intros H Hi. apply in_map_iff in H. destruct H as (p & <- & _). unfold slice in Hi.
  rewrite <- (firstn_skipn (nth p (offsets sz) 0%nat) sub). apply in_or_app. right.
  rewrite <- (firstn_skipn (nth (S p) (offsets sz) 0%nat - nth p (offsets sz) 0%nat) (skipn (nth p (offsets sz) 0%nat) sub)). apply in_or_app. left. exact Hi.
Qed.
Lemma call_transfer mfuel choose eig fuel kc vt c g vels vels' minp d s out :
  length vels' = length vels ->
  (forall w w' d' o, read_velocities c vels = inl w -> read_velocities c vels' = inl w' -> (forall i, In i o -> (i < length vels)%nat) ->
     alike vt (vparticles d' w o) (vparticles d' w' o)) ->
  velShapes mfuel choose eig fuel kc vt c g vels minp d s out -> velShapes mfuel choose eig fuel kc vt c g vels' minp d s out.
Proof.
  intros Hl Ht H.
  assert (Hread : forall e, reread c g vels minp d (inr e) -> reread c g vels' minp d (inr e)).
  { intros e R. inversion R as [e' R1|d' e' R1 R2|]; subst; [apply rr_fail; auto|]. eapply rr_vel; eauto.
    unfold read_velocities in *. destruct (unit_facs c) as [((? & ?) & ?)|]; [discriminate|auto]. }
  assert (Hok : forall d' w, reread c g vels minp d (inl (d', w)) -> exists w', reread c g vels' minp d (inl (d', w')) /\
     length w' = length w /\ forall o, (forall i, In i o -> (i < length w)%nat) -> alike vt (vparticles d' w o) (vparticles d' w' o)).
  { intros d' w R. inversion R as [| |d0 w0 R1 R2]; subst.
    assert (exists w', read_velocities c vels' = inl w' /\ length w' = length w /\ length w = length vels) as (w' & R3 & R4 & R5).
    { unfold read_velocities in *. destruct (unit_facs c) as [((? & ?) & ?)|]; [|discriminate]. injection R2 as <-. eexists. split; [reflexivity|]. rewrite !map_length. auto. }
    exists w'. split; [apply rr_ok; auto|]. split; auto. intros o Ho. rewrite R5 in Ho. apply Ht; auto. }
  assert (Hx : forall d' w w' sub, length w' = length w -> vexist d' w' sub = vexist d' w sub) by (intros; unfold vexist; rewrite H0; reflexivity).
  assert (HP : forall d' w w' sub sz, (forall o, (forall i, In i o -> (i < length w)%nat) -> alike vt (vparticles d' w o) (vparticles d' w' o)) -> vexist d' w sub = true ->
     Forall2 (alike vt) (map (vparticles d' w) (parts sub sz)) (map (vparticles d' w') (parts sub sz))).
  { intros d' w w' sub sz HA HE. apply andb_prop in HE. destruct HE as (_ & HE). rewrite forallb_forall in HE.
    assert (G : forall o, In o (parts sub sz) -> alike vt (vparticles d' w o) (vparticles d' w' o)).
    { intros o Ho. apply HA. intros i Hi. apply Nat.ltb_lt, HE. eapply in_parts; eauto. }
    clear - G. induction (parts sub sz) as [|o l IH]; cbn [map]; constructor; [apply G; left; auto|apply IH; intros; apply G; right; auto]. }
  inversion H as [e R|d' w e R E|d' w sub sz r R E X|d' w sub sz r p o R E X P C|d' w sub sz r cs R E X M|d' w sub sz r tab cs e R E X M T|d' w sub sz r tab cs fl fm R E X M T]; subst.
  - apply vs_read; auto.
  - destruct (Hok _ _ R) as (w' & R' & L' & A). eapply (vs_selection _ _ _ _ _ _ _ _ _ _ _ _ d' w'); auto.
  - destruct (Hok _ _ R) as (w' & R' & L' & A). eapply (vs_missing _ _ _ _ _ _ _ _ _ _ _ _ d' w' sub sz r); auto. rewrite (Hx d' w w') by auto. auto.
  - destruct (Hok _ _ R) as (w' & R' & L' & A). pose proof (HP d' w w' sub sz A X) as F.
    rewrite nth_error_map in P. destruct (nth_error (parts sub sz) p) as [idx|] eqn:Ep; [|discriminate]. cbn [option_map] in P. injection P as <-.
    eapply (vs_mode _ _ _ _ _ _ _ _ _ _ _ _ d' w' sub sz r p (vparticles d' w' idx)); [exact R'|exact E| | |].
    + rewrite (Hx d' w w') by auto. auto.
    + rewrite nth_error_map, Ep. reflexivity.
    + rewrite <- C. unfold shape_center.
      assert (EP : map pm (vparticles d' w' idx) = map pm (vparticles d' w idx)) by (unfold vparticles; rewrite !map_map; reflexivity). rewrite EP. reflexivity.
  - destruct (Hok _ _ R) as (w' & R' & L' & A). eapply (vs_raise _ _ _ _ _ _ _ _ _ _ _ _ d' w' sub sz r cs); [exact R'|exact E| |].
    + rewrite (Hx d' w w') by auto. auto.
    + eapply call_alike; [|exact M]. apply HP; auto.
  - destruct (Hok _ _ R) as (w' & R' & L' & A). eapply (vs_units _ _ _ _ _ _ _ _ _ _ _ _ d' w' sub sz r tab cs); [exact R'|exact E| | |exact T].
    + rewrite (Hx d' w w') by auto. auto.
    + eapply call_alike; [|exact M]. apply HP; auto.
  - destruct (Hok _ _ R) as (w' & R' & L' & A). eapply (vs_ok _ _ _ _ _ _ _ _ _ _ _ _ d' w' sub sz r tab cs); [exact R'|exact E| | |exact T].
    + rewrite (Hx d' w w') by auto. auto.
    + eapply call_alike; [|exact M]. apply HP; auto.
Qed.

(** A bulk velocity [u] given to all particles. *)
Definition boosted (u : vec) (l : list vec) : list vec := map (fun v => vadd v u) l.
Lemma com_boost u (l : list vec) m : length l = length m -> total (fun x => x) m <> 0 ->
  cy_calcCoM (combine (boosted u l) m) = vadd (cy_calcCoM (combine l m)) u.
Proof.
  intros Hl Hm. apply vec_ext. intros ax Hax. rewrite ax_add, !cy_com_mean by auto. unfold mean.
  assert (Em : forall l : list vec, length l = length m -> mass (combine l m) = total (fun x => x) m).
  { clear. intros l. revert m. induction l as [|x l IH]; intros [|y m] H; cbn in *; try discriminate; [reflexivity|]. f_equal. apply IH. lia. }
  rewrite !Em by (unfold boosted; rewrite ?map_length; auto).
  assert (Et : total (fun p => snd p * ax (fst p)) (combine (boosted u l) m) = total (fun p => snd p * ax (fst p)) (combine l m) + ax u * total (fun x => x) m).
  { clear Hm Em. revert m Hl. induction l as [|x l IH]; intros [|y m] H; cbn in *; try discriminate; [ring|]. rewrite IH by lia. rewrite ax_add by auto. ring. }
  rewrite Et. field. exact Hm.
Qed.
Lemma alike_boost vt u (o : list vptc) o' : map pm o' = map pm o -> map vel o' = boosted u (map vel o) -> alike vt o o'.
Proof.
  intros Hp Hv. split; auto. intros eig fuel c L r cen.
  assert (E1 : map pos o' = map pos o) by (pose proof (f_equal (map fst) Hp) as E; rewrite !map_map in E; exact E).
  assert (E2 : map snd o' = map snd o) by (pose proof (f_equal (map snd) Hp) as E; rewrite !map_map in E; exact E).
  assert (E3 : map (fun _ => v0) o' = map (fun _ => v0) o) by (pose proof (f_equal (map (fun _ => v0)) Hp) as E; rewrite !map_map in E; exact E).
  unfold obj_shape. rewrite E1, E2, E3, Hv. destruct vt; try reflexivity.
  destruct (com_raises (map snd o)) eqn:CR; [reflexivity|].
  destruct o as [|q o0].
  { cbn [map]. unfold boosted. cbn [map combine]. reflexivity. }
  set (o := q :: o0) in *.
  assert (Hm : total (fun x => x) (map snd o) <> 0).
  { intros E. unfold com_raises in CR. rewrite np_sum_total, E in CR. destruct (Req_EM_T 0 0); [|lra]. unfold o in CR. discriminate CR. }
  rewrite com_boost by (rewrite ?map_length; auto). symmetry. apply global_rel; auto; [|rewrite !map_length; reflexivity].
  unfold boosted. rewrite (map_map (fun v => vadd v u)). apply map_ext. intros p. unfold vsub, vadd. cbn [vx vy vz]. f_equal; ring.
Qed.
Lemma vel_vparticles d w o : map vel (vparticles d w o) = map (fun i => nth i w v0) o.
Proof. unfold vparticles. rewrite map_map. reflexivity. Qed.
Lemma pm_vparticles d w w' o : map pm (vparticles d w' o) = map pm (vparticles d w o).
Proof. unfold vparticles. rewrite !map_map. reflexivity. Qed.

(* A bulk motion of the whole simulation changes nothing, *)
Theorem C129_frame : forall mfuel choose eig fuel kc vt c g vels u minp d s out,
  velShapes mfuel choose eig fuel kc vt c g (boosted u vels) minp d s out <-> velShapes mfuel choose eig fuel kc vt c g vels minp d s out.
Proof.
  intros mfuel choose eig fuel kc vt c g vels u minp d s out.
  assert (G : forall u vels, velShapes mfuel choose eig fuel kc vt c g vels minp d s out -> velShapes mfuel choose eig fuel kc vt c g (boosted u vels) minp d s out).
  { clear u vels. intros u vels. apply call_transfer; [unfold boosted; rewrite map_length; reflexivity|]. intros w w' d' o R1 R2 Ho.
    unfold read_velocities in *. destruct (unit_facs c) as [((f1 & f2) & fv)|]; [|discriminate].
    apply (alike_boost vt (mkV (vx u / fv) (vy u / fv) (vz u / fv))); [apply pm_vparticles|].
    rewrite !vel_vparticles. unfold boosted. rewrite map_map. apply map_ext_in. intros i Hi. specialize (Ho i Hi).
    injection R1 as <-. injection R2 as <-. set (f := fun v => mkV (vx v / fv) (vy v / fv) (vz v / fv)).
    rewrite (nth_indep (map f vels) v0 (f v0)) by (rewrite map_length; auto). rewrite map_nth.
    unfold boosted. rewrite map_map. rewrite (nth_indep (map (fun x => f (vadd x u)) vels) v0 (f (vadd v0 u))) by (rewrite map_length; auto).
    rewrite (map_nth (fun x => f (vadd x u))). unfold f, vadd. cbn [vx vy vz]. unfold Rdiv. f_equal; ring. }
  split; [|apply G]. intros H. apply (G (vscale (-1) u)) in H.
  replace (boosted (vscale (-1) u) (boosted u vels)) with vels in H; [exact H|].
  unfold boosted. rewrite map_map. rewrite <- (map_id vels) at 1. apply map_ext. intros [x y z]. unfold vadd, vscale. cbn [vx vy vz]. f_equal; ring.
Qed.
Print Assumptions C129_frame.

(* and the local velocity shapes do not depend on the velocities at all *)
Theorem C129_local_refuted : forall mfuel choose eig fuel kc c g vels vels' minp d s out,
  length vels' = length vels ->
  getShapeCatVelLocal mfuel choose eig fuel kc c g vels minp d s out -> getShapeCatVelLocal mfuel choose eig fuel kc c g vels' minp d s out.
Proof.
  intros mfuel choose eig fuel kc c g vels vels' minp d s out Hl (x & H & ->). exists x. split; auto.
  apply (call_transfer _ _ _ _ _ _ _ _ vels); auto. intros w w' d' o _ _ _. split; [apply pm_vparticles|].
  intros. unfold obj_shape, vparticles. rewrite !map_map. reflexivity.
Qed.
Print Assumptions C129_local_refuted.

(* and never converge. *)
Theorem C129_never : forall mfuel choose eig fuel kc c0 c xyz vels mass box hs rest minp kind d s rows k l x,
  eig_contract eig -> usable_in c0 -> usable_in c -> same_lengths c0 c -> 0 < in_m c / gr (little_h c) ->
  consistent xyz mass hs -> length vels = length xyz -> (1 <= minp)%Z -> (forall m, In m mass -> 0 <= m) ->
  make_gadget c0 (written xyz mass box hs rest) minp kind (inl d) -> usable_out (little_h c) c -> (exists zs, asks s zs) ->
  getShapeCatVelLocal mfuel choose eig fuel kc c (written xyz mass box hs rest) vels minp d s (inl rows) ->
  nth_error rows k = Some (Some l) -> In x l -> w_conv x = false.
Proof.
  intros mfuel choose eig fuel kc c0 c xyz vels mass box hs rest minp kind d s rows k l x He Hu0 Hu Hs Hf Hc Hv Hm Hp Hd Ho (zs & Ha) (y & H & E) Hk Hx.
  destruct y as [((rows' & cs) & ms)|]; [|discriminate]. injection E as ->.
  destruct (C129_objects _ _ _ _ _ _ _ _ _ _ _ _ _ _ _ _ _ _ _ _ _ _ Hu0 Hu Hs Hc Hv Hm Hd Ho Ha H) as (_ & L1 & _ & _ & G).
  assert (exists z, nth_error zs k = Some z) as (z & Hz).
  { destruct (nth_error zs k) as [z|] eqn:E; [eauto|]. apply nth_error_None in E. assert (k < length rows')%nat by (apply nth_error_Some; congruence). lia. }
  destruct (G k z Hz) as (off & h & center & e & m & _ & _ & HC & (e' & E1 & E2) & _). rewrite Hk in E1. injection E1 as <-.
  destruct e as [l0|]; [|destruct E2].
  assert (exists mi, In mi l0 /\ reported (cm (little_h c) / out_l c) mi x) as (mi & Hmi & R).
  { clear - E2 Hx. induction E2 as [|a b l0 l HR E2 IH]; [destruct Hx|]. destruct Hx as [->|Hx]; [exists a; split; [left; auto|auto]|].
    destruct (IH Hx) as (mi & A & B). exists mi. split; [right; auto|auto]. }
  assert (is_conv mi = false).
  { eapply (C34_never _ _ _ _ _ _ _ _ 0%nat); [exact He|exact HC|reflexivity| |reflexivity|exact Hmi].
    intros i Hi. unfold vstretch in *. rewrite map_map. rewrite map_length in Hi.
    cbn [snd]. rewrite (nth_indep _ 0 (nth 0%nat mass 0 * (in_m c / gr (little_h c)))) by (rewrite map_length; auto).
    rewrite (map_nth (fun i => nth i mass 0 * (in_m c / gr (little_h c)))). apply Rmult_le_pos; [|lra].
    destruct (lt_dec (nth i (seq off (central h)) 0%nat) (length mass)) as [Hn|Hn]; [apply Hp, nth_In; auto|rewrite nth_overflow by lia; lra]. }
  destruct R as (_ & _ & _ & R & _). unfold is_conv in H0. destruct (w_conv x); [|reflexivity]. exfalso. apply (proj1 R eq_refl). destruct (mq mi); auto; discriminate.
Qed.
Print Assumptions C129_never.

(* getShapeCatVelGlobal never returns shapes; asked for objects that exist it raises TypeError. *)
Theorem C129_global_refuted : forall kc c0 c xyz vels mass box hs rest minp kind d s zs out,
  usable_in c0 -> usable_in c -> same_lengths c0 c -> consistent xyz mass hs -> (1 <= minp)%Z ->
  make_gadget c0 (written xyz mass box hs rest) minp kind (inl d) -> asks s zs -> good_selection zs (length (objects minp hs)) ->
  getShapeCatVelGlobal kc c (written xyz mass box hs rest) vels minp d s out <-> out = inr VType.
Proof.
  intros kc c0 c xyz vels mass box hs rest minp kind d s zs out Hu0 Hu Hs Hc Hm Hd Ha Hg.
  pose proof (fun o => reread_ok c0 c xyz mass box hs rest minp kind d vels o Hu0 Hu Hs Hc Hm Hd) as RR.
  set (a := same_arrays xyz mass box hs minp kind) in *.
  assert (El : length (listed a) = length (objects minp hs)) by (unfold a; rewrite listed_same, map_length by auto; reflexivity).
  rewrite <- El in Hg. pose proof (chosen_ok c a s zs Ha Hg) as E. cbv zeta in E.
  split.
  - intros H. inversion H as [e R|d' w e R E1|d' w x R E1]; subst.
    + apply RR in R. discriminate.
    + apply RR in R. injection R as -> ->. congruence.
    + reflexivity.
  - intros ->. eapply vg_call; [apply RR; reflexivity|exact E].
Qed.
Print Assumptions C129_global_refuted.

(** ** Example *)
(* Six particles with velocities along their positions, 1, 2 and 3 km/s on three axes, in kpc and kg-like
   output units: the dump has q = 2/3; the local call raises, the global one too. *)
Definition point6 : list vec := [v0; v0; v0; v0; v0; v0].
Lemma stretch_e xyz vels : length xyz = 6%nat -> length vels = 6%nat -> vstretch cfg_e xyz vels ones6 0 6 = object xyz vels ones6.
Proof.
  intros Hx Hv. destruct xyz as [|? [|? [|? [|? [|? [|? [|? ?]]]]]]]; try discriminate. destruct vels as [|? [|? [|? [|? [|? [|? [|? ?]]]]]]]; try discriminate.
  unfold vstretch. pose proof MPC_pos as Pm. pose proof MSUN10_pos as Ps. pose proof p5 as P5.
  replace (in_l cfg_e / cm (little_h cfg_e)) with 1 by (unfold cm; cbn; field; lra).
  replace (in_m cfg_e / gr (little_h cfg_e)) with 1 by (unfold gr; cbn; field; lra).
  replace (in_v cfg_e / 10 ^ 5) with 1 by (unfold cfg_e; cbn [in_v]; field; auto).
  assert (V : forall v, vscale 1 v = v) by (intros [x y z]; unfold vscale; cbn [vx vy vz]; f_equal; ring).
  cbn [seq map nth ones6 object combine]. rewrite !V, !Rmult_1_r. reflexivity.
Qed.
Example C129_example :
  usable_in cfg_e /\ same_lengths cfg_e cfg_e /\ 0 < in_m cfg_e / gr (little_h cfg_e) /\ consistent cloud6 ones6 groups_e /\
  length cloud6 = length cloud6 /\ usable_out (little_h cfg_e) cfg_e /\ asks (SelList [0%Q]) [0%Z] /\ good_selection [0%Z] (length (objects 2 groups_e)) /\
  (forall m, In m ones6 -> 0 <= m) /\ eig_contract exact_eig /\
  exists d, make_gadget cfg_e (written cloud6 ones6 0 groups_e [3]%nat) 2 CCom (inl d) /\
  (exists w cs ms, dumpShapeVelCatGlobal 1 (fun _ => seq 0 6) exact_eig 100 cfg1 cfg_e (written cloud6 ones6 0 groups_e [3]%nat) cloud6 2 d (SelList [0%Q]) (inl ([Some [w]], cs, ms)) /\
     w_q w = Fin (2/3) /\ w_conv w = true) /\
  getShapeCatVelGlobal cfg1 cfg_e (written cloud6 ones6 0 groups_e [3]%nat) cloud6 2 d (SelList [0%Q]) (inr VType) /\
  getShapeCatVelLocal 1 (fun _ => seq 0 6) exact_eig 100 cfg1 cfg_e (written cloud6 ones6 0 groups_e [3]%nat) cloud6 2 d (SelList [0%Q]) (inr (VErr EZeroDivision)).
Proof.
  destruct C128_example as (Hu & Hc & Ho & Hout & Ha & _ & _ & d & Hd & _).
  assert (Hl : same_lengths cfg_e cfg_e) by (split; reflexivity).
  assert (Hm : 0 < in_m cfg_e / gr (little_h cfg_e)).
  { pose proof MSUN10_pos. replace (in_m cfg_e / gr (little_h cfg_e)) with 1 by (unfold gr; cbn; field; lra). lra. }
  assert (Hg : good_selection [0%Z] (length (objects 2 groups_e))).
  { rewrite Ho. split; [discriminate|]. split; [repeat constructor; intros []|]. intros z [<-|[]]. cbn. lia. }
  split; [exact Hu|]. split; [exact Hl|]. split; [exact Hm|]. split; [exact Hc|]. split; [reflexivity|]. split; [exact Hout|]. split; [exact Ha|]. split; [exact Hg|].
  split; [intros m Hi; cbn in Hi; intuition lra|]. split; [exact exact_eig_contract|]. exists d. split; [exact Hd|].
  assert (RR := proj2 (reread_ok cfg_e cfg_e cloud6 ones6 0 groups_e [3]%nat 2 CCom d cloud6 _ Hu Hu Hl Hc ltac:(lia) Hd) eq_refl).
  set (a := same_arrays cloud6 ones6 0 groups_e 2 CCom) in *.
  assert (El : length (listed a) = length (objects 2 groups_e)) by (unfold a; rewrite listed_same, map_length by lia; reflexivity).
  assert (Hg' := Hg). rewrite <- El in Hg'. pose proof (chosen_ok cfg_e a (SelList [0%Q]) [0%Z] Ha Hg') as E. cbv zeta in E.
  assert (P : picked a (map Z.to_nat [0%Z]) = [(seq 0 6, 10)]) by reflexivity. rewrite P in E.
  assert (F1 : in_l cfg_e / cm (little_h cfg_e) = 1) by (unfold cm; cbn; field; pose proof MPC_pos; lra). rewrite F1 in E. cbn [map fst snd] in E. rewrite Rmult_1_r in E.
  set (w := map (vscale (in_v cfg_e / 10 ^ 5)) cloud6) in *.
  assert (X : vexist (built cfg_e a) w (concat [seq 0 6]) = true) by reflexivity.
  change [length (seq 0 6)] with (map (@length nat) [seq 0 6]) in E.
  assert (V : map (vparticles (built cfg_e a) w) (parts (concat [seq 0 6]) (map (@length nat) [seq 0 6])) = [object cloud6 cloud6 ones6]).
  { rewrite parts_concat. cbn [map]. unfold w. rewrite (vparticles_inner cfg_e a cloud6); [|intros i Hi; apply in_seq in Hi; cbn; lia|reflexivity|reflexivity].
    f_equal. exact (stretch_e cloud6 cloud6 eq_refl eq_refl). }
  assert (B0 : d_box (built cfg_e a) = 0) by (unfold built; cbn [d_box a same_arrays a_box]; ring).
  assert (C0 : shape_center 1 CCom (seq 0 6) 0 (object cloud6 cloud6 ones6) = Some v0) by exact (center_e 1 0 eq_refl).
  assert (T := to_out_ok _ _ (proj1 Hu) Hout).
  assert (MC : forall vt r, calcMorph exact_eig 100 cfg1 0 vt [object cloud6 cloud6 ones6] [10] [v0] r ->
     morph_call 1 (d_kind (built cfg_e a)) (fun _ => seq 0 6) exact_eig 100 cfg1 (d_box (built cfg_e a)) vt
       (map (vparticles (built cfg_e a) w) (parts (concat [seq 0 6]) (map (@length nat) [seq 0 6]))) [10] (r, recentreObject [v0] 0)).
  { intros vt r Hr. rewrite V, B0. constructor; [|exact Hr]. repeat constructor. exact C0. }
  destruct C34_example as ((rows & ms) & x & G1 & G2 & G3 & G4 & _). cbn [fst] in G2. subst rows.
  split; [|split].
  - exists (to_row (cm (little_h cfg_e) / out_l cfg_e) x). do 2 eexists. split.
    + exact (vs_ok _ _ _ _ _ _ _ _ _ _ _ _ _ _ _ _ _ _ _ _ _ RR E X (MC _ _ G1) T).
    + unfold to_row, is_conv. cbn [w_q w_conv]. rewrite G3. split; reflexivity.
  - apply (C129_global_refuted cfg1 cfg_e cfg_e cloud6 cloud6 ones6 0 groups_e [3]%nat 2 CCom d (SelList [0%Q]) [0%Z]); auto. lia.
  - eexists. split; [exact (vs_raise _ _ _ _ _ _ _ _ _ _ _ _ _ _ _ _ _ _ RR E X (MC _ _ G4))|reflexivity].
Qed.
(* Six particles at one point have local shapes, none of them converged. *)
Example C129_never_example : consistent point6 ones6 groups_e /\ exists d rows x,
  make_gadget cfg_e (written point6 ones6 0 groups_e [3]%nat) 2 CCom (inl d) /\
  getShapeCatVelLocal 1 (fun _ => seq 0 6) exact_eig 100 cfg1 cfg_e (written point6 ones6 0 groups_e [3]%nat) cloud6 2 d (SelList [0%Q]) (inl rows) /\
  nth_error rows 0 = Some (Some [x]).
Proof.
  destruct C129_example as (Hu & Hl & _ & (Hc1 & Hc2 & Hc3 & Hc4) & _ & Hout & Ha & Hg & _).
  assert (Hc : consistent point6 ones6 groups_e) by (repeat split; auto; discriminate).
  split; [exact Hc|]. set (a := same_arrays point6 ones6 0 groups_e 2 CCom).
  assert (Hd : make_gadget cfg_e (written point6 ones6 0 groups_e [3]%nat) 2 CCom (inl (built cfg_e a))).
  { apply C128_same; [exact Hu|discriminate|reflexivity|lia|]. rewrite make_shaped; [reflexivity|apply Hu|apply shaped_same; [discriminate|reflexivity]]. }
  assert (RR := proj2 (reread_ok cfg_e cfg_e point6 ones6 0 groups_e [3]%nat 2 CCom _ cloud6 _ Hu Hu Hl Hc ltac:(lia) Hd) eq_refl). fold a in RR.
  assert (El : length (listed a) = length (objects 2 groups_e)) by (unfold a; rewrite listed_same, map_length by lia; reflexivity).
  assert (Hg' := Hg). rewrite <- El in Hg'. pose proof (chosen_ok cfg_e a (SelList [0%Q]) [0%Z] Ha Hg') as E. cbv zeta in E.
  assert (P : picked a (map Z.to_nat [0%Z]) = [(seq 0 6, 10)]) by reflexivity. rewrite P in E.
  assert (F1 : in_l cfg_e / cm (little_h cfg_e) = 1) by (unfold cm; cbn; field; pose proof MPC_pos; lra). rewrite F1 in E. cbn [map fst snd] in E. rewrite Rmult_1_r in E.
  set (w := map (vscale (in_v cfg_e / 10 ^ 5)) cloud6) in *.
  assert (X : vexist (built cfg_e a) w (concat [seq 0 6]) = true) by reflexivity.
  change [length (seq 0 6)] with (map (@length nat) [seq 0 6]) in E.
  assert (V : map (vparticles (built cfg_e a) w) (parts (concat [seq 0 6]) (map (@length nat) [seq 0 6])) = [object point6 cloud6 ones6]).
  { rewrite parts_concat. cbn [map]. unfold w. rewrite (vparticles_inner cfg_e a cloud6); [|intros i Hi; apply in_seq in Hi; cbn; lia|reflexivity|reflexivity].
    f_equal. exact (stretch_e point6 cloud6 eq_refl eq_refl). }
  assert (B0 : d_box (built cfg_e a) = 0) by (unfold built; cbn [d_box a same_arrays a_box]; ring).
  assert (T := to_out_ok _ _ (proj1 Hu) Hout).
  assert (exists cen, shape_center 1 CCom (seq 0 6) 0 (object point6 cloud6 ones6) = Some cen) as (cen & C0) by (eexists; reflexivity).
  destruct (runs_exist exact_eig 100 cfg1 0 LocalVel [object point6 cloud6 ones6] [10] [cen]) as (r & Hr).
  assert (G := driver_result _ _ _ _ _ _ _ _ _ Hr). cbn [length seq map nth existsb] in G.
  assert (O : obj_shape exact_eig 100 cfg1 0 LocalVel (object point6 cloud6 ones6) 10 cen = Some (Ret [zeros])).
  { unfold obj_shape. change (map snd (object point6 cloud6 ones6)) with [1;1;1;1;1;1].
    assert (C : com_raises [1;1;1;1;1;1] = false) by (unfold com_raises; cbn; unfold np_sum; cbn; destruct Req_EM_T; [lra|reflexivity]).
    rewrite C. change (map pos (object point6 cloud6 ones6)) with point6. rewrite pbc_off. unfold calcObjMorphLocal.
    destruct Req_EM_T as [_|N]; [reflexivity|]. exfalso. apply N. rewrite spread_total. cbn [point6 length total vx vy vz v0].
    replace (0 - _) with 0 by (cbn; lra). rewrite Rmult_0_l, !Rplus_0_l, sqrt_0. lra. }
  rewrite O in G. cbn [raised orb entry] in G. subst r.
  exists (built cfg_e a). do 2 eexists. split; [exact Hd|]. split.
  - eexists. split; [refine (vs_ok _ _ _ _ _ _ _ _ _ _ _ _ _ _ _ _ _ _ _ _ _ RR E X _ T); rewrite V, B0; constructor; [|exact Hr]; repeat constructor; exact C0|]. reflexivity.
  - reflexivity.
Qed.
