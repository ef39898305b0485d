(** C128: a Gadget object answers like an object made from the numbers in its files. *)
From Coq Require Import List Reals ZArith QArith Lra Lia Bool.
From Verif Require Import ListUtil XR ConfigModel ConfigUnits CatModel CatSpec CatProofs CatProps CatMpi GeoModel GeoSpec GeoProofs ShapeModel ShapeSpec Spectral ShapeExamples ShapePar ShapeProps ShapeMoveModel
  DensModel DensSpec DensProofs DensEll DensProps FitModel FitProps FitErr GadObjModel EndModel EndProps GadCallModel.
Import ListNotations.
Local Open Scope R_scope.

(** ** Vocabulary *)
(** A snapshot with a catalogue written group by group; subhalos of no group may follow. *)
Definition written (xyz : list vec) (mass : list R) (box : R) (hs : list (halo R)) (rest : list nat) : gfiles :=
  mkFiles xyz mass box (map (fun h => length (h_subs h)) hs) (concat (map h_subs hs) ++ rest) (map h_fof hs) (map h_r hs).
(** Each group occupies a stretch of the particles; the central subhalo comes first. *)
Definition members (hs : list (halo R)) : list (list nat) := map (fun oh => seq (fst oh) (central (snd oh))) (with_start 0 hs).
(** The arguments of DensShapeProfs with the same content: the central subhalo of every group with the
    radius of the group. *)
Definition same_arrays (xyz : list vec) (mass : list R) (box : R) (hs : list (halo R)) (minp : Z) (kind : center_kind) : args :=
  mkArgs xyz mass (Nested (members hs)) (map h_r hs) box minp kind.
Definition usable_in (c : config) : Prop := little_h c <> 0 /\ in_l c <> 0 /\ in_m c <> 0 /\ in_v c <> 0.
(** The groups that become objects, in order, with their first particle. *)
Definition objects (minp : Z) (hs : list (halo R)) : list (nat * halo R) := filter (fun oh => keep minp (snd oh)) (with_start 0 hs).

(** ** The catalogue *)
Lemma with_start_length {A} (hs : list (halo A)) off : length (with_start off hs) = length hs.
Proof. revert off. induction hs as [|h hs IH]; intros off; [reflexivity|]. cbn [with_start length]. rewrite IH. reflexivity. Qed.
Lemma large_objects minp hs : (1 <= minp)%Z ->
  large minp (members hs) (map h_r hs) = map (fun oh => (seq (fst oh) (central (snd oh)), h_r (snd oh))) (objects minp hs).
Proof.
  intros Hm. unfold large, members, objects. generalize 0%nat as off. induction hs as [|h hs IH]; intros off; [reflexivity|].
  cbn [with_start map combine filter fst snd]. rewrite seq_length, IH.
  assert (E : (minp <=? Z.of_nat (central h))%Z = keep minp h).
  { unfold central, keep. destruct (h_subs h); [|reflexivity]. cbn [hd]. apply Z.leb_gt. cbn. lia. }
  rewrite E. destruct (keep minp h); reflexivity.
Qed.
Definition scaled (f : R) (h : halo R) : halo R := mkHalo (h_subs h) (h_fof h) (h_r h * f).
Lemma objects_scaled f minp hs : objects minp (map (scaled f) hs) = map (fun oh => (fst oh, scaled f (snd oh))) (objects minp hs).
Proof.
  unfold objects. generalize 0%nat as off. induction hs as [|h hs IH]; intros off; [reflexivity|].
  cbn [with_start map filter snd]. change (h_fof (scaled f h)) with (h_fof h). change (keep minp (scaled f h)) with (keep minp h).
  rewrite IH. destruct (keep minp h); reflexivity.
Qed.

Lemma factors_ok c : usable_in c -> factors c = inl (in_l c / cm (little_h c), cm (little_h c) / in_l c, gr (little_h c) / in_m c).
Proof.
  intros (Hh & Hl & Hm & Hv). unfold factors, unit_facs. rewrite internal_cm by auto. rewrite !pydiv_ok by (auto using cm_nz). reflexivity.
Qed.

Lemma listed_same xyz mass box hs minp kind : (1 <= minp)%Z ->
  listed (same_arrays xyz mass box hs minp kind) = map (fun oh => (seq (fst oh) (central (snd oh)), h_r (snd oh))) (objects minp hs).
Proof. intros Hm. unfold listed, same_arrays. cbn [a_minp a_idx a_r200 objects_of]. apply large_objects; auto. Qed.

Lemma shaped_same xyz mass box hs minp kind : hs <> [] -> length xyz = length mass -> shaped (same_arrays xyz mass box hs minp kind).
Proof.
  intros Hn Hl. unfold shaped, same_arrays, members. cbn [a_xyz a_masses a_idx a_r200 objects_of]. rewrite !map_length, with_start_length.
  repeat split; auto. intros E. apply map_eq_nil in E. apply (f_equal (@length _)) in E. rewrite with_start_length in E. destruct hs; [congruence|discriminate].
Qed.

(* The constructor, under any schedule of its threads, builds what DensShapeProfs builds from the arrays. *)
Theorem C128_same : forall c xyz mass box hs rest minp kind out,
  usable_in c -> hs <> [] -> length xyz = length mass -> (1 <= minp)%Z ->
  make_gadget c (written xyz mass box hs rest) minp kind out <-> out = make c (same_arrays xyz mass box hs minp kind).
Proof.
  intros c xyz mass box hs rest minp kind out Hu Hn Hl Hm. destruct Hu as (Hh & Hil & Him & Hiv).
  assert (Hf := factors_ok c (conj Hh (conj Hil (conj Him Hiv)))).
  rewrite make_shaped by auto using shaped_same. set (f := in_l c / cm (little_h c)) in *.
  assert (Nn : f_nsubs (written xyz mass box hs rest) <> []) by (unfold written; cbn [f_nsubs]; destruct hs; [congruence|discriminate]).
  assert (Cat : forall o, calcObjCat R 0 (f_nsubs (written xyz mass box hs rest)) (f_sublen (written xyz mass box hs rest)) (f_len (written xyz mass box hs rest))
                  (map (fun x => x * f) (f_rad (written xyz mass box hs rest))) minp o <-> o = Some (wanted minp (map (scaled f) hs))).
  { intros o. pose proof (C19_catalogue R 0 (map (scaled f) hs) rest minp o) as E. rewrite !map_map in E. unfold scaled in E at 1 2 3 4.
    cbn [h_subs h_fof h_r] in E. unfold written. cbn [f_nsubs f_sublen f_len f_rad]. rewrite map_map.
    destruct hs; [congruence|]. exact E. }
  assert (B : forall cat r sizes, wanted minp (map (scaled f) hs) = (cat, r, sizes) ->
     mkDirect (map (fun v => mkV (vx v / (cm (little_h c) / in_l c)) (vy v / (cm (little_h c) / in_l c)) (vz v / (cm (little_h c) / in_l c))) xyz)
       (map (fun x => x / (gr (little_h c) / in_m c)) mass) cat r sizes (box * f) kind = built c (same_arrays xyz mass box hs minp kind)).
  { intros cat r sizes E. unfold wanted in E. cbv zeta in E. fold (objects minp (map (scaled f) hs)) in E. rewrite objects_scaled in E.
    assert (Ec : cat = flat_map (fun oh => seq (fst oh) (central (snd oh))) (map (fun oh => (fst oh, scaled f (snd oh))) (objects minp hs))) by congruence.
    assert (Er : r = map (fun oh => h_r (snd oh)) (map (fun oh => (fst oh, scaled f (snd oh))) (objects minp hs))) by congruence.
    assert (Es : sizes = map (fun oh => central (snd oh)) (map (fun oh => (fst oh, scaled f (snd oh))) (objects minp hs))) by congruence.
    subst cat r sizes. unfold built. rewrite listed_same by auto. unfold same_arrays. cbn [a_xyz a_masses a_box a_kind]. fold f. cbv zeta.
    pose proof (cm_nz _ Hh) as Cn. pose proof (gr_nz _ Hh) as Gn. f_equal.
    - apply map_ext. intros v. unfold vscale, f. f_equal; field; auto.
    - apply map_ext. intros x. field; auto.
    - rewrite flat_map_concat_map, !map_map. reflexivity.
    - rewrite !map_map. reflexivity.
    - rewrite !map_map. apply map_ext. intros oh. cbn [fst snd]. rewrite seq_length. reflexivity. }
  split.
  - intros H. inversion H as [e E|x E1 E2|f' fl fm cat r sizes E1 E2 E3]; subst; try congruence.
    rewrite Hf in E1. assert (f' = f) by congruence. assert (fl = cm (little_h c) / in_l c) by congruence. assert (fm = gr (little_h c) / in_m c) by congruence.
    subst f' fl fm. apply Cat in E3. f_equal. apply B. congruence.
  - intros ->. assert (exists cat r sizes, wanted minp (map (scaled f) hs) = (cat, r, sizes)) as (cat & r & sizes & W) by (do 3 eexists; reflexivity). rewrite <- (B cat r sizes W). eapply mg_ok; eauto.
    apply Cat. congruence.
Qed.
Print Assumptions C128_same.

(* Without groups, or with units that cannot be divided by, there is no object. *)
Theorem C128_refused : forall c xyz mass box hs rest minp kind out,
  (usable_in c -> hs = [] -> (make_gadget c (written xyz mass box hs rest) minp kind out <-> out = inr EValue)) /\
  (~ usable_in c -> (make_gadget c (written xyz mass box hs rest) minp kind out <-> out = inr EZeroDivision)).
Proof.
  intros c xyz mass box hs rest minp kind out. split.
  - intros Hu ->. pose proof (factors_ok c Hu) as Hf. split.
    + intros H. inversion H; subst; try congruence. exfalso. auto.
    + intros ->. eapply mg_empty; eauto.
  - intros Hu. assert (Hf : factors c = inr EZeroDivision).
    { unfold factors, unit_facs. unfold usable_in in Hu. destruct (Req_EM_T (little_h c) 0) as [Z|Hh].
      - assert (exists e, internal c = inr e) as (e & ->); [|reflexivity]. unfold internal, admissible, pydiv.
        destruct (Req_EM_T (little_h c) 0); [eauto|congruence].
      - rewrite internal_cm by auto. rewrite (pydiv_ok (in_l c)) by (auto using cm_nz). unfold pydiv.
        destruct (Req_EM_T (in_l c) 0); [reflexivity|]. destruct (Req_EM_T (in_m c) 0); [reflexivity|]. destruct (Req_EM_T (in_v c) 0); [reflexivity|].
        exfalso. auto. }
    split.
    + intros H. inversion H; subst; congruence.
    + intros ->. apply mg_units. auto.
Qed.
Print Assumptions C128_refused.

(** ** What the methods return *)
(** A catalogue that belongs to the snapshot: subhalos lie in their groups, groups in the snapshot. *)
Definition consistent (xyz : list vec) (mass : list R) (hs : list (halo R)) : Prop :=
  length xyz = length mass /\ hs <> [] /\ (forall h, In h hs -> (list_sum (h_subs h) <= h_fof h)%nat) /\ (list_sum (map h_fof hs) <= length xyz)%nat.
Lemma consistent_fits xyz mass box hs minp kind : consistent xyz mass hs -> (1 <= minp)%Z -> fits (same_arrays xyz mass box hs minp kind).
Proof.
  intros (Hl & Hn & Hs & Ht) Hm. destruct (shaped_same xyz mass box hs minp kind Hn Hl) as (S1 & S2 & S3).
  split; [|split; [|split; [|split]]]; auto. unfold same_arrays, members. cbn [a_idx a_xyz objects_of].
  intros o i Ho Hi. apply in_map_iff in Ho. destruct Ho as ((off & h) & <- & Ho). cbn [fst snd] in Hi. apply in_seq in Hi.
  assert (G : forall off0 hs, (forall h, In h hs -> (list_sum (h_subs h) <= h_fof h)%nat) -> In (off, h) (with_start off0 hs) -> (off + h_fof h <= off0 + list_sum (map h_fof hs))%nat /\ (list_sum (h_subs h) <= h_fof h)%nat).
  { clear. intros off0 hs. revert off0. induction hs as [|h0 hs IH]; intros off0 Hs H; [destruct H|]. cbn [with_start] in H. cbn [map list_sum fold_right].
    destruct H as [H|H].
    - injection H as -> ->. split; [|apply Hs; left; auto]. lia.
    - apply IH in H; [|intros; apply Hs; right; auto]. unfold list_sum in H |- *. cbn [map fold_right]. lia. }
  apply G in Ho; auto. unfold central in Hi. destruct (h_subs h) as [|s0 subs]; cbn [hd] in Hi; [lia|].
  unfold list_sum in *. cbn [fold_right] in Ho. lia.
Qed.
Lemma entry_object xyz mass box hs minp kind n o x : (1 <= minp)%Z -> nth_error (listed (same_arrays xyz mass box hs minp kind)) n = Some (o, x) ->
  exists off h, nth_error (objects minp hs) n = Some (off, h) /\ o = seq off (central h) /\ x = h_r h.
Proof.
  intros Hm H. rewrite listed_same, nth_error_map in H by auto. destruct (nth_error (objects minp hs) n) as [(off & h)|] eqn:E; [|discriminate].
  cbn [option_map fst snd] in H. exists off, h. split; auto. split; congruence.
Qed.
(** Positions and masses of particles [off .. off+n-1] of the snapshot in internal units. *)
Definition stretch (c : config) (xyz : list vec) (mass : list R) (off n : nat) : list vptc :=
  map (fun i => (vscale (in_l c / cm (little_h c)) (nth i xyz v0), v0, nth i mass 0 * (in_m c / gr (little_h c)))) (seq off n).

Theorem C128_shapes : forall mfuel choose eig fuel kc vt c xyz mass box hs rest minp kind d c' s zs tab,
  usable_in c -> consistent xyz mass hs -> (1 <= minp)%Z ->
  make_gadget c (written xyz mass box hs rest) minp kind (inl d) -> usable_out (little_h c) c' -> asks s zs ->
  getShapeCat mfuel choose eig fuel kc vt c' d s (inl tab) ->
  good_selection zs (length (objects minp hs)) /\ length tab = length zs /\
  forall k z, nth_error zs k = Some z -> exists off h center e m,
    nth_error (objects minp hs) (Z.to_nat z) = Some (off, h) /\
    let L := box * (in_l c / cm (little_h c)) in let ps := stretch c xyz mass off (central h) in
    shape_center mfuel kind (choose k) L ps = Some center /\
    calcMorph eig fuel kc L vt [ps] [h_r h * (in_l c / cm (little_h c))] [center] (Ret ([e], [m])) /\
    exists e', nth_error tab k = Some e' /\
      match e, e' with Some l, Some l' => Forall2 (reported (cm (little_h c) / out_l c')) l l' | None, None => True | _, _ => False end.
Proof.
  intros mfuel choose eig fuel kc vt c xyz mass box hs rest minp kind d c' s zs tab Hu Hc Hm Hd Ho Ha H.
  pose proof (consistent_fits xyz mass box hs minp kind Hc Hm) as Hf. destruct Hc as (Hl & Hn & _).
  apply C128_same in Hd; auto. symmetry in Hd. destruct Hu as (Hh & _).
  destruct (C123_shapes mfuel choose eig fuel kc vt c _ d c' s zs tab Hh Hf Hd Ho Ha H) as (G1 & G2 & G3).
  rewrite listed_same, map_length in G1 by auto. split; auto. split; auto. intros k z Hk.
  destruct (G3 k z Hk) as (o & x & center & e & m & E1 & E2 & E3 & E4). apply entry_object in E1; auto. destruct E1 as (off & h & E1 & -> & ->).
  exists off, h, center, e, m. split; [exact E1|]. split; [exact E2|]. split; [exact E3|exact E4].
Qed.
Print Assumptions C128_shapes.

Theorem C128_masses_centers : forall mfuel choose c xyz mass box hs rest minp kind d c' s zs tab,
  usable_in c -> consistent xyz mass hs -> (1 <= minp)%Z ->
  make_gadget c (written xyz mass box hs rest) minp kind (inl d) -> usable_out (little_h c) c' -> asks s zs ->
  getMassesCenters mfuel choose c' d s (inl tab) ->
  good_selection zs (length (objects minp hs)) /\ length tab = length zs /\
  forall k z, nth_error zs k = Some z -> exists off h center row,
    nth_error (objects minp hs) (Z.to_nat z) = Some (off, h) /\ nth_error tab k = Some row /\
    snd row = total (fun i => nth i mass 0) (seq off (central h)) * in_m c / out_m c' /\
    let L := box * (in_l c / cm (little_h c)) in
    center_of mfuel kind (choose k) 1000 L (map pm (stretch c xyz mass off (central h))) = Some center /\
    [fst row] = map (vscale (cm (little_h c) / out_l c')) (recentreObject [center] L).
Proof.
  intros mfuel choose c xyz mass box hs rest minp kind d c' s zs tab Hu Hc Hm Hd Ho Ha H.
  pose proof (consistent_fits xyz mass box hs minp kind Hc Hm) as Hf. destruct Hc as (Hl & Hn & _).
  apply C128_same in Hd; auto. symmetry in Hd. destruct Hu as (Hh & _).
  destruct (C123_masses_centers mfuel choose c _ d c' s zs tab Hh Hf Hd Ho Ha H) as (G1 & G2 & G3).
  rewrite listed_same, map_length in G1 by auto. split; auto. split; auto. intros k z Hk.
  destruct (G3 k z Hk) as (o & x & center & row & E1 & E2 & E3 & E4 & E5). apply entry_object in E1; auto. destruct E1 as (off & h & E1 & -> & ->).
  exists off, h, center, row. split; [exact E1|]. split; [exact E2|]. split; [exact E3|]. split; [exact E4|exact E5].
Qed.
Print Assumptions C128_masses_centers.

Theorem C128_densities : forall mfuel choose rs c xyz mass box hs rest minp kind d c' s zs tab edges,
  usable_in c -> 0 < little_h c -> 0 < in_l c -> consistent xyz mass hs -> (1 <= minp)%Z ->
  make_gadget c (written xyz mass box hs rest) minp kind (inl d) -> usable_out (little_h c) c' -> asks s zs ->
  edges_sph rs = DOk edges -> increasing edges -> (forall h, In h hs -> 0 < h_r h) ->
  estDensProfs mfuel choose rs c' d s (inl tab) ->
  good_selection zs (length (objects minp hs)) /\ length tab = length zs /\
  forall k z, nth_error zs k = Some z -> exists off h center row,
    nth_error (objects minp hs) (Z.to_nat z) = Some (off, h) /\ nth_error tab k = Some row /\ length row = length rs /\
    let f := in_l c / cm (little_h c) in let L := box * f in let ps := map pm (stretch c xyz mass off (central h)) in
    center_of mfuel kind (choose k) 1000 L ps = Some center /\
    forall i, (i < length rs)%nat ->
      let lo := nth i edges 0 * (h_r h * f) in let hi := nth (S i) edges 0 * (h_r h * f) in
      nth i row 0 * (out_m c' / out_l c' ^ 3) =
        (shell_mass center lo hi (seen L ps) * gr (little_h c)) / ((ball_volume hi - ball_volume lo) * cm (little_h c) ^ 3).
Proof.
  intros mfuel choose rs c xyz mass box hs rest minp kind d c' s zs tab edges Hu Hp Hi Hc Hm Hd Ho Ha He Hinc Hr H.
  pose proof (consistent_fits xyz mass box hs minp kind Hc Hm) as Hf. destruct Hc as (Hl & Hn & _).
  apply C128_same in Hd; auto. symmetry in Hd. destruct Hu as (Hh & _).
  assert (Hr' : forall x, In x (a_r200 (same_arrays xyz mass box hs minp kind)) -> 0 < x).
  { intros x Hx. unfold same_arrays in Hx. cbn [a_r200] in Hx. apply in_map_iff in Hx. destruct Hx as (h & <- & Hx). auto. }
  destruct (C123_densities mfuel choose rs c _ d c' s zs tab edges Hp Hi Hf Hd Ho Ha He Hinc Hr' H) as (G1 & G2 & G3).
  rewrite listed_same, map_length in G1 by auto. split; auto. split; auto. intros k z Hk.
  destruct (G3 k z Hk) as (o & x & center & row & E1 & E2 & E3 & E4 & E5). apply entry_object in E1; auto. destruct E1 as (off & h & E1 & -> & ->).
  exists off, h, center, row. split; [exact E1|]. split; [exact E2|]. split; [exact E3|]. split; [exact E4|exact E5].
Qed.
Print Assumptions C128_densities.

(* With a minimum of zero particles the two ways differ: a group without subhalo is an object without
   particles in the arrays and no object in the catalogue. *)
Theorem C128_zero_minimum_refuted : ~ (forall c xyz mass box hs rest minp kind out,
  usable_in c -> hs <> [] -> length xyz = length mass ->
  make_gadget c (written xyz mass box hs rest) minp kind out <-> out = make c (same_arrays xyz mass box hs minp kind)).
Proof.
  intros H. set (c := mkConfig MPC MSUN10 (10 ^ 5) 1 MPC MSUN10 (10 ^ 5)).
  pose proof MPC_pos as Pm. pose proof MSUN10_pos as Ps.
  assert (Hu : usable_in c) by (unfold usable_in, c; cbn [little_h in_l in_m in_v]; repeat split; try lra).
  assert (Hh : little_h c <> 0) by (apply Hu).
  specialize (H c [] [] 0 [mkHalo [] 0%nat 1] [] 0%Z CCom (make c (same_arrays [] [] 0 [mkHalo [] 0%nat 1] 0 CCom)) Hu ltac:(discriminate) eq_refl).
  destruct H as (_ & H). specialize (H eq_refl).
  rewrite make_shaped in H; [|auto|apply shaped_same; [discriminate|reflexivity]].
  assert (G : forall out d, make_gadget c (written [] [] 0 [mkHalo [] 0%nat 1] []) 0 CCom out -> out = inl d -> d_sizes d = []).
  { clear. intros out d H E. destruct H as [e E1|x E1 E2|f fl fm cat r sizes E1 E2 E3]; try discriminate.
    pose proof (C19_catalogue R 0 [mkHalo [] 0%nat (1 * f)] [] 0%Z (Some (cat, r, sizes))) as C. cbn in C, E3. apply C in E3.
    change (wanted 0 [mkHalo [] 0%nat (1 * f)]) with (@nil nat, @nil R, @nil nat) in E3.
    assert (sizes = []) by congruence. subst sizes. injection E as <-. reflexivity. }
  specialize (G _ _ H eq_refl). cbn in G. discriminate.
Qed.
Print Assumptions C128_zero_minimum_refuted.

(* Six particles in the first group; the second has none and is no object. *)
Definition groups_e : list (halo R) := [mkHalo [6]%nat 6%nat 10; mkHalo [] 0%nat 5].
Example C128_example :
  usable_in cfg_e /\ consistent cloud6 ones6 groups_e /\ objects 2 groups_e = [(0%nat, mkHalo [6]%nat 6%nat 10)] /\
  usable_out (little_h cfg_e) cfg_e /\ asks (SelList [0%Q]) [0%Z] /\
  (exists edges, edges_sph [1/10; 1] = DOk edges /\ increasing edges) /\ (forall h, In h groups_e -> 0 < h_r h) /\
  exists d, make_gadget cfg_e (written cloud6 ones6 0 groups_e [3]%nat) 2 CCom (inl d) /\
  (exists w, getShapeCat 1 (fun _ => seq 0 6) exact_eig 100 cfg1 Global cfg_e d (SelList [0%Q]) (inl [Some [w]]) /\
     w_d w = Fin 10000 /\ w_q w = Fin (2/3) /\ w_s w = Fin (1/3) /\ w_conv w = true) /\
  getMassesCenters 1 (fun _ => seq 0 6) cfg_e d (SelList [0%Q]) (inl [(v0, 6 * 10 ^ 10)]) /\
  exists tab, estDensProfs 1 (fun _ => seq 0 6) [1/10; 1] cfg_e d (SelList [0%Q]) (inl tab).
Proof.
  destruct C123_example as (_ & Hu & Ha & _ & _ & _ & _ & d & Hd & _ & R1 & R2 & R3).
  pose proof MPC_pos as Pm. pose proof MSUN10_pos as Ps. pose proof (pow_lt 10 5 ltac:(lra)) as P5.
  assert (Hi : usable_in cfg_e) by (unfold usable_in, cfg_e; cbn [little_h in_l in_m in_v]; repeat split; lra).
  assert (Hc : consistent cloud6 ones6 groups_e).
  { split; [reflexivity|]. split; [discriminate|]. split; [|cbn; lia]. intros h [<-|[<-|[]]]; cbn; lia. }
  split; [exact Hi|]. split; [exact Hc|]. split; [reflexivity|]. split; [exact Hu|]. split; [exact Ha|].
  split.
  { exists [/ 10 ^ 8; 11 / 20; 1]. split.
    - unfold edges_sph. cbn [midpoints app last]. replace ((1/10 + 1) / 2) with (11 / 20) by lra. reflexivity.
    - assert (P8 : 0 < / 10 ^ 8 < 11 / 20).
      { split; [apply Rinv_0_lt_compat, pow_lt; lra|]. apply Rmult_lt_reg_r with (10 ^ 8); [apply pow_lt; lra|]. rewrite Rinv_l by (apply pow_nonzero; lra). lra. }
      split; [cbn; lra|]. intros [|[|i]] Hi'; cbn [length nth] in *; try lra. lia. }
  split. { intros h [<-|[<-|[]]]; cbn; lra. }
  exists d. split; [|split; [exact R1|split; [exact R2|exact R3]]].
  apply C128_same; [exact Hi|discriminate|reflexivity|lia|]. rewrite <- Hd. rewrite !make_shaped.
  - unfold built. reflexivity.
  - apply Hi.
  - apply shaped_same; [discriminate|reflexivity].
  - apply Hi.
  - unfold shaped. cbn. repeat split; discriminate.
Qed.
