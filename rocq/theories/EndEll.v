(** C125: ellipsoidal density profiles, from the arrays of the user to the answer of estDensProfs. *)
From Coq Require Import List Reals ZArith QArith Lra Lia Bool.
From Verif Require Import ListUtil ParModel XR ConfigModel ConfigUnits CatModel CatSpec CatProofs CatMpi GeoModel GeoSpec GeoProofs GeoProps ShapeModel ShapeSpec ShapeProofs
  Spectral ShapeExamples ShapePar ShapeProps ShapeMoveModel DensModel DensSpec DensProofs DensEll DensProps FitModel FitProps FitErr EndModel EndProps EndKernel EndEllModel.
Import ListNotations.
Local Open Scope R_scope.

(** ** Vocabulary *)
(** Arguments with positive units, masses and a non-negative box. *)
Definition physical (c : config) (a : args) : Prop :=
  0 < little_h c /\ 0 < in_l c /\ 0 < in_m c /\ 0 <= a_box a /\ forall m, In m (a_masses a) -> 0 < m.
(** The choices drawn for the selected objects [zs] are choices of their particles. *)
Definition drawn (a : args) (zs : list Z) (choose : nat -> list nat) : Prop :=
  forall k z o x, nth_error zs k = Some z -> nth_error (listed a) (Z.to_nat z) = Some (o, x) -> valid_choice (choose k) (length o).

Lemma cm_pos h : 0 < h -> 0 < cm h.
Proof. intros H. unfold cm, MPC. apply Rdiv_lt_0_compat; [|auto]. apply Rmult_lt_0_compat; [lra|apply pow_lt; lra]. Qed.
Lemma gr_pos h : 0 < h -> 0 < gr h.
Proof. intros H. unfold gr, MSUN10. apply Rdiv_lt_0_compat; [|auto]. apply Rmult_lt_0_compat; [lra|apply pow_lt; lra]. Qed.
Lemma listed_size a o x : (1 <= a_minp a)%Z -> In (o, x) (listed a) -> o <> [].
Proof.
  intros H Hi. unfold listed, large in Hi. apply filter_In in Hi. destruct Hi as (_ & Hi). intros ->. cbn in Hi. lia.
Qed.
Lemma regular_call c a zs choose : fits a -> physical c a -> good_selection zs (length (listed a)) -> drawn a zs choose ->
  0 <= a_box a * (in_l c / cm (little_h c)) /\
  regular (d_masses (built c a)) choose (map fst (picked a (map Z.to_nat zs))).
Proof.
  intros (Hl & _ & _ & H1 & Hi) (Hh & Hin & Him & Hb & Hm) Hg Hd. pose proof (cm_pos _ Hh) as Pc. pose proof (gr_pos _ Hh) as Pg.
  split; [apply Rmult_le_pos; auto; left; apply Rdiv_lt_0_compat; auto|].
  assert (Lp : length (picked a (map Z.to_nat zs)) = length zs) by (unfold picked; rewrite !map_length; auto).
  split.
  - intros p Hp. rewrite map_length, Lp in Hp. destruct (nth_error zs p) as [z|] eqn:Ez; [|apply nth_error_None in Ez; lia].
    destruct (picked_nth a zs p z Hg Ez) as (o & x & E1 & E2).
    assert (N : nth p (map fst (picked a (map Z.to_nat zs))) [] = o) by (apply nth_error_nth; rewrite nth_error_map, E2; reflexivity).
    rewrite N. split; [eapply listed_size; eauto; eapply nth_error_In; eauto|eapply Hd; eauto].
  - intros i H. apply in_concat in H. destruct H as (o & Ho & H). apply in_map_iff in Ho. destruct Ho as ((o' & x) & <- & Hp).
    apply picked_in in Hp; auto. apply listed_in in Hp. specialize (Hi _ _ Hp H). unfold built. cbn [d_masses].
    rewrite (nth_indep _ 0 (0 * (in_m c / gr (little_h c)))) by (rewrite map_length; lia).
    rewrite (map_nth (fun x => x * (in_m c / gr (little_h c)))). apply Rmult_lt_0_compat; [apply Hm, nth_In; lia|apply Rdiv_lt_0_compat; auto].
Qed.

(** ** C125: no number is ever returned *)
(* With the centre of mass as centre, whatever the particles, shapes and radii: each answer consists of NaN only. *)
Theorem C125_nothing : forall interp mfuel choose choose' eig fuel kc rs c a d c' s zs tab,
  fits a -> physical c a -> a_kind a = CCom -> make c a = inl d -> asks s zs -> drawn a zs choose' ->
  estDensProfsEll interp mfuel choose choose' eig fuel kc rs c' d s (inl tab) ->
  good_selection zs (length (listed a)) /\ (3 <= length rs)%nat /\ tab = repeat (repeat NaN (length rs)) (length zs).
Proof.
  intros interp mfuel choose choose' eig fuel kc rs c a d c' s zs tab Hf Hp Hk Hd Ha Hc H.
  assert (Hh : little_h c <> 0) by (destruct Hp; lra). rewrite make_ok in Hd by auto. injection Hd as <-.
  destruct (good_or_value a s zs Ha) as [N|Hg].
  { pose proof (chosen_bad c a s zs Ha N) as E. inversion H; congruence. }
  split; auto. pose proof (chosen_ok c a s zs Ha Hg) as E. cbv zeta in E.
  inversion H as [| | | | | | |sub sz r l ms cs rows idx' f E1 E2 Hm H3 Hq E3 E4]; subst. clear H Hm.
  rewrite E in E1. injection E1 as <- <- <-. split; auto.
  destruct (regular_call c a zs choose' Hf Hp Hg Hc) as (HL & Hr).
  unfold built at 1 4 in Hq. cbn [d_kind d_box] in Hq. rewrite Hk in Hq.
  apply C40_nan in Hq; auto. subst rows. unfold picked. rewrite !map_length.
  assert (MR : forall {X Y} (f : X -> Y) x n, map f (repeat x n) = repeat (f x) n) by (intros X Y g y n; induction n; cbn; congruence).
  rewrite !MR. reflexivity.
Qed.
Print Assumptions C125_nothing.

(* With the mode as centre, an object with at least five particles makes the call fail. *)
Theorem C125_mode : forall interp mfuel choose choose' eig fuel kc rs c a d c' s zs z o x tab,
  fits a -> physical c a -> a_kind a = CMode -> make c a = inl d -> asks s zs -> drawn a zs choose' ->
  In z zs -> nth_error (listed a) (Z.to_nat z) = Some (o, x) -> (5 <= length o)%nat ->
  ~ estDensProfsEll interp mfuel choose choose' eig fuel kc rs c' d s (inl tab).
Proof.
  intros interp mfuel choose choose' eig fuel kc rs c a d c' s zs z o x tab Hf Hp Hk Hd Ha Hc Hz Ho H5 H.
  assert (Hh : little_h c <> 0) by (destruct Hp; lra). rewrite make_ok in Hd by auto. injection Hd as <-.
  destruct (good_or_value a s zs Ha) as [N|Hg].
  { pose proof (chosen_bad c a s zs Ha N) as E. inversion H; congruence. }
  pose proof (chosen_ok c a s zs Ha Hg) as E. cbv zeta in E.
  inversion H as [| | | | | | |sub sz r l ms cs rows idx' f E1 E2 Hm H3 Hq E3 E4]; subst. clear H Hm.
  rewrite E in E1. injection E1 as <- <- <-.
  destruct (regular_call c a zs choose' Hf Hp Hg Hc) as (HL & Hr).
  unfold built at 1 4 in Hq. cbn [d_kind d_box] in Hq. rewrite Hk in Hq.
  apply In_nth_error in Hz. destruct Hz as (p & Hz). destruct (picked_nth a zs p z Hg Hz) as (o1 & x1 & G1 & G2).
  rewrite Ho in G1. injection G1 as <- <-.
  assert (N : nth p (map fst (picked a (map Z.to_nat zs))) [] = o) by (apply nth_error_nth; rewrite nth_error_map, G2; reflexivity).
  revert Hq. apply (C40_mode _ _ _ _ _ _ _ _ _ _ _ _ p HL Hr); [|rewrite N; exact H5].
  rewrite map_length. apply nth_error_Some. congruence.
Qed.
Print Assumptions C125_mode.

(* A wrong selection raises ValueError; so do fewer than three radii, once the shapes are found. *)
Theorem C125_fails : forall interp mfuel choose choose' eig fuel kc rs c a d c' s zs,
  little_h c <> 0 -> fits a -> make c a = inl d -> asks s zs ->
  (~ good_selection zs (length (listed a)) ->
     forall out, estDensProfsEll interp mfuel choose choose' eig fuel kc rs c' d s out <-> out = inr EValue) /\
  ((length rs < 3)%nat -> forall out, estDensProfsEll interp mfuel choose choose' eig fuel kc rs c' d s out ->
     out = inr EValue \/ out = inr ERecursion \/ out = inr EZeroDivision) /\
  ((length rs < 3)%nat -> forall tab, getShapeCat mfuel choose eig fuel kc Local c' d s (inl (map Some tab)) ->
     estDensProfsEll interp mfuel choose choose' eig fuel kc rs c' d s (inr EValue)).
Proof.
  intros interp mfuel choose choose' eig fuel kc rs c a d c' s zs Hh Hf Hd Ha. rewrite make_ok in Hd by auto. injection Hd as <-.
  split; [|split].
  - intros N out. pose proof (chosen_bad c a s zs Ha N) as E. split; [|intros ->; constructor; auto].
    intros H. inversion H; subst; congruence.
  - intros H3 out H. destruct (good_or_value a s zs Ha) as [N|Hg].
    { pose proof (chosen_bad c a s zs Ha N) as E. inversion H; subst; try congruence. left. congruence. }
    pose proof (chosen_ok c a s zs Ha Hg) as E. cbv zeta in E. pose proof (exist_ok c a zs Hf Hg) as X.
    inversion H; subst; auto; try lia; try congruence.
    all: match goal with E1 : chosen _ _ = inl _ |- _ => rewrite E in E1; injection E1 as <- <- <- end; congruence.
  - intros H3 tab H. inversion H as [| | | | |sub sz r tb cs fl fm E1 E2 Hm E3 E4]; subst.
    destruct tb as [l0 ms0]. cbn [fst] in E4.
    assert (G : exists l, l0 = map Some l).
    { clear -E4. revert tab E4. induction l0 as [|[x|] l0 IH]; intros [|y tab] E; try discriminate; [exists []; reflexivity|].
      cbn [map option_map] in E. injection E as _ E. destruct (IH _ E) as (l & ->). exists (x :: l). reflexivity. }
    destruct G as (l & ->). eapply ee_radii; eauto.
Qed.
Print Assumptions C125_fails.

(** ** The calls do return *)
(** The interpolated axis lengths at the edges and the interpolated directions at the radii are not zero. *)
Definition upright (interp : list xr -> list xr -> R -> xr) (sh : shapes) (rs edges : list R) (r200 : R) : Prop :=
  (forall e, In e edges -> xzero (interp (sh_a sh) (sh_a sh) (e * r200)) = false /\ xzero (interp (sh_a sh) (sh_b sh) (e * r200)) = false /\
     xzero (interp (sh_a sh) (sh_c sh) (e * r200)) = false) /\
  forall ws w, In ws [sh_major sh; sh_inter sh; sh_minor sh] -> In w (interp_axis interp (sh_a sh) ws rs r200) -> xzero (xnorm w) = false.

Lemma ell_stays interp sh rs edges r200 x m k : edges_ell rs = DOk edges -> upright interp sh rs edges r200 ->
  is_zerodiv (fst (ell_calc interp sh rs edges r200 x (repeat x k) (repeat m k) (fun _ => 0%nat))) = false.
Proof.
  intros He (U1 & U2). pose proof (edges_ell_length _ _ He) as Le.
  assert (MR : forall {X Y} (f : X -> Y) x n, map f (repeat x n) = repeat (f x) n) by (intros X Y g y n; induction n; cbn; congruence).
  pose proof (MR _ _ (@fst vec R) (x, m) k) as E1. pose proof (MR _ _ (@snd vec R) (x, m) k) as E2. cbn [fst snd] in E1, E2. rewrite <- E1, <- E2.
  unfold ell_calc. rewrite (ell_profile _ _ _ _ _ _ _ _ (length rs)); [|unfold interp_edges; rewrite map_length; lia|apply repeat_length].
  destruct (existsb _ (seq 0 (length rs))) eqn:Ex; [|reflexivity]. exfalso.
  apply existsb_exists in Ex. destruct Ex as (i & Hi & Hb). apply in_seq in Hi. unfold ell_bad in Hb. apply orb_true_iff in Hb.
  destruct Hb as [Hb|Hb].
  - apply existsb_exists in Hb. destruct Hb as (y & Hy & Hz). apply in_flat_map in Hy. destruct Hy as (p & _ & Hy).
    assert (HX : xzero y = false); [|congruence].
    assert (A1 : forall ws, In ws [sh_major sh; sh_inter sh; sh_minor sh] -> xzero (xnorm (nth i (interp_axis interp (sh_a sh) ws rs r200) x0)) = false).
    { intros ws Hw. apply (U2 ws _ Hw). apply nth_In. unfold interp_axis. rewrite map_length. lia. }
    assert (AX : forall j, (j <= length rs)%nat -> In y (axes_of (interp_edges interp (sh_a sh) (sh_a sh) edges r200) (interp_edges interp (sh_a sh) (sh_b sh) edges r200) (interp_edges interp (sh_a sh) (sh_c sh) edges r200) j) -> xzero y = false).
    { intros j Hj. assert (Ij : In (nth j edges 0) edges) by (apply nth_In; lia). destruct (U1 _ Ij) as (V1 & V2 & V3).
      assert (N : forall ys, nth j (interp_edges interp (sh_a sh) ys edges r200) NaN = interp (sh_a sh) ys (nth j edges 0 * r200)).
      { intros ys. unfold interp_edges. rewrite (nth_indep _ NaN (interp (sh_a sh) ys (0 * r200))) by (rewrite map_length; lia).
        apply (map_nth (fun e => interp (sh_a sh) ys (e * r200))). }
      unfold axes_of. rewrite !N. intros [<-|[<-|[<-|[]]]]; auto. }
    unfold shell_divisors in Hy. rewrite !in_app_iff in Hy. destruct Hy as [Hy|[Hy|Hy]].
    + unfold frame_divisors in Hy. destruct Hy as [<-|[<-|[<-|[]]]]; apply A1; cbn; auto.
    + apply (AX (S i)); auto; lia.
    + destruct in_ellipsoid; [|destruct Hy]. apply (AX i); auto; lia.
  - apply andb_true_iff in Hb. destruct Hb as [Hb _]. apply existsb_exists in Hb. destruct Hb as (q & Hq & Hb).
    apply repeat_spec in Hq. subst q. cbn [fst] in Hb. rewrite center_outside in Hb. discriminate.
Qed.

Lemma total_le (cat : list (list nat)) : (forall o, In o cat -> o <> []) -> (length cat <= length (concat cat))%nat.
Proof.
  induction cat as [|o cat IH]; intros H; cbn [concat length]; [lia|]. rewrite app_length.
  specialize (IH (fun o Ho => H o (or_intror Ho))). pose proof (H o (or_introl eq_refl)). destruct o; [congruence|cbn [length]; lia].
Qed.
Lemma overwritten_some cat : (forall o, In o cat -> o <> []) -> exists idx', overwritten (concat cat) (map (@length nat) cat) = Some idx'.
Proof.
  intros H. pose proof (total_le cat H) as T. unfold overwritten. rewrite map_length.
  assert (G : forall k, (k <= length cat)%nat -> exists l, fold_left (overwrite (map (@length nat) cat)) (seq 0 k) (Some (concat cat)) = Some l /\ length l = length (concat cat)).
  { induction k as [|k IH]; intros Hk; [eexists; split; reflexivity|]. destruct IH as (l & E & Ll); [lia|].
    rewrite seq_S, fold_left_app, E. cbn [fold_left plus].
    destruct (overwrite (map (@length nat) cat) (Some l) k) as [l2|] eqn:E2.
    - exists l2. split; auto. rewrite <- Ll.
      pose proof (offsets_total cat) as Ot. pose proof (offsets_mono (map (@length nat) cat) (S k) (length (map (@length nat) cat)) ltac:(rewrite map_length; lia) (le_n _)) as Om.
      destruct (overwrite_nth (map (@length nat) cat) l k l2 ltac:(rewrite map_length; lia) ltac:(lia) E2) as (L2 & _). exact L2.
    - exfalso. unfold overwrite in E2. destruct (nth_error l k) eqn:En; [discriminate|]. apply nth_error_None in En. lia. }
  destruct (G (length cat) (le_n _)) as (l & E & _). eauto.
Qed.

Lemma ell_returns interp fuel choose xyz masses r200s rs shs cat L edges :
  0 <= L -> regular masses choose cat -> cat <> [] -> edges_ell rs = DOk edges ->
  (forall p, (p < length cat)%nat -> upright interp (nth p shs (mkSh [] [] [] [] [] [])) rs edges (nth p r200s 0)) ->
  exists rows idx', calcDensProfsEllDirectBinning interp fuel CCom choose xyz masses r200s rs shs (concat cat) (map (@length nat) cat) L (DOk rows) idx'.
Proof.
  intros HL Hreg Hne He HU.
  destruct (overwritten_some cat) as (idx' & Ho).
  { intros o Hi. apply (In_nth _ _ []) in Hi. destruct Hi as (p & Hp & <-). apply (proj1 Hreg p Hp). }
  set (objs := map (ptcs xyz masses) (parts idx' (map (@length nat) cat))).
  set (cs := obj_centers fuel CCom choose L objs).
  assert (Hlo : length objs = length cat) by (unfold objs, parts; rewrite !map_length, seq_length; auto).
  set (calc := fun p x ms buf => ell_calc interp (nth p shs (mkSh [] [] [] [] [] [])) rs edges (nth p r200s 0) (from_some (nth p cs None)) x ms buf).
  destruct (@prange_exists dloc (dval xr) (length objs) (dens_body L objs calc) dmem0) as [m' Hm].
  assert (Hl : dens_loop L objs calc (if existsb (fun p => is_zerodiv (drow m' p)) (seq 0 (length objs)) then DZeroDivision
                 else DOk (map (fun p => ret_of (drow m' p)) (seq 0 (length objs))))) by (constructor; exact Hm).
  assert (Hcalc : forall p x ms b b', length x = length ms -> fst (calc p x ms b) = fst (calc p x ms b'))
    by (intros; unfold calc; apply calc_ell_indep; auto).
  pose proof (dens_loop_result L objs calc Hcalc _ Hl) as Hr. rewrite Hr in Hl.
  assert (Hcen : forall p, (p < length cat)%nat -> exists x m, nth p objs [] = repeat (x, m) (length (nth p cat [])) /\ nth p cs None = Some x /\
     (0 < length (nth p cat []))%nat /\ valid_choice (choose p) (length (nth p cat []))).
  { intros p Hp. destruct (ell_objects masses choose cat xyz idx' p Hreg Ho Hp) as (x & m & Eo & Hx).
    destruct (proj1 Hreg p Hp) as (Hn & Hv). exists x, m.
    assert (Hk : (0 < length (nth p cat []))%nat) by (destruct (nth p cat []); [congruence|cbn; lia]).
    split; [exact Eo|]. split; [|auto]. unfold cs. rewrite obj_centers_nth by lia. unfold objs. rewrite Eo.
    apply (center_const fuel CCom (choose p) L x m _ HL Hk Hv Hx). }
  replace (existsb (fun p => is_zerodiv (dens_result L objs calc p)) (seq 0 (length objs))) with false in Hl.
  - eexists _, idx'. eapply ell_ok; [destruct cat; [congruence|discriminate]|exact He|exact Ho| |exact Hl].
    apply not_true_iff_false. rewrite existsb_exists. intros (x & Hx & Hn). destruct x; [discriminate|].
    apply (In_nth _ _ None) in Hx. destruct Hx as (p & Hp & Ep). fold objs in Hp, Ep. rewrite obj_centers_length in Hp. fold cs in Ep.
    destruct (Hcen p ltac:(lia)) as (y & m & _ & E & _). congruence.
  - symmetry. apply not_true_iff_false. rewrite existsb_exists. intros (p & Hp & Hz). apply in_seq in Hp.
    destruct (Hcen p ltac:(lia)) as (x & m & Eo & Ec & Hk & Hv). unfold dens_result, calc in Hz. rewrite Eo, Ec in Hz. cbn [from_some] in Hz.
    assert (MR : forall {X Y} (f : X -> Y) x n, map f (repeat x n) = repeat (f x) n) by (intros X Y g y n; induction n; cbn; congruence).
    rewrite !MR in Hz. cbn [fst snd] in Hz. rewrite (proj2 (respect_const (choose p) x _ L HL Hk Hv)) in Hz.
    rewrite ell_stays in Hz; auto; [discriminate|]. apply HU. lia.
Qed.

(* Whenever the shapes are found and their interpolated axes are not zero, the call succeeds, and this is its
   answer. *)
Theorem C125_blank : forall interp mfuel choose choose' eig fuel kc rs c a d c' s zs edges l ms cs,
  fits a -> physical c a -> a_kind a = CCom -> make c a = inl d -> usable_out (little_h c) c' -> asks s zs -> drawn a zs choose' ->
  good_selection zs (length (listed a)) -> edges_ell rs = DOk edges ->
  let p := picked a (map Z.to_nat zs) in let f := in_l c / cm (little_h c) in
  morph_call mfuel CCom choose eig fuel kc (a_box a * f) Local (map (inner c a) (map fst p)) (map (fun or => snd or * f) p) (Ret (map Some l, ms), cs) ->
  (forall k o x, nth_error p k = Some (o, x) -> upright interp (nth k (map shapes_of l) (mkSh [] [] [] [] [] [])) rs edges (x * f)) ->
  forall out, out = inl (repeat (repeat NaN (length rs)) (length zs)) ->
  estDensProfsEll interp mfuel choose choose' eig fuel kc rs c' d s out.
Proof.
  intros interp mfuel choose choose' eig fuel kc rs c a d c' s zs edges l ms cs Hf Hp Hk Hd Hu Ha Hc Hg He p f Hm HU out ->.
  assert (Hh : little_h c <> 0) by (destruct Hp; lra). pose proof Hd as Hd'. rewrite make_ok in Hd by auto. injection Hd as <-.
  pose proof (chosen_ok c a s zs Ha Hg) as E. cbv zeta in E. pose proof (exist_ok c a zs Hf Hg) as X. fold p in E, X. fold f in E.
  destruct (regular_call c a zs choose' Hf Hp Hg Hc) as (HL & Hr). fold p in Hr. fold f in HL.
  destruct (factor_ok (little_h c) c' Hh Hu) as (fd & Hfd & _).
  assert (Lp : length p = length zs) by (unfold p, picked; rewrite !map_length; auto).
  assert (H3 : (3 <= length rs)%nat).
  { unfold edges_ell in He. destruct rs as [|? [|? [|? ?]]]; cbn in He |- *; try discriminate; lia. }
  destruct (ell_returns interp mfuel choose' (d_xyz (built c a)) (d_masses (built c a)) (map (fun or => snd or * f) p) rs (map shapes_of l) (map fst p) (a_box a * f) edges HL Hr)
    as (rows & idx' & Hq); auto.
  { destruct Hg as (Hz & _). destruct zs; [congruence|]. unfold p, picked. discriminate. }
  { intros q Hq. rewrite map_length in Hq. destruct (nth_error p q) as [(o, x)|] eqn:Eq; [|apply nth_error_None in Eq; lia].
    replace (nth q (map (fun or => snd or * f) p) 0) with (x * f) by (symmetry; apply nth_error_nth; rewrite nth_error_map, Eq; reflexivity).
    eapply HU; eauto. }
  assert (G : estDensProfsEll interp mfuel choose choose' eig fuel kc rs c' (built c a) s (inl (map (map (fun x => xmul x (Fin fd))) rows))).
  { eapply (ee_ok interp mfuel choose choose' eig fuel kc rs c' (built c a) s _ _ _ l ms cs rows idx' fd E X); auto.
    - rewrite parts_concat. unfold p. rewrite objs_inner by auto. fold p. unfold built at 1 2. cbn [d_kind d_box]. rewrite Hk. exact Hm.
    - unfold built at 1 4. cbn [d_kind d_box]. rewrite Hk. exact Hq. }
  destruct (C125_nothing _ _ _ _ _ _ _ _ _ _ _ _ _ _ _ Hf Hp Hk Hd' Ha Hc G) as (_ & _ & <-). exact G.
Qed.
Print Assumptions C125_blank.

(** ** The witness *)
(** Six particles, ellipsoidal radii 1/2, 1, 2 times R_200, shape at one radius; the interpolation continues each
    quantity by its value there, and the major semi-axis by the radius itself. *)
Definition steady_interp (xs ys : list xr) (r : R) : xr :=
  match xs, ys with [Fin x], [Fin y] => if Req_EM_T x y then Fin r else Fin y | _, _ => NaN end.

Lemma local6 eig : obj_shape eig 100 cfg1 0 Local (object cloud6 still6 ones6) 10 v0 = obj_shape eig 100 cfg1 0 Global (object cloud6 still6 ones6) 10 v0.
Proof.
  rewrite global6 by reflexivity. unfold obj_shape, object. cbn [combine map pos vel snd fst cloud6 ones6 still6].
  fold cloud6. fold ones6. rewrite pbc_off. unfold calcObjMorphLocal.
  destruct Req_EM_T as [E|_]; [destruct (spread6 E)|]. destruct Req_EM_T as [E|_]; [lra|].
  cbn [cfg1 c_log_d length seq map c_shell nth c_tol c_wall c_min c_reduced]. rewrite !Rmult_1_r. reflexivity.
Qed.
Lemma norm_nan w : xx w = NaN \/ xy w = NaN -> xzero (xnorm w) = false.
Proof. destruct w as [x y z]. cbn [xx xy]. intros [-> | ->]; [|destruct x]; destruct z; try destruct y; reflexivity. Qed.

(* The same object, the same radii: the spherical profile consists of numbers, the shape routine finds an
   ellipsoid, and the ellipsoidal profile is NaN. *)
Theorem C125_refuted : exists d w tab,
  fits args_e /\ physical cfg_e args_e /\ make cfg_e args_e = inl d /\ drawn args_e [0%Z] (fun _ => seq 0 6) /\
  getShapeCat 1 (fun _ => seq 0 6) exact_eig 100 cfg1 Local cfg_e d (SelList [0%Q]) (inl [Some [w]]) /\ w_conv w = true /\ w_q w = Fin (2/3) /\
  estDensProfs 1 (fun _ => seq 0 6) [1/2; 1; 2] cfg_e d (SelList [0%Q]) (inl tab) /\
  estDensProfsEll steady_interp 1 (fun _ => seq 0 6) (fun _ => seq 0 6) exact_eig 100 cfg1 [1/2; 1; 2] cfg_e d (SelList [0%Q]) (inl [[NaN; NaN; NaN]]).
Proof.
  pose proof MPC_pos as Pm. pose proof MSUN10_pos as Ps.
  destruct C123_example as (Hf & Hu & Ha & Hg & _).
  assert (Hh : little_h cfg_e <> 0) by (cbn; lra).
  assert (Hp : physical cfg_e args_e).
  { unfold physical, cfg_e, args_e. cbn [little_h in_l in_m a_box a_masses]. repeat split; try lra. unfold ones6. cbn. intros m Hm. repeat destruct Hm as [<-|Hm]; try lra. }
  assert (Hd : drawn args_e [0%Z] (fun _ => seq 0 6)).
  { intros [|[|k]] z o x Hz Ho; try discriminate. injection Hz as <-. injection Ho as <- _. split; [repeat constructor; cbn; intuition lia|]. split; [cbn; lia|reflexivity]. }
  pose proof (chosen_ok cfg_e args_e _ _ Ha Hg) as E. cbv zeta in E. pose proof (exist_ok cfg_e args_e _ Hf Hg) as X.
  pose proof (to_out_ok _ _ Hh Hu) as T. pose proof (objs_inner cfg_e args_e _ Hf Hg) as OI.
  assert (P : picked args_e (map Z.to_nat [0%Z]) = [([0; 1; 2; 3; 4; 5]%nat, 10)]) by reflexivity. rewrite P in *.
  assert (F1 : in_l cfg_e / cm (little_h cfg_e) = 1) by (unfold cm; cbn; field; lra). rewrite F1 in E.
  assert (B0 : d_box (built cfg_e args_e) = 0) by (unfold built; cbn [d_box args_e a_box]; ring).
  cbn [map fst snd] in OI. rewrite inner_e in OI. cbn [map fst snd] in E, X. rewrite Rmult_1_r in E.
  change [length [0; 1; 2; 3; 4; 5]%nat] with (map (@length nat) [[0; 1; 2; 3; 4; 5]%nat]) in E.
  destruct (run6 exact_eig exact_eig_contract (mkM (Fin 10) (Fin 0) (Fin 0) x0 x0 x0) 98) as (mi & tr & H & Q & S & D & _ & u & v & e & Ma & Mb & Mc & Ho & A1 & A2 & A3).
  destruct (runs_exist exact_eig 100 cfg1 0 Local [object cloud6 still6 ones6] [10] [v0]) as (r & Hr).
  assert (G := driver_result _ _ _ _ _ _ _ _ _ Hr). cbn [length seq map nth existsb] in G. rewrite local6, global6 in G by auto.
  rewrite H in G. cbn [option_map fst map collect raised orb entry] in G. subst r.
  assert (M : exists cs, morph_call 1 CCom (fun _ => seq 0 6) exact_eig 100 cfg1 0 Local [object cloud6 still6 ones6] [10]
     (Ret ([Some [nan_morph mi]], [total snd (object cloud6 still6 ones6)]), cs)).
  { eexists. constructor; [|exact Hr]. repeat constructor. cbn [fst snd]. unfold shape_center. exact (center_e 1 0 eq_refl). }
  destruct M as (cs & M).
  destruct (factor_ok _ _ Hh Hu) as (fd & Hfd & _).
  assert (Sp : exists tab, estDensProfs 1 (fun _ => seq 0 6) [1/2; 1; 2] cfg_e (built cfg_e args_e) (SelList [0%Q]) (inl tab)).
  { assert (He : edges_sph [1/2; 1; 2] = DOk [/ 10 ^ 8; 3 / 4; 3 / 2; 2]).
    { unfold edges_sph. cbn [midpoints app last]. replace ((1/2 + 1) / 2) with (3 / 4) by lra. replace ((1 + 2) / 2) with (3 / 2) by lra. reflexivity. }
    assert (Rn : exists r, calcDensProfsSphDirectBinning 1 CCom (fun _ => seq 0 6) (d_xyz (built cfg_e args_e)) (d_masses (built cfg_e args_e)) [10] [1/2; 1; 2]
       [0; 1; 2; 3; 4; 5]%nat [6]%nat (d_box (built cfg_e args_e)) r).
    { edestruct (@prange_exists dloc (dval R)) as [m' Hm]. eexists.
      eapply sph_ok; [discriminate|exact He|reflexivity|]. econstructor. exact Hm. }
    destruct Rn as (r & Rn).
    destruct (C39_driver 1 CCom (fun _ => seq 0 6) (d_xyz (built cfg_e args_e)) (d_masses (built cfg_e args_e)) [10] [1/2; 1; 2] [[0; 1; 2; 3; 4; 5]%nat] (d_box (built cfg_e args_e)) r _
       Rn ltac:(discriminate) He) as [Hx|(rows & Hr' & _)].
    - assert (E8 : 0 < / 10 ^ 8 < 1 / 10).
      { split; [apply Rinv_0_lt_compat, pow_lt; lra|]. replace (1 / 10) with (/ 10) by lra. apply Rinv_lt_contravar; [apply Rmult_lt_0_compat; [lra|apply pow_lt; lra]|].
        replace 10 with (10 ^ 1) at 1 by ring. apply Rlt_pow; [lra|lia]. }
      split; [cbn [hd]; lra|]. intros [|[|[|i]]] Hi; cbn [nth length] in Hi |- *; try lra; lia.
    - intros p Hp'. destruct p as [|p]; cbn [length nth] in *; [lra|lia].
    - destruct (sph_driver 1 CCom (fun _ => seq 0 6) (d_xyz (built cfg_e args_e)) (d_masses (built cfg_e args_e)) [10] [1/2; 1; 2] [[0; 1; 2; 3; 4; 5]%nat] (d_box (built cfg_e args_e)) r _
        Rn ltac:(discriminate) He) as [[_ (p & Hp' & Hc)]|[Hr' _]]; [|congruence]. destruct p as [|p]; [discriminate Hc|cbn in Hp'; lia].
    - subst r. eexists. eapply ed_ok; [exact E|exact X|exact Rn|exact Hfd]. }
  destruct Sp as (tab & Sp). exists (built cfg_e args_e), (to_row (cm (little_h cfg_e) / out_l cfg_e) (nan_morph mi)), tab.
  split; [exact Hf|]. split; [exact Hp|]. split; [apply make_ok; auto|]. split; [exact Hd|]. split; [|split; [|split; [|split; [exact Sp|]]]].
  - assert (M' : morph_call 1 (d_kind (built cfg_e args_e)) (fun _ => seq 0 6) exact_eig 100 cfg1 (d_box (built cfg_e args_e)) Local
       (map (particles (built cfg_e args_e)) (parts (concat [[0; 1; 2; 3; 4; 5]%nat]) (map (@length nat) [[0; 1; 2; 3; 4; 5]%nat]))) [10]
       (Ret ([Some [nan_morph mi]], [total snd (object cloud6 still6 ones6)]), cs)).
    { rewrite parts_concat. cbn [map fst]. rewrite OI, B0. exact M. }
    exact (gs_ok _ _ _ _ _ _ _ _ _ _ _ _ _ _ _ _ E X M' T).
  - unfold to_row, nan_morph, is_conv. cbn [w_conv mq]. rewrite Q, nanz_fin. unfold shown. destruct Req_EM_T; [lra|reflexivity].
  - unfold to_row, nan_morph. cbn [w_q mq]. rewrite Q, nanz_fin. unfold shown. destruct Req_EM_T; [lra|reflexivity].
  - assert (He : edges_ell [1/2; 1; 2] = DOk [(1/2 + 1) / 2 * ((1/2 + 1) / 2) / ((1 + 2) / 2); (1/2 + 1) / 2; (1 + 2) / 2; 2]).
    { unfold edges_ell. cbn [midpoints]. destruct Req_EM_T; [lra|reflexivity]. }
    eapply (C125_blank steady_interp 1 (fun _ => seq 0 6) (fun _ => seq 0 6) exact_eig 100 cfg1 [1/2; 1; 2] cfg_e args_e (built cfg_e args_e) cfg_e (SelList [0%Q]) [0%Z] _
      [[nan_morph mi]] [total snd (object cloud6 still6 ones6)] cs Hf Hp eq_refl (make_ok _ _ Hh Hf) Hu Ha Hd Hg He); [| |reflexivity].
    + rewrite P, F1. cbn [map fst snd]. rewrite inner_e, !Rmult_1_r. exact M.
    + rewrite P, F1. intros [|[|k]] o x Hk; try discriminate. injection Hk as _ <-. rewrite !Rmult_1_r. cbn [map nth].
      assert (D' : md (nan_morph mi) = Fin 10) by (unfold nan_morph; cbn [md]; rewrite D, nanz_fin; unfold shown; destruct Req_EM_T; [lra|reflexivity]).
      assert (Q' : mq (nan_morph mi) = Fin (2/3)) by (unfold nan_morph; cbn [mq]; rewrite Q, nanz_fin; unfold shown; destruct Req_EM_T; [lra|reflexivity]).
      assert (S' : ms (nan_morph mi) = Fin (1/3)) by (unfold nan_morph; cbn [ms]; rewrite S, nanz_fin; unfold shown; destruct Req_EM_T; [lra|reflexivity]).
      assert (Sh : forall t, t = 0 -> shown t = NaN) by (intros t ->; unfold shown; destruct Req_EM_T; [reflexivity|congruence]).
      split.
      * intros g Hg'. unfold shapes_of. cbn [sh_a sh_b sh_c map]. rewrite D', Q', S'. cbn [xmul steady_interp].
        destruct Req_EM_T; [|congruence]. destruct Req_EM_T; [lra|]. destruct Req_EM_T; [lra|].
        repeat split; apply xzero_fin; try lra. cbn [In] in Hg'. repeat destruct Hg' as [<-|Hg']; try lra; destruct Hg'.
      * intros ws w Hw Hi. unfold shapes_of in Hw, Hi. cbn [sh_a sh_major sh_inter sh_minor map] in Hw, Hi. rewrite D' in Hi.
        unfold nan_morph in Hw. cbn [major inter minor] in Hw. rewrite Ma, Mb, Mc, !nanv_fv in Hw. unfold shown_vec in Hw.
        unfold interp_axis in Hi. apply in_map_iff in Hi. destruct Hi as (rr & <- & _). apply norm_nan. cbn [xx xy].
        destruct Hw as [<-|[<-|[<-|[]]]]; cbn [map xx xy].
        -- right. rewrite (Sh (vy u)); [reflexivity|]. apply (A1 1%nat); lia.
        -- left. rewrite (Sh (vx v)); [reflexivity|]. apply (A2 0%nat); lia.
        -- left. rewrite (Sh (vx e)); [reflexivity|]. apply (A3 0%nat); lia.
Qed.
Print Assumptions C125_refuted.

(** The same arrays with CENTER = 'mode': six particles, so the call cannot return. A selection of an object that is
    not there, and two radii. *)
Example C125_example : let a := mkArgs cloud6 ones6 (Nested [[0]; [0; 1; 2; 3; 4; 5]]%nat) [5; 10] 0 2 CMode in
  (exists d, fits a /\ physical cfg_e a /\ make cfg_e a = inl d /\ asks (SelList [0%Q]) [0%Z] /\ drawn a [0%Z] (fun _ => seq 0 6) /\
     nth_error (listed a) (Z.to_nat 0) = Some ([0; 1; 2; 3; 4; 5]%nat, 10) /\
     forall tab, ~ estDensProfsEll steady_interp 9 (fun _ => seq 0 6) (fun _ => seq 0 6) exact_eig 100 cfg1 [1/2; 1; 2] cfg_e d (SelList [0%Q]) (inl tab)) /\
  exists d, make cfg_e args_e = inl d /\
     estDensProfsEll steady_interp 1 (fun _ => seq 0 6) (fun _ => seq 0 6) exact_eig 100 cfg1 [1/2; 1; 2] cfg_e d (SelList [1%Q]) (inr EValue) /\
     estDensProfsEll steady_interp 1 (fun _ => seq 0 6) (fun _ => seq 0 6) exact_eig 100 cfg1 [1/2; 1] cfg_e d (SelList [0%Q]) (inr EValue).
Proof.
  intros a. destruct C125_refuted as (d & w & tab & Hf & Hp & Hd & Hc & Hs & _).
  assert (Hh : little_h cfg_e <> 0) by (cbn; lra). split.
  - exists (built cfg_e a). assert (Hf' : fits a) by exact Hf. assert (Hp' : physical cfg_e a) by exact Hp.
    assert (Hc' : drawn a [0%Z] (fun _ => seq 0 6)) by exact Hc.
    split; [exact Hf'|]. split; [exact Hp'|]. split; [apply make_ok; auto|]. split; [reflexivity|]. split; [exact Hc'|]. split; [reflexivity|].
    intros t. eapply (C125_mode _ _ _ _ _ _ _ _ cfg_e a (built cfg_e a) _ _ [0%Z] 0%Z); eauto; [apply make_ok; auto|reflexivity|left; reflexivity|reflexivity|cbn; lia].
  - exists d. split; [exact Hd|].
    destruct (C125_fails steady_interp 1 (fun _ => seq 0 6) (fun _ => seq 0 6) exact_eig 100 cfg1 [1/2; 1; 2] cfg_e args_e d cfg_e (SelList [1%Q]) [1%Z] Hh Hf Hd eq_refl) as (F1 & _ & _).
    destruct (C125_fails steady_interp 1 (fun _ => seq 0 6) (fun _ => seq 0 6) exact_eig 100 cfg1 [1/2; 1] cfg_e args_e d cfg_e (SelList [0%Q]) [0%Z] Hh Hf Hd eq_refl) as (_ & _ & F2).
    split.
    + apply F1; [|reflexivity]. intros (_ & _ & H). specialize (H 1%Z (or_introl eq_refl)). cbn in H. lia.
    + apply (F2 ltac:(cbn; lia) [[w]]). exact Hs.
Qed.

(** ** Collapsed inner edges *)
(* If an axis of the inner edge of the first shell is zero, the routine raises as soon as one particle lies inside the
   outer edge; *)
Theorem C40_collapsed : forall xyz masses o u v w a b e a' b' e' la lb le lu lv lw dens buf,
  0 < ip u u -> 0 < ip v v -> 0 < ip w w -> 0 < a -> 0 < b -> 0 < e -> (a' = 0 \/ b' = 0 \/ e' = 0) ->
  (exists p, In p xyz /\ inside_ellipsoid u v w o a b e p) ->
  fst (calcDensProfBruteForceEll xyz masses o (Fin a' :: Fin a :: la) (Fin b' :: Fin b :: lb) (Fin e' :: Fin e :: le)
    (fv u :: lu) (fv v :: lv) (fv w :: lw) dens buf) = ZeroDivision.
Proof.
  intros xyz masses o u v w a b e a' b' e' la lb le lu lv lw dens buf Hu Hv Hw Pa Pb Pe H0 (p & Hp & Hi).
  unfold calcDensProfBruteForceEll. cbn [length]. rewrite Nat.sub_succ, Nat.sub_0_r. cbn [seq fold_left].
  match goal with |- fst (fold_left ?f ?l (?f ?st 0%nat)) = _ => set (F := f); set (s0 := st) end.
  assert (G : forall l buf', fst (fold_left F l (ZeroDivision, buf')) = ZeroDivision) by (clear; intros l; induction l as [|x l IH]; intros buf'; [reflexivity|exact (IH buf')]).
  assert (S0 : exists buf', F s0 0%nat = (ZeroDivision, buf')); [|destruct S0 as (buf' & ->); apply G].
  unfold F, s0, dens_ell_step. destruct compact_into as (buf' & pts). exists buf'.
  match goal with |- context [existsb xzero ?l] => assert (X : existsb xzero l = true) end.
  { apply existsb_exists. exists (Fin 0). split; [|unfold xzero, xeqb; destruct (Req_EM_T 0 0); [reflexivity|lra]].
    apply in_flat_map. exists p. split; auto. unfold shell_divisors. apply in_or_app. right. apply in_or_app. right.
    assert (I1 : in_ellipsoid (Fin a' :: Fin a :: la) (Fin b' :: Fin b :: lb) (Fin e' :: Fin e :: le) 1 (frame o (fv u :: lu) (fv v :: lv) (fv w :: lw) 0 p) = true).
    { unfold frame. cbn [nth]. rewrite !along_fin by auto. unfold in_ellipsoid, level. cbn [nth xx xy xz]. rewrite !xdiv_fin by lra.
      unfold xsq. rewrite !Fin_mul, !Fin_add. unfold xltb. destruct Rlt_dec as [|N]; [reflexivity|]. exfalso. apply N. exact Hi. }
    rewrite I1. unfold axes_of. cbn [nth]. destruct H0 as [-> | [-> | ->]]; cbn; auto. }
  rewrite X. reflexivity.
Qed.
Print Assumptions C40_collapsed.
(* without such a particle the density there is not a number. *)
Theorem C40_collapsed_empty : forall xyz masses o u v w a b e x y z x0 buf,
  0 < ip u u -> 0 < ip v v -> 0 < ip w w -> 0 < a -> 0 < b -> 0 < e ->
  (forall p, In p xyz -> ~ inside_ellipsoid u v w o a b e p) ->
  fst (calcDensProfBruteForceEll xyz masses o [x; Fin a] [y; Fin b] [z; Fin e] [fv u] [fv v] [fv w] [x0] buf) = Ret [NaN].
Proof.
  intros xyz masses o u v w a b e x y z d0 buf Hu Hv Hw Pa Pb Pe H.
  unfold calcDensProfBruteForceEll. cbn [length]. change (seq 0 (2 - 1)) with [0%nat]. cbn [fold_left]. unfold dens_ell_step.
  assert (I1 : forall p, In p xyz -> in_ellipsoid [x; Fin a] [y; Fin b] [z; Fin e] 1 (frame o [fv u] [fv v] [fv w] 0 p) = false).
  { intros p Hp. specialize (H p Hp). unfold frame. cbn [nth]. rewrite !along_fin by auto. unfold in_ellipsoid, level. cbn [nth xx xy xz]. rewrite !xdiv_fin by lra.
    unfold xsq. rewrite !Fin_mul, !Fin_add. unfold xltb. destruct Rlt_dec as [L|]; [|reflexivity]. exfalso. apply H. exact L. }
  match goal with |- context [compact_into buf ?f ?n] => destruct (compact_into_spec buf f n) as (buf' & pts & E & _ & Hpts) end.
  rewrite E.
  match goal with |- context [existsb xzero ?l] => assert (X : existsb xzero l = false) end.
  { destruct (existsb xzero _) eqn:X; [|reflexivity]. exfalso. apply existsb_exists in X. destruct X as (q & Hq & Zq). apply in_flat_map in Hq. destruct Hq as (p & Hp & Hq).
    unfold shell_divisors in Hq. rewrite (I1 p Hp), app_nil_r in Hq. unfold frame_divisors, axes_of in Hq. cbn [nth app] in Hq. rewrite !xnorm_fv in Hq.
    assert (N : forall t, t <> 0 -> xzero (Fin t) = true -> False) by (intros t Ht; rewrite xzero_fin by auto; discriminate).
    destruct Hq as [<-|[<-|[<-|[<-|[<-|[<-|[]]]]]]]; refine (N _ _ Zq); try (apply sqrt_ip; auto); lra. }
  rewrite X.
  assert (pts = 0%nat) as ->.
  { rewrite Hpts. rewrite (proj2 (length_zero_iff_nil _)); auto.
    match goal with |- filter ?f ?l = [] => assert (A : forall i, In i l -> f i = false) end.
    { intros i Hi. apply in_seq in Hi. unfold in_ell_shell. rewrite I1; [reflexivity|apply nth_In; lia]. }
    revert A. generalize (seq 0 (length xyz)). intros l A. induction l as [|i l IH]; [reflexivity|]. cbn [filter]. rewrite (A i) by (left; auto). apply IH. intros j Hj. apply A. right. auto. }
  reflexivity.
Qed.
Print Assumptions C40_collapsed_empty.
Example C40_collapsed_example : let u := mkV 1 0 0 in let v := mkV 0 1 0 in let w := mkV 0 0 1 in
  0 < ip u u /\ 0 < ip v v /\ 0 < ip w w /\
  inside_ellipsoid u v w v0 4 3 2 (mkV 1 1 1) /\ ~ inside_ellipsoid u v w v0 4 3 2 (mkV 5 0 0).
Proof.
  unfold inside_ellipsoid, coord_along, ip, vsub, v0. cbn [vx vy vz].
  repeat match goal with |- context [sqrt ?x] => replace (sqrt x) with 1 by (replace x with 1 by ring; symmetry; apply sqrt_1) end. repeat split; lra.
Qed.

(* Once the shapes are found, radii whose second and third entry cancel raise ZeroDivisionError (the first edge is
   made by dividing by the second one). *)
Theorem C125_zero : forall interp mfuel choose choose' eig fuel kc r0 r1 rs c a d c' s zs tab,
  little_h c <> 0 -> fits a -> make c a = inl d -> asks s zs ->
  getShapeCat mfuel choose eig fuel kc Local c' d s (inl (map Some tab)) ->
  estDensProfsEll interp mfuel choose choose' eig fuel kc (r0 :: r1 :: (- r1) :: rs) c' d s (inr EZeroDivision).
Proof.
  intros interp mfuel choose choose' eig fuel kc r0 r1 rs c a d c' s zs tab Hh Hf Hd Ha H. rewrite make_ok in Hd by auto. injection Hd as <-.
  destruct (good_or_value a s zs Ha) as [N|Hg].
  { pose proof (chosen_bad c a s zs Ha N) as E. inversion H; congruence. }
  pose proof (chosen_ok c a s zs Ha Hg) as E. cbv zeta in E.
  inversion H as [| | | | |sub sz r tb cs fl fm E1 E2 Hm E3 E4]; subst.
  destruct tb as [l0 ms0]. cbn [fst] in E4.
  assert (G : exists l, l0 = map Some l).
  { clear -E4. revert tab E4. induction l0 as [|[x|] l0 IH]; intros [|y tab] E; try discriminate; [exists []; reflexivity|].
    cbn [map option_map] in E. injection E as _ E. destruct (IH _ E) as (l & ->). exists (x :: l). reflexivity. }
  destruct G as (l & ->).
  eapply (ee_raise interp mfuel choose choose' eig fuel kc _ c' (built c a) s sub sz r l ms0 cs DZeroDivision sub EZeroDivision); auto.
  - cbn [length]. lia.
  - apply ell_zerodiv.
    + rewrite E in E1. injection E1 as _ <- _. destruct Hg as (Hz & _). destruct zs; [congruence|]. unfold picked. discriminate.
    + unfold edges_ell. cbn [midpoints app]. destruct Req_EM_T as [_|Q]; [reflexivity|]. exfalso. apply Q. lra.
Qed.
Print Assumptions C125_zero.
Example C125_zero_example : exists d tab, fits args_e /\ make cfg_e args_e = inl d /\ asks (SelList [0%Q]) [0%Z] /\
  getShapeCat 1 (fun _ => seq 0 6) exact_eig 100 cfg1 Local cfg_e d (SelList [0%Q]) (inl (map Some tab)) /\
  estDensProfsEll steady_interp 1 (fun _ => seq 0 6) (fun _ => seq 0 6) exact_eig 100 cfg1 [1; 2; - 2] cfg_e d (SelList [0%Q]) (inr EZeroDivision).
Proof.
  destruct C125_refuted as (d & w & tab & Hf & _ & Hd & _ & H & _). exists d, [[w]].
  split; [exact Hf|]. split; [exact Hd|]. split; [reflexivity|]. split; [exact H|].
  apply (C125_zero steady_interp 1 (fun _ => seq 0 6) (fun _ => seq 0 6) exact_eig 100 cfg1 1 2 [] cfg_e args_e d cfg_e (SelList [0%Q]) [0%Z] [[w]]); auto; try reflexivity. cbn; lra.
Qed.
