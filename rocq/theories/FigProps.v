(** Density figures: C111. *)
From Coq Require Import Reals Lra Lia String Bool ZArith Permutation Sorted List.
From Verif Require Import XR ConfigModel CatModel DensModel FitModel StatModel SplitProps StatProps3 FigModel ConfigUnits FitProps.
Import ListNotations.
Local Open Scope R_scope.

(** ** Specification *)
(** The mean of the two middle values, or the middle one, of the values in order. *)
Definition middle (z : list R) (x : R) : Prop :=
  exists s, Permutation s z /\ Sorted Rle s /\ x = (nth ((length z - 1) / 2) s 0 + nth (length z / 2) s 0) / 2.
(** The j-th quartile of the values in order, interpolated between the two neighbours of the
    position j (n - 1) / 4. *)
Definition quartile (j : nat) (z : list R) (x : R) : Prop :=
  exists s, Permutation s z /\ Sorted Rle s /\
    let k := (j * (length z - 1) / 4)%nat in let rest := (j * (length z - 1) mod 4)%nat in
    x = nth k s 0 + INR rest / 4 * (nth (S k) s 0 - nth k s 0).
(** The numbers the caller has handed over for radius i and the objects [objs]. *)
Definition handed (rows : list (list R)) (objs : list nat) (i : nat) : list R := map (fun p => nth i (nth p rows []) 0) objs.
(** The objects of figure k: all of them for the first, those strictly between two limits for the
    others. *)
Definition shown (masses limits : list R) (k : nat) (objs : list nat) : Prop :=
  NoDup objs /\ forall p, In p objs <-> (p < length masses)%nat /\
    match k with O => True | S g => nth g limits 0 < nth p masses 0 < nth (S g) limits 0 end.
Definition positive (c : config) : Prop := 0 < little_h c /\ 0 < out_l c /\ 0 < out_m c.

(** ** Proofs *)
Lemma median_middle z : z <> [] -> middle z (median z).
Proof.
  intros Hz. exists (sort z). split; [apply sort_perm|]. split; [apply sort_sorted|]. unfold median.
  assert (L : (1 <= length z)%nat) by (destruct z; [congruence|simpl; lia]).
  destruct (Nat.even (length z)) eqn:E.
  - apply Nat.even_spec in E. destruct E as [k E]. rewrite E in *.
    replace (2 * k / 2)%nat with k by (rewrite Nat.mul_comm, Nat.div_mul; lia).
    replace ((2 * k - 1) / 2)%nat with (k - 1)%nat; [reflexivity|].
    apply (Nat.div_unique _ _ _ 1); lia.
  - assert (O : Nat.odd (length z) = true) by (rewrite <- Nat.negb_even, E; reflexivity). apply Nat.odd_spec in O. destruct O as [k O]. rewrite O.
    replace ((2 * k + 1 - 1) / 2)%nat with k by (apply (Nat.div_unique _ _ _ 0); lia).
    replace ((2 * k + 1) / 2)%nat with k by (apply (Nat.div_unique _ _ _ 1); lia). lra.
Qed.
Lemma quantile_quartile j z : z <> [] -> (j <= 4)%nat -> quartile j z (quantile (INR j / 4) z).
Proof.
  intros Hz Hj. exists (sort z). split; [apply sort_perm|]. split; [apply sort_sorted|]. cbv zeta.
  assert (L : (1 <= length z)%nat) by (destruct z; [congruence|simpl; lia]).
  set (k := (j * (length z - 1) / 4)%nat). set (r := (j * (length z - 1) mod 4)%nat).
  assert (D : (j * (length z - 1) = 4 * k + r)%nat) by apply Nat.div_mod_eq. assert (Hr : (r < 4)%nat) by (apply Nat.mod_upper_bound; lia).
  clearbody k r. assert (P : INR j / 4 * INR (length z - 1) = INR k + INR r / 4).
  { apply (f_equal INR) in D. rewrite plus_INR, !mult_INR in D. replace (INR 4) with 4 in D by (simpl; lra). lra. }
  assert (Hr4 : 0 <= INR r / 4 < 1) by (pose proof (pos_INR r); apply lt_INR in Hr; replace (INR 4) with 4 in Hr by (simpl; lra); lra).
  unfold quantile. rewrite P, (floor_unique _ k) by lra. replace (INR k + INR r / 4 - INR k) with (INR r / 4) by ring.
  destruct (Nat.le_gt_cases (S k) (length z - 1)) as [Hk|Hk]; [rewrite Nat.min_l by lia; reflexivity|].
  assert (r = 0)%nat by nia. subst r. cbn [INR]. replace (0 / 4) with 0 by lra. ring.
Qed.
Lemma sort_sorted_id l : Sorted Rle l -> sort l = l.
Proof. intros H. apply sorted_perm_eq; [apply sort_sorted|exact H|apply sort_perm]. Qed.
(** Multiplying by a positive number keeps the order. *)
Lemma sorted_scale f l : 0 < f -> Sorted Rle l -> Sorted Rle (map (fun x => x * f) l).
Proof.
  intros Hf. induction 1 as [|a l HS IH HR]; simpl; constructor; auto.
  destruct HR; simpl; constructor. nra.
Qed.
Lemma sort_scale f l : 0 < f -> sort (map (fun x => x * f) l) = map (fun x => x * f) (sort l).
Proof.
  intros Hf. apply sorted_perm_eq; [apply sort_sorted|apply sorted_scale; [exact Hf|apply sort_sorted]|].
  rewrite sort_perm. apply Permutation_map. symmetry. apply sort_perm.
Qed.
Lemma nth_scale f l i : nth i (map (fun x => x * f) l) 0 = nth i l 0 * f.
Proof. rewrite <- (map_nth (fun x => x * f)). f_equal. lra. Qed.
Lemma quantile_scale f q z : 0 < f -> quantile q (map (fun x => x * f) z) = quantile q z * f.
Proof. intros Hf. unfold quantile. rewrite map_length, (sort_scale f z Hf), !nth_scale. ring. Qed.
Lemma median_scale f z : 0 < f -> median (map (fun x => x * f) z) = median z * f.
Proof. intros Hf. unfold median. rewrite map_length, (sort_scale f z Hf), !nth_scale. destruct (Nat.even _); lra. Qed.
Lemma column_handed rows objs i : column rows objs i = handed rows objs i.
Proof. reflexivity. Qed.
Lemma nth_in_unit f rows p i : nth i (nth p (in_unit f rows) []) 0 = nth i (nth p rows []) 0 * f.
Proof.
  unfold in_unit. change (@nil R) with (map (fun x => x * f) (@nil R)). rewrite map_nth.
  rewrite nth_scale. reflexivity.
Qed.
Lemma column_in_unit f rows objs i : column (in_unit f rows) objs i = map (fun x => x * f) (handed rows objs i).
Proof. unfold column, handed. rewrite map_map. apply map_ext. intros p. apply nth_in_unit. Qed.
Lemma mq_some z : z <> [] -> prof_median z = Fin (median z) /\ err_low z = Fin (quantile (1/4) z / sqrt (INR (length z))) /\
  err_high z = Fin (quantile (3/4) z / sqrt (INR (length z))).
Proof. unfold prof_median, err_low, err_high, median_quantile. destruct z; [congruence|]. auto. Qed.

(** The two factors undo each other. *)
Lemma factors c : positive c -> exists f g, dens_from_out c = inl f /\ fig_factor c = inl g /\ 0 < f /\ 0 < g /\ f * g = 1 /\
  f = (out_m c / out_l c ^ 3) * (MASS_UNIT * (MPC / little_h c) ^ 3 / (MSUN10 / little_h c)).
Proof.
  intros (Hh & Hl & Hm).
  destruct (units_ok c ltac:(lra) ltac:(lra) ltac:(lra)) as (_ & _ & Ef). rewrite Ef.
  assert (Ml : 0 < MPC) by (unfold MPC; apply Rmult_lt_0_compat; [lra|apply pow_lt; lra]).
  assert (Mm : 0 < MSUN10) by (unfold MSUN10; apply Rmult_lt_0_compat; [lra|apply pow_lt; lra]).
  assert (Mu : 0 < MASS_UNIT) by (unfold MASS_UNIT; apply pow_lt; lra).
  unfold fig_factor. rewrite (internal_ok c ltac:(lra)). fold MPC MSUN10.
  set (l := MPC / little_h c). set (m := MSUN10 / little_h c).
  assert (Nl : 0 < l) by (unfold l; apply Rdiv_lt_0_compat; lra). assert (Nm : 0 < m) by (unfold m; apply Rdiv_lt_0_compat; lra).
  clearbody l m.
  assert (Pl : 0 < l ^ 3) by (apply pow_lt; lra). assert (Po : 0 < out_l c ^ 3) by (apply pow_lt; lra).
  assert (Nmu : 0 < m / MASS_UNIT) by (apply Rdiv_lt_0_compat; lra).
  assert (Pt : 0 < out_m c / out_l c ^ 3) by (apply Rdiv_lt_0_compat; lra).
  rewrite !pydiv_ok by lra.
  exists (out_m c / (m / MASS_UNIT) * / (out_l c / l) ^ 3), (m / MASS_UNIT / l ^ 3 / (out_m c / out_l c ^ 3)).
  split; [reflexivity|]. split; [reflexivity|].
  assert (Pq : 0 < out_l c / l) by (apply Rdiv_lt_0_compat; lra).
  split; [apply Rmult_lt_0_compat; [apply Rdiv_lt_0_compat; lra|apply Rinv_0_lt_compat, pow_lt; lra]|].
  split; [repeat apply Rdiv_lt_0_compat; lra|]. split; field; repeat split; lra.
Qed.

Lemma members_shown masses ed g : shown masses ed (S g) (group_members masses ed g).
Proof.
  unfold shown, group_members. split; [apply NoDup_filter, seq_NoDup|]. intros p. rewrite filter_In, in_seq, andb_true_iff.
  destruct (Rlt_dec (nth g ed 0) (nth p masses 0)), (Rlt_dec (nth p masses 0) (nth (S g) ed 0)); intuition (try lia; try discriminate; try lra).
Qed.
Lemma all_shown masses ed : shown masses ed 0 (seq 0 (length masses)).
Proof. split; [apply seq_NoDup|]. intros p. rewrite in_seq. intuition lia. Qed.
Lemma figure_objs_shown masses sp k : (k < length (figure_objs masses sp (length masses)))%nat ->
  shown masses (edges sp) k (nth k (figure_objs masses sp (length masses)) []).
Proof.
  intros Hk. unfold figure_objs in *. destruct k as [|g]; [apply all_shown|]. cbn [nth length] in *. rewrite map_length, seq_length in Hk.
  rewrite (nth_indep _ [] (group_members masses (edges sp) 0)) by (rewrite map_length, seq_length; lia).
  rewrite map_nth, seq_nth by lia. apply members_shown.
Qed.
Lemma F2_nth {A B} (P : A -> B -> Prop) l l' : Forall2 P l l' -> forall k da db, (k < length l)%nat -> P (nth k l da) (nth k l' db).
Proof. induction 1; intros [|k] da db Hk; cbn in *; auto; try lia. apply IHForall2. lia. Qed.
Lemma nth_map_seq {A} (f : nat -> A) n i d : (i < n)%nat -> nth i (map f (seq 0 n)) d = f i.
Proof. intros H. rewrite (nth_indep _ d (f 0%nat)) by (rewrite map_length, seq_length; lia). rewrite map_nth, seq_nth by lia. reflexivity. Qed.
Lemma map_nonempty {A B} (f : A -> B) l : l <> [] -> map f l <> [].
Proof. destruct l; simpl; congruence. Qed.

(** The solid line and the band, for every run that ends without an error. *)
Theorem C111_partial : forall minimize c r200 nobj masses args dens RO densfit ROfit m nb sel figs, positive c -> length masses = length sel ->
  plotDensProfs minimize c r200 nobj masses args dens RO densfit ROfit m nb sel (inl figs) ->
  exists limits, forall k, (k < length figs)%nat ->
  let fig := nth k figs (mkFigure [] [] [] []) in
  exists objs, shown masses limits k objs /\
  length (line fig) = length RO /\ length (low fig) = length RO /\ length (high fig) = length RO /\ length (curve fig) = length ROfit /\
  forall i, (i < length RO)%nat ->
    (objs = [] -> nth i (line fig) PInf = NaN) /\
    (objs <> [] -> exists x q1 q3, let a := x - q1 / sqrt (INR (length objs)) in let b := x + q3 / sqrt (INR (length objs)) in
       middle (handed dens objs i) x /\ quartile 1 (handed dens objs i) q1 /\ quartile 3 (handed dens objs i) q3 /\
       nth i (line fig) NaN = Fin x /\ nth i (low fig) NaN = Fin a /\ nth i (high fig) NaN = Fin b /\
       ((forall y, In y (handed dens objs i) -> 0 <= y) -> a <= x <= b)).
Proof.
  intros minimize c r200 nobj masses args dens RO densfit ROfit m nb sel figs Hc HL H.
  inversion H as [| | | |f o Hck Hd Hf Hv Hdr E]; subst o. destruct (factors c Hc) as (f' & g & Ef & Eg & Pf & Pg & Efg & _).
  rewrite Ef in Hf. injection Hf as ->.
  inversion Hdr as [| | |g' sp figs' Hsp Hg Hidx HF]; subst figs'. rewrite Eg in Hg. injection Hg as <-.
  exists (edges sp). intros k Hk fig.
  assert (Lp : length (pick r200 sel) = length masses) by (unfold pick; rewrite map_length; lia). rewrite Lp in HF.
  pose proof (F2_length _ _ _ HF) as Lf.
  assert (Lc : length (combine (figure_objs masses sp (length masses)) (figure_fobjs masses sp (length (in_unit f densfit)))) = length (figure_objs masses sp (length masses))).
  { rewrite combine_length. unfold figure_objs, figure_fobjs. cbn [length]. rewrite !map_length. lia. }
  pose proof (F2_nth _ _ _ HF k ([], []) (mkFigure [] [] [] []) ltac:(lia)) as D. fold fig in D.
  rewrite combine_nth in D by (unfold figure_objs, figure_fobjs; cbn [length]; rewrite !map_length; lia). cbn [fst snd] in D.
  exists (nth k (figure_objs masses sp (length masses)) []). split; [apply figure_objs_shown; lia|].
  set (objs := nth k _ []) in *. clearbody objs. clearbody fig.
  inversion D as [pars Hne Hfit Efig|Hnil Efig]; subst fig; cbn [line low high curve]; rewrite !map_length, ?seq_length; (split; [reflexivity|]); (split; [reflexivity|]); (split; [reflexivity|]); (split; [reflexivity|]); intros i Hi.
  - split; [intros; contradiction|]. intros _. rewrite !nth_map_seq by lia. rewrite column_in_unit.
    assert (Nz : handed dens objs i <> []) by (apply map_nonempty; exact Hne). assert (Lz : length objs = length (handed dens objs i)) by (unfold handed; rewrite map_length; reflexivity). rewrite Lz. clear Lz. set (z := handed dens objs i) in *. clearbody z.
    destruct (mq_some (map (fun x => x * f) z) (map_nonempty _ _ Nz)) as (-> & -> & ->).
    cbn [xsub xadd xneg xmul]. rewrite map_length, median_scale, !quantile_scale by lra.
    exists (median z), (quantile (1/4) z), (quantile (3/4) z). cbv zeta.
    split; [apply median_middle; exact Nz|]. split; [replace (1/4) with (INR 1 / 4) by (simpl; lra); apply quantile_quartile; [exact Nz|lia]|].
    split; [replace (3/4) with (INR 3 / 4) by (simpl; lra); apply quantile_quartile; [exact Nz|lia]|].
    assert (A1 : forall x, x * f * g = x) by (intros; rewrite Rmult_assoc, Efg; lra).
    assert (Sq : 0 < sqrt (INR (length z))) by (apply sqrt_lt_R0, INR_len_pos; exact Nz).
    split; [f_equal; apply A1|]. split; [f_equal; unfold Rdiv at 1; replace (median z * f + - (quantile (1/4) z * f * / sqrt (INR (length z)))) with ((median z - quantile (1/4) z / sqrt (INR (length z))) * f) by (field; lra); apply A1|].
    split; [f_equal; unfold Rdiv at 1; replace (median z * f + quantile (3/4) z * f * / sqrt (INR (length z))) with ((median z + quantile (3/4) z / sqrt (INR (length z))) * f) by (field; lra); apply A1|].
    intros Hp. assert (Q : forall q, 0 <= q <= 1 -> 0 <= quantile q z / sqrt (INR (length z))).
    { intros q Hq. destruct (quantile_within q z Nz Hq) as (a & b & Ha & _ & Hab). apply Hp in Ha.
      apply Rmult_le_pos; [lra|apply Rlt_le, Rinv_0_lt_compat, Sq]. }
    pose proof (Q (1/4) ltac:(lra)). pose proof (Q (3/4) ltac:(lra)). lra.
  - split; [intros _|intros; contradiction]. rewrite (nth_indep _ PInf ((fun _ : R => NaN) 0)) by (rewrite map_length; lia).
    rewrite (map_nth (fun _ : R => NaN) RO 0 i). reflexivity.
Qed.
Print Assumptions C111_partial.

(** ** The dashed curve *)
Lemma model_scale m f rho rest r v : model_value m (rho :: rest) r = Some v -> model_value m (rho * f :: rest) r = Some (v * f).
Proof.
  unfold model_value. destruct (is_str _ "einasto"); [|destruct (is_str _ "alpha_beta_gamma"); [|destruct (is_str _ "nfw")]];
    repeat (destruct rest as [|? rest]; try discriminate); intros E; assert (Z : forall a b : R, Some a = Some b -> a = b) by congruence; apply Z in E; subst v; f_equal;
    unfold getEinastoProf, getAlphaBetaGammaProf, getNFWProf, getHernquistProf, Rdiv; ring.
Qed.
Lemma model_none m f rho rest r : model_value m (rho :: rest) r = None -> model_value m (rho * f :: rest) r = None.
Proof.
  unfold model_value. destruct (is_str _ "einasto"); [|destruct (is_str _ "alpha_beta_gamma"); [|destruct (is_str _ "nfw")]];
    repeat (destruct rest as [|? rest]; try discriminate; try reflexivity).
Qed.
Lemma model_empty m r : model_value m [] r = None.
Proof. unfold model_value. destruct (is_str _ "einasto"); [|destruct (is_str _ "alpha_beta_gamma"); [|destruct (is_str _ "nfw")]]; reflexivity. Qed.
Lemma not_fin f a : (forall x, a <> Fin x) -> forall y, xmul a (Fin f) <> Fin y.
Proof. intros H y. destruct a as [x| | |]; [exfalso; apply (H x); reflexivity| | |]; cbn [xmul]; try discriminate; unfold inf_of; destruct (xsgn _); try discriminate; destruct (xsgn _); discriminate. Qed.
Lemma curve_scale m f pars r : curve_point m (scale_rho f pars) r = xmul (curve_point m pars r) (Fin f).
Proof.
  unfold curve_point, scale_rho. destruct pars as [|rho rest]; [cbn [finite]; rewrite model_empty; reflexivity|].
  assert (N : forall a, (forall x, a <> Fin x) -> finite (a :: rest) = None) by (intros a Ha; destruct a; cbn; auto; exfalso; eapply Ha; reflexivity).
  destruct rho as [x| | |]; [|rewrite N by (apply not_fin; discriminate); cbn [finite]; reflexivity ..].
  cbn [xmul finite]. destruct (finite rest) as [l|]; [|reflexivity].
  destruct (model_value m (x :: l) r) as [v|] eqn:E; [rewrite (model_scale _ f _ _ _ _ E)|rewrite (model_none _ f _ _ _ E)]; reflexivity.
Qed.
Lemma prof_median_unit f rows objs i : 0 < f -> objs <> [] -> prof_median (column (in_unit f rows) objs i) = Fin (median (handed rows objs i) * f).
Proof.
  intros Hf Ho. rewrite column_in_unit. destruct (mq_some (map (fun x => x * f) (handed rows objs i))) as (-> & _ & _); [apply map_nonempty, map_nonempty; exact Ho|].
  rewrite median_scale by lra. reflexivity.
Qed.
(** The size of the caller's unit of density in the units in which the fit is done. *)
Definition unit_size (c : config) : R := (out_m c / out_l c ^ 3) * (MASS_UNIT * (MPC / little_h c) ^ 3 / (MSUN10 / little_h c)).

(** Every curve is the model of a fit to the medians of the objects of its figure, put into the
    caller's unit. *)
Theorem C111_curve : forall minimize c r200 nobj masses args dens RO densfit ROfit m nb sel figs, positive c -> length masses = length sel -> length densfit = length sel ->
  plotDensProfs minimize c r200 nobj masses args dens RO densfit ROfit m nb sel (inl figs) ->
  exists limits, forall k, (k < length figs)%nat ->
  let fig := nth k figs (mkFigure [] [] [] []) in
  exists objs, shown masses limits k objs /\
  (objs <> [] -> exists medians pars radius,
     length medians = length ROfit /\ (forall i, (i < length ROfit)%nat -> exists x, middle (handed densfit objs i) x /\ nth i medians NaN = Fin (x * unit_size c)) /\
     radius * INR (length objs) = rsum (map (fun p => nth (Z.to_nat (nth p sel 0%Z)) r200 0) objs) /\
     fitDensProf minimize ROfit m medians radius 0 (pars, 0%nat) /\
     forall i ps v, (i < length ROfit)%nat -> pars = map Fin ps -> model_value m ps (nth i ROfit 0 * radius) = Some v ->
       nth i (curve fig) NaN = Fin (v / unit_size c)).
Proof.
  intros minimize c r200 nobj masses args dens RO densfit ROfit m nb sel figs Hc HL HLf H.
  inversion H as [| | | |f o Hck Hd Hf Hv Hdr E]; subst o. destruct (factors c Hc) as (f' & g & Ef & Eg & Pf & Pg & Efg & Ev).
  rewrite Ef in Hf. injection Hf as ->.
  inversion Hdr as [| | |g' sp figs' Hsp Hg Hidx HF]; subst figs'. rewrite Eg in Hg. injection Hg as <-.
  exists (edges sp). intros k Hk fig.
  assert (Lp : length (pick r200 sel) = length masses) by (unfold pick; rewrite map_length; lia). rewrite Lp in HF.
  assert (Lu : length (in_unit f densfit) = length masses) by (unfold in_unit; rewrite map_length; lia). rewrite Lu in HF.
  pose proof (F2_length _ _ _ HF) as Lf.
  change (figure_fobjs masses sp (length masses)) with (figure_objs masses sp (length masses)) in *.
  rewrite combine_length, Nat.min_id in Lf.
  pose proof (F2_nth _ _ _ HF k ([], []) (mkFigure [] [] [] []) ltac:(rewrite combine_length, Nat.min_id; lia)) as D. fold fig in D.
  rewrite combine_nth in D by reflexivity. cbn [fst snd] in D.
  exists (nth k (figure_objs masses sp (length masses)) []).
  pose proof (figure_objs_shown masses sp k ltac:(lia)) as Sh. split; [exact Sh|]. fold (unit_size c) in Ev.
  set (objs := nth k _ []) in *. clearbody objs. clearbody fig. intros Hne.
  inversion D as [pars _ Hfit Efig|Hnil Efig]; [|contradiction]. subst fig. cbn [curve]. clear D.
  exists (map (fun i => prof_median (column (in_unit f densfit) objs i)) (seq 0 (length ROfit))), pars, (mean (map (fun p => nth p (pick r200 sel) 0) objs)).
  split; [rewrite map_length, seq_length; reflexivity|]. split.
  { intros i Hi. exists (median (handed densfit objs i)). split; [apply median_middle, map_nonempty, Hne|].
    rewrite nth_map_seq by lia. rewrite prof_median_unit by assumption. rewrite Ev. reflexivity. }
  split.
  { unfold mean. rewrite map_length. field_simplify; [|apply not_0_INR; destruct objs; [contradiction|cbn; lia]].
    f_equal. apply map_ext_in. intros p Hp. destruct Sh as [_ Sh]. apply Sh in Hp. destruct Hp as [Hp _].
    unfold pick. rewrite (nth_indep _ 0 ((fun z => nth (Z.to_nat z) r200 0) 0%Z)) by (rewrite map_length; lia). rewrite (map_nth (fun z => nth (Z.to_nat z) r200 0)). reflexivity. }
  split; [exact Hfit|].
  intros i ps v Hi Hps Hv'. set (rd := mean _) in *. clearbody rd.
  rewrite (nth_indep _ NaN ((fun x => curve_point m (scale_rho g pars) (x * rd)) 0)) by (rewrite map_length; lia).
  rewrite (map_nth (fun x => curve_point m (scale_rho g pars) (x * rd))). rewrite curve_scale. subst pars. unfold curve_point.
  assert (Fp : forall l, finite (map Fin l) = Some l) by (induction l as [|a l IH]; cbn; [reflexivity|rewrite IH; reflexivity]).
  rewrite Fp, Hv'. cbn [xmul]. f_equal. rewrite <- Ev. replace g with (/ f); [reflexivity|]. apply Rmult_eq_reg_l with f; [|lra]. rewrite Efg. field. lra.
Qed.
Print Assumptions C111_curve.
(** ** Another output unit changes the numbers and nothing else *)
Definition scaled (k : R) (fig : figure) : figure :=
  mkFigure (map (fun x => xmul x (Fin k)) (line fig)) (map (fun x => xmul x (Fin k)) (low fig)) (map (fun x => xmul x (Fin k)) (high fig)) (map (fun x => xmul x (Fin k)) (curve fig)).
Lemma xmul_assoc_fin a f k : 0 < f -> 0 < k -> xmul (xmul a (Fin f)) (Fin k) = xmul a (Fin (f * k)).
Proof.
  intros Hf Hk. destruct a; cbn [xmul]; [f_equal; ring| | |reflexivity]; cbn [xsgn]; unfold sgn;
    destruct (Rlt_dec 0 f); try lra; destruct (Rlt_dec 0 (f * k)); try (exfalso; nra); cbn [inf_of xmul xsgn]; unfold sgn; destruct (Rlt_dec 0 k); try lra; reflexivity.
Qed.
Lemma in_unit_twice k f rows : in_unit f (in_unit k rows) = in_unit (k * f) rows.
Proof. unfold in_unit. rewrite map_map. apply map_ext. intros r. rewrite map_map. apply map_ext. intros. ring. Qed.
Lemma drawn_scaled minimize f k m ROfit RO densfit dens r200s objs fobjs fig : 0 < f -> 0 < k ->
  drawn minimize f m ROfit RO densfit dens r200s objs fobjs fig -> drawn minimize (f * k) m ROfit RO densfit dens r200s objs fobjs (scaled k fig).
Proof.
  intros Hf Hk D. inversion D as [pars Hne Hfit E|Hnil E]; subst fig; unfold scaled; cbn [line low high curve]; rewrite !map_map.
  - pose proof (drawn_some minimize (f * k) m ROfit RO densfit dens r200s objs fobjs pars Hne Hfit) as D'.
    match type of D' with drawn _ _ _ _ _ _ _ _ _ _ ?x => match goal with |- drawn _ _ _ _ _ _ _ _ _ _ ?y => replace y with x; [exact D'|] end end.
    f_equal; apply map_ext; intros; rewrite ?curve_scale; symmetry; apply xmul_assoc_fin; assumption.
  - apply drawn_none. assumption.
Qed.
Theorem C111_units : forall minimize c c' k r200 nobj masses args dens RO densfit ROfit m nb sel figs, positive c -> positive c' -> little_h c' = little_h c ->
  out_m c / out_l c ^ 3 = k * (out_m c' / out_l c' ^ 3) ->
  plotDensProfs minimize c r200 nobj masses args dens RO densfit ROfit m nb sel (inl figs) ->
  plotDensProfs minimize c' r200 nobj masses args (in_unit k dens) RO (in_unit k densfit) ROfit m nb sel (inl (map (scaled k) figs)).
Proof.
  intros minimize c c' k r200 nobj masses args dens RO densfit ROfit m nb sel figs Hc Hc' Eh Ek H.
  inversion H as [| | | |f o Hck Hd Hf Hv Hdr E]; subst o. destruct (factors c Hc) as (f1 & g & Ef & Eg & Pf & Pg & Efg & Ev).
  rewrite Ef in Hf. injection Hf as ->. destruct (factors c' Hc') as (f' & g' & Ef' & Eg' & Pf' & Pg' & Efg' & Ev'). rewrite Eh in Ev'.
  assert (Ekf : f = k * f') by (rewrite Ev, Ev', Ek; ring).
  assert (Hk : 0 < k) by nra.
  assert (Eg2 : g' = g * k) by (apply Rmult_eq_reg_l with f'; [rewrite Efg'; replace (f' * (g * k)) with (k * f' * g) by ring; rewrite <- Ekf; lra|lra]).
  inversion Hdr as [| | |g1 sp figs' Hsp Hg Hidx HF]; subst figs'. rewrite Eg in Hg. injection Hg as <-.
  apply (pp_draw _ _ _ _ _ _ _ _ _ _ _ _ _ f'); [exact Hck|unfold in_unit; rewrite map_length; exact Hd|exact Ef'|exact Hv|].
  rewrite !in_unit_twice, <- Ekf. apply (dd_ok _ _ _ _ _ _ _ _ _ _ _ g' sp); [exact Hsp|exact Eg'|exact Hidx|].
  clear - HF Pg Hk Eg2. induction HF as [|x y l l' Hx HF IH]; cbn [map]; constructor; [|exact IH]. rewrite Eg2. apply drawn_scaled; assumption.
Qed.
Print Assumptions C111_units.

(** ** Runs *)
Definition total (minimize : minimiser) : Prop := forall a b c d, minimize a b c d None \/ exists rho rest, minimize a b c d (Some (rho :: rest)).
Lemma drawn_exists minimize f m ROfit RO densfit dens r200s objs fobjs : total minimize ->
  exists fig, drawn minimize f m ROfit RO densfit dens r200s objs fobjs fig.
Proof.
  intros T. destruct objs as [|p objs]; [eexists; apply drawn_none; reflexivity|].
  set (md := map (fun i => prof_median (column densfit fobjs i)) (seq 0 (length ROfit))). set (r := mean (map (fun p => nth p r200s 0) (p :: objs))).
  assert (exists pars, fitDensProf minimize ROfit m md r 0 (pars, 0%nat)) as [pars Hp].
  { destruct (T (min_method m) (toMinimize m (rescaled_points (kept ROfit md r))) (iguess m r) (bounds m)) as [H|(rho & rest & H)]; eexists; [eapply fit_value_error|eapply fit_found]; exact H. }
  eexists. apply (drawn_some _ _ _ _ _ _ _ _ _ _ pars); [discriminate|exact Hp].
Qed.
Lemma plot_runs minimize c r200 nobj masses args dens RO densfit ROfit m nb sel : total minimize -> positive c -> checkDensFitMethod m = true ->
  length dens = length sel -> length masses = length sel -> (length sel <= length densfit)%nat -> valid_numbers sel nobj = true -> (0 < nb)%nat ->
  exists figs, (0 < length figs)%nat /\ plotDensProfs minimize c r200 nobj masses args dens RO densfit ROfit m nb sel (inl figs).
Proof.
  intros T Hc Hm Ld Lm Lf Hv Hb. destruct (factors c Hc) as (f & g & Ef & Eg & _).
  assert (exists sp, M_split tt masses [] None args nb = Some sp) as [sp Hsp].
  { unfold M_split. destruct nb; [lia|]. match goal with |- context [if ?b then _ else _] => destruct b end; eexists; reflexivity. }
  set (l := combine (figure_objs masses sp (length (pick r200 sel))) (figure_fobjs masses sp (length (in_unit f densfit)))).
  assert (exists figs, Forall2 (fun g' fig => drawn minimize g m ROfit RO (in_unit f densfit) (in_unit f dens) (pick r200 sel) (fst g') (snd g') fig) l figs) as [figs HF].
  { clearbody l. induction l as [|x l [figs IH]]; [exists []; constructor|].
    destruct (drawn_exists minimize g m ROfit RO (in_unit f densfit) (in_unit f dens) (pick r200 sel) (fst x) (snd x) T) as [fig Hfig]. exists (fig :: figs). constructor; assumption. }
  exists figs. split; [rewrite <- (F2_length _ _ _ HF); unfold l, figure_objs, figure_fobjs; cbn; lia|].
  apply (pp_draw _ _ _ _ _ _ _ _ _ _ _ _ _ f); try assumption. apply (dd_ok _ _ _ _ _ _ _ _ _ _ _ g sp); try assumption.
  intros objs p Ho Hp. cbn [figure_objs tl] in Ho. apply in_map_iff in Ho. destruct Ho as (k & <- & _).
  pose proof (members_shown masses (edges sp) k) as [_ S]. apply S in Hp. unfold in_unit. rewrite map_length. lia.
Qed.

(** ** Examples *)
Definition mpc_cfg : config := mkConfig 1 1 1 (7 / 10) 1 1 1.
Definition nfw : mdict := [("profile"%string, MStr "nfw")].
Definition gives_up : minimiser := fun _ _ _ _ r => r = None.
Definition one_one : minimiser := fun _ _ _ _ r => r = Some [Fin 1; Fin 1].
Lemma mpc_positive : positive mpc_cfg.
Proof. unfold positive, mpc_cfg; cbn [little_h out_l out_m]. lra. Qed.
Lemma nfw_method : checkDensFitMethod nfw = true.
Proof. reflexivity. Qed.
Lemma gives_up_total : total gives_up.
Proof. intros a b c d. left. reflexivity. Qed.
Lemma one_one_total : total one_one.
Proof. intros a b c d. right. exists (Fin 1), [Fin 1]. reflexivity. Qed.
Lemma quartile_const j z v q : (j <= 3)%nat -> z <> [] -> (forall y, In y z -> y = v) -> quartile j z q -> q = v.
Proof.
  intros Hj Hz Hv (s & Hp & _ & ->). assert (L : (1 <= length z)%nat) by (destruct z; [congruence|simpl; lia]).
  assert (N : forall t, (t < length z)%nat -> nth t s 0 = v).
  { intros t Ht. apply Hv, (Permutation_in _ Hp), nth_In. rewrite (Permutation_length Hp). exact Ht. }
  set (k := (j * (length z - 1) / 4)%nat). set (r := (j * (length z - 1) mod 4)%nat).
  assert (D : (j * (length z - 1) = 4 * k + r)%nat) by apply Nat.div_mod_eq. assert (Hr : (r < 4)%nat) by (apply Nat.mod_upper_bound; lia). clearbody k r.
  rewrite (N k) by nia. destruct (Nat.eq_dec r 0) as [->|Hr0]; [cbn [INR]; lra|]. rewrite (N (S k)) by nia. ring.
Qed.
Lemma shown_length masses limits objs : shown masses limits 0 objs -> length objs = length masses.
Proof.
  intros [ND H]. rewrite <- (seq_length (length masses) 0). apply Permutation_length, NoDup_Permutation; [exact ND|apply seq_NoDup|].
  intros p. rewrite in_seq, H. intuition lia.
Qed.

(** The property fails for the band: it has a width although all profiles are the same. *)
Theorem C111_refuted : ~ (forall minimize c r200 nobj masses args dens RO densfit ROfit m nb sel figs i, positive c -> length masses = length sel ->
  plotDensProfs minimize c r200 nobj masses args dens RO densfit ROfit m nb sel (inl figs) -> (0 < length figs)%nat -> (i < length RO)%nat ->
  no_scatter (map (fun row => nth i row 0) dens) ->
  nth i (low (nth 0 figs (mkFigure [] [] [] []))) NaN = nth i (line (nth 0 figs (mkFigure [] [] [] []))) NaN).
Proof.
  intros H. set (masses := [1; 2; 3; 4]). set (dens := [[1]; [1]; [1]; [1]]). set (sel := [0%Z; 1%Z; 2%Z; 3%Z]).
  destruct (plot_runs gives_up mpc_cfg [1; 1; 1; 1] 4 masses [0; 1; 2; 3]%nat dens [1] dens [1] nfw 1 sel) as (figs & Hl & HP);
    [apply gives_up_total|apply mpc_positive|apply nfw_method|reflexivity|reflexivity|cbn; lia|reflexivity|lia|].
  assert (L0 : length masses = length sel) by reflexivity.
  pose proof (H _ _ _ _ _ _ _ _ _ _ _ _ _ _ 0%nat mpc_positive L0 HP Hl ltac:(cbn; lia) ltac:(intros x y; cbn; intuition lra)) as E. clear H.
  destruct (C111_partial _ _ _ _ _ _ _ _ _ _ _ _ _ _ mpc_positive L0 HP) as (limits & Q). destruct (Q 0%nat Hl) as (objs & Sh & _ & _ & _ & _ & V). clear Q.
  pose proof (shown_length _ _ _ Sh) as L. destruct (V 0%nat ltac:(cbn; lia)) as [_ V']. clear V.
  destruct V' as (x & q1 & q3 & Hm & H1 & _ & El & Ea & _); [intros ->; discriminate L|].
  assert (Hall : forall y, In y (handed dens objs 0) -> y = 1).
  { intros y Hy. apply in_map_iff in Hy. destruct Hy as (p & <- & Hp). destruct Sh as [_ Sh]. apply Sh in Hp. destruct Hp as [Hp _]. cbn [length masses] in Hp.
    do 4 (destruct p as [|p]; [reflexivity|]). cbn in Hp. lia. }
  apply (quartile_const 1 _ 1) in H1; [|lia|intros Hn; apply map_eq_nil in Hn; subst objs; discriminate L|exact Hall]. subst q1.
  rewrite E, El, L in Ea. assert (Z : forall a b, Fin a = Fin b -> a = b) by congruence. apply Z in Ea. change (length masses) with 4%nat in Ea.
  assert (S : 0 < / sqrt (INR 4)) by (apply Rinv_0_lt_compat, sqrt_lt_R0; cbn; lra). unfold Rdiv in Ea. rewrite Rmult_1_l in Ea. lra.
Qed.
Print Assumptions C111_refuted.

(** Nor is the second array of profiles compared with the selection. *)
Theorem C111_rows_refuted : ~ (forall minimize c r200 nobj masses args dens RO densfit ROfit m nb sel figs, positive c -> length masses = length sel ->
  plotDensProfs minimize c r200 nobj masses args dens RO densfit ROfit m nb sel (inl figs) -> length densfit = length sel).
Proof.
  intros H. destruct (plot_runs gives_up mpc_cfg [1] 1 [1] [0%nat] [[1]] [1] [[1]; [5]] [1] nfw 1 [0%Z]) as (figs & Hl & HP);
    [apply gives_up_total|apply mpc_positive|apply nfw_method|reflexivity|reflexivity|cbn; lia|reflexivity|lia|].
  apply H in HP; [discriminate HP|apply mpc_positive|reflexivity].
Qed.
Print Assumptions C111_rows_refuted.

(** Three objects, a fit that is found, a unit of one tenth: the first figure shows the median of
    the three, the curve is there. *)
Definition tenth_cfg : config := mkConfig 1 1 1 (7 / 10) 1 (1 / 10) 1.
Example C111_ex : exists figs, positive mpc_cfg /\ positive tenth_cfg /\ out_m mpc_cfg / out_l mpc_cfg ^ 3 = 10 * (out_m tenth_cfg / out_l tenth_cfg ^ 3) /\
  plotDensProfs one_one mpc_cfg [1; 1; 1] 3 [1; 2; 3] [0; 1; 2]%nat [[5]; [7]; [9]] [1] [[5]; [7]; [9]] [1] nfw 1 [0%Z; 1%Z; 2%Z] (inl figs) /\
  (0 < length figs)%nat /\ nth 0 (line (nth 0 figs (mkFigure [] [] [] []))) NaN = Fin 7.
Proof.
  destruct (plot_runs one_one mpc_cfg [1; 1; 1] 3 [1; 2; 3] [0; 1; 2]%nat [[5]; [7]; [9]] [1] [[5]; [7]; [9]] [1] nfw 1 [0%Z; 1%Z; 2%Z]) as (figs & Hl & HP);
    [apply one_one_total|apply mpc_positive|apply nfw_method|reflexivity|reflexivity|cbn; lia|reflexivity|lia|].
  exists figs. split; [apply mpc_positive|]. split; [unfold positive, tenth_cfg; cbn [little_h out_l out_m]; lra|].
  split; [unfold mpc_cfg, tenth_cfg; cbn [out_l out_m]; field|]. split; [exact HP|]. split; [exact Hl|].
  assert (L0 : length [1; 2; 3] = length [0%Z; 1%Z; 2%Z]) by reflexivity.
  destruct (C111_partial _ _ _ _ _ _ _ _ _ _ _ _ _ _ mpc_positive L0 HP) as (limits & Q). destruct (Q 0%nat Hl) as (objs & Sh & _ & _ & _ & _ & V). clear Q.
  pose proof (shown_length _ _ _ Sh) as L. destruct (V 0%nat ltac:(cbn; lia)) as [_ V']. clear V.
  destruct V' as (x & q1 & q3 & Hm & _ & _ & -> & _); [intros ->; discriminate L|]. f_equal. cbn in L.
  assert (Pm : Permutation objs [0; 1; 2]%nat).
  { destruct Sh as [ND Sh]. apply NoDup_Permutation; [exact ND|apply (seq_NoDup 3 0)|]. intros p. rewrite Sh. cbn. intuition lia. }
  destruct Hm as (s & Hp & Hs & ->). unfold handed in Hp. rewrite (Permutation_map _ Pm) in Hp. cbn in Hp.
  assert (s = [5; 7; 9]) as ->. { apply sorted_perm_eq; [exact Hs|repeat constructor; lra|exact Hp]. }
  unfold handed. rewrite map_length, L. cbn. lra.
Qed.
