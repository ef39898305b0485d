(** C108: the centre of an object in the shape results and in the density results. *)
From Coq Require Import List Reals ZArith Lra Lia Bool Arith.
From Verif Require Import ListUtil ParModel ParProofs CatMpi XR CatModel GeoModel GeoSpec GeoProofs GeoProps ShapeModel ShapeSpec ShapeProofs
  Spectral ShapePar ShapeExamples ShapeProps EpsModel DensMove ShapeMoveModel ShapeMoveProps.
Import ListNotations.
Open Scope R_scope.

(** ** Lemmas *)
Lemma mode_det f g ps rad v w : calcMode f ps rad = Some v -> calcMode g ps rad = Some w -> v = w.
Proof.
  intros H K. apply (mode_fuel_mono f (f + g)) in H; [|lia]. apply (mode_fuel_mono g (f + g)) in K; [|lia]. congruence.
Qed.
Lemma filter_all {X} (f : X -> bool) l : (forall x, In x l -> f x = true) -> filter f l = l.
Proof. induction l as [|a l IH]; intros H; cbn; [reflexivity|]. rewrite H by (left; auto). f_equal. apply IH. intros; apply H; right; auto. Qed.
Lemma filter_short {X} (f : X -> bool) l : (length (filter f l) <= length l)%nat.
Proof. induction l as [|a l IH]; cbn; [lia|]. destruct (f a); cbn; lia. Qed.
Lemma mode_keep n : forall ps rad fuel, 0 < rad -> (5 <= length ps)%nat ->
  (forall p, In p ps -> norm (vsub (fst p) (mode_com ps)) < rad * (83 / 100) ^ n) ->
  calcMode (S n + fuel) ps rad = calcMode fuel ps (rad * (83 / 100) ^ S n).
Proof.
  induction n as [|n IH]; intros ps rad fuel Hr Hl H.
  - cbn [Nat.add calcMode]. rewrite filter_all.
    + destruct (Nat.ltb_spec (length ps) 5); [lia|]. f_equal. cbn [pow]. ring.
    + intros p Hp. apply Rltb_true. specialize (H p Hp). cbn [pow] in H. lra.
  - change (S (S n) + fuel)%nat with (S (S n + fuel)).
    assert (P : 0 < (83 / 100) ^ n) by (apply pow_lt; lra).
    assert (P1 : (83 / 100) ^ S n <= 1).
    { rewrite <- (pow1 (S n)). apply pow_incr. lra. }
    remember (S n + fuel)%nat as k eqn:Ek. cbn [calcMode]. rewrite filter_all.
    + destruct (Nat.ltb_spec (length ps) 5); [lia|]. subst k. rewrite IH; auto.
      * f_equal. cbn [pow]. ring.
      * lra.
      * intros p Hp. specialize (H p Hp). cbn [pow] in H. lra.
    + intros p Hp. apply Rltb_true. specialize (H p Hp).
      assert (rad * (83 / 100) ^ S n <= rad * 1) by (apply Rmult_le_compat_l; lra). lra.
Qed.
Lemma mode_small fuel ps rad : (length ps < 5)%nat -> calcMode (S fuel) ps rad = Some (mode_com ps).
Proof.
  intros H. cbn [calcMode]. match goal with |- context [filter ?f ps] => set (l := filter f ps) end.
  assert (length l <= length ps)%nat by apply filter_short.
  destruct (Nat.ltb_spec (length l) 5); [reflexivity|lia].
Qed.

(** ** The centres returned by the two calls *)
Lemma dens_centres mfuel kind choose objs L cs ms : calcMassesCenters mfuel kind choose objs L (Some (cs, ms)) ->
  exists cen, cs = recentreObject cen L /\
    Forall2 (fun po c => center_of mfuel kind (choose (fst po)) 1000 L (snd po) = Some c) (combine (seq 0 (length objs)) objs) cen.
Proof. intros H. inversion H as [|cen m' F P E]; subst. exists cen. auto. Qed.
Lemma shape_centres mfuel kind choose eig fuel c L vt objs r200 r cs : morph_call mfuel kind choose eig fuel c L vt objs r200 (r, cs) ->
  exists cen, cs = recentreObject cen L /\
    Forall2 (fun po cen => shape_center mfuel kind (choose (fst po)) L (snd po) = Some cen) (combine (seq 0 (length objs)) objs) cen.
Proof. intros H. inversion H as [cen r0 F P E]; subst. exists cen. auto. Qed.

Lemma center_unsplit mfuel kind choose rad L o : unsplit L o -> o <> [] -> valid_choice choose (length o) ->
  center_of mfuel kind choose rad L (map pm o) =
  match kind with CMode => calcMode mfuel (map pm o) rad | CCom => Some (calcCoM choose (map pm o)) end.
Proof.
  intros Hu Hne Hv. destruct (unsplit_both L choose o Hu Hne Hv) as (A & _).
  assert (EP : map fst (map pm o) = map pos o) by (rewrite map_map; reflexivity).
  assert (CF : forall l : list ptc, combine (map fst l) (map snd l) = l).
  { induction l as [|[x m] l IH]; [reflexivity|]. cbn. f_equal. exact IH. }
  unfold center_of. rewrite EP, A, <- EP, CF. reflexivity.
Qed.

(* Objects that lie within half a box on every axis have the same centre in both results, whatever rows
   the two calls draw, if the centre is the centre of mass or the object has fewer than five particles. *)
Theorem C108_partial : forall mfuel mfuel' kind choose choose' eig fuel c L vt objs r200 r cs ms cs',
  (forall p o, nth_error objs p = Some o ->
     unsplit L o /\ o <> [] /\ valid_choice (choose p) (length o) /\ valid_choice (choose' p) (length o) /\
     (forall q, In q o -> 0 < snd q) /\ (kind = CCom \/ (length o < 5)%nat)) ->
  calcMassesCenters mfuel kind choose (map (map pm) objs) L (Some (cs, ms)) ->
  morph_call mfuel' kind choose' eig fuel c L vt objs r200 (r, cs') ->
  cs = cs'.
Proof.
  intros mfuel mfuel' kind choose choose' eig fuel c L vt objs r200 r cs ms cs' Ho H K.
  apply dens_centres in H. apply shape_centres in K. destruct H as (a & -> & F). destruct K as (b & -> & G). f_equal.
  rewrite map_length in F.
  assert (LA : length a = length objs) by (apply Forall2_length in F; rewrite combine_length, seq_length, map_length in F; lia).
  assert (LB : length b = length objs) by (apply Forall2_length in G; rewrite combine_length, seq_length in G; lia).
  apply (nth_ext _ _ v0 v0); [congruence|]. intros p Hp.
  destruct (nth_error objs p) as [o|] eqn:E; [|apply nth_error_None in E; lia].
  destruct (nth_error a p) as [x|] eqn:Ea; [|apply nth_error_None in Ea; lia].
  destruct (nth_error b p) as [y|] eqn:Eb; [|apply nth_error_None in Eb; lia].
  rewrite (nth_error_nth a p v0 Ea), (nth_error_nth b p v0 Eb).
  assert (N : forall {X} (l : list X) z, nth_error l p = Some z -> nth_error (combine (seq 0 (length l)) l) p = Some (p, z)).
  { intros X l z Hz. assert (p < length l)%nat by (apply nth_error_Some; congruence).
    rewrite (nth_error_nth' _ (0%nat, z)) by (rewrite combine_length, seq_length; lia).
    rewrite combine_nth by apply seq_length. rewrite seq_nth by auto. rewrite (nth_error_nth l p z Hz). reflexivity. }
  destruct (Forall2_nth_r _ _ _ F p x Ea) as ([p1 o1] & N1 & S1).
  destruct (Forall2_nth_r _ _ _ G p y Eb) as ([p2 o2] & N2 & S2).
  rewrite (N _ _ _ E) in N2. injection N2 as <- <-.
  rewrite <- (map_length (map pm) objs) in N1. rewrite (N _ _ (map pm o) (map_nth_error (map pm) p objs E)) in N1. injection N1 as <- <-.
  cbn [fst snd] in S1, S2. destruct (Ho p o E) as (Hu & Hne & Hv & Hv' & Hm & Hk).
  unfold shape_center in S2. rewrite center_unsplit in S1, S2 by auto.
  assert (Hm' : mass (map pm o) <> 0).
  { apply Rgt_not_eq, total_pos; [|destruct o; [congruence|discriminate]]. intros q Hq. apply in_map_iff in Hq. destruct Hq as (q' & <- & Hq). exact (Hm q' Hq). }
  destruct kind.
  - destruct Hk as [Hk|Hk]; [discriminate|]. destruct mfuel as [|f]; [discriminate|]. destruct mfuel' as [|f']; [discriminate|].
    rewrite mode_small in S1, S2 by (rewrite map_length; auto). congruence.
  - injection S1 as <-. injection S2 as <-. apply vec_ext. intros ax Hax. rewrite !com_mean by auto. reflexivity.
Qed.
Print Assumptions C108_partial.

(** ** The mode of six particles in a line *)
Definition on_line (x : R) : vec := mkV (50 + x) 50 50.
Definition line6 : list vec := map on_line [0; 1/10; 2/10; 5/10; 7/10; 8/10].
Definition chain6 : list vptc := map (fun x => (x, v0, 1)) line6.

Lemma line_com xs : xs <> [] -> mode_com (map (fun x => (on_line x, 1)) xs) = on_line (total (fun x => x) xs / INR (length xs)).
Proof.
  intros Hne. assert (0 < INR (length xs)) by (apply lt_0_INR; destruct xs; [congruence|cbn; lia]).
  apply vec_ext. intros ax Hax. rewrite mode_com_mean by auto. unfold mean, mass. rewrite !total_map. cbn [fst snd].
  rewrite total_const, Rmult_1_r.
  assert (E : forall k, total (fun x => 1 * (k + x)) xs = INR (length xs) * k + total (fun x => x) xs).
  { intros k. rewrite (total_ext _ (fun x => k + x)) by (intros; ring). rewrite total_plus, total_const. reflexivity. }
  assert (E' : forall k, total (fun _ : R => 1 * k) xs = INR (length xs) * k) by (intros k; rewrite total_const; ring).
  axis Hax; cbn [on_line vx vy vz]; rewrite ?E, ?E'; field; lra.
Qed.
Lemma line_norm x c : norm (vsub (on_line x) (on_line c)) = Rabs (x - c).
Proof.
  unfold norm, vsub, on_line. cbn [vx vy vz]. rewrite <- sqrt_Rsqr_abs. f_equal. unfold Rsqr. ring.
Qed.
Lemma line_filter xs c rad : filter (fun p : ptc => Rltb (norm (vsub (fst p) (on_line c))) rad) (map (fun x => (on_line x, 1)) xs) =
  map (fun x => (on_line x, 1)) (filter (fun x => Rltb (Rabs (x - c)) rad) xs).
Proof.
  induction xs as [|x xs IH]; [reflexivity|]. cbn [map filter fst]. rewrite line_norm. destruct Rltb; cbn [map]; [f_equal|]; exact IH.
Qed.
Lemma ltb_yes a b : a < b -> Rltb a b = true.
Proof. apply Rltb_true. Qed.
Lemma ltb_no a b : b <= a -> Rltb a b = false.
Proof. intros H. unfold Rltb. destruct Rlt_dec; [lra|reflexivity]. Qed.
Ltac keep := rewrite ltb_yes by (apply Rabs_def1; lra).
Ltac drop_r := rewrite ltb_no by (rewrite Rabs_right; lra).
Ltac drop_l := rewrite ltb_no by (rewrite Rabs_left; lra).

Lemma chain_ptc : map pm chain6 = map (fun x => (on_line x, 1)) [0; 1/10; 2/10; 5/10; 7/10; 8/10].
Proof. reflexivity. Qed.
Lemma com_all : mode_com (map (fun x => (on_line x, 1)) [0; 1/10; 2/10; 5/10; 7/10; 8/10]) = on_line (23 / 60).
Proof. rewrite line_com by discriminate. f_equal. cbn. lra. Qed.

Lemma mode_extent fuel : calcMode (4 + S fuel) (map pm chain6) (8 / 10) = Some (on_line (23 / 60)).
Proof.
  rewrite chain_ptc. rewrite (mode_keep 3) with (fuel := S fuel); [|lra|cbn; lia|].
  - cbn [calcMode]. rewrite com_all, line_filter. cbn [pow filter]. drop_l. do 4 keep. drop_r. cbn. reflexivity.
  - intros p Hp. rewrite com_all. apply in_map_iff in Hp. destruct Hp as (x & <- & Hx). cbn [fst]. rewrite line_norm. cbn [pow].
    apply Rabs_def1; cbn in Hx; intuition subst; lra.
Qed.
Lemma mode_1000 fuel : calcMode (42 + S (S fuel)) (map pm chain6) 1000 = Some (on_line (3 / 10)).
Proof.
  rewrite chain_ptc. rewrite (mode_keep 41) with (fuel := S (S fuel)); [|lra|cbn; lia|].
  - assert (B : 39 / 100 < 1000 * (83 / 100) ^ 42 < 40 / 100) by (cbn [pow]; lra). set (rad := 1000 * _) in *. clearbody rad.
    cbn [calcMode]. rewrite com_all, line_filter. cbn [filter]. do 5 keep. drop_r. cbn [map length Nat.ltb Nat.leb].
    change ([(on_line 0, 1); (on_line (1/10), 1); (on_line (2/10), 1); (on_line (5/10), 1); (on_line (7/10), 1)])
      with (map (fun x => (on_line x, 1)) [0; 1/10; 2/10; 5/10; 7/10]).
    rewrite line_com by discriminate. replace (total (fun x => x) [0; 1/10; 2/10; 5/10; 7/10] / INR (length [0; 1/10; 2/10; 5/10; 7/10])) with (3 / 10) by (cbn; lra).
    rewrite line_filter. cbn [filter]. do 4 keep. drop_r. reflexivity.
  - intros p Hp. rewrite com_all. apply in_map_iff in Hp. destruct Hp as (x & <- & Hx). cbn [fst]. rewrite line_norm.
    assert (B : 47 / 100 < 1000 * (83 / 100) ^ 41) by (cbn [pow]; lra).
    apply Rabs_def1; cbn in Hx; intuition subst; lra.
Qed.

Lemma chain_unsplit : unsplit 100 chain6.
Proof.
  right. split; [lra|]. intros q q' ax Hq Hq' Hax. apply Rabs_le.
  assert (B : forall q, In q (map pm chain6) -> 50 <= ax (fst q) <= 51).
  { intros x Hx. cbn in Hx. intuition subst; axis Hax; cbn; lra. }
  pose proof (B q Hq). pose proof (B q' Hq'). lra.
Qed.
Lemma chain_extent choose : valid_choice choose 6 -> extent (respectPBCNoRef choose (map fst (map pm chain6)) 100) = 8 / 10.
Proof.
  intros Hv. replace (map fst (map pm chain6)) with (map pos chain6) by reflexivity.
  rewrite (proj1 (unsplit_both 100 choose chain6 chain_unsplit ltac:(discriminate) Hv)).
  unfold extent, spread, chain6, line6, on_line. cbn.
  repeat match goal with |- context [Rmax ?a ?b] => first [rewrite (Rmax_left a b) by lra | rewrite (Rmax_right a b) by lra] end.
  repeat match goal with |- context [Rmin ?a ?b] => first [rewrite (Rmin_left a b) by lra | rewrite (Rmin_right a b) by lra] end.
  repeat match goal with |- context [Rmax ?a ?b] => first [rewrite (Rmax_left a b) by lra | rewrite (Rmax_right a b) by lra] end. lra.
Qed.

(* The centre of these six particles by 'mode' is (50.3, 50, 50) among the masses and centres and in the
   density profiles, and (50.38333, 50, 50) in the shape results, in every run. *)
Theorem C108_refuted : forall eig fuel c vt choose choose',
  valid_choice (choose 0%nat) 6 -> valid_choice (choose' 0%nat) 6 ->
  (exists x, calcMassesCenters 50 CMode choose [map pm chain6] 100 (Some x)) /\
  (exists y, morph_call 50 CMode choose' eig fuel c 100 vt [chain6] [1] y) /\
  forall mfuel mfuel' cs ms r cs',
    calcMassesCenters mfuel CMode choose [map pm chain6] 100 (Some (cs, ms)) ->
    morph_call mfuel' CMode choose' eig fuel c 100 vt [chain6] [1] (r, cs') ->
    cs = [mkV (503 / 10) 50 50] /\ cs' = [mkV (3023 / 60) 50 50].
Proof.
  intros eig fuel c vt choose choose' Hv Hv'.
  assert (D : forall m, center_of m CMode (choose 0%nat) 1000 100 (map pm chain6) = calcMode m (map pm chain6) 1000).
  { intros m. apply (center_unsplit m CMode); [apply chain_unsplit|discriminate|exact Hv]. }
  assert (S : forall m, shape_center m CMode (choose' 0%nat) 100 chain6 = calcMode m (map pm chain6) (8 / 10)).
  { intros m. unfold shape_center. rewrite chain_extent by auto. apply (center_unsplit m CMode); [apply chain_unsplit|discriminate|exact Hv']. }
  assert (RC : forall x, 0 <= x < 1 -> recentreObject [on_line x] 100 = [on_line x]).
  { intros x Hx. unfold recentreObject, on_line. destruct (Req_EM_T 100 0); [lra|]. cbn [map vx vy vz]. rewrite !recentre1_in by lra. reflexivity. }
  split; [|split].
  - destruct (prange_exists 1 (mass_body [map pm chain6]) (fun _ => 0)) as (m' & Hm).
    eexists. apply (cmc_ok _ _ _ _ _ [on_line (3 / 10)] m'); [|exact Hm]. repeat constructor. cbn [fst snd]. rewrite D. apply (mode_1000 6).
  - destruct (runs_exist eig fuel c 100 vt [chain6] [1] [on_line (23 / 60)]) as (r & Hr). exists (r, recentreObject [on_line (23 / 60)] 100).
    constructor; [|exact Hr]. repeat constructor. cbn [fst snd]. rewrite S. apply (mode_extent 45).
  - intros mfuel mfuel' cs ms r cs' H K. apply dens_centres in H. apply shape_centres in K. destruct H as (a & -> & F). destruct K as (b & -> & G).
    inversion F as [|? x ? l A B]; subst. inversion B; subst. inversion G as [|? y ? l' A' B']; subst. inversion B'; subst.
    cbn [fst snd] in A, A'. rewrite D in A. rewrite S in A'.
    rewrite (mode_det _ _ _ _ _ _ A (mode_1000 0)), (mode_det _ _ _ _ _ _ A' (mode_extent 0)). rewrite !RC by lra.
    unfold on_line. replace (50 + 3 / 10) with (503 / 10) by lra. replace (50 + 23 / 60) with (3023 / 60) by lra. auto.
Qed.
Print Assumptions C108_refuted.
Example C108_refuted_example : valid_choice ((fun _ => seq 0 6) 0%nat) 6.
Proof. exact (choice6 (repeat 0 6) eq_refl). Qed.

(* The same particles by 'com': both calls return and C108_partial applies. *)
Example C108_example : let ch := fun _ : nat => seq 0 6 in let ch' := fun _ : nat => [5; 4; 3; 2; 1; 0]%nat in
  (forall p o, nth_error [chain6] p = Some o ->
     unsplit 100 o /\ o <> [] /\ valid_choice (ch p) (length o) /\ valid_choice (ch' p) (length o) /\
     (forall q, In q o -> 0 < snd q) /\ (CCom = CCom \/ (length o < 5)%nat)) /\
  (exists x, calcMassesCenters 1 CCom ch (map (map pm) [chain6]) 100 (Some x)) /\
  (exists y, morph_call 1 CCom ch' exact_eig 100 cfg1 100 Global [chain6] [1] y).
Proof.
  cbv zeta. split; [|split].
  - intros [|p] o Ho; [|destruct p; discriminate]. injection Ho as <-. split; [apply chain_unsplit|]. split; [discriminate|].
    split; [exact (choice6 chain6 eq_refl)|]. split; [|split; [|left; reflexivity]].
    + split; [repeat constructor; cbn; lia|]. split; [intros i Hi; cbn in *; lia|reflexivity].
    + intros q Hq. apply in_map_iff in Hq. destruct Hq as (x & <- & _). cbn. lra.
  - destruct (prange_exists 1 (mass_body (map (map pm) [chain6])) (fun _ => 0)) as (m' & Hm).
    eexists. eapply cmc_ok; [|exact Hm]. repeat constructor.
  - destruct (runs_exist exact_eig 100 cfg1 100 Global [chain6] [1] [calcCoM [5; 4; 3; 2; 1; 0]%nat (combine (respectPBCNoRef [5; 4; 3; 2; 1; 0]%nat (map fst (map pm chain6)) 100) (map snd (map pm chain6)))]) as (r & Hr).
    eexists. econstructor; [|exact Hr]. repeat constructor.
Qed.
