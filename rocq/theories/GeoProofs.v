From Coq Require Import List Reals ZArith Lra Lia Bool Permutation.
From Verif Require Import ListUtil ParModel ParProofs CatModel CatPar GeoModel GeoSpec.
Import ListNotations.
Open Scope R_scope.

(** ** Axes *)
Lemma axes_cases ax : In ax axes -> ax = vx \/ ax = vy \/ ax = vz.
Proof. simpl. intuition. Qed.

Ltac axis H := destruct (axes_cases _ H) as [->|[->| ->]]; simpl.

Lemma ax_add ax a b : In ax axes -> ax (vadd a b) = ax a + ax b.
Proof. intros H; axis H; reflexivity. Qed.
Lemma ax_sub ax a b : In ax axes -> ax (vsub a b) = ax a - ax b.
Proof. intros H; axis H; reflexivity. Qed.
Lemma ax_scale ax k a : In ax axes -> ax (vscale k a) = k * ax a.
Proof. intros H; axis H; reflexivity. Qed.
Lemma ax_v0 ax : In ax axes -> ax v0 = 0.
Proof. intros H; axis H; reflexivity. Qed.

Lemma vec_ext a b : (forall ax, In ax axes -> ax a = ax b) -> a = b.
Proof.
  intros H. destruct a as [a1 a2 a3], b as [b1 b2 b3].
  pose proof (H vx ltac:(simpl; auto)). pose proof (H vy ltac:(simpl; auto)).
  pose proof (H vz ltac:(simpl; auto)). simpl in *. congruence.
Qed.

(** ** Sums *)
Lemma np_sum_acc l : forall a, fold_left Rplus l a = a + total (fun x => x) l.
Proof. induction l as [|x l IH]; intros a; simpl; [ring|]. rewrite IH. ring. Qed.
Lemma np_sum_total l : np_sum l = total (fun x => x) l.
Proof. unfold np_sum. rewrite np_sum_acc. ring. Qed.
Lemma total_map {X Y} (g : X -> Y) (f : Y -> R) l : total f (map g l) = total (fun x => f (g x)) l.
Proof. induction l; simpl; congruence. Qed.
Lemma total_ext {X} (f g : X -> R) l : (forall x, In x l -> f x = g x) -> total f l = total g l.
Proof. induction l; simpl; intros H; auto. rewrite H, IHl; auto. Qed.
Lemma total_scale {X} k (f : X -> R) l : total (fun x => k * f x) l = k * total f l.
Proof. induction l; simpl; [ring|]. rewrite IHl. ring. Qed.
Lemma total_plus {X} (f g : X -> R) l : total (fun x => f x + g x) l = total f l + total g l.
Proof. induction l; simpl; [ring|]. rewrite IHl. ring. Qed.
Lemma total_const {X} k (l : list X) : total (fun _ => k) l = INR (length l) * k.
Proof. induction l; [simpl; ring|]. cbn [total length]. rewrite IHl, S_INR. ring. Qed.
Lemma total_app {X} (f : X -> R) l m : total f (l ++ m) = total f l + total f m.
Proof. induction l; simpl; [ring|]. rewrite IHl. ring. Qed.
Lemma total_perm {X} (f : X -> R) l m : Permutation l m -> total f l = total f m.
Proof. induction 1; simpl; try lra. Qed.
Lemma total_nonneg {X} (f : X -> R) l : (forall x, In x l -> 0 <= f x) -> 0 <= total f l.
Proof.
  induction l; simpl; intros H; [lra|]. pose proof (H a (or_introl eq_refl)).
  assert (0 <= total f l) by auto. lra.
Qed.
Lemma total_pos {X} (f : X -> R) l : (forall x, In x l -> 0 < f x) -> l <> [] -> 0 < total f l.
Proof.
  destruct l as [|a l]; intros H Hne; [congruence|]. simpl.
  pose proof (H a (or_introl eq_refl)).
  assert (0 <= total f l); [|lra]. apply total_nonneg. intros x Hx. left. apply H. right. auto.
Qed.
Lemma total_le {X} (f g : X -> R) l : (forall x, In x l -> f x <= g x) -> total f l <= total g l.
Proof.
  induction l; simpl; intros H; [lra|]. pose proof (H a (or_introl eq_refl)).
  assert (total f l <= total g l) by auto. lra.
Qed.

Lemma ax_vsum_acc ax l : In ax axes -> forall a, ax (fold_left vadd l a) = ax a + total ax l.
Proof. intros H. induction l as [|x l IH]; intros a; simpl; [ring|]. rewrite IH, ax_add by auto. ring. Qed.
Lemma ax_vsum ax l : In ax axes -> ax (np_vsum l) = total ax l.
Proof. intros H. unfold np_vsum. rewrite ax_vsum_acc, ax_v0 by auto. ring. Qed.

(** ** Means *)
Lemma mode_com_mean ax ps : In ax axes -> ax (mode_com ps) = mean ax ps.
Proof.
  intros H. unfold mode_com, mean, mass, Rdiv. rewrite ax_scale, ax_vsum, np_sum_total, !total_map by auto.
  rewrite Rmult_comm. f_equal. apply total_ext. intros p _. apply ax_scale; auto.
Qed.

Lemma cy_mass ps : forall a, fold_left (fun acc (p : ptc) => acc + snd p) ps a = a + mass ps.
Proof. unfold mass. induction ps as [|p ps IH]; intros a; simpl; [ring|]. rewrite IH. ring. Qed.

Lemma cy_com_mean ax ps : In ax axes -> ax (cy_calcCoM ps) = mean ax ps.
Proof.
  intros H. unfold cy_calcCoM. rewrite cy_mass. rewrite Rplus_0_l. unfold mean.
  set (M := mass ps). clearbody M.
  assert (G : forall a, ax (fold_left (fun com p => mkV (vx com + snd p * vx (fst p) / M)
                              (vy com + snd p * vy (fst p) / M)
                              (vz com + snd p * vz (fst p) / M)) ps a) =
            ax a + total (fun p => snd p * ax (fst p)) ps / M).
  { induction ps as [|p ps IH]; intros a; simpl; [unfold Rdiv; ring|]. rewrite IH. axis H; unfold Rdiv; ring. }
  rewrite G, ax_v0 by auto. ring.
Qed.

Lemma com_mean ax choose ps : In ax axes -> mass ps <> 0 -> ax (calcCoM choose ps) = mean ax ps.
Proof.
  intros H HM. unfold calcCoM. set (ref := ref_of _ _).
  rewrite ax_add, ax_vsum, total_map, np_sum_total, total_map by auto.
  change (total (fun x : vec * R => snd x) ps) with (mass ps).
  rewrite (total_ext _ (fun p => / mass ps * (snd p * ax (fst p) + - ax ref * snd p))).
  2:{ intros p _. rewrite ax_scale, ax_sub by auto. field. exact HM. }
  rewrite total_scale, total_plus, total_scale. unfold mean. fold (mass ps).
  assert (HM' : total snd ps <> 0) by exact HM. unfold mass. field. exact HM'.
Qed.

Lemma mean_bounds ax ps lo hi : In ax axes -> (forall p, In p ps -> 0 <= snd p) -> 0 < mass ps ->
  (forall p, In p ps -> lo <= ax (fst p) <= hi) -> lo <= mean ax ps <= hi.
Proof.
  intros H Hm HM Hb. unfold mean.
  assert (A : lo * mass ps <= total (fun p => snd p * ax (fst p)) ps).
  { unfold mass. rewrite <- total_scale. apply total_le. intros p Hp.
    specialize (Hm p Hp); specialize (Hb p Hp); nra. }
  assert (B : total (fun p => snd p * ax (fst p)) ps <= hi * mass ps).
  { unfold mass. rewrite <- total_scale. apply total_le. intros p Hp.
    specialize (Hm p Hp); specialize (Hb p Hp); nra. }
  assert (0 < / mass ps) by (apply Rinv_0_lt_compat; auto).
  replace lo with (lo * mass ps * / mass ps) by (field; lra).
  replace hi with (hi * mass ps * / mass ps) by (field; lra).
  unfold Rdiv. split; apply Rmult_le_compat_r; lra.
Qed.

(** ** Reference points *)
Lemma ref_axis ax choose xyz : In ax axes ->
  ax (ref_of choose xyz) = total (fun i => ax (nth i xyz v0)) choose / INR (length choose).
Proof.
  intros H. unfold ref_of, Rdiv. rewrite ax_scale, ax_vsum, total_map by auto. ring.
Qed.

Lemma avg_bounds {X} (f : X -> R) l lo hi : l <> [] -> (forall x, In x l -> lo <= f x <= hi) ->
  lo <= total f l / INR (length l) <= hi.
Proof.
  intros Hne Hb.
  assert (HN : 0 < INR (length l)).
  { apply lt_0_INR. destruct l; [congruence|simpl; lia]. }
  assert (E : forall k, k = INR (length l) * k / INR (length l)) by (intros; field; lra).
  rewrite (E lo), (E hi), <- !total_const. unfold Rdiv.
  assert (0 < / INR (length l)) by (apply Rinv_0_lt_compat; auto).
  split; (apply Rmult_le_compat_r; [lra|]); apply total_le; intros p Hp; apply Hb; auto.
Qed.

Lemma choice_nonempty choose {X} (l : list X) : valid_choice choose (length l) -> l <> [] -> choose <> [].
Proof.
  intros (_ & _ & Hl) Hne ->. simpl in Hl. destruct l; [congruence|]. simpl in Hl. lia.
Qed.

Lemma ref_in_bbox choose xyz : valid_choice choose (length xyz) -> xyz <> [] ->
  in_bbox (ref_of choose xyz) xyz.
Proof.
  intros Hv Hne ax lo hi Hax Hb. rewrite ref_axis by auto. apply avg_bounds.
  - eapply choice_nonempty; eauto.
  - intros i Hi. apply Hb. apply nth_In. apply Hv. exact Hi.
Qed.

(** ** Unwrapping *)
Lemma unwrap1_spec L ref x : 0 < L -> 0 <= ref <= L -> 0 <= x <= L ->
  (exists k : Z, (-1 <= k <= 1)%Z /\ unwrap1 L ref x = x + IZR k * L) /\
  Rabs (unwrap1 L ref x - ref) <= L / 2.
Proof.
  intros HL Hr Hx. unfold unwrap1.
  destruct (Rlt_dec (L / 2) (x - ref)) as [H1|H1]; destruct (Rlt_dec (x - ref) (- L / 2)) as [H2|H2]; try lra.
  - split; [exists (-1)%Z; split; [lia|lra]|apply Rabs_le; lra].
  - split; [exists 1%Z; split; [lia|lra]|apply Rabs_le; lra].
  - split; [exists 0%Z; split; [lia|lra]|apply Rabs_le; lra].
Qed.

Lemma unwrap1_id L ref x : Rabs (x - ref) <= L / 2 -> unwrap1 L ref x = x.
Proof.
  intros H. assert (- (L / 2) <= x - ref <= L / 2).
  { unfold Rabs in H. destruct Rcase_abs in H; lra. }
  unfold unwrap1. destruct Rlt_dec; [lra|]. destruct Rlt_dec; lra.
Qed.

Lemma unwrap1_range L ref x : 0 < L -> 0 <= ref <= L -> 0 <= x <= L ->
  - L / 2 <= unwrap1 L ref x <= 3 * L / 2.
Proof. intros HL Hr Hx. unfold unwrap1. destruct Rlt_dec; destruct Rlt_dec; lra. Qed.

Definition unwrap (L : R) (ref p : vec) : vec :=
  mkV (unwrap1 L (vx ref) (vx p)) (unwrap1 L (vy ref) (vy p)) (unwrap1 L (vz ref) (vz p)).

Lemma ax_unwrap ax L ref p : In ax axes -> ax (unwrap L ref p) = unwrap1 L (ax ref) (ax p).
Proof. intros H; axis H; reflexivity. Qed.

Lemma respect_map choose xyz L : L <> 0 ->
  respectPBCNoRef choose xyz L = map (unwrap L (ref_of choose xyz)) xyz.
Proof. intros H. unfold respectPBCNoRef. destruct Req_EM_T; [congruence|]. reflexivity. Qed.

Lemma Forall2_map_r {X Y} (P : X -> Y -> Prop) (f : X -> Y) l :
  (forall x, In x l -> P x (f x)) -> Forall2 P l (map f l).
Proof. induction l; simpl; intros H; constructor; auto. Qed.

(** ** Recentring *)
Lemma recentre1_in L x : 0 <= x < L -> recentre1 L x = x.
Proof. intros H. unfold recentre1. destruct Rle_dec; [lra|]. destruct Rlt_dec; lra. Qed.

Lemma recentre1_spec L x : 0 < L -> - L <= x < 2 * L ->
  0 <= recentre1 L x < L /\ exists k : Z, (-1 <= k <= 1)%Z /\ recentre1 L x = x + IZR k * L.
Proof.
  intros HL Hx. unfold recentre1. destruct (Rle_dec L x).
  - destruct Rlt_dec; [lra|]. split; [lra|]. exists (-1)%Z. split; [lia|lra].
  - destruct Rlt_dec.
    + split; [lra|]. exists 1%Z. split; [lia|lra].
    + split; [lra|]. exists 0%Z. split; [lia|lra].
Qed.

Lemma recentre1_zero x : recentre1 0 x = x.
Proof. unfold recentre1. destruct Rle_dec; destruct Rlt_dec; lra. Qed.

(** ** Mode *)
Lemma abs_le_norm ax v : In ax axes -> Rabs (ax v) <= norm v.
Proof.
  intros H. unfold norm. rewrite <- sqrt_Rsqr_abs. apply sqrt_le_1_alt. unfold Rsqr.
  axis H; nra.
Qed.

Lemma Rltb_true a b : Rltb a b = true <-> a < b.
Proof. unfold Rltb. destruct Rlt_dec; split; intros; congruence || lra || auto. Qed.

Lemma mode_bbox fuel : forall ps rad v, ps <> [] -> (forall p, In p ps -> 0 < snd p) ->
  calcMode fuel ps rad = Some v -> in_bbox v (map fst ps).
Proof.
  induction fuel as [|fuel IH]; intros ps rad v Hne Hm H; [discriminate|]. simpl in H.
  match type of H with context [filter ?f ps] => set (ps' := filter f ps) in * end.
  destruct (Nat.ltb_spec (length ps') 5) as [Hl|Hl].
  - injection H as <-. intros ax lo hi Hax Hb. rewrite mode_com_mean by auto. apply mean_bounds; auto.
    + intros p Hp. left. auto.
    + apply total_pos; auto.
    + intros p Hp. apply Hb. apply in_map. auto.
  - assert (Hsub : forall p, In p ps' -> In p ps) by (intros p Hp; eapply proj1, filter_In; exact Hp).
    apply IH in H.
    + intros ax lo hi Hax Hb. apply H; auto. intros q Hq. apply Hb.
      apply in_map_iff in Hq. destruct Hq as (p & <- & Hp). apply in_map. auto.
    + intros E. rewrite E in Hl. simpl in Hl. lia.
    + auto.
Qed.

Definition separated (d : R) (ps : list ptc) : Prop :=
  forall p q, In p ps -> In q ps -> (forall ax, In ax axes -> Rabs (ax (fst p) - ax (fst q)) < d) ->
    fst p = fst q.

Lemma vec_dec (a b : vec) : {a = b} + {a <> b}.
Proof.
  destruct a as [a1 a2 a3], b as [b1 b2 b3].
  destruct (Req_EM_T a1 b1); [|right; congruence]. destruct (Req_EM_T a2 b2); [|right; congruence].
  destruct (Req_EM_T a3 b3); [left|right]; congruence.
Qed.

Lemma sep_one (p : ptc) (ps : list ptc) : exists d, 0 < d /\
  forall q : ptc, In q ps -> (forall ax, In ax axes -> Rabs (ax (fst p) - ax (fst q)) < d) -> fst p = fst q.
Proof.
  induction ps as [|q ps (d & Hd & H)]; [exists 1; split; [lra|intros q []]|].
  destruct (vec_dec (fst p) (fst q)) as [E|E].
  - exists d. split; auto. intros q' [<-|Hq]; auto.
  - set (e := Rmax (Rabs (vx (fst p) - vx (fst q)))
               (Rmax (Rabs (vy (fst p) - vy (fst q))) (Rabs (vz (fst p) - vz (fst q))))).
    assert (He : 0 < e).
    { destruct (Rlt_dec 0 e) as [|Hn]; auto. exfalso. apply E. apply vec_ext.
      assert (Hz : forall r, r <= e -> 0 <= r -> r = 0) by (intros; lra).
      assert (Hx : Rabs (vx (fst p) - vx (fst q)) = 0) by (apply Hz; [apply Rmax_l|apply Rabs_pos]).
      assert (Hy : Rabs (vy (fst p) - vy (fst q)) = 0).
      { apply Hz; [|apply Rabs_pos]. eapply Rle_trans; [|apply Rmax_r]. apply Rmax_l. }
      assert (Hzz : Rabs (vz (fst p) - vz (fst q)) = 0).
      { apply Hz; [|apply Rabs_pos]. eapply Rle_trans; [|apply Rmax_r]. apply Rmax_r. }
      assert (Hq : forall r s, Rabs (r - s) = 0 -> r = s).
      { intros r s Hrs. destruct (Req_EM_T (r - s) 0) as [|n]; [lra|]. apply Rabs_no_R0 in n. contradiction. }
      intros ax Hax. axis Hax; apply Hq; auto. }
    exists (Rmin d e). split; [apply Rmin_glb_lt; auto|].
    intros q' [<-|Hq] Hc.
    + exfalso. assert (e < e); [|lra].
      assert (Hlt : forall ax, In ax axes -> Rabs (ax (fst p) - ax (fst q)) < e).
      { intros ax Hax. eapply Rlt_le_trans; [apply Hc; auto|apply Rmin_r]. }
      unfold e at 1. apply Rmax_lub_lt; [|apply Rmax_lub_lt]; apply Hlt; simpl; auto.
    + apply H; auto. intros ax Hax. eapply Rlt_le_trans; [apply Hc; auto|apply Rmin_l].
Qed.

Lemma separated_exists ps : exists d, 0 < d /\ separated d ps.
Proof.
  assert (G : forall l : list ptc, exists d, 0 < d /\ forall p q : ptc, In p l -> In q ps ->
     (forall ax, In ax axes -> Rabs (ax (fst p) - ax (fst q)) < d) -> fst p = fst q).
  { induction l as [|p l (d & Hd & H)]; [exists 1; split; [lra|intros p q []]|].
    destruct (sep_one p ps) as (e & He & H').
    exists (Rmin d e). split; [apply Rmin_glb_lt; auto|].
    intros p' q [<-|Hp] Hq Hc.
    - apply H'; auto. intros ax Hax. eapply Rlt_le_trans; [apply Hc; auto|apply Rmin_r].
    - apply H; auto. intros ax Hax. eapply Rlt_le_trans; [apply Hc; auto|apply Rmin_l]. }
  destruct (G ps) as (d & Hd & H). exists d. split; auto.
Qed.

Lemma filter_split {X} (f : X -> bool) l : Permutation l (filter f l ++ filter (fun x => negb (f x)) l).
Proof.
  induction l as [|a l IH]; simpl; auto. destruct (f a); simpl.
  - constructor. auto.
  - etransitivity; [constructor; exact IH|]. apply Permutation_middle.
Qed.

Lemma crowded_filter k f ps : crowded k (filter f ps) -> crowded k ps.
Proof.
  intros (v & a & b & HP & Hl & HF).
  exists v, a, (b ++ filter (fun x => negb (f x)) ps). split; auto.
  rewrite app_assoc, <- HP. apply filter_split.
Qed.

Lemma mode_stops d n : 0 < d -> forall ps rad, separated d ps -> ~ crowded 5 ps ->
  rad * (83 / 100) ^ n <= d / 2 -> exists v, calcMode (S n) ps rad = Some v.
Proof.
  intros Hd. induction n as [|n IH]; intros ps rad Hs Hc Hr.
  - cbn [calcMode pow] in *. set (com := mode_com ps).
    match goal with |- context [filter ?f ps] => set (ps' := filter f ps) end.
    match goal with |- context [Nat.ltb ?a 5] => destruct (Nat.ltb_spec a 5) as [Hl|Hl] end; [eauto|]. exfalso. apply Hc.
    apply (crowded_filter 5 (fun p => Rltb (norm (vsub (fst p) com)) rad)). change (crowded 5 ps').
    assert (E : exists p0 rest, ps' = p0 :: rest).
    { clearbody ps'. destruct ps' as [|p0 rest]; [simpl in Hl; lia|eauto]. }
    destruct E as (p0 & rest & E).
    assert (Hin : forall p, In p ps' -> In p ps /\ norm (vsub (fst p) com) < rad).
    { intros p Hp. unfold ps' in Hp. apply filter_In in Hp. rewrite Rltb_true in Hp. exact Hp. }
    exists (fst p0), ps', []. rewrite app_nil_r. split; auto. split; [exact Hl|].
    apply Forall_forall. intros p Hp.
    assert (H0 : In p0 ps') by (rewrite E; left; auto).
    destruct (Hin p Hp) as [Ip Np]. destruct (Hin p0 H0) as [I0 N0].
    apply Hs; auto. intros ax Hax.
    pose proof (abs_le_norm ax (vsub (fst p) com) Hax) as A1. rewrite ax_sub in A1 by auto.
    pose proof (abs_le_norm ax (vsub (fst p0) com) Hax) as A2. rewrite ax_sub in A2 by auto.
    replace (ax (fst p) - ax (fst p0)) with ((ax (fst p) - ax com) - (ax (fst p0) - ax com)) by ring.
    eapply Rle_lt_trans; [apply Rabs_triang|]. rewrite Rabs_Ropp. lra.
  - change (calcMode (S (S n)) ps rad) with
      (let com := mode_com ps in
       let ps' := filter (fun p => Rltb (norm (vsub (fst p) com)) rad) ps in
       if Nat.ltb (length ps') 5 then Some com else calcMode (S n) ps' (rad * (83 / 100))).
    cbv zeta. destruct Nat.ltb; [eauto|]. apply IH.
    + intros p q Hp Hq. apply filter_In in Hp. apply filter_In in Hq. apply Hs; tauto.
    + intros H. apply Hc. eapply crowded_filter; eauto.
    + simpl in Hr. lra.
Qed.

Lemma mode_terminates ps rad : ~ crowded 5 ps -> exists fuel v, calcMode fuel ps rad = Some v.
Proof.
  intros Hc. destruct (separated_exists ps) as (d & Hd & Hs).
  assert (Hpos : 0 < d / 2 / (1 + Rabs rad)).
  { apply Rdiv_lt_0_compat; [lra|]. pose proof (Rabs_pos rad). lra. }
  destruct (pow_lt_1_zero (83 / 100)) with (y := d / 2 / (1 + Rabs rad)) as (N & HN); auto.
  { rewrite Rabs_right; lra. }
  specialize (HN N (le_n _)).
  assert (0 <= (83 / 100) ^ N) by (apply pow_le; lra).
  rewrite Rabs_right in HN by lra.
  exists (S N). apply (mode_stops d N Hd); auto.
  pose proof (Rabs_pos rad) as Hr. pose proof (Rle_abs rad) as Hra.
  apply Rle_trans with ((1 + Rabs rad) * (83 / 100) ^ N).
  - apply Rmult_le_compat_r; lra.
  - apply Rlt_le. replace (d / 2) with ((1 + Rabs rad) * (d / 2 / (1 + Rabs rad))) by (field; lra).
    apply Rmult_lt_compat_l; [lra|exact HN].
Qed.

Lemma mode_fuel_mono f : forall g ps rad v, (f <= g)%nat -> calcMode f ps rad = Some v -> calcMode g ps rad = Some v.
Proof.
  induction f as [|f IH]; intros [|g] ps rad v Hfg H; try discriminate; try lia.
  simpl in *. destruct Nat.ltb; auto. apply IH; auto. lia.
Qed.

Lemma mean_const ax ps c : mass ps <> 0 -> (forall p, In p ps -> ax (fst p) = c) -> mean ax ps = c.
Proof.
  intros HM H. unfold mean.
  rewrite (total_ext _ (fun p => c * snd p)) by (intros p Hp; rewrite (H p Hp); ring).
  rewrite total_scale. unfold mass in *. field. exact HM.
Qed.

Lemma mode_diverges ps v : (5 <= length ps)%nat -> Forall (fun p => fst p = v) ps ->
  (forall p, In p ps -> 0 < snd p) -> forall fuel rad, 0 < rad -> calcMode fuel ps rad = None.
Proof.
  intros Hl HF Hm. rewrite Forall_forall in HF.
  assert (Hne : ps <> []) by (intros ->; simpl in Hl; lia).
  assert (HM : mass ps <> 0) by (apply Rgt_not_eq, total_pos; auto).
  assert (Hcom : mode_com ps = v).
  { apply vec_ext. intros ax Hax. rewrite mode_com_mean by auto. apply mean_const; auto.
    intros p Hp. rewrite (HF p Hp). reflexivity. }
  induction fuel as [|fuel IH]; intros rad Hr; [reflexivity|]. simpl. rewrite Hcom.
  assert (Hf : filter (fun p => Rltb (norm (vsub (fst p) v)) rad) ps = ps).
  { clear - HF Hr. induction ps as [|p ps IH]; [reflexivity|]. simpl.
    replace (Rltb (norm (vsub (fst p) v)) rad) with true.
    - rewrite IH; auto. intros q Hq. apply HF. right. auto.
    - symmetry. apply Rltb_true. rewrite (HF p (or_introl eq_refl)). unfold norm, vsub. simpl.
      rewrite !Rminus_diag_eq by reflexivity. replace (0 * 0 + 0 * 0 + 0 * 0) with 0 by ring.
      rewrite sqrt_0. exact Hr. }
  rewrite Hf. destruct (Nat.ltb_spec (length ps) 5); [lia|]. apply IH. lra.
Qed.

(** ** calcMassesCenters *)
Lemma within_mass p (q : ptc) :
  within nat R (fun y => y = p) (fun m y => if Nat.eqb y p then m p + snd q else m y).
Proof.
  split.
  - intros m x Hx. destruct (Nat.eqb_spec x p); congruence.
  - intros m m' He x Hx. destruct (Nat.eqb_spec x p); auto. rewrite He; auto.
Qed.

Lemma mass_run p ps : forall m : nat -> R,
  runl nat R (map (fun (q : ptc) m y => if Nat.eqb y p then m p + snd q else m y) ps) m p = m p + mass ps.
Proof.
  unfold mass. induction ps as [|q ps IH]; intros m; cbn [map total].
  - simpl. ring.
  - change (runl nat R (?a :: ?l) m p) with (runl nat R l (a m) p). rewrite IH.
    rewrite Nat.eqb_refl. ring.
Qed.

Lemma masses_ok objs m' : prange nat R (length objs) (mass_body objs) (fun _ => 0) m' ->
  map m' (seq 0 (length objs)) = map mass objs.
Proof.
  intros H.
  destruct (prange_spec nat R (length objs) (mass_body objs) (fun p y => y = p) (fun _ _ => False)
              (fun p _ => mass (nth p objs [])) (fun _ => 0) m') as [R1 _]; auto.
  - intros p q x Hpq _ _ -> E. auto.
  - intros t p _. unfold mass_body. apply Forall_forall. intros a Ha.
    apply in_map_iff in Ha. destruct Ha as (q & <- & _).
    destruct (within_mass p q) as [W1 W2]. split.
    + intros m x Hx. apply W1. tauto.
    + intros m m1 He x Hx. apply W2; auto.
  - intros t p m _ Hm x ->. unfold mass_body. rewrite mass_run, Hm by auto. ring.
  - rewrite <- (map_ext_in (fun p => mass (nth p objs []))).
    + clear. assert (G : forall pre, map (fun p => mass (nth p (pre ++ objs) [])) (seq (length pre) (length objs)) = map mass objs).
      { induction objs as [|o l IH]; intros pre; [reflexivity|]. simpl.
        rewrite app_nth2, Nat.sub_diag by lia. simpl. f_equal.
        specialize (IH (pre ++ [o])). rewrite app_length in IH. simpl in IH.
        rewrite Nat.add_1_r in IH. rewrite <- app_assoc in IH. exact IH. }
      apply (G []).
    + intros p Hp. apply in_seq in Hp. symmetry. apply R1; [lia|reflexivity].
Qed.

Lemma combine_fst_snd (f : vec -> vec) (ps : list ptc) :
  combine (map f (map fst ps)) (map snd ps) = map (fun p => (f (fst p), snd p)) ps.
Proof. induction ps; simpl; congruence. Qed.

Lemma center_in_range fuel kind choose rad L ps c :
  0 < L -> ps <> [] -> valid_choice choose (length ps) ->
  (forall p, In p ps -> in_box L (fst p) /\ 0 < snd p) ->
  center_of fuel kind choose rad L ps = Some c ->
  forall ax, In ax axes -> - L / 2 <= ax c <= 3 * L / 2.
Proof.
  intros HL Hne Hv Hin H ax Hax.
  unfold center_of in H. rewrite respect_map in H by lra. rewrite combine_fst_snd in H.
  set (ref := ref_of choose (map fst ps)) in *.
  assert (Href : 0 <= ax ref <= L).
  { apply (ref_in_bbox choose (map fst ps)); auto.
    - rewrite map_length. auto.
    - destruct ps; [congruence|discriminate].
    - intros p Hp. apply in_map_iff in Hp. destruct Hp as (q & <- & Hq). apply Hin; auto. }
  set (ps_ := map (fun p => (unwrap L ref (fst p), snd p)) ps) in *.
  assert (Hne' : ps_ <> []) by (unfold ps_; destruct ps; [congruence|discriminate]).
  assert (Hm : forall p, In p ps_ -> 0 < snd p).
  { intros p Hp. apply in_map_iff in Hp. destruct Hp as (q & <- & Hq). simpl. apply Hin; auto. }
  assert (Hb : forall p, In p ps_ -> - L / 2 <= ax (fst p) <= 3 * L / 2).
  { intros p Hp. apply in_map_iff in Hp. destruct Hp as (q & <- & Hq). cbn [fst].
    rewrite ax_unwrap by auto. apply unwrap1_range; auto. apply Hin; auto. }
  destruct kind.
  - eapply (mode_bbox fuel ps_ rad c); eauto.
    intros p Hp. apply in_map_iff in Hp. destruct Hp as (q & <- & Hq). auto.
  - injection H as <-. rewrite com_mean by (auto; apply Rgt_not_eq, total_pos; auto).
    apply mean_bounds; auto; [intros p Hp; left; auto|apply total_pos; auto].
Qed.

Lemma ax_recentre ax L p : In ax axes ->
  ax (mkV (recentre1 L (vx p)) (recentre1 L (vy p)) (recentre1 L (vz p))) = recentre1 L (ax p).
Proof. intros H; axis H; reflexivity. Qed.

Lemma Forall2_nth_r {X Y} (P : X -> Y -> Prop) l m : Forall2 P l m -> forall k y,
  nth_error m k = Some y -> exists x, nth_error l k = Some x /\ P x y.
Proof.
  induction 1 as [|a b l m Hab HF IH]; intros [|k] y Hk; simpl in *; try discriminate.
  - injection Hk as <-. eauto.
  - apply IH; auto.
Qed.

Lemma in_seq_combine {X} (l : list X) p o : In (p, o) (combine (seq 0 (length l)) l) -> nth_error l p = Some o.
Proof.
  assert (G : forall n, In (p, o) (combine (seq n (length l)) l) -> (n <= p)%nat /\ nth_error l (p - n) = Some o).
  { induction l as [|a l IH]; intros n H; simpl in H; [contradiction|].
    destruct H as [H|H].
    - injection H as <- <-. rewrite Nat.sub_diag. split; auto.
    - apply IH in H. destruct H as [H1 H2]. split; [lia|].
      replace (p - n)%nat with (S (p - S n)) by lia. exact H2. }
  intros H. apply G in H. rewrite Nat.sub_0_r in H. tauto.
Qed.

Lemma filter_len_le {X} (f : X -> bool) l : (length (filter f l) <= length l)%nat.
Proof. induction l as [|a l IH]; simpl; [lia|]. destruct (f a); simpl; lia. Qed.

Lemma map_fst_combine {X Y} (l : list X) (m : list Y) : length l = length m -> map fst (combine l m) = l.
Proof. revert m. induction l as [|a l IH]; intros [|b m] H; simpl in *; try lia; auto. f_equal. apply IH. lia. Qed.
