(** C120, continued: the density estimator applied to a spherical mock halo. *)
From Coq Require Import Reals Lra Lia Bool Arith ZArith String List.
From Verif Require Import GeoModel GeoSpec GeoProofs CatModel ShapeModel DensModel DensSpec DensProofs DensProps MockModel FitModel MockPts MockProps MockDens.
Import ListNotations.
Local Open Scope R_scope.

(** The particles handed to the estimator: the coordinates returned by genHalo, each with the mass returned. *)
Definition as_vec (p : pt) : vec := let '(x, y, z) := p in mkV x y z.
Definition cloud (m : R) (l : list pt) : list (vec * R) := map (fun p => (as_vec p, m)) l.

Lemma shell_mass_app c lo hi l l' : DensSpec.shell_mass c lo hi (l ++ l') = DensSpec.shell_mass c lo hi l + DensSpec.shell_mass c lo hi l'.
Proof. unfold DensSpec.shell_mass. apply total_app. Qed.
Lemma cloud_in c lo hi m l : Forall (fun p => lo <= distance (as_vec p) c < hi) l -> DensSpec.shell_mass c lo hi (cloud m l) = INR (List.length l) * m.
Proof.
  induction 1 as [|p l H _ IH]; [unfold DensSpec.shell_mass; cbn; ring|]. change (cloud m (p :: l)) with ([(as_vec p, m)] ++ cloud m l). rewrite shell_mass_app, IH. cbn [List.length]. rewrite S_INR.
  unfold DensSpec.shell_mass, total. cbn [fold_right map fst snd]. destruct Rle_dec; [|lra]. destruct Rlt_dec; [ring|lra].
Qed.
Lemma cloud_out c lo hi m l : Forall (fun p => distance (as_vec p) c < lo \/ hi <= distance (as_vec p) c) l -> DensSpec.shell_mass c lo hi (cloud m l) = 0.
Proof.
  induction 1 as [|p l H _ IH]; [reflexivity|]. change (cloud m (p :: l)) with ([(as_vec p, m)] ++ cloud m l). rewrite shell_mass_app, IH.
  unfold DensSpec.shell_mass, total. cbn [fold_right map fst snd]. destruct Rle_dec; [destruct Rlt_dec|]; lra.
Qed.
Lemma parts_split (k : nat) (parts : list (list pt)) : (k < List.length parts)%nat -> concat parts = concat (firstn k parts) ++ nth k parts [] ++ concat (skipn (S k) parts).
Proof.
  revert k; induction parts as [|x l IH]; intros k Hk; [cbn in Hk; lia|]. destruct k as [|k]; cbn [firstn skipn concat nth]; [reflexivity|]. rewrite (IH k) at 1 by (cbn in Hk; lia). now rewrite app_assoc.
Qed.
Lemma nth_skip {T} (l : list T) a i d : nth i (skipn a l) d = nth (a + i) l d.
Proof. revert a; induction l as [|x l IH]; intros [|a]; cbn [skipn plus nth]; try reflexivity; [now destruct i | apply IH]. Qed.
Lemma nth_first {T} (l : list T) n i d : (i < n)%nat -> nth i (firstn n l) d = nth i l d.
Proof. revert n i; induction l as [|x l IH]; intros [|n] [|i] H; cbn [firstn nth]; try lia; try reflexivity. apply IH; lia. Qed.

(** Distance of a drawn point from the origin. *)
Lemma shell_point_radius A k t th ph : (k < List.length A)%nat -> 0 <= t <= 1 -> axes A -> distance (as_vec (shell_point A A A th ph ((INR k + t) / INR (List.length A)))) v0 = inner A k + t * (nth k A 0 - inner A k).
Proof.
  intros Hk Ht HA. unfold shell_point. cbv zeta. rewrite shell_value by assumption. destruct (axes_between A k t HA Hk Ht) as (P & Q & _). set (x := inner A k + t * (nth k A 0 - inner A k)) in *. assert (Hx : 0 <= x) by lra. clearbody x.
  unfold distance, norm, as_vec, vsub, v0. cbn [vx vy vz]. pose proof (unit_dir th ph) as U. transitivity (sqrt (x * x)); [|apply sqrt_square; exact Hx]. f_equal.
  transitivity (x * x * ((sin th * cos ph) ^ 2 + (sin th * sin ph) ^ 2 + cos th ^ 2)); [ring | rewrite U; ring].
Qed.

Section Binned.
  Variables (quad : (R -> R) -> R -> R -> R) (St : Type) (seed : nat -> St) (normal3 : St -> pt * St) (u01 : St -> R * St) (arctan2 : R -> R -> R).
  Notation halo_of := (halo_of quad St seed normal3 u01 arctan2).
  Notation draw_shell := (draw_shell St seed normal3 u01 arctan2).

  Lemma drawn_radii w A N k pts : axes A -> (forall i j, (i < j < List.length A)%nat -> nth i A 0 < nth j A 0) -> (forall s, 0 <= fst (u01 s) < 1) -> (k < List.length A)%nat ->
    draw_shell w A A A N k = MOk pts -> Forall (fun p => inner A k <= distance (as_vec p) v0 < nth k A 0) pts.
  Proof.
    intros HA HS Hu Hk. unfold MockProps.draw_shell, drawUniformFromShell, at_, mbind. rewrite (nth_error_nth' A 0) by exact Hk. destruct (nth_error N k) as [n|]; [|discriminate].
    destruct (n <? 0)%Z; [discriminate|]. set (n' := Z.to_nat n). destruct (ball St normal3 u01 n' (seed k)) as [zs st1]. pose proof (uniforms_range St u01 n' st1 Hu) as L3. destruct (uniforms St u01 n' st1) as [us st2].
    cbn [fst] in *. intros H. assert (E := f_equal (fun r => match r with MOk l => l | MErr _ => [] end) H). cbn beta iota in E. rewrite <- E. clear H E.
    apply Forall_forall. intros p Hp. apply in_map_iff in Hp. destruct Hp as ((x, u) & <- & Hin). apply in_combine_r in Hin. rewrite Forall_forall in L3. specialize (L3 u Hin). cbn [fst snd].
    destruct (transformCartToSpher arctan2 x) as [[r th] ph]. rewrite shell_point_radius by (assumption || lra).
    assert (HI : 0 <= inner A k < nth k A 0).
    { unfold inner. destruct k as [|k]; cbn [stack0 nth]; [split; [lra | apply (proj1 HA); lia]|]. split; [left; apply (proj1 HA); lia | apply HS; lia]. }
    set (d := nth k A 0 - inner A k) in *. assert (0 < d) by (unfold d; lra). split; [assert (0 <= u * d) by (apply Rmult_le_pos; lra); lra|]. assert (u * d < 1 * d) by (apply Rmult_lt_compat_r; lra). unfold d in *. lra.
  Qed.

  (** Spherical halo, bins that end at the shells of the halo: the estimated density of every bin is the
      mean density of the profile over the shell, up to the rounding of the particle numbers. The
      first bin has to begin at 0 to count for the first shell. *)
  Theorem C120_binned w M res pars profile a h f0 : quad_scales quad -> getMassIntegrand0 profile pars = MOk f0 ->
    (forall lo mid hi, lo <= mid <= hi -> quad f0 lo hi = quad f0 lo mid + quad f0 mid hi) -> (forall lo hi, 0 < lo -> lo < hi -> 0 < quad f0 lo hi) ->
    (forall st, 0 <= fst (u01 st) < 1) -> 0 < M -> 0 < res -> (2 <= List.length a)%nat ->
    eps0 <= nth 0 a 0 -> (forall i j, (i < j < List.length a)%nat -> nth i a 0 < nth j a 0) ->
    halo_of w M res pars profile a a a = MOk h ->
    exists f A, getMassIntegrand profile (pset pars "rho_s" (h_rho_s h)) = MOk f /\ h_axes h = (A, A, A) /\
      forall r200 e0 edges buf, 0 < r200 -> 0 <= e0 -> e0 * r200 < nth 0 A 0 -> map (fun e => e * r200) edges = A ->
      exists d, fst (calcDensProfBruteForceSph (map fst (cloud (mass_dm h) (points h))) (map snd (cloud (mass_dm h) (points h))) v0 r200 (e0 :: edges) (repeat 0 (List.length A)) buf) = Ret d /\
        List.length d = List.length A /\
        forall k, (k < List.length A)%nat -> (k = 0%nat -> e0 = 0) ->
          let Q := quad f (nth k (eps0 :: A) 0) (nth k A 0) in
          Rabs (nth k d 0 - Q / shell_vol A A A k) <= mass_dm h / 2 * (1 + INR (List.length A) * (Q / M)) / shell_vol A A A k.
  Proof.
    intros HSc E0 HAd HPos Hu HM Hres Ha He HI H. assert (Xa : axes a) by (apply strict_axes; [exact HI|pose proof eps0_small; lra]).
    destruct (shells_drawn quad St seed normal3 u01 arctan2 w M res pars profile a a a h f0 HSc E0 HAd HPos Hu HM Hres Ha eq_refl eq_refl Xa Xa Xa He HI H) as (f & A & B & C & parts & Ef & EA & EP & LP & XA & SA & A0 & EB & EC & DR & HK).
    specialize (EB eq_refl). specialize (EC eq_refl). subst B C. exists f, A. split; [exact Ef|]. split; [exact EA|].
    intros r200 e0 edges buf Hr He0 HeA Hed. set (ps := cloud (mass_dm h) (points h)).
    assert (Len : List.length edges = List.length A) by (rewrite <- Hed; now rewrite map_length).
    assert (Nth : forall k, (k < List.length A)%nat -> nth k edges 0 * r200 = nth k A 0).
    { intros k Hk. rewrite <- Hed. rewrite (nth_indep (map _ _) 0 (0 * r200)) by (rewrite map_length; lia). symmetry. apply (map_nth (fun e => e * r200)). }
    assert (Inc : increasing (e0 :: edges)).
    { split; [exact He0|]. intros i Hi. cbn [List.length] in Hi. apply (Rmult_lt_reg_r r200); [exact Hr|]. destruct i as [|i]; cbn [nth].
      - rewrite Nth by lia. exact HeA.
      - rewrite !Nth by lia. apply SA. lia. }
    destruct (C39_bins ps v0 r200 (e0 :: edges) buf Hr Inc) as (d & Ed & Ld & Vd). cbn [List.length] in Ed, Ld, Vd. rewrite Nat.sub_succ, Nat.sub_0_r, Len in *. exists d. split; [exact Ed|]. split; [exact Ld|].
    intros k Hk K0 Q. destruct (Vd k Hk) as (V & E). change (nth (S k) (e0 :: edges) 0) with (nth k edges 0) in E, V. rewrite (Nth k Hk) in E, V.
    assert (Elo : nth k (e0 :: edges) 0 * r200 = inner A k).
    { destruct k as [|k]; cbn [nth]; unfold inner; cbn [stack0 nth]; [rewrite (K0 eq_refl); ring | apply Nth; lia]. }
    rewrite Elo in E, V.
    assert (SV : ball_volume (nth k A 0) - ball_volume (inner A k) = shell_vol A A A k).
    { unfold shell_vol, ell_vol, ball_volume, inner. destruct k; cbn [stack0 prev nth]; ring. }
    rewrite SV in E, V. destruct (HK k Hk) as (_ & B). fold Q in B.
    assert (Rad : forall j, (j < List.length A)%nat -> Forall (fun p => inner A j <= distance (as_vec p) v0 < nth j A 0) (nth j parts [])) by (intros j Hj; exact (drawn_radii w A (h_Nptc h) j _ XA SA Hu Hj (DR j Hj))).
    assert (Mass : DensSpec.shell_mass v0 (inner A k) (nth k A 0) ps = INR (List.length (nth k parts [])) * mass_dm h).
    { unfold ps. rewrite EP, (parts_split k parts) by lia. unfold cloud. rewrite !map_app, !shell_mass_app. fold (cloud (mass_dm h) (concat (firstn k parts))) (cloud (mass_dm h) (nth k parts [])) (cloud (mass_dm h) (concat (skipn (S k) parts))).
      rewrite (cloud_in _ _ _ _ _ (Rad k Hk)), !cloud_out; [ring | |].
      - apply Forall_forall. intros p Hp. apply in_concat in Hp as (l & Hl & Hp). apply (In_nth _ _ []) in Hl as (j & Hj & El). rewrite skipn_length in Hj. rewrite nth_skip in El. right.
        pose proof (Rad (S k + j)%nat ltac:(lia)) as F. rewrite El, Forall_forall in F. specialize (F p Hp). apply (Rle_trans _ (inner A (S k + j))); [|apply F]. unfold inner. cbn [stack0 nth plus]. destruct j as [|j]; [rewrite Nat.add_0_r; lra|]. left. apply SA. lia.
      - apply Forall_forall. intros p Hp. apply in_concat in Hp as (l & Hl & Hp). apply (In_nth _ _ []) in Hl as (j & Hj & El). rewrite firstn_length in Hj. rewrite nth_first in El by lia. left.
        pose proof (Rad j ltac:(lia)) as F. rewrite El, Forall_forall in F. specialize (F p Hp). apply (Rlt_le_trans _ (nth j A 0)); [apply F|]. unfold inner. destruct k as [|k]; [lia|]. cbn [stack0 nth]. destruct (Nat.eq_dec j k) as [->|]; [lra|]. left. apply SA. lia. }
    rewrite E, Mass. set (V' := shell_vol A A A k) in *. set (x := INR (List.length (nth k parts [])) * mass_dm h) in *.
    replace (x / V' - Q / V') with ((x - Q) / V') by (field; lra). unfold Rdiv at 1. rewrite Rabs_mult, (Rabs_right (/ V')) by (left; now apply Rinv_0_lt_compat).
    unfold Rdiv at 3. apply Rmult_le_compat_r; [left; now apply Rinv_0_lt_compat | exact B].
  Qed.
End Binned.
Print Assumptions C120_binned.
(** The halo of 80 particles of density 1 between the radii 0, 1, 2, seen with R200 = 2 in two bins. *)
Example C120_binned_ex : exists h d, halo2 [1; 2] [1; 2] [1; 2] = MOk h /\
  fst (calcDensProfBruteForceSph (map fst (cloud (mass_dm h) (points h))) (map snd (cloud (mass_dm h) (points h))) v0 2 [0; 1 / 2; 1] (repeat 0 2) (fun _ => 0%nat)) = Ret d /\
  Rabs (nth 1 d 0 - 1) <= 1 / 20.
Proof.
  destruct (halo2_ok [1; 2] [1; 2] eq_refl eq_refl) as [h H]. destruct flat0 as (f0 & E0 & Ef0). pose proof PI_RGT_0 as Hpi. pose proof eps0_small as He. pose proof eps3 as He3.
  set (M := 4 / 3 * PI * (8 - eps0 ^ 3)). assert (HM : 0 < M) by (apply Rmult_lt_0_compat; lra).
  assert (H' := H). unfold halo2 in H'. fold M in H'.
  destruct (halo_inv quad2 nat _ _ _ _ _ M 80 flat _ [1; 2] _ _ h (Rgt_not_eq _ _ HM) ltac:(cbn; lia) H') as (f0' & f & al & j & E0' & EL & _ & Er & Egf & Ef & EA & _ & HC & _ & HZ & HL & Em & _).
  assert (f0' = f0) by congruence. subst f0'. assert (al = 2) by (cbn in EL; congruence). subst al. rewrite !rounds2 in EA.
  assert (Erho : h_rho_s h = 1). { rewrite Er. unfold quad2, M. rewrite Ef0. field. lra. }
  destruct (C120_binned quad2 nat (fun k => k) (fun s => ((1, 0, 0), S s)) (fun s => (1 / 2, S s)) (fun _ _ => 0) (fun k => k) M 80 flat _ [1; 2] h f0 quad2_scales E0) as (f2 & A & Ef2 & EA2 & HB); try exact H'; try exact HM; try exact incr2; try lra.
  { intros; now apply quad2_adds. } { intros; now apply quad2_pos. } { intros; cbn; lra. } { cbn; lia. } { cbn; lra. }
  assert (f2 = f) by congruence. subst f2. rewrite EA in EA2. assert (A = [1; 2]) as -> by congruence.
  destruct (HB 2 0 [1 / 2; 1] (fun _ => 0%nat)) as (d & Ed & _ & K); try lra. { cbn; lra. } { cbn. repeat (f_equal; try lra). }
  exists h, d. split; [exact H|]. split; [exact Ed|]. assert (K3 := K 1%nat ltac:(cbn; lia) ltac:(discriminate)). cbv zeta in K3.
  cbn [List.length INR] in K3. change (nth 1 (eps0 :: [1; 2]) 0) with 1 in K3. change (nth 1 [1; 2] 0) with 2 in K3. unfold quad2 in K3. rewrite Ef, Erho, Ef0 in K3.
  assert (EV : shell_vol [1; 2] [1; 2] [1; 2] 1 = 28 / 3 * PI) by (unfold shell_vol, ell_vol; cbn [prev nth]; field). rewrite EV in K3.
  assert (LN : List.length (h_Nptc h) = 2%nat) by (rewrite (counts_length _ _ _ _ _ HC), rounds2; reflexivity).
  pose proof (C80 quad2 nat (fun k => k) (fun s => ((1, 0, 0), S s)) (fun s => (1 / 2, S s)) (fun _ _ => 0) (fun k => k) M 80 flat "alpha_beta_gamma" [1; 2] [1; 2] [1; 2] h quad2_scales quad2_adds HM ltac:(lra) ltac:(cbn; lia) ltac:(cbn; lra) incr2) as HN.
  specialize (HN ltac:(intros g lo hi Eg Hl; assert (g = f0) by congruence; subst g; now apply quad2_pos) H'). cbv zeta in HN. rewrite LN in HN. cbn [INR] in HN.
  set (n := INR (List.length (points h))) in *. assert (Hn : 52 <= n) by lra.
  assert (Hm : mass_dm h <= 32 / 3 * PI / 52).
  { rewrite Em. unfold quad2. rewrite Ef, Erho, Ef0. apply (Rmult_le_reg_r n); [lra|]. unfold Rdiv at 1. rewrite Rmult_assoc, Rinv_l by lra.
    apply (Rle_trans _ (32 / 3 * PI)); [nra|]. replace (32 / 3 * PI / 52 * n) with (32 / 3 * PI * (n / 52)) by field. rewrite <- (Rmult_1_r (32 / 3 * PI)) at 1. apply Rmult_le_compat_l; lra. }
  assert (Hm0 : 0 < mass_dm h).
  { rewrite Em. unfold quad2. rewrite Ef, Erho, Ef0. apply Rdiv_lt_0_compat; [|lra]. nra. }
  set (m := mass_dm h) in *.
  replace (1 * (4 * PI * 1 ^ 2) * (2 ^ 3 - 1 ^ 3) / 3) with (28 / 3 * PI) in K3 by field. replace (28 / 3 * PI / (28 / 3 * PI)) with 1 in K3 by (field; lra).
  assert (K4 : m / 2 * (1 + (1 + 1) * (28 / 3 * PI / M)) / (28 / 3 * PI) <= 1 / 20).
  { assert (28 / 3 * PI / M <= 1). { apply (Rmult_le_reg_r M); [exact HM|]. unfold Rdiv at 1. rewrite Rmult_assoc, Rinv_l by lra. unfold M. nra. }
    apply (Rmult_le_reg_r (28 / 3 * PI)); [lra|]. unfold Rdiv at 1. rewrite Rmult_assoc, Rinv_l by lra. rewrite Rmult_1_r.
    apply (Rle_trans _ (m / 2 * 3)); [apply Rmult_le_compat_l; lra|]. lra. }
  exact (Rle_trans _ _ _ K3 K4).
Qed.
