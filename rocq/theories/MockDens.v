(** C120: the density profile of a mock halo. *)
From Coq Require Import Reals Lra Lia Bool Arith ZArith String List Sorted.
From Verif Require Import MockModel FitModel MockPts MockProps.
Import ListNotations.
Local Open Scope R_scope.

(** ** Specification *)
(** Volume between two ellipsoids; [prev] is 0 for the innermost one. *)
Definition ell_vol (a b c : R) : R := 4 / 3 * PI * a * b * c.
Definition prev (l : list R) (k : nat) : R := match k with O => 0 | S k' => nth k' l 0 end.
Definition shell_vol (a b c : list R) (k : nat) : R :=
  ell_vol (nth k a 0) (nth k b 0) (nth k c 0) - ell_vol (prev a k) (prev b k) (prev c k).
(** [p] lies between the ellipsoids k - 1 and k. *)
Definition in_closed_shell (a b c : list R) (k : nat) (p : pt) : Prop :=
  ell_form p (nth k a 0) (nth k b 0) (nth k c 0) <= 1 /\ (forall k', k = S k' -> 1 <= ell_form p (nth k' a 0) (nth k' b 0) (nth k' c 0)).
(** Mean density of n particles of mass m. *)
Definition mean_density (n : nat) (m vol : R) : R := INR n * m / vol.

Lemma pick_nth (l : list R) idx t : (t < length idx)%nat -> nth t (map (fun i => nth i l 0) idx) 0 = nth (nth t idx 0%nat) l 0.
Proof. intros Ht. rewrite (nth_indep _ 0 (nth 0 l 0)) by (rewrite map_length; lia). apply (map_nth (fun i => nth i l 0)). Qed.
Lemma sorted_nth l : StronglySorted lt l -> forall p q, (p < q < length l)%nat -> (nth p l 0 < nth q l 0)%nat.
Proof.
  intros S1. induction S1 as [|x l HS IH HF]; intros p q Hpq; [cbn in Hpq; lia|].
  destruct q as [|q]; [lia|]. destruct p as [|p]; cbn [nth]; [|apply IH; cbn in Hpq; lia]. rewrite Forall_forall in HF. apply HF, nth_In. cbn in Hpq. lia.
Qed.
Lemma rounds_pick j l n : length l = n -> rounds j l = map (fun i => nth i l 0) (rounds j (seq 0 n)).
Proof. intros <-. now rewrite <- rounds_map, map_nth_seq. Qed.
Lemma axes_rounds j l n : length l = n -> (2 <= n)%nat -> axes l -> axes (rounds j l).
Proof.
  intros L Hn (H1 & H2). rewrite (rounds_pick j l n L). destruct (rounds_select j n Hn) as (S1 & _ & _ & S4). set (idx := rounds j (seq 0 n)) in *.
  clearbody idx. rewrite Forall_forall in S4. split; rewrite map_length.
  - intros k Hk. rewrite pick_nth by exact Hk. apply H1. rewrite L. apply S4, nth_In, Hk.
  - intros i k Hik. rewrite !pick_nth by lia. apply H2. rewrite L. split; [apply sorted_nth; [exact S1|lia]|apply S4, nth_In; lia].
Qed.
Lemma strict_rounds j l n : length l = n -> (2 <= n)%nat -> (forall i k, (i < k < length l)%nat -> nth i l 0 < nth k l 0) ->
  forall i k, (i < k < length (rounds j l))%nat -> nth i (rounds j l) 0 < nth k (rounds j l) 0.
Proof.
  intros L Hn HI. rewrite (rounds_pick j l n L). destruct (rounds_select j n Hn) as (S1 & _ & _ & S4). set (idx := rounds j (seq 0 n)) in *.
  clearbody idx. rewrite Forall_forall in S4. rewrite map_length.
  intros i k Hik. rewrite !pick_nth by lia. apply HI. rewrite L. split; [apply sorted_nth; [exact S1|lia]|apply S4, nth_In; lia].
Qed.
Lemma rounds_len j (l : list R) n : length l = n -> length (rounds j l) = length (rounds j (seq 0 n)).
Proof. intros L. rewrite (rounds_pick j l n L). apply map_length. Qed.

Section Whole.
  Variables (quad : (R -> R) -> R -> R -> R) (St : Type) (seed : nat -> St) (normal3 : St -> pt * St) (u01 : St -> R * St) (arctan2 : R -> R -> R).
  Notation halo_of := (halo_of quad St seed normal3 u01 arctan2).
  Notation draw_shell := (draw_shell St seed normal3 u01 arctan2).

  Lemma halo_results w M res pars profile a b c h : halo_of w M res pars profile a b c = MOk h ->
    exists results, mapM (draw_shell w (fst (fst (h_axes h))) (snd (fst (h_axes h))) (snd (h_axes h)) (h_Nptc h)) (seq 0 (length (h_Nptc h))) = MOk results /\
      points h = concat results.
  Proof.
    unfold MockProps.halo_of, genHalo. destruct (getMassIntegrand0 profile pars) as [f0|]; [|discriminate]. cbn [mbind].
    destruct (last_ a) as [al|]; [|discriminate]. cbn [mbind]. destruct (pydiv M _) as [rho|]; [|discriminate]. cbn [mbind].
    destruct (getMassIntegrand profile _) as [f|]; [|discriminate]. cbn [mbind]. destruct (first_count quad f M res a) as [n|]; [|discriminate]. cbn [mbind]. set (fuel := 1001%nat). clearbody fuel.
    destruct (coarsen_loop quad f M res fuel a b c n) as [[[[a' b'] c'] n']|]; [|discriminate]. cbn [mbind]. destruct (counts quad f a' n') as [N|]; [|discriminate]. cbn [mbind].
    destruct (mapM _ _) as [rs|] eqn:ER; [|discriminate]. cbn [mbind].
    destruct (last_ a') as [al'|]; [|discriminate]. cbn [mbind]. destruct (pydiv _ _) as [m|]; [|discriminate]. cbn [mbind]. intros H.
    assert (E : h = mkHalo (concat rs) m rho (a', b', c') N (pset pars "rho_s" rho)) by congruence. rewrite E. cbn [h_axes h_Nptc points fst snd].
    exists rs. split; [exact ER|reflexivity].
  Qed.

  (** Shell by shell: how the particles are drawn, where they lie, and their mass. *)
  Lemma shells_drawn w M res pars profile a b c h f0 : quad_scales quad -> getMassIntegrand0 profile pars = MOk f0 ->
    (forall lo mid hi, lo <= mid <= hi -> quad f0 lo hi = quad f0 lo mid + quad f0 mid hi) -> (forall lo hi, 0 < lo -> lo < hi -> 0 < quad f0 lo hi) ->
    (forall s, 0 <= fst (u01 s) < 1) -> 0 < M -> 0 < res -> (2 <= length a)%nat -> length b = length a -> length c = length a ->
    axes a -> axes b -> axes c -> eps0 <= nth 0 a 0 -> (forall i j, (i < j < length a)%nat -> nth i a 0 < nth j a 0) ->
    halo_of w M res pars profile a b c = MOk h ->
    exists f A B C parts, getMassIntegrand profile (pset pars "rho_s" (h_rho_s h)) = MOk f /\ h_axes h = (A, B, C) /\
      points h = concat parts /\ length parts = length A /\
      axes A /\ (forall i k, (i < k < length A)%nat -> nth i A 0 < nth k A 0) /\ eps0 <= nth 0 A 0 /\
      (b = a -> B = A) /\ (c = a -> C = A) /\
      (forall k, (k < length A)%nat -> draw_shell w A B C (h_Nptc h) k = MOk (nth k parts [])) /\
      forall k, (k < length A)%nat ->
        Forall (in_closed_shell A B C k) (nth k parts []) /\
        Rabs (INR (length (nth k parts [])) * mass_dm h - quad f (nth k (eps0 :: A) 0) (nth k A 0)) <=
          mass_dm h / 2 * (1 + INR (length A) * (quad f (nth k (eps0 :: A) 0) (nth k A 0) / M)).
  Proof.
    intros HSc E0 HAd HPos Hu HM Hres Ha Lb Lc Xa Xb Xc He HI H. assert (HM0 : M <> 0) by lra. pose proof (halo_results w M res pars profile a b c h H) as (parts & HR & HP0).
    destruct (halo_inv quad St seed normal3 u01 arctan2 w M res pars profile a b c h HM0 Ha H) as (f0' & f & al & j & E0' & EL & HQ & Er & Egf & Ef & EA & HN & HC & HP & HZ & HL & Em & _).
    assert (f0' = f0) by congruence. subst f0'. clear E0'. rewrite EA in HR. cbn [fst snd] in HR.
    set (A := rounds j a) in *. set (B := rounds j b) in *. set (C := rounds j c) in *.
    assert (eps_pos : 0 < eps0) by apply eps0_small.
    assert (LA : (2 <= length A)%nat) by (unfold A; now apply rounds_length2).
    assert (LB : length B = length A) by (unfold B, A; rewrite (rounds_len j b _ Lb), (rounds_len j a _ eq_refl); reflexivity).
    assert (LC : length C = length A) by (unfold C, A; rewrite (rounds_len j c _ Lc), (rounds_len j a _ eq_refl); reflexivity).
    assert (XA : axes A) by (apply (axes_rounds j a (length a)); auto).
    assert (XB : axes B) by (apply (axes_rounds j b (length a)); auto).
    assert (XC : axes C) by (apply (axes_rounds j c (length a)); auto).
    assert (SA : forall i k, (i < k < length A)%nat -> nth i A 0 < nth k A 0) by (apply (strict_rounds j a (length a)); auto).
    assert (A0 : eps0 <= nth 0 A 0).
    { pose proof (rounds_hd j a 0) as EH. fold A in EH. destruct A as [|x A'], a as [|y a']; cbn in *; try lia. lra. }
    pose proof (counts_length quad f A _ _ HC) as LN.
    destruct (mapM_inv _ _ _ [] HR) as [LP HI2]. rewrite seq_length in LP.
    assert (DR : forall k, (k < length A)%nat -> draw_shell w A B C (h_Nptc h) k = MOk (nth k parts [])).
    { intros k Hk. specialize (HI2 k k). rewrite (nth_error_nth' _ 0%nat), seq_nth in HI2 by (rewrite ?seq_length; lia). exact (HI2 eq_refl). }
    exists f, A, B, C, parts. split; [exact Egf|]. split; [exact EA|]. split; [exact HP0|]. split; [lia|].
    split; [exact XA|]. split; [exact SA|]. split; [exact A0|]. split; [intros ->; reflexivity|]. split; [intros ->; reflexivity|]. split; [exact DR|]. intros k Hk.
    destruct (draw_inv _ _ _ _ _ _ _ _ _ _ _ _ (DR k Hk)) as [Nk0 Nk]. split.
    - destruct (C53_shell St seed normal3 u01 arctan2 A B C (h_Nptc h) k (w k) XA XB XC LB LC Hu Hk ltac:(lia) Nk0) as (pts & st' & Ed & _ & Hin).
      specialize (DR k Hk). unfold MockProps.draw_shell in DR. rewrite Ed in DR. cbn [mbind fst] in DR. assert (nth k parts [] = pts) as -> by congruence.
      apply Forall_forall. exact Hin.
    - (* masses *)
      assert (Hal : eps0 < al).
      { assert (El : al = nth (length a - 1) a 0). { unfold last_ in EL. destruct a as [|x a']; [discriminate|]. unfold at_ in EL. rewrite (nth_error_nth' _ 0) in EL by (cbn; lia). congruence. }
        rewrite El. apply (Rle_lt_trans _ _ _ He). apply HI. lia. }
      assert (Hq0 : 0 < quad f0 eps0 al) by (apply HPos; lra).
      assert (Hrho : 0 < h_rho_s h) by (rewrite Er; now apply Rdiv_lt_0_compat).
      assert (QF : forall lo hi, quad f lo hi = h_rho_s h * quad f0 lo hi) by (intros; apply HSc; exact Ef).
      assert (EM : quad f eps0 al = M) by (rewrite QF, Er; field; lra).
      set (m1 := quad f (nth 0 A 0) (nth 1 A 0)) in *.
      assert (Hm1 : 0 < m1) by (unfold m1; rewrite QF; apply Rmult_lt_0_compat; [exact Hrho|]; apply HPos; [lra|apply SA; lia]).
      set (N1 := first_shell quad f M res A) in *.
      assert (HCS := counts_sum (IZR N1 / m1) (h_Nptc h) (map (fun k => quad f (nth k (eps0 :: A) 0) (nth k A 0)) (seq 0 (length A)))).
      rewrite map_length, seq_length, LN in HCS. specialize (HCS eq_refl).
      destruct (shells_sum quad f A eps0) as [ES _].
      { intros lo mid hi Hlmh. rewrite !QF, (HAd lo mid hi Hlmh). ring. }
      { intros [|i] Hi; cbn [nth]; [exact A0|]. left. apply SA. lia. }
      { intros Z. rewrite Z in LA. cbn in LA. lia. }
      rewrite ES in HCS.
      assert (Elast : last A 0 = al).
      { pose proof (rounds_last j a) as RL. fold A in RL. rewrite EL in RL. clear - RL. clearbody A. revert RL. induction A as [|p A IH]; [discriminate|]. destruct A as [|q A]; [cbn; congruence|]. rewrite last_cons2. exact IH. }
      rewrite Elast, EM in HCS.
      assert (HK : forall i, (i < length A)%nat -> IZR N1 / m1 * quad f (nth i (eps0 :: A) 0) (nth i A 0) - 1 / 2 <= IZR (nth i (h_Nptc h) 0%Z) <= IZR N1 / m1 * quad f (nth i (eps0 :: A) 0) (nth i A 0) + 1 / 2).
      { intros i Hi. destruct (counts_nth quad f A N1 (h_Nptc h) i HC Hi) as [_ EN]. fold m1 in EN. rewrite EN.
        assert (ESM : shell_mass quad f A i = quad f (nth i (eps0 :: A) 0) (nth i A 0)) by (destruct i; reflexivity). rewrite ESM.
        set (q := quad f (nth i (eps0 :: A) 0) (nth i A 0)). replace (IZR N1 * q / m1) with (IZR N1 / m1 * q) by (field; lra). pose proof (py_round_near (IZR N1 / m1 * q)). lra. }
      assert (HCS2 : forall i, (i < length A)%nat -> IZR N1 / m1 * nth i (map (fun k => quad f (nth k (eps0 :: A) 0) (nth k A 0)) (seq 0 (length A))) 0 - 1 / 2 <= IZR (nth i (h_Nptc h) 0%Z) <= IZR N1 / m1 * nth i (map (fun k => quad f (nth k (eps0 :: A) 0) (nth k A 0)) (seq 0 (length A))) 0 + 1 / 2).
      { intros i Hi. rewrite (nth_indep _ 0 (quad f (nth 0 (eps0 :: A) 0) (nth 0 A 0))) by now rewrite map_length, seq_length. rewrite (map_nth (fun k => quad f (nth k (eps0 :: A) 0) (nth k A 0))), seq_nth by exact Hi. exact (HK i Hi). }
      specialize (HCS HCS2). clear HCS2. specialize (HK k Hk). rewrite <- Nk in HK. rewrite <- INR_IZR_INZ in HK. rewrite <- HZ, <- INR_IZR_INZ in HCS.
      rewrite Em, EM. set (n := INR (length (points h))) in *. set (nk := INR (length (nth k parts []))) in *. set (Q := quad f (nth k (eps0 :: A) 0) (nth k A 0)) in *.
      assert (Hn : 0 < n) by (unfold n; apply lt_0_INR; lia).
      assert (HQ0 : 0 <= Q).
      { unfold Q. rewrite QF. apply Rmult_le_pos; [lra|]. destruct k as [|k]; cbn [nth].
        - destruct (Req_dec eps0 (nth 0 A 0)) as [Z|Z]; [|left; apply HPos; lra]. rewrite <- Z. pose proof (HAd eps0 eps0 eps0 ltac:(lra)). lra.
        - left. apply HPos; [apply (proj1 XA); lia|apply SA; lia]. }
      set (S := INR (length A)) in *. set (kap := IZR N1 / m1) in *.
      replace (nk * (M / n) - Q) with (M / n * ((nk - kap * Q) - Q / M * (n - kap * M))) by (field; lra).
      replace (M / n / 2 * (1 + S * (Q / M))) with (M / n * (1 / 2 + Q / M * (S / 2))) by (field; lra).
      assert (Hmn : 0 < M / n) by now apply Rdiv_lt_0_compat. rewrite Rabs_mult, (Rabs_right (M / n)) by lra.
      apply Rmult_le_compat_l; [lra|]. assert (HQM : 0 <= Q / M) by (unfold Rdiv; apply Rmult_le_pos; [exact HQ0|left; now apply Rinv_0_lt_compat]).
      set (qm := Q / M) in *. clearbody qm. apply Rabs_le. destruct HK, HCS. split.
      + assert (qm * (n - kap * M) <= qm * (S / 2)) by (apply Rmult_le_compat_l; lra). lra.
      + assert (qm * (- (S / 2)) <= qm * (n - kap * M)) by (apply Rmult_le_compat_l; lra). lra.
  Qed.

  (** Shell by shell: the particles, where they lie, and their mass. *)
  Theorem C120_shells w M res pars profile a b c h f0 : quad_scales quad -> getMassIntegrand0 profile pars = MOk f0 ->
    (forall lo mid hi, lo <= mid <= hi -> quad f0 lo hi = quad f0 lo mid + quad f0 mid hi) -> (forall lo hi, 0 < lo -> lo < hi -> 0 < quad f0 lo hi) ->
    (forall s, 0 <= fst (u01 s) < 1) -> 0 < M -> 0 < res -> (2 <= length a)%nat -> length b = length a -> length c = length a ->
    axes a -> axes b -> axes c -> eps0 <= nth 0 a 0 -> (forall i j, (i < j < length a)%nat -> nth i a 0 < nth j a 0) ->
    halo_of w M res pars profile a b c = MOk h ->
    exists f A B C parts, getMassIntegrand profile (pset pars "rho_s" (h_rho_s h)) = MOk f /\ h_axes h = (A, B, C) /\
      points h = concat parts /\ length parts = length A /\
      forall k, (k < length A)%nat ->
        Forall (in_closed_shell A B C k) (nth k parts []) /\
        Rabs (INR (length (nth k parts [])) * mass_dm h - quad f (nth k (eps0 :: A) 0) (nth k A 0)) <=
          mass_dm h / 2 * (1 + INR (length A) * (quad f (nth k (eps0 :: A) 0) (nth k A 0) / M)).
  Proof.
    intros HSc E0 HAd HPos Hu HM Hres Ha Lb Lc Xa Xb Xc He HI H.
    destruct (shells_drawn w M res pars profile a b c h f0 HSc E0 HAd HPos Hu HM Hres Ha Lb Lc Xa Xb Xc He HI H) as (f & A & B & C & parts & Ef & EA & EP & LP & _ & _ & _ & _ & _ & _ & HK).
    exists f, A, B, C, parts. auto.
  Qed.

  Lemma nth_scale q (l : list R) k : nth k (map (Rmult q) l) 0 = q * nth k l 0.
  Proof. revert k. induction l as [|x l IH]; intros [|k]; cbn [map nth]; trivial; ring. Qed.
  Lemma prev_scale q (l : list R) k : prev (map (Rmult q) l) k = q * prev l k.
  Proof. destruct k; cbn [prev]; [ring|apply nth_scale]. Qed.
  Lemma axes_scale q l : 0 < q -> axes l -> axes (map (Rmult q) l).
  Proof.
    intros Hq (H1 & H2). split; rewrite map_length; intros; rewrite !nth_scale; [apply Rmult_lt_0_compat; auto|apply Rmult_le_compat_l; [lra|auto]].
  Qed.
  Lemma strict_axes l : (forall i j, (i < j < length l)%nat -> nth i l 0 < nth j l 0) -> 0 < nth 0 l 0 -> axes l.
  Proof.
    intros HI H0. split; [|intros; left; auto]. intros [|k] Hk; [exact H0|]. apply (Rlt_trans _ (nth 0 l 0)); [exact H0|]. apply HI. lia.
  Qed.
  Lemma ball_shell_pos l k : (forall i j, (i < j < length l)%nat -> nth i l 0 < nth j l 0) -> 0 < nth 0 l 0 -> (k < length l)%nat -> 0 < shell_vol l l l k.
  Proof.
    intros HI H0 Hk. destruct (strict_axes l HI H0) as [P _]. unfold shell_vol, ell_vol. set (x := nth k l 0). set (y := prev l k).
    assert (Hy : 0 <= y < x).
    { unfold x, y. destruct k as [|k]; cbn [prev]; [lra|]. split; [left; apply P; lia|apply HI; lia]. }
    clearbody x y. pose proof PI_RGT_0. assert (y * y * y < x * x * x).
    { apply (Rle_lt_trans _ (x * x * y)). - apply Rmult_le_compat_r; [lra|]. apply Rmult_le_compat; lra. - apply Rmult_lt_compat_l; [|lra]. apply Rmult_lt_0_compat; lra. }
    replace (4 / 3 * PI * x * x * x - 4 / 3 * PI * y * y * y) with (4 / 3 * PI * (x * x * x - y * y * y)) by ring. apply Rmult_lt_0_compat; lra.
  Qed.

  (** Similar ellipsoids with axis ratios q and s: in every shell the density times q s is, up to the
      rounding of the particle numbers, the mean of the profile over the ball shell of the same major axes. *)
  Theorem C120_ellipsoidal w M res pars profile a q s h f0 : quad_scales quad -> getMassIntegrand0 profile pars = MOk f0 ->
    (forall lo mid hi, lo <= mid <= hi -> quad f0 lo hi = quad f0 lo mid + quad f0 mid hi) -> (forall lo hi, 0 < lo -> lo < hi -> 0 < quad f0 lo hi) ->
    (forall st, 0 <= fst (u01 st) < 1) -> 0 < M -> 0 < res -> (2 <= length a)%nat -> 0 < q -> 0 < s ->
    eps0 <= nth 0 a 0 -> (forall i j, (i < j < length a)%nat -> nth i a 0 < nth j a 0) ->
    halo_of w M res pars profile a (map (Rmult q) a) (map (Rmult s) a) = MOk h ->
    exists f A B C parts, getMassIntegrand profile (pset pars "rho_s" (h_rho_s h)) = MOk f /\ h_axes h = (A, B, C) /\
      B = map (Rmult q) A /\ C = map (Rmult s) A /\ points h = concat parts /\ length parts = length A /\
      forall k, (k < length A)%nat ->
        Forall (in_closed_shell A B C k) (nth k parts []) /\ 0 < shell_vol A A A k /\
        let Q := quad f (nth k (eps0 :: A) 0) (nth k A 0) in
        Rabs (mean_density (length (nth k parts [])) (mass_dm h) (shell_vol A B C k) * (q * s) - Q / shell_vol A A A k) <=
          mass_dm h / 2 * (1 + INR (length A) * (Q / M)) / shell_vol A A A k.
  Proof.
    intros HSc E0 HAd HPos Hu HM Hres Ha Hq Hs He HI H. assert (eps_pos : 0 < eps0) by apply eps0_small.
    assert (Xa : axes a) by (apply strict_axes; [exact HI|lra]).
    destruct (C120_shells w M res pars profile a _ _ h f0 HSc E0 HAd HPos Hu HM Hres Ha (map_length _ _) (map_length _ _) Xa (axes_scale q a Hq Xa) (axes_scale s a Hs Xa) He HI H) as (f & A & B & C & parts & Ef & EA & EP & LP & HK).
    assert (HM0 : M <> 0) by lra.
    destruct (halo_inv quad St seed normal3 u01 arctan2 w M res pars profile a _ _ h HM0 Ha H) as (_ & _ & _ & j & _ & _ & _ & _ & _ & _ & EA2 & _).
    rewrite EA in EA2. rewrite !rounds_map in EA2. assert (A = rounds j a /\ B = map (Rmult q) A /\ C = map (Rmult s) A) as (EA3 & EB & EC) by (injection EA2; intros -> -> ->; auto).
    exists f, A, B, C, parts. do 4 (split; [assumption|]). split; [exact EP|]. split; [exact LP|]. intros k Hk. destruct (HK k Hk) as [H1 H2]. split; [exact H1|].
    assert (HV : 0 < shell_vol A A A k).
    { apply ball_shell_pos; [rewrite EA3; apply (strict_rounds j a (length a)); auto| |exact Hk]. pose proof (rounds_hd j a 0) as EH. rewrite <- EA3 in EH. destruct A as [|x A'], a as [|y a']; cbn in *; try lia; lra. }
    split; [exact HV|]. cbv zeta. set (Q := quad f (nth k (eps0 :: A) 0) (nth k A 0)) in *.
    assert (EV : shell_vol A B C k = q * s * shell_vol A A A k) by (rewrite EB, EC; unfold shell_vol, ell_vol; rewrite !nth_scale, !prev_scale; ring).
    unfold mean_density. rewrite EV. set (V := shell_vol A A A k) in *. set (n := INR (length (nth k parts []))) in *. set (m := mass_dm h) in *.
    replace (n * m / (q * s * V) * (q * s) - Q / V) with ((n * m - Q) / V) by (field; lra). unfold Rdiv at 1. rewrite Rabs_mult, (Rabs_right (/ V)) by (left; now apply Rinv_0_lt_compat).
    unfold Rdiv at 3. apply Rmult_le_compat_r; [left; now apply Rinv_0_lt_compat|]. exact H2.
  Qed.

  (** Spherical halos follow the profile. *)
  Theorem C120_partial w M res pars profile a h f0 : quad_scales quad -> getMassIntegrand0 profile pars = MOk f0 ->
    (forall lo mid hi, lo <= mid <= hi -> quad f0 lo hi = quad f0 lo mid + quad f0 mid hi) -> (forall lo hi, 0 < lo -> lo < hi -> 0 < quad f0 lo hi) ->
    (forall st, 0 <= fst (u01 st) < 1) -> 0 < M -> 0 < res -> (2 <= length a)%nat ->
    eps0 <= nth 0 a 0 -> (forall i j, (i < j < length a)%nat -> nth i a 0 < nth j a 0) ->
    halo_of w M res pars profile a a a = MOk h ->
    exists f A parts, getMassIntegrand profile (pset pars "rho_s" (h_rho_s h)) = MOk f /\ h_axes h = (A, A, A) /\ points h = concat parts /\ length parts = length A /\
      forall k, (k < length A)%nat ->
        Forall (in_closed_shell A A A k) (nth k parts []) /\ 0 < shell_vol A A A k /\
        let Q := quad f (nth k (eps0 :: A) 0) (nth k A 0) in
        Rabs (mean_density (length (nth k parts [])) (mass_dm h) (shell_vol A A A k) - Q / shell_vol A A A k) <=
          mass_dm h / 2 * (1 + INR (length A) * (Q / M)) / shell_vol A A A k.
  Proof.
    intros HSc E0 HAd HPos Hu HM Hres Ha He HI H.
    assert (E1 : forall l : list R, map (Rmult 1) l = l) by (intros l; rewrite <- (map_id l) at 2; apply map_ext; intros; ring).
    destruct (C120_ellipsoidal w M res pars profile a 1 1 h f0 HSc E0 HAd HPos Hu HM Hres Ha Rlt_0_1 Rlt_0_1 He HI) as (f & A & B & C & parts & Ef & EA & EB & EC & EP & LP & HK); [rewrite E1; exact H|].
    rewrite E1 in EB, EC. subst B C. exists f, A, parts. do 4 (split; [assumption|]). intros k Hk. destruct (HK k Hk) as (H1 & H2 & H3). split; [exact H1|]. split; [exact H2|].
    cbv zeta in *. rewrite !Rmult_1_r in H3. exact H3.
  Qed.
End Whole.
Print Assumptions C120_shells.
Print Assumptions C120_ellipsoidal.
Print Assumptions C120_partial.

(** ** Ellipsoidal halos do not *)
(** The alpha-beta-gamma profile of constant density, and a rule that integrates multiples of r^2 exactly. *)
Definition flat : pdict := [("alpha"%string, 1); ("beta"%string, 0); ("gamma"%string, 0); ("r_s"%string, 1)].
Definition quad2 (f : R -> R) (lo hi : R) : R := f 1 * (hi ^ 3 - lo ^ 3) / 3.
Lemma quad2_scales : quad_scales quad2. Proof. intros f g k lo hi H. unfold quad2. rewrite H. field. Qed.
Lemma quad2_adds : quad_adds quad2. Proof. intros f lo mid hi _. unfold quad2. field. Qed.
Lemma Rpower_0 x : Rpower x 0 = 1. Proof. unfold Rpower. rewrite Rmult_0_l. apply exp_0. Qed.
Lemma flat0 : exists f0, getMassIntegrand0 "alpha_beta_gamma" flat = MOk f0 /\ forall r, f0 r = 4 * PI * r ^ 2.
Proof.
  eexists. split; [reflexivity|]. intros r. cbv beta. replace ((0 - 0) / 1) with 0 by field. rewrite !Rpower_0. field.
Qed.
Definition halo2 (a b c : list R) := halo_of quad2 nat (fun k => k) (fun s => ((1, 0, 0), S s)) (fun s => (1 / 2, S s)) (fun _ _ => 0) (fun k => k)
  (4 / 3 * PI * (8 - eps0 ^ 3)) 80 flat "alpha_beta_gamma" a b c.


Lemma quad2_pos f0 : (forall r, f0 r = 4 * PI * r ^ 2) -> forall lo hi, lo < hi -> 0 < quad2 f0 lo hi.
Proof.
  intros Ef lo hi H. unfold quad2. rewrite Ef. pose proof PI_RGT_0. replace (4 * PI * 1 ^ 2 * (hi ^ 3 - lo ^ 3) / 3) with (4 / 3 * PI * ((hi - lo) * ((hi + lo / 2) ^ 2 + 3 / 4 * lo ^ 2))) by field.
  apply Rmult_lt_0_compat; [lra|]. apply Rmult_lt_0_compat; [lra|]. destruct (Req_dec lo 0) as [->|N].
  - replace ((hi + 0 / 2) ^ 2 + 3 / 4 * 0 ^ 2) with (hi ^ 2) by field. apply pow_lt. lra.
  - assert (0 < lo ^ 2) by (replace (lo ^ 2) with (Rsqr lo) by (unfold Rsqr; ring); now apply Rlt_0_sqr). pose proof (pow2_ge_0 (hi + lo / 2)). lra.
Qed.
Lemma incr2 : forall i k, (i < k < length [1; 2])%nat -> nth i [1; 2] 0 < nth k [1; 2] 0.
Proof. intros i k H. cbn in H. destruct i as [|i], k as [|[|k]]; cbn; try lra; lia. Qed.
Lemma eps3 : 0 < eps0 ^ 3 < 1 / 100.
Proof.
  pose proof eps0_small as [E1 E2]. assert (eps0 <= / 100) by (unfold eps0; apply Rinv_le_contravar; lra). split; [now apply pow_lt|].
  assert (E3 : eps0 ^ 2 < 1) by nra. replace (eps0 ^ 3) with (eps0 * eps0 ^ 2) by ring. assert (eps0 * eps0 ^ 2 < eps0 * 1) by (apply Rmult_lt_compat_l; lra). lra.
Qed.
Lemma halo2_ok b c : length b = 2%nat -> length c = 2%nat -> exists h, halo2 [1; 2] b c = MOk h.
Proof.
  intros Lb Lc. destruct flat0 as (f0 & E0 & Ef). pose proof PI_RGT_0. pose proof eps0_small. pose proof eps3.
  apply (C52_succeeds quad2 nat _ _ _ _ _ _ 80 flat _ _ _ _ f0 1 quad2_scales E0); try (cbn; lia); try exact Lb; try exact Lc; try exact incr2; try lra.
  - exact (quad2_pos f0 Ef).
  - apply Rmult_lt_0_compat; lra.
  - cbn; lra.
  - cbn [length Nat.sub nth]. unfold quad2. rewrite !Ef. replace (80 * (4 * PI * 1 ^ 2 * (2 ^ 3 - 1 ^ 3) / 3) / (4 * PI * 1 ^ 2 * (2 ^ 3 - eps0 ^ 3) / 3)) with (560 / (8 - eps0 ^ 3)) by (field; lra).
    apply (Rmult_lt_reg_r (8 - eps0 ^ 3)); [lra|]. unfold Rdiv at 2. rewrite Rmult_assoc, Rinv_l by lra. lra.
Qed.
Lemma rounds2 j (x y : R) : rounds j [x; y] = [x; y].
Proof. induction j as [|j IH]; [reflexivity|]. cbn. exact IH. Qed.
Lemma halo2_density t : 0 < t -> exists h f parts, halo2 [1; 2] (map (Rmult t) [1; 2]) (map (Rmult t) [1; 2]) = MOk h /\
  getMassIntegrand "alpha_beta_gamma" (pset flat "rho_s" (h_rho_s h)) = MOk f /\ (forall r, f r = 4 * PI * r ^ 2 * 1) /\
  h_axes h = ([1; 2], map (Rmult t) [1; 2], map (Rmult t) [1; 2]) /\ points h = concat parts /\
  Forall (in_closed_shell [1; 2] (map (Rmult t) [1; 2]) (map (Rmult t) [1; 2]) 1) (nth 1 parts []) /\
  Rabs (mean_density (length (nth 1 parts [])) (mass_dm h) (shell_vol [1; 2] (map (Rmult t) [1; 2]) (map (Rmult t) [1; 2]) 1) * (t * t) - 1) <= 1 / 20.
Proof.
  intros Ht. destruct (halo2_ok (map (Rmult t) [1; 2]) (map (Rmult t) [1; 2]) eq_refl eq_refl) as [h H]. destruct flat0 as (f0 & E0 & Ef0). pose proof PI_RGT_0 as Hpi. pose proof eps0_small as He. pose proof eps3 as He3.
  set (M := 4 / 3 * PI * (8 - eps0 ^ 3)). assert (HM : 0 < M) by (apply Rmult_lt_0_compat; lra).
  assert (H' := H). unfold halo2 in H'. fold M in H'.
  destruct (halo_inv quad2 nat _ _ _ _ _ M 80 flat _ [1; 2] _ _ h (Rgt_not_eq _ _ HM) ltac:(cbn; lia) H') as (f0' & f & al & j & E0' & EL & _ & Er & Egf & Ef & EA & _ & HC & _ & HZ & HL & Em & _).
  assert (f0' = f0) by congruence. subst f0'. assert (al = 2) by (cbn in EL; congruence). subst al. rewrite !rounds_map, rounds2 in EA.
  assert (Erho : h_rho_s h = 1). { rewrite Er. unfold quad2, M. rewrite Ef0. field. lra. }
  destruct (C120_ellipsoidal quad2 nat (fun k => k) (fun s => ((1, 0, 0), S s)) (fun s => (1 / 2, S s)) (fun _ _ => 0) (fun k => k) M 80 flat _ [1; 2] t t h f0 quad2_scales E0) as (f2 & A & B & C & parts & Ef2 & EA2 & EB & EC & EP & LP & HK); try exact H'; try exact HM; try exact incr2; try exact Ht; try lra.
  { intros; now apply quad2_adds. } { intros; now apply quad2_pos. } { intros; cbn; lra. } { cbn; lia. } { cbn; lra. }
  assert (f2 = f) by congruence. subst f2. rewrite EA in EA2. assert (A = [1; 2] /\ B = map (Rmult t) [1; 2] /\ C = map (Rmult t) [1; 2]) as (-> & -> & ->) by (split; [congruence|split; congruence]).
  exists h, f, parts. split; [exact H|]. split; [exact Egf|]. split; [intros r; rewrite Ef, Erho, Ef0; ring|]. split; [exact EA|]. split; [exact EP|].
  destruct (HK 1%nat ltac:(cbn; lia)) as (K1 & K2 & K3). split; [exact K1|]. cbv zeta in K3.
  set (d := mean_density _ _ _) in *. cbn [nth length] in K3. unfold quad2 in K3. rewrite Ef, Erho, Ef0 in K3.
  assert (EV : shell_vol [1; 2] [1; 2] [1; 2] 1 = 28 / 3 * PI) by (unfold shell_vol, ell_vol; cbn [prev nth]; field). rewrite EV in K3.
  assert (LN : length (h_Nptc h) = 2%nat) by (rewrite (counts_length _ _ _ _ _ HC), rounds2; reflexivity).
  pose proof (C80 quad2 nat (fun k => k) (fun s => ((1, 0, 0), S s)) (fun s => (1 / 2, S s)) (fun _ _ => 0) (fun k => k) M 80 flat "alpha_beta_gamma" [1; 2] (map (Rmult t) [1; 2]) (map (Rmult t) [1; 2]) h quad2_scales quad2_adds HM ltac:(lra) ltac:(cbn; lia) ltac:(cbn; lra) incr2) as HN.
  specialize (HN ltac:(intros g lo hi Eg Hl; assert (g = f0) by congruence; subst g; now apply quad2_pos) H'). cbv zeta in HN. rewrite LN in HN. cbn [INR] in HN.
  set (n := INR (length (points h))) in *. assert (Hn : 52 <= n) by lra.
  assert (Hm : mass_dm h <= 32 / 3 * PI / 52).
  { rewrite Em. unfold quad2. rewrite Ef, Erho, Ef0. apply (Rmult_le_reg_r n); [lra|]. unfold Rdiv at 1. rewrite Rmult_assoc, Rinv_l by lra.
    apply (Rle_trans _ (32 / 3 * PI)); [nra|]. replace (32 / 3 * PI / 52 * n) with (32 / 3 * PI * (n / 52)) by field. rewrite <- (Rmult_1_r (32 / 3 * PI)) at 1. apply Rmult_le_compat_l; lra. }
  assert (Hm0 : 0 < mass_dm h).
  { rewrite Em. unfold quad2. rewrite Ef, Erho, Ef0. apply Rdiv_lt_0_compat; [|lra]. nra. }
  set (m := mass_dm h) in *.
  replace (1 * (4 * PI * 1 ^ 2) * (2 ^ 3 - 1 ^ 3) / 3) with (28 / 3 * PI) in K3 by field. replace (28 / 3 * PI / (28 / 3 * PI)) with 1 in K3 by (field; lra).
  assert (K4 : m / 2 * (1 + (1 + 1) * (28 / 3 * PI / M)) / (28 / 3 * PI) <= 1 / 20).
  { assert (28 / 3 * PI / M <= 1). { apply (Rmult_le_reg_r M); [exact HM|]. unfold Rdiv at 1. rewrite Rmult_assoc, Rinv_l by lra. unfold M. nra. }
    apply (Rmult_le_reg_r (28 / 3 * PI)); [lra|]. unfold Rdiv at 1. rewrite Rmult_assoc, Rinv_l by lra. rewrite Rmult_1_r.
    apply (Rle_trans _ (m / 2 * 3)); [apply Rmult_le_compat_l; lra|]. lra. }
  exact (Rle_trans _ _ _ K3 K4).
Qed.
(** A profile of density 1 everywhere; axis ratios 1/2. More than three times the density in the outer shell. *)
Theorem C120_refuted : exists h f parts, halo2 [1; 2] [1 / 2; 1] [1 / 2; 1] = MOk h /\
  getMassIntegrand "alpha_beta_gamma" (pset flat "rho_s" (h_rho_s h)) = MOk f /\ (forall r, f r = 4 * PI * r ^ 2 * 1) /\
  h_axes h = ([1; 2], [1 / 2; 1], [1 / 2; 1]) /\ points h = concat parts /\
  Forall (in_closed_shell [1; 2] [1 / 2; 1] [1 / 2; 1] 1) (nth 1 parts []) /\
  3 < mean_density (length (nth 1 parts [])) (mass_dm h) (shell_vol [1; 2] [1 / 2; 1] [1 / 2; 1] 1).
Proof.
  destruct (halo2_density (1 / 2) ltac:(lra)) as (h & f & parts & H1 & H2 & H3 & H4 & H5 & H6 & H7).
  assert (Eb : map (Rmult (1 / 2)) [1; 2] = [1 / 2; 1]) by (cbn [map]; repeat (f_equal; try lra)). rewrite Eb in *.
  exists h, f, parts. repeat (split; [assumption|]). revert H7. unfold Rabs. destruct (Rcase_abs _); intros; lra.
Qed.
Print Assumptions C120_refuted.
(** The spherical halo of the same profile. *)
Example C120_ex : exists h parts, halo2 [1; 2] [1; 2] [1; 2] = MOk h /\ points h = concat parts /\ h_axes h = ([1; 2], [1; 2], [1; 2]) /\
  Rabs (mean_density (length (nth 1 parts [])) (mass_dm h) (shell_vol [1; 2] [1; 2] [1; 2] 1) - 1) <= 1 / 20.
Proof.
  destruct (halo2_density 1 ltac:(lra)) as (h & f & parts & H1 & H2 & H3 & H4 & H5 & H6 & H7).
  assert (Eb : map (Rmult 1) [1; 2] = [1; 2]) by (cbn [map]; repeat (f_equal; try lra)). rewrite Eb in *.
  exists h, parts. repeat (split; [assumption|]). rewrite !Rmult_1_r in H7. exact H7.
Qed.
