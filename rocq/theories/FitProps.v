(** C45-C47, C50, C63, C73, C74: fitting. *)
From Coq Require Import Reals String Bool ZArith QArith Lra Lia Permutation List Arith.
From Verif Require Import XR ConfigModel ConfigSpec ConfigUnits CatModel ParModel DensModel DensProofs FitModel ProfProps.
Import ListNotations.
Close Scope Q_scope.
Local Open Scope string_scope.
Local Open Scope R_scope.

(** ** Positive rescaling of extended reals *)
Lemma sgn_scale k r : 0 < k -> sgn (r * k) = sgn r.
Proof. intros H. unfold sgn. destruct (Rlt_dec 0 r), (Rlt_dec 0 (r * k)), (Rlt_dec r 0), (Rlt_dec (r * k) 0); auto; exfalso; nra. Qed.
Lemma xsgn_scale k a : 0 < k -> xsgn (xmul a (Fin k)) = xsgn a.
Proof.
  intros H. pose proof (sgn_pos k H) as S. destruct a; cbn; rewrite ?S; auto. apply sgn_scale; auto.
Qed.
Lemma xadd_scale k a b : 0 < k -> xadd (xmul a (Fin k)) (xmul b (Fin k)) = xmul (xadd a b) (Fin k).
Proof. intros H. pose proof (sgn_pos k H) as S. destruct a, b; cbn; rewrite ?S; cbn; rewrite ?S; auto. f_equal. ring. Qed.
Lemma xdiv_scale k a b : 0 < k -> xdiv (xmul a (Fin k)) (xmul b (Fin k)) = xdiv a b.
Proof.
  intros H. pose proof (sgn_pos k H) as S.
  assert (Z : forall r, r * k = 0 -> r = 0). { intros r E. apply Rmult_integral in E. destruct E; auto; lra. }
  destruct a as [x| | |], b as [y| | |]; cbn; rewrite ?S; cbn; auto.
  - rewrite sgn_scale by auto. destruct (Req_EM_T (y * k) 0) as [E|E], (Req_EM_T y 0) as [E'|E']; auto; try (apply Z in E; contradiction); try (subst; exfalso; apply E; ring).
    f_equal. field. split; lra.
  - rewrite sgn_scale by auto. destruct (Req_EM_T (y * k) 0) as [E|E], (Req_EM_T y 0) as [E'|E']; auto; try (apply Z in E; contradiction); subst; exfalso; apply E; ring.
  - rewrite sgn_scale by auto. destruct (Req_EM_T (y * k) 0) as [E|E], (Req_EM_T y 0) as [E'|E']; auto; try (apply Z in E; contradiction); subst; exfalso; apply E; ring.
Qed.
Lemma xmul_scale_assoc k a b : 0 < k -> xmul a (xmul b (Fin k)) = xmul (xmul a b) (Fin k).
Proof.
  intros H. pose proof (sgn_pos k H) as S. destruct a as [x| | |], b as [y| | |]; cbn; rewrite ?S; cbn; auto; rewrite ?sgn_scale by auto;
    try (f_equal; ring); try (destruct (sgn x); cbn; rewrite ?S; auto); try (destruct (sgn y); cbn; rewrite ?S; auto).
Qed.
Lemma xmul_fin_assoc a k l : 0 < k -> 0 < l -> xmul (xmul a (Fin k)) (Fin l) = xmul a (Fin (k * l)).
Proof.
  intros Hk Hl. pose proof (sgn_pos k Hk) as Sk. pose proof (sgn_pos l Hl) as Sl.
  pose proof (sgn_pos (k * l) (Rmult_lt_0_compat _ _ Hk Hl)) as Skl.
  destruct a; cbn; rewrite ?Sk, ?Sl, ?Skl; cbn; rewrite ?Sl; auto. f_equal. ring.
Qed.
Lemma xmul_1 a : xmul a (Fin 1) = a.
Proof. pose proof (sgn_pos 1 Rlt_0_1) as S. destruct a; cbn; rewrite ?S; auto. f_equal. ring. Qed.
Lemma xisnan_scale k a : 0 < k -> xisnan (xmul a (Fin k)) = xisnan a.
Proof. intros H. pose proof (sgn_pos k H) as S. destruct a; cbn; rewrite ?S; auto. Qed.
Lemma xsum_scale k l : 0 < k -> xsum (map (fun x => xmul x (Fin k)) l) = xmul (xsum l) (Fin k).
Proof.
  intros H. unfold xsum. assert (G : forall l a, fold_left xadd (map (fun x => xmul x (Fin k)) l) (xmul a (Fin k)) = xmul (fold_left xadd l a) (Fin k)).
  { clear l. induction l as [|x l IH]; intros a; cbn [map fold_left]; auto. rewrite xadd_scale by auto. apply IH. }
  rewrite <- G. f_equal. cbn. f_equal. ring.
Qed.
Lemma average_scale k l : 0 < k -> average (map (fun x => xmul x (Fin k)) l) = xmul (average l) (Fin k).
Proof.
  intros H. unfold average. rewrite xsum_scale, map_length by auto. pose proof (sgn_pos k H) as S. pose proof (pos_INR (length l)) as P.
  set (n := INR (length l)) in *. clearbody n. destruct (xsum l); cbn; rewrite ?S; cbn; auto.
  - rewrite sgn_scale by auto. destruct Req_EM_T; cbn.
    + destruct (sgn r); cbn; rewrite ?S; auto.
    + f_equal. field. auto.
  - destruct Req_EM_T; cbn; rewrite ?S; auto. rewrite (sgn_pos n) by lra. cbn. rewrite S. reflexivity.
  - destruct Req_EM_T; cbn; rewrite ?S; auto. rewrite (sgn_pos n) by lra. cbn. rewrite S. reflexivity.
Qed.

(** ** C47: amplitude and NaN bins *)
Definition times (k : R) (prof : list xr) : list xr := map (fun x => xmul x (Fin k)) prof.
Lemma kept_scale k RO median r200 : 0 < k ->
  kept RO (times k median) r200 = map (fun p => (fst p, xmul (snd p) (Fin k))) (kept RO median r200).
Proof.
  intros H. unfold kept, times. generalize (map (fun x => x * r200) RO). intros l. revert median.
  induction l as [|r l IH]; intros [|x md]; cbn [combine map filter]; auto. cbn [snd].
  rewrite xisnan_scale by auto. destruct (xisnan x); cbn [negb map fst snd]; rewrite IH; auto.
Qed.
Lemma rescaled_scale k pts : 0 < k -> rescaled_points (map (fun p => (fst p, xmul (snd p) (Fin k))) pts) = rescaled_points pts.
Proof.
  intros H. unfold rescaled_points. rewrite !map_map. cbn [fst snd].
  rewrite <- (map_map snd (fun x => xmul x (Fin k)) pts), average_scale by auto.
  apply map_ext. intros p. f_equal. apply xdiv_scale; auto.
Qed.
(** Multiply the first fitted parameter. *)
Definition times_rho (k : R) (fit : list xr) : list xr :=
  match fit with [] => [] | rho :: rest => xmul rho (Fin k) :: rest end.

Lemma fit_scale minimize RO m median r200 nb k fit : 0 < k ->
  fitDensProf minimize RO m median r200 nb (fit, nb) -> fitDensProf minimize RO m (times k median) r200 nb (times_rho k fit, nb).
Proof.
  intros H F. inversion F as [md r2 n rho rest Hm E1 E2 E3|md r2 n Hm E1 E2 E3]; subst.
  - cbn [times_rho]. rewrite <- xmul_scale_assoc by auto.
    replace (xmul (average (map snd (kept RO median r200))) (Fin k)) with (average (map snd (kept RO (times k median) r200))).
    2:{ rewrite kept_scale, map_map by auto. cbn [snd]. rewrite <- (map_map snd (fun x => xmul x (Fin k))), average_scale; auto. }
    apply fit_found. rewrite kept_scale, rescaled_scale by auto. exact Hm.
  - replace (times_rho k (map (fun _ => NaN) (iguess m r200))) with (map (fun _ : R => NaN) (iguess m r200)).
    + apply fit_value_error. rewrite kept_scale, rescaled_scale by auto. exact Hm.
    + destruct (iguess m r200); reflexivity.
Qed.

(* Multiplying the profile by k > 0 multiplies rho_s by k and changes nothing else, for any minimiser. *)
Theorem C47_amplitude : forall minimize RO m median r200 nb k fit', 0 < k ->
  (fitDensProf minimize RO m (times k median) r200 nb (fit', nb) <->
   exists fit, fitDensProf minimize RO m median r200 nb (fit, nb) /\ fit' = times_rho k fit).
Proof.
  intros minimize RO m median r200 nb k fit' H. split.
  - intros F. assert (Hi : 0 < / k) by (apply Rinv_0_lt_compat; auto).
    assert (T : times (/ k) (times k median) = median).
    { unfold times. rewrite map_map. rewrite <- (map_id median) at 2. apply map_ext. intros x. rewrite xmul_fin_assoc by auto.
      rewrite Rinv_r by lra. apply xmul_1. }
    exists (times_rho (/ k) fit'). split.
    + rewrite <- T. apply fit_scale; auto.
    + destruct fit' as [|rho rest]; auto. cbn [times_rho]. rewrite xmul_fin_assoc by auto. rewrite Rinv_l by lra. rewrite xmul_1. reflexivity.
  - intros (fit & F & ->). apply fit_scale; auto.
Qed.
Print Assumptions C47_amplitude.

(** The bins with a number in them. *)
Definition bins (RO : list R) (median : list xr) : list (R * xr) := filter (fun p => negb (xisnan (snd p))) (combine RO median).
(* NaN bins, and the radii at which they lie, have no influence. *)
Theorem C47_nan : forall minimize RO RO' m median median' r200 nb fit, bins RO median = bins RO' median' ->
  (fitDensProf minimize RO m median r200 nb fit <-> fitDensProf minimize RO' m median' r200 nb fit).
Proof.
  assert (K : forall RO median r200, kept RO median r200 = map (fun p => (fst p * r200, snd p)) (bins RO median)).
  { intros RO median r200. unfold kept, bins. revert median. induction RO as [|r l IH]; intros [|x md]; cbn [combine map filter]; auto. cbn [snd].
    destruct (xisnan x); cbn [negb map fst snd]; rewrite IH; auto. }
  intros minimize RO RO' m median median' r200 nb fit E.
  assert (E' : kept RO median r200 = kept RO' median' r200) by (rewrite !K, E; auto).
  split; intros F; inversion F; subst.
  - rewrite E' in *. constructor; auto.
  - rewrite E' in *. constructor; auto.
  - rewrite <- E' in *. constructor; auto.
  - rewrite <- E' in *. constructor; auto.
Qed.
Print Assumptions C47_nan.

(** A minimiser that returns its initial guess. *)
Definition lazy_min : minimiser := fun _ _ x0 _ r => r = Some (map Fin x0).
Definition m_nfw : mdict := [("profile", MStr "nfw")].
Example C47_example : fitDensProf lazy_min [1; 2; 3] m_nfw [Fin 6; NaN; Fin 2] 5 0 ([Fin (4 / 10); Fin 1], 0%nat) /\
  fitDensProf lazy_min [1; 2; 3] m_nfw (times 10 [Fin 6; NaN; Fin 2]) 5 0 ([Fin 4; Fin 1], 0%nat) /\
  fitDensProf lazy_min [1; 3] m_nfw [Fin 6; Fin 2] 5 0 ([Fin (4 / 10); Fin 1], 0%nat).
Proof.
  assert (A : fitDensProf lazy_min [1; 2; 3] m_nfw [Fin 6; NaN; Fin 2] 5 0 ([Fin (4 / 10); Fin 1], 0%nat)).
  { replace (Fin (4 / 10)) with (xmul (Fin (1 / 10)) (average (map snd (kept [1; 2; 3] [Fin 6; NaN; Fin 2] 5)))).
    - apply fit_found. unfold lazy_min. cbn. repeat f_equal; lra.
    - cbn. destruct Req_EM_T; [lra|]. cbn. f_equal. lra. }
  split; auto. split.
  - apply C47_amplitude; [lra|]. eexists. split; [exact A|]. cbn. f_equal. f_equal. lra.
  - eapply C47_nan; [|exact A]. reflexivity.
Qed.

(** ** C46: results go to the right objects *)
Lemma fold_put_other {X} (l : list (X * nat)) d : forall rows p, (forall x, ~ In (x, p) l) ->
  nth p (fold_left (fun rows r => put rows (snd r) (fst r)) l rows) d = nth p rows d.
Proof.
  induction l as [|[x q] l IH]; intros rows p H; cbn [fold_left fst snd]; auto.
  rewrite IH by (intros y Hy; apply (H y); right; auto). apply put_other. intros ->. apply (H x). left; auto.
Qed.
Lemma fold_put_in {X} (l : list (X * nat)) d : forall rows p x, NoDup (map snd l) -> In (x, p) l -> (p < length rows)%nat ->
  nth p (fold_left (fun rows r => put rows (snd r) (fst r)) l rows) d = x.
Proof.
  induction l as [|[y q] l IH]; intros rows p x Hnd Hin Hp; [destruct Hin|]. cbn [fold_left fst snd].
  inversion Hnd as [|? ? Hq Hnd']; subst. destruct Hin as [E|Hin].
  - injection E as -> ->. rewrite fold_put_other; [apply put_same; auto|]. intros z Hz. apply Hq. apply (in_map snd) in Hz. exact Hz.
  - apply IH; auto. rewrite put_length. auto.
Qed.
Lemma fold_put_length {X} (l : list (X * nat)) : forall rows, length (fold_left (fun rows r => put rows (snd r) (fst r)) l rows) = length rows.
Proof. induction l as [|r l IH]; intros rows; cbn [fold_left]; auto. rewrite IH. apply put_length. Qed.

Lemma helper_rows minimize dens RO r200s m rows : fitDensProfHelper minimize dens RO r200s m rows ->
  length rows = length dens /\
  forall p, (p < length dens)%nat -> fitDensProf minimize RO m (nth p dens []) (nth p r200s 0) p (nth p rows [], p).
Proof.
  intros H. inversion H as [results Hp E]; subst. inversion Hp as [rs rs' F P]; subst. clear H Hp.
  split; [rewrite fold_put_length, repeat_length; auto|]. intros p Hlt.
  assert (N : forall p r, fitDensProf minimize RO m (nth p dens []) (nth p r200s 0) p r -> snd r = p) by (intros q r Hr; inversion Hr; auto).
  assert (S : map snd rs = seq 0 (length dens)).
  { clear P Hlt. revert F. generalize (seq 0 (length dens)). intros l F. induction F as [|q r l rs Hr F IH]; auto. cbn [map]. f_equal; auto. }
  assert (Nd : NoDup (map snd results)).
  { eapply Permutation_NoDup; [apply Permutation_map; exact P|]. rewrite S. apply seq_NoDup. }
  assert (I : exists r, In (r, p) rs /\ fitDensProf minimize RO m (nth p dens []) (nth p r200s 0) p (r, p)).
  { clear - F N Hlt. assert (Ip : In p (seq 0 (length dens))) by (apply in_seq; lia).
    induction F as [|q r l rs Hr F IH]; [destruct Ip|]. destruct Ip as [->|Ip].
    - pose proof (N _ _ Hr). destruct r as [r q]. cbn in *. subst q. exists r. split; auto.
    - destruct (IH Ip) as (r' & H1 & H2). exists r'. split; auto. right; auto. }
  destruct I as (r & Ir & Fr). rewrite (fold_put_in results [] _ p r); auto.
  - eapply Permutation_in; eauto.
  - rewrite repeat_length; auto.
Qed.

(* Row p is a fit of profile p with R200 p, whatever the order in which workers finish. *)
Theorem C46_rows : forall minimize dens RO r200s m rows, fitDensProfHelper minimize dens RO r200s m rows ->
  length rows = length dens /\
  forall p, (p < length dens)%nat -> fitDensProf minimize RO m (nth p dens []) (nth p r200s 0) p (nth p rows [], p).
Proof. exact helper_rows. Qed.
Print Assumptions C46_rows.
(* With a deterministic minimiser the result is unique, and object p gets the row it would get alone. *)
Definition deterministic (minimize : minimiser) : Prop := forall mm obj x0 b r r', minimize mm obj x0 b r -> minimize mm obj x0 b r' -> r = r'.
Lemma fit_det minimize RO m median r200 nb nb' f f' : deterministic minimize ->
  fitDensProf minimize RO m median r200 nb f -> fitDensProf minimize RO m median r200 nb' f' -> fst f = fst f'.
Proof.
  intros D F F'. inversion F as [? ? ? ? ? H|? ? ? H]; subst; inversion F' as [? ? ? ? ? H'|? ? ? H']; subst; pose proof (D _ _ _ _ _ _ H H') as E; try discriminate; cbn [fst]; auto.
  assert (I : forall (A : Type) (x y : A) (l l' : list A), Some (x :: l) = Some (y :: l') -> x = y /\ l = l') by (intros; split; congruence).
  apply I in E. destruct E. subst. auto.
Qed.
Theorem C46_alone : forall minimize dens RO r200s m rows p rows', deterministic minimize -> (p < length dens)%nat ->
  fitDensProfHelper minimize dens RO r200s m rows ->
  fitDensProfHelper minimize [nth p dens []] RO [nth p r200s 0] m rows' -> nth p rows [] = nth 0 rows' [].
Proof.
  intros minimize dens RO r200s m rows p rows' D Hp H H'.
  pose proof (proj2 (helper_rows _ _ _ _ _ _ H) p Hp) as F. pose proof (proj2 (helper_rows _ _ _ _ _ _ H') 0%nat ltac:(cbn; lia)) as F'.
  cbn [nth] in F'. pose proof (fit_det _ _ _ _ _ _ _ _ _ D F F') as E. exact E.
Qed.
Print Assumptions C46_alone.
(** Two objects whose results come back in reverse order. *)
Example C46_example : fitDensProfHelper lazy_min [[Fin 1]; [Fin 2]] [1] [5; 10] m_nfw [[Fin (1 / 10); Fin 1]; [Fin (2 / 10); Fin 2]] /\ deterministic lazy_min.
Proof.
  split; [|intros mm obj x0 b r r' E E'; unfold lazy_min in *; congruence].
  assert (F : forall x r200 nb, fitDensProf lazy_min [1] m_nfw [Fin x] r200 nb ([Fin (x / 10); Fin (r200 / 5)], nb)).
  { intros x r200 nb. replace (Fin (x / 10)) with (xmul (Fin (1 / 10)) (average (map snd (kept [1] [Fin x] r200)))).
    - apply fit_found. unfold lazy_min. reflexivity.
    - cbn. destruct Req_EM_T; [lra|]. cbn. f_equal. lra. }
  change [[Fin (1 / 10); Fin 1]; [Fin (2 / 10); Fin 2]] with
    (fold_left (fun rows (r : list xr * nat) => put rows (snd r) (fst r)) [([Fin (2 / 10); Fin 2], 1%nat); ([Fin (1 / 10); Fin 1], 0%nat)]
      (repeat (repeat (Fin 0) (ncols m_nfw)) (length [[Fin 1]; [Fin 2]]))).
  apply helper_done. eapply pool_done; [|apply perm_swap].
  constructor; [|constructor; [|constructor]].
  - specialize (F 1 5 0%nat). replace (5 / 5) with 1 in F by lra. exact F.
  - specialize (F 2 10 1%nat). replace (10 / 5) with 2 in F by lra. exact F.
Qed.

(** ** C45: fixed parameters *)
(** A minimiser that stays within the bounds it is given. *)
Definition within (x : list xr) (b : list (xr * xr)) : Prop := Forall2 (fun v bd => xleb (fst bd) v = true /\ xleb v (snd bd) = true) x b.
Definition respects (minimize : minimiser) : Prop := forall mm obj x0 b x, minimize mm obj x0 b (Some x) -> within x b.
Lemma xleb_eq a v : xleb (Fin v) a = true -> xleb a (Fin v) = true -> a = Fin v.
Proof. destruct a as [r| | |]; cbn; try discriminate. destruct (Rle_dec v r), (Rle_dec r v); try discriminate. intros. f_equal. lra. Qed.
Lemma bound_fixed m k lo v a : fixed m k = Some v -> xleb (fst (bound m k lo)) a = true -> xleb a (snd (bound m k lo)) = true -> a = Fin v.
Proof. intros E. unfold bound. rewrite E. cbn [fst snd]. apply xleb_eq. Qed.

(** Which profile a checked method names. *)
Lemma is_str_eq v s : is_str v s = true <-> v = Some (MStr s).
Proof.
  destruct v as [[t|x]|]; cbn; try (split; discriminate). destruct (string_dec t s) as [->|N]; split; try discriminate; auto.
  intros E. injection E. intros. contradiction.
Qed.
Lemma checked_profile m : checkDensFitMethod m = true ->
  lookup m "profile" = Some (MStr "einasto") \/ lookup m "profile" = Some (MStr "alpha_beta_gamma") \/
  lookup m "profile" = Some (MStr "hernquist") \/ lookup m "profile" = Some (MStr "nfw").
Proof.
  unfold checkDensFitMethod. rewrite !andb_true_iff, !orb_true_iff, !is_str_eq. intuition.
Qed.
Lemma lookup_in m k v : lookup m k = Some v -> In (k, v) m.
Proof.
  induction m as [|[k' v'] m IH]; cbn; [discriminate|]. destruct (string_dec k k') as [->|N]; intros E; [left; congruence|right; auto].
Qed.
Lemma keys_in_not m allowed k v : keys_in m allowed = true -> lookup m k = Some v -> In k allowed.
Proof.
  unfold keys_in. rewrite forallb_forall. intros H E. apply lookup_in in E. specialize (H _ E). cbn in H.
  destruct (in_dec string_dec k allowed); auto. discriminate.
Qed.

(** Named columns of one fit in internal units. *)
Lemma fit_fixed minimize RO m median r200 nb row k v : respects minimize -> checkDensFitMethod m = true ->
  fitDensProf minimize RO m median r200 nb (row, nb) -> f_is_conv (to_fields m row) = true -> fixed m k = Some v ->
  (k = "alpha" -> f_alpha (to_fields m row) = Some (Fin v)) /\ (k = "beta" -> f_beta (to_fields m row) = Some (Fin v)) /\
  (k = "gamma" -> f_gamma (to_fields m row) = Some (Fin v)) /\ (k = "r_s" -> f_r_s (to_fields m row) = Fin v) /\ length row = ncols m.
Proof.
  intros Hr Hc F Hconv Hf.
  assert (Hal : forall al, keys_in m al = true -> In k al).
  { intros al Hal. unfold fixed in Hf. destruct (lookup m k) as [[|x]|] eqn:E; try discriminate. eapply keys_in_not; eauto. }
  pose proof Hc as Hc'. unfold checkDensFitMethod in Hc'. rewrite !andb_true_iff in Hc'. destruct Hc' as (((_ & _) & Hk) & _).
  inversion F as [md r2 n rho rest Hm E1 E2 E3|md r2 n Hm E1 E2 E3]; subst.
  - apply Hr in Hm. unfold to_fields, ncols, bounds in *. destruct (checked_profile m Hc) as [P|[P|[P|P]]]; rewrite P in *; cbn [is_str] in *;
    repeat (destruct string_dec as [?X|?X] in *; [try discriminate|try congruence]); cbn [orb] in *;
    inversion Hm as [|? ? ? ? _ Hm1]; subst; clear Hm;
    repeat match goal with H : Forall2 _ _ (_ :: _) |- _ => inversion H as [|? ? ? ? [? ?] ?]; subst; clear H | H : Forall2 _ _ [] |- _ => inversion H; subst; clear H end;
    cbn [f_alpha f_beta f_gamma f_r_s nth length]; apply Hal in Hk; cbn in Hk;
    repeat split; intros Ek; subst k; try (exfalso; intuition discriminate); try (f_equal; eapply bound_fixed; eauto; fail); try (eapply bound_fixed; eauto; fail); try reflexivity.
  - exfalso. unfold to_fields, iguess in *. destruct (checked_profile m Hc) as [P|[P|[P|P]]]; rewrite P in *; cbn [is_str] in *;
    repeat (destruct string_dec as [?X|?X] in *; [try discriminate|try congruence]); cbn in Hconv; discriminate.
Qed.

(** From the structured array back to the fits in internal units. *)
Lemma scale_fit_conv m g fl row : checkDensFitMethod m = true -> length row = ncols m ->
  let u := to_fields m row in let w := to_fields m (scale_fit m g fl row) in
  f_rho_s w = xmul (f_rho_s u) (Fin g) /\ f_alpha w = f_alpha u /\ f_beta w = f_beta u /\ f_gamma w = f_gamma u /\
  f_r_s w = xmul (f_r_s u) (Fin fl) /\ (0 < fl -> f_is_conv w = f_is_conv u).
Proof.
  intros Hc. unfold scale_fit, to_fields, ncols. destruct (checked_profile m Hc) as [P|[P|[P|P]]]; rewrite P; cbn [is_str];
    repeat (destruct string_dec as [?X|?X]; [try discriminate|try congruence]); cbn [orb Nat.sub];
    intros L; repeat (destruct row as [|? row]; try discriminate L); cbn [nth put app firstn skipn f_rho_s f_alpha f_beta f_gamma f_r_s f_is_conv]; repeat split; try (intros Hf; f_equal; apply xisnan_scale; auto); reflexivity.
Qed.
Lemma F2_length {A B} (P : A -> B -> Prop) l l' : Forall2 P l l' -> length l = length l'.
Proof. induction 1; cbn; auto. Qed.
Lemma fit_length minimize RO m median r200 nb row : respects minimize -> checkDensFitMethod m = true ->
  fitDensProf minimize RO m median r200 nb (row, nb) -> length row = ncols m.
Proof.
  intros Hr Hc F. inversion F as [md r2 n rho rest Hm E1 E2 E3|md r2 n Hm E1 E2 E3]; subst.
  - apply Hr in Hm. cbn [length]. assert (L : length (rho :: rest) = length (bounds m)) by (clear - Hm; unfold within in Hm; eapply F2_length; eauto).
    cbn [length] in L. rewrite L. unfold bounds, ncols. destruct (is_str _ "einasto"); [|destruct (is_str _ "alpha_beta_gamma")]; reflexivity.
  - rewrite map_length. unfold iguess, ncols. destruct (is_str _ "einasto"); [|destruct (is_str _ "alpha_beta_gamma")]; reflexivity.
Qed.

(** The unit factors, for a configuration whose h and output units are non-zero. *)
Definition MPC : R := 3085678 * 10 ^ 18.
Definition MSUN10 : R := 1989 * 10 ^ 40.
Lemma units_ok c : little_h c <> 0 -> out_l c <> 0 -> out_m c <> 0 ->
  let l := MPC / little_h c in let m := MSUN10 / little_h c / MASS_UNIT in
  len_to_out c = inl (l / out_l c) /\ dens_to_out c = inl (m / out_m c * / (l / out_l c) ^ 3) /\
  dens_from_out c = inl (out_m c / m * / (out_l c / l) ^ 3).
Proof.
  intros Hh Hl Hm l m. unfold len_to_out, dens_to_out, dens_from_out. rewrite (internal_ok c Hh). fold MPC MSUN10.
  assert (Ml : MPC <> 0) by (unfold MPC; apply Rmult_integral_contrapositive_currified; [lra|apply pow_nonzero; lra]).
  assert (Mm : MSUN10 <> 0) by (unfold MSUN10; apply Rmult_integral_contrapositive_currified; [lra|apply pow_nonzero; lra]).
  assert (Mu : MASS_UNIT <> 0) by (unfold MASS_UNIT; apply pow_nonzero; lra).
  assert (D : forall a b, a <> 0 -> b <> 0 -> a / b <> 0) by (intros; apply Rmult_integral_contrapositive_currified; auto; apply Rinv_neq_0_compat; auto).
  assert (Nl : l <> 0) by (unfold l; auto). assert (Nm : m <> 0) by (unfold m; auto).
  fold l. fold m. rewrite !pydiv_ok by auto.
  unfold pow_m3. destruct (Req_EM_T (l / out_l c) 0) as [E|_]; [exfalso; eapply D; [| |exact E]; auto|].
  destruct (Req_EM_T (out_l c / l) 0) as [E|_]; [exfalso; eapply D; [| |exact E]; auto|]. auto.
Qed.

(* A parameter fixed by the method is what a bound-respecting minimiser hands back: shape
   parameters exactly, the scale radius in Mpc/h. The returned scale radius is that value
   converted to the output unit. *)
Theorem C45_fixed_partial : forall minimize c r200 nobj dens RO m sel fits p k v, respects minimize -> 0 < little_h c -> 0 < out_l c -> 0 < out_m c ->
  fitDensProfs minimize c r200 nobj dens RO m sel (OOk fits) -> (p < length fits)%nat ->
  let fit := nth p fits (mkFit NaN None None None NaN false) in
  f_is_conv fit = true -> lookup m k = Some (MNum v) ->
  (k = "alpha" -> f_alpha fit = Some (Fin v)) /\ (k = "beta" -> f_beta fit = Some (Fin v)) /\ (k = "gamma" -> f_gamma fit = Some (Fin v)) /\
  (k = "r_s" -> f_r_s fit = Fin (v * (MPC / little_h c) / out_l c)).
Proof.
  intros minimize c r200 nobj dens RO m sel fits p k v Hr Hh Hl Hm F Hp fit Hc Hk.
  inversion F as [| |rows Hck Fb]; subst. inversion Fb as [| | | |f g fl rws Hd Hf Hv Hh' Hg Hfl]; subst.
  destruct (units_ok c ltac:(lra) ltac:(lra) ltac:(lra)) as (El & _ & _). rewrite El in Hfl. assert (Efl : fl = MPC / little_h c / out_l c) by congruence. subst fl.
  destruct (helper_rows _ _ _ _ _ _ Hh') as (Lr & Hrow). rewrite !map_length in Hp.
  specialize (Hrow p ltac:(rewrite <- Lr; exact Hp)).
  assert (Efit : fit = to_fields m (scale_fit m g (MPC / little_h c / out_l c) (nth p rws []))).
  { unfold fit. rewrite (nth_indep _ _ (to_fields m (scale_fit m g (MPC / little_h c / out_l c) []))) by (rewrite !map_length; auto).
    rewrite map_map. rewrite (map_nth (fun row => to_fields m (scale_fit m g (MPC / little_h c / out_l c) row))). reflexivity. }
  clearbody fit. subst fit.
  pose proof (fit_length _ _ _ _ _ _ _ Hr Hck Hrow) as Len.
  assert (Nfl : 0 < MPC / little_h c / out_l c).
  { unfold MPC. repeat apply Rdiv_lt_0_compat; auto. apply Rmult_lt_0_compat; [lra|apply pow_lt; lra]. }
  destruct (scale_fit_conv m g (MPC / little_h c / out_l c) _ Hck Len) as (_ & Ea & Eb & Eg & Es & Ec).
  rewrite Ea, Eb, Eg, Es. rewrite (Ec Nfl) in Hc.
  assert (Hfx : fixed m k = Some v) by (unfold fixed; rewrite Hk; auto).
  destruct (fit_fixed _ _ _ _ _ _ _ _ _ Hr Hck Hrow Hc Hfx) as (H1 & H2 & H3 & H4 & _).
  repeat split; auto. intros E. rewrite (H4 E). cbn. f_equal. unfold Rdiv. ring.
Qed.
Print Assumptions C45_fixed_partial.

(** A configuration with h = 1, output length unit l and mass unit Msun/h. *)
Definition cfg_out (l : R) : config := mkConfig 1 1 1 1 l (MSUN10 / MASS_UNIT) 1.

(** A minimiser that returns its initial guess if that is within bounds and raises ValueError otherwise. *)
Definition careful_min : minimiser := fun _ _ x0 b r => (r = Some (map Fin x0) /\ within (map Fin x0) b) \/ (r = None /\ ~ within (map Fin x0) b).
Lemma careful_respects : respects careful_min.
Proof. intros mm obj x0 b x [[E H]|[E H]]; [|discriminate]. injection E as ->. exact H. Qed.
Lemma careful_deterministic : deterministic careful_min.
Proof. intros mm obj x0 b r r' [[-> H]|[-> H]] [[-> H']|[-> H']]; auto; contradiction. Qed.
Lemma xleb_fin a b : a <= b -> xleb (Fin a) (Fin b) = true.
Proof. intros. cbn. destruct (Rle_dec a b); auto. Qed.

(** One object of radius 5 and a one-bin profile, internal units Mpc/h in and l out. *)
Lemma one_row m x : lookup m "profile" = Some (MStr "nfw") -> within [Fin (1 / 10); Fin 1] (bounds m) ->
  fitDensProfHelper careful_min [[Fin x]] [1] [5] m [[Fin (x / 10); Fin 1]].
Proof.
  intros Hp Hw.
  assert (Hi : iguess m 5 = [1 / 10; 1]).
  { unfold iguess. rewrite Hp. cbn [is_str]. repeat (destruct string_dec; try discriminate). replace (5 / 5) with 1 by lra. reflexivity. }
  change [[Fin (x / 10); Fin 1]] with (fold_left (fun rows (r : list xr * nat) => put rows (snd r) (fst r)) [([Fin (x / 10); Fin 1], 0%nat)]
      (repeat (repeat (Fin 0) (ncols m)) (length [[Fin x]]))).
  apply helper_done. eapply pool_done; [|apply Permutation_refl]. constructor; [|constructor].
  cbn [nth]. replace (Fin (x / 10)) with (xmul (Fin (1 / 10)) (average (map snd (kept [1] [Fin x] 5)))).
  - apply fit_found. left. rewrite Hi. split; [reflexivity|exact Hw].
  - cbn. destruct Req_EM_T; [lra|]. cbn. f_equal. lra.
Qed.
Lemma MPC_pos : 0 < MPC. Proof. unfold MPC; apply Rmult_lt_0_compat; [lra|apply pow_lt; lra]. Qed.
Lemma MSUN10_pos : 0 < MSUN10. Proof. unfold MSUN10; apply Rmult_lt_0_compat; [lra|apply pow_lt; lra]. Qed.
Lemma MASS_UNIT_pos : 0 < MASS_UNIT. Proof. unfold MASS_UNIT; apply pow_lt; lra. Qed.
Lemma valid_0 : valid_numbers [0%Z] 1 = true. Proof. reflexivity. Qed.
Lemma scale_fit2 m g fl a b : ncols m = 2%nat -> scale_fit m g fl [a; b] = [xmul a (Fin g); xmul b (Fin fl)].
Proof. intros H. unfold scale_fit. rewrite H. reflexivity. Qed.
Lemma one_fit l m x : 0 < l -> checkDensFitMethod m = true -> lookup m "profile" = Some (MStr "nfw") -> ncols m = 2%nat ->
  within [Fin (1 / 10); Fin 1] (bounds m) ->
  fitDensProfs careful_min (cfg_out l) [5] 1 [[Fin x]] [1] m [0%Z] (OOk [to_fields m [Fin (x / 10); Fin (MPC / l)]]).
Proof.
  intros Hl Hc Hp Hn Hw. pose proof MPC_pos as PM. pose proof MSUN10_pos as Pm. pose proof MASS_UNIT_pos as PU.
  assert (Pom : 0 < MSUN10 / MASS_UNIT) by (apply Rdiv_lt_0_compat; auto).
  assert (Eh : little_h (cfg_out l) = 1) by reflexivity. assert (Eol : out_l (cfg_out l) = l) by reflexivity.
  assert (Eom : out_m (cfg_out l) = MSUN10 / MASS_UNIT) by reflexivity.
  destruct (units_ok (cfg_out l)) as (El & Eo & Ef); rewrite ?Eh, ?Eol, ?Eom in *; try lra.
  pose proof (one_row m (x * (MSUN10 / MASS_UNIT / (MSUN10 / 1 / MASS_UNIT) * / (l / (MPC / 1)) ^ 3)) Hp Hw) as Hrow.
  pose proof (fb_ok careful_min (cfg_out l) [5] 1 [[Fin x]] [1] m [0%Z] _ _ _ _ eq_refl Ef valid_0 Hrow Eo El) as Hb.
  apply (fp_ok _ _ _ _ _ _ _ _ _ Hc) in Hb. cbn [map] in Hb. rewrite scale_fit2 in Hb by auto. cbn [xmul] in Hb.
  match type of Hb with fitDensProfs _ _ _ _ _ _ _ _ (OOk [to_fields _ [Fin ?a; Fin ?b]]) =>
    replace a with (x / 10) in Hb; [replace b with (MPC / l) in Hb; [exact Hb|]|] end.
  - clear - Hl PM. field. lra.
  - clear - Hl PM Pm PU. revert PM Pm PU. generalize MPC, MSUN10, MASS_UNIT. intros a b c Ha Hb Hc. field. repeat split; lra.
Qed.

Definition m_rho : mdict := [("profile", MStr "nfw"); ("rho_s", MNum 5)].
Definition m_rs : mdict := [("profile", MStr "nfw"); ("r_s", MNum 1)].
Lemma small_bound n x : 1 / 10 <= x -> / 10 ^ S n <= x.
Proof. intros H. assert (/ 10 ^ S n <= / 10); [|lra]. apply Rinv_le_contravar; [lra|]. pose proof (pow_R1_Rle 10 n ltac:(lra)). rewrite <- tech_pow_Rmult. nra. Qed.
Lemma within_rho : within [Fin (1 / 10); Fin 1] (bounds m_rho).
Proof. repeat constructor; apply xleb_fin; apply (small_bound 6) || apply (small_bound 4); lra. Qed.
Lemma within_rs : within [Fin (1 / 10); Fin 1] (bounds m_rs).
Proof. repeat constructor; apply xleb_fin; try lra; apply (small_bound 6); lra. Qed.

(* The claim for all parameters is false: a fixed rho_s is accepted and ignored. *)
Theorem C45_refuted : ~ (forall minimize c r200 nobj dens RO m sel fits p v, respects minimize -> 0 < little_h c -> 0 < out_l c -> 0 < out_m c ->
  fitDensProfs minimize c r200 nobj dens RO m sel (OOk fits) -> (p < length fits)%nat ->
  let fit := nth p fits (mkFit NaN None None None NaN false) in
  f_is_conv fit = true -> lookup m "rho_s" = Some (MNum v) -> f_rho_s fit = Fin v).
Proof.
  intros H. pose proof MPC_pos. pose proof (Rdiv_lt_0_compat _ _ MSUN10_pos MASS_UNIT_pos).
  pose proof (one_fit MPC m_rho 1 MPC_pos eq_refl eq_refl eq_refl within_rho) as F.
  apply (H _ _ _ _ _ _ _ _ _ 0%nat 5 careful_respects) in F; cbn in *; auto; try lra. injection F. lra.
Qed.
Print Assumptions C45_refuted.
(* Nor is a fixed scale radius returned unchanged when the output length unit is not Mpc/h. *)
Theorem C45_scale_radius_refuted : ~ (forall minimize c r200 nobj dens RO m sel fits p v, respects minimize -> 0 < little_h c -> 0 < out_l c -> 0 < out_m c ->
  fitDensProfs minimize c r200 nobj dens RO m sel (OOk fits) -> (p < length fits)%nat ->
  let fit := nth p fits (mkFit NaN None None None NaN false) in
  f_is_conv fit = true -> lookup m "r_s" = Some (MNum v) -> f_r_s fit = Fin v).
Proof.
  intros H. pose proof MPC_pos as P. pose proof (Rdiv_lt_0_compat _ _ MSUN10_pos MASS_UNIT_pos).
  assert (Pk : 0 < MPC / 1000) by lra.
  pose proof (one_fit (MPC / 1000) m_rs 1 Pk eq_refl eq_refl eq_refl within_rs) as F.
  assert (E : MPC / (MPC / 1000) = 1000) by (field; lra). rewrite E in F.
  apply (H _ _ _ _ _ _ _ _ _ 0%nat 1 careful_respects) in F; cbn in *; auto; try lra. injection F. lra.
Qed.
Print Assumptions C45_scale_radius_refuted.
(** The hypotheses of C45_fixed_partial are met by a fit with r_s fixed, reported in kpc/h. *)
Example C45_example : respects careful_min /\
  fitDensProfs careful_min (cfg_out (MPC / 1000)) [5] 1 [[Fin 1]] [1] m_rs [0%Z] (OOk [mkFit (Fin (1 / 10)) None None None (Fin 1000) true]).
Proof.
  split; [exact careful_respects|]. pose proof MPC_pos as P. assert (Pk : 0 < MPC / 1000) by lra.
  pose proof (one_fit (MPC / 1000) m_rs 1 Pk eq_refl eq_refl eq_refl within_rs) as F.
  assert (E : MPC / (MPC / 1000) = 1000) by (field; lra). rewrite E in F. exact F.
Qed.
