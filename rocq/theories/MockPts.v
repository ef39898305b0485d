(** Point sets: C53, C54, C55, C81, C83. *)
From Coq Require Import Reals Lra Lia Bool Arith ZArith List.
From Verif Require Import MockModel.
Import ListNotations.
Local Open Scope R_scope.

(** ** C53 *)
(** Positive axes growing with the shell number. *)
Definition axes (l : list R) : Prop := (forall k, (k < length l)%nat -> 0 < nth k l 0) /\ (forall j k, (j < k < length l)%nat -> nth j l 0 <= nth k l 0).
Lemma ceil_unique n k x : (0 < n)%nat -> INR k < x * INR n <= INR (S k) ->
  Nat.max 1 (Z.to_nat (up (x * INR n) - (if Req_EM_T (IZR (up (x * INR n) - 1)) (x * INR n) then 1 else 0))) = S k.
Proof.
  intros Hn H. set (y := x * INR n) in *. destruct (archimed y) as [A1 A2].
  assert (HI : forall j : nat, INR j = IZR (Z.of_nat j)) by (intros; apply INR_IZR_INZ). rewrite !HI in H.
  destruct (Req_EM_T (IZR (up y - 1)) y) as [E|E].
  - assert (up y - 1 = Z.of_nat (S k))%Z; [|lia]. rewrite minus_IZR in E.
    assert (Z.of_nat k < up y - 1)%Z by (apply lt_IZR; rewrite minus_IZR; lra). assert (up y - 1 <= Z.of_nat (S k))%Z by (apply le_IZR; rewrite minus_IZR; lra). lia.
  - rewrite minus_IZR in E. assert (up y = Z.of_nat (S k))%Z; [|lia].
    assert (Z.of_nat k < up y)%Z by (apply lt_IZR; lra).
    assert (up y - 1 < Z.of_nat (S k))%Z by (apply lt_IZR; rewrite minus_IZR; lra). lia.
Qed.
Lemma interp_at_zero y n : (0 < n)%nat -> interp1d y n 0 = nth 0 y 0.
Proof.
  intros Hn. assert (0 < INR n) by now apply lt_0_INR. unfold interp1d. rewrite Rmult_0_l.
  assert (Hu : up 0 = 1%Z) by (symmetry; apply tech_up; simpl; lra). rewrite Hu. destruct (Req_EM_T (IZR (1 - 1)) 0) as [_|E]; [|simpl in E; lra]. simpl. field. lra.
Qed.
(** In the k-th interval the value moves linearly from the k-th to the next knot value. *)
Lemma interp_segment y n k t : (k < n)%nat -> 0 <= t <= 1 -> interp1d y n ((INR k + t) / INR n) = nth k y 0 + t * (nth (S k) y 0 - nth k y 0).
Proof.
  intros Hk Ht. assert (Hn : 0 < INR n) by (apply lt_0_INR; lia). destruct (Req_dec t 0) as [->|Hne].
  - destruct k as [|k].
    + replace ((INR 0 + 0) / INR n) with 0 by (simpl; field; lra). rewrite interp_at_zero by lia. ring.
    + unfold interp1d. assert (E : (INR (S k) + 0) / INR n * INR n = INR (S k)) by (field; lra). rewrite (ceil_unique n k) by (rewrite ?E, ?S_INR; try lra; lia).
      replace (S k - 1)%nat with k by lia. rewrite S_INR. field. split; [|lra]. replace (INR k + 1 - INR k) with 1 by ring. lra.
  - unfold interp1d. assert (E : (INR k + t) / INR n * INR n = INR k + t) by (field; lra). rewrite (ceil_unique n k) by (rewrite ?E, ?S_INR; try lra; lia).
    replace (S k - 1)%nat with k by lia. rewrite S_INR. field. split; [|lra]. replace (INR k + 1 - INR k) with 1 by ring. lra.
Qed.
Definition inner (l : list R) (k : nat) : R := nth k (stack0 l) 0.
Lemma shell_value l k t : (k < length l)%nat -> 0 <= t <= 1 -> interp1d (stack0 l) (length l) ((INR k + t) / INR (length l)) = inner l k + t * (nth k l 0 - inner l k).
Proof. intros. now rewrite interp_segment. Qed.
Lemma axes_between l k t : axes l -> (k < length l)%nat -> 0 <= t <= 1 -> 0 <= inner l k /\ inner l k <= inner l k + t * (nth k l 0 - inner l k) <= nth k l 0.
Proof.
  intros [H1 H2] Hk Ht. unfold inner. specialize (H1 k Hk) as Hp. destruct k as [|k]; cbn [stack0 nth]; [nra|].
  specialize (H2 k (S k) ltac:(lia)). specialize (H1 k ltac:(lia)). nra.
Qed.
Lemma ratio_sq_le s x a : 0 < a -> 0 <= x <= a -> (s * x / a) ^ 2 <= s ^ 2.
Proof.
  intros Ha H. assert (E : s * x / a = s * (x / a)) by (field; lra). rewrite E. assert (0 <= x / a <= 1).
  { split; [apply Rmult_le_pos; [lra | left; now apply Rinv_0_lt_compat]|]. apply (Rmult_le_reg_r a); [exact Ha|]. unfold Rdiv. rewrite Rmult_assoc, Rinv_l by lra. lra. }
  assert (0 <= s ^ 2) by apply pow2_ge_0. set (q := x / a) in *. clearbody q. assert (q * q <= 1) by nra. replace ((s * q) ^ 2) with (s ^ 2 * (q * q)) by ring. set (w := s ^ 2) in *. clearbody w. nra.
Qed.
Lemma ratio_sq_ge s x a : 0 < a -> a <= x -> s ^ 2 <= (s * x / a) ^ 2.
Proof.
  intros Ha H. assert (E : s * x / a = s * (x / a)) by (field; lra). rewrite E. assert (1 <= x / a).
  { apply (Rmult_le_reg_r a); [exact Ha|]. unfold Rdiv. rewrite Rmult_assoc, Rinv_l by lra. lra. }
  assert (0 <= s ^ 2) by apply pow2_ge_0. set (q := x / a) in *. clearbody q. assert (1 <= q * q) by nra. replace ((s * q) ^ 2) with (s ^ 2 * (q * q)) by ring. set (w := s ^ 2) in *. clearbody w. nra.
Qed.
Lemma unit_dir th ph : (sin th * cos ph) ^ 2 + (sin th * sin ph) ^ 2 + (cos th) ^ 2 = 1.
Proof. pose proof (sin2_cos2 th) as H1. pose proof (sin2_cos2 ph) as H2. unfold Rsqr in *. simpl. nra. Qed.
(** For any direction and any number of the shell's interval: on or inside the outer and on or outside the inner ellipsoid. *)
Theorem C53_point a b c k t th ph : axes a -> axes b -> axes c -> length b = length a -> length c = length a -> (k < length a)%nat -> 0 <= t <= 1 ->
  let p := shell_point a b c th ph ((INR k + t) / INR (length a)) in
  ell_form p (nth k a 0) (nth k b 0) (nth k c 0) <= 1 /\
  (forall k', k = S k' -> 1 <= ell_form p (nth k' a 0) (nth k' b 0) (nth k' c 0)).
Proof.
  intros Ha Hb Hc Lb Lc Hk Ht p. unfold p, shell_point.
  pose proof (shell_value a k t Hk Ht) as Va. pose proof (shell_value b k t ltac:(lia) Ht) as Vb. pose proof (shell_value c k t ltac:(lia) Ht) as Vc.
  rewrite Lb in Vb. rewrite Lc in Vc. cbv zeta. rewrite Va, Vb, Vc.
  destruct (axes_between a k t Ha Hk Ht) as [A0 A]. destruct (axes_between b k t Hb ltac:(lia) Ht) as [B0 B]. destruct (axes_between c k t Hc ltac:(lia) Ht) as [C0 C].
  set (xa := inner a k + _) in *. set (xb := inner b k + _) in *. set (xc := inner c k + _) in *. clearbody xa xb xc. clear Va Vb Vc p.
  pose proof (unit_dir th ph) as U. unfold ell_form. split.
  - pose proof (ratio_sq_le (sin th * cos ph) xa (nth k a 0) (proj1 Ha k Hk) ltac:(lra)).
    pose proof (ratio_sq_le (sin th * sin ph) xb (nth k b 0) (proj1 Hb k ltac:(lia)) ltac:(lra)).
    pose proof (ratio_sq_le (cos th) xc (nth k c 0) (proj1 Hc k ltac:(lia)) ltac:(lra)). lra.
  - intros k' ->. unfold inner, stack0 in *. cbn [nth] in *.
    pose proof (ratio_sq_ge (sin th * cos ph) xa (nth k' a 0) (proj1 Ha k' ltac:(lia)) ltac:(lra)).
    pose proof (ratio_sq_ge (sin th * sin ph) xb (nth k' b 0) (proj1 Hb k' ltac:(lia)) ltac:(lra)).
    pose proof (ratio_sq_ge (cos th) xc (nth k' c 0) (proj1 Hc k' ltac:(lia)) ltac:(lra)). lra.
Qed.
Print Assumptions C53_point.
Lemma axes2 : axes [1; 2]. Proof. split; [intros k Hk; simpl in Hk; destruct k as [|[|k]]; simpl; [lra | lra | lia] | intros j k Hk; simpl in Hk; destruct j as [|j], k as [|[|k]]; simpl; try lra; lia]. Qed.
Example C53_ex : axes [1; 2] /\ let p := shell_point [1; 2] [1; 2] [1; 2] 0 0 ((INR 1 + 1/2) / INR 2) in p = (0, 0, 3/2) /\ inShell p [1; 2] [1; 2] [1; 2] 1 = true.
Proof.
  split; [apply axes2|]. cbv zeta. pose proof (shell_value [1; 2] 1 (1/2) ltac:(simpl; lia) ltac:(lra)) as V. change (length [1; 2]) with 2%nat in V.
  unfold shell_point. change (length [1; 2]) with 2%nat. rewrite !V. rewrite sin_0, cos_0. unfold inner, stack0. simpl nth.
  assert (E : (0 * 1 * (1 + 1 / 2 * (2 - 1)), 0 * 0 * (1 + 1 / 2 * (2 - 1)), 1 * (1 + 1 / 2 * (2 - 1))) = (0, 0, 3 / 2)) by (f_equal; [f_equal|]; lra).
  rewrite E. split; [reflexivity|]. unfold inShell. cbn [Nat.ltb Nat.leb Nat.sub nth].
  assert (E1 : ell_form (0, 0, 3 / 2) 2 2 2 = 9 / 16) by (unfold ell_form; field). assert (E2 : ell_form (0, 0, 3 / 2) 1 1 1 = 9 / 4) by (unfold ell_form; field).
  rewrite E1, E2. destruct (Rle_dec _ 1) as [_|N]; [|lra]. destruct (Rlt_dec 1 _) as [_|N]; [reflexivity | lra].
Qed.
(** With the axes strictly growing and the number off the lower end of its interval the test function agrees. *)
Theorem C53_inShell a b c k t th ph : axes a -> axes b -> axes c -> length b = length a -> length c = length a -> (k < length a)%nat -> 0 < t <= 1 ->
  (forall k', k = S k' -> nth k' a 0 < nth k a 0 /\ nth k' b 0 < nth k b 0 /\ nth k' c 0 < nth k c 0) ->
  inShell (shell_point a b c th ph ((INR k + t) / INR (length a))) a b c k = true.
Proof.
  intros Ha Hb Hc Lb Lc Hk Ht Hs. assert (Ht' : 0 <= t <= 1) by lra. destruct (C53_point a b c k t th ph Ha Hb Hc Lb Lc Hk Ht') as [H1 H2]. cbv zeta in *.
  unfold inShell. destruct (Rle_dec _ 1) as [_|N]; [|contradiction]. destruct k as [|k']; [reflexivity|]. cbn [Nat.ltb Nat.leb andb]. replace (S k' - 1)%nat with k' by lia.
  destruct (Rlt_dec 1 _) as [_|N]; [reflexivity|]. exfalso. apply N. clear N H1. specialize (H2 k' eq_refl). specialize (Hs k' eq_refl).
  pose proof (shell_value a (S k') t Hk Ht') as Va. pose proof (shell_value b (S k') t ltac:(lia) Ht') as Vb. pose proof (shell_value c (S k') t ltac:(lia) Ht') as Vc.
  rewrite Lb in Vb. rewrite Lc in Vc. unfold shell_point, ell_form in *. rewrite Va, Vb, Vc in *. unfold inner, stack0 in *. cbn [nth] in *. clear Va Vb Vc.
  pose proof (proj1 Ha k' ltac:(lia)) as Pa. pose proof (proj1 Hb k' ltac:(lia)) as Pb. pose proof (proj1 Hc k' ltac:(lia)) as Pc.
  pose proof (unit_dir th ph) as U. destruct Hs as (Sa & Sb & Sc).
  assert (G : forall s x a0, 0 < a0 -> a0 < x -> s ^ 2 * (x / a0) ^ 2 = (s * x / a0) ^ 2 /\ 1 < (x / a0) ^ 2).
  { intros s x a0 H0 H1. split; [field; lra|]. assert (1 < x / a0) by (apply (Rmult_lt_reg_r a0); [exact H0 | unfold Rdiv; rewrite Rmult_assoc, Rinv_l by lra; lra]). simpl. nra. }
  destruct (G (sin th * cos ph) (nth k' a 0 + t * (nth (S k') a 0 - nth k' a 0)) _ Pa ltac:(nra)) as [<- Ga].
  destruct (G (sin th * sin ph) (nth k' b 0 + t * (nth (S k') b 0 - nth k' b 0)) _ Pb ltac:(nra)) as [<- Gb].
  destruct (G (cos th) (nth k' c 0 + t * (nth (S k') c 0 - nth k' c 0)) _ Pc ltac:(nra)) as [<- Gc].
  pose proof (pow2_ge_0 (sin th * cos ph)). pose proof (pow2_ge_0 (sin th * sin ph)). pose proof (pow2_ge_0 (cos th)).
  set (u := (sin th * cos ph) ^ 2) in *. set (v := (sin th * sin ph) ^ 2) in *. set (w := cos th ^ 2) in *. set (qa := (_ / _) ^ 2) in *. set (qb := (_ / nth k' b 0) ^ 2) in *. set (qc := (_ / nth k' c 0) ^ 2) in *.
  clearbody u v w qa qb qc. assert (0 < u \/ 0 < v \/ 0 < w) as [P|[P|P]] by lra; nra.
Qed.
Print Assumptions C53_inShell.
(** At the lower end (which np.random.uniform can return) the point is on the inner ellipsoid, which the test function counts to the shell below. *)
Theorem C53_lower_end : exists th ph, inShell (shell_point [1; 2] [1; 2] [1; 2] th ph ((INR 1 + 0) / INR 2)) [1; 2] [1; 2] [1; 2] 1 = false.
Proof.
  exists 0, 0. pose proof (shell_value [1; 2] 1 0 ltac:(simpl; lia) ltac:(lra)) as V. change (length [1; 2]) with 2%nat in V.
  unfold shell_point. change (length [1; 2]) with 2%nat. rewrite !V. rewrite sin_0, cos_0. unfold inner, stack0, inShell. cbn [Nat.ltb Nat.leb Nat.sub nth].
  match goal with |- context [Rlt_dec 1 ?e] => assert (E : e = 1) by (unfold ell_form; field); rewrite E end.
  destruct (Rlt_dec 1 1) as [N|_]; [lra | apply andb_false_r].
Qed.
Print Assumptions C53_lower_end.

(** The whole function. *)
Section Draw.
  Variables (St : Type) (seed : nat -> St) (normal3 : St -> pt * St) (u01 : St -> R * St) (arctan2 : R -> R -> R).
  Lemma ball_length N st : length (fst (ball St normal3 u01 N st)) = N.
  Proof.
    revert st. induction N as [|N IH]; intros st; [reflexivity|]. simpl. destruct (normal3 st) as [x s1], (u01 s1) as [u s2]. specialize (IH s2). destruct (ball St normal3 u01 N s2). simpl in *. lia.
  Qed.
  Lemma uniforms_length N st : length (fst (uniforms St u01 N st)) = N.
  Proof. revert st. induction N as [|N IH]; intros st; [reflexivity|]. simpl. destruct (u01 st) as [u s1]. specialize (IH s1). destruct (uniforms St u01 N s1). simpl in *. lia. Qed.
  Lemma uniforms_range N st : (forall s, 0 <= fst (u01 s) < 1) -> Forall (fun u => 0 <= u < 1) (fst (uniforms St u01 N st)).
  Proof.
    intros H. revert st. induction N as [|N IH]; intros st; [constructor|]. simpl. specialize (H st). destruct (u01 st) as [u s1]. specialize (IH s1). destruct (uniforms St u01 N s1). simpl in *. now constructor.
  Qed.
  Lemma ball_dir N st : (forall s, let '(x, y, z) := fst (normal3 s) in (x, y, z) <> (0, 0, 0)) ->
    Forall (fun p => exists s k, p = scale3 k (fst (normal3 s))) (fst (ball St normal3 u01 N st)).
  Proof.
    intros H. revert st. induction N as [|N IH]; intros st; [constructor|]. simpl. destruct (normal3 st) as [x s1] eqn:E, (u01 s1) as [u s2]. specialize (IH s2). destruct (ball St normal3 u01 N s2). simpl in *.
    constructor; [|exact IH]. exists st, (cbrt u / norm3 x). now rewrite E.
  Qed.
  (** The requested number of points, all in the shell; the call fails only for a shell number out of range or a negative count. *)
  Theorem C53_shell a b c Nptc k st : axes a -> axes b -> axes c -> length b = length a -> length c = length a -> (forall s, 0 <= fst (u01 s) < 1) ->
    (k < length a)%nat -> (k < length Nptc)%nat -> (0 <= nth k Nptc 0)%Z ->
    exists pts st', drawUniformFromShell St seed normal3 u01 arctan2 a b c Nptc k st = MOk (pts, st') /\
      Z.of_nat (length pts) = nth k Nptc 0%Z /\
      forall p, In p pts -> ell_form p (nth k a 0) (nth k b 0) (nth k c 0) <= 1 /\ (forall k', k = S k' -> 1 <= ell_form p (nth k' a 0) (nth k' b 0) (nth k' c 0)).
  Proof.
    intros Ha Hb Hc Lb Lc Hu Hk HkN HN. unfold drawUniformFromShell, at_, mbind.
    rewrite (nth_error_nth' a 0) by exact Hk. rewrite (nth_error_nth' c 0) by lia. rewrite (nth_error_nth' Nptc 0%Z) by exact HkN.
    destruct (Z.ltb_spec (nth k Nptc 0%Z) 0) as [L|_]; [lia|]. set (N := Z.to_nat (nth k Nptc 0%Z)).
    pose proof (ball_length N (seed k)) as L1. destruct (ball St normal3 u01 N (seed k)) as [zs st1]. simpl in L1.
    pose proof (uniforms_length N st1) as L2. pose proof (uniforms_range N st1 Hu) as L3. destruct (uniforms St u01 N st1) as [us st2]. simpl in L2, L3.
    eexists _, _. split; [reflexivity|]. split; [rewrite map_length, combine_length, map_length; unfold N in *; lia|].
    intros p Hp. apply in_map_iff in Hp. destruct Hp as ((x, u) & <- & Hin). apply in_combine_r in Hin. rewrite Forall_forall in L3. specialize (L3 u Hin).
    simpl fst. simpl snd. destruct (transformCartToSpher arctan2 x) as [[r th] ph]. apply C53_point; trivial. lra.
  Qed.
  (** The angles are those of the direction drawn: the point is the drawn direction times the axes at the drawn depth. *)
  Theorem C53_direction a b c x y z k t th ph : (forall v w, is_arctan2 v w (arctan2 v w)) -> (x, y, z) <> (0, 0, 0) -> (k < length a)%nat -> length b = length a -> length c = length a -> 0 <= t <= 1 ->
    transformCartToSpher arctan2 (x, y, z) = (sqrt (x * x + y * y + z * z), th, ph) ->
    let r := sqrt (x * x + y * y + z * z) in
    shell_point a b c th ph ((INR k + t) / INR (length a)) =
      (x / r * (inner a k + t * (nth k a 0 - inner a k)), y / r * (inner b k + t * (nth k b 0 - inner b k)), z / r * (inner c k + t * (nth k c 0 - inner c k))).
  Proof.
    intros HA Hne Hk Lb Lc Ht HT r. unfold transformCartToSpher in HT. assert (Eth : th = arctan2 (sqrt (x * x + y * y)) z) by congruence. assert (Eph : ph = arctan2 y x) by congruence.
    destruct (HA (sqrt (x * x + y * y)) z) as [T1 T2]. destruct (HA y x) as [P1 P2]. rewrite <- Eth in T1, T2. rewrite <- Eph in P1, P2.
    assert (Hxy : 0 <= x * x + y * y) by nra. assert (Hs : sqrt (x * x + y * y) * sqrt (x * x + y * y) = x * x + y * y) by now apply sqrt_sqrt.
    assert (Er : sqrt (z * z + sqrt (x * x + y * y) * sqrt (x * x + y * y)) = r) by (rewrite Hs; unfold r; f_equal; ring). rewrite Er in T1, T2.
    assert (Hr : 0 < r).
    { unfold r. apply sqrt_lt_R0. destruct (Req_dec x 0) as [->|]; [|nra]. destruct (Req_dec y 0) as [->|]; [|nra]. destruct (Req_dec z 0) as [->|]; [congruence | nra]. }
    unfold shell_point. pose proof (shell_value a k t Hk Ht) as Va. pose proof (shell_value b k t ltac:(lia) Ht) as Vb. pose proof (shell_value c k t ltac:(lia) Ht) as Vc.
    rewrite Lb in Vb. rewrite Lc in Vc. cbv zeta. rewrite Va, Vb, Vc.
    assert (E1 : sin th * cos ph = x / r).
    { apply (Rmult_eq_reg_l r); [|lra]. replace (r * (x / r)) with x by (field; lra). rewrite <- Rmult_assoc. rewrite <- T2. rewrite P1 at 3. ring. }
    assert (E2 : sin th * sin ph = y / r).
    { apply (Rmult_eq_reg_l r); [|lra]. replace (r * (y / r)) with y by (field; lra). rewrite <- Rmult_assoc. rewrite <- T2. rewrite P2 at 3. ring. }
    assert (E3 : cos th = z / r) by (apply (Rmult_eq_reg_l r); [|lra]; replace (r * (z / r)) with z by (field; lra); lra).
    rewrite E1, E2, E3. reflexivity.
  Qed.
  (** *** C83: the points depend on the shell number only, not on the state of the generator *)
  Theorem C83_reproducible a b c Nptc k st st' :
    drawUniformFromShell St seed normal3 u01 arctan2 a b c Nptc k st = drawUniformFromShell St seed normal3 u01 arctan2 a b c Nptc k st'.
  Proof. reflexivity. Qed.
End Draw.
Print Assumptions C53_shell.
Print Assumptions C53_direction.
Print Assumptions C83_reproducible.
(** A generator meeting the hypotheses. *)
Example C53_rng_ex : exists pts st', drawUniformFromShell nat (fun k => k) (fun s => ((1, 0, 0), S s)) (fun s => (1 / 2, S s)) (fun _ _ => 0) [1; 2] [1; 2] [1; 2] [3; 4]%Z 1 0%nat = MOk (pts, st') /\ length pts = 4%nat.
Proof.
  destruct (C53_shell nat (fun k => k) (fun s => ((1, 0, 0), S s)) (fun s => (1 / 2, S s)) (fun _ _ => 0) [1; 2] [1; 2] [1; 2] [3; 4]%Z 1 0%nat axes2 axes2 axes2 eq_refl eq_refl ltac:(intros; simpl; lra) ltac:(simpl; lia) ltac:(simpl; lia) ltac:(simpl; lia)) as (pts & st' & H & HL & _).
  exists pts, st'. split; [exact H|]. simpl in HL. lia.
Qed.
Example C53_direction_ex : exists at2 : R -> R -> R, is_arctan2 (sqrt (0 * 0 + 0 * 0)) 1 (at2 (sqrt (0 * 0 + 0 * 0)) 1) /\ is_arctan2 0 0 (at2 0 0).
Proof.
  exists (fun _ _ => 0). unfold is_arctan2. rewrite cos_0, sin_0. replace (0 * 0 + 0 * 0) with 0 by ring. rewrite sqrt_0. replace (1 * 1 + 0 * 0) with 1 by ring. rewrite sqrt_1. repeat split; ring.
Qed.

(** ** C54 *)
Lemma mapM_ok {A B} (f : A -> mres B) (g : A -> B) l : (forall x, In x l -> f x = MOk (g x)) -> mapM f l = MOk (map g l).
Proof. induction l as [|x l IH]; intros H; [reflexivity|]. simpl. rewrite (H x (or_introl eq_refl)). simpl. rewrite IH by (intros; apply H; now right). reflexivity. Qed.
(** Height of the i-th of n points. *)
Definition height (n i : nat) : R := 1 - INR i / INR (n - 1) * 2.
Definition fibp (n i : nat) : pt := (cos (PI * (3 - sqrt 5) * INR i) * sqrt (1 - height n i * height n i), height n i, sin (PI * (3 - sqrt 5) * INR i) * sqrt (1 - height n i * height n i)).
Lemma fib_ok n i : (2 <= n)%nat -> fib_point n i = MOk (fibp n i).
Proof.
  intros Hn. unfold fib_point, pydiv. assert (E : IZR (Z.of_nat n - 1) = INR (n - 1)) by (rewrite INR_IZR_INZ; f_equal; lia). rewrite E.
  destruct (Req_EM_T (INR (n - 1)) 0) as [Z|_]; [exfalso; assert (0 < INR (n - 1)) by (apply lt_0_INR; lia); lra|]. reflexivity.
Qed.
Lemma height_range n i : (2 <= n)%nat -> (i < n)%nat -> -1 <= height n i <= 1.
Proof.
  intros Hn Hi. unfold height. assert (HN : 0 < INR (n - 1)) by (apply lt_0_INR; lia). assert (0 <= INR i <= INR (n - 1)) by (split; [apply pos_INR | apply le_INR; lia]).
  assert (0 <= INR i / INR (n - 1) <= 1); [|lra]. split; [apply Rmult_le_pos; [lra | left; now apply Rinv_0_lt_compat]|].
  apply (Rmult_le_reg_r (INR (n - 1))); [exact HN|]. unfold Rdiv. rewrite Rmult_assoc, Rinv_l by lra. lra.
Qed.
Lemma height_inj n i j : (2 <= n)%nat -> height n i = height n j -> i = j.
Proof.
  intros Hn H. unfold height in H. assert (HN : 0 < INR (n - 1)) by (apply lt_0_INR; lia). apply INR_eq. apply (Rmult_eq_reg_r (/ INR (n - 1))); [unfold Rdiv in H; lra | apply Rinv_neq_0_compat; lra].
Qed.
Definition on_ellipsoid (a b c : R) (p : pt) : Prop := let '(x, y, z) := p in x ^ 2 * (b * c) ^ 2 + y ^ 2 * (a * c) ^ 2 + z ^ 2 * (a * b) ^ 2 = (a * b * c) ^ 2.
Lemma fibp_sphere n i : (2 <= n)%nat -> (i < n)%nat -> let '(x, y, z) := fibp n i in x ^ 2 + y ^ 2 + z ^ 2 = 1.
Proof.
  intros Hn Hi. unfold fibp. pose proof (height_range n i Hn Hi). set (y := height n i) in *. set (t := PI * _ * _). pose proof (sin2_cos2 t) as HT. unfold Rsqr in HT.
  assert (HS : sqrt (1 - y * y) * sqrt (1 - y * y) = 1 - y * y) by (apply sqrt_sqrt; nra). set (s := sqrt (1 - y * y)) in *. set (ct := cos t) in *. set (st := sin t) in *. clearbody s ct st.
  replace ((ct * s) ^ 2 + y ^ 2 + (st * s) ^ 2) with ((st * st + ct * ct) * (s * s) + y * y) by ring. rewrite HT, HS. ring.
Qed.
Theorem C54_partial n : n <> 1%nat ->
  exists pts, fibonacci_sphere n = MOk pts /\ length pts = n /\ NoDup pts /\ (forall p, In p pts -> let '(x, y, z) := p in x ^ 2 + y ^ 2 + z ^ 2 = 1) /\
    ((2 <= n)%nat -> snd (fst (nth 0 pts (0, 0, 0))) = 1 /\ snd (fst (nth (n - 1) pts (0, 0, 0))) = -1).
Proof.
  intros Hn. destruct n as [|[|n]]; [|congruence|].
  - exists []. split; [reflexivity|]. split; [reflexivity|]. split; [constructor|]. split; [intros p []|]. lia.
  - set (N := S (S n)) in *. assert (HN : (2 <= N)%nat) by (unfold N; lia). exists (map (fibp N) (seq 0 N)). split; [apply mapM_ok; intros; now apply fib_ok|].
    split; [now rewrite map_length, seq_length|]. split; [|split].
    + apply FinFun.Injective_map_NoDup; [|apply seq_NoDup]. intros i j E. apply (height_inj N); [exact HN|]. unfold fibp in E. congruence.
    + intros p Hp. apply in_map_iff in Hp. destruct Hp as (i & <- & Hi). apply in_seq in Hi. apply (fibp_sphere N i HN). lia.
    + intros _. assert (HP : 0 < INR (N - 1)) by (apply lt_0_INR; lia).
      assert (E : forall i, (i < N)%nat -> nth i (map (fibp N) (seq 0 N)) (0, 0, 0) = fibp N i).
      { intros i Hi. rewrite (nth_indep _ (0, 0, 0) (fibp N 0)) by now rewrite map_length, seq_length. now rewrite map_nth, seq_nth. }
      rewrite !E by lia. unfold fibp, height. cbn [fst snd]. split; [simpl INR at 1; field; lra | field; lra].
Qed.
Print Assumptions C54_partial.
Theorem C54_ellipsoid a b c n : n <> 1%nat ->
  exists pts, fibonacci_ellipsoid a b c n = MOk pts /\ length pts = n /\ (forall p, In p pts -> on_ellipsoid a b c p) /\
    (a <> 0 -> b <> 0 -> c <> 0 -> forall p, In p pts -> ell_form p a b c = 1).
Proof.
  intros Hn. assert (G : forall N, (2 <= N)%nat -> fibonacci_ellipsoid a b c N = MOk (map (fun i => let '(x, y, z) := fibp N i in (x * a, y * b, z * c)) (seq 0 N))).
  { intros N HN. apply mapM_ok. intros i _. rewrite fib_ok by exact HN. reflexivity. }
  destruct n as [|[|n]]; [|congruence|].
  - exists []. split; [reflexivity|]. split; [reflexivity|]. split; [intros p []|]. intros _ _ _ p [].
  - set (N := S (S n)) in *. assert (HN : (2 <= N)%nat) by (unfold N; lia). rewrite (G N HN). eexists. split; [reflexivity|]. split; [now rewrite map_length, seq_length|].
    split; [|intros Za Zb Zc]; intros p Hp; apply in_map_iff in Hp; destruct Hp as (i & <- & Hi); apply in_seq in Hi;
      pose proof (fibp_sphere N i HN ltac:(lia)) as HS; destruct (fibp N i) as [[x y] z].
    + unfold on_ellipsoid. replace ((x * a) ^ 2 * (b * c) ^ 2 + (y * b) ^ 2 * (a * c) ^ 2 + (z * c) ^ 2 * (a * b) ^ 2) with ((x ^ 2 + y ^ 2 + z ^ 2) * (a * b * c) ^ 2) by ring. rewrite HS. ring.
    + unfold ell_form. rewrite <- HS. field. auto.
Qed.
Print Assumptions C54_ellipsoid.
(** One sample, the default, raises ZeroDivisionError. *)
Theorem C54_refuted : fibonacci_sphere 1 = MErr MZeroDivisionError /\ forall a b c, fibonacci_ellipsoid a b c 1 = MErr MZeroDivisionError.
Proof.
  assert (E : fib_point 1 0 = MErr MZeroDivisionError) by (unfold fib_point, pydiv; simpl; destruct (Req_EM_T 0 0) as [_|N]; [reflexivity | contradiction]).
  unfold fibonacci_sphere, fibonacci_ellipsoid. cbn [seq mapM]. rewrite E. split; reflexivity.
Qed.
Print Assumptions C54_refuted.
Example C54_ex : exists pts, fibonacci_ellipsoid 3 2 1 5 = MOk pts /\ length pts = 5%nat.
Proof. destruct (C54_ellipsoid 3 2 1 5 ltac:(lia)) as (pts & H & HL & _). eauto. Qed.

(** ** C55 *)
(** What scipy returns for line 384 and numpy for line 389. *)
Definition inverse_ok (inverse : R -> R -> R -> mat) : Prop :=
  forall a b c, a <> 0 -> b <> 0 -> c <> 0 -> exists L, is_cholesky (Sigma a b c) L /\ is_inv (transp L) (inverse a b c).
Lemma inv_abs_sq a : a <> 0 -> forall l, 0 < l -> l * l = 1 / a ^ 2 -> l = / Rabs a.
Proof.
  intros Ha l Hl E. assert (Hp : 0 < Rabs a) by now apply Rabs_pos_lt. assert (Hq : Rabs a * Rabs a = a * a) by (unfold Rabs; destruct (Rcase_abs a); ring).
  assert (E2 : (l * Rabs a) * (l * Rabs a) = 1).
  { replace ((l * Rabs a) * (l * Rabs a)) with ((l * l) * (Rabs a * Rabs a)) by ring. rewrite E, Hq. field. exact Ha. }
  assert (E3 : l * Rabs a = 1) by (assert (0 < l * Rabs a) by nra; nra). apply (Rmult_eq_reg_r (Rabs a)); [|lra]. rewrite E3. field. lra.
Qed.
Lemma cholesky_diag a b c L : a <> 0 -> b <> 0 -> c <> 0 -> is_cholesky (Sigma a b c) L ->
  L 0%nat 0%nat = / Rabs a /\ L 1%nat 1%nat = / Rabs b /\ L 2%nat 2%nat = / Rabs c /\ L 1%nat 0%nat = 0 /\ L 2%nat 0%nat = 0 /\ L 2%nat 1%nat = 0 /\ L 0%nat 1%nat = 0 /\ L 0%nat 2%nat = 0 /\ L 1%nat 2%nat = 0.
Proof.
  intros Ha Hb Hc (HU & HD & HE). pose proof (HU 0 1 ltac:(lia))%nat as U1. pose proof (HU 0 2 ltac:(lia))%nat as U2. pose proof (HU 1 2 ltac:(lia))%nat as U3.
  pose proof (HD 0 ltac:(lia))%nat as D0. pose proof (HD 1 ltac:(lia))%nat as D1. pose proof (HD 2 ltac:(lia))%nat as D2.
  pose proof (HE 0 0 ltac:(lia) ltac:(lia))%nat as E00. pose proof (HE 1 0 ltac:(lia) ltac:(lia))%nat as E10. pose proof (HE 2 0 ltac:(lia) ltac:(lia))%nat as E20.
  pose proof (HE 1 1 ltac:(lia) ltac:(lia))%nat as E11. pose proof (HE 2 1 ltac:(lia) ltac:(lia))%nat as E21. pose proof (HE 2 2 ltac:(lia) ltac:(lia))%nat as E22.
  clear HU HD HE. unfold mmul, transp, sum3, Sigma in *. cbn [Nat.eqb] in *. rewrite U1, U2, U3 in *.
  assert (Q : forall r x, 0 < r -> x * r = 0 -> x = 0) by (intros r x Hr H; destruct (Rmult_integral _ _ H); lra).
  assert (Z10 : L 1%nat 0%nat = 0) by (apply (Q (L 0%nat 0%nat)); lra).
  assert (Z20 : L 2%nat 0%nat = 0) by (apply (Q (L 0%nat 0%nat)); lra). rewrite Z10, Z20 in *.
  assert (Z21 : L 2%nat 1%nat = 0) by (apply (Q (L 1%nat 1%nat)); lra). rewrite Z21 in *.
  repeat split; trivial; apply inv_abs_sq; trivial; lra.
Qed.
Lemma inverse_diag a b c M p : a <> 0 -> b <> 0 -> c <> 0 -> (exists L, is_cholesky (Sigma a b c) L /\ is_inv (transp L) M) ->
  mvec M p = let '(x, y, z) := p in (Rabs a * x, Rabs b * y, Rabs c * z).
Proof.
  intros Ha Hb Hc (L & HL & HI). destruct (cholesky_diag a b c L Ha Hb Hc HL) as (L0 & L1 & L2 & L3 & L4 & L5 & L6 & L7 & L8).
  assert (Pa : 0 < Rabs a) by now apply Rabs_pos_lt. assert (Pb : 0 < Rabs b) by now apply Rabs_pos_lt. assert (Pc : 0 < Rabs c) by now apply Rabs_pos_lt.
  assert (Q : forall r x v, 0 < r -> x * / r = v -> x = v * r) by (intros r x v Hr <-; field; lra).
  assert (G : forall i, (i < 3)%nat -> M i 0%nat = (if Nat.eqb i 0 then 1 else 0) * Rabs a /\ M i 1%nat = (if Nat.eqb i 1 then 1 else 0) * Rabs b /\ M i 2%nat = (if Nat.eqb i 2 then 1 else 0) * Rabs c).
  { intros i Hi. pose proof (HI i 0 Hi ltac:(lia))%nat as I0. pose proof (HI i 1 Hi ltac:(lia))%nat as I1. pose proof (HI i 2 Hi ltac:(lia))%nat as I2.
    unfold mmul, transp, sum3 in *. rewrite L0, L6, L7 in I0. rewrite L3, L1, L8 in I1. rewrite L4, L5, L2 in I2.
    repeat split; apply Q; trivial; lra. }
  destruct (G 0 ltac:(lia))%nat as (M00 & M01 & M02), (G 1 ltac:(lia))%nat as (M10 & M11 & M12), (G 2 ltac:(lia))%nat as (M20 & M21 & M22).
  cbn [Nat.eqb] in *. destruct p as [[x y] z]. unfold mvec. rewrite M00, M01, M02, M10, M11, M12, M20, M21, M22. f_equal; [f_equal|]; ring.
Qed.
Lemma cbrt_range u : 0 <= u < 1 -> 0 <= cbrt u < 1.
Proof.
  intros H. unfold cbrt. destruct (Req_EM_T u 0) as [_|Hn]; [lra|]. unfold Rpower. split; [left; apply exp_pos|]. apply (Rlt_le_trans _ (exp 0)); [apply exp_increasing | rewrite exp_0; lra].
  assert (ln u < 0) by (rewrite <- ln_1; apply ln_increasing; lra). lra.
Qed.
Lemma unit_ball x u : x <> (0, 0, 0) -> 0 <= u < 1 -> let '(p, q, r) := scale3 (cbrt u / norm3 x) x in p * p + q * q + r * r < 1.
Proof.
  intros Hx Hu. destruct x as [[p q] r]. unfold scale3, norm3. pose proof (cbrt_range u Hu) as HC. set (k := cbrt u) in *. set (n2 := p * p + q * q + r * r).
  assert (Hn2 : 0 < n2).
  { unfold n2. destruct (Req_dec p 0) as [->|]; [|nra]. destruct (Req_dec q 0) as [->|]; [|nra]. destruct (Req_dec r 0) as [->|]; [congruence | nra]. }
  assert (Hs : 0 < sqrt n2) by now apply sqrt_lt_R0. assert (HS : sqrt n2 * sqrt n2 = n2) by (apply sqrt_sqrt; lra).
  replace (k / sqrt n2 * p * (k / sqrt n2 * p) + k / sqrt n2 * q * (k / sqrt n2 * q) + k / sqrt n2 * r * (k / sqrt n2 * r)) with (k * k * (n2 / (sqrt n2 * sqrt n2))) by (unfold n2 at 1; field; lra).
  rewrite HS. replace (n2 / n2) with 1 by (field; lra). nra.
Qed.
(** The requested number of points, all strictly inside. Semi-axes of any sign but zero, any draws. *)
Theorem C55_inside inverse a b c Nptc k draws : inverse_ok inverse -> (k < length a)%nat -> (k < length b)%nat -> (k < length c)%nat -> (k < length Nptc)%nat -> (0 <= nth k Nptc 0)%Z ->
  nth k a 0 <> 0 -> nth k b 0 <> 0 -> nth k c 0 <> 0 -> (forall i, fst (draws i) <> (0, 0, 0) /\ 0 <= snd (draws i) < 1) ->
  exists pts, drawUniformFromEllipsoid inverse a b (Some c) Nptc k draws = MOk (pts, k) /\ Z.of_nat (length pts) = nth k Nptc 0%Z /\
    forall p, In p pts -> ell_form p (nth k a 0) (nth k b 0) (nth k c 0) < 1.
Proof.
  intros HI Ka Kb Kc KN HN Za Zb Zc HD. unfold drawUniformFromEllipsoid, at_, mbind.
  rewrite (nth_error_nth' a 0) by exact Ka. rewrite (nth_error_nth' b 0) by exact Kb. rewrite (nth_error_nth' c 0) by exact Kc. rewrite (nth_error_nth' Nptc 0%Z) by exact KN.
  destruct (Z.ltb_spec (nth k Nptc 0%Z) 0) as [L|_]; [lia|]. eexists. split; [reflexivity|]. split; [rewrite map_length, seq_length; lia|].
  intros p Hp. apply in_map_iff in Hp. destruct Hp as (i & <- & _). destruct (HD i) as [Hx Hu]. destruct (draws i) as [x u]. simpl in Hx, Hu.
  rewrite (inverse_diag (nth k a 0) (nth k b 0) (nth k c 0)) by auto. pose proof (unit_ball x u Hx Hu) as HB. destruct (scale3 _ x) as [[p q] r].
  unfold ell_form. assert (Q : forall a x, a <> 0 -> (Rabs a * x / a) ^ 2 = x * x).
  { intros a0 x0 H0. unfold Rabs. destruct (Rcase_abs a0); field; exact H0. }
  rewrite !Q by assumption. exact HB.
Qed.
Print Assumptions C55_inside.
Definition diag_inverse (a b c : R) : mat := fun i j => if Nat.eqb i j then match i with 0%nat => Rabs a | 1%nat => Rabs b | _ => Rabs c end else 0.
Lemma diag_inverse_ok : inverse_ok diag_inverse.
Proof.
  intros a b c Ha Hb Hc. assert (Pa : 0 < Rabs a) by now apply Rabs_pos_lt. assert (Pb : 0 < Rabs b) by now apply Rabs_pos_lt. assert (Pc : 0 < Rabs c) by now apply Rabs_pos_lt.
  assert (S : forall x, x <> 0 -> / Rabs x * / Rabs x = 1 / x ^ 2) by (intros x Hx; unfold Rabs; destruct (Rcase_abs x); field; exact Hx).
  exists (fun i j => if Nat.eqb i j then match i with 0%nat => / Rabs a | 1%nat => / Rabs b | _ => / Rabs c end else 0). split; [split; [|split]|].
  - intros i j H. destruct (Nat.eqb_spec i j); [lia | reflexivity].
  - intros i Hi. rewrite Nat.eqb_refl. destruct i as [|[|[|i]]]; try lia; now apply Rinv_0_lt_compat.
  - intros i j Hi Hj. unfold mmul, transp, sum3, Sigma. destruct i as [|[|[|i]]]; try lia; destruct j as [|[|[|j]]]; try lia; cbn [Nat.eqb]; rewrite ?Rmult_0_l, ?Rmult_0_r, ?Rplus_0_l, ?Rplus_0_r; trivial; now apply S.
  - intros i j Hi Hj. unfold mmul, transp, sum3, diag_inverse. destruct i as [|[|[|i]]]; try lia; destruct j as [|[|[|j]]]; try lia; cbn [Nat.eqb]; field; lra.
Qed.
Example C55_ex : exists pts, drawUniformFromEllipsoid diag_inverse [1; 3] [1; 2] (Some [1; 1]) [0; 2]%Z 1 (fun _ => ((1, 2, 2), 1 / 2)) = MOk (pts, 1%nat) /\ length pts = 2%nat.
Proof.
  destruct (C55_inside diag_inverse [1; 3] [1; 2] [1; 1] [0; 2]%Z 1 (fun _ => ((1, 2, 2), 1 / 2)) diag_inverse_ok ltac:(simpl; lia) ltac:(simpl; lia) ltac:(simpl; lia) ltac:(simpl; lia) ltac:(simpl; lia) ltac:(simpl; lra) ltac:(simpl; lra) ltac:(simpl; lra)) as (pts & H & HL & _).
  - intros _. simpl. split; [intros E; assert (1 = 0) by congruence; lra | lra].
  - exists pts. split; [exact H|]. simpl in HL. lia.
Qed.

(** ** C81: two dimensions *)
(** c = None, as documented for two dimensions, always raises (TypeError unless an earlier index is out of range). *)
Theorem C81_refuted inverse a b Nptc k draws : (k < length a)%nat -> (k < length b)%nat -> drawUniformFromEllipsoid inverse a b None Nptc k draws = MErr MTypeError.
Proof. intros Ka Kb. unfold drawUniformFromEllipsoid, at_, mbind. rewrite (nth_error_nth' a 0) by exact Ka. now rewrite (nth_error_nth' b 0) by exact Kb. Qed.
Print Assumptions C81_refuted.
Example C81_ex : drawUniformFromEllipsoid diag_inverse [2] [1] None [5]%Z 0 (fun _ => ((1, 0, 0), 0)) = MErr MTypeError.
Proof. apply C81_refuted; simpl; lia. Qed.
