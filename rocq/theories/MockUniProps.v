(** C101: random points fill the volume uniformly. *)
From Coq Require Import Reals Lra Lia Bool Arith ZArith List.
From Verif Require Import MockModel MockPts.
Import ListNotations.
Local Open Scope R_scope.

(** ** Specification *)
(** Volume of an ellipsoid with semi-axes a, b, c. *)
Definition volume (a b c : R) : R := 4 / 3 * PI * a * b * c.
(** Within the similar ellipsoid s times as large. *)
Definition within (p : pt) (s a b c : R) : Prop := ell_form p (s * a) (s * b) (s * c) <= 1.
(** Part of the space between the ellipsoids r0 and r1 times (a, b, c) that lies within s times (a, b, c). *)
Definition volume_part (s r0 r1 a b c : R) : R :=
  (volume (s * a) (s * b) (s * c) - volume (r0 * a) (r0 * b) (r0 * c)) / (volume (r1 * a) (r1 * b) (r1 * c) - volume (r0 * a) (r0 * b) (r0 * c)).
(** A number u uniform in [0, 1) decides how far out a point lies. Points fill the volume uniformly
    when the numbers that put a point within s are those up to the part of the volume within s. *)

Lemma volume_part_val s r0 r1 a b c : a <> 0 -> b <> 0 -> c <> 0 -> r1 ^ 3 - r0 ^ 3 <> 0 -> volume_part s r0 r1 a b c = (s ^ 3 - r0 ^ 3) / (r1 ^ 3 - r0 ^ 3).
Proof.
  intros Ha Hb Hc Hr. unfold volume_part, volume. pose proof PI_neq0.
  replace (4 / 3 * PI * (s * a) * (s * b) * (s * c) - 4 / 3 * PI * (r0 * a) * (r0 * b) * (r0 * c)) with ((4 / 3 * PI * a * b * c) * (s ^ 3 - r0 ^ 3)) by ring.
  replace (4 / 3 * PI * (r1 * a) * (r1 * b) * (r1 * c) - 4 / 3 * PI * (r0 * a) * (r0 * b) * (r0 * c)) with ((4 / 3 * PI * a * b * c) * (r1 ^ 3 - r0 ^ 3)) by ring.
  set (v := 4 / 3 * PI * a * b * c). assert (Hv : v <> 0) by (unfold v; apply Rmult_integral_contrapositive_currified; [|exact Hc]; apply Rmult_integral_contrapositive_currified; [|exact Hb]; apply Rmult_integral_contrapositive_currified; [|exact Ha]; pose proof PI_RGT_0; lra).
  set (w := r1 ^ 3 - r0 ^ 3) in *. clearbody v w. field. split; trivial.
Qed.

(** ** drawUniformFromEllipsoid *)
Lemma cbrt_cube u : 0 <= u -> cbrt u ^ 3 = u.
Proof.
  intros Hu. unfold cbrt. destruct (Req_EM_T u 0) as [->|Hn]; [ring|].
  rewrite <- (Rpower_pow 3) by apply exp_pos. rewrite Rpower_mult. replace (1 / 3 * INR 3) with 1 by (simpl; field). apply Rpower_1. lra.
Qed.
Lemma cbrt_nonneg u : 0 <= cbrt u.
Proof. unfold cbrt. destruct (Req_EM_T u 0); [lra | left; apply exp_pos]. Qed.
Lemma cube_le x y : 0 <= x -> 0 <= y -> (x <= y <-> x ^ 3 <= y ^ 3).
Proof. intros Hx Hy. split; intros H; [now apply pow_incr|]. destruct (Rle_lt_dec x y) as [L|L]; [exact L|]. assert (y ^ 3 < x ^ 3); [|lra]. simpl. assert (y * y < x * x) by nra. nra. Qed.
Lemma sq_le x y : 0 <= x -> 0 <= y -> (x <= y <-> x * x <= y * y).
Proof. intros Hx Hy. split; intros H; nra. Qed.
Lemma unit_radius x u : x <> (0, 0, 0) -> let '(p, q, r) := scale3 (cbrt u / norm3 x) x in p * p + q * q + r * r = cbrt u * cbrt u.
Proof.
  intros Hx. destruct x as [[p q] r]. unfold scale3, norm3. set (k := cbrt u). set (n2 := p * p + q * q + r * r).
  assert (Hn2 : 0 < n2).
  { unfold n2. destruct (Req_dec p 0) as [->|]; [|nra]. destruct (Req_dec q 0) as [->|]; [|nra]. destruct (Req_dec r 0) as [->|]; [congruence | nra]. }
  assert (Hs : 0 < sqrt n2) by now apply sqrt_lt_R0. assert (HS : sqrt n2 * sqrt n2 = n2) by (apply sqrt_sqrt; lra).
  replace (k / sqrt n2 * p * (k / sqrt n2 * p) + k / sqrt n2 * q * (k / sqrt n2 * q) + k / sqrt n2 * r * (k / sqrt n2 * r)) with (k * k * (n2 / (sqrt n2 * sqrt n2))) by (unfold n2 at 1; field; lra).
  rewrite HS. field. lra.
Qed.
(** Point i lies within s times the ellipsoid exactly when its uniform number is at most the part of the volume there. *)
Theorem C101_partial inverse a b c Nptc k draws : inverse_ok inverse -> (k < length a)%nat -> (k < length b)%nat -> (k < length c)%nat -> (k < length Nptc)%nat -> (0 <= nth k Nptc 0)%Z ->
  nth k a 0 <> 0 -> nth k b 0 <> 0 -> nth k c 0 <> 0 -> (forall i, fst (draws i) <> (0, 0, 0) /\ 0 <= snd (draws i) < 1) ->
  exists pts, drawUniformFromEllipsoid inverse a b (Some c) Nptc k draws = MOk (pts, k) /\ Z.of_nat (length pts) = nth k Nptc 0%Z /\
    forall i s, (i < length pts)%nat -> 0 < s ->
      (within (nth i pts (0, 0, 0)) s (nth k a 0) (nth k b 0) (nth k c 0) <-> snd (draws i) <= volume_part s 0 1 (nth k a 0) (nth k b 0) (nth k c 0)).
Proof.
  intros HI Ka Kb Kc KN HN Za Zb Zc HD. unfold drawUniformFromEllipsoid, at_, mbind.
  rewrite (nth_error_nth' a 0) by exact Ka. rewrite (nth_error_nth' b 0) by exact Kb. rewrite (nth_error_nth' c 0) by exact Kc. rewrite (nth_error_nth' Nptc 0%Z) by exact KN.
  destruct (Z.ltb_spec (nth k Nptc 0%Z) 0) as [L|_]; [lia|]. eexists. split; [reflexivity|]. split; [rewrite map_length, seq_length; lia|].
  intros i s Hi Hs. rewrite map_length, seq_length in Hi.
  set (f := fun i0 : nat => let (x, u) := draws i0 in mvec (inverse (nth k a 0) (nth k b 0) (nth k c 0)) (scale3 (cbrt u / norm3 x) x)).
  rewrite (nth_indep _ (0, 0, 0) (f 0%nat)) by (now rewrite map_length, seq_length). rewrite map_nth, seq_nth by exact Hi. cbn [Nat.add]. unfold f. clear f.
  rewrite volume_part_val by (trivial; lra). replace ((s ^ 3 - 0 ^ 3) / (1 ^ 3 - 0 ^ 3)) with (s ^ 3) by field.
  destruct (HD i) as [Hx Hu]. destruct (draws i) as [x u]. cbn [fst snd] in *.
  rewrite (inverse_diag (nth k a 0) (nth k b 0) (nth k c 0)) by auto. pose proof (unit_radius x u Hx) as HB. destruct (scale3 _ x) as [[p q] r].
  unfold within, ell_form. assert (Q : forall a x, a <> 0 -> (Rabs a * x / (s * a)) ^ 2 = x * x / (s * s)).
  { intros a0 x0 H0. unfold Rabs. destruct (Rcase_abs a0); field; split; lra. }
  rewrite !Q by assumption. replace (p * p / (s * s) + q * q / (s * s) + r * r / (s * s)) with ((p * p + q * q + r * r) / (s * s)) by (field; lra). rewrite HB.
  pose proof (cbrt_nonneg u) as HC. assert (G : u <= s ^ 3 <-> cbrt u * cbrt u <= s * s).
  { rewrite <- (sq_le (cbrt u) s) by lra. rewrite (cube_le (cbrt u) s) by lra. now rewrite cbrt_cube by lra. }
  rewrite G. split; intros H.
  - apply (Rmult_le_reg_r (/ (s * s))); [apply Rinv_0_lt_compat; nra|]. unfold Rdiv in H. rewrite Rinv_r by nra. exact H.
  - apply (Rmult_le_reg_r (s * s)); [nra|]. unfold Rdiv. rewrite Rmult_assoc, Rinv_l by nra. lra.
Qed.
Print Assumptions C101_partial.
Example C101_ex : exists pts, drawUniformFromEllipsoid diag_inverse [3] [2] (Some [1]) [2]%Z 0 (fun i => ((1, 2, 2), if Nat.eqb i 0 then 1 / 10 else 1 / 2)) = MOk (pts, 0%nat) /\
  within (nth 0 pts (0, 0, 0)) (1 / 2) 3 2 1 /\ ~ within (nth 1 pts (0, 0, 0)) (1 / 2) 3 2 1.
Proof.
  destruct (C101_partial diag_inverse [3] [2] [1] [2]%Z 0 (fun i => ((1, 2, 2), if Nat.eqb i 0 then 1 / 10 else 1 / 2)) diag_inverse_ok ltac:(simpl; lia) ltac:(simpl; lia) ltac:(simpl; lia) ltac:(simpl; lia) ltac:(simpl; lia) ltac:(simpl; lra) ltac:(simpl; lra) ltac:(simpl; lra)) as (pts & H & HL & HW).
  - intros i. simpl. split; [intros E; assert (1 = 0) by congruence; lra|]. destruct (Nat.eqb i 0); lra.
  - exists pts. split; [exact H|]. simpl in HL. pose proof (HW 0%nat (1 / 2) ltac:(lia) ltac:(lra)) as W0. pose proof (HW 1%nat (1 / 2) ltac:(lia) ltac:(lra)) as W1. cbn [nth snd Nat.eqb] in W0, W1.
    rewrite volume_part_val in W0, W1 by lra. split; [apply W0; lra | intros N; apply W1 in N; lra].
Qed.

(** ** drawUniformFromShell *)
Section Shell.
  Variables (St : Type) (seed : nat -> St) (normal3 : St -> pt * St) (u01 : St -> R * St) (arctan2 : R -> R -> R).
  (** The uniform numbers of line 488 for shell k: those that follow the draws of the directions. *)
  Definition depths (k N : nat) : list R := fst (uniforms St u01 N (snd (ball St normal3 u01 N (seed k)))).
  (** Similar shells: point i lies within s times the axes exactly when its number is at most
      (s - r0) / (r1 - r0): points are uniform in radius. *)
  Theorem C101_shell (a b c : R) (r : list R) Nptc k st : 0 < a -> 0 < b -> 0 < c -> axes r -> inner r k < nth k r 0 -> (forall s, 0 <= fst (u01 s) < 1) ->
    (k < length r)%nat -> (k < length Nptc)%nat -> (0 <= nth k Nptc 0)%Z ->
    exists pts st', drawUniformFromShell St seed normal3 u01 arctan2 (map (fun x => x * a) r) (map (fun x => x * b) r) (map (fun x => x * c) r) Nptc k st = MOk (pts, st') /\
      Z.of_nat (length pts) = nth k Nptc 0%Z /\
      forall i s, (i < length pts)%nat -> 0 < s ->
        (within (nth i pts (0, 0, 0)) s a b c <-> nth i (depths k (length pts)) 0 <= (s - inner r k) / (nth k r 0 - inner r k)).
  Proof.
    intros Ha Hb Hc Hr Hlt Hu Hk HkN HN. unfold drawUniformFromShell, at_, mbind.
    rewrite (nth_error_nth' (map (fun x => x * a) r) 0) by (now rewrite map_length). rewrite (nth_error_nth' (map (fun x => x * c) r) 0) by (now rewrite map_length). rewrite (nth_error_nth' Nptc 0%Z) by exact HkN.
    destruct (Z.ltb_spec (nth k Nptc 0%Z) 0) as [L|_]; [lia|]. set (N := Z.to_nat (nth k Nptc 0%Z)).
    pose proof (ball_length St normal3 u01 N (seed k)) as L1. destruct (ball St normal3 u01 N (seed k)) as [zs st1] eqn:EB. simpl in L1.
    pose proof (uniforms_length St u01 N st1) as L2. pose proof (uniforms_range St u01 N st1 Hu) as L3. destruct (uniforms St u01 N st1) as [us st2] eqn:EU. simpl in L2, L3.
    eexists _, _. split; [reflexivity|]. set (A := nth k (map (fun x => x * a) r) 0).
    assert (LL : length (map (fun p : pt * R => let '(_, theta, phi) := transformCartToSpher arctan2 (fst p) in
        shell_point (map (fun x => x * a) r) (map (fun x => x * b) r) (map (fun x => x * c) r) theta phi ((INR k + snd p) / INR (length (map (fun x => x * a) r)))) (combine (map (scale3 A) zs) us)) = N) by (rewrite map_length, combine_length, map_length; lia).
    split; [rewrite LL; unfold N; lia|]. intros i s Hi Hs. rewrite LL in *. unfold depths. rewrite EB. cbn [snd]. rewrite EU. cbn [fst].
    match goal with |- context [map ?f (combine ?x ?y)] => set (F := f); set (l := combine x y) in * end.
    assert (Ll : length l = N) by (unfold l; rewrite combine_length, map_length; lia).
    rewrite (nth_indep _ (0, 0, 0) (F ((0, 0, 0), 0))) by (rewrite map_length; lia). rewrite map_nth. unfold l. rewrite combine_nth by (rewrite map_length; lia).
    set (u := nth i us 0). assert (HuR : 0 <= u < 1) by (rewrite Forall_forall in L3; apply L3, nth_In; lia).
    unfold F. cbn [fst snd]. destruct (transformCartToSpher arctan2 _) as [[rad th] ph]. unfold shell_point. rewrite !map_length.
    assert (SV : forall v, interp1d (stack0 (map (fun x => x * v) r)) (length r) ((INR k + u) / INR (length r)) = v * (inner r k + u * (nth k r 0 - inner r k))).
    { intros v. pose proof (shell_value (map (fun x => x * v) r) k u ltac:(rewrite map_length; exact Hk) ltac:(lra)) as V. rewrite map_length in V. rewrite V.
      assert (E1 : nth k (map (fun x => x * v) r) 0 = nth k r 0 * v) by (rewrite (nth_indep _ 0 ((fun x => x * v) 0)) by (now rewrite map_length); exact (map_nth (fun x => x * v) r 0 k)).
      assert (E2 : inner (map (fun x => x * v) r) k = inner r k * v).
      { unfold inner, stack0. destruct k as [|k']; cbn [nth]; [ring|]. rewrite (nth_indep _ 0 ((fun x => x * v) 0)) by (rewrite map_length; lia). exact (map_nth (fun x => x * v) r 0 k'). }
      rewrite E1, E2. ring. }
    rewrite !SV. pose proof (axes_between r k u Hr Hk ltac:(lra)) as [H0 _]. set (r0 := inner r k) in *. set (r1 := nth k r 0) in *. set (rho := r0 + u * (r1 - r0)).
    assert (Hrho : 0 <= rho) by (unfold rho; nra). unfold within, ell_form.
    replace ((sin th * cos ph * (a * rho) / (s * a)) ^ 2 + (sin th * sin ph * (b * rho) / (s * b)) ^ 2 + (cos th * (c * rho) / (s * c)) ^ 2)
      with ((rho / s) ^ 2 * ((sin th * cos ph) ^ 2 + (sin th * sin ph) ^ 2 + (cos th) ^ 2)) by (field; repeat split; lra).
    rewrite unit_dir, Rmult_1_r. assert (G1 : (rho / s) ^ 2 <= 1 <-> rho <= s).
    { rewrite (sq_le rho s) by lra. replace ((rho / s) ^ 2) with (rho * rho / (s * s)) by (field; lra). split; intros H.
      - apply (Rmult_le_reg_r (/ (s * s))); [apply Rinv_0_lt_compat; nra|]. unfold Rdiv in H. rewrite Rinv_r by nra. exact H.
      - apply (Rmult_le_reg_r (s * s)); [nra|]. unfold Rdiv. rewrite Rmult_assoc, Rinv_l by nra. lra. }
    rewrite G1. unfold rho. split; intros H.
    - apply (Rmult_le_reg_r (r1 - r0)); [lra|]. unfold Rdiv. rewrite Rmult_assoc, Rinv_l by lra. lra.
    - apply (Rmult_le_compat_r (r1 - r0)) in H; [|lra]. unfold Rdiv in H. rewrite Rmult_assoc, Rinv_l in H by lra. lra.
  Qed.
  Print Assumptions C101_shell.
End Shell.
Lemma cube_convex r0 s r1 : 0 <= r0 -> r0 < s < r1 -> (s ^ 3 - r0 ^ 3) / (r1 ^ 3 - r0 ^ 3) < (s - r0) / (r1 - r0).
Proof.
  intros H0 Hs. set (A := s * s + s * r0 + r0 * r0). set (B := r1 * r1 + r1 * r0 + r0 * r0). assert (HA : A < B) by (unfold A, B; nra). assert (HA0 : 0 < A) by (unfold A; nra).
  replace (s ^ 3 - r0 ^ 3) with ((s - r0) * A) by (unfold A; ring). replace (r1 ^ 3 - r0 ^ 3) with ((r1 - r0) * B) by (unfold B; ring).
  replace ((s - r0) * A / ((r1 - r0) * B)) with ((s - r0) / (r1 - r0) * (A / B)) by (field; lra).
  assert (0 < (s - r0) / (r1 - r0)) by (apply Rdiv_lt_0_compat; lra). assert (A / B < 1) by (apply (Rmult_lt_reg_r B); [lra|]; unfold Rdiv; rewrite Rmult_assoc, Rinv_l by lra; lra). nra.
Qed.
(** In every shell, for every intermediate size the inner part receives more than its share: the
    numbers that put a point within s reach beyond the part of the volume within s. *)
Theorem C101_refuted St seed normal3 u01 arctan2 (a b c : R) (r : list R) Nptc k st s : 0 < a -> 0 < b -> 0 < c -> axes r -> (forall s, 0 <= fst (u01 s) < 1) ->
  (k < length r)%nat -> (k < length Nptc)%nat -> (0 <= nth k Nptc 0)%Z -> inner r k < s < nth k r 0 ->
  let part := volume_part s (inner r k) (nth k r 0) a b c in
  exists bound, part < bound < 1 /\
  exists pts st', drawUniformFromShell St seed normal3 u01 arctan2 (map (fun x => x * a) r) (map (fun x => x * b) r) (map (fun x => x * c) r) Nptc k st = MOk (pts, st') /\
    forall i, (i < length pts)%nat -> nth i (depths St seed normal3 u01 k (length pts)) 0 <= bound -> within (nth i pts (0, 0, 0)) s a b c.
Proof.
  intros Ha Hb Hc Hr Hu Hk HkN HN Hs part. destruct (axes_between r k 0 Hr Hk ltac:(lra)) as [H0 _]. exists ((s - inner r k) / (nth k r 0 - inner r k)). split; [split|].
  - unfold part. rewrite volume_part_val; try lra; [now apply cube_convex|].
    set (r0 := inner r k) in *. set (r1 := nth k r 0) in *. replace (r1 ^ 3 - r0 ^ 3) with ((r1 - r0) * (r1 * r1 + r1 * r0 + r0 * r0)) by ring. apply Rmult_integral_contrapositive_currified; [lra|]. assert (0 < r1 * r1) by nra. assert (0 <= r1 * r0) by nra. nra.
  - apply (Rmult_lt_reg_r (nth k r 0 - inner r k)); [lra|]. unfold Rdiv. rewrite Rmult_assoc, Rinv_l by lra. lra.
  - destruct (C101_shell St seed normal3 u01 arctan2 a b c r Nptc k st Ha Hb Hc Hr ltac:(lra) Hu Hk HkN HN) as (pts & st' & E & _ & W). exists pts, st'. split; [exact E|]. intros i Hi Hd. apply W; trivial. lra.
Qed.
Print Assumptions C101_refuted.
(** The innermost shell: one half of the numbers put a point into the innermost eighth of the volume. *)
Example C101_refuted_ex : volume_part (1 / 2) 0 1 1 1 1 = 1 / 8 /\
  exists pts st', drawUniformFromShell nat (fun k => k) (fun s => ((1, 0, 0), S s)) (fun s => (1 / 2, S s)) (fun _ _ => 0) [1; 2] [1; 2] [1; 2] [3; 4]%Z 0 0%nat = MOk (pts, st') /\ length pts = 3%nat /\
    forall i, (i < 3)%nat -> within (nth i pts (0, 0, 0)) (1 / 2) 1 1 1.
Proof.
  split; [rewrite volume_part_val by lra; field|].
  destruct (C101_shell nat (fun k => k) (fun s => ((1, 0, 0), S s)) (fun s => (1 / 2, S s)) (fun _ _ => 0) 1 1 1 [1; 2] [3; 4]%Z 0 0%nat ltac:(lra) ltac:(lra) ltac:(lra) axes2 ltac:(unfold inner, stack0; simpl; lra) ltac:(intros; simpl; lra) ltac:(simpl; lia) ltac:(simpl; lia) ltac:(simpl; lia)) as (pts & st' & E & L & W).
  cbn [map] in E. rewrite !Rmult_1_r in E. exists pts, st'. split; [exact E|]. cbn [nth] in L. split; [lia|]. intros i Hi. apply W; [lia | lra|].
  assert (Z : forall N st j, (j < N)%nat -> nth j (fst (uniforms nat (fun s => (1 / 2, S s)) N st)) 0 = 1 / 2).
  { induction N as [|N IH]; intros st j Hj; [lia|]. cbn [uniforms]. specialize (IH (S st)). destruct (uniforms nat (fun s => (1 / 2, S s)) N (S st)) as [us s2]. cbn [fst] in *. destruct j; [reflexivity|]. apply IH. lia. }
  unfold depths. rewrite Z by lia. unfold inner, stack0. simpl. lra.
Qed.
