(** The mock halo: C51, C52, C80, C82, C83, C84. *)
From Coq Require Import Reals Lra Lia Bool Arith ZArith String List Sorted.
From Verif Require Import MockModel FitModel MockPts.
Import ListNotations.
Local Open Scope R_scope.

(** ** C51 *)
Lemma every2_map {A B} (g : A -> B) l : every2 (map g l) = map g (every2 l).
Proof. revert l. fix IH 1. intros [|x [|y l]]; [reflexivity | reflexivity |]. simpl. now rewrite IH. Qed.
Lemma last_map {A B} (g : A -> B) l : last_ (map g l) = match last_ l with MOk x => MOk (g x) | MErr e => MErr e end.
Proof.
  destruct l as [|x l]; [reflexivity|]. unfold last_, at_. rewrite map_cons, <- map_cons, map_length, nth_error_map. now destruct (nth_error (x :: l) _).
Qed.
Lemma coarsen_map {A B} (g : A -> B) l : coarsen (map g l) = map g (coarsen l).
Proof.
  unfold coarsen. rewrite map_length, every2_map, last_map. destruct (Nat.odd (length l)); [reflexivity|]. rewrite map_app. f_equal. now destruct (last_ l).
Qed.
Lemma last_cons2 {A} (x y : A) l : last_ (x :: y :: l) = last_ (y :: l).
Proof. unfold last_, at_. simpl length. replace (S (S (length l)) - 1)%nat with (S (S (length l) - 1)) by lia. reflexivity. Qed.
(** The coarse shells by recursion. *)
Lemma coarsen_cons {A} (x y z : A) l : coarsen (x :: y :: z :: l) = x :: coarsen (z :: l).
Proof.
  unfold coarsen. replace (Nat.odd (length (x :: y :: z :: l))) with (Nat.odd (length (z :: l))) by reflexivity. rewrite !last_cons2.
  destruct (Nat.odd (length (z :: l))); reflexivity.
Qed.
Lemma two_step {A} (P : list A -> Prop) : P [] -> (forall x, P [x]) -> (forall x y, P [x; y]) -> (forall x y z l, P (z :: l) -> P (x :: y :: z :: l)) -> forall l, P l.
Proof.
  intros H0 H1 H2 H3 l. remember (length l) as n eqn:E. revert l E. induction n as [n IH] using lt_wf_ind. intros [|x [|y [|z l]]] E; [exact H0 | apply H1 | apply H2 | apply H3]. apply (IH (length (z :: l))); [simpl in *; lia | reflexivity].
Qed.
Lemma coarsen_in {A} (l : list A) x : In x (coarsen l) -> In x l.
Proof.
  induction l as [|a|a b|a b z l IH] using two_step; [exact (fun H => H) | exact (fun H => H) | exact (fun H => H) |].
  rewrite coarsen_cons. intros [->|H]; [now left | right; right; now apply IH].
Qed.
Lemma coarsen_sorted (l : list nat) : StronglySorted lt l -> StronglySorted lt (coarsen l).
Proof.
  induction l as [|a|a b|a b z l IH] using two_step; intros H; [exact H | exact H | exact H |]. rewrite coarsen_cons.
  inversion H as [|? ? H1 F1]; subst. inversion H1 as [|? ? H2 F2]; subst. constructor; [now apply IH|].
  apply Forall_forall. intros y Hy. apply coarsen_in in Hy. rewrite Forall_forall in F1. apply F1. now right.
Qed.
Lemma coarsen_hd {A} (l : list A) d : hd d (coarsen l) = hd d l.
Proof. destruct l as [|x [|y [|z l]]]; try reflexivity. now rewrite coarsen_cons. Qed.
Lemma coarsen_nonempty {A} (x : A) l : coarsen (x :: l) <> [].
Proof. destruct l as [|y [|z l]]; [discriminate | discriminate | rewrite coarsen_cons; discriminate]. Qed.
Lemma coarsen_last {A} (l : list A) : last_ (coarsen l) = last_ l.
Proof.
  induction l as [|a|a b|a b z l IH] using two_step; [reflexivity | reflexivity | reflexivity |]. rewrite coarsen_cons, !last_cons2, <- IH.
  pose proof (coarsen_nonempty z l). destruct (coarsen (z :: l)) as [|u m]; [congruence|]. apply last_cons2.
Qed.
Lemma coarsen_length {A} (l : list A) : (2 <= length l)%nat -> length (coarsen l) = S (length l / 2).
Proof.
  induction l as [|a|a b|a b z l IH] using two_step; intros H; [simpl in H; lia | simpl in H; lia | reflexivity |].
  rewrite coarsen_cons. destruct l as [|y l]; [reflexivity|]. cbn [length] in *. rewrite IH by lia. replace (S (S (S (S (length l))))) with (length l + 2 * 2)%nat by lia.
  rewrite Nat.div_add by lia. replace (S (S (length l))) with (length l + 1 * 2)%nat by lia. rewrite Nat.div_add by lia. lia.
Qed.
(** j rounds of it. *)
Fixpoint rounds {A} (j : nat) (l : list A) : list A := match j with O => l | S j => rounds j (coarsen l) end.
Lemma rounds_map {A B} (g : A -> B) j l : rounds j (map g l) = map g (rounds j l).
Proof. revert l. induction j as [|j IH]; intros l; [reflexivity|]. simpl. now rewrite coarsen_map, IH. Qed.
Lemma rounds_length2 {A} j (l : list A) : (2 <= length l)%nat -> (2 <= length (rounds j l))%nat.
Proof.
  revert l. induction j as [|j IH]; intros l H; [exact H|]. simpl. apply IH. rewrite coarsen_length by exact H. assert (1 <= length l / 2)%nat by (apply Nat.div_le_lower_bound; lia). lia.
Qed.
Lemma rounds_length_le {A} j (l : list A) : (2 <= length l <= 2 ^ j + 1)%nat -> length (rounds j l) = 2%nat.
Proof.
  revert l. induction j as [|j IH]; intros l H; [simpl in *; lia|]. simpl rounds. apply IH. rewrite coarsen_length by lia.
  rewrite Nat.pow_succ_r' in H. assert (1 <= length l / 2)%nat by (apply Nat.div_le_lower_bound; lia). assert (length l / 2 <= 2 ^ j)%nat; [|lia].
  apply Nat.lt_succ_r. apply Nat.div_lt_upper_bound; lia.
Qed.
Lemma rounds_last {A} j (l : list A) : last_ (rounds j l) = last_ l.
Proof. revert l. induction j as [|j IH]; intros l; [reflexivity|]. simpl. now rewrite IH, coarsen_last. Qed.
Lemma rounds_hd {A} j (l : list A) d : hd d (rounds j l) = hd d l.
Proof. revert l. induction j as [|j IH]; intros l; [reflexivity|]. simpl. now rewrite IH, coarsen_hd. Qed.
Lemma rounds_sorted j (l : list nat) : StronglySorted lt l -> StronglySorted lt (rounds j l).
Proof. revert l. induction j as [|j IH]; intros l H; [exact H|]. simpl. now apply IH, coarsen_sorted. Qed.
Lemma rounds_in {A} j (l : list A) x : In x (rounds j l) -> In x l.
Proof. revert l. induction j as [|j IH]; intros l H; [exact H|]. simpl in H. now apply coarsen_in, IH. Qed.
Lemma map_nth_seq {A} (l : list A) d : map (fun i => nth i l d) (seq 0 (length l)) = l.
Proof. induction l as [|x l IH]; [reflexivity|]. simpl. f_equal. rewrite <- seq_shift, map_map. exact IH. Qed.
Lemma seq_sorted s n : StronglySorted lt (seq s n).
Proof. revert s. induction n as [|n IH]; intros s; constructor; [apply IH|]. apply Forall_forall. intros x Hx. apply in_seq in Hx. lia. Qed.

Section Loop.
  Variables (quad : (R -> R) -> R -> R -> R) (f : R -> R) (M res : R).
  (** Expected number of particles of the first proper shell, line 75-76. *)
  Definition first_shell (a : list R) : Z := py_round (res * quad f (nth 0 a 0) (nth 1 a 0) / M).
  Lemma first_count_ok a : M <> 0 -> (2 <= length a)%nat -> first_count quad f M res a = MOk (first_shell a).
  Proof.
    intros HM Ha. destruct a as [|x [|y a]]; simpl in Ha; try lia. unfold first_count, pydiv. simpl. destruct (Req_EM_T M 0); [contradiction | reflexivity].
  Qed.
  Lemma loop_ok fuel a b c : M <> 0 -> (2 <= length a)%nat ->
    (exists j, (j <= fuel)%nat /\ first_shell (rounds j a) <> 0%Z /\ (forall i, (i < j)%nat -> first_shell (rounds i a) = 0%Z) /\
       coarsen_loop quad f M res fuel a b c (first_shell a) = MOk (rounds j a, rounds j b, rounds j c, first_shell (rounds j a))) \/
    ((forall j, (j <= fuel)%nat -> first_shell (rounds j a) = 0%Z) /\ coarsen_loop quad f M res fuel a b c (first_shell a) = MErr MValueError).
  Proof.
    intros HM. revert a b c. induction fuel as [|fuel IH]; intros a b c Ha; simpl; destruct (Z.eqb_spec (first_shell a) 0) as [E|E].
    - right. split; [intros j Hj; replace j with 0%nat by lia; exact E|]. rewrite first_count_ok by (trivial; apply (rounds_length2 1); exact Ha). reflexivity.
    - left. exists 0%nat. split; [lia|]. split; [exact E|]. split; [lia | reflexivity].
    - rewrite first_count_ok by (trivial; apply (rounds_length2 1); exact Ha). simpl mbind.
      destruct (IH (coarsen a) (coarsen b) (coarsen c)) as [(j & Hj & H1 & H2 & H3)|(H1 & H2)]; [apply (rounds_length2 1); exact Ha | left | right].
      + exists (S j). split; [lia|]. split; [exact H1|]. split; [|exact H3]. intros [|i] Hi; [exact E | apply H2; lia].
      + split; [|exact H2]. intros [|j] Hj; [exact E | apply H1; lia].
    - left. exists 0%nat. split; [lia|]. split; [exact E|]. split; [lia | reflexivity].
  Qed.
  (** The axis arrays returned: the entries of the arrays given at common positions, among them the first and the last. *)
  Definition selects (n : nat) (idx : list nat) : Prop := StronglySorted lt idx /\ hd 1%nat idx = 0%nat /\ last_ idx = MOk (n - 1)%nat /\ Forall (fun i => (i < n)%nat) idx.
  Lemma rounds_select j n : (2 <= n)%nat -> selects n (rounds j (seq 0 n)).
  Proof.
    intros Hn. repeat split.
    - apply rounds_sorted, seq_sorted.
    - rewrite rounds_hd. destruct n; [lia | reflexivity].
    - rewrite rounds_last. unfold last_. destruct n; [lia|]. simpl seq at 1. cbv iota. unfold at_. rewrite seq_length, (nth_error_nth' _ 0%nat) by (rewrite seq_length; lia). now rewrite seq_nth by lia.
    - apply Forall_forall. intros i Hi. apply rounds_in in Hi. apply in_seq in Hi. lia.
  Qed.
  Theorem C51 a b c fuel : M <> 0 -> (2 <= length a)%nat -> length b = length a -> length c = length a ->
    coarsen_loop quad f M res fuel a b c (first_shell a) = MErr MValueError \/
    exists idx, selects (length a) idx /\ (2 <= length idx)%nat /\
      let pick (l : list R) := map (fun i => nth i l 0) idx in
      coarsen_loop quad f M res fuel a b c (first_shell a) = MOk (pick a, pick b, pick c, first_shell (pick a)) /\ first_shell (pick a) <> 0%Z.
  Proof.
    intros HM Ha Lb Lc. destruct (loop_ok fuel a b c HM Ha) as [(j & _ & H1 & _ & H3)|(_ & H)]; [right | now left].
    exists (rounds j (seq 0 (length a))). split; [now apply rounds_select|]. split; [apply rounds_length2; now rewrite seq_length|].
    assert (P : forall l : list R, length l = length a -> map (fun i => nth i l 0) (rounds j (seq 0 (length a))) = rounds j l).
    { intros l L. rewrite <- rounds_map, <- L. now rewrite map_nth_seq. }
    cbv beta zeta. rewrite !P by trivial. split; assumption.
  Qed.
  (** Passes stop as soon as the first proper shell holds a particle; otherwise ValueError. *)
  Theorem C51_exact a b c fuel : M <> 0 -> (2 <= length a)%nat ->
    (coarsen_loop quad f M res fuel a b c (first_shell a) = MErr MValueError <-> forall j, (j <= fuel)%nat -> first_shell (rounds j a) = 0%Z).
  Proof.
    intros HM Ha. destruct (loop_ok fuel a b c HM Ha) as [(j & Hj & H1 & _ & H3)|(H1 & H2)].
    - rewrite H3. split; [discriminate|]. intros H. exfalso. apply H1. now apply H.
    - split; trivial.
  Qed.
  (** The halo can be generated if all shells but the innermost together hold a particle. *)
  Theorem C51_succeeds a b c fuel j : M <> 0 -> (2 <= length a <= 2 ^ j + 1)%nat -> (j <= fuel)%nat ->
    py_round (res * quad f (nth 0 a 0) (nth (length a - 1) a 0) / M) <> 0%Z ->
    exists r, coarsen_loop quad f M res fuel a b c (first_shell a) = MOk r.
  Proof.
    intros HM Ha Hj HN. destruct (loop_ok fuel a b c HM ltac:(lia)) as [(i & _ & _ & _ & H)|(H & _)]; [eauto|].
    exfalso. apply HN. transitivity (first_shell (rounds j a)); [|exact (H j Hj)]. unfold first_shell. pose proof (rounds_length_le j a Ha) as L2. pose proof (rounds_last j a) as EL. pose proof (rounds_hd j a 0) as EH.
    destruct (rounds j a) as [|x [|y [|z l]]]; simpl in L2; try lia. destruct a as [|u l]; [simpl in Ha; lia|]. simpl in EH. subst x. unfold last_, at_ in EL. rewrite (nth_error_nth' (u :: l) 0) in EL by (simpl; lia).
    change (MOk y = MOk (nth (length (u :: l) - 1) (u :: l) 0)) in EL. assert (EY : y = nth (length (u :: l) - 1) (u :: l) 0) by congruence. rewrite <- EY. reflexivity.
  Qed.
  (** And not otherwise, if mass is positive. *)
  Lemma py_round_mono x y : x <= y -> (py_round x <= py_round y)%Z.
  Proof.
    intros H. unfold py_round. pose proof (base_Int_part x) as [A1 A2]. pose proof (base_Int_part y) as [B1 B2]. set (k := Int_part x) in *. set (l := Int_part y) in *. clearbody k l.
    assert (HKL : (k <= l)%Z). { assert (IZR k < IZR (l + 1)) by (rewrite plus_IZR; lra). apply lt_IZR in H0. lia. }
    destruct (Z.eq_dec k l) as [->|NE].
    - destruct (Rlt_dec (x - IZR l) (1 / 2)), (Rlt_dec (y - IZR l) (1 / 2)), (Rlt_dec (1 / 2) (x - IZR l)), (Rlt_dec (1 / 2) (y - IZR l)), (Z.even l); try lia; exfalso; lra.
    - assert (k + 1 <= l)%Z by lia. destruct (Rlt_dec (x - IZR k) (1 / 2)), (Rlt_dec (1 / 2) (x - IZR k)), (Z.even k), (Rlt_dec (y - IZR l) (1 / 2)), (Rlt_dec (1 / 2) (y - IZR l)), (Z.even l); lia.
  Qed.
  Lemma py_round_nonneg x : 0 <= x -> (0 <= py_round x)%Z.
  Proof.
    intros H. assert (E : py_round 0 = 0%Z); [|rewrite <- E; now apply py_round_mono].
    unfold py_round. replace (Int_part 0) with 0%Z. { destruct (Rlt_dec (0 - 0) (1 / 2)) as [|N]; [reflexivity | exfalso; apply N; lra]. }
    unfold Int_part. replace (up 0) with 1%Z; [reflexivity|]. apply tech_up; lra.
  Qed.
  Theorem C51_fails a b c fuel : 0 < M -> 0 <= res -> (2 <= length a)%nat -> (forall i j, (i < j < length a)%nat -> nth i a 0 <= nth j a 0) ->
    (forall lo hi, lo <= hi -> 0 <= quad f lo hi) -> (forall lo mid hi, lo <= mid <= hi -> quad f lo hi = quad f lo mid + quad f mid hi) ->
    py_round (res * quad f (nth 0 a 0) (nth (length a - 1) a 0) / M) = 0%Z ->
    coarsen_loop quad f M res fuel a b c (first_shell a) = MErr MValueError.
  Proof.
    intros HM Hr Ha HS HP HA HN. apply C51_exact; [lra | exact Ha|]. intros j _.
    assert (LE : forall i k, (i <= k < length a)%nat -> nth i a 0 <= nth k a 0). { intros i k H. destruct (Nat.eq_dec i k) as [->|]; [lra | apply HS; lia]. }
    assert (E : rounds j a = map (fun i => nth i a 0) (rounds j (seq 0 (length a)))) by (now rewrite <- rounds_map, map_nth_seq).
    destruct (rounds_select j (length a) Ha) as (_ & S2 & _ & S4). pose proof (rounds_length2 j (seq 0 (length a))) as L2. rewrite seq_length in L2. specialize (L2 Ha).
    destruct (rounds j (seq 0 (length a))) as [|p [|q l]]; simpl in L2; try lia. simpl in S2. subst p. rewrite Forall_forall in S4. pose proof (S4 q ltac:(simpl; auto)) as Hq.
    unfold first_shell. rewrite E. simpl nth.
    assert (I : 0 < / M) by now apply Rinv_0_lt_compat.
    assert (B1 : 0 <= quad f (nth 0 a 0) (nth q a 0)) by (apply HP, LE; lia).
    assert (B2 : quad f (nth 0 a 0) (nth q a 0) <= quad f (nth 0 a 0) (nth (length a - 1) a 0)).
    { rewrite (HA (nth 0 a 0) (nth q a 0) (nth (length a - 1) a 0)) by (split; apply LE; lia). assert (0 <= quad f (nth q a 0) (nth (length a - 1) a 0)) by (apply HP, LE; lia). lra. }
    apply Z.le_antisymm.
    - refine (Z.le_trans _ _ _ (py_round_mono _ (res * quad f (nth 0 a 0) (nth (length a - 1) a 0) / M) _) (Z.eq_le_incl _ _ HN)). unfold Rdiv. apply Rmult_le_compat_r; [lra|]. now apply Rmult_le_compat_l.
    - apply py_round_nonneg. unfold Rdiv. apply Rmult_le_pos; [|lra]. now apply Rmult_le_pos.
  Qed.
End Loop.
Print Assumptions C51.
Print Assumptions C51_exact.
Print Assumptions C51_succeeds.
Print Assumptions C51_fails.

(** ** C52, C80 *)
(** What is used of scipy's quad: scaling the integrand scales the result, ranges add up, positive integrands have positive integrals. *)
Definition quad_scales (quad : (R -> R) -> R -> R -> R) : Prop := forall f g k lo hi, (forall r, g r = k * f r) -> quad g lo hi = k * quad f lo hi.
Definition quad_adds (quad : (R -> R) -> R -> R -> R) : Prop := forall f lo mid hi, lo <= mid <= hi -> quad f lo hi = quad f lo mid + quad f mid hi.
Lemma pget_pset_same d k v : pget (pset d k v) k = MOk v.
Proof.
  induction d as [|[k' v'] d IH]; simpl; [destruct (string_dec k k); [reflexivity | contradiction]|]. destruct (string_dec k k') as [E|E]; simpl; [destruct (string_dec k k); [reflexivity | contradiction]|].
  destruct (string_dec k k'); [contradiction | exact IH].
Qed.
Lemma pget_pset_other d k v k' : k' <> k -> pget (pset d k v) k' = pget d k'.
Proof.
  intros H. induction d as [|[k2 v2] d IH]; simpl; [destruct (string_dec k' k); [contradiction | reflexivity]|].
  destruct (string_dec k k2) as [->|E]; simpl; destruct (string_dec k' k2); trivial; contradiction.
Qed.
(** The second integrand is rho_s times the first. *)
Lemma integrands profile d rho f0 : getMassIntegrand0 profile d = MOk f0 -> exists f, getMassIntegrand profile (pset d "rho_s" rho) = MOk f /\ forall r, f r = rho * f0 r.
Proof.
  unfold getMassIntegrand0, getMassIntegrand. rewrite pget_pset_same, !pget_pset_other by discriminate. cbn [mbind].
  destruct (string_dec profile "einasto"); [|destruct (string_dec profile "alpha_beta_gamma"); [|destruct (string_dec profile "hernquist")]];
    destruct (pget d "r_s") as [r_s|]; destruct (pget d "alpha") as [al|]; destruct (pget d "beta") as [be|]; destruct (pget d "gamma") as [ga|]; cbn [mbind]; intros H; try discriminate;
    assert (E : f0 = match (MOk f0 : mres (R -> R)) with MOk x => x | _ => f0 end) by reflexivity; rewrite <- H in E; rewrite E; eexists; (split; [reflexivity|]); intros r;
    unfold getEinastoProf, getAlphaBetaGammaProf, getHernquistProf, getNFWProf, Rdiv; cbv beta iota; ring.
Qed.
Lemma mapM_inv {A B} (g : A -> mres B) l ys d : mapM g l = MOk ys -> length ys = length l /\ forall i x, nth_error l i = Some x -> g x = MOk (nth i ys d).
Proof.
  revert ys. induction l as [|x l IH]; intros ys H; simpl in H.
  - assert (ys = []) as -> by congruence. split; [reflexivity|]. intros [|i] x E; discriminate.
  - destruct (g x) as [y|] eqn:E; [|discriminate]. simpl in H. destruct (mapM g l) as [ys'|]; [|discriminate]. simpl in H. assert (ys = y :: ys') as -> by congruence.
    destruct (IH ys' eq_refl) as [L N]. split; [simpl; lia|]. intros [|i] x' E'; simpl in E'; [assert (x' = x) as -> by congruence; exact E | now apply N].
Qed.
Lemma py_round_IZR n : py_round (IZR n) = n.
Proof.
  unfold py_round. assert (E : Int_part (IZR n) = n). { unfold Int_part. rewrite <- (tech_up (IZR n) (n + 1)); [lia | rewrite plus_IZR; lra | rewrite plus_IZR; lra]. }
  rewrite E. destruct (Rlt_dec (IZR n - IZR n) (1 / 2)) as [|N]; [reflexivity | exfalso; apply N; lra].
Qed.
Lemma py_round_near x : IZR (py_round x) - 1 / 2 <= x <= IZR (py_round x) + 1 / 2.
Proof.
  unfold py_round. pose proof (base_Int_part x) as [A1 A2]. set (k := Int_part x) in *. clearbody k. destruct (Rlt_dec (x - IZR k) (1 / 2)); [lra|]. destruct (Rlt_dec (1 / 2) (x - IZR k)); [rewrite plus_IZR; lra|].
  destruct (Z.even k); [lra | rewrite plus_IZR; lra].
Qed.
Definition zsum (l : list Z) : Z := fold_right Z.add 0%Z l.
Lemma zsum_nonneg l : (forall x, In x l -> (0 <= x)%Z) -> (0 <= zsum l)%Z.
Proof. induction l as [|x l IH]; intros H; simpl; [lia|]. assert (0 <= x)%Z by (apply H; now left). assert (0 <= zsum l)%Z by (apply IH; intros; apply H; now right). lia. Qed.
Lemma zsum_ge l i : (forall x, In x l -> (0 <= x)%Z) -> (nth i l 0 <= zsum l)%Z.
Proof.
  revert i. induction l as [|x l IH]; intros i H; simpl; [destruct i; lia|]. assert (0 <= x)%Z by (apply H; now left).
  assert (HL : forall y, In y l -> (0 <= y)%Z) by (intros; apply H; now right). pose proof (zsum_nonneg l HL). destruct i; [lia|]. specialize (IH i HL). lia.
Qed.

Section Whole.
  Variables (quad : (R -> R) -> R -> R -> R) (St : Type) (seed : nat -> St) (normal3 : St -> pt * St) (u01 : St -> R * St) (arctan2 : R -> R -> R).
  (** A pool worker whose generator is in an arbitrary state when it gets shell k. *)
  Definition draw_shell (w : nat -> St) (a b c : list R) (N : list Z) (k : nat) : mres (list pt) :=
    mbind (drawUniformFromShell St seed normal3 u01 arctan2 a b c N k (w k)) (fun p => MOk (fst p)).
  Lemma draw_inv w a b c N k pts : draw_shell w a b c N k = MOk pts -> (0 <= nth k N 0)%Z /\ Z.of_nat (length pts) = nth k N 0%Z.
  Proof.
    unfold draw_shell, drawUniformFromShell, at_, mbind. destruct (nth_error a k); [|discriminate]. destruct (nth_error c k); [|discriminate]. destruct (nth_error N k) as [n|] eqn:E; [|discriminate].
    rewrite (nth_error_nth N k 0%Z E). destruct (Z.ltb_spec n 0) as [|Hn]; [discriminate|]. pose proof (ball_length St normal3 u01 (Z.to_nat n) (seed k)) as L1. destruct (ball St normal3 u01 (Z.to_nat n) (seed k)) as [zs st1].
    pose proof (uniforms_length St u01 (Z.to_nat n) st1) as L2. destruct (uniforms St u01 (Z.to_nat n) st1) as [us st2]. simpl in L1, L2. intros H. cbn [fst] in H.
    split; [exact Hn|]. assert (EP : length pts = length (combine (map (scale3 r) zs) us)) by (injection H as <-; apply map_length). rewrite EP, combine_length, map_length. lia.
  Qed.
  Lemma draw_ok w a b c N k : (k < length a)%nat -> (k < length c)%nat -> (k < length N)%nat -> (0 <= nth k N 0)%Z -> exists pts, draw_shell w a b c N k = MOk pts.
  Proof.
    intros Ka Kc KN Hn. unfold draw_shell, drawUniformFromShell, at_. rewrite (nth_error_nth' a 0), (nth_error_nth' c 0), (nth_error_nth' N 0%Z) by assumption. simpl.
    destruct (Z.ltb_spec (nth k N 0%Z) 0); [lia|]. destruct (ball St normal3 u01 _ _) as [zs st1]. destruct (uniforms St u01 _ _) as [us st2]. eexists. reflexivity.
  Qed.
  Lemma concat_draws w a b c N results : mapM (draw_shell w a b c N) (seq 0 (length N)) = MOk results ->
    (forall x, In x N -> (0 <= x)%Z) /\ Z.of_nat (length (concat results)) = zsum N.
  Proof.
    intros H. destruct (mapM_inv _ _ _ [] H) as [L HI]. rewrite seq_length in L.
    assert (G : forall i, (i < length N)%nat -> (0 <= nth i N 0)%Z /\ Z.of_nat (length (nth i results [])) = nth i N 0%Z).
    { intros i Hi. specialize (HI i i). rewrite (nth_error_nth' _ 0%nat), seq_nth in HI by (rewrite ?seq_length; lia). specialize (HI eq_refl). exact (draw_inv _ _ _ _ _ _ _ HI). }
    split; [intros x Hx; destruct (In_nth N x 0%Z Hx) as (i & Hi & <-); now apply G|]. clear H HI. revert results L G. induction N as [|n N IH]; intros results L G.
    - destruct results; [reflexivity | discriminate].
    - destruct results as [|r rs]; [discriminate|]. simpl concat. rewrite app_length, Nat2Z.inj_add. rewrite (IH rs); [|simpl in L; lia | intros i Hi; apply (G (S i)); simpl; lia].
      destruct (G 0%nat ltac:(simpl; lia)) as [_ G0]. simpl in G0. simpl zsum. lia.
  Qed.
  Definition halo_of (w : nat -> St) := genHalo quad (draw_shell w).
  (** Everything the code computes on the way to a result. *)
  Lemma halo_inv w M res pars profile a b c h : M <> 0 -> (2 <= length a)%nat -> halo_of w M res pars profile a b c = MOk h ->
    exists f0 f a_last j, getMassIntegrand0 profile pars = MOk f0 /\ last_ a = MOk a_last /\ quad f0 eps0 a_last <> 0 /\ h_rho_s h = M / quad f0 eps0 a_last /\
      getMassIntegrand profile (pset pars "rho_s" (h_rho_s h)) = MOk f /\ (forall r, f r = h_rho_s h * f0 r) /\
      h_axes h = (rounds j a, rounds j b, rounds j c) /\ first_shell quad f M res (rounds j a) <> 0%Z /\
      counts quad f (rounds j a) (first_shell quad f M res (rounds j a)) = MOk (h_Nptc h) /\
      (forall x, In x (h_Nptc h) -> (0 <= x)%Z) /\ Z.of_nat (length (points h)) = zsum (h_Nptc h) /\
      length (points h) <> 0%nat /\ mass_dm h = quad f eps0 a_last / INR (length (points h)) /\ pars_after h = pset pars "rho_s" (h_rho_s h).
  Proof.
    intros HM Ha. unfold halo_of, genHalo. destruct (getMassIntegrand0 profile pars) as [f0|] eqn:E0; [|discriminate]. cbn [mbind].
    destruct (last_ a) as [a_last|] eqn:EL; [|discriminate]. cbn [mbind]. unfold pydiv at 1. destruct (Req_EM_T (quad f0 eps0 a_last) 0) as [|HQ]; [discriminate|]. cbn [mbind].
    set (rho := M / quad f0 eps0 a_last). destruct (integrands profile pars rho f0 E0) as (f & Ef & Hf). rewrite Ef. cbn [mbind].
    rewrite first_count_ok by assumption. cbn [mbind]. set (fuel := 1001%nat). clearbody fuel.
    destruct (loop_ok quad f M res fuel a b c HM Ha) as [(j & _ & H1 & _ & H3)|(_ & H)]; [rewrite H3; cbn [mbind] | rewrite H; discriminate]. clear fuel H3.
    destruct (counts quad f (rounds j a) _) as [N|] eqn:EC; [|discriminate]. cbn [mbind]. destruct (mapM (draw_shell w _ _ _ N) _) as [results|] eqn:ER; [|discriminate]. cbn [mbind].
    rewrite rounds_last, EL. cbn [mbind]. unfold pydiv. destruct (Req_EM_T (INR (length (concat results))) 0) as [|HL]; [discriminate|]. cbn [mbind]. intros H. assert (h = mkHalo (concat results) (quad f eps0 a_last / INR (length (concat results))) rho (rounds j a, rounds j b, rounds j c) N (pset pars "rho_s" rho)) as -> by congruence.
    destruct (concat_draws _ _ _ _ _ _ ER) as [P1 P2]. exists f0, f, a_last, j. cbn. repeat split; trivial. intros Z. apply HL. now rewrite Z.
  Qed.
  Lemma counts_length f a N1 N : counts quad f a N1 = MOk N -> length N = length a.
  Proof. intros H. apply (mapM_inv _ _ _ 0%Z) in H. destruct H as [L _]. now rewrite seq_length in L. Qed.
  Lemma counts_nth f a N1 N k : counts quad f a N1 = MOk N -> (k < length a)%nat ->
    quad f (nth 0 a 0) (nth 1 a 0) <> 0 /\ nth k N 0%Z = py_round (IZR N1 * shell_mass quad f a k / quad f (nth 0 a 0) (nth 1 a 0)).
  Proof.
    intros H Hk. apply (mapM_inv _ _ _ 0%Z) in H. destruct H as [_ HI]. specialize (HI k k). rewrite (nth_error_nth' _ 0%nat), seq_nth in HI by (rewrite ?seq_length; lia). specialize (HI eq_refl). simpl plus in HI. cbv beta in HI.
    unfold pydiv in HI. destruct (Req_EM_T (quad f (nth 0 a 0) (nth 1 a 0)) 0) as [|HQ]; [discriminate|]. simpl in HI. split; [exact HQ | congruence].
  Qed.
  Theorem C52 w M res pars profile a b c h : quad_scales quad -> M <> 0 -> (2 <= length a)%nat -> halo_of w M res pars profile a b c = MOk h ->
    INR (length (points h)) * mass_dm h = M /\ points h <> [].
  Proof.
    intros HS HM Ha H. destruct (halo_inv w M res pars profile a b c h HM Ha H) as (f0 & f & al & j & _ & _ & HQ & Er & _ & Ef & _ & _ & _ & _ & _ & HL & Em & _).
    split; [|intros Z; apply HL; now rewrite Z]. rewrite Em. rewrite (HS f0 f (h_rho_s h)) by exact Ef. rewrite Er. field. split; [exact HQ | now apply not_0_INR].
  Qed.
  (** The first proper shell of the coarsened halo holds the number of particles announced. *)
  Theorem C52_first_shell w M res pars profile a b c h : M <> 0 -> (2 <= length a)%nat -> halo_of w M res pars profile a b c = MOk h -> (1 <= nth 1 (h_Nptc h) 0)%Z /\ (1 <= Z.of_nat (length (points h)))%Z.
  Proof.
    intros HM Ha H. destruct (halo_inv w M res pars profile a b c h HM Ha H) as (f0 & f & al & j & _ & _ & _ & _ & _ & _ & _ & HN & HC & HP & HZ & _).
    pose proof (rounds_length2 j a Ha) as L2. destruct (counts_nth f _ _ _ 1 HC ltac:(lia)) as [HQ H1]. unfold shell_mass in H1. replace (IZR (first_shell quad f M res (rounds j a)) * quad f (nth 0 (rounds j a) 0) (nth 1 (rounds j a) 0) / quad f (nth 0 (rounds j a) 0) (nth 1 (rounds j a) 0)) with (IZR (first_shell quad f M res (rounds j a))) in H1 by (field; exact HQ).
    rewrite py_round_IZR in H1. assert (0 <= nth 1 (h_Nptc h) 0)%Z by (apply HP, nth_In; rewrite (counts_length _ _ _ _ HC); lia). pose proof (zsum_ge (h_Nptc h) 1 HP). lia.
  Qed.
  (** Masses of the shells add up to the mass of the halo. *)
  Definition rsum (l : list R) : R := fold_right Rplus 0 l.
  Lemma shells_sum f l lo : (forall lo mid hi, lo <= mid <= hi -> quad f lo hi = quad f lo mid + quad f mid hi) -> (forall i, (i < length l)%nat -> nth i (lo :: l) 0 <= nth i l 0) -> l <> [] ->
    rsum (map (fun k => quad f (nth k (lo :: l) 0) (nth k l 0)) (seq 0 (length l))) = quad f lo (last l 0) /\ lo <= last l 0.
  Proof.
    intros HA. revert lo. induction l as [|x l IH]; intros lo HS HN; [contradiction|]. cbn [length seq map rsum fold_right]. rewrite <- seq_shift, map_map. cbn [nth].
    pose proof (HS 0%nat ltac:(simpl; lia)) as H0. cbn [nth] in H0. destruct l as [|y l].
    - simpl. split; [ring | exact H0].
    - destruct (IH x) as [E O]; [intros i Hi; apply (HS (S i)); simpl in *; lia | discriminate|]. change (last (x :: y :: l) 0) with (last (y :: l) 0). split; [|lra].
      transitivity (quad f lo x + quad f x (last (y :: l) 0)); [f_equal; exact E|]. symmetry. apply HA. lra.
  Qed.
  Lemma counts_sum (c : R) N ms : length N = length ms -> (forall i, (i < length N)%nat -> c * nth i ms 0 - 1 / 2 <= IZR (nth i N 0%Z) <= c * nth i ms 0 + 1 / 2) ->
    c * rsum ms - INR (length N) / 2 <= IZR (zsum N) <= c * rsum ms + INR (length N) / 2.
  Proof.
    revert ms. induction N as [|n N IH]; intros ms L H; destruct ms as [|m ms]; simpl in L; try lia; [simpl; lra|].
    specialize (IH ms ltac:(lia) ltac:(intros i Hi; apply (H (S i)); simpl; lia)). pose proof (H 0%nat ltac:(simpl; lia)) as H0. cbn [nth] in H0. cbn [rsum zsum fold_right length]. rewrite plus_IZR, S_INR.
    unfold rsum, zsum in IH. lra.
  Qed.
  Theorem C80 w M res pars profile a b c h : quad_scales quad -> quad_adds quad -> 0 < M -> 0 < res -> (2 <= length a)%nat -> eps0 <= nth 0 a 0 -> (forall i j, (i < j < length a)%nat -> nth i a 0 < nth j a 0) ->
    (forall f0 lo hi, getMassIntegrand0 profile pars = MOk f0 -> lo < hi -> 0 < quad f0 lo hi) ->
    halo_of w M res pars profile a b c = MOk h ->
    let S := INR (length (h_Nptc h)) in
    2 / 3 * res - S / 2 <= INR (length (points h)) <= 2 * res + S / 2.
  Proof.
    intros HSc HAd HM Hres Ha He HI HPos H. cbv zeta. assert (HM0 : M <> 0) by lra. destruct (halo_inv w M res pars profile a b c h HM0 Ha H) as (f0 & f & al & j & E0 & EL & HQ & Er & _ & Ef & _ & HN & HC & HP & HZ & _).
    assert (LE : forall i k, (i <= k < length a)%nat -> nth i a 0 <= nth k a 0). { intros i k Hik. destruct (Nat.eq_dec i k) as [->|]; [lra | left; apply HI; lia]. }
    assert (EJ : rounds j a = map (fun i => nth i a 0) (rounds j (seq 0 (length a)))) by (now rewrite <- rounds_map, map_nth_seq).
    pose proof (rounds_select j (length a) Ha) as (S1 & S2 & S3 & S4). pose proof (rounds_length2 j (seq 0 (length a))) as L2. rewrite seq_length in L2. specialize (L2 Ha).
    assert (Hpos1 : 0 < quad f0 eps0 al).
    { destruct (Req_dec (quad f0 eps0 al) 0); [contradiction|]. apply HPos; [exact E0|]. unfold last_ in EL. destruct a as [|x a']; [discriminate|]. unfold at_ in EL. rewrite (nth_error_nth' _ 0) in EL by (simpl; lia).
      assert (Eal : al = nth (length (x :: a') - 1) (x :: a') 0) by congruence. rewrite Eal. apply (Rle_lt_trans _ _ _ He). apply HI. lia. }
    assert (Hrho : 0 < h_rho_s h) by (rewrite Er; now apply Rdiv_lt_0_compat).
    set (A := rounds j a) in *. set (x := res * quad f (nth 0 A 0) (nth 1 A 0) / M). unfold first_shell in *. fold x in HN, HC.
    assert (Hm1 : 0 < quad f (nth 0 A 0) (nth 1 A 0)).
    { rewrite (HSc f0 f (h_rho_s h)) by exact Ef. apply Rmult_lt_0_compat; [exact Hrho|]. apply HPos; [exact E0|]. rewrite EJ. destruct (rounds j (seq 0 (length a))) as [|p [|q l]]; simpl in L2; try lia. simpl.
      inversion S1 as [|? ? T1 T2]; subst. inversion T2 as [|? ? T3 T4]; subst. inversion S4 as [|? ? U1 U2]; subst. inversion U2; subst. apply HI. lia. }
    assert (Hx : 0 < x) by (unfold x; apply Rdiv_lt_0_compat; [now apply Rmult_lt_0_compat | exact HM]).
    pose proof (py_round_near x) as HR. set (N1 := py_round x) in *. assert (HN1 : (1 <= N1)%Z) by (pose proof (py_round_nonneg x ltac:(lra)); unfold N1 in *; lia). apply IZR_le in HN1. change (IZR 1) with 1 in HN1.
    assert (HB : 2 / 3 * x <= IZR N1 <= 2 * x) by lra.
    set (m1 := quad f (nth 0 A 0) (nth 1 A 0)) in *.
    assert (LA : (2 <= length A)%nat) by (unfold A; now apply rounds_length2).
    assert (HCS := counts_sum (IZR N1 / m1) (h_Nptc h) (map (fun k => quad f (nth k (eps0 :: A) 0) (nth k A 0)) (seq 0 (length A)))).
    rewrite map_length, seq_length, (counts_length _ _ _ _ HC) in HCS. specialize (HCS eq_refl).
    destruct (shells_sum f A eps0 (HAd f)) as [ES _].
    { intros [|i] Hi; simpl nth at 1.
      - rewrite EJ. destruct (rounds j (seq 0 (length a))) as [|p l]; simpl in L2; [lia|]. simpl in S2. subst p. simpl. exact He.
      - rewrite EJ in Hi |- *. rewrite map_length in Hi. 
        assert (NM : forall t, (t < length (rounds j (seq 0 (length a))))%nat -> nth t (map (fun i => nth i a 0) (rounds j (seq 0 (length a)))) 0 = nth (nth t (rounds j (seq 0 (length a))) 0%nat) a 0).
        { intros t Ht. rewrite (nth_indep _ 0 (nth 0 a 0)) by (rewrite map_length; lia). apply (map_nth (fun i => nth i a 0)). }
        rewrite !NM by lia. apply LE.
        assert (B : forall t, (t < length (rounds j (seq 0 (length a))))%nat -> (nth t (rounds j (seq 0 (length a))) 0 < length a)%nat) by (intros t Ht; rewrite Forall_forall in S4; now apply S4, nth_In).
        split; [|apply B; lia]. clear - S1 Hi. revert i Hi. induction S1 as [|p l HS IH HF]; intros i Hi; [simpl in Hi; lia|]. destruct i as [|i].
        + destruct l as [|q l]; simpl in Hi; [lia|]. simpl. inversion HF; subst. lia.
        + simpl in Hi. apply IH. lia. }
    { intros Z. rewrite Z in LA. simpl in LA. lia. }
    rewrite ES in HCS.
    assert (Elast : last A 0 = al).
    { pose proof (rounds_last j a) as RL. fold A in RL. rewrite EL in RL. clear - RL. clearbody A. revert RL. induction A as [|p A IH]; [discriminate|]. destruct A as [|q A]; [cbn; congruence|]. rewrite last_cons2. exact IH. }
    rewrite Elast in HCS. assert (EM : quad f eps0 al = M) by (rewrite (HSc f0 f (h_rho_s h)) by exact Ef; rewrite Er; field; lra). rewrite EM in HCS.
    assert (HCS2 : forall i, (i < length A)%nat -> IZR N1 / m1 * nth i (map (fun k => quad f (nth k (eps0 :: A) 0) (nth k A 0)) (seq 0 (length A))) 0 - 1 / 2 <= IZR (nth i (h_Nptc h) 0%Z) <= IZR N1 / m1 * nth i (map (fun k => quad f (nth k (eps0 :: A) 0) (nth k A 0)) (seq 0 (length A))) 0 + 1 / 2).
    { intros i Hi. rewrite (nth_indep _ 0 (quad f (nth 0 (eps0 :: A) 0) (nth 0 A 0))) by now rewrite map_length, seq_length. rewrite (map_nth (fun k => quad f (nth k (eps0 :: A) 0) (nth k A 0))), seq_nth by exact Hi. simpl plus.
      destruct (counts_nth f A N1 (h_Nptc h) i HC Hi) as [_ EN]. fold m1 in EN. rewrite EN. assert (ESM : shell_mass quad f A i = quad f (nth i (eps0 :: A) 0) (nth i A 0)) by (destruct i; reflexivity). rewrite ESM.
      set (q := quad f (nth i (eps0 :: A) 0) (nth i A 0)). replace (IZR N1 * q / m1) with (IZR N1 / m1 * q) by (field; lra). pose proof (py_round_near (IZR N1 / m1 * q)). lra. }
    specialize (HCS HCS2). clear HCS2. rewrite (INR_IZR_INZ (length (points h))), HZ. set (zs := IZR (zsum (h_Nptc h))) in *.
    rewrite (counts_length _ _ _ _ HC). set (sh := INR (length A)) in *.
    assert (EX : res = x * (M / m1)) by (unfold x; fold m1; field; lra). assert (HMm : 0 < M / m1) by now apply Rdiv_lt_0_compat.
    replace (IZR N1 / m1 * M) with (IZR N1 * (M / m1)) in HCS by (field; lra). rewrite EX. destruct HB as [HB1 HB2].
    assert (2 / 3 * x * (M / m1) <= IZR N1 * (M / m1)) by (apply Rmult_le_compat_r; lra). assert (IZR N1 * (M / m1) <= 2 * x * (M / m1)) by (apply Rmult_le_compat_r; lra).
    split; lra.
  Qed.
End Whole.
Print Assumptions C52.
Print Assumptions C52_first_shell.
Print Assumptions C80.

(** When generation succeeds. *)
Theorem C52_succeeds quad St seed normal3 u01 arctan2 (w : nat -> St) M res pars profile a b c f0 j :
  quad_scales quad -> getMassIntegrand0 profile pars = MOk f0 -> (forall lo hi, lo < hi -> 0 < quad f0 lo hi) -> 0 < M -> 0 < res ->
  (2 <= length a <= 2 ^ j + 1)%nat -> (j <= 1001)%nat -> length b = length a -> length c = length a -> eps0 < nth 0 a 0 -> (forall i k, (i < k < length a)%nat -> nth i a 0 < nth k a 0) ->
  1 / 2 < res * quad f0 (nth 0 a 0) (nth (length a - 1) a 0) / quad f0 eps0 (nth (length a - 1) a 0) ->
  exists h, halo_of quad St seed normal3 u01 arctan2 w M res pars profile a b c = MOk h.
Proof.
  intros HS E0 HPos HM Hres La Hj Lb Lc He HI HN. unfold halo_of, genHalo. rewrite E0. cbn [mbind].
  assert (EL : last_ a = MOk (nth (length a - 1) a 0)) by (unfold last_; destruct a as [|x a']; [simpl in La; lia|]; unfold at_; now rewrite (nth_error_nth' _ 0) by (simpl; lia)).
  rewrite EL. cbn [mbind]. set (al := nth (length a - 1) a 0) in *. assert (Hal : eps0 < al) by (apply (Rlt_trans _ _ _ He); apply HI; lia).
  pose proof (HPos eps0 al Hal) as HQ. unfold pydiv at 1. destruct (Req_EM_T (quad f0 eps0 al) 0) as [|_]; [lra|]. cbn [mbind]. set (rho := M / quad f0 eps0 al).
  destruct (integrands profile pars rho f0 E0) as (f & Ef & Hf). rewrite Ef. cbn [mbind]. assert (Hrho : 0 < rho) by now apply Rdiv_lt_0_compat.
  rewrite first_count_ok by (lia || lra). cbn [mbind]. remember 1001%nat as fuel eqn:Efuel.
  assert (HN2 : py_round (res * quad f (nth 0 a 0) al / M) <> 0%Z).
  { rewrite (HS f0 f rho) by exact Hf. replace (res * (rho * quad f0 (nth 0 a 0) al) / M) with (res * quad f0 (nth 0 a 0) al / quad f0 eps0 al) by (unfold rho; field; lra).
    intros Z. pose proof (py_round_near (res * quad f0 (nth 0 a 0) al / quad f0 eps0 al)) as P. rewrite Z in P. lra. }
  assert (HMn : M <> 0) by lra. destruct (loop_ok quad f M res fuel a b c HMn ltac:(lia)) as [(i & _ & H1 & _ & H3)|(H & H2)].
  2:{ exfalso. destruct (C51_succeeds quad f M res a b c fuel j HMn La Hj HN2) as [r Er]. congruence. }
  rewrite H3. cbn [mbind]. clear H3. set (A := rounds i a) in *. assert (LA : (2 <= length A)%nat) by (apply rounds_length2; lia).
  assert (SA : forall p q, (p < q < length A)%nat -> nth p A 0 < nth q A 0).
  { assert (EJ : A = map (fun i => nth i a 0) (rounds i (seq 0 (length a)))) by (unfold A; now rewrite <- rounds_map, map_nth_seq). destruct (rounds_select i (length a) ltac:(lia)) as (S1 & _ & _ & S4).
    set (ix := rounds i (seq 0 (length a))) in *. clearbody ix. rewrite EJ, map_length. intros p q Hpq.
    assert (NM : forall t, (t < length ix)%nat -> nth t (map (fun i => nth i a 0) ix) 0 = nth (nth t ix 0%nat) a 0) by (intros t Ht; rewrite (nth_indep _ 0 (nth 0 a 0)) by (rewrite map_length; lia); apply (map_nth (fun i => nth i a 0))).
    rewrite !NM by lia. apply HI. rewrite Forall_forall in S4. split; [|apply S4, nth_In; lia]. clear - S1 Hpq. revert p q Hpq. induction S1 as [|x l HS IH HF]; intros p q Hpq; [simpl in Hpq; lia|].
    destruct q as [|q]; [lia|]. destruct p as [|p]; simpl; [|apply IH; simpl in Hpq; lia]. rewrite Forall_forall in HF. apply HF, nth_In. simpl in Hpq. lia. }
  assert (A0 : nth 0 A 0 = nth 0 a 0). { pose proof (rounds_hd i a 0) as EH. fold A in EH. destruct A, a; simpl in *; try lia; exact EH. }
  assert (HP : forall lo hi, lo < hi -> 0 < quad f lo hi). { intros lo hi H. rewrite (HS f0 f rho) by exact Hf. apply Rmult_lt_0_compat; [exact Hrho | now apply HPos]. }
  assert (Hm1 : 0 < quad f (nth 0 A 0) (nth 1 A 0)) by (apply HP, SA; lia).
  assert (HNpos : (0 <= first_shell quad f M res A)%Z) by (apply py_round_nonneg; apply Rlt_le, Rdiv_lt_0_compat; [now apply Rmult_lt_0_compat | exact HM]).
  set (N1 := first_shell quad f M res A) in *.
  set (cnt := fun k => py_round (IZR N1 * shell_mass quad f A k / quad f (nth 0 A 0) (nth 1 A 0))).
  assert (EC : counts quad f A N1 = MOk (map cnt (seq 0 (length A)))).
  { apply mapM_ok. intros k _. unfold pydiv. destruct (Req_EM_T (quad f (nth 0 A 0) (nth 1 A 0)) 0) as [|_]; [lra | reflexivity]. }
  assert (Hcnt : forall k, (k < length A)%nat -> (0 <= cnt k)%Z).
  { intros k Hk. apply py_round_nonneg. unfold Rdiv. apply Rmult_le_pos; [|left; now apply Rinv_0_lt_compat]. apply Rmult_le_pos; [now apply IZR_le|]. destruct k as [|k]; simpl; left; apply HP; [rewrite A0; exact He | apply SA; lia]. }
  rewrite EC. cbn [mbind]. set (N := map cnt (seq 0 (length A))) in *. assert (LN : length N = length A) by (unfold N; now rewrite map_length, seq_length).
  assert (NN : forall k, (k < length N)%nat -> nth k N 0%Z = cnt k) by (intros k Hk; unfold N; rewrite (nth_indep _ 0%Z (cnt 0%nat)) by (fold N; lia); rewrite map_nth, seq_nth by lia; reflexivity).
  assert (Lc' : length (rounds i c) = length A).
  { unfold A. assert (G : forall (l m : list R), length l = length m -> length (rounds i l) = length (rounds i m)); [|now apply G]. clear. induction i as [|i IH]; intros l m E; [exact E|]. simpl. apply IH.
    destruct (le_lt_dec 2 (length l)); [now rewrite !coarsen_length, E by lia|]. destruct l as [|x [|y l]], m as [|x' [|y' m]]; simpl in *; try lia; reflexivity. }
  assert (ED : exists results, mapM (draw_shell St seed normal3 u01 arctan2 w A (rounds i b) (rounds i c) N) (seq 0 (length N)) = MOk results).
  { assert (G : forall l, (forall k, In k l -> (k < length N)%nat) -> exists results, mapM (draw_shell St seed normal3 u01 arctan2 w A (rounds i b) (rounds i c) N) l = MOk results).
    { induction l as [|k l IH]; intros Hl; [now exists []|]. destruct (draw_ok St seed normal3 u01 arctan2 w A (rounds i b) (rounds i c) N k) as [pts Ep]; [specialize (Hl k (or_introl eq_refl)); lia | specialize (Hl k (or_introl eq_refl)); lia | specialize (Hl k (or_introl eq_refl)); lia | specialize (Hl k (or_introl eq_refl)); rewrite NN by lia; apply Hcnt; lia|].
      destruct (IH ltac:(intros; apply Hl; now right)) as [rs Er]. exists (pts :: rs). simpl. rewrite Ep. cbn [mbind]. rewrite Er. reflexivity. }
    apply G. intros k Hk. apply in_seq in Hk. lia. }
  destruct ED as [results ER]. rewrite ER. cbn [mbind]. unfold A at 1. rewrite rounds_last, EL. cbn [mbind].
  destruct (concat_draws _ _ _ _ _ _ _ _ _ _ _ ER) as [Q1 Q2]. pose proof (zsum_ge N 1 Q1) as Q3. rewrite NN in Q3 by lia.
  assert (C1 : cnt 1%nat = N1). { unfold cnt. simpl shell_mass. replace (IZR N1 * quad f (nth 0 A 0) (nth 1 A 0) / quad f (nth 0 A 0) (nth 1 A 0)) with (IZR N1) by (field; lra). apply py_round_IZR. }
  unfold pydiv. destruct (Req_EM_T (INR (length (concat results))) 0) as [Z|_]; [|eexists; reflexivity].
  exfalso. assert (1 <= Z.of_nat (length (concat results)))%Z by lia. assert (0 < INR (length (concat results))) by (apply lt_0_INR; lia). lra.
Qed.
Print Assumptions C52_succeeds.

(** ** C83 *)
Lemma mapM_ext {A B} (g h : A -> mres B) l : (forall x, g x = h x) -> mapM g l = mapM h l.
Proof. intros H. induction l as [|x l IH]; [reflexivity|]. simpl. now rewrite H, IH. Qed.
(** The halo does not depend on the generator states of the workers: calls with the same arguments yield the same halo. *)
Theorem C83_halo quad St seed normal3 u01 arctan2 (w w' : nat -> St) M res pars profile a b c :
  halo_of quad St seed normal3 u01 arctan2 w M res pars profile a b c = halo_of quad St seed normal3 u01 arctan2 w' M res pars profile a b c.
Proof. reflexivity. Qed.
Print Assumptions C83_halo.

(** ** C82 *)
Lemma pset_pset d k v v' : pset (pset d k v) k v' = pset d k v'.
Proof.
  induction d as [|[k2 v2] d IH]; simpl; [destruct (string_dec k k); [reflexivity | contradiction]|]. destruct (string_dec k k2) as [->|E]; simpl; [destruct (string_dec k2 k2); [reflexivity | contradiction]|].
  destruct (string_dec k k2); [contradiction | now rewrite IH].
Qed.
(** The dictionary of the caller: only rho_s is set, and a value it held before is not used. *)
Theorem C82_partial quad draw M res pars profile a b c :
  (forall h, genHalo quad draw M res pars profile a b c = MOk h -> pget (pars_after h) "rho_s" = MOk (h_rho_s h) /\ forall k, k <> "rho_s"%string -> pget (pars_after h) k = pget pars k) /\
  forall v, genHalo quad draw M res (pset pars "rho_s" v) profile a b c = genHalo quad draw M res pars profile a b c.
Proof.
  split.
  - unfold genHalo. intros h. destruct (getMassIntegrand0 profile pars) as [f0|]; [|discriminate]. cbn [mbind]. destruct (last_ a) as [al|]; [|discriminate]. cbn [mbind]. destruct (pydiv M _) as [rho|]; [|discriminate]. cbn [mbind].
    destruct (getMassIntegrand profile _) as [f|]; [|discriminate]. cbn [mbind]. destruct (first_count quad f M res a) as [n|]; [|discriminate]. cbn [mbind]. set (fuel := 1001%nat). clearbody fuel.
    destruct (coarsen_loop quad f M res fuel a b c n) as [[[[a' b'] c'] n']|]; [|discriminate]. cbn [mbind]. destruct (counts quad f a' n') as [N|]; [|discriminate]. cbn [mbind]. destruct (mapM _ _) as [rs|]; [|discriminate]. cbn [mbind].
    destruct (last_ a') as [al'|]; [|discriminate]. cbn [mbind]. destruct (pydiv _ _) as [m|]; [|discriminate]. cbn [mbind]. intros H. assert (E : h = mkHalo (concat rs) m rho (a', b', c') N (pset pars "rho_s" rho)) by congruence. rewrite E. cbn [pars_after h_rho_s].
    split; [apply pget_pset_same | intros k Hk; now apply pget_pset_other].
  - intros v. unfold genHalo. assert (E : getMassIntegrand0 profile (pset pars "rho_s" v) = getMassIntegrand0 profile pars) by (unfold getMassIntegrand0; now rewrite !pget_pset_other by discriminate).
    rewrite E. destruct (getMassIntegrand0 profile pars) as [f0|]; [|reflexivity]. cbn [mbind]. destruct (last_ a) as [al|]; [|reflexivity]. cbn [mbind]. destruct (pydiv M _) as [rho|]; [|reflexivity]. cbn [mbind]. now rewrite pset_pset.
Qed.
Print Assumptions C82_partial.

(** ** A halo meeting the hypotheses *)
(** A rule with one node. *)
Definition quad1 (f : R -> R) (lo hi : R) : R := f 1 * (hi - lo).
Lemma quad1_scales : quad_scales quad1. Proof. intros f g k lo hi H. unfold quad1. rewrite H. ring. Qed.
Lemma quad1_adds : quad_adds quad1. Proof. intros f lo mid hi _. unfold quad1. ring. Qed.
Definition pars1 : pdict := [("r_s"%string, 1)].
Lemma nfw1 f0 profile : profile = "nfw"%string \/ profile = "NFW"%string -> getMassIntegrand0 profile pars1 = MOk f0 -> f0 1 = PI.
Proof.
  intros HP. unfold getMassIntegrand0, pars1. intros H.
  assert (E : @MOk (R -> R) (fun r => 4 * PI * r ^ 2 / (r / 1 * (1 + r / 1) ^ 2)) = MOk f0) by (destruct HP as [-> | ->]; exact H). assert (E2 : f0 = fun r => 4 * PI * r ^ 2 / (r / 1 * (1 + r / 1) ^ 2)) by congruence. rewrite E2. field.
Qed.
Lemma incr3 : forall i k, (i < k < length [1; 2; 3])%nat -> nth i [1; 2; 3] 0 < nth k [1; 2; 3] 0.
Proof. intros i k H. simpl in H. destruct i as [|[|i]], k as [|[|[|k]]]; simpl; try lra; lia. Qed.
Lemma eps0_small : 0 < eps0 < 1.
Proof. unfold eps0. split; [apply Rinv_0_lt_compat; lra|]. rewrite <- Rinv_1. apply Rinv_lt_contravar; lra. Qed.
Definition halo1 (profile : string) := halo_of quad1 nat (fun k => k) (fun s => ((1, 0, 0), S s)) (fun s => (1 / 2, S s)) (fun _ _ => 0) (fun k => k) 7 10 pars1 profile [1; 2; 3] [1; 2; 3] [1; 2; 3].
Lemma halo1_ok profile : profile = "nfw"%string \/ profile = "NFW"%string -> exists h, halo1 profile = MOk h.
Proof.
  intros HP. assert (E0 : exists f0, getMassIntegrand0 profile pars1 = MOk f0) by (destruct HP as [-> | ->]; eexists; reflexivity). destruct E0 as [f0 E0]. pose proof (nfw1 f0 profile HP E0) as E1. pose proof PI_RGT_0. pose proof eps0_small.
  apply (C52_succeeds quad1 nat _ _ _ _ _ 7 10 pars1 profile _ _ _ f0 1 quad1_scales E0); try lra; try (simpl; lia); try reflexivity; [intros lo hi HL; unfold quad1; rewrite E1; apply Rmult_lt_0_compat; lra | simpl; lra | exact incr3 |].
  unfold quad1. rewrite E1. simpl nth. replace (10 * (PI * (3 - 1)) / (PI * (3 - eps0))) with (20 / (3 - eps0)) by (field; lra). apply (Rmult_lt_reg_r (3 - eps0)); [lra|]. unfold Rdiv at 2. rewrite Rmult_assoc, Rinv_l by lra. lra.
Qed.
Example C52_ex : exists h, halo1 "nfw" = MOk h /\ INR (length (points h)) * mass_dm h = 7 /\ 2 / 3 * 10 - INR (length (h_Nptc h)) / 2 <= INR (length (points h)) <= 2 * 10 + INR (length (h_Nptc h)) / 2.
Proof.
  destruct (halo1_ok "nfw" (or_introl eq_refl)) as [h H]. exists h. split; [exact H|]. split; [apply (C52 _ _ _ _ _ _ _ 7 10 pars1 "nfw" [1; 2; 3] [1; 2; 3] [1; 2; 3] h quad1_scales ltac:(lra) ltac:(simpl; lia) H)|].
  pose proof eps0_small. pose proof PI_RGT_0. refine (C80 _ _ _ _ _ _ _ 7 10 pars1 "nfw" [1; 2; 3] [1; 2; 3] [1; 2; 3] h quad1_scales quad1_adds ltac:(lra) ltac:(lra) ltac:(simpl; lia) _ incr3 _ H); [simpl; lra|].
  intros f0 lo hi E0 HL. unfold quad1. rewrite (nfw1 f0 "nfw" (or_introl eq_refl) E0). apply Rmult_lt_0_compat; lra.
Qed.
Theorem C82_refuted : exists h, halo1 "nfw" = MOk h /\ pget pars1 "rho_s" = MErr MKeyError /\ pget (pars_after h) "rho_s" <> MErr MKeyError.
Proof.
  destruct (halo1_ok "nfw" (or_introl eq_refl)) as [h H]. exists h. split; [exact H|]. split; [reflexivity|]. unfold halo1, halo_of in H. destruct (proj1 (C82_partial _ _ _ _ _ _ _ _ _) h H) as [E _]. rewrite E. discriminate.
Qed.
Print Assumptions C82_refuted.
(** The halo does not depend on the workers' generators, nor on a rho_s in the dictionary. *)
Example C82_ex : exists h, halo1 "nfw" = MOk h /\ pget (pars_after h) "r_s" = MOk 1 /\
  halo_of quad1 nat (fun k => k) (fun s => ((1, 0, 0), S s)) (fun s => (1 / 2, S s)) (fun _ _ => 0) (fun k => k) 7 10 (pset pars1 "rho_s" 5) "nfw" [1; 2; 3] [1; 2; 3] [1; 2; 3] = MOk h.
Proof.
  destruct (halo1_ok "nfw" (or_introl eq_refl)) as [h H]. exists h. split; [exact H|]. unfold halo1, halo_of in H. split.
  - destruct (proj1 (C82_partial _ _ _ _ _ _ _ _ _) h H) as [_ E]. rewrite E by discriminate. reflexivity.
  - unfold halo_of. rewrite (proj2 (C82_partial _ _ _ _ _ _ _ _ _)). exact H.
Qed.
Example C83_ex : exists h, halo1 "nfw" = MOk h /\ points h <> [] /\
  halo_of quad1 nat (fun k => k) (fun s => ((1, 0, 0), S s)) (fun s => (1 / 2, S s)) (fun _ _ => 0) (fun k => 5 * k + 1)%nat 7 10 pars1 "nfw" [1; 2; 3] [1; 2; 3] [1; 2; 3] = MOk h.
Proof.
  destruct (halo1_ok "nfw" (or_introl eq_refl)) as [h H]. exists h. split; [exact H|]. split.
  - destruct (halo_inv quad1 nat _ _ _ _ _ 7 10 pars1 "nfw" [1; 2; 3] _ _ h ltac:(lra) ltac:(simpl; lia) H) as (f0 & f & al & j & _ & _ & _ & _ & _ & _ & _ & _ & _ & _ & _ & HL & _).
    intros Z. rewrite Z in HL. now apply HL.
  - rewrite <- H. apply C83_halo.
Qed.

(** ** C84 *)
(** Any name other than the three is taken for NFW, silently. *)
Theorem C84_unknown quad draw M res pars profile a b c : profile <> "einasto"%string -> profile <> "alpha_beta_gamma"%string -> profile <> "hernquist"%string ->
  genHalo quad draw M res pars profile a b c = genHalo quad draw M res pars "nfw" a b c.
Proof.
  intros H1 H2 H3. assert (E0 : forall d, getMassIntegrand0 profile d = getMassIntegrand0 "nfw" d).
  { intros d. unfold getMassIntegrand0. destruct (string_dec profile "einasto"); [contradiction|]. destruct (string_dec profile "alpha_beta_gamma"); [contradiction|]. destruct (string_dec profile "hernquist"); [contradiction|]. reflexivity. }
  assert (E1 : forall d, getMassIntegrand profile d = getMassIntegrand "nfw" d).
  { intros d. unfold getMassIntegrand. destruct (string_dec profile "einasto"); [contradiction|]. destruct (string_dec profile "alpha_beta_gamma"); [contradiction|]. destruct (string_dec profile "hernquist"); [contradiction|]. reflexivity. }
  unfold genHalo. rewrite E0. destruct (getMassIntegrand0 "nfw" pars) as [f0|]; [|reflexivity]. cbn [mbind]. destruct (last_ a) as [al|]; [|reflexivity]. cbn [mbind]. destruct (pydiv M _) as [rho|]; [|reflexivity]. cbn [mbind]. now rewrite E1.
Qed.
Print Assumptions C84_unknown.
(** "Einasto" with a capital letter is generated, as an NFW halo. *)
Theorem C84_refuted : exists h, halo1 "Einasto" = MOk h /\ halo1 "nfw" = MOk h.
Proof.
  destruct (halo1_ok "nfw" (or_introl eq_refl)) as [h H]. exists h. split; [|exact H]. rewrite <- H. unfold halo1, halo_of. apply C84_unknown; discriminate.
Qed.
Print Assumptions C84_refuted.

(** ** Examples for C51 *)
Example C51_ex : exists idx, selects 3 idx /\ (2 <= length idx)%nat /\
  coarsen_loop quad1 (fun _ => 1) 1 (2 / 5) 1001 [1; 2; 4] [1; 2; 4] [1; 2; 4] (first_shell quad1 (fun _ => 1) 1 (2 / 5) [1; 2; 4]) =
    MOk (map (fun i => nth i [1; 2; 4] 0) idx, map (fun i => nth i [1; 2; 4] 0) idx, map (fun i => nth i [1; 2; 4] 0) idx, first_shell quad1 (fun _ => 1) 1 (2 / 5) (map (fun i => nth i [1; 2; 4] 0) idx)).
Proof.
  destruct (C51_succeeds quad1 (fun _ => 1) 1 (2 / 5) [1; 2; 4] [1; 2; 4] [1; 2; 4] 1001 1 ltac:(lra) ltac:(simpl; lia) ltac:(lia)) as [r Hr].
  - intros Z. pose proof (py_round_near (2 / 5 * quad1 (fun _ => 1) (nth 0 [1; 2; 4] 0) (nth (length [1; 2; 4] - 1) [1; 2; 4] 0) / 1)) as P. rewrite Z in P. unfold quad1 in P. simpl in P. lra.
  - destruct (C51 quad1 (fun _ => 1) 1 (2 / 5) [1; 2; 4] [1; 2; 4] [1; 2; 4] 1001 ltac:(lra) ltac:(simpl; lia) eq_refl eq_refl) as [H|(idx & H1 & H2 & H3 & _)]; [rewrite Hr in H; discriminate|]. exists idx. split; [exact H1|]. split; [exact H2 | exact H3].
Qed.
Example C51_fails_ex : coarsen_loop quad1 (fun _ => 1) 1 (1 / 10) 1001 [1; 2; 4] [1; 2; 4] [1; 2; 4] (first_shell quad1 (fun _ => 1) 1 (1 / 10) [1; 2; 4]) = MErr MValueError.
Proof.
  apply C51_fails; try lra; [simpl; lia | | intros lo hi H; unfold quad1; lra | intros; now apply quad1_adds |].
  - intros i k H. simpl in H. destruct i as [|[|i]], k as [|[|[|k]]]; simpl; try lra; lia.
  - unfold quad1. simpl nth. set (x := 1 / 10 * (1 * (4 - 1)) / 1). assert (Hx : x = 3 / 10) by (unfold x; field). pose proof (py_round_near x) as P. assert (A1 : (-1 < py_round x)%Z) by (apply lt_IZR; lra). assert (A2 : (py_round x < 1)%Z) by (apply lt_IZR; lra). lia.
Qed.
