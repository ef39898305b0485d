(** Concrete runs of the shape algorithm. *)
From Coq Require Import List Reals ZArith Lra Lia Bool Arith.
From Verif Require Import ListUtil XR GeoModel GeoSpec GeoProofs ShapeModel ShapeSpec ShapeProofs ShapeKatz Spectral ShapeFacts.
Import ListNotations.
Open Scope R_scope.

(** Six unit masses on the coordinate axes. *)
Definition cloud6 : list vec := [mkV 3 0 0; mkV (-3) 0 0; mkV 0 2 0; mkV 0 (-2) 0; mkV 0 0 1; mkV 0 0 (-1)].
Definition ones6 : list R := [1; 1; 1; 1; 1; 1].
(** Four particles in a plane through the centre and one far away. *)
Definition flat5 : list vec := [mkV 3 0 0; mkV (-3) 0 0; mkV 0 2 0; mkV 0 (-2) 0; mkV 0 0 50].
Definition ones5 : list R := [1; 1; 1; 1; 1].

Lemma good6 : nonneg cloud6 ones6.
Proof. intros [|[|[|[|[|[|k]]]]]] H; cbn in *; try lra; lia. Qed.
Lemma good5 : nonneg flat5 ones5.
Proof. intros [|[|[|[|[|k]]]]] H; cbn in *; try lra; lia. Qed.

Lemma sqrt_frac a b : 0 <= a -> 0 < b -> sqrt (a * a / (b * b)) = a / b.
Proof.
  intros Ha Hb. replace (a * a / (b * b)) with ((a / b) * (a / b)) by (field; lra).
  apply sqrt_square. apply Rmult_le_pos; [auto|left; apply Rinv_0_lt_compat; auto].
Qed.

Section Runs.
  Variable eig : nat -> list xr -> eigres.
  Hypothesis Heig : eig_contract eig.
  Variable mi0 : morph.

  (** *** The axis-aligned cloud, d = 10, tolerance 1/100. *)
  Notation init := (katz_init cloud6 v0 10 None mi0).
  Notation body := (katz_body eig cloud6 cloud6 ones6 v0 v0 10 None false).
  Notation loop := (katz_loop eig cloud6 cloud6 ones6 v0 v0 10 None (1/100) 100 1 false).
  Notation kinv' := (kinv cloud6 cloud6 ones6 v0 v0 10 false mi0).
  Notation sinv' := (sinv cloud6 v0 10 None 100 1).

  Lemma filter_all {X} (f : X -> bool) l : (forall x, In x l -> f x = true) -> filter f l = l.
  Proof. intros H. induction l as [|a l IH]; cbn; auto. rewrite H by (left; auto). f_equal. apply IH. intros; apply H; right; auto. Qed.

  Lemma moment6 wt i j : (forall k, In k (seq 0 6) -> wt k = 1) -> (i < 3)%nat -> (j < 3)%nat ->
    moment cloud6 ones6 v0 wt (seq 0 6) i j = (if (i =? j)%nat then match i with O => 3 | S O => 4/3 | _ => 1/3 end else 0).
  Proof.
    intros Hw Hi Hj. unfold moment. cbn [seq total].
    rewrite !Hw by (cbn; tauto).
    destruct i as [|[|[|i]]]; [| | |lia]; (destruct j as [|[|[|j]]]; [| | |lia]); cbn; field.
  Qed.

  Lemma step6 before T mi : step_ok cloud6 cloud6 ones6 v0 v0 10 false before (seq 0 6, T, mi) ->
    mq mi = Fin (2/3) /\ ms mi = Fin (1/3) /\ md mi = Fin 10 /\
    exists a b c, major mi = fv a /\ inter mi = fv b /\ minor mi = fv c /\ orthonormal a b c /\
      along 0 a /\ along 1 b /\ along 2 c.
  Proof.
    intros (wt & Hw & _ & Hs). cbn [fst snd] in *.
    apply (diag_shape _ 10 mi 3 (4/3) (1/3)) in Hs; try lra; try (rewrite moment6 by (auto; lia); reflexivity).
    - destruct Hs as (A & B & C).
      replace (4 / 3 / 3) with (2 * 2 / (3 * 3)) in A by field. rewrite sqrt_frac in A by lra.
      replace (1 / 3 / 3) with (1 * 1 / (3 * 3)) in B by field. rewrite sqrt_frac in B by lra. auto.
    - intros i j Hi Hj Hn. rewrite moment6 by auto. destruct (Nat.eqb_spec i j); [congruence|reflexivity].
  Qed.

  Lemma ip_along a k p : (k < 3)%nat -> along k a -> ip a a = 1 -> ip a p * ip a p = coord p k * coord p k.
  Proof.
    intros Hk Ha N. assert (A0 := Ha 0%nat ltac:(lia)). assert (A1 := Ha 1%nat ltac:(lia)). assert (A2 := Ha 2%nat ltac:(lia)).
    cbn [coord] in *. unfold ip in *. destruct k as [|[|[|k]]]; [| | |lia]; cbn [coord].
    - rewrite A1, A2 in * by lia. replace (vx a * vx p + 0 * vy p + 0 * vz p) with (vx a * vx p) by ring. nra.
    - rewrite A0, A2 in * by lia. replace (0 * vx p + vy a * vy p + 0 * vz p) with (vy a * vy p) by ring. nra.
    - rewrite A0, A1 in * by lia. replace (0 * vx p + 0 * vy p + vz a * vz p) with (vz a * vz p) by ring. nra.
  Qed.

  Lemma in_cloud6 i : In i (seq 0 6) -> let p := nth i cloud6 v0 in
    vx p * vx p + vy p * vy p * (9/4) + vz p * vz p * 9 = 9.
  Proof.
    intros H. apply in_seq in H. destruct i as [|[|[|[|[|[|i]]]]]]; cbn; try lra; lia.
  Qed.

  Lemma sel0 : sel_rule cloud6 v0 10 None [] = seq 0 6.
  Proof.
    unfold sel_rule. cbn [rev]. apply filter_all. intros i Hi. pose proof (in_cloud6 i Hi) as E. cbv zeta in E.
    unfold in_sphere, dist2. set (p := nth i cloud6 v0) in *. unfold v0. cbn [vx vy vz].
    destruct Rlt_dec as [|n]; auto. exfalso. apply n. nra.
  Qed.

  Lemma sel_next tr e : step_ok cloud6 cloud6 ones6 v0 v0 10 false tr e -> fst (fst e) = seq 0 6 ->
    sel_rule cloud6 v0 10 None (tr ++ [e]) = seq 0 6.
  Proof.
    intros Hs He. destruct e as [[se T] mi]. cbn [fst] in He. subst se.
    destruct (step6 _ _ _ Hs) as (Q & S & _ & a & b & c & Ma & Mb & Mc & Ho & A & B & C).
    unfold sel_rule. rewrite rev_app_distr. cbn [rev app snd]. apply filter_all. intros i Hi.
    pose proof (in_cloud6 i Hi) as E. cbv zeta in E.
    unfold in_ell. rewrite (princ_fv mi a b c v0 _ Ma Mb Mc), Q, S, ellval_fin by lra. cbn [vx vy vz].
    set (p := nth i cloud6 v0) in *. destruct Ho as (Na & Nb & Nc & _).
    replace (vsub p v0) with p by (destruct p; unfold vsub, v0; cbn; f_equal; ring).
    rewrite (ip_along a 0%nat p), (ip_along b 1%nat p), (ip_along c 2%nat p) by (auto; lia). cbn [coord xltb].
    match goal with |- (if Rlt_dec ?x _ then _ else _) && _ = _ => replace x with 9 by (rewrite <- E; field) end.
    destruct Rlt_dec; [reflexivity|lra].
  Qed.

  (** No pass over all six particles raises. *)
  Lemma safe6 st : kinv' st -> ssel st = seq 0 6 ->
    existsb xzero (divisors eig cloud6 cloud6 ones6 v0 v0 10 None false st) = false.
  Proof.
    intros K P. apply not_true_iff_false. intros H.
    apply (raises_trouble eig cloud6 cloud6 ones6 v0 v0 10 None false Heig good6 mi0) in H; auto.
    rewrite P in H. destruct H as [H|[(H & _)|[(n & Hn & H)|(wt & mi & q & s & dd & _ & _ & _ & _ & H & _)]]]; try discriminate.
    - cbn in H. lra.
    - assert (H0 := H 0%nat ltac:(cbn; auto)). assert (H2 := H 2%nat ltac:(cbn; auto)). assert (H4 := H 4%nat ltac:(cbn; auto 10)).
      cbn in H0, H2, H4. unfold ip, vsub in H0, H2, H4, Hn. cbn in H0, H2, H4. nra.
  Qed.

  Lemma run6 f : exists mi tr, katz eig cloud6 cloud6 ones6 v0 v0 10 None (1/100) 100 1 false (S (S f)) mi0 = Some (Ret mi, tr) /\
    mq mi = Fin (2/3) /\ ms mi = Fin (1/3) /\ md mi = Fin 10 /\ length tr = 2%nat /\
    exists a b c, major mi = fv a /\ inter mi = fv b /\ minor mi = fv c /\ orthonormal a b c /\
      along 0 a /\ along 1 b /\ along 2 c.
  Proof.
    pose proof good6 as G1.
    pose proof (sinv_init cloud6 v0 10 None 100 1 mi0) as S0.
    pose proof (kinv_init cloud6 cloud6 ones6 v0 v0 10 None false mi0) as K0.
    assert (T0 : k_trace init = []) by (unfold katz_init; destruct compact; reflexivity).
    assert (P0 : ssel init = seq 0 6) by (destruct S0 as (_ & -> & _); rewrite T0; apply sel0).
    assert (N0 : k_pts init = 6%nat) by (rewrite <- ssel_length, P0; reflexivity).
    assert (I0 : k_it init = 1%Z) by (unfold katz_init; destruct compact; reflexivity).
    assert (E0 : k_err init = Fin 1) by (unfold katz_init; destruct compact; reflexivity).
    assert (S1 := sinv_body eig cloud6 cloud6 ones6 v0 v0 10 None 100 1 false init S0 ltac:(lia) ltac:(lia)).
    assert (D0 := safe6 init K0 P0).
    assert (K1 := kinv_body eig cloud6 cloud6 ones6 v0 v0 10 None false Heig G1 mi0 init K0 D0).
    assert (T1 : exists T1, k_trace (body init) = [(seq 0 6, T1, k_mi (body init))]).
    { destruct (body_parts eig cloud6 cloud6 ones6 v0 v0 10 None false init) as (? & ? & ? & ? & ? & ? & _ & _ & _ & _ & _ & ->).
      cbn [k_trace k_mi]. rewrite T0, P0. eexists. reflexivity. }
    destruct T1 as (TT & T1).
    assert (H1 := proj2 (proj2 (proj2 K1)) [] _ [] T1).
    destruct (step6 _ _ _ H1) as (Q1 & S1' & _).
    assert (P1 : ssel (body init) = seq 0 6).
    { destruct S1 as (_ & -> & _). rewrite T1. apply (sel_next []); auto. }
    assert (N1 : k_pts (body init) = 6%nat) by (rewrite <- ssel_length, P1; reflexivity).
    assert (I1 : k_it (body init) = 2%Z) by (rewrite body_it, I0; reflexivity).
    assert (E1 : k_err (body init) = Fin (2/3)).
    { destruct (proj1 (proj2 (proj2 K1))) as [(F & _)|(bf & e & F & _ & q0 & s0 & q & s & Hp & _ & _ & Mq & Ms & He)].
      - rewrite T1 in F. discriminate.
      - rewrite T1 in F. destruct bf as [|? [|? ?]]; try discriminate.
        destruct Hp as [(_ & -> & ->)|(? & ? & F' & _)]; [|apply (f_equal (@length _)) in F'; rewrite app_length in F'; cbn in F'; lia].
        rewrite Q1 in Mq. rewrite S1' in Ms. injection Mq as <-. injection Ms as <-. rewrite He. f_equal. rewrite !Rabs_left by lra. rewrite Rmax_right by lra. field. }
    assert (S2 := sinv_body eig cloud6 cloud6 ones6 v0 v0 10 None 100 1 false _ S1 ltac:(lia) ltac:(lia)).
    assert (D1 := safe6 (body init) K1 P1).
    assert (K2 := kinv_body eig cloud6 cloud6 ones6 v0 v0 10 None false Heig G1 mi0 _ K1 D1).
    assert (T2 : exists T2, k_trace (body (body init)) = [(seq 0 6, TT, k_mi (body init)); (seq 0 6, T2, k_mi (body (body init)))]).
    { destruct (body_parts eig cloud6 cloud6 ones6 v0 v0 10 None false (body init)) as (? & ? & ? & ? & ? & ? & _ & _ & _ & _ & _ & E).
      rewrite E. cbn [k_trace k_mi]. rewrite T1, P1. eexists. reflexivity. }
    destruct T2 as (TT2 & T2).
    assert (H2 := proj2 (proj2 (proj2 K2)) [(seq 0 6, TT, k_mi (body init))] _ [] T2).
    destruct (step6 _ _ _ H2) as (Q2 & S2' & Rest).
    assert (E2 : k_err (body (body init)) = Fin 0).
    { destruct (proj1 (proj2 (proj2 K2))) as [(F & _)|(bf & e & F & _ & q0 & s0 & q & s & Hp & _ & _ & Mq & Ms & He)].
      - rewrite T2 in F. discriminate.
      - rewrite T2 in F. change ([(seq 0 6, TT, k_mi (body init)); (seq 0 6, TT2, k_mi (body (body init)))]) with
          ([(seq 0 6, TT, k_mi (body init))] ++ [(seq 0 6, TT2, k_mi (body (body init)))]) in F.
        apply app_inj_tail in F. destruct F as [<- _].
        destruct Hp as [(F & _)|(bf' & e' & F' & Hq & Hs)]; [discriminate|].
        change ([(seq 0 6, TT, k_mi (body init))]) with (nil ++ [(seq 0 6, TT, k_mi (body init))]) in F'.
        apply app_inj_tail in F'. destruct F' as [_ <-]. cbn [snd] in Hq, Hs.
        rewrite Q1 in Hq. rewrite S1' in Hs. injection Hq as <-. injection Hs as <-.
        rewrite Q2 in Mq. rewrite S2' in Ms. injection Mq as <-. injection Ms as <-. rewrite He. f_equal. replace (2/3 - 2/3) with 0 by ring. replace (1/3 - 1/3) with 0 by ring.
        rewrite Rabs_R0. unfold Rdiv. rewrite !Rmult_0_l. apply Rmax_left. lra. }
    exists (k_mi (body (body init))), (k_trace (body (body init))). split.
    - unfold katz. cbn [katz_loop].
      rewrite E0, I0, N0. cbn [xltb]. destruct (Rlt_dec (1/100) 1); [|lra].
      change (100 <? 1)%Z with false. change (Z.of_nat 6 <? 1)%Z with false. cbv iota. rewrite D0.
      rewrite E1, I1, N1. cbn [xltb]. destruct (Rlt_dec (1/100) (2/3)); [|lra].
      change (100 <? 2)%Z with false. change (Z.of_nat 6 <? 1)%Z with false. cbv iota. rewrite D1.
      destruct f; cbn [katz_loop]; rewrite E2; cbn [xltb]; (destruct (Rlt_dec (1/100) 0); [lra|reflexivity]).
    - split; auto. split; auto. destruct Rest as (Md & Rest). split; auto. split; auto. rewrite T2. reflexivity.
  Qed.

  (** *** Particles in a plane, d = 10. *)
  Lemma flat_sel : sel_rule flat5 v0 10 None [] = [0;1;2;3]%nat.
  Proof.
    unfold sel_rule. cbn [rev length flat5 seq filter nth]. unfold in_sphere, dist2, v0. cbn [vx vy vz].
    repeat (destruct Rlt_dec; try lra). reflexivity.
  Qed.
  Lemma flat_plane : coplanar flat5 ones5 v0 [0;1;2;3]%nat.
  Proof.
    exists (mkV 0 0 1). split; [unfold ip; cbn; ring|].
    intros k [<-|[<-|[<-|[<-|[]]]]] _; unfold ip, vsub, v0; cbn; ring.
  Qed.
  Lemma run_flat f : katz eig flat5 flat5 ones5 v0 v0 10 None (1/100) 100 1 false (S f) mi0 = Some (ZeroDivision, []).
  Proof.
    apply first_raises; auto; try lra; try lia; [apply good5|rewrite flat_sel; cbn; lia|].
    right. right. rewrite flat_sel. apply flat_plane.
  Qed.
End Runs.
