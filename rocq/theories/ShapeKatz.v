(** Invariant of the iterative shape determination. *)
From Coq Require Import List Reals ZArith Lra Lia Bool Arith.
From Verif Require Import ListUtil XR GeoModel GeoSpec GeoProofs ShapeModel ShapeSpec ShapeProofs.
Import ListNotations.
Open Scope R_scope.

(** ** Orthonormal frames determine a vector *)
Definition det3 (a b c : vec) : R :=
  vx a * (vy b * vz c - vz b * vy c) - vy a * (vx b * vz c - vz b * vx c) + vz a * (vx b * vy c - vy b * vx c).

Lemma det3_gram a b c : det3 a b c * det3 a b c =
  ip a a * (ip b b * ip c c - ip b c * ip b c) - ip a b * (ip a b * ip c c - ip b c * ip a c)
  + ip a c * (ip a b * ip b c - ip b b * ip a c).
Proof. unfold det3, ip. ring. Qed.

Lemma frame_zero a b c v : orthonormal a b c -> ip a v = 0 -> ip b v = 0 -> ip c v = 0 -> v = v0.
Proof.
  intros (A & B & C & D & E & F) Ha Hb Hc.
  assert (G : det3 a b c * det3 a b c = 1) by (rewrite det3_gram, A, B, C, D, E, F; ring).
  assert (X : det3 a b c * vx v = 0).
  { transitivity (ip a v * (vy b * vz c - vz b * vy c) - ip b v * (vy a * vz c - vz a * vy c)
                  + ip c v * (vy a * vz b - vz a * vy b)).
    - unfold det3, ip. ring.
    - rewrite Ha, Hb, Hc. ring. }
  assert (Y : det3 a b c * vy v = 0).
  { transitivity (- ip a v * (vx b * vz c - vz b * vx c) + ip b v * (vx a * vz c - vz a * vx c)
                  - ip c v * (vx a * vz b - vz a * vx b)).
    - unfold det3, ip. ring.
    - rewrite Ha, Hb, Hc. ring. }
  assert (Z : det3 a b c * vz v = 0).
  { transitivity (ip a v * (vx b * vy c - vy b * vx c) - ip b v * (vx a * vy c - vy a * vx c)
                  + ip c v * (vx a * vy b - vy a * vx b)).
    - unfold det3, ip. ring.
    - rewrite Ha, Hb, Hc. ring. }
  destruct v as [x y z]. cbn [vx vy vz] in *.
  assert (det3 a b c <> 0) by (intros Q; rewrite Q in G; lra).
  unfold v0. f_equal.
  - apply Rmult_integral in X. tauto.
  - apply Rmult_integral in Y. tauto.
  - apply Rmult_integral in Z. tauto.
Qed.

Lemma sub_zero p c : vsub p c = v0 -> p = c.
Proof.
  destruct p, c. unfold vsub, v0. cbn. intros H. injection H as H1 H2 H3. f_equal; lra.
Qed.

Lemma total_zero {X} (f : X -> R) l : (forall x, In x l -> 0 <= f x) -> total f l = 0 -> forall x, In x l -> f x = 0.
Proof.
  induction l as [|a l IH]; intros Hf H x Hx; [destruct Hx|]. cbn [total] in H.
  assert (0 <= f a) by (apply Hf; left; auto).
  assert (0 <= total f l) by (apply total_nonneg; intros; apply Hf; right; auto).
  destruct Hx as [<- |Hx]; [lra|]. apply IH; auto; [intros; apply Hf; right; auto|lra].
Qed.

(** ** Ellipsoidal radii *)
Lemma xdot_fv a v : xdot (fv a) v = Fin (ip a v).
Proof. unfold xdot, fv, ip. cbn. reflexivity. Qed.

Lemma princ_fv mi a b c center p : major mi = fv a -> inter mi = fv b -> minor mi = fv c ->
  princ mi center p = fv (mkV (ip a (vsub p center)) (ip b (vsub p center)) (ip c (vsub p center))).
Proof. intros Ha Hb Hc. unfold princ. rewrite Ha, Hb, Hc, !xdot_fv. reflexivity. Qed.

Lemma ellval_fin q s x : 0 < q -> 0 < s ->
  ellval (Fin q) (Fin s) (fv x) = Fin (vx x * vx x + vy x * vy x / (q * q) + vz x * vz x / (s * s)).
Proof.
  intros Hq Hs. unfold ellval, fv. cbn [xx xy xz xsq xmul].
  rewrite !xdiv_fin by nra. reflexivity.
Qed.

Lemma list_eq_nil_dec {X} (l : list X) : {l = []} + {l <> []}.
Proof. destruct l; [left|right]; congruence. Qed.

Section Katz.
  Variable eig : nat -> list xr -> eigres.
  Variables (xyz ten : list vec) (masses : list R) (center tcenter : vec).
  Variables (d : R) (delta : option R).
  Variables (IT_TOL : R) (IT_WALL IT_MIN : Z) (reduced : bool).
  Notation in_sphere := (in_sphere center d delta).
  Notation in_ell := (in_ell d delta).
  Notation body := (katz_body eig xyz ten masses center tcenter d delta reduced).
  Notation loop := (katz_loop eig xyz ten masses center tcenter d delta IT_TOL IT_WALL IT_MIN reduced).
  Notation init := (katz_init xyz center d delta).
  Notation divisors := (divisors eig xyz ten masses center tcenter d delta reduced).

  Definition ssel (st : kst) : list nat := map (k_buf st) (seq 0 (k_pts st)).
  Lemma ssel_length st : length (ssel st) = k_pts st.
  Proof. unfold ssel. rewrite map_length, seq_length. reflexivity. Qed.

  (** Parts of the state after one pass. *)
  Lemma body_parts st : exists e q s buf pts mi,
    e = eig (Z.to_nat (k_it st)) (freeze (calcShapeTensor ten (k_buf st) masses tcenter (k_pts st) reduced (k_rell st))) /\
    q = xsqrt (xdiv (ev1 e) (ev2 e)) /\ s = xsqrt (xdiv (ev0 e) (ev2 e)) /\
    mi = mkM (Fin d) q s (normed (w2 e)) (normed (w1 e)) (normed (w0 e)) /\
    compact (fun i => in_ell q s (nth i (map (princ mi center) xyz) x0)) (length xyz) = (buf, pts) /\
    body st = mkK (cmax (xdiv (cython_abs (xsub q (k_q st))) (k_q st)) (xdiv (cython_abs (xsub s (k_s st))) (k_s st)))
                  q s (k_it st + 1) buf pts (map (fun x => xsqrt (ellval q s x)) (map (princ mi center) xyz)) mi
                  (k_trace st ++ [(ssel st, freeze (calcShapeTensor ten (k_buf st) masses tcenter (k_pts st) reduced (k_rell st)), mi)]).
  Proof.
    unfold katz_body. match goal with |- context [eig ?n ?T] => set (e := eig n T) end.
    set (q := xsqrt (xdiv (ev1 e) (ev2 e))). set (s := xsqrt (xdiv (ev0 e) (ev2 e))).
    set (mi := mkM (Fin d) q s (normed (w2 e)) (normed (w1 e)) (normed (w0 e))).
    destruct (compact (fun i => in_ell q s (nth i (map (princ mi center) xyz) x0)) (length xyz)) as [buf pts] eqn:E.
    exists e, q, s, buf, pts, mi. cbv zeta. repeat split; auto.
  Qed.

  Lemma body_it st : k_it (body st) = (k_it st + 1)%Z.
  Proof. destruct (body_parts st) as (e & q & s & buf & pts & mi & _ & _ & _ & _ & _ & ->). reflexivity. Qed.
  Lemma body_trace_length st : length (k_trace (body st)) = S (length (k_trace st)).
  Proof.
    destruct (body_parts st) as (e & q & s & buf & pts & mi & _ & _ & _ & _ & _ & ->). cbn [k_trace].
    rewrite app_length. simpl. lia.
  Qed.

  (** *** Termination *)
  Lemma loop_terminates fuel : forall st, (Z.to_nat (IT_WALL - k_it st + 1) <= fuel)%nat ->
    exists r, loop fuel st = Some r.
  Proof.
    induction fuel as [|fuel IH]; intros st Hf; cbn [katz_loop];
      destruct xltb; [|eauto| |eauto]; (destruct (Z.ltb_spec IT_WALL (k_it st)); [eauto|]).
    - lia.
    - destruct Z.ltb; [eauto|]. destruct existsb; [eauto|]. apply IH. rewrite body_it. lia.
  Qed.

  (** *** Facts that need no contract: number of steps, particles used, selections *)
  Definition sel_rule (tr : steps) : list nat :=
    filter (fun i => match rev tr with
                     | [] => in_sphere (nth i xyz v0)
                     | e :: _ => in_ell (mq (snd e)) (ms (snd e)) (princ (snd e) center (nth i xyz v0))
                     end) (seq 0 (length xyz)).
  Definition selections (tr : steps) : Prop :=
    forall pre e post, tr = pre ++ e :: post -> fst (fst e) = sel_rule pre /\ (IT_MIN <= Z.of_nat (length (fst (fst e))))%Z.

  Definition sinv (st : kst) : Prop :=
    Z.of_nat (length (k_trace st)) = (k_it st - 1)%Z /\ ssel st = sel_rule (k_trace st) /\ selections (k_trace st) /\
    (k_it st <= Z.max 1 (IT_WALL + 1))%Z.

  Lemma sinv_init mi0 : sinv (init mi0).
  Proof.
    unfold katz_init. destruct (compact (fun i => in_sphere (nth i xyz v0)) (length xyz)) as [buf pts] eqn:E.
    apply compact_ok in E. destruct E as [E _]. split; [reflexivity|]. split; [exact E|]. split.
    - intros pre e post H. cbn in H. destruct pre; discriminate.
    - cbn. lia.
  Qed.

  Lemma sinv_body st : sinv st -> (k_it st <= IT_WALL)%Z -> (IT_MIN <= Z.of_nat (k_pts st))%Z -> sinv (body st).
  Proof.
    intros (H1 & H2 & H3 & H4) Hw Hm.
    destruct (body_parts st) as (e & q & s & buf & pts & mi & _ & _ & _ & Hmi & Hc & ->).
    apply compact_ok in Hc. destruct Hc as [Hc _].
    split; [|split; [|split]]; cbn [k_trace k_it].
    - rewrite app_length. cbn [length]. lia.
    - unfold ssel. cbn [k_buf k_pts]. rewrite Hc. unfold sel_rule. apply filter_ext_in.
      intros i Hi. apply in_seq in Hi. rewrite rev_app_distr. cbn [rev app snd].
      rewrite (nth_indep _ x0 (princ mi center v0)) by (rewrite map_length; lia).
      rewrite map_nth. replace (mq mi) with q by (rewrite Hmi; reflexivity). replace (ms mi) with s by (rewrite Hmi; reflexivity). reflexivity.
    - intros pre f post Hf. destruct (list_eq_nil_dec post) as [-> |Hp].
      + apply app_inj_tail in Hf. destruct Hf as [<- <-]. cbn [fst]. split; [exact H2|].
        rewrite ssel_length. exact Hm.
      + destruct (exists_last Hp) as (post' & g & ->).
        rewrite app_comm_cons, app_assoc in Hf. apply app_inj_tail in Hf. destruct Hf as [Hf _].
        eapply H3; eauto.
    - lia.
  Qed.

  Lemma loop_facts fuel : forall st r tr, sinv st -> loop fuel st = Some (r, tr) ->
    selections tr /\ (length tr <= Z.to_nat IT_WALL)%nat.
  Proof.
    induction fuel as [|fuel IH]; intros st r tr HI H; cbn [katz_loop] in H;
      (assert (HL : (length (k_trace st) <= Z.to_nat IT_WALL)%nat) by (destruct HI as (? & _ & _ & ?); lia));
      (assert (HS : selections (k_trace st)) by apply HI).
    - destruct xltb; [|injection H as <- <-; auto].
      destruct Z.ltb; [injection H as <- <-; auto|]. destruct Z.ltb; [injection H as <- <-; auto|discriminate].
    - destruct xltb; [|injection H as <- <-; auto].
      destruct (Z.ltb_spec IT_WALL (k_it st)); [injection H as <- <-; auto|].
      destruct (Z.ltb_spec (Z.of_nat (k_pts st)) IT_MIN); [injection H as <- <-; auto|].
      destruct existsb; [injection H as <- <-; auto|].
      eapply IH; [|exact H]. apply sinv_body; auto.
  Qed.

  (** *** With the eigensolver's contract *)
  Hypothesis Heig : eig_contract eig.
  Hypothesis Hmass : nonneg xyz masses.

  Notation step_ok := (step_ok xyz ten masses center tcenter d reduced).

  Definition ratios_ok (st : kst) : Prop :=
    exists q s, k_q st = Fin q /\ k_s st = Fin s /\ 0 < s <= q /\ q <= 1 /\ previous (k_trace st) q s.

  Definition rell_ok (st : kst) : Prop := forall k, In k (ssel st) ->
    (k < length xyz)%nat /\
    exists r, nth k (k_rell st) NaN = Fin r /\ rad2 center (k_trace st) (nth k xyz v0) (r * r) /\
      (r = 0 <-> nth k xyz v0 = center).

  (** How the last step's change is reported. *)
  Definition err_ok (st : kst) (before : steps) : Prop :=
    exists q0 s0 q s, previous before q0 s0 /\ 0 < q0 /\ 0 < s0 /\
      mq (k_mi st) = Fin q /\ ms (k_mi st) = Fin s /\
      k_err st = Fin (Rmax (Rabs (q - q0) / q0) (Rabs (s - s0) / s0)).

  Definition last_ok (mi0 : morph) (st : kst) : Prop :=
    (k_trace st = [] /\ k_err st = Fin 1 /\ k_mi st = mi0) \/
    exists before e, k_trace st = before ++ [e] /\ snd e = k_mi st /\ err_ok st before.

  Definition kinv (mi0 : morph) (st : kst) : Prop :=
    ratios_ok st /\ rell_ok st /\ last_ok mi0 st /\
    (forall pre e post, k_trace st = pre ++ e :: post -> step_ok pre e).

  Lemma zero_dist p c : ip (vsub p c) (vsub p c) = 0 <-> p = c.
  Proof.
    split.
    - intros H. apply sub_zero. unfold ip in H. destruct (vsub p c) as [x y z]. cbn in H. unfold v0. f_equal; nra.
    - intros ->. unfold ip, vsub. cbn. ring.
  Qed.

  Lemma kinv_init mi0 : kinv mi0 (init mi0).
  Proof.
    unfold katz_init. destruct (compact (fun i => in_sphere (nth i xyz v0)) (length xyz)) as [buf pts] eqn:E.
    apply compact_ok in E. destruct E as [E _]. split; [|split; [|split]].
    - exists 1, 1. cbn. repeat split; try lra; auto. left. auto.
    - intros k Hk. unfold ssel in Hk. cbn [k_buf k_pts] in Hk. rewrite E in Hk. apply filter_In in Hk.
      destruct Hk as [Hk _]. apply in_seq in Hk. split; [lia|]. cbn [k_rell k_trace].
      set (f := fun p => xsqrt _).
      rewrite (nth_indep _ NaN (f v0)) by (rewrite map_length; lia). rewrite map_nth. unfold f. clear f.
      set (p := nth k xyz v0).
      change (mkX (Fin (vx center - vx p)) (Fin (vy center - vy p)) (Fin (vz center - vz p))) with (fv (vsub center p)).
      rewrite ellval_fin by lra. unfold vsub. cbn [vx vy vz].
      set (v := (_ + _)). assert (Hv : v = ip (vsub p center) (vsub p center)) by (unfold v, ip, vsub; cbn; field).
      assert (Hp : 0 <= v) by (rewrite Hv; unfold ip; nra).
      rewrite xsqrt_fin by auto. exists (sqrt v). split; [reflexivity|]. split.
      + left. split; auto. rewrite sqrt_sqrt; auto.
      + rewrite <- zero_dist, <- Hv. split; [apply sqrt_eq_0; auto|intros ->; apply sqrt_0].
    - left. auto.
    - intros pre e post H. cbn in H. destruct pre; discriminate.
  Qed.

  Lemma cabs_fin x : cython_abs (Fin x) = Fin (Rabs x).
  Proof.
    unfold cython_abs. cbn [xleb xltb]. destruct (Rle_dec 0 x).
    - rewrite Rabs_right by lra. reflexivity.
    - destruct (Rlt_dec x 0); [|lra]. rewrite Rabs_left by lra. reflexivity.
  Qed.

  Lemma cmax_fin a b : cmax (Fin a) (Fin b) = Fin (Rmax a b).
  Proof.
    unfold cmax. cbn [xltb]. destruct (Rlt_dec a b).
    - rewrite Rmax_right by lra. reflexivity.
    - rewrite Rmax_left by lra. reflexivity.
  Qed.

  Lemma xzero_fin x : xzero (Fin x) = true <-> x = 0.
  Proof. unfold xzero. cbn. destruct Req_EM_T; split; congruence. Qed.

  (** The tensor's divisors. *)
  Lemma tensor_divisors_ok st : rell_ok st ->
    existsb xzero (tensor_divisors (k_buf st) masses (k_pts st) reduced (k_rell st)) = true <->
    ssel st <> [] /\ (total (fun k => nth k masses 0) (ssel st) = 0 \/
      (reduced = true /\ exists k, In k (ssel st) /\ nth k xyz v0 = center)).
  Proof.
    intros HL. unfold tensor_divisors. rewrite mass_fold. unfold mtot. change (sel (k_buf st) (k_pts st)) with (ssel st).
    set (M := total _ (ssel st)). rewrite existsb_exists. split.
    - intros (x & Hx & Hz). apply in_map_iff in Hx. destruct Hx as (run & <- & Hr).
      assert (Hk : In (k_buf st run) (ssel st)) by (apply in_map; auto).
      split; [intros E; rewrite E in Hk; destruct Hk|].
      destruct reduced; [|left; apply xzero_fin; auto].
      destruct (HL _ Hk) as (_ & r & E & _ & Hr0). rewrite E in Hz. cbn [xsq xmul] in Hz. apply xzero_fin in Hz.
      apply Rmult_integral in Hz. destruct Hz as [Hz|Hz]; [auto|right]. split; auto. exists (k_buf st run). split; auto.
      apply Hr0. apply Rmult_integral in Hz. tauto.
    - intros (Hne & H). destruct (ssel st) as [|k0 l] eqn:ES; [congruence|].
      assert (Hk0 : In k0 (ssel st)) by (rewrite ES; left; auto).
      destruct reduced eqn:Er.
      + assert (K : exists k, In k (ssel st) /\ (M = 0 \/ nth k xyz v0 = center)).
        { destruct H as [H|(_ & k & A & B)]; [exists k0; auto|exists k; rewrite ES; auto]. }
        destruct K as (k & Hk & Hz). destruct (HL _ Hk) as (_ & r & E & _ & Hr0).
        unfold ssel in Hk. apply in_map_iff in Hk. destruct Hk as (run & Ek & Hr).
        eexists. split; [apply in_map_iff; exists run; split; [reflexivity|exact Hr]|].
        rewrite Ek, E. cbn [xsq xmul]. apply xzero_fin. destruct Hz as [Hz|Hz]; [rewrite Hz; ring|].
        apply Hr0 in Hz. rewrite Hz. ring.
      + destruct H as [H|(F & _)]; [|discriminate].
        unfold ssel in Hk0. apply in_map_iff in Hk0. destruct Hk0 as (run & Ek & Hr).
        eexists. split; [apply in_map_iff; exists run; split; [reflexivity|exact Hr]|]. apply xzero_fin. exact H.
  Qed.

  Notation tensor st := (freeze (calcShapeTensor ten (k_buf st) masses tcenter (k_pts st) reduced (k_rell st))).
  Notation wmom st wt := (moment ten masses tcenter wt (ssel st)).

  (** What the tensor evaluation and the eigensolver give in a pass whose tensor does not raise. *)
  Lemma pass st : rell_ok st ->
    existsb xzero (tensor_divisors (k_buf st) masses (k_pts st) reduced (k_rell st)) = false ->
    exists wt l0 l1 l2 a b c e, weights xyz center reduced (k_trace st) (ssel st) wt /\
      (ssel st <> [] -> 0 < total (fun k => nth k masses 0) (ssel st)) /\
      (forall k, In k (ssel st) -> 0 < wt k) /\ (forall k, In k (ssel st) -> 0 <= nth k masses 0) /\
      tensor st = freeze (fun i j => Fin (wmom st wt i j)) /\
      e = eig (Z.to_nat (k_it st)) (tensor st) /\ ev0 e = Fin l0 /\ ev1 e = Fin l1 /\ ev2 e = Fin l2 /\
      0 <= l0 /\ l0 <= l1 <= l2 /\ orthonormal a b c /\
      eigenvector (wmom st wt) l2 a /\ eigenvector (wmom st wt) l1 b /\ eigenvector (wmom st wt) l0 c /\
      normed (w2 e) = fv a /\ normed (w1 e) = fv b /\ normed (w0 e) = fv c /\
      xzero (xnorm (w2 e)) = false /\ xzero (xnorm (w1 e)) = false /\ xzero (xnorm (w0 e)) = false.
  Proof.
    intros HL HD.
    assert (Hm0 : forall k, In k (ssel st) -> 0 <= nth k masses 0) by (intros k Hk; apply Hmass, HL; auto).
    assert (HD' : ssel st <> [] -> total (fun k => nth k masses 0) (ssel st) <> 0 /\
              (reduced = true -> forall k, In k (ssel st) -> nth k xyz v0 <> center)).
    { intros Hne. apply not_true_iff_false in HD. rewrite tensor_divisors_ok in HD by auto. split.
      - intros E. apply HD. auto.
      - intros Hr k Hk E. apply HD. split; auto. right. eauto. }
    assert (HM : ssel st <> [] -> 0 < total (fun k => nth k masses 0) (ssel st)).
    { intros Hne. apply HD' in Hne. destruct Hne as [Hne _].
      pose proof (total_nonneg (fun k => nth k masses 0) (ssel st) Hm0). lra. }
    assert (Hne' : forall k, In k (ssel st) -> ssel st <> []) by (intros k Hk E; rewrite E in Hk; destruct Hk).
    set (wt := weight reduced (k_rell st)).
    assert (Hwt : weights xyz center reduced (k_trace st) (ssel st) wt).
    { intros k Hk. destruct (HL k Hk) as (Hlt & r & E & Hr & Hr0). unfold wt, weight.
      destruct reduced eqn:Er; auto. rewrite E. exists (r * r). split; auto. split; auto.
      assert (r <> 0). { intros Hz. apply Hr0 in Hz. apply (proj2 (HD' (Hne' k Hk)) eq_refl k Hk Hz). }
      nra. }
    assert (Hw0 : forall k, In k (ssel st) -> 0 < wt k).
    { intros k Hk. specialize (Hwt k Hk). destruct reduced; [|lra]. destruct Hwt as (x & _ & Hx & ->).
      apply Rinv_0_lt_compat; auto. }
    assert (HF : tensor st = freeze (fun i j => Fin (wmom st wt i j))).
    { destruct (list_eq_nil_dec (ssel st)) as [E0|Hne].
      - rewrite E0. pose proof E0 as E1. apply (f_equal (@length nat)) in E1. rewrite ssel_length in E1. cbn in E1.
        apply freeze_ext. intros i j Hi Hj. rewrite E1. rewrite tensor_entry by auto. unfold tsum, sel, moment. cbn.
        f_equal. unfold Rdiv. symmetry. apply Rmult_0_l.
      - apply (tensor_frozen ten (k_buf st) masses tcenter (k_pts st) reduced (k_rell st)).
        + unfold mtot. change (sel (k_buf st) (k_pts st)) with (ssel st). specialize (HM Hne). lra.
        + intros Hr k Hk. change (sel (k_buf st) (k_pts st)) with (ssel st) in Hk.
          destruct (HL k Hk) as (Hlt & r & E & _ & Hr0). exists r. split; auto.
          intros Hz. apply Hr0 in Hz. apply (proj2 (HD' Hne) Hr k Hk Hz). }
    set (h := wmom st wt) in *.
    destruct (Heig (Z.to_nat (k_it st)) h ltac:(intros i j; apply moment_sym with (select := k_buf st) (nb := k_pts st)))
      as (l0 & l1 & l2 & e0 & e1 & e2 & c0 & c1 & c2 & Hl & Hon & He0 & He1 & He2 & Hc0 & Hc1 & Hc2 & Hres).
    rewrite <- HF in Hres. destruct Hon as (N2 & N1 & N0 & N21 & N20 & N10).
    assert (Hev : forall k l v, eigenvector h l v -> eigenvector h l (vscale k v)).
    { intros k l v Hv i Hi. specialize (Hv i Hi). unfold vscale. cbn [vx vy vz].
      replace (coord (mkV (k * vx v) (k * vy v) (k * vz v)) i) with (k * coord v i).
      - transitivity (k * (h i 0%nat * vx v + h i 1%nat * vy v + h i 2%nat * vz v)); [ring|]. rewrite Hv. ring.
      - destruct i as [|[|i]]; reflexivity. }
    assert (Hnorm : forall k v, k <> 0 -> ip v v = 1 -> xzero (xnorm (fv (vscale k v))) = false).
    { intros k v Hk Hv. unfold xnorm, fv, vscale. cbn [xx xy xz xsq xmul xadd vx vy vz].
      replace (k * vx v * (k * vx v) + k * vy v * (k * vy v) + k * vz v * (k * vz v)) with (k * k * ip v v)
        by (unfold ip; ring).
      rewrite Hv, xsqrt_fin by nra. apply not_true_iff_false. rewrite xzero_fin.
      apply Rgt_not_eq, sqrt_lt_R0. nra. }
    assert (Hl0 : 0 <= l0).
    { rewrite <- (eigen_quad h l0 e0 He0 N0). destruct (list_eq_nil_dec (ssel st)) as [E0|Hne].
      - unfold h, quad. rewrite E0. unfold moment. cbn. unfold Rdiv. rewrite !Rmult_0_l. lra.
      - apply quad_nonneg; [|auto]. intros k Hk. apply Rmult_le_pos; auto. left. auto. }
    exists wt, l0, l1, l2, (vscale (sg c2) e2), (vscale (sg c1) e1), (vscale (sg c0) e0), (eig (Z.to_nat (k_it st)) (tensor st)).
    rewrite Hres. cbn [ev0 ev1 ev2 w0 w1 w2]. rewrite !normed_unit, !Hnorm by auto.
    split; auto. split; auto. split; auto. split; auto. split; auto. do 4 (split; auto). split; auto. split; auto.
    split; [apply orthonormal_signs; try (apply sg_sq; auto); repeat split; auto|].
    do 3 (split; auto). repeat split; auto.
  Qed.

  (** The smallest eigenvalue vanishes exactly for particles in a plane. *)
  Lemma plane_zero wt sel l0 l1 l2 a b c :
    (forall k, In k sel -> 0 <= nth k masses 0) -> (forall k, In k sel -> 0 < wt k) ->
    (sel <> [] -> 0 < total (fun k => nth k masses 0) sel) ->
    0 <= l0 -> l0 <= l1 <= l2 -> orthonormal a b c ->
    eigenvector (moment ten masses tcenter wt sel) l2 a -> eigenvector (moment ten masses tcenter wt sel) l1 b ->
    eigenvector (moment ten masses tcenter wt sel) l0 c ->
    l0 = 0 <-> coplanar ten masses tcenter sel.
  Proof.
    intros Hm Hw HM H0 H1 Ho Ha Hb Hc. set (h := moment ten masses tcenter wt sel) in *. split.
    - intros ->. exists c. split; [apply Ho|]. intros k Hk Hmk.
      assert (Hq : quad h c = 0) by (apply eigen_quad; [auto|apply Ho]).
      assert (Hne : sel <> []) by (intros E; rewrite E in Hk; destruct Hk).
      unfold h in Hq. rewrite quad_moment in Hq. unfold Rdiv in Hq. apply Rmult_integral in Hq.
      destruct Hq as [Hq|Hq]; [|pose proof (Rinv_0_lt_compat _ (HM Hne)); lra].
      assert (T := total_zero _ _ ltac:(intros x Hx; apply Rmult_le_pos; [apply Rmult_le_pos; [exact (Hm x Hx)|left; exact (Hw x Hx)]|apply Rle_0_sqr]) Hq k Hk).
      cbn beta in T. specialize (Hw k Hk). apply Rmult_integral in T. destruct T as [T|T].
      + apply Rmult_integral in T. lra.
      + apply Rmult_integral in T. tauto.
    - intros (n & Hn & Hcop).
      assert (Hz : forall i, (i < 3)%nat -> h i 0%nat * vx n + h i 1%nat * vy n + h i 2%nat * vz n = 0).
      { intros i Hi. unfold h, moment, Rdiv.
        set (f := fun i j k => nth k masses 0 * wt k * (coord (nth k ten v0) i - coord tcenter i)
                  * (coord (nth k ten v0) j - coord tcenter j)).
        change (total (f i 0%nat) sel * / total (fun k => nth k masses 0) sel * vx n
          + total (f i 1%nat) sel * / total (fun k => nth k masses 0) sel * vy n
          + total (f i 2%nat) sel * / total (fun k => nth k masses 0) sel * vz n = 0).
        transitivity ((vx n * total (f i 0%nat) sel + vy n * total (f i 1%nat) sel + vz n * total (f i 2%nat) sel)
                      * / total (fun k => nth k masses 0) sel); [ring|].
        rewrite <- !total_scale, <- !total_plus.
        rewrite (total_ext _ (fun _ => 0)); [rewrite total_const; ring|].
        intros k Hk. unfold f. cbn [coord].
        transitivity (nth k masses 0 * (wt k * (coord (nth k ten v0) i - coord tcenter i) * ip n (vsub (nth k ten v0) tcenter))).
        - unfold ip, vsub. cbn [vx vy vz]. ring.
        - destruct (Rlt_dec 0 (nth k masses 0)) as [Hp|Hp]; [rewrite Hcop by auto; ring|].
          assert (E : nth k masses 0 = 0) by (specialize (Hm k Hk); lra). rewrite E. ring. }
      assert (Hsym : forall i j, h i j = h j i).
      { intros i j. unfold h, moment. f_equal. apply total_ext. intros. ring. }
      assert (Hl : forall l v, eigenvector h l v -> l * ip v n = 0).
      { intros l v Hv.
        pose proof (Hv 0%nat ltac:(lia)) as V0. pose proof (Hv 1%nat ltac:(lia)) as V1. pose proof (Hv 2%nat ltac:(lia)) as V2.
        cbn [coord] in V0, V1, V2.
        pose proof (Hz 0%nat ltac:(lia)) as Z0. pose proof (Hz 1%nat ltac:(lia)) as Z1. pose proof (Hz 2%nat ltac:(lia)) as Z2.
        transitivity (vx n * (l * vx v) + vy n * (l * vy v) + vz n * (l * vz v)); [unfold ip; ring|].
        rewrite <- V0, <- V1, <- V2.
        transitivity (vx v * (h 0%nat 0%nat * vx n + h 0%nat 1%nat * vy n + h 0%nat 2%nat * vz n)
          + vy v * (h 1%nat 0%nat * vx n + h 1%nat 1%nat * vy n + h 1%nat 2%nat * vz n)
          + vz v * (h 2%nat 0%nat * vx n + h 2%nat 1%nat * vy n + h 2%nat 2%nat * vz n)).
        - rewrite (Hsym 1%nat 0%nat), (Hsym 2%nat 0%nat), (Hsym 2%nat 1%nat). ring.
        - rewrite Z0, Z1, Z2. ring. }
      destruct (Rlt_dec 0 l0) as [Hp|Hp]; [exfalso|lra].
      assert (n = v0).
      { apply (frame_zero a b c); auto.
        - assert (T := Hl _ _ Ha). apply Rmult_integral in T. destruct T; [lra|auto].
        - assert (T := Hl _ _ Hb). apply Rmult_integral in T. destruct T; [lra|auto].
        - assert (T := Hl _ _ Hc). apply Rmult_integral in T. destruct T; [lra|auto]. }
      subst n. unfold ip, v0 in Hn. cbn in Hn. lra.
  Qed.

  Lemma ratio_pos l0 l1 l2 : 0 < l0 -> l0 <= l1 <= l2 ->
    xsqrt (xdiv (Fin l1) (Fin l2)) = Fin (sqrt (l1 / l2)) /\ xsqrt (xdiv (Fin l0) (Fin l2)) = Fin (sqrt (l0 / l2)) /\
    0 < sqrt (l0 / l2) <= sqrt (l1 / l2) /\ sqrt (l1 / l2) <= 1.
  Proof.
    intros H0 H1. assert (Hi : 0 < / l2) by (apply Rinv_0_lt_compat; lra).
    assert (A : 0 < l0 / l2) by (apply Rmult_lt_0_compat; lra).
    assert (B : l0 / l2 <= l1 / l2) by (apply Rmult_le_compat_r; lra).
    assert (C : l1 / l2 <= 1) by (apply Rmult_le_reg_r with l2; [lra|]; unfold Rdiv; rewrite Rmult_assoc, Rinv_l by lra; lra).
    rewrite !xdiv_fin, !xsqrt_fin by lra. repeat split.
    - apply sqrt_lt_R0. auto.
    - apply sqrt_le_1_alt. auto.
    - rewrite <- sqrt_1 at 1. apply sqrt_le_1_alt. auto.
  Qed.

  (** Division by the smallest axis ratio. *)
  Definition later_divisors (q s : xr) (mi : morph) : list xr :=
    flat_map (fun p =>
      [xsq q; xsq s] ++
      match delta with
      | None => []
      | Some dd =>
          if Req_EM_T d dd then []
          else if xltb (ellval q s (princ mi center p)) (Fin (d * d))
          then [xsq (Fin (d - dd)); xsq (xsub (xmul q (Fin d)) (Fin dd)); xsq (xsub (xmul s (Fin d)) (Fin dd))]
          else []
      end) xyz.
  Lemma divisors_parts st :
    let e := eig (Z.to_nat (k_it st)) (tensor st) in
    let q := xsqrt (xdiv (ev1 e) (ev2 e)) in
    let s := xsqrt (xdiv (ev0 e) (ev2 e)) in
    existsb xzero (divisors st) =
    existsb xzero (tensor_divisors (k_buf st) masses (k_pts st) reduced (k_rell st)) ||
    (xzero (ev2 e) || (xzero (k_q st) || (xzero (k_s st) || (xzero (xnorm (w2 e)) || (xzero (xnorm (w1 e)) ||
      (xzero (xnorm (w0 e)) ||
       existsb xzero (later_divisors q s (mkM (Fin d) q s (normed (w2 e)) (normed (w1 e)) (normed (w0 e)))))))))).
  Proof. cbv zeta. unfold ShapeModel.divisors. rewrite existsb_app. reflexivity. Qed.

  Lemma xsq_zero q : q <> 0 -> xzero (xsq (Fin q)) = false.
  Proof. intros H. apply not_true_iff_false. cbn [xsq xmul]. rewrite xzero_fin. nra. Qed.

  (** When a pass raises. *)
  Lemma raises_trouble mi0 st : kinv mi0 st -> existsb xzero (divisors st) = true ->
    trouble xyz ten masses center tcenter d delta reduced (k_trace st) (ssel st).
  Proof.
    intros (HR & HL & _ & _) Hz. rewrite divisors_parts in Hz.
    destruct (existsb xzero (tensor_divisors (k_buf st) masses (k_pts st) reduced (k_rell st))) eqn:HD.
    { apply tensor_divisors_ok in HD; auto. destruct HD as (_ & [HD|HD]); [left; auto|right; left; auto]. }
    destruct (pass st HL HD) as (wt & l0 & l1 & l2 & a & b & c & e & Hwt & HM & Hw & Hm & HF & Ee & E0 & E1 & E2 & Hl0 & Hl
       & Ho & Ha & Hb & Hc & Na & Nb & Nc & Xa & Xb & Xc).
    rewrite <- Ee in Hz. rewrite Xa, Xb, Xc, E0, E1, E2, Na, Nb, Nc in Hz. cbn [orb] in Hz.
    destruct HR as (q0 & s0 & Eq & Es & Hs & Hq & _).
    assert (Hz0 : forall x, 0 < x -> xzero (Fin x) = false) by (intros x Hx; apply not_true_iff_false; rewrite xzero_fin; lra).
    rewrite Eq, Es, (Hz0 q0), (Hz0 s0) in Hz by lra. cbn [orb] in Hz.
    destruct (Rlt_dec 0 l0) as [Hp|Hp].
    - destruct (ratio_pos l0 l1 l2 Hp Hl) as (Rq & Rs & Hss & Hqq). rewrite Rq, Rs in Hz.
      rewrite Hz0 in Hz by lra. cbn [orb] in Hz.
      set (q := sqrt (l1 / l2)) in *. set (s := sqrt (l0 / l2)) in *.
      apply existsb_exists in Hz. destruct Hz as (x & Hx & Hz). unfold later_divisors in Hx.
      apply in_flat_map in Hx. destruct Hx as (p & Hp' & Hx). apply in_app_or in Hx. destruct Hx as [[<-|[<-|[]]]|Hx].
      + rewrite xsq_zero in Hz by lra. discriminate.
      + rewrite xsq_zero in Hz by lra. discriminate.
      + destruct delta as [dd|] eqn:Ed; [|destruct Hx]. destruct (Req_EM_T d dd) as [E|Hne]; [destruct Hx|].
        destruct xltb; [|destruct Hx].
        right. right. right. exists wt, (mkM (Fin d) (Fin q) (Fin s) (fv a) (fv b) (fv c)), q, s, dd.
        split; [exact Hwt|]. split.
        { exists l0, l1, l2, a, b, c. repeat split; auto; try lra; apply Ho. }
        cbn [mq ms]. split; auto. split; auto. split; auto. split; auto.
        cbn [xmul xsub xadd xneg] in Hx. destruct Hx as [<-|[<-|[<-|[]]]].
        * rewrite xsq_zero in Hz by (apply Rminus_eq_contra; auto). discriminate.
        * left. unfold xsub in Hz. cbn [xsq xmul xadd xneg] in Hz. apply xzero_fin in Hz. apply Rmult_integral in Hz. lra.
        * right. unfold xsub in Hz. cbn [xsq xmul xadd xneg] in Hz. apply xzero_fin in Hz. apply Rmult_integral in Hz. lra.
    - right. right. left. apply (plane_zero wt (ssel st) l0 l1 l2 a b c); auto. lra.
  Qed.

  Lemma trouble_raises mi0 st : kinv mi0 st ->
    total (fun k => nth k masses 0) (ssel st) = 0 \/
    (reduced = true /\ exists k, In k (ssel st) /\ nth k xyz v0 = center) \/
    coplanar ten masses tcenter (ssel st) ->
    existsb xzero (divisors st) = true.
  Proof.
    intros (HR & HL & _ & _) Ht. rewrite divisors_parts.
    destruct (existsb xzero (tensor_divisors (k_buf st) masses (k_pts st) reduced (k_rell st))) eqn:HD; [reflexivity|].
    destruct (pass st HL HD) as (wt & l0 & l1 & l2 & a & b & c & e & Hwt & HM & Hw & Hm & HF & Ee & E0 & E1 & E2 & Hl0 & Hl
       & Ho & Ha & Hb & Hc & Na & Nb & Nc & Xa & Xb & Xc).
    assert (Hcop : coplanar ten masses tcenter (ssel st)).
    { apply not_true_iff_false in HD. rewrite tensor_divisors_ok in HD by auto.
      destruct (list_eq_nil_dec (ssel st)) as [E|Hne].
      - rewrite E. exists (mkV 1 0 0). split; [unfold ip; cbn; ring|]. intros k [].
      - destruct Ht as [Ht|[Ht|Ht]]; auto; exfalso; apply HD; auto. }
    assert (l0 = 0) by (apply (plane_zero wt (ssel st) l0 l1 l2 a b c); auto). subst l0.
    rewrite <- Ee. rewrite Xa, Xb, Xc, E0, E1, E2, Na, Nb, Nc. cbn [orb].
    destruct HR as (q0 & s0 & Eq & Es & Hs & Hq & _).
    destruct (Req_EM_T l2 0) as [->|Hl2].
    { assert (E : xzero (Fin 0) = true) by (apply xzero_fin; auto). rewrite E. reflexivity. }
    destruct (list_eq_nil_dec xyz) as [En|Hne].
    { exfalso. apply Hl2. rewrite <- (eigen_quad _ l2 a Ha ltac:(apply Ho)).
      destruct (ssel st) as [|k l] eqn:Esel.
      - unfold quad, moment. cbn. unfold Rdiv. rewrite !Rmult_0_l. ring.
      - destruct (HL k) as (Hlt & _); [rewrite Esel; left; auto|]. rewrite En in Hlt. cbn in Hlt. lia. }
    assert (Rs : xsqrt (xdiv (Fin 0) (Fin l2)) = Fin 0).
    { rewrite xdiv_fin by auto. unfold Rdiv. rewrite Rmult_0_l, xsqrt_fin by lra. rewrite sqrt_0. reflexivity. }
    rewrite Rs. rewrite !orb_true_iff. do 3 right. apply existsb_exists.
    exists (xsq (Fin 0)). split.
    - unfold later_divisors. apply in_flat_map. destruct xyz as [|p l]; [congruence|]. exists p. split; [left; auto|].
      apply in_or_app. left. right. left. reflexivity.
    - cbn [xsq xmul]. apply xzero_fin. ring.
  Qed.

  Lemma kinv_body mi0 st : kinv mi0 st -> existsb xzero (divisors st) = false -> kinv mi0 (body st).
  Proof.
    intros HI Hz. pose proof HI as (HR & HL & _ & HT).
    assert (Hnc : ~ coplanar ten masses tcenter (ssel st)).
    { intros Hc. assert (F := trouble_raises mi0 st HI ltac:(auto)). congruence. }
    assert (HD : existsb xzero (tensor_divisors (k_buf st) masses (k_pts st) reduced (k_rell st)) = false).
    { rewrite divisors_parts in Hz. apply orb_false_iff in Hz. apply Hz. }
    destruct (pass st HL HD) as (wt & l0 & l1 & l2 & a & b & c & e & Hwt & HM & Hw & Hm & HF & Ee & E0 & E1 & E2 & Hl0 & Hl
       & Ho & Ha & Hb & Hc & Na & Nb & Nc & Xa & Xb & Xc).
    assert (Hp : 0 < l0).
    { destruct (Rlt_dec 0 l0) as [Hp|Hp]; auto. exfalso. apply Hnc.
      apply (plane_zero wt (ssel st) l0 l1 l2 a b c); auto. lra. }
    destruct (ratio_pos l0 l1 l2 Hp Hl) as (Rq & Rs & Hss & Hqq).
    destruct HR as (q0 & s0 & Eq & Es & Hs0 & Hq0 & Hprev).
    destruct (body_parts st) as (e' & q & s & buf & pts & mi & Ee' & Eq' & Es' & Emi & Hcp & ->).
    rewrite <- Ee in Ee'. subst e'. rewrite E1, E2, Rq in Eq'. rewrite E0, E2, Rs in Es'.
    rewrite Na, Nb, Nc in Emi. rewrite HF. clear Rq Rs. remember (sqrt (l1 / l2)) as q1 eqn:Eq1.
    remember (sqrt (l0 / l2)) as s1 eqn:Es1. subst q s.
    apply compact_ok in Hcp. destruct Hcp as [Hcp _].
    assert (Hmaj : major mi = fv a /\ inter mi = fv b /\ minor mi = fv c /\ mq mi = Fin q1 /\ ms mi = Fin s1 /\ md mi = Fin d)
      by (rewrite Emi; auto 10).
    destruct Hmaj as (Ma & Mb & Mc & Mq & Ms & Md).
    assert (Hpr : forall i, (i < length xyz)%nat -> nth i (map (princ mi center) xyz) x0 =
       fv (mkV (ip a (vsub (nth i xyz v0) center)) (ip b (vsub (nth i xyz v0) center)) (ip c (vsub (nth i xyz v0) center)))).
    { intros i Hi. rewrite (nth_indep _ x0 (princ mi center v0)) by (rewrite map_length; auto).
      rewrite map_nth. apply princ_fv; auto. }
    set (h := wmom st wt) in *.
    assert (Hso : step_ok (k_trace st) (ssel st, freeze (fun i j => Fin (h i j)), mi)).
    { exists wt. cbn [fst snd]. split; auto. split; auto.
      exists l0, l1, l2, a, b, c. rewrite <- Eq1, <- Es1. repeat split; try lra; auto; apply Ho. }
    split; [|split; [|split]].
    - exists q1, s1. cbn [k_q k_s k_pts k_trace]. repeat split; try lra; auto.
      right. eexists _, _. split; [reflexivity|]. cbn [snd]. auto.
    - intros k Hk. unfold ssel in Hk. cbn [k_buf k_pts] in Hk. rewrite Hcp in Hk. apply filter_In in Hk.
      destruct Hk as [Hk _]. apply in_seq in Hk. assert (Hlt : (k < length xyz)%nat) by lia.
      split; auto. cbn [k_rell k_trace].
      rewrite (nth_indep _ NaN (xsqrt (ellval (Fin q1) (Fin s1) x0))) by (rewrite !map_length; auto).
      rewrite (map_nth (fun x => xsqrt (ellval (Fin q1) (Fin s1) x))). rewrite Hpr by auto. rewrite ellval_fin by lra.
      cbn [vx vy vz]. set (p := nth k xyz v0). set (va := ip a (vsub p center)). set (vb := ip b (vsub p center)).
      set (vc := ip c (vsub p center)).
      assert (Hb0 : 0 <= vb * vb / (q1 * q1)).
      { apply Rmult_le_pos; [nra|]. left. apply Rinv_0_lt_compat. nra. }
      assert (Hc0' : 0 <= vc * vc / (s1 * s1)).
      { apply Rmult_le_pos; [nra|]. left. apply Rinv_0_lt_compat. nra. }
      rewrite xsqrt_fin by nra. eexists. split; [reflexivity|].
      rewrite sqrt_sqrt by nra. split.
      + right. exists (k_trace st), (ssel st, freeze (fun i j => Fin (h i j)), mi), q1, s1, a, b, c.
        cbn [snd]. repeat split; auto.
      + split.
        * intros Hzz. apply sqrt_eq_0 in Hzz; [|nra].
          assert (va = 0) by nra.
          assert (Hvb : vb * vb / (q1 * q1) = 0) by nra. assert (Hvc : vc * vc / (s1 * s1) = 0) by nra.
          assert (D : forall x y, 0 < y -> x * x / (y * y) = 0 -> x = 0).
          { intros x y Hy Hxy. assert (x * x = 0); [|nra].
            replace (x * x) with (x * x / (y * y) * (y * y)) by (field; lra). rewrite Hxy. ring. }
          apply D in Hvb; [|lra]. apply D in Hvc; [|lra].
          apply sub_zero. apply (frame_zero a b c); auto.
        * intros Hpc. assert (Z : forall v, ip v (vsub p center) = 0).
          { intros v. rewrite Hpc. unfold ip, vsub. cbn. ring. }
          unfold va, vb, vc. rewrite !Z. unfold Rdiv. rewrite !Rmult_0_l, !Rplus_0_l. apply sqrt_0.
    - right. eexists _, _. cbn [k_trace k_mi]. split; [reflexivity|]. split; [reflexivity|].
      exists q0, s0, q1, s1. split; auto. split; [lra|]. split; [lra|]. cbn [k_err k_mi]. split; auto. split; auto.
      rewrite Eq, Es, !xsub_fin, !cabs_fin, !xdiv_fin by lra. apply cmax_fin.
    - cbn [k_trace]. intros pre f post Hf. destruct (list_eq_nil_dec post) as [-> |Hpo].
      + apply app_inj_tail in Hf. destruct Hf as [<- <-]. exact Hso.
      + destruct (exists_last Hpo) as (post' & g & ->).
        rewrite app_comm_cons, app_assoc in Hf. apply app_inj_tail in Hf. destruct Hf as [Hf _].
        eapply HT; eauto.
  Qed.

  (** The outcome of a run. *)
  Definition outcome (mi0 : morph) (r : pyres morph) (tr : steps) : Prop :=
    (forall pre e post, tr = pre ++ e :: post -> step_ok pre e) /\
    match r with
    | ZeroDivision => trouble xyz ten masses center tcenter d delta reduced tr (sel_rule tr) /\
                      (IT_MIN <= Z.of_nat (length (sel_rule tr)))%Z
    | Ret mi =>
        mi = zeros \/ (tr = [] /\ mi = mi0 /\ 1 <= IT_TOL) \/
        exists before e q0 s0 q s, tr = before ++ [e] /\ snd e = mi /\ previous before q0 s0 /\ 0 < q0 /\ 0 < s0 /\
          mq mi = Fin q /\ ms mi = Fin s /\ Rabs (q - q0) <= IT_TOL * q0 /\ Rabs (s - s0) <= IT_TOL * s0
    end.

  Lemma exit_outcome mi0 st : kinv mi0 st -> xltb (Fin IT_TOL) (k_err st) = false -> outcome mi0 (Ret (k_mi st)) (k_trace st).
  Proof.
    intros (HR & _ & HLs & HT) He. split; [exact HT|].
    destruct HLs as [(A & B & C)|(before & e & A & B & q0 & s0 & q & s & Hp & Hq & Hs & Mq & Ms & H1)].
    - right. left. rewrite B in He. apply xltb_fin_false in He. auto.
    - right. right. exists before, e, q0, s0, q, s. repeat split; auto.
      + rewrite H1 in He. apply xltb_fin_false in He.
        set (u := Rabs (q - q0)) in *. set (w := Rabs (s - s0)) in *.
        pose proof (Rmax_l (u / q0) (w / s0)). pose proof (Rmax_r (u / q0) (w / s0)).
        replace u with (u / q0 * q0) by (field; lra). apply Rmult_le_compat_r; lra.
      + rewrite H1 in He. apply xltb_fin_false in He.
        set (u := Rabs (q - q0)) in *. set (w := Rabs (s - s0)) in *.
        pose proof (Rmax_l (u / q0) (w / s0)). pose proof (Rmax_r (u / q0) (w / s0)).
        replace w with (w / s0 * s0) by (field; lra). apply Rmult_le_compat_r; lra.
  Qed.

  Lemma loop_outcome mi0 fuel : forall st r tr, kinv mi0 st -> sinv st -> loop fuel st = Some (r, tr) -> outcome mi0 r tr.
  Proof.
    induction fuel as [|fuel IH]; intros st r tr HI HS H; cbn [katz_loop] in H.
    - destruct (xltb (Fin IT_TOL) (k_err st)) eqn:E.
      + assert (Z : outcome mi0 (Ret zeros) (k_trace st)) by (split; [apply HI|left; reflexivity]).
        destruct Z.ltb; [injection H as <- <-; auto|]. destruct Z.ltb; [injection H as <- <-; auto|discriminate].
      + injection H as <- <-. apply exit_outcome; auto.
    - destruct (xltb (Fin IT_TOL) (k_err st)) eqn:E.
      + assert (Z : outcome mi0 (Ret zeros) (k_trace st)) by (split; [apply HI|left; reflexivity]).
        destruct (Z.ltb_spec IT_WALL (k_it st)); [injection H as <- <-; auto|].
        destruct (Z.ltb_spec (Z.of_nat (k_pts st)) IT_MIN) as [Hlt|Hge]; [injection H as <- <-; auto|].
        destruct (existsb xzero (divisors st)) eqn:Hz.
        * injection H as <- <-. split; [apply HI|]. pose proof HS as (_ & ES & _). rewrite <- ES.
          split; [eapply raises_trouble; eauto|]. rewrite ssel_length. exact Hge.
        * eapply IH; [| |exact H]; [apply kinv_body; auto|apply sinv_body; auto].
      + injection H as <- <-. apply exit_outcome; auto.
  Qed.

  (** A first pass over particles in a plane raises. *)
  Lemma first_raises fuel mi0 : IT_TOL < 1 -> (1 <= IT_WALL)%Z ->
    (IT_MIN <= Z.of_nat (length (sel_rule [])))%Z ->
    total (fun k => nth k masses 0) (sel_rule []) = 0 \/
    (reduced = true /\ exists k, In k (sel_rule []) /\ nth k xyz v0 = center) \/
    coplanar ten masses tcenter (sel_rule []) ->
    loop (S fuel) (init mi0) = Some (ZeroDivision, []).
  Proof.
    intros Ht Hw Hm Hc. pose proof (sinv_init mi0) as (_ & ES & _).
    assert (Etr : k_trace (init mi0) = []) by (unfold katz_init; destruct compact; reflexivity).
    assert (Eerr : k_err (init mi0) = Fin 1) by (unfold katz_init; destruct compact; reflexivity).
    assert (Eit : k_it (init mi0) = 1%Z) by (unfold katz_init; destruct compact; reflexivity).
    rewrite Etr in ES. cbn [katz_loop]. rewrite Eerr, Eit. rewrite (proj2 (xltb_fin IT_TOL 1)) by auto.
    destruct (Z.ltb_spec IT_WALL 1); [lia|]. rewrite <- ssel_length, ES.
    destruct (Z.ltb_spec (Z.of_nat (length (sel_rule []))) IT_MIN); [lia|].
    rewrite (trouble_raises mi0 (init mi0) (kinv_init mi0)), Etr; [reflexivity|]. rewrite ES. exact Hc.
  Qed.

  (** Inner semi-axes of the shell after a step that did not raise. *)
  Definition inner_ok (pre : steps) (e : list nat * list xr * morph) : Prop :=
    forall dd q s, delta = Some dd -> d <> dd -> mq (snd e) = Fin q -> ms (snd e) = Fin s ->
    (exists p x, In p xyz /\ rad2 center (pre ++ [e]) p x /\ x < d * d) -> q * d <> dd /\ s * d <> dd.
  Definition dinv (st : kst) : Prop := forall pre e post, k_trace st = pre ++ e :: post -> inner_ok pre e.

  Lemma fv_inj u v : fv u = fv v -> u = v.
  Proof. destruct u, v. unfold fv. cbn. congruence. Qed.

  Lemma dinv_init mi0 : dinv (init mi0).
  Proof.
    intros pre e post H. unfold katz_init in H. destruct compact. cbn in H. destruct pre; discriminate.
  Qed.

  Lemma dinv_body mi0 st : kinv mi0 st -> dinv st -> existsb xzero (divisors st) = false -> dinv (body st).
  Proof.
    intros HK HD Hz. pose proof (kinv_body mi0 st HK Hz) as (_ & _ & _ & HT).
    rewrite divisors_parts in Hz. rewrite !orb_false_iff in Hz. destruct Hz as (_ & _ & _ & _ & _ & _ & _ & Hz).
    destruct (body_parts st) as (e & q & s & buf & pts & mi & Ee & Eq' & Es' & Emi & Hcp & Eb).
    rewrite Eb in *. cbn [k_trace] in HT. rewrite <- Ee, <- Eq', <- Es', <- Emi in Hz.
    intros pre f post Hf. cbn [k_trace] in Hf. destruct (list_eq_nil_dec post) as [-> |Hpo].
    - pose proof (HT pre f [] Hf) as (wt & _ & _ & (l0 & l1 & l2 & a & b & c & Hl & Hl' & Ho & _ & _ & _ & Ma & Mb & Mc & _ & Mq & Ms)).
      apply app_inj_tail in Hf. destruct Hf as [<- <-]. cbn [snd] in *.
      intros dd q1 s1 Ed Hne Hq1 Hs1 (p & x & Hp & Hr & Hx). cbn [snd] in *.
      destruct (ratio_pos l0 l1 l2 Hl Hl') as (_ & _ & Hss & Hqq).
      rewrite Mq in Hq1. rewrite Ms in Hs1. injection Hq1 as Hq1. injection Hs1 as Hs1. rewrite Hq1 in *. rewrite Hs1 in *.
      destruct Hr as [(F & _)|(tr' & e' & q2 & s2 & a2 & b2 & c2 & F & Mq2 & Ms2 & Ma2 & Mb2 & Mc2 & Hr)];
        [destruct (k_trace st); discriminate|].
      apply app_inj_tail in F. destruct F as [_ <-]. cbn [snd] in *.
      rewrite Mq in Mq2. rewrite Ms in Ms2. injection Mq2 as <-. injection Ms2 as <-.
      rewrite Ma in Ma2. rewrite Mb in Mb2. rewrite Mc in Mc2. apply fv_inj in Ma2, Mb2, Mc2. subst a2 b2 c2.
      assert (Eq2 : q = Fin q1) by (rewrite <- Mq, Emi; reflexivity).
      assert (Es2 : s = Fin s1) by (rewrite <- Ms, Emi; reflexivity).
      assert (Hin : forall y, In y [xsq (Fin (d - dd)); xsq (xsub (xmul q (Fin d)) (Fin dd)); xsq (xsub (xmul s (Fin d)) (Fin dd))] ->
                xzero y = false).
      { intros y Hy. apply not_true_iff_false. intros Hy0. apply (not_true_iff_false (existsb xzero (later_divisors q s mi))); auto.
        apply existsb_exists. exists y. split; auto. unfold later_divisors. apply in_flat_map. exists p. split; auto.
        apply in_or_app. right. rewrite Ed. destruct (Req_EM_T d dd); [contradiction|].
        rewrite (princ_fv mi a b c) by auto. rewrite Eq2, Es2, ellval_fin by lra. cbn [vx vy vz].
        rewrite (proj2 (xltb_fin _ _)); [rewrite <- Eq2, <- Es2; exact Hy|]. rewrite Hr in Hx. exact Hx. }
      assert (H1 := Hin _ (or_intror (or_introl eq_refl))). assert (H2 := Hin _ (or_intror (or_intror (or_introl eq_refl)))).
      rewrite Eq2 in H1. rewrite Es2 in H2. unfold xsub in H1, H2. cbn [xsq xmul xadd xneg] in H1, H2.
      apply not_true_iff_false in H1, H2. rewrite xzero_fin in H1, H2. split; intros F; [apply H1|apply H2]; nra.
    - destruct (exists_last Hpo) as (post' & g & ->).
      rewrite app_comm_cons, app_assoc in Hf. apply app_inj_tail in Hf. destruct Hf as [Hf _]. eapply HD; eauto.
  Qed.

  Lemma loop_inner mi0 fuel : forall st r tr, kinv mi0 st -> dinv st -> loop fuel st = Some (r, tr) ->
    forall pre e post, tr = pre ++ e :: post -> inner_ok pre e.
  Proof.
    induction fuel as [|fuel IH]; intros st r tr HK HD H; cbn [katz_loop] in H.
    - destruct xltb; [|injection H as <- <-; auto].
      destruct Z.ltb; [injection H as <- <-; auto|]. destruct Z.ltb; [injection H as <- <-; auto|discriminate].
    - destruct xltb; [|injection H as <- <-; auto].
      destruct Z.ltb; [injection H as <- <-; auto|]. destruct Z.ltb; [injection H as <- <-; auto|].
      destruct (existsb xzero (divisors st)) eqn:Hz; [injection H as <- <-; auto|].
      eapply IH; [| |exact H]; [apply kinv_body; auto|eapply dinv_body; eauto].
  Qed.

  (** The selection rule of the loop selects the right particles. *)
  Lemma rule_right tr : (forall pre e post, tr = pre ++ e :: post -> step_ok pre e) ->
    (forall pre e post, tr = pre ++ e :: post -> inner_ok pre e) ->
    right_selection xyz center d delta tr (sel_rule tr).
  Proof.
    intros HO HD. split; [unfold sel_rule; eauto|].
    intros k. unfold sel_rule. rewrite filter_In, in_seq. cbn [plus]. set (p := nth k xyz v0).
    destruct (list_eq_nil_dec tr) as [-> |Hne].
    - cbn [rev]. unfold ShapeModel.in_sphere.
      assert (D : dist2 center p = ip (vsub p center) (vsub p center)) by (unfold dist2, ip, vsub; cbn; ring).
      rewrite D. assert (R2 : forall x, rad2 center [] p x <-> x = ip (vsub p center) (vsub p center)).
      { intros x. split; [intros [(_ & ->)|(tr' & e' & q & s & a & b & c & F & _)]; [auto|destruct tr'; discriminate]|left; auto]. }
      assert (OI : forall dd, outside_inner center d dd [] p <-> (d - dd) * (d - dd) <= ip (vsub p center) (vsub p center)).
      { intros dd. split; [intros [(_ & ?)|(tr' & e' & q & s & a & b & c & F & _)]; [auto|destruct tr'; discriminate]|left; auto]. }
      assert (EX : (exists x, rad2 center [] p x /\ x < d * d) <-> ip (vsub p center) (vsub p center) < d * d).
      { split; [intros (x & Hx & Hlt); apply R2 in Hx; subst x; auto|intros Hlt; eexists; split; [apply R2; reflexivity|auto]]. }
      rewrite EX. destruct delta as [dd|].
      + rewrite OI, andb_true_iff.
        destruct (Rlt_dec (ip (vsub p center) (vsub p center)) (d * d)); destruct Rle_dec; intuition (try discriminate; lia).
      + destruct (Rlt_dec (ip (vsub p center) (vsub p center)) (d * d)); intuition (try discriminate; lia).
    - destruct (exists_last Hne) as (tr' & e & ->).
      destruct (HO tr' e [] eq_refl) as (wt & _ & _ & (l0 & l1 & l2 & a & b & c & Hl & Hl' & Ho & _ & _ & _ & Ma & Mb & Mc & _ & Mq & Ms)).
      destruct (ratio_pos l0 l1 l2 Hl Hl') as (_ & _ & Hss & Hqq).
      set (q := sqrt (l1 / l2)) in *. set (s := sqrt (l0 / l2)) in *.
      rewrite rev_app_distr. cbn [rev app]. unfold ShapeModel.in_ell. rewrite (princ_fv (snd e) a b c) by auto.
      rewrite Mq, Ms, ellval_fin by lra. cbn [vx vy vz].
      assert (R2 : forall x, rad2 center (tr' ++ [e]) p x <-> x = ellrad2 q s a b c center p).
      { intros x. split.
        - intros [(F & _)|(tr2 & e2 & q2 & s2 & a2 & b2 & c2 & F & Q2 & S2 & A2 & B2 & C2 & ->)]; [destruct tr'; discriminate|].
          apply app_inj_tail in F. destruct F as [_ <-]. rewrite Mq in Q2. rewrite Ms in S2. injection Q2 as <-. injection S2 as <-.
          rewrite Ma in A2. rewrite Mb in B2. rewrite Mc in C2. apply fv_inj in A2, B2, C2. subst. reflexivity.
        - intros ->. right. exists tr', e, q, s, a, b, c. repeat split; auto. }
      assert (EX : (exists x, rad2 center (tr' ++ [e]) p x /\ x < d * d) <-> ellrad2 q s a b c center p < d * d).
      { split; [intros (x & Hx & Hlt); apply R2 in Hx; subst x; auto|intros Hlt; eexists; split; [apply R2; reflexivity|auto]]. }
      rewrite EX, andb_true_iff. change (ip a (vsub p center) * ip a (vsub p center) +
        ip b (vsub p center) * ip b (vsub p center) / (q * q) + ip c (vsub p center) * ip c (vsub p center) / (s * s))
        with (ellrad2 q s a b c center p).
      assert (EL : xltb (Fin (ellrad2 q s a b c center p)) (Fin (d * d)) = true <-> ellrad2 q s a b c center p < d * d) by apply xltb_fin.
      rewrite EL. assert (HA : forall P Q A B : Prop, (P -> (A <-> B)) -> (Q <-> True) -> ((Q /\ P /\ A) <-> (Q /\ P /\ B))) by tauto.
      assert (HK : (0 <= k < length xyz)%nat <-> (k < length xyz)%nat) by lia. rewrite HK.
      destruct (lt_dec k (length xyz)) as [Hk|Hk]; [|tauto].
      destruct (Rlt_dec (ellrad2 q s a b c center p) (d * d)) as [Hin|Hin]; [|tauto].
      assert (Inn : match delta with None => true | Some dd => if Req_EM_T d dd then true
           else xleb (Fin 1) (xadd (xadd (xdiv (xsq (Fin (ip a (vsub p center)))) (xsq (Fin (d - dd))))
                      (xdiv (xsq (Fin (ip b (vsub p center)))) (xsq (xsub (xmul (Fin q) (Fin d)) (Fin dd)))))
                (xdiv (xsq (Fin (ip c (vsub p center)))) (xsq (xsub (xmul (Fin s) (Fin d)) (Fin dd))))) end = true <->
              match delta with None => True | Some dd => outside_inner center d dd (tr' ++ [e]) p end).
      { destruct delta as [dd|] eqn:Ed; [|tauto].
        assert (OI : outside_inner center d dd (tr' ++ [e]) p <-> (d = dd \/
          1 <= ip a (vsub p center) * ip a (vsub p center) / ((d - dd) * (d - dd))
             + ip b (vsub p center) * ip b (vsub p center) / ((q * d - dd) * (q * d - dd))
             + ip c (vsub p center) * ip c (vsub p center) / ((s * d - dd) * (s * d - dd)))).
        { split.
          - intros [(F & _)|(tr2 & e2 & q2 & s2 & a2 & b2 & c2 & F & Q2 & S2 & A2 & B2 & C2 & HI)]; [destruct tr'; discriminate|].
            apply app_inj_tail in F. destruct F as [_ <-]. rewrite Mq in Q2. rewrite Ms in S2.
            injection Q2 as <-. injection S2 as <-. rewrite Ma in A2. rewrite Mb in B2. rewrite Mc in C2.
            apply fv_inj in A2, B2, C2. subst a2 b2 c2. exact HI.
          - intros HI. right. exists tr', e, q, s, a, b, c. repeat (split; auto). }
        rewrite OI. destruct (Req_EM_T d dd) as [Edd|Hnd]; [tauto|].
        destruct (HD tr' e [] eq_refl dd q s Ed Hnd Mq Ms) as (Nq & Ns).
        { exists p, (ellrad2 q s a b c center p). split; [apply nth_In; auto|]. split; [apply R2; reflexivity|auto]. }
        assert (NZ : forall u, u <> 0 -> u * u <> 0) by (intros u Hu; apply Rmult_integral_contrapositive_currified; auto).
        cbn [xmul]. rewrite !xsub_fin. cbn [xsq xmul]. rewrite !xdiv_fin by (apply NZ; lra). cbn [xadd xleb].
        destruct Rle_dec as [l|n]; [tauto|]. split; [discriminate|]. tauto. }
      unfold fv. cbn [xx xy xz vx vy vz]. tauto.
  Qed.

  Lemma loop_selection mi0 fuel r tr : loop fuel (init mi0) = Some (r, tr) ->
    (forall pre e post, tr = pre ++ e :: post -> right_selection xyz center d delta pre (fst (fst e))) /\
    right_selection xyz center d delta tr (sel_rule tr).
  Proof.
    intros H. destruct (loop_facts fuel _ r tr (sinv_init mi0) H) as [HS _].
    destruct (loop_outcome mi0 fuel _ r tr (kinv_init mi0) (sinv_init mi0) H) as (HO & _).
    pose proof (loop_inner mi0 fuel _ r tr (kinv_init mi0) (dinv_init mi0) H) as HD.
    split; [|apply rule_right; auto].
    intros pre e post E. destruct (HS pre e post E) as [-> _]. apply rule_right.
    - intros pre' e' post' E'. apply (HO pre' e' (post' ++ e :: post)). rewrite E, E', <- app_assoc. reflexivity.
    - intros pre' e' post' E'. apply (HD pre' e' (post' ++ e :: post)). rewrite E, E', <- app_assoc. reflexivity.
  Qed.

  Lemma selection_unique before s1 s2 : right_selection xyz center d delta before s1 ->
    right_selection xyz center d delta before s2 -> s1 = s2.
  Proof.
    intros ((f & ->) & H1) ((g & ->) & H2). apply filter_ext_in. intros k Hk.
    assert (E : In k (filter f (seq 0 (length xyz))) <-> In k (filter g (seq 0 (length xyz)))) by (rewrite H1, H2; tauto).
    rewrite !filter_In in E. destruct (f k), (g k); intuition.
  Qed.
End Katz.
