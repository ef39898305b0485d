(** C110: density profiles of objects that are turned, moved and given in other units. *)
From Coq Require Import List Reals ZArith Lra Lia Bool Arith.
From Verif Require Import ListUtil ParModel ParProofs CatMpi XR CatModel GeoModel GeoSpec GeoProofs GeoProps ShapeModel ShapeSpec ShapeProofs
  ShapeKatz ShapePar ShapeExamples ShapeProps ShapeMoveModel ShapeMoveProps SimProofs SimProps DensModel DensSpec DensProofs DensEll DensProps DensMove CenterProps.
Import ListNotations.
Open Scope R_scope.

(** ** Statement *)
(* The box does not split the object (or there is no box). *)
Definition whole (L : R) (o : list ptc) : Prop := L = 0 \/ (0 < L /\ together L o).
(* Every entry of a table of profiles changed by f; exceptions stay as they are. *)
Definition entries {X} (f : X -> X) (r : dout (list (list X))) : dout (list (list X)) :=
  match r with DOk rows => DOk (map (map f) rows) | e => e end.

(** ** Centres and positions *)
Lemma ptc_split (l : list ptc) : combine (map fst l) (map snd l) = l.
Proof. induction l as [|[x m] l IH]; [reflexivity|]. cbn. f_equal. exact IH. Qed.
Lemma whole_both L choose o : whole L o -> o <> [] -> valid_choice choose (length o) ->
  respectPBCNoRef choose (map fst o) L = map fst o /\ seen L o = o.
Proof.
  intros [->|[HL Ht]] Hne Hv; [|apply together_respect; auto]. split.
  - unfold respectPBCNoRef. destruct Req_EM_T; [reflexivity|congruence].
  - apply seen_unmoved. unfold unmoved, cy_respectPBCNoRef. destruct Req_EM_T; [reflexivity|congruence].
Qed.
Lemma simp_length Q k mu t o : length (simp Q k mu t o) = length o.
Proof. apply map_length. Qed.
Lemma com_choice ch ch' ps : mass ps <> 0 -> calcCoM ch ps = calcCoM ch' ps.
Proof. intros H. apply vec_ext. intros ax Hax. rewrite !com_mean by auto. reflexivity. Qed.
Lemma center_dens fuel kind ch ch' L L' o Q k mu t :
  is_turn Q -> 0 < k -> 0 < mu -> (kind = CMode -> k = 1) -> whole L o -> whole L' (simp Q k mu t o) -> o <> [] ->
  valid_choice ch (length o) -> valid_choice ch' (length o) -> (forall q, In q o -> 0 < snd q) ->
  center_of fuel kind ch' 1000 L' (simp Q k mu t o) = option_map (sim_vec Q k t) (center_of fuel kind ch 1000 L o).
Proof.
  intros HQ Hk Hmu HK Hw Hw' Hne Hv Hv' Hp.
  destruct (whole_both L ch o Hw Hne Hv) as (A & _).
  destruct (whole_both L' ch' (simp Q k mu t o) Hw') as (A' & _); [destruct o; [congruence|discriminate]|now rewrite simp_length|].
  unfold center_of. rewrite A, A', !ptc_split. destruct kind.
  - specialize (HK eq_refl). subst k. rewrite <- (Rmult_1_l 1000) at 1. apply mode_sim; auto.
  - cbn [option_map]. f_equal.
    assert (M : mass o <> 0) by (apply Rgt_not_eq, total_pos; auto).
    rewrite (com_choice ch' ch) by (rewrite mass_sim; apply Rmult_integral_contrapositive_currified; lra).
    apply com_sim; auto; lra.
Qed.

(** ** Spherical shells *)
Lemma sqdist_ip a b : sqdist a b = ip (vsub a b) (vsub a b).
Proof. unfold sqdist, ip, vsub. cbn [vx vy vz]. ring. Qed.
Lemma sqdist_sim Q k t a b : is_turn Q -> sqdist (sim_vec Q k t a) (sim_vec Q k t b) = k * k * sqdist a b.
Proof. intros HQ. rewrite !sqdist_ip, sim_sub, ip_scale, ip_scale_r, turn_ip by auto. ring. Qed.
Lemma ltb_scale c a b : 0 < c -> Rltb (c * a) (c * b) = Rltb a b.
Proof. intros Hc. unfold Rltb. destruct (Rlt_dec (c * a) (c * b)), (Rlt_dec a b); try reflexivity; exfalso; nra. Qed.
Lemma leb_scale c a b : 0 < c -> Rleb (c * a) (c * b) = Rleb a b.
Proof. intros Hc. unfold Rleb. destruct (Rle_dec (c * a) (c * b)), (Rle_dec a b); try reflexivity; exfalso; nra. Qed.
Lemma in_shell_sim Q k t c r200 lo hi p : is_turn Q -> 0 < k ->
  in_shell (sim_vec Q k t c) (k * r200) lo hi (sim_vec Q k t p) = in_shell c r200 lo hi p.
Proof.
  intros HQ Hk. unfold in_shell. rewrite sqdist_sim by auto.
  replace (hi * (k * r200) * (hi * (k * r200))) with (k * k * (hi * r200 * (hi * r200))) by ring.
  replace (lo * (k * r200) * (lo * (k * r200))) with (k * k * (lo * r200 * (lo * r200))) by ring.
  rewrite ltb_scale, leb_scale by nra. reflexivity.
Qed.
Lemma sph_value_sim Q k mu t ps c r200 edges i : is_turn Q -> 0 < k ->
  sph_value (simp Q k mu t ps) (sim_vec Q k t c) (k * r200) edges i = mu / k ^ 3 * sph_value ps c r200 edges i.
Proof.
  intros HQ Hk. unfold sph_value, simp. rewrite total_map. cbn [fst snd].
  replace (shell_volume (k * r200) (nth i edges 0) (nth (S i) edges 0)) with (k ^ 3 * shell_volume r200 (nth i edges 0) (nth (S i) edges 0)) by (unfold shell_volume; ring).
  match goal with |- ?a / _ = _ * (?b / _) => replace a with (mu * b) end.
  - unfold Rdiv. rewrite Rinv_mult. ring.
  - rewrite <- total_scale. apply total_ext. intros q _. rewrite in_shell_sim by auto. destruct in_shell; ring.
Qed.

(** ** Kernel *)
Lemma width_sim k r200 d : 0 < k -> width (k * r200) (k * d) = k * width r200 d.
Proof.
  intros Hk. unfold width. replace (k * d / (1 / 10 * (k * r200))) with (d / (1 / 10 * r200)).
  - ring.
  - unfold Rdiv. rewrite (Rinv_mult _ (k * r200)), (Rinv_mult k), (Rinv_mult _ r200).
    replace (k * d * (/ (1 * / 10) * (/ k * / r200))) with (k * / k * (d * (/ (1 * / 10) * / r200))) by ring.
    rewrite Rinv_r by lra. ring.
Qed.

Definition ret_map (f : xr -> xr) (x : pyres xr) : pyres xr := match x with Ret a => Ret (f a) | _ => ZeroDivision end.
Lemma ktilde_sim k r d h : 0 < k -> calcKTilde (k * r) (k * d) (k * h) = calcKTilde r d h.
Proof.
  intros Hk. unfold calcKTilde.
  destruct (Req_EM_T (k * h * (k * h)) 0) as [E|E], (Req_EM_T (h * h) 0) as [F|F]; try reflexivity.
  - exfalso. apply F. replace (k * h * (k * h)) with (k * k * (h * h)) in E by ring. apply Rmult_integral in E. nra.
  - exfalso. apply E. replace (k * h * (k * h)) with (k * k * (h * h)) by ring. rewrite F. ring.
  - assert (Hh : h <> 0) by (intros ->; apply F; ring).
    replace (k * r * (k * d) / (k * h * (k * h))) with (r * d / (h * h)) by (field; lra).
    destruct Req_EM_T; [reflexivity|]. do 3 f_equal.
    replace (- ((k * d - k * r) * (k * d - k * r)) / (2 * (k * h * (k * h)))) with (- ((d - r) * (d - r)) / (2 * (h * h))) by (field; lra).
    replace (- ((k * d + k * r) * (k * d + k * r)) / (2 * (k * h * (k * h)))) with (- ((d + r) * (d + r)) / (2 * (h * h))) by (field; lra).
    reflexivity.
Qed.
Lemma term_sim k mu x r200 d m : 0 < k -> 0 < mu ->
  kernel_term x (k * r200) (k * d) (mu * m) = ret_map (xscale (mu / k ^ 3)) (kernel_term x r200 d m).
Proof.
  intros Hk Hmu. unfold kernel_term. rewrite width_sim by auto. replace (x * (k * r200)) with (k * (x * r200)) by ring.
  rewrite ktilde_sim by auto. set (h := width r200 d). destruct calcKTilde as [K|]; [|reflexivity].
  replace (k * h * (k * h) * (k * h)) with (k ^ 3 * (h * h * h)) by ring. pose proof (pow_lt k 3 Hk) as K3.
  destruct (Req_EM_T (k ^ 3 * (h * h * h)) 0) as [E|E], (Req_EM_T (h * h * h) 0) as [F|F]; try reflexivity.
  - exfalso. apply F. apply Rmult_integral in E. lra.
  - exfalso. apply E. rewrite F. ring.
  - cbn [ret_map]. f_equal. assert (C : 0 < mu / k ^ 3) by (apply Rmult_lt_0_compat; [auto|apply Rinv_0_lt_compat; auto]).
    change (Fin (mu * m)) with (xscale mu (Fin m)). change (Fin (k ^ 3 * (h * h * h))) with (xscale (k ^ 3) (Fin (h * h * h))).
    rewrite xscale_mul_l by auto. replace mu with (k ^ 3 * (mu / k ^ 3)) at 1 by (field; lra).
    rewrite <- xscale_twice, xscale_div, xscale_div_l by auto. reflexivity.
Qed.
Lemma ret_add f a b : (forall x y, xadd (f x) (f y) = f (xadd x y)) -> kernel_add (ret_map f a) (ret_map f b) = ret_map f (kernel_add a b).
Proof. intros H. destruct a, b; cbn; try reflexivity. rewrite H. reflexivity. Qed.
Lemma terms_sim Q k mu t x r200 c ps : is_turn Q -> 0 < k -> 0 < mu ->
  kernel_terms x (k * r200) (sim_vec Q k t c) (simp Q k mu t ps) = ret_map (xscale (mu / k ^ 3)) (kernel_terms x r200 c ps).
Proof.
  intros HQ Hk Hmu. assert (C : 0 < mu / k ^ 3) by (apply Rmult_lt_0_compat; [auto|apply Rinv_0_lt_compat, pow_lt; auto]).
  unfold kernel_terms, simp.
  assert (Z : Ret (Fin 0) = ret_map (xscale (mu / k ^ 3)) (Ret (Fin 0))) by (cbn; do 2 f_equal; ring).
  rewrite Z at 1. clear Z. generalize (Ret (Fin 0)). induction ps as [|q ps IH]; intros a; [reflexivity|].
  cbn [map fold_left fst snd]. rewrite sim_sub, norm_sim, term_sim, ret_add by (auto; intros; apply xscale_add). apply IH.
Qed.
Lemma existsb_same {X} (f g : X -> bool) l : (forall x, f x = g x) -> existsb f l = existsb g l.
Proof. intros H. induction l as [|x l IH]; [reflexivity|]. cbn [existsb]. rewrite H, IH. reflexivity. Qed.
Lemma object_sim Q k mu t rs r200 c L L' o o' r r' : is_turn Q -> 0 < k -> 0 < mu ->
  seen L' o' = simp Q k mu t (seen L o) ->
  kernel_object rs r200 c L o r -> kernel_object rs (k * r200) (sim_vec Q k t c) L' o' r' ->
  r' = match r with DOk row => DOk (map (xscale (mu / k ^ 3)) row) | e => e end.
Proof.
  intros HQ Hk Hmu Hs H H'. apply kernel_object_result in H, H'. cbv zeta in H, H'. fold (seen L o) in H. fold (seen L' o') in H'.
  rewrite Hs in H'.
  rewrite (existsb_same _ (fun x => is_zerodiv (kernel_terms x r200 c (seen L o)))) in H'.
  2:{ intros x. rewrite terms_sim by auto. destruct kernel_terms; reflexivity. }
  rewrite H, H'. destruct existsb eqn:E; [reflexivity|]. f_equal. rewrite map_map. apply map_ext_in. intros x Hx. rewrite terms_sim by auto.
  destruct kernel_terms as [y|] eqn:Ek; [reflexivity|]. exfalso.
  apply (proj2 (not_true_iff_false _)) in E. apply E. apply existsb_exists. exists x. split; auto. rewrite Ek. reflexivity.
Qed.

Section Objects.
  Variables (Q : SimProofs.frame) (k mu : R) (ts : nat -> vec) (fuel : nat) (kind : center_kind) (choose choose' : nat -> list nat) (L L' : R).
  Hypothesis (HQ : is_turn Q) (Hk : 0 < k) (Hmu : 0 < mu).
  (* What is needed of object p. *)
  Definition follows (p : nat) (o o' : list ptc) : Prop :=
    center_of fuel kind (choose' p) 1000 L' o' = option_map (sim_vec Q k (ts p)) (center_of fuel kind (choose p) 1000 L o) /\
    seen L' o' = simp Q k mu (ts p) (seen L o).
  Lemma objects_sim rs objs : forall p objs' r200s r r', length objs' = length objs ->
    (forall i, (i < length objs)%nat -> follows (p + i) (nth i objs []) (nth i objs' [])) ->
    kernel_objects fuel kind choose rs L p objs r200s r ->
    kernel_objects fuel kind choose' rs L' p objs' (map (Rmult k) r200s) r' ->
    r' = entries (xscale (mu / k ^ 3)) r.
  Proof.
    induction objs as [|o objs IH]; intros p [|o' objs'] r200s r r' Hl Hf H H'; try discriminate Hl.
    - inversion H; subst. inversion H'; subst. reflexivity.
    - destruct (Hf 0%nat ltac:(cbn; lia)) as (F1 & F2). cbn [nth] in F1, F2. rewrite Nat.add_0_r in F1, F2.
      assert (HT : tl (map (Rmult k) r200s) = map (Rmult k) (tl r200s)) by (destruct r200s; reflexivity).
      assert (HH : hd 0 (map (Rmult k) r200s) = k * hd 0 r200s) by (destruct r200s; cbn; ring).
      inversion H as [|? ? ? ? C|? ? ? ? c C K|? ? ? ? c row rest C K KR]; subst;
      inversion H' as [|? ? ? ? C'|? ? ? ? c' C' K'|? ? ? ? c' row' rest' C' K' KR']; subst;
        rewrite F1, C in C'; cbn [option_map] in C'; try discriminate; try reflexivity;
        injection C' as <-; rewrite HH in K'; pose proof (object_sim _ _ _ _ _ _ _ _ _ _ _ _ _ HQ Hk Hmu F2 K K') as E; try discriminate E; try reflexivity.
      injection E as ->. rewrite HT in KR'.
      assert (E : rest' = entries (xscale (mu / k ^ 3)) rest).
      { eapply IH; [| |exact KR|exact KR']; [cbn in Hl; lia|]. intros i Hi. specialize (Hf (S i) ltac:(cbn; lia)). cbn [nth] in Hf.
        rewrite Nat.add_succ_r in Hf. exact Hf. }
      rewrite E. destruct rest; reflexivity.
  Qed.
End Objects.

(** ** C110 *)
Theorem C110_partial : forall Q k mu kind fuel choose choose' L L' xyz masses cat xyz' masses' cat' ts r200s rs,
  is_turn Q -> 0 < k -> 0 < mu -> (kind = CMode -> k = 1) -> length cat' = length cat ->
  (forall p, (p < length cat)%nat ->
     let o := ptcs xyz masses (nth p cat []) in let o' := ptcs xyz' masses' (nth p cat' []) in
     o' = map (fun q => (vadd (vscale k (turn Q (fst q))) (ts p), mu * snd q)) o /\ o <> [] /\ whole L o /\ whole L' o' /\
     valid_choice (choose p) (length o) /\ valid_choice (choose' p) (length o) /\ forall q, In q o -> 0 < snd q) ->
  (forall r r',
     calcDensProfsSphDirectBinning fuel kind choose xyz masses r200s rs (concat cat) (map (@length nat) cat) L r ->
     calcDensProfsSphDirectBinning fuel kind choose' xyz' masses' (map (Rmult k) r200s) rs (concat cat') (map (@length nat) cat') L' r' ->
     r' = entries (fun d => mu / k ^ 3 * d) r) /\
  (forall r r',
     calcDensProfsKernelBased fuel kind choose xyz masses r200s rs (concat cat) (map (@length nat) cat) L r ->
     calcDensProfsKernelBased fuel kind choose' xyz' masses' (map (Rmult k) r200s) rs (concat cat') (map (@length nat) cat') L' r' ->
     r' = entries (xscale (mu / k ^ 3)) r).
Proof.
  intros Q k mu kind fuel choose choose' L L' xyz masses cat xyz' masses' cat' ts r200s rs HQ Hk Hmu HK Hlen Hall.
  assert (F : forall p, (p < length cat)%nat -> follows Q k mu ts fuel kind choose choose' L L' p (obj_of xyz masses cat p) (obj_of xyz' masses' cat' p)).
  { intros p Hp. destruct (Hall p Hp) as (E & Hne & Hw & Hw' & Hv & Hv' & Hpos). fold (obj_of xyz masses cat p) in *. fold (obj_of xyz' masses' cat' p) in *.
    change (obj_of xyz' masses' cat' p = simp Q k mu (ts p) (obj_of xyz masses cat p)) in E. rewrite E in *. split.
    - apply center_dens; auto.
    - rewrite (proj2 (whole_both L _ _ Hw Hne Hv)).
      apply (whole_both L' (choose' p)); [auto|intros Z; apply map_eq_nil in Z; auto|now rewrite simp_length]. }
  split; intros r r' H H'.
  - destruct (list_eq_dec (list_eq_dec Nat.eq_dec) cat []) as [->|Hne].
    { destruct cat'; [|discriminate]. cbn [map concat] in H, H'. destruct H; try congruence. destruct H'; try congruence. reflexivity. }
    assert (Hne' : cat' <> []) by (intros ->; destruct cat; [congruence|discriminate]).
    destruct (edges_sph rs) as [edges| | | |] eqn:He; try (unfold edges_sph in He; destruct rs; discriminate).
    2:{ assert (N : forall kd fl ch x m rr (ct : list (list nat)) LL r0, ct <> [] -> calcDensProfsSphDirectBinning fl kd ch x m rr rs (concat ct) (map (@length nat) ct) LL r0 -> r0 = DIndexError).
        { intros kd fl ch x m rr ct LL r0 Hc Hr. assert (map (@length nat) ct <> []) by (destruct ct; [congruence|discriminate]). destruct Hr; congruence. }
        apply N in H; auto. apply N in H'; auto. subst. reflexivity. }
    destruct (sph_driver _ _ _ _ _ _ _ _ _ _ _ H Hne He) as [(-> & p & Hp & C)|(-> & C)];
    destruct (sph_driver _ _ _ _ _ _ _ _ _ _ _ H' Hne' He) as [(-> & p' & Hp' & C')|(-> & C')].
    + reflexivity.
    + exfalso. destruct (C' p ltac:(lia)) as (c & Ec). rewrite (proj1 (F p Hp)), C in Ec. discriminate.
    + exfalso. rewrite Hlen in Hp'. destruct (C p' Hp') as (c & Ec). rewrite (proj1 (F p' Hp')), Ec in C'. discriminate.
    + cbn [entries]. f_equal. rewrite Hlen, map_map. apply map_ext_in. intros p Hp. apply in_seq in Hp. rewrite map_map. apply map_ext. intros i.
      destruct (F p ltac:(lia)) as (F1 & F2). rewrite F1, F2. destruct (C p ltac:(lia)) as (c & ->). cbn [option_map from_some].
      replace (nth p (map (Rmult k) r200s) 0) with (k * nth p r200s 0) by (rewrite <- (Rmult_0_r k) at 2; symmetry; apply map_nth).
      apply sph_value_sim; auto.
  - destruct H as [H|r Hs H]; destruct H' as [H'|r' Hs' H'].
    + reflexivity.
    + exfalso. apply Hs'. destruct cat; [|discriminate]. destruct cat'; [reflexivity|discriminate].
    + exfalso. apply Hs. destruct cat'; [|discriminate]. destruct cat; [reflexivity|discriminate].
    + rewrite parts_concat in H, H'. eapply objects_sim; [exact HQ|auto|auto| | |exact H|exact H']; rewrite ?map_length; auto.
      intros i Hi. rewrite !nth_objs. apply F. exact Hi.
Qed.
Print Assumptions C110_partial.

(** ** Runs exist *)
Lemma sph_runs fuel kind choose xyz masses r200s x rs cat L : cat <> [] ->
  exists r, calcDensProfsSphDirectBinning fuel kind choose xyz masses r200s (x :: rs) (concat cat) (map (@length nat) cat) L r.
Proof.
  intros Hne. assert (map (@length nat) cat <> []) by (destruct cat; [congruence|discriminate]).
  destruct (existsb is_none (obj_centers fuel kind choose L (map (ptcs xyz masses) (parts (concat cat) (map (@length nat) cat))))) eqn:E.
  - eexists. eapply sph_center; [auto|reflexivity|exact E].
  - edestruct (@prange_exists dloc (dval R)) as [m' Hm]. eexists. eapply sph_ok; [auto|reflexivity|exact E|]. econstructor. exact Hm.
Qed.
Lemma kernel_runs fuel kind choose rs L objs : forall p r200s, exists r, kernel_objects fuel kind choose rs L p objs r200s r.
Proof.
  induction objs as [|o objs IH]; intros p r200s; [eexists; constructor|].
  destruct (center_of fuel kind (choose p) 1000 L o) as [c|] eqn:C; [|eexists; apply ko_center; auto].
  edestruct (@prange_exists nat (pyres xr)) as [m' Hm].
  pose proof (kernel_run rs (hd 0 r200s) c L o m' Hm) as K. destruct existsb.
  - eexists. eapply ko_raise; eauto.
  - destruct (IH (S p) (tl r200s)) as (rest & Hr). eexists. eapply ko_ok; eauto.
Qed.

(** ** Other units and the centre by 'mode' *)
Definition upright : SimProofs.frame := (mkV 1 0 0, mkV 0 1 0, mkV 0 0 1).
Lemma upright_turn : is_turn upright.
Proof. unfold is_turn, upright, orthonormal, ip. cbn [vx vy vz]. lra. Qed.
Lemma upright_vec k x : sim_vec upright k v0 x = vscale k x.
Proof. unfold sim_vec, turn, upright, vadd, vscale, v0. cbn [vx vy vz]. f_equal; ring. Qed.
Lemma line_distance x c : distance (on_line x) (on_line c) = Rabs (x - c).
Proof. apply line_norm. Qed.
Definition inner : list R := [/ 10 ^ 8; 45 / 100].
Lemma inner_edges : edges_sph [45 / 100] = DOk inner.
Proof. reflexivity. Qed.
Lemma inner_small : 0 < / 10 ^ 8 < 1 / 100.
Proof. lra. Qed.
Lemma inner_increasing : increasing inner.
Proof. pose proof inner_small. split; [cbn [inner hd]; lra|]. intros [|i] Hi; unfold inner in *; cbn [nth length] in *; [lra|lia]. Qed.
Definition inner_volume : R := ball_volume (45 / 100) - ball_volume (/ 10 ^ 8).
Lemma inner_count c n : 0 < c < 8 / 10 -> (forall e, 0 < e < 1 / 100 ->
    total (fun x => if Rle_dec e (Rabs (x - c)) then if Rlt_dec (Rabs (x - c)) (45 / 100) then 1 else 0 else 0) [0; 1/10; 2/10; 5/10; 7/10; 8/10] = n) ->
  0 < inner_volume /\ sph_value (map pm chain6) (on_line c) 1 inner 0 = n / inner_volume.
Proof.
  intros Hc Hn. destruct (sph_value_mass (map pm chain6) (on_line c) 1 inner 0 ltac:(lra) inner_increasing ltac:(cbn; lia)) as (_ & V & E).
  unfold inner in V, E at 2 3 4 5. cbn [nth] in V, E. rewrite !Rmult_1_r in V, E. split; [exact V|]. rewrite E. unfold inner_volume. f_equal.
  unfold shell_mass. rewrite chain_ptc, total_map. cbn [fst snd]. rewrite <- (Hn _ inner_small). apply total_ext. intros x _.
  rewrite line_distance. reflexivity.
Qed.
Ltac count := intros e He; cbn [total]; unfold Rabs; repeat (destruct Rcase_abs; try lra); repeat (destruct Rle_dec; try lra); repeat (destruct Rlt_dec; try lra).
Lemma inner_five : 0 < inner_volume /\ sph_value (map pm chain6) (on_line (3 / 10)) 1 inner 0 = 5 / inner_volume.
Proof. apply inner_count; [lra|]. count. Qed.
Lemma inner_six : 0 < inner_volume /\ sph_value (map pm chain6) (on_line (23 / 60)) 1 inner 0 = 6 / inner_volume.
Proof. apply inner_count; [lra|]. count. Qed.

Lemma chain_objs : ptcs line6 (repeat 1 6) (seq 0 6) = map pm chain6.
Proof. reflexivity. Qed.
Lemma large_objs : ptcs (map (vscale 1250) line6) (repeat 1 6) (seq 0 6) = simp upright 1250 1 v0 (map pm chain6).
Proof.
  change (seq 0 6) with [0; 1; 2; 3; 4; 5]%nat. unfold ptcs, simp, chain6, pm, line6. cbn [map nth repeat fst snd].
  rewrite !upright_vec, !Rmult_1_l. reflexivity.
Qed.
Lemma chain_whole : whole 100 (map pm chain6).
Proof. right. destruct chain_unsplit as [E|(A & B)]; [lra|]. split; [lra|exact B]. Qed.
Lemma large_whole : whole 125000 (simp upright 1250 1 v0 (map pm chain6)).
Proof.
  right. split; [lra|]. intros q q' ax Hq Hq' Hax. apply Rabs_le.
  assert (B : forall q, In q (simp upright 1250 1 v0 (map pm chain6)) -> 62500 <= ax (fst q) <= 63750).
  { intros x Hx. apply in_map_iff in Hx. destruct Hx as (y & <- & Hy). cbn [fst]. rewrite upright_vec. cbn in Hy. intuition subst; axis Hax; cbn; lra. }
  pose proof (B q Hq). pose proof (B q' Hq'). lra.
Qed.
Lemma chain_pos q : In q (map pm chain6) -> 0 < snd q.
Proof. intros Hq. rewrite chain_ptc in Hq. apply in_map_iff in Hq. destruct Hq as (x & <- & _). cbn. lra. Qed.

(* Six particles of mass 1 in a line, R200 = 1, one bin up to 0.45 R200, centre by 'mode'. In every run that ends the
   bin holds five particles. With all lengths in a unit 1250 times smaller it holds six. *)
Theorem C110_refuted : forall choose choose', valid_choice (choose 0%nat) 6 -> valid_choice (choose' 0%nat) 6 ->
  let run fuel r := calcDensProfsSphDirectBinning fuel CMode choose line6 (repeat 1 6) [1] [45 / 100]
                      (concat [seq 0 6]) (map (@length nat) [seq 0 6]) 100 r in
  let run' fuel r := calcDensProfsSphDirectBinning fuel CMode choose' (map (vscale 1250) line6) (repeat 1 6) [1250 * 1] [45 / 100]
                      (concat [seq 0 6]) (map (@length nat) [seq 0 6]) 125000 r in
  (exists rows, run 50%nat (DOk rows)) /\ (exists rows, run' 50%nat (DOk rows)) /\
  exists d, 0 < d /\
    (forall fuel rows, run fuel (DOk rows) -> rows = [[5 * d]]) /\
    (forall fuel rows, run' fuel (DOk rows) -> rows = [[6 * d / 1250 ^ 3]]).
Proof.
  intros choose choose' Hv Hv' run run'.
  assert (C : forall m, center_of m CMode (choose 0%nat) 1000 100 (map pm chain6) = calcMode m (map pm chain6) 1000).
  { intros m. apply (center_unsplit m CMode); [apply chain_unsplit|discriminate|exact Hv]. }
  assert (C' : forall m, center_of m CMode (choose' 0%nat) 1000 125000 (simp upright 1250 1 v0 (map pm chain6)) =
                         option_map (sim_vec upright 1250 v0) (calcMode m (map pm chain6) (8 / 10))).
  { intros m. unfold center_of. rewrite (proj1 (whole_both 125000 (choose' 0%nat) _ large_whole ltac:(discriminate) Hv')), ptc_split.
    replace 1000 with (1250 * (8 / 10)) by lra. apply mode_sim; try lra; [apply upright_turn|discriminate|apply chain_pos]. }
  assert (D : forall fuel r, run fuel r -> (r = DRecursionError /\ calcMode fuel (map pm chain6) 1000 = None) \/
      (exists c, calcMode fuel (map pm chain6) 1000 = Some c /\ r = DOk [[sph_value (map pm chain6) c 1 inner 0]])).
  { intros fuel r H. destruct (sph_driver _ _ _ _ _ _ _ _ _ _ _ H ltac:(discriminate) inner_edges) as [(-> & p & Hp & N)|(-> & E)].
    - left. split; [reflexivity|]. destruct p; [|cbn in Hp; lia]. unfold obj_of in N. cbn [nth] in N. rewrite chain_objs, C in N. exact N.
    - right. destruct (E 0%nat ltac:(cbn; lia)) as (c & Ec). unfold obj_of in *. cbn [nth] in Ec. rewrite chain_objs, C in Ec. exists c. split; [exact Ec|].
      cbn [length seq map nth]. change (0 :: 1 :: 2 :: 3 :: 4 :: 5 :: nil)%nat with (seq 0 6). rewrite chain_objs, C, Ec. cbn [from_some].
      rewrite (proj2 (whole_both 100 (choose 0%nat) _ chain_whole ltac:(discriminate) Hv)). reflexivity. }
  assert (D' : forall fuel r, run' fuel r -> (r = DRecursionError /\ calcMode fuel (map pm chain6) (8 / 10) = None) \/
      (exists c, calcMode fuel (map pm chain6) (8 / 10) = Some c /\ r = DOk [[1 / 1250 ^ 3 * sph_value (map pm chain6) c 1 inner 0]])).
  { intros fuel r H. destruct (sph_driver _ _ _ _ _ _ _ _ _ _ _ H ltac:(discriminate) inner_edges) as [(-> & p & Hp & N)|(-> & E)].
    - left. split; [reflexivity|]. destruct p; [|cbn in Hp; lia]. unfold obj_of in N. cbn [nth] in N. rewrite large_objs, C' in N.
      destruct calcMode; [discriminate|reflexivity].
    - right. destruct (E 0%nat ltac:(cbn; lia)) as (c & Ec). unfold obj_of in *. cbn [nth] in Ec. rewrite large_objs, C' in Ec.
      destruct (calcMode fuel (map pm chain6) (8 / 10)) as [z|] eqn:Ez; [|discriminate]. exists z. split; [reflexivity|].
      cbn [length seq map nth]. change (0 :: 1 :: 2 :: 3 :: 4 :: 5 :: nil)%nat with (seq 0 6). rewrite large_objs, C', Ez. cbn [option_map from_some].
      rewrite (proj2 (whole_both 125000 (choose' 0%nat) _ large_whole ltac:(discriminate) Hv')).
      rewrite sph_value_sim by (try lra; apply upright_turn). reflexivity. }
  destruct inner_five as (V & E5). destruct inner_six as (_ & E6).
  split; [|split].
  - destruct (sph_runs 50 CMode choose line6 (repeat 1 6) [1] (45 / 100) [] [seq 0 6] 100 ltac:(discriminate)) as (r & H).
    destruct (D _ _ H) as [(_ & N)|(c & _ & E)]; [|rewrite E in H; eexists; exact H].
    exfalso. assert (calcMode 50 (map pm chain6) 1000 = Some (on_line (3 / 10))) by exact (mode_1000 6). congruence.
  - destruct (sph_runs 50 CMode choose' (map (vscale 1250) line6) (repeat 1 6) [1250 * 1] (45 / 100) [] [seq 0 6] 125000 ltac:(discriminate)) as (r & H).
    destruct (D' _ _ H) as [(_ & N)|(c & _ & E)]; [|rewrite E in H; eexists; exact H].
    exfalso. assert (calcMode 50 (map pm chain6) (8 / 10) = Some (on_line (23 / 60))) by exact (mode_extent 45). congruence.
  - exists (/ inner_volume). split; [apply Rinv_0_lt_compat; exact V|]. split; intros fuel rows H.
    + destruct (D _ _ H) as [(N & _)|(c & Ec & E)]; [discriminate|].
      match type of E with _ = DOk ?x => assert (Z : rows = x) by congruence end. rewrite Z.
      rewrite (mode_det _ _ _ _ _ _ Ec (mode_1000 0)), E5. reflexivity.
    + destruct (D' _ _ H) as [(N & _)|(c & Ec & E)]; [discriminate|].
      match type of E with _ = DOk ?x => assert (Z : rows = x) by congruence end. rewrite Z.
      rewrite (mode_det _ _ _ _ _ _ Ec (mode_extent 0)), E6. do 2 f_equal. field. lra.
Qed.
Print Assumptions C110_refuted.
Example C110_refuted_example : valid_choice ((fun _ => seq 0 6) 0%nat) 6.
Proof. exact (choice6 (repeat 0 6) eq_refl). Qed.

(* The hypotheses of C110_partial are met by the same six particles, tilted and with lengths doubled (centre of mass),
   and tilted only (centre by 'mode'); there are runs of both estimators. *)
Example C110_example : forall k L', (k = 1 /\ L' = 100) \/ (k = 2 /\ L' = 200) ->
  let ch := fun _ : nat => seq 0 6 in let o := ptcs line6 (repeat 1 6) (seq 0 6) in
  let o' := map (fun q => (vadd (vscale k (turn tilt (fst q))) (fst tilt_t), 3 * snd q)) o in
  ptcs (map fst o') (map snd o') (seq 0 6) = o' /\ is_turn tilt /\ o <> [] /\ whole 100 o /\ whole L' o' /\
  valid_choice (ch 0%nat) (length o) /\ (forall q, In q o -> 0 < snd q) /\
  (exists r, calcDensProfsSphDirectBinning 50 CMode ch line6 (repeat 1 6) [1] [45 / 100] (concat [seq 0 6]) (map (@length nat) [seq 0 6]) 100 r) /\
  (exists r, calcDensProfsKernelBased 50 CMode ch line6 (repeat 1 6) [1] [45 / 100] (concat [seq 0 6]) (map (@length nat) [seq 0 6]) 100 r).
Proof.
  intros k L' HkL. cbv zeta. split; [reflexivity|]. split; [apply tilt_turn|]. split; [discriminate|]. split; [apply chain_whole|]. split.
  { right. split; [lra|]. intros q q' ax Hq Hq' Hax. apply Rabs_le.
    assert (B : forall q, In q (simp tilt k 3 (fst tilt_t) (map pm chain6)) ->
      ax (sim_vec tilt k (fst tilt_t) (on_line 0)) - 5 <= ax (fst q) <= ax (sim_vec tilt k (fst tilt_t) (on_line 0)) + 5).
    { intros x Hx. apply in_map_iff in Hx. destruct Hx as (y & <- & Hy). cbn [fst]. cbn in Hy.
      intuition subst; unfold sim_vec, turn, tilt, tilt_t, vadd, vscale, on_line; axis Hax; cbn; lra. }
    pose proof (B q Hq). pose proof (B q' Hq'). lra. }
  split; [exact (choice6 (repeat 0 6) eq_refl)|]. split; [apply chain_pos|]. split.
  - apply sph_runs. discriminate.
  - edestruct kernel_runs as (r & Hr). exists r. apply ker_run; [discriminate|exact Hr].
Qed.
