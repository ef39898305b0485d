(** Which particles the shapes at a given radius are taken from: shells of the local profiles. *)
From Coq Require Import List Reals ZArith Lra Lia Bool Arith Permutation.
From Verif Require Import ListUtil ParModel ParProofs XR GeoModel GeoSpec GeoProofs ShapeModel ShapeSpec ShapeProofs ShapeKatz
  ShapePar ShapeFacts Spectral ShapeExamples ShapeProps.
Import ListNotations.
Open Scope R_scope.

(** The i-th radius of the profile of an object. *)
Definition radius (c : kcfg) (r200 : R) (i : nat) : R := r200 * nth i (c_log_d c) 0.

(** [p] lies in the i-th starting region around [center]: the ball up to the i-th radius, without
    (shell profiles) the ball up to the radius before. *)
Definition in_region (c : kcfg) (r200 : R) (center : vec) (i : nat) (p : vec) : Prop :=
  let r2 := ip (vsub p center) (vsub p center) in
  r2 < radius c r200 i * radius c r200 i /\
  (c_shell c = true -> forall j, i = S j -> radius c r200 j * radius c r200 j <= r2).

Lemma collect_nth {X} (l : list (option (pyres X))) r : collect l = Some (Ret r) ->
  length r = length l /\ forall i x, nth_error r i = Some x -> nth_error l i = Some (Some (Ret x)).
Proof.
  intros H. apply collect_spec in H. subst l. split; [rewrite map_length; auto|].
  intros i x Hx. rewrite nth_error_map, Hx. reflexivity.
Qed.

(** The first selection. *)
Lemma init_pts xyz center d delta mi0 :
  k_pts (katz_init xyz center d delta mi0) = length (filter (fun i => in_sphere center d delta (nth i xyz v0)) (seq 0 (length xyz))).
Proof.
  unfold katz_init. destruct compact as [buf pts] eqn:E. cbn [k_pts]. destruct (compact_ok _ _ _ _ E) as (A & _).
  rewrite <- A, map_length, seq_length. reflexivity.
Qed.

Lemma few_zero eig xyz ten masses center tcenter d delta tol wall mn reduced fuel mi0 :
  tol < 1 -> (Z.of_nat (length (filter (fun i => in_sphere center d delta (nth i xyz v0)) (seq 0 (length xyz)))) < mn)%Z ->
  katz eig xyz ten masses center tcenter d delta tol wall mn reduced fuel mi0 = Some (Ret zeros, []).
Proof.
  intros Ht Hm. unfold katz.
  assert (P := init_pts xyz center d delta mi0).
  assert (Er : k_err (katz_init xyz center d delta mi0) = Fin 1) by (unfold katz_init; destruct compact; reflexivity).
  assert (Tr : k_trace (katz_init xyz center d delta mi0) = []) by (unfold katz_init; destruct compact; reflexivity).
  assert (Lt : xltb (Fin tol) (k_err (katz_init xyz center d delta mi0)) = true).
  { rewrite Er. cbn. destruct Rlt_dec; [reflexivity|lra]. }
  assert (Few : (Z.of_nat (k_pts (katz_init xyz center d delta mi0)) <? mn)%Z = true) by (rewrite P; apply Z.ltb_lt; auto).
  destruct fuel; cbn [katz_loop]; rewrite Lt, Few, Tr; match goal with |- (if ?b then _ else _) = _ => destruct b end; reflexivity.
Qed.

Lemma local_rows eig fuel c r200 xyz ten masses center tcenter raws :
  calcObjMorphLocal eig fuel c r200 xyz ten masses center tcenter = Some (Ret raws) ->
  length raws = length (c_log_d c) /\
  forall i mi, nth_error raws i = Some mi -> mi = zeros \/
    exists tr, katz eig xyz ten masses center tcenter (radius c r200 i)
      (if c_shell c then Some (match i with O => radius c r200 i | S j => radius c r200 i - radius c r200 j end) else None)
      (c_tol c) (c_wall c) (c_min c) (c_reduced c) fuel (mkM (Fin (radius c r200 i)) (Fin 0) (Fin 0) x0 x0 x0) = Some (Ret mi, tr).
Proof.
  intros H. unfold calcObjMorphLocal in H.
  assert (Z : Some (Ret (map (fun _ => zeros) (c_log_d c))) = Some (Ret raws) ->
              length raws = length (c_log_d c) /\ forall i mi, nth_error raws i = Some mi -> mi = zeros).
  { intros [= <-]. split; [apply map_length|]. intros i mi Hi. rewrite nth_error_map in Hi.
    destruct (nth_error (c_log_d c) i); [|discriminate]. injection Hi as <-. reflexivity. }
  destruct Req_EM_T; [destruct (Z H) as (A & B); split; [auto|]; intros; left; eapply B; eauto|].
  destruct Req_EM_T; [destruct (Z H) as (A & B); split; [auto|]; intros; left; eapply B; eauto|].
  destruct (collect_nth _ _ H) as (A & B). rewrite map_length, seq_length in A. split; [auto|].
  intros i mi Hi. right. assert (Hl : (i < length (c_log_d c))%nat) by (rewrite <- A; apply nth_error_Some; congruence).
  apply B in Hi. rewrite nth_error_map in Hi.
  assert (Es : nth_error (seq 0 (length (c_log_d c))) i = Some i).
  { rewrite (nth_error_nth' _ 0%nat) by (rewrite seq_length; auto). rewrite seq_nth by auto. reflexivity. }
  rewrite Es in Hi. cbn [option_map] in Hi. cbv zeta in Hi.
  change (r200 * nth i (c_log_d c) 0) with (radius c r200 i) in Hi.
  replace (match i with O => radius c r200 i | S nb' => radius c r200 i - r200 * nth nb' (c_log_d c) 0 end)
    with (match i with O => radius c r200 i | S j => radius c r200 i - radius c r200 j end) in Hi by (destruct i; reflexivity).
  destruct katz as [[m tr]|] eqn:K; [|discriminate]. cbn [option_map fst] in Hi. injection Hi as ->. exists tr. reflexivity.
Qed.

Lemma obj_local vt eig fuel c L o r200 center raws : is_local vt = true ->
  obj_shape eig fuel c L vt o r200 center = Some (Ret raws) ->
  exists ten tc, calcObjMorphLocal eig fuel c r200 (cy_respectPBCNoRef (map pos o) L) ten (map snd o) center tc = Some (Ret raws).
Proof.
  unfold obj_shape. destruct vt; try discriminate; intros _ H; [eauto|]. destruct com_raises; [discriminate|]. eauto.
Qed.

Lemma region_sphere c r200 center i p :
  in_sphere center (radius c r200 i)
    (if c_shell c then Some (match i with O => radius c r200 i | S j => radius c r200 i - radius c r200 j end) else None) p = true
  <-> in_region c r200 center i p.
Proof.
  unfold in_sphere, in_region. cbv zeta.
  assert (E : dist2 center p = ip (vsub p center) (vsub p center)) by (unfold dist2, ip, vsub; cbn; ring).
  rewrite E. set (x := ip (vsub p center) (vsub p center)).
  destruct (c_shell c).
  - rewrite andb_true_iff. destruct Rlt_dec as [Hl|Hl]; [|split; [intros (F & _); discriminate|intros (F & _); lra]].
    split.
    + intros (_ & F). split; auto. intros _ j ->. destruct Rle_dec; [|discriminate].
      replace (radius c r200 (S j) - (radius c r200 (S j) - radius c r200 j)) with (radius c r200 j) in r by ring. lra.
    + intros (_ & F). split; auto. destruct Rle_dec as [|N]; auto. exfalso. apply N. destruct i.
      * replace (radius c r200 0 - radius c r200 0) with 0 by ring. unfold x, ip. nra.
      * replace (radius c r200 (S i) - (radius c r200 (S i) - radius c r200 i)) with (radius c r200 i) by ring. apply F; auto.
  - destruct Rlt_dec; split; intros; try discriminate; auto; try tauto. split; auto. discriminate.
Qed.

(** * C89 *)
(** In a local profile the shape at the i-th radius starts from the particles of the i-th region
    only: if fewer than IT_MIN particles lie there, the entry is NaN throughout - however many
    particles lie further in (shell profiles) or further out. *)
Theorem C89_sparse : forall eig fuel c L vt objs r200 centers r p o rows i x sel,
  is_local vt = true -> c_tol c < 1 ->
  calcMorph eig fuel c L vt objs r200 centers (Ret r) ->
  nth_error objs p = Some o -> nth p (fst r) None = Some rows -> nth_error rows i = Some x ->
  let xyz := cy_respectPBCNoRef (map pos o) L in
  NoDup sel ->
  (forall k, (k < length xyz)%nat -> in_region c (nth p r200 0) (nth p centers v0) i (nth k xyz v0) -> In k sel) ->
  (Z.of_nat (length sel) < c_min c)%Z ->
  all_nan x /\ is_conv x = false.
Proof.
  intros eig fuel c L vt objs r200 centers r p o rows i x sel Hv Ht Hr Ho Hrow Hx xyz Hd Hs Hm.
  destruct (driver_ret _ _ _ _ _ _ _ _ _ Hr p o Ho) as (_ & E & _). rewrite Hrow in E.
  destruct obj_shape as [[raws|]|] eqn:ES; try discriminate. cbn in E. injection E as ->.
  destruct (obj_local _ _ _ _ _ _ _ _ _ Hv ES) as (ten & tc & EL).
  destruct (local_rows _ _ _ _ _ _ _ _ _ _ EL) as (_ & HR).
  rewrite nth_error_map in Hx. destruct (nth_error raws i) as [mi|] eqn:Ei; [|discriminate]. injection Hx as <-.
  assert (mi = zeros).
  { destruct (HR i mi Ei) as [-> |(tr & K)]; [reflexivity|].
    rewrite few_zero in K; [injection K as <- _; reflexivity|auto|].
    eapply Z.le_lt_trans; [|exact Hm]. apply inj_le. apply NoDup_incl_length; [apply NoDup_filter, seq_NoDup|].
    intros k Hk. apply filter_In in Hk. destruct Hk as (Hk & F). apply in_seq in Hk. apply Hs; [unfold xyz; lia|].
    apply region_sphere. exact F. }
  subst mi. assert (A : all_nan (nan_morph zeros)).
  { unfold all_nan, nan_morph, zeros. cbn. unfold nanv, x0. cbn. rewrite !nanz_fin. unfold shown. destruct Req_EM_T; [reflexivity|congruence]. }
  split; [auto|rewrite A; reflexivity].
Qed.
Print Assumptions C89_sparse.

(** A profile has one entry per radius, in order: the i-th entry is NaN throughout or carries the
    i-th radius. *)
Theorem C89_radii : forall eig fuel c L vt objs r200 centers r p o rows,
  is_local vt = true -> eig_contract eig -> c_tol c < 1 ->
  calcMorph eig fuel c L vt objs r200 centers (Ret r) ->
  nth_error objs p = Some o -> good_object o -> nth p (fst r) None = Some rows ->
  length rows = length (c_log_d c) /\
  forall i x, nth_error rows i = Some x -> all_nan x \/
    (is_conv x = true /\ md x = shown (nth p r200 0 * nth i (c_log_d c) 0)).
Proof.
  intros eig fuel c L vt objs r200 centers r p o rows Hv He Ht Hr Ho HG Hrow.
  destruct (driver_ret _ _ _ _ _ _ _ _ _ Hr p o Ho) as (_ & E & _). rewrite Hrow in E.
  destruct obj_shape as [[raws|]|] eqn:ES; try discriminate. cbn in E. injection E as ->.
  destruct (obj_local _ _ _ _ _ _ _ _ _ Hv ES) as (ten & tc & EL).
  destruct (local_rows _ _ _ _ _ _ _ _ _ _ EL) as (HL & HR). split; [rewrite map_length; auto|].
  intros i x Hx. rewrite nth_error_map in Hx. destruct (nth_error raws i) as [mi|] eqn:Ei; [|discriminate]. injection Hx as <-.
  assert (A : all_nan (nan_morph zeros)).
  { unfold all_nan, nan_morph, zeros. cbn. unfold nanv, x0. cbn. rewrite !nanz_fin. unfold shown. destruct Req_EM_T; [reflexivity|congruence]. }
  destruct (HR i mi Ei) as [-> |(tr & K)]; [auto|].
  destruct (C30_partial _ _ _ _ _ _ _ _ _ _ _ _ _ _ _ _ He (good_nonneg L o HG) Ht K)
    as [-> |(Md & q & s & a & b & e & Q & S & Hs & Hq & _)]; [auto|].
  right. unfold nan_morph, is_conv. cbn [md mq]. rewrite Md, Q, !nanz_fin. split; [|reflexivity].
  unfold shown. destruct Req_EM_T; [lra|reflexivity].
Qed.
Print Assumptions C89_radii.

(** The innermost shell reaches down to the centre: it is the ball. *)
Lemma compact_ext f g n : (forall i, f i = g i) -> compact f n = compact g n.
Proof.
  intros H. unfold compact. assert (E : forall l st, fold_left (compact_step f) l st = fold_left (compact_step g) l st).
  { induction l as [|i l IH]; intros st; [reflexivity|]. cbn [fold_left]. rewrite IH. f_equal.
    unfold compact_step. rewrite H. reflexivity. }
  rewrite E. reflexivity.
Qed.
Lemma full_shell eig xyz ten masses center tcenter d tol wall mn reduced fuel mi0 :
  katz eig xyz ten masses center tcenter d (Some d) tol wall mn reduced fuel mi0 =
  katz eig xyz ten masses center tcenter d None tol wall mn reduced fuel mi0.
Proof.
  unfold katz.
  assert (I : katz_init xyz center d (Some d) mi0 = katz_init xyz center d None mi0).
  { unfold katz_init. rewrite (compact_ext _ (fun i => in_sphere center d None (nth i xyz v0))); [reflexivity|].
    intros i. unfold in_sphere. destruct Rlt_dec; [|reflexivity]. destruct Rle_dec as [|N]; [reflexivity|].
    exfalso. apply N. unfold dist2. replace (d - d) with 0 by ring.
    pose proof (Rle_0_sqr (vx center - vx (nth i xyz v0))). pose proof (Rle_0_sqr (vy center - vy (nth i xyz v0))).
    pose proof (Rle_0_sqr (vz center - vz (nth i xyz v0))). unfold Rsqr in *. lra. }
  rewrite I. generalize (katz_init xyz center d None mi0). induction fuel as [|fuel IH]; intros st; [reflexivity|].
  cbn [katz_loop]. destruct xltb; [|reflexivity]. destruct Z.ltb; [reflexivity|]. destruct Z.ltb; [reflexivity|].
  assert (D : divisors eig xyz ten masses center tcenter d (Some d) reduced st = divisors eig xyz ten masses center tcenter d None reduced st).
  { unfold divisors. cbv zeta. f_equal. f_equal. apply flat_map_ext. intros p. destruct Req_EM_T; [reflexivity|congruence]. }
  assert (B : katz_body eig xyz ten masses center tcenter d (Some d) reduced st = katz_body eig xyz ten masses center tcenter d None reduced st).
  { unfold katz_body. cbv zeta. match goal with |- context [compact (fun i => in_ell d (Some d) ?q ?s (nth i ?pr x0)) _] =>
      rewrite (compact_ext (fun i => in_ell d (Some d) q s (nth i pr x0)) (fun i => in_ell d None q s (nth i pr x0))); [reflexivity|] end.
    intros i. unfold in_ell. destruct Req_EM_T; [reflexivity|congruence]. }
  rewrite D, B, IH. reflexivity.
Qed.

(** Two shells up to 10 and 20 around six particles that lie within 3: the first entry has
    q = 2/3 and radius 10, the second, although the ball up to 20 holds all particles, is NaN. *)
Definition cfg2 : kcfg := mkC (1/100) 100 1 false true 0 [1; 2].
Example C89_example : exists r x y,
  calcMorph exact_eig 100 cfg2 0 Local [object cloud6 still6 ones6] [10] [v0] (Ret r) /\
  fst r = [Some [x; y]] /\ mq x = Fin (2/3) /\ md x = Fin 10 /\ all_nan y /\
  (forall k, (k < 6)%nat -> ~ in_region cfg2 10 v0 1 (nth k cloud6 v0)).
Proof.
  destruct (runs_exist exact_eig 100 cfg2 0 Local [object cloud6 still6 ones6] [10] [v0]) as (r & Hr).
  destruct (run6 exact_eig exact_eig_contract (mkM (Fin 10) (Fin 0) (Fin 0) x0 x0 x0) 98) as (mi & tr & H & Q & S & D & _).
  assert (Far : forall k, (k < 6)%nat -> ~ in_region cfg2 10 v0 1 (nth k cloud6 v0)).
  { intros k Hk (_ & F). specialize (F eq_refl 0%nat eq_refl). unfold radius in F. cbn [cfg2 c_log_d nth] in F.
    destruct k as [|[|[|[|[|[|k]]]]]]; try lia; unfold ip, vsub, v0 in F; cbn in F; lra. }
  assert (G := driver_result _ _ _ _ _ _ _ _ _ Hr). cbn [length seq map nth existsb] in G.
  assert (O : obj_shape exact_eig 100 cfg2 0 Local (object cloud6 still6 ones6) 10 v0 = Some (Ret [mi; zeros])).
  { unfold obj_shape, object. cbn [combine map pos vel snd fst cloud6 ones6 still6].
    fold cloud6. fold ones6. rewrite pbc_off. unfold calcObjMorphLocal.
    destruct Req_EM_T as [E|_]; [destruct (spread6 E)|]. destruct Req_EM_T as [E|_]; [lra|].
    cbn [cfg2 c_log_d length seq map c_shell nth c_tol c_wall c_min c_reduced]. rewrite !Rmult_1_r, full_shell, H.
    rewrite few_zero; [reflexivity|lra|].
    cbn [length cloud6]. fold cloud6.
    assert (E : filter (fun i => in_sphere v0 (10 * 2) (Some (10 * 2 - 10)) (nth i cloud6 v0)) (seq 0 6) = []).
    { destruct (filter _ (seq 0 6)) as [|k l] eqn:E; [reflexivity|].
      assert (Hk : In k (filter (fun i => in_sphere v0 (10 * 2) (Some (10 * 2 - 10)) (nth i cloud6 v0)) (seq 0 6))) by (rewrite E; left; auto).
      apply filter_In in Hk. destruct Hk as (Hk & F). apply in_seq in Hk. destruct (Far k); [lia|].
      apply region_sphere. unfold radius. cbn [cfg2 c_log_d c_shell nth]. rewrite Rmult_1_r. exact F. }
    rewrite E. cbn. lia. }
  rewrite O in G. cbn [raised orb entry map] in G. subst r.
  exists ([Some [nan_morph mi; nan_morph zeros]], [getr (fun _ => VR (total snd (object cloud6 still6 ones6))) (SMass 0)]).
  eexists (nan_morph mi), (nan_morph zeros). split; [exact Hr|].
  split; [reflexivity|]. unfold nan_morph at 1 2. cbn [mq md]. rewrite Q, D, !nanz_fin. unfold shown at 1 2.
  split; [destruct Req_EM_T; [lra|reflexivity]|]. split; [destruct Req_EM_T; [lra|reflexivity]|]. split; [|auto].
  unfold all_nan, nan_morph, zeros. cbn. unfold nanv, x0. cbn. rewrite !nanz_fin. unfold shown. destruct Req_EM_T; [reflexivity|congruence].
Qed.

(** * C70 *)
(** Velocity shapes of an object whose particles have no mass: the call raises. *)
Theorem C70_massless : forall eig fuel c L vt objs r200 centers r p o,
  vt = LocalVel \/ vt = GlobalVel ->
  calcMorph eig fuel c L vt objs r200 centers r ->
  nth_error objs p = Some o -> o <> [] -> total snd o = 0 -> r = ZeroDivision.
Proof.
  intros eig fuel c L vt objs r200 centers r p o Hv Hr Ho Hne Hz.
  apply (driver_raise _ _ _ _ _ _ _ _ _ Hr). exists p, o. split; auto.
  assert (C : com_raises (map snd o) = true).
  { unfold com_raises. rewrite map_length. destruct o; [congruence|]. cbn [length Nat.eqb negb andb].
    destruct Req_EM_T as [|N]; [reflexivity|]. exfalso. apply N. rewrite <- Hz, np_sum_total, total_map. reflexivity. }
  unfold obj_shape. destruct Hv as [-> | ->]; rewrite C; reflexivity.
Qed.
Print Assumptions C70_massless.

(** Two particles of mass zero next to a proper object. *)
Example C70_massless_example :
  (exists r, calcMorph exact_eig 100 cfg1 0 GlobalVel [object cloud6 cloud6 ones6; [(v0, v0, 0); (mkV 1 0 0, v0, 0)]] [10; 10] [v0; v0] r) /\
  total snd [(v0, v0, 0); (mkV 1 0 0, v0, 0)] = 0.
Proof. split; [apply runs_exist|cbn; ring]. Qed.
