(** C109: shapes of objects that are turned, enlarged, weighted, moved or given a velocity. *)
From Coq Require Import List Reals ZArith Lra Lia Bool Arith.
From Verif Require Import ListUtil ParModel ParProofs XR CatModel GeoModel GeoSpec GeoProofs GeoProps ShapeModel ShapeSpec ShapeProofs
  ShapeKatz Spectral ShapePar ShapeFacts ShapeExamples ShapeProps EpsModel DensMove ShapeMoveModel ShapeMoveProps CenterProps SimProofs.
Import ListNotations.
Open Scope R_scope.

(** ** Specification *)
(** Turned by Q, enlarged by k, moved by t. *)
Definition sim_vec (Q : frame) (k : R) (t x : vec) : vec := vadd (vscale k (turn Q x)) t.
(** The object in other units (k of length, kv of velocity, mu of mass), turned by Q, moved by t and with
    velocity w in addition. *)
Definition sim_obj (Q : frame) (k kv mu : R) (tw : vec * vec) (o : list vptc) : list vptc :=
  map (fun q => (sim_vec Q k (fst tw) (pos q), sim_vec Q kv (snd tw) (vel q), mu * snd q)) o.
Definition sim_all (Q : frame) (k kv mu : R) (ts : list (vec * vec)) (objs : list (list vptc)) : list (list vptc) :=
  map (fun x => sim_obj Q k kv mu (fst x) (snd x)) (combine ts objs).
(** The settings in these units: SAFE is a length. *)
Definition sim_cfg (k : R) (c : kcfg) : kcfg := mkC (c_tol c) (c_wall c) (c_min c) (c_reduced c) (c_shell c) (k * c_safe c) (c_log_d c).
(** A turn by multiples of 90 degrees, or a reflection at planes of the coordinate system. *)
Definition unit (j : nat) : vec := match j with O => mkV 1 0 0 | S O => mkV 0 1 0 | _ => mkV 0 0 1 end.
Definition aligned (Q : frame) : Prop := forall i, (i < 3)%nat -> exists j e, (j < 3)%nat /\ (e = 1 \/ e = -1) /\ col Q i = vscale e (unit j).
(** The results for a shape: equal axis ratios, the length of the major axis times k, axes turned. *)
Definition turned_shape (Q : frame) (k : R) (x x' : morph) : Prop :=
  mq x' = mq x /\ ms x' = ms x /\ md x' = xscale k (md x) /\
  exists a b c, major x = nanv (fv a) /\ inter x = nanv (fv b) /\ minor x = nanv (fv c) /\
    major x' = nanv (fv (turn Q a)) /\ inter x' = nanv (fv (turn Q b)) /\ minor x' = nanv (fv (turn Q c)).
Definition turned_entry (Q : frame) (k : R) (x x' : option (list morph)) : Prop :=
  match x, x' with Some l, Some l' => Forall2 (turned_shape Q k) l l' | None, None => True | _, _ => False end.
Definition turned_result (Q : frame) (k mu : R) (r r' : pyres (list (option (list morph)) * list R)) : Prop :=
  match r, r' with
  | Ret (l, m), Ret (l', m') => Forall2 (turned_entry Q k) l l' /\ m' = map (Rmult mu) m
  | ZeroDivision, ZeroDivision => True
  | _, _ => False
  end.

(** ** Centres *)
Lemma sim_sub Q k t a b : vsub (sim_vec Q k t a) (sim_vec Q k t b) = vscale k (turn Q (vsub a b)).
Proof. unfold sim_vec. rewrite turn_sub. unfold vsub, vadd, vscale. cbn [vx vy vz]. f_equal; ring. Qed.
Lemma sim_ax Q k t ax : In ax axes -> exists u v w, forall x, ax (sim_vec Q k t x) = u * vx x + v * vy x + w * vz x + ax t.
Proof.
  intros H. destruct Q as [[u v] w]. exists (k * ax u), (k * ax v), (k * ax w). intros y. unfold sim_vec, turn.
  rewrite !ax_add, ax_scale, !ax_add, !ax_scale by auto. ring.
Qed.
Definition simp (Q : frame) (k mu : R) (t : vec) (ps : list ptc) : list ptc := map (fun p => (sim_vec Q k t (fst p), mu * snd p)) ps.
Lemma mass_sim Q k mu t ps : mass (simp Q k mu t ps) = mu * mass ps.
Proof. unfold mass, simp. rewrite total_map. cbn [snd]. apply total_scale. Qed.
Lemma mean_sim Q k mu t ps ax c : In ax axes -> mu <> 0 -> mass ps <> 0 -> (forall a, In a axes -> a c = mean a ps) ->
  mean ax (simp Q k mu t ps) = ax (sim_vec Q k t c).
Proof.
  intros Hax Hmu HM Hc. destruct (sim_ax Q k t ax Hax) as (u & v & w & E). rewrite E. unfold mean at 1. rewrite mass_sim.
  unfold simp. rewrite total_map. cbn [fst snd].
  rewrite (total_ext _ (fun p => mu * u * (snd p * vx (fst p)) + mu * v * (snd p * vy (fst p)) + mu * w * (snd p * vz (fst p)) + mu * ax t * snd p)).
  - rewrite !total_plus, !total_scale. fold (mass ps). rewrite !Hc by (cbn; auto). unfold mean. field. auto.
  - intros p _. rewrite E. ring.
Qed.
Lemma com_sim choose Q k mu t ps : mu <> 0 -> mass ps <> 0 -> calcCoM choose (simp Q k mu t ps) = sim_vec Q k t (calcCoM choose ps).
Proof.
  intros Hmu HM. apply vec_ext. intros ax Hax. rewrite com_mean; auto.
  - apply mean_sim; auto. intros. apply com_mean; auto.
  - rewrite mass_sim. apply Rmult_integral_contrapositive_currified; auto.
Qed.
Lemma cy_com_sim Q k mu t ps : mu <> 0 -> mass ps <> 0 -> cy_calcCoM (simp Q k mu t ps) = sim_vec Q k t (cy_calcCoM ps).
Proof. intros Hmu HM. apply vec_ext. intros ax Hax. rewrite cy_com_mean by auto. apply mean_sim; auto. intros. apply cy_com_mean; auto. Qed.
Lemma mode_com_sim Q k mu t ps : mu <> 0 -> mass ps <> 0 -> mode_com (simp Q k mu t ps) = sim_vec Q k t (mode_com ps).
Proof. intros Hmu HM. apply vec_ext. intros ax Hax. rewrite mode_com_mean by auto. apply mean_sim; auto. intros. apply mode_com_mean; auto. Qed.
Lemma norm_ip v : norm v = sqrt (ip v v).
Proof. unfold norm, ip. reflexivity. Qed.
Lemma norm_sim Q k v : is_turn Q -> 0 < k -> norm (vscale k (turn Q v)) = k * norm v.
Proof.
  intros HQ Hk. rewrite !norm_ip, ip_scale, ip_scale_r, turn_ip by auto.
  replace (k * (k * ip v v)) with (k * k * ip v v) by ring. rewrite sqrt_mult; [|nra|unfold ip; nra]. rewrite sqrt_square by lra. reflexivity.
Qed.
Lemma mode_sim Q k mu t fuel : is_turn Q -> 0 < k -> 0 < mu -> forall ps rad, ps <> [] -> (forall p, In p ps -> 0 < snd p) ->
  calcMode fuel (simp Q k mu t ps) (k * rad) = option_map (sim_vec Q k t) (calcMode fuel ps rad).
Proof.
  intros HQ Hk Hmu. induction fuel as [|fuel IH]; intros ps rad Hne Hp; cbn [calcMode]; [reflexivity|].
  assert (HM : mass ps <> 0) by (apply Rgt_not_eq, total_pos; auto).
  rewrite mode_com_sim by (auto; lra).
  assert (F : filter (fun p => Rltb (norm (vsub (fst p) (sim_vec Q k t (mode_com ps)))) (k * rad)) (simp Q k mu t ps) =
              simp Q k mu t (filter (fun p => Rltb (norm (vsub (fst p) (mode_com ps))) rad) ps)).
  { unfold simp. rewrite filter_map_comm. f_equal. apply filter_ext. intros p. cbn [fst]. rewrite sim_sub, norm_sim by auto.
    unfold Rltb. destruct (Rlt_dec (k * _) (k * rad)), (Rlt_dec _ rad); try reflexivity; exfalso; nra. }
  rewrite F. unfold simp at 1. rewrite map_length. destruct Nat.ltb eqn:E; [reflexivity|].
  replace (k * rad * (83 / 100)) with (k * (rad * (83 / 100))) by ring. apply IH.
  - intros Z. rewrite Z in E. discriminate.
  - intros p H. apply filter_In in H. apply Hp. tauto.
Qed.

(** The largest extent along an axis. *)
Lemma fold_max_scale k l : 0 < k -> forall a, fold_left Rmax (map (fun x => k * x) l) (k * a) = k * fold_left Rmax l a.
Proof. intros Hk. induction l as [|x l IH]; intros a; cbn; auto. rewrite <- IH. f_equal. apply RmaxRmult. lra. Qed.
Lemma fold_min_scale k l : 0 < k -> forall a, fold_left Rmin (map (fun x => k * x) l) (k * a) = k * fold_left Rmin l a.
Proof.
  intros Hk. induction l as [|x l IH]; intros a; cbn; auto. rewrite <- IH. f_equal.
  unfold Rmin. destruct (Rle_dec (k * a) (k * x)), (Rle_dec a x); try reflexivity; exfalso; nra.
Qed.
Lemma fold_max_neg l : forall a, fold_left Rmax (map Ropp l) (- a) = - fold_left Rmin l a.
Proof. induction l as [|x l IH]; intros a; cbn; auto. rewrite <- IH. f_equal. unfold Rmin, Rmax. destruct (Rle_dec (- a) (- x)), (Rle_dec a x); lra. Qed.
Lemma fold_min_neg l : forall a, fold_left Rmin (map Ropp l) (- a) = - fold_left Rmax l a.
Proof. induction l as [|x l IH]; intros a; cbn; auto. rewrite <- IH. f_equal. unfold Rmin, Rmax. destruct (Rle_dec (- a) (- x)), (Rle_dec a x); lra. Qed.
Lemma spread_affine (f g : vec -> R) h k e b l : 0 < k -> e = 1 \/ e = -1 -> (forall x, f (h x) = e * (k * g x) + b) -> spread f (map h l) = k * spread g l.
Proof.
  intros Hk He H. destruct l as [|p l]; cbn [map spread]; [ring|].
  replace (map f (map h l)) with (map (fun x => x + b) (map (fun x => e * x) (map (fun x => k * x) (map g l))))
    by (rewrite !map_map; apply map_ext; intros; symmetry; apply H).
  rewrite H, fold_max_shift, fold_min_shift. destruct He as [-> | ->].
  - rewrite !(map_ext (fun x => 1 * x) (fun x => x)) by (intros; ring). rewrite map_id, Rmult_1_l, fold_max_scale, fold_min_scale by auto. ring.
  - rewrite !(map_ext (fun x => -1 * x) Ropp) by (intros; ring). replace (-1 * (k * g p)) with (- (k * g p)) by ring.
    rewrite fold_max_neg, fold_min_neg, fold_max_scale, fold_min_scale by auto. ring.
Qed.
Lemma extent_sim Q k t l : is_turn Q -> aligned Q -> 0 < k -> extent (map (sim_vec Q k t) l) = k * extent l.
Proof.
  intros HQ HA Hk. unfold extent. destruct Q as [[u v] w].
  pose proof (HA 0%nat ltac:(lia)) as (j0 & e0 & J0 & E0 & U). pose proof (HA 1%nat ltac:(lia)) as (j1 & e1 & J1 & E1 & V).
  pose proof (HA 2%nat ltac:(lia)) as (j2 & e2 & J2 & E2 & W). cbn [col] in U, V, W. subst u v w.
  destruct HQ as (_ & _ & _ & O1 & O2 & O3). rewrite !ip_scale, !ip_scale_r in O1, O2, O3.
  destruct j0 as [|[|[|j0]]]; [| | |lia]; (destruct j1 as [|[|[|j1]]]; [| | |lia]); (destruct j2 as [|[|[|j2]]]; [| | |lia]);
    unfold ip, unit in O1, O2, O3; cbn [vx vy vz] in O1, O2, O3; try (exfalso; destruct E0, E1, E2; subst; lra); clear O1 O2 O3;
    (first [rewrite (spread_affine vx vx _ k e0 (vx t)) by (auto; intros x; unfold sim_vec, turn, vadd, vscale, unit; cbn; ring)
           |rewrite (spread_affine vx vy _ k e1 (vx t)) by (auto; intros x; unfold sim_vec, turn, vadd, vscale, unit; cbn; ring)
           |rewrite (spread_affine vx vz _ k e2 (vx t)) by (auto; intros x; unfold sim_vec, turn, vadd, vscale, unit; cbn; ring)]);
    (first [rewrite (spread_affine vy vx _ k e0 (vy t)) by (auto; intros x; unfold sim_vec, turn, vadd, vscale, unit; cbn; ring)
           |rewrite (spread_affine vy vy _ k e1 (vy t)) by (auto; intros x; unfold sim_vec, turn, vadd, vscale, unit; cbn; ring)
           |rewrite (spread_affine vy vz _ k e2 (vy t)) by (auto; intros x; unfold sim_vec, turn, vadd, vscale, unit; cbn; ring)]);
    (first [rewrite (spread_affine vz vx _ k e0 (vz t)) by (auto; intros x; unfold sim_vec, turn, vadd, vscale, unit; cbn; ring)
           |rewrite (spread_affine vz vy _ k e1 (vz t)) by (auto; intros x; unfold sim_vec, turn, vadd, vscale, unit; cbn; ring)
           |rewrite (spread_affine vz vz _ k e2 (vz t)) by (auto; intros x; unfold sim_vec, turn, vadd, vscale, unit; cbn; ring)]);
    rewrite !RmaxRmult by lra; f_equal; unfold Rmax; repeat destruct Rle_dec; lra.
Qed.

(** ** One object *)
Lemma spread_sim Q k t l : is_turn Q -> 0 < k -> calcLocalSpread (map (sim_vec Q k t) l) = k * calcLocalSpread l.
Proof.
  intros HQ Hk. destruct l as [|p0 l0]; [unfold calcLocalSpread; cbn; ring|]. set (l := p0 :: l0).
  assert (Hn : INR (length l) <> 0) by (apply not_0_INR; discriminate). clearbody l.
  rewrite !spread_total, map_length. set (n := INR (length l)) in *. set (c := mkV (total vx l / n) (total vy l / n) (total vz l / n)).
  assert (M : forall ax, In ax axes -> total ax (map (sim_vec Q k t) l) / n = ax (sim_vec Q k t c)).
  { intros ax Hax. destruct (sim_ax Q k t ax Hax) as (u & v & w & E). rewrite E, total_map.
    rewrite (total_ext _ (fun p => u * vx p + v * vy p + w * vz p + ax t)) by (intros; apply E).
    rewrite !total_plus, !total_scale, total_const. fold n. unfold c. cbn [vx vy vz]. field. exact Hn. }
  rewrite (M vx), (M vy), (M vz) by (cbn; auto). rewrite total_map.
  rewrite (total_ext _ (fun p => k * norm (vsub p c))).
  - rewrite total_scale. unfold Rdiv. rewrite Rmult_assoc. reflexivity.
  - intros p _. rewrite <- (norm_sim Q), <- (sim_sub Q k t) by auto. reflexivity.
Qed.
Lemma rel_sim Q k t c l : map (fun p => vsub p (sim_vec Q k t c)) (map (sim_vec Q k t) l) = map (fun p => vscale k (turn Q (vsub p c))) l.
Proof. rewrite map_map. apply map_ext. intros p. apply sim_sub. Qed.

Definition sim_results Q k (x : option (pyres (list morph))) : option (pyres (list morph)) :=
  match x with Some (Ret l) => Some (Ret (map (sim_morph Q k) l)) | _ => x end.
Lemma collect_sim {X} (f g : X -> option (pyres morph)) Q k l : (forall x, In x l -> g x = option_map (sim_res Q k) (f x)) ->
  collect (map g l) = sim_results Q k (collect (map f l)).
Proof.
  induction l as [|x l IH]; intros H; cbn [map collect]; [reflexivity|]. rewrite H by (left; auto).
  destruct (f x) as [[|]|]; cbn [option_map sim_res]; try reflexivity.
  rewrite IH by (intros; apply H; right; auto). destruct (collect (map f l)) as [[|]|]; reflexivity.
Qed.
Lemma collect_fax {X} (f : X -> option (pyres morph)) l r : (forall x mi, In x l -> f x = Some (Ret mi) -> fax mi) ->
  collect (map f l) = Some (Ret r) -> Forall fax r.
Proof.
  revert r. induction l as [|x l IH]; intros r H; cbn [map collect]; [intros [= <-]; constructor|].
  destruct (f x) as [[y|]|] eqn:E; try discriminate. destruct (collect (map f l)) as [[r'|]|]; try discriminate. intros [= <-].
  constructor; [apply (H x); auto; left; auto|]. apply IH; auto. intros; eapply H; eauto; right; auto.
Qed.

Section Obj.
  Variables (eig : nat -> list xr -> eigres) (fuel : nat) (c : kcfg) (r200 : R) (xyz ten xyz' ten' : list vec) (masses : list R)
    (center tcenter center' tcenter' : vec) (Q : frame) (k kt mu : R).
  Hypothesis Heig : eig_contract eig.
  Hypothesis HQ : is_turn Q.
  Hypothesis Hk : 0 < k.
  Hypothesis Hkt : 0 < kt.
  Hypothesis Hmu : 0 < mu.
  Hypothesis Hs : calcLocalSpread xyz' = k * calcLocalSpread xyz.
  Hypothesis Hx : map (fun p => vsub p center') xyz' = map (fun p => vscale k (turn Q (vsub p center))) xyz.
  Hypothesis Ht : map (fun p => vsub p tcenter') ten' = map (fun p => vscale kt (turn Q (vsub p tcenter))) ten.
  Hypothesis Hl : length masses = length ten.
  Hypothesis Hxt : length xyz = length ten.
  Hypothesis Hm : nonneg xyz masses.
  Let kappa := if c_reduced c then (kt / k) * (kt / k) else kt * kt.
  Lemma mul_zero {X} (a : R) (u v : X) : (if Req_EM_T (k * a) 0 then u else v) = if Req_EM_T a 0 then u else v.
  Proof.
    destruct (Req_EM_T (k * a) 0) as [E|E], (Req_EM_T a 0) as [F|F]; try reflexivity.
    - apply Rmult_integral in E. lra.
    - exfalso. apply E. rewrite F. ring.
  Qed.
  Lemma start_sim d : mkM (Fin (k * d)) (Fin 0) (Fin 0) x0 x0 x0 = sim_morph Q k (mkM (Fin d) (Fin 0) (Fin 0) x0 x0 x0).
  Proof. unfold sim_morph. cbn [md mq ms major inter minor xscale]. rewrite !xturn_x0. reflexivity. Qed.
  Lemma fst_some {A B} (x : option (A * B)) y : option_map fst x = Some y -> exists z, x = Some (y, z).
  Proof. destruct x as [[a b]|]; [intros [= ->]; eauto|discriminate]. Qed.
  Lemma fax_start d : fax (mkM (Fin d) (Fin 0) (Fin 0) x0 x0 x0).
  Proof. exists v0, v0, v0. repeat split; reflexivity. Qed.
  Lemma local_sim : calcObjMorphLocal (turned_eig Q kappa eig) fuel (sim_cfg k c) (k * r200) xyz' ten' (map (Rmult mu) masses) center' tcenter' =
    sim_results Q k (calcObjMorphLocal eig fuel c r200 xyz ten masses center tcenter) /\
    forall l, calcObjMorphLocal eig fuel c r200 xyz ten masses center tcenter = Some (Ret l) -> Forall fax l.
  Proof.
    unfold calcObjMorphLocal. rewrite Hs, !mul_zero. cbn [sim_cfg c_tol c_wall c_min c_reduced c_shell c_log_d].
    assert (Z : Some (Ret (map (fun _ => zeros) (c_log_d c))) = sim_results Q k (Some (Ret (map (fun _ => zeros) (c_log_d c)))) /\
       forall l, Some (Ret (map (fun _ => zeros) (c_log_d c))) = Some (Ret l) -> Forall fax l).
    { cbn [sim_results]. rewrite map_map, sim_zeros. split; [reflexivity|]. intros l [= <-]. apply Forall_forall. intros x Hx'.
      apply in_map_iff in Hx'. destruct Hx' as (_ & <- & _). apply fax_zeros. }
    destruct Req_EM_T; [exact Z|]. destruct Req_EM_T; [exact Z|]. split.
    - apply collect_sim. intros nb _. cbv zeta.
      replace (k * r200 * nth nb (c_log_d c) 0) with (k * (r200 * nth nb (c_log_d c) 0)) by ring.
      replace (if c_shell c then Some match nb with O => k * (r200 * nth nb (c_log_d c) 0) | S nb' => k * (r200 * nth nb (c_log_d c) 0) - k * r200 * nth nb' (c_log_d c) 0 end else None)
        with (option_map (Rmult k) (if c_shell c then Some match nb with O => r200 * nth nb (c_log_d c) 0 | S nb' => r200 * nth nb (c_log_d c) 0 - r200 * nth nb' (c_log_d c) 0 end else None))
        by (destruct (c_shell c); cbn [option_map]; [|reflexivity]; destruct nb; f_equal; ring).
      rewrite start_sim. unfold kappa. rewrite (katz_sim eig Heig xyz ten xyz' ten' masses center tcenter center' tcenter') by auto.
      match goal with |- _ = option_map _ (option_map fst ?x) => destruct x as [[? ?]|]; reflexivity end.
    - intros l. apply collect_fax. intros nb mi _ H. cbv zeta in H. apply fst_some in H. destruct H as (tr & H).
      exact (katz_fax eig Heig xyz ten xyz' ten' masses center tcenter center' tcenter' _ _ _ _ _ _ Q k kt mu HQ Hk Hkt Hmu Hx Ht Hl Hm Hxt fuel _ mi tr (fax_start _) H).
  Qed.
  Lemma global_sim : calcObjMorphGlobal (turned_eig Q kappa eig) fuel (sim_cfg k c) (k * r200) xyz' ten' (map (Rmult mu) masses) center' tcenter' =
    sim_results Q k (calcObjMorphGlobal eig fuel c r200 xyz ten masses center tcenter) /\
    forall l, calcObjMorphGlobal eig fuel c r200 xyz ten masses center tcenter = Some (Ret l) -> Forall fax l.
  Proof.
    unfold calcObjMorphGlobal. rewrite Hs, !mul_zero. cbn [sim_cfg c_tol c_wall c_min c_reduced c_shell c_log_d c_safe].
    destruct Req_EM_T.
    - cbn [sim_results map]. rewrite sim_zeros. split; [reflexivity|]. intros l [= <-]. constructor; [apply fax_zeros|constructor].
    - replace (k * r200 + k * c_safe c) with (k * (r200 + c_safe c)) by ring. rewrite start_sim. split.
      + change (@None R) with (option_map (Rmult k) (@None R)) at 1. unfold kappa.
        rewrite (katz_sim eig Heig xyz ten xyz' ten' masses center tcenter center' tcenter') by auto. cbn [collect].
        match goal with |- context [option_map _ ?x] => destruct x as [[[|] ?]|]; reflexivity end.
      + intros l H. refine (collect_fax (fun _ : nat => option_map fst (katz eig xyz ten masses center tcenter (r200 + c_safe c) None (c_tol c)
         (c_wall c) (c_min c) (c_reduced c) fuel (mkM (Fin (r200 + c_safe c)) (Fin 0) (Fin 0) x0 x0 x0))) [0%nat] l _ H).
        intros _ mi _ H'. apply fst_some in H'. destruct H' as (tr & H').
        exact (katz_fax eig Heig xyz ten xyz' ten' masses center tcenter center' tcenter' _ _ _ _ _ _ Q k kt mu HQ Hk Hkt Hmu Hx Ht Hl Hm Hxt fuel _ mi tr (fax_start _) H').
  Qed.
End Obj.

(** The factor of the eigenvalues. *)
Definition moved_by (vt : variant) (k kv : R) : R := match vt with LocalVel | GlobalVel => kv | _ => k end.
Definition sim_eig (Q : frame) (k kv : R) (c : kcfg) (vt : variant) (eig : nat -> list xr -> eigres) : nat -> list xr -> eigres :=
  let kt := moved_by vt k kv in turned_eig Q (if c_reduced c then (kt / k) * (kt / k) else kt * kt) eig.

Lemma pos_sim Q k kv mu tw o : map pos (sim_obj Q k kv mu tw o) = map (sim_vec Q k (fst tw)) (map pos o).
Proof. unfold sim_obj. rewrite !map_map. reflexivity. Qed.
Lemma vel_sim Q k kv mu tw o : map vel (sim_obj Q k kv mu tw o) = map (sim_vec Q kv (snd tw)) (map vel o).
Proof. unfold sim_obj. rewrite !map_map. reflexivity. Qed.
Lemma snd_sim Q k kv mu tw o : map snd (sim_obj Q k kv mu tw o) = map (Rmult mu) (map snd o).
Proof. unfold sim_obj. rewrite !map_map. reflexivity. Qed.
Lemma pm_sim Q k kv mu tw o : map pm (sim_obj Q k kv mu tw o) = simp Q k mu (fst tw) (map pm o).
Proof. unfold sim_obj, simp. rewrite !map_map. reflexivity. Qed.
Lemma combine_sim Q k mu t l m : combine (map (sim_vec Q k t) l) (map (Rmult mu) m) = simp Q k mu t (combine l m).
Proof. revert m. induction l as [|x l IH]; intros [|y m]; cbn; try reflexivity. f_equal. apply IH. Qed.
Lemma mass_combine (l : list vec) m : length l = length m -> mass (combine l m) = total (fun x => x) m.
Proof. revert m. induction l as [|x l IH]; intros [|y m] H; cbn in *; try discriminate; [reflexivity|]. f_equal. apply IH. lia. Qed.

Lemma shape_sim eig fuel c L L' vt o r200 cen choose Q k kv mu tw :
  eig_contract eig -> is_turn Q -> 0 < k -> 0 < kv -> 0 < mu ->
  unsplit L o -> unsplit L' (sim_obj Q k kv mu tw o) -> o <> [] -> valid_choice choose (length o) -> (forall q, In q o -> 0 < snd q) ->
  obj_shape (sim_eig Q k kv c vt eig) fuel (sim_cfg k c) L' vt (sim_obj Q k kv mu tw o) (k * r200) (sim_vec Q k (fst tw) cen) =
    sim_results Q k (obj_shape eig fuel c L vt o r200 cen) /\
  forall l, obj_shape eig fuel c L vt o r200 cen = Some (Ret l) -> Forall fax l.
Proof.
  intros He HQ Hk Hkv Hmu Hu Hu' Hne Hv Hp. destruct (unsplit_both L choose o Hu Hne Hv) as (_ & A).
  assert (A' : cy_respectPBCNoRef (map pos (sim_obj Q k kv mu tw o)) L' = map pos (sim_obj Q k kv mu tw o)).
  { apply (unsplit_both L' choose); [auto|destruct o; [congruence|discriminate]|]. unfold sim_obj. now rewrite map_length. }
  unfold obj_shape. rewrite A, A', pos_sim, vel_sim, snd_sim.
  assert (EZ : map (fun _ => v0) (sim_obj Q k kv mu tw o) = map (fun _ => v0) o) by (unfold sim_obj; rewrite map_map; reflexivity). rewrite EZ.
  assert (Hm : nonneg (map pos o) (map snd o)).
  { intros j Hj. rewrite map_length in Hj. rewrite (nth_indep _ 0 (snd (v0, v0, 0))) by (rewrite map_length; auto). rewrite map_nth.
    left. apply Hp. apply nth_In. exact Hj. }
  assert (HM : 0 < total (fun x => x) (map snd o)).
  { rewrite total_map. apply (total_pos (fun q : vptc => snd q)); auto. }
  assert (CR : forall m : list R, 0 < total (fun x => x) m -> com_raises m = false).
  { intros m Hpos. unfold com_raises. rewrite np_sum_total. destruct Req_EM_T; [lra|]. apply andb_false_r. }
  assert (CR0 : com_raises (map snd o) = false) by (apply CR; auto).
  assert (CR1 : com_raises (map (Rmult mu) (map snd o)) = false).
  { apply CR. rewrite total_map. rewrite total_scale. apply Rmult_lt_0_compat; auto. }
  rewrite CR0, CR1. unfold sim_eig, moved_by.
  destruct vt.
  - apply (local_sim eig fuel c r200 _ _ _ _ _ _ _ _ _ Q k k mu); auto; try apply spread_sim; try apply rel_sim; auto; rewrite !map_length; reflexivity.
  - apply (global_sim eig fuel c r200 _ _ _ _ _ _ _ _ _ Q k k mu); auto; try apply spread_sim; try apply rel_sim; auto; rewrite !map_length; reflexivity.
  - apply (local_sim eig fuel c r200 _ _ _ _ _ _ _ _ _ Q k kv mu); auto; try apply spread_sim; try apply rel_sim; auto; try (rewrite !map_length; reflexivity).
    rewrite !map_map. apply map_ext. intros q.
    assert (C0 : forall m : list R, length m = length o -> cy_calcCoM (combine (map (fun _ => v0) o) m) = v0).
    { intros m _. apply vec_ext. intros ax Hax. rewrite cy_com_mean, ax_v0 by auto. unfold mean.
      rewrite (total_ext _ (fun _ => 0)).
      - rewrite total_const. unfold Rdiv. ring.
      - intros p Hp'. destruct p as [x m']. apply in_combine_l in Hp'. apply in_map_iff in Hp'. destruct Hp' as (_ & <- & _). cbn [fst snd]. rewrite ax_v0 by auto. ring. }
    rewrite !C0 by (rewrite !map_length; reflexivity). replace (vsub v0 v0) with v0 by (unfold vsub, v0; cbn; f_equal; ring).
    rewrite turn_v0. unfold vscale, v0. cbn. f_equal; ring.
  - apply (global_sim eig fuel c r200 _ _ _ _ _ _ _ _ _ Q k kv mu); auto; try apply spread_sim; try apply rel_sim; auto; try (rewrite !map_length; reflexivity).
    rewrite combine_sim, cy_com_sim.
    + apply rel_sim.
    + lra.
    + rewrite mass_combine by (rewrite !map_length; reflexivity). lra.
Qed.

Lemma center_sim mfuel kind choose L L' o Q k kv mu tw :
  is_turn Q -> 0 < k -> 0 < mu -> (kind = CMode -> aligned Q) ->
  unsplit L o -> unsplit L' (sim_obj Q k kv mu tw o) -> o <> [] -> valid_choice choose (length o) -> (forall q, In q o -> 0 < snd q) ->
  shape_center mfuel kind choose L' (sim_obj Q k kv mu tw o) = option_map (sim_vec Q k (fst tw)) (shape_center mfuel kind choose L o).
Proof.
  intros HQ Hk Hmu HA Hu Hu' Hne Hv Hp. destruct (unsplit_both L choose o Hu Hne Hv) as (A & _).
  assert (A' : respectPBCNoRef choose (map pos (sim_obj Q k kv mu tw o)) L' = map pos (sim_obj Q k kv mu tw o)).
  { apply (unsplit_both L' choose); [auto|destruct o; [congruence|discriminate]|]. unfold sim_obj. now rewrite map_length. }
  assert (EP : forall o, map fst (map pm o) = map pos o) by (intros; rewrite map_map; reflexivity).
  assert (CF : forall l : list ptc, combine (map fst l) (map snd l) = l).
  { induction l as [|[x m] l IH]; [reflexivity|]. cbn. f_equal. exact IH. }
  assert (Hp' : forall q, In q (map pm o) -> 0 < snd q).
  { intros q Hq. apply in_map_iff in Hq. destruct Hq as (q' & <- & Hq). apply Hp in Hq. exact Hq. }
  assert (Hne' : map pm o <> []) by (destruct o; [congruence|discriminate]).
  unfold shape_center, center_of. rewrite !EP, A, A'.
  replace (combine (map pos (sim_obj Q k kv mu tw o)) (map snd (map pm (sim_obj Q k kv mu tw o)))) with (simp Q k mu (fst tw) (map pm o)) by (rewrite <- (pm_sim Q k kv), <- EP, CF; reflexivity).
  replace (combine (map pos o) (map snd (map pm o))) with (map pm o) by (rewrite <- EP, CF; reflexivity).
  destruct kind.
  - rewrite pos_sim, extent_sim by auto. apply mode_sim; auto.
  - cbn [option_map]. f_equal. apply com_sim; [lra|]. apply Rgt_not_eq, total_pos; auto.
Qed.

(** ** C109 *)
Lemma nanz_scale k x : 0 < k -> nanz (xscale k x) = xscale k (nanz x).
Proof.
  intros Hk. destruct x as [r| | |]; cbn [xscale]; try reflexivity. rewrite !nanz_fin. unfold shown.
  destruct (Req_EM_T (k * r) 0) as [E|E], (Req_EM_T r 0) as [F|F]; try reflexivity.
  - apply Rmult_integral in E. lra.
  - exfalso. apply E. rewrite F. ring.
Qed.
Lemma shown_sim Q k mi : 0 < k -> fax mi -> turned_shape Q k (nan_morph mi) (nan_morph (sim_morph Q k mi)).
Proof.
  intros Hk (a & b & c & A & B & C). unfold turned_shape, nan_morph, sim_morph. cbn [md mq ms major inter minor].
  do 2 (split; [reflexivity|]). split; [apply nanz_scale; auto|]. exists a, b, c. rewrite A, B, C, !xturn_fv. repeat split; reflexivity.
Qed.

(* The same objects turned by Q, moved by any vectors, in other units: axis ratios are equal, lengths and
   masses are multiplied, axes are turned; one call raises if and only if the other does. For 'mode' the
   turn has to be one by right angles. *)
Theorem C109_partial : forall Q k kv mu eig c vt,
  is_turn Q -> 0 < k -> 0 < kv -> 0 < mu -> eig_contract eig ->
  exists eig', eig_contract eig' /\
  forall mfuel kind choose fuel L L' objs ts r200 r r' cs cs',
  (kind = CMode -> aligned Q) -> length ts = length objs ->
  (forall p o tw, nth_error objs p = Some o -> nth_error ts p = Some tw ->
     unsplit L o /\ unsplit L' (sim_obj Q k kv mu tw o) /\ o <> [] /\ valid_choice (choose p) (length o) /\ forall q, In q o -> 0 < snd q) ->
  morph_call mfuel kind choose eig fuel c L vt objs r200 (r, cs) ->
  morph_call mfuel kind choose eig' fuel (sim_cfg k c) L' vt (sim_all Q k kv mu ts objs) (map (Rmult k) r200) (r', cs') ->
  turned_result Q k mu r r' /\
  (L = 0 -> L' = 0 -> cs' = map (fun x => sim_vec Q k (fst (fst x)) (snd x)) (combine ts cs)).
Proof.
  intros Q k kv mu eig c vt HQ Hk Hkv Hmu He. exists (sim_eig Q k kv c vt eig). split.
  { apply turned_contract; auto. unfold moved_by. assert (0 < kv / k) by (apply Rdiv_lt_0_compat; auto). assert (0 < k / k) by (apply Rdiv_lt_0_compat; auto).
    destruct vt, (c_reduced c); nra. }
  intros mfuel kind choose fuel L L' objs ts r200 r r' cs cs' HA Hlen Ho H H'.
  inversion H as [cen r0 HF HM E0]; subst. inversion H' as [cen' r0' HF' HM' E0']; subst.
  apply driver_result in HM. apply driver_result in HM'. cbv zeta in HM, HM'.
  assert (EL : length (sim_all Q k kv mu ts objs) = length objs).
  { unfold sim_all. rewrite map_length, combine_length. lia. }
  assert (NT : forall p o, nth_error objs p = Some o -> exists tw, nth_error ts p = Some tw /\ nth_error (sim_all Q k kv mu ts objs) p = Some (sim_obj Q k kv mu tw o)).
  { unfold sim_all. clear - Hlen. revert ts Hlen. induction objs as [|a objs IH]; intros [|t ts] Hlen p o Hp; try (destruct p; discriminate); try discriminate.
    destruct p as [|p]; cbn in *; [injection Hp as ->; exists t; auto|]. apply IH; auto. }
  assert (LC : length cen = length objs).
  { apply Forall2_length in HF. rewrite combine_length, seq_length in HF. lia. }
  assert (LC' : length cen' = length objs).
  { apply Forall2_length in HF'. rewrite combine_length, seq_length, EL in HF'. lia. }
  assert (CENT : forall p o tw, nth_error objs p = Some o -> nth_error ts p = Some tw -> nth_error (sim_all Q k kv mu ts objs) p = Some (sim_obj Q k kv mu tw o) ->
    nth p cen' v0 = sim_vec Q k (fst tw) (nth p cen v0)).
  { intros p o tw E T E'. destruct (Ho p o tw E T) as (Hu & Hu' & Hne & Hv & Hm).
    assert (CEN : forall L (obs : list (list vptc)) ce ob, Forall2 (fun po cen => shape_center mfuel kind (choose (fst po)) L (snd po) = Some cen) (combine (seq 0 (length obs)) obs) ce ->
        nth_error obs p = Some ob -> shape_center mfuel kind (choose p) L ob = Some (nth p ce v0)).
    { intros L0 obs ce ob F N. assert (Lc : length ce = length obs) by (apply Forall2_length in F; rewrite combine_length, seq_length in F; lia).
      assert (Lp : (p < length obs)%nat) by (apply nth_error_Some; congruence).
      destruct (nth_error ce p) as [x|] eqn:Ex; [|apply nth_error_None in Ex; lia].
      destruct (Forall2_nth_r _ _ _ F p x Ex) as ([p1 o1] & N1 & S1). cbn [fst snd] in S1.
      assert (N2 : nth_error (combine (seq 0 (length obs)) obs) p = Some (p, ob)).
      { rewrite (nth_error_nth' _ (0%nat, @nil vptc)) by (rewrite combine_length, seq_length; lia).
        rewrite combine_nth by apply seq_length. rewrite seq_nth by auto. rewrite (nth_error_nth obs p [] N). reflexivity. }
      rewrite N2 in N1. injection N1 as <- <-. rewrite (nth_error_nth ce p v0 Ex). exact S1. }
    pose proof (CEN _ _ _ _ HF E) as C1. pose proof (CEN _ _ _ _ HF' E') as C2.
    rewrite (center_sim mfuel kind (choose p) L L') in C2 by auto. rewrite C1 in C2. cbn [option_map] in C2. injection C2 as C2. auto. }
  split.
  2:{ intros -> ->. assert (R0 : forall l, recentreObject l 0 = l).
      { intros l. unfold recentreObject. rewrite <- (map_id l) at 2. apply map_ext. intros [x y z]. cbn [vx vy vz].
        assert (R1 : forall a, recentre1 0 a = a) by (intros a; unfold recentre1; destruct Rle_dec, Rlt_dec; lra). rewrite !R1. reflexivity. }
      rewrite !R0. apply (nth_ext _ _ v0 (sim_vec Q k (fst ((v0, v0) : vec * vec)) v0)).
      - rewrite map_length, combine_length. lia.
      - intros p Hp. destruct (nth_error objs p) as [o|] eqn:E; [|apply nth_error_None in E; lia].
        destruct (NT p o E) as (tw & T & E'). rewrite (CENT p o tw E T E').
        change (sim_vec Q k (fst ((v0, v0) : vec * vec)) v0) with ((fun x : vec * vec * vec => sim_vec Q k (fst (fst x)) (snd x)) ((v0, v0), v0)).
        rewrite map_nth, combine_nth by lia. cbn [fst snd]. rewrite (nth_error_nth ts p _ T). reflexivity. }
  assert (G : forall p, In p (seq 0 (length objs)) ->
     let x := obj_shape eig fuel c L vt (nth p objs []) (nth p r200 0) (nth p cen v0) in
     obj_shape (sim_eig Q k kv c vt eig) fuel (sim_cfg k c) L' vt (nth p (sim_all Q k kv mu ts objs) []) (nth p (map (Rmult k) r200) 0) (nth p cen' v0) = sim_results Q k x /\
     (forall l, x = Some (Ret l) -> Forall fax l) /\
     total snd (nth p (sim_all Q k kv mu ts objs) []) = mu * total snd (nth p objs [])).
  { intros p Hp. apply in_seq in Hp. cbv zeta.
    destruct (nth_error objs p) as [o|] eqn:E; [|apply nth_error_None in E; lia].
    destruct (NT p o E) as (tw & T & E'). destruct (Ho p o tw E T) as (Hu & Hu' & Hne & Hv & Hm).
    rewrite (nth_error_nth objs p [] E), (nth_error_nth _ p [] E'), (CENT p o tw E T E').
    replace (nth p (map (Rmult k) r200) 0) with (k * nth p r200 0) by (rewrite <- (map_nth (Rmult k)), Rmult_0_r; reflexivity).
    destruct (shape_sim eig fuel c L L' vt o (nth p r200 0) (nth p cen v0) (choose p) Q k kv mu tw) as (S1 & S2); auto.
    split; [exact S1|]. split; [exact S2|]. unfold sim_obj. rewrite total_map. cbn [snd]. apply total_scale. }
  rewrite EL in HM'. rewrite HM, HM'. clear HM HM' H H'.
  set (X := fun p => obj_shape eig fuel c L vt (nth p objs []) (nth p r200 0) (nth p cen v0)) in *.
  assert (EX : forall (f g : nat -> bool) l, (forall p, In p l -> f p = g p) -> existsb f l = existsb g l).
  { intros f g l Hl. induction l as [|a l IH]; cbn; [reflexivity|]. rewrite Hl by (left; auto). rewrite IH by (intros; apply Hl; right; auto). reflexivity. }
  rewrite (EX (fun p => raised (VMs (obj_shape (sim_eig Q k kv c vt eig) fuel _ _ _ _ _ _))) (fun p => raised (VMs (X p)))).
  2:{ intros p Hp. rewrite (proj1 (G p Hp)). destruct (obj_shape eig fuel c L vt (nth p objs []) (nth p r200 0) (nth p cen v0)) as [[|]|] eqn:EE; unfold X; rewrite EE; reflexivity. }
  change (existsb (fun p => raised (VMs (obj_shape eig fuel c L vt (nth p objs []) (nth p r200 0) (nth p cen v0)))) (seq 0 (length objs)))
    with (existsb (fun p => raised (VMs (X p))) (seq 0 (length objs))).
  destruct (existsb (fun p => raised (VMs (X p))) (seq 0 (length objs))) eqn:ER; [exact Logic.I|].
  assert (NR : forall p, In p (seq 0 (length objs)) -> raised (VMs (X p)) = false).
  { intros p Hp. destruct (raised (VMs (X p))) eqn:EE; [|reflexivity]. rewrite <- ER. symmetry. apply existsb_exists. eauto. }
  cbn [turned_result]. split.
  - clear - G NR Hk. induction (seq 0 (length objs)) as [|p l IH]; cbn [map]; constructor.
    + destruct (G p (or_introl eq_refl)) as (G1 & G2 & _). cbv zeta in G1, G2. rewrite G1. specialize (NR p (or_introl eq_refl)). unfold X in NR.
      destruct (obj_shape eig fuel c L vt (nth p objs []) (nth p r200 0) (nth p cen v0)) as [[y|]|] eqn:EE; try discriminate; [|exact Logic.I].
      cbn [sim_results entry turned_entry]. specialize (G2 y eq_refl). rewrite map_map. clear - G2 Hk.
      induction G2; cbn [map]; constructor; auto. apply shown_sim; auto.
    + apply IH; intros; [apply G|apply NR]; right; auto.
  - rewrite map_map. apply map_ext_in. intros p Hp. apply G; auto.
Qed.
Print Assumptions C109_partial.

(** The six particles in a line, turned about (50, 50, 50). *)
Definition tilt : frame := (mkV (15/17) (8/17) 0, mkV (-8/17) (15/17) 0, mkV 0 0 1).
Definition tilt_t : vec * vec := (mkV (500/17) (-300/17) 0, v0).
Lemma tilt_turn : is_turn tilt.
Proof. unfold is_turn, tilt, orthonormal, ip. cbn [vx vy vz]. lra. Qed.
Definition tilted6 : list vptc := sim_obj tilt 1 1 1 tilt_t chain6.
Lemma tilted_line x : sim_vec tilt 1 (fst tilt_t) (on_line x) = mkV (50 + 15/17 * x) (50 + 8/17 * x) 50.
Proof. unfold sim_vec, turn, tilt, tilt_t, on_line, vadd, vscale. cbn [vx vy vz fst]. f_equal; lra. Qed.
Lemma tilted_pos : map pos tilted6 = map (fun x => mkV (50 + 15/17 * x) (50 + 8/17 * x) 50) [0; 1/10; 2/10; 5/10; 7/10; 8/10].
Proof. unfold tilted6. rewrite pos_sim. unfold chain6, line6. cbn [map]. unfold pos. cbn [fst]. rewrite !tilted_line. reflexivity. Qed.
Lemma tilted_unsplit : unsplit 100 tilted6.
Proof.
  right. split; [lra|]. intros q q' ax Hq Hq' Hax. apply Rabs_le.
  assert (B : forall q, In q (map pm tilted6) -> 50 <= ax (fst q) <= 51).
  { intros x Hx. apply (in_map fst) in Hx. replace (map fst (map pm tilted6)) with (map pos tilted6) in Hx by (rewrite map_map; reflexivity).
    rewrite tilted_pos in Hx. apply in_map_iff in Hx. destruct Hx as (y & <- & Hy). cbn in Hy. intuition subst; axis Hax; lra. }
  pose proof (B q Hq). pose proof (B q' Hq'). lra.
Qed.
Lemma tilted_extent choose : valid_choice choose 6 -> extent (respectPBCNoRef choose (map fst (map pm tilted6)) 100) = 12 / 17.
Proof.
  intros Hv. replace (map fst (map pm tilted6)) with (map pos tilted6) by (rewrite map_map; reflexivity).
  rewrite (proj1 (unsplit_both 100 choose tilted6 tilted_unsplit ltac:(discriminate) Hv)), tilted_pos.
  unfold extent, spread. cbn.
  repeat match goal with |- context [Rmax ?a ?b] => first [rewrite (Rmax_left a b) by lra | rewrite (Rmax_right a b) by lra] end.
  repeat match goal with |- context [Rmin ?a ?b] => first [rewrite (Rmin_left a b) by lra | rewrite (Rmin_right a b) by lra] end.
  repeat match goal with |- context [Rmax ?a ?b] => first [rewrite (Rmax_left a b) by lra | rewrite (Rmax_right a b) by lra] end. lra.
Qed.
Lemma mode_shorter fuel : calcMode (3 + S (S fuel)) (map pm chain6) (12 / 17) = Some (on_line (3 / 10)).
Proof.
  rewrite chain_ptc. rewrite (mode_keep 2) with (fuel := S (S fuel)); [|lra|cbn; lia|].
  - assert (B : 40 / 100 < 12 / 17 * (83 / 100) ^ 3 < 41 / 100) by (cbn [pow]; lra). set (rad := 12 / 17 * _) in *. clearbody rad.
    cbn [calcMode]. rewrite com_all, line_filter. cbn [filter]. do 5 keep. drop_r. cbn [map length Nat.ltb Nat.leb].
    change ([(on_line 0, 1); (on_line (1/10), 1); (on_line (2/10), 1); (on_line (5/10), 1); (on_line (7/10), 1)])
      with (map (fun x => (on_line x, 1)) [0; 1/10; 2/10; 5/10; 7/10]).
    rewrite line_com by discriminate. replace (total (fun x => x) [0; 1/10; 2/10; 5/10; 7/10] / INR (length [0; 1/10; 2/10; 5/10; 7/10])) with (3 / 10) by (cbn; lra).
    rewrite line_filter. cbn [filter]. do 4 keep. drop_r. reflexivity.
  - intros p Hp. rewrite com_all. apply in_map_iff in Hp. destruct Hp as (x & <- & Hx). cbn [fst]. rewrite line_norm.
    assert (B : 48 / 100 < 12 / 17 * (83 / 100) ^ 2) by (cbn [pow]; lra).
    apply Rabs_def1; cbn in Hx; intuition subst; lra.
Qed.

(* By 'mode' the six particles in a line along x have the centre (50.38333, 50, 50). Turned by about 28
   degrees around (50, 50, 50) their centre should be 0.38333 along the turned line; it is 0.3 in every run. *)
Theorem C109_refuted : forall eig eig' fuel c c' vt choose,
  valid_choice (choose 0%nat) 6 ->
  is_turn tilt /\ unsplit 100 chain6 /\ unsplit 100 tilted6 /\
  (exists y, morph_call 50 CMode choose eig fuel c 100 vt [chain6] [1] y) /\
  (exists y, morph_call 50 CMode choose eig' fuel c' 100 vt [tilted6] [1] y) /\
  forall mfuel mfuel' r r' cs cs',
    morph_call mfuel CMode choose eig fuel c 100 vt [chain6] [1] (r, cs) ->
    morph_call mfuel' CMode choose eig' fuel c' 100 vt [tilted6] [1] (r', cs') ->
    cs = [on_line (23 / 60)] /\ cs' = [sim_vec tilt 1 (fst tilt_t) (on_line (3 / 10))] /\
    cs' <> map (sim_vec tilt 1 (fst tilt_t)) cs.
Proof.
  intros eig eig' fuel c c' vt choose Hv.
  assert (S : forall m, shape_center m CMode (choose 0%nat) 100 chain6 = calcMode m (map pm chain6) (8 / 10)).
  { intros m. unfold shape_center. rewrite chain_extent by auto. apply (center_unsplit m CMode); [apply chain_unsplit|discriminate|exact Hv]. }
  assert (S' : forall m, shape_center m CMode (choose 0%nat) 100 tilted6 = option_map (sim_vec tilt 1 (fst tilt_t)) (calcMode m (map pm chain6) (12 / 17))).
  { intros m. unfold shape_center. rewrite tilted_extent by auto. rewrite (center_unsplit m CMode); [|apply tilted_unsplit|discriminate|exact Hv].
    unfold tilted6. rewrite pm_sim. replace (12 / 17) with (1 * (12 / 17)) at 1 by ring. apply mode_sim; try lra; [apply tilt_turn|discriminate|].
    intros p Hp. rewrite chain_ptc in Hp. apply in_map_iff in Hp. destruct Hp as (x & <- & _). cbn. lra. }
  assert (RC : forall x, 0 <= x < 1 -> recentreObject [on_line x] 100 = [on_line x]).
  { intros x Hx. unfold recentreObject, on_line. cbn [map vx vy vz]. rewrite !recentre1_in by lra. reflexivity. }
  assert (RC' : forall x, 0 <= x < 1 -> recentreObject [sim_vec tilt 1 (fst tilt_t) (on_line x)] 100 = [sim_vec tilt 1 (fst tilt_t) (on_line x)]).
  { intros x Hx. rewrite tilted_line. unfold recentreObject. cbn [map vx vy vz]. rewrite !recentre1_in by lra. reflexivity. }
  split; [apply tilt_turn|]. split; [apply chain_unsplit|]. split; [apply tilted_unsplit|]. split; [|split].
  - destruct (runs_exist eig fuel c 100 vt [chain6] [1] [on_line (23 / 60)]) as (r & Hr). exists (r, recentreObject [on_line (23 / 60)] 100).
    constructor; [|exact Hr]. repeat constructor. cbn [fst snd]. rewrite S. apply (mode_extent 45).
  - destruct (runs_exist eig' fuel c' 100 vt [tilted6] [1] [sim_vec tilt 1 (fst tilt_t) (on_line (3 / 10))]) as (r & Hr).
    exists (r, recentreObject [sim_vec tilt 1 (fst tilt_t) (on_line (3 / 10))] 100).
    constructor; [|exact Hr]. repeat constructor. cbn [fst snd]. rewrite S'. exact (f_equal (option_map (sim_vec tilt 1 (fst tilt_t))) (mode_shorter 45)).
  - intros mfuel mfuel' r r' cs cs' K K'. apply shape_centres in K. destruct K as (a & -> & F). apply shape_centres in K'. destruct K' as (b & -> & G).
    inversion F as [|? x ? l A B]; subst. inversion B; subst. inversion G as [|? y ? l' A' B']; subst. inversion B'; subst.
    cbn [fst snd] in A, A'. rewrite S in A. rewrite S' in A'.
    destruct (calcMode mfuel' (map pm chain6) (12 / 17)) as [z|] eqn:Ez; [|discriminate]. injection A' as <-.
    rewrite (mode_det _ _ _ _ _ _ A (mode_extent 0)), (mode_det _ _ _ _ _ _ Ez (mode_shorter 0)). rewrite RC, RC' by lra.
    split; [reflexivity|]. split; [reflexivity|]. cbn [map]. rewrite !tilted_line. intros [= Z _]. lra.
Qed.
Print Assumptions C109_refuted.
Example C109_refuted_example : valid_choice ((fun _ => seq 0 6) 0%nat) 6.
Proof. exact (choice6 (repeat 0 6) eq_refl). Qed.

(* The hypotheses of C109_partial are met by the six particles of C103, tilted and in other units; a quarter
   turn is [aligned]. *)
Lemma halo6_pos q : In q halo6 -> 0 < snd q.
Proof. intros Hq. unfold halo6, shift in Hq. apply in_map_iff in Hq. destruct Hq as (q0 & <- & Hq). exact (ones6_pos cloud6 q0 Hq). Qed.
Example C109_example : let ch := fun _ : nat => seq 0 6 in let tw := (mkV 1 2 3, mkV 100 0 0) in
  is_turn tilt /\ unsplit 100 halo6 /\ unsplit 200 (sim_obj tilt 2 3 10 tw halo6) /\ halo6 <> [] /\
  valid_choice (ch 0%nat) (length halo6) /\ (forall q, In q halo6 -> 0 < snd q) /\
  (exists y, morph_call 1 CCom ch exact_eig 100 cfg1 100 Global [halo6] [10] y) /\
  (forall eig', exists y, morph_call 1 CCom ch eig' 100 (sim_cfg 2 cfg1) 200 Global (sim_all tilt 2 3 10 [tw] [halo6]) (map (Rmult 2) [10]) y) /\
  is_turn (mkV 0 1 0, mkV (-1) 0 0, mkV 0 0 1) /\ aligned (mkV 0 1 0, mkV (-1) 0 0, mkV 0 0 1).
Proof.
  cbv zeta.
  assert (Ex : forall eig c L o r, exists y, morph_call 1 CCom (fun _ => seq 0 6) eig 100 c L Global [o] r y).
  { intros eig c L o r. destruct (runs_exist eig 100 c L Global [o] r [calcCoM (seq 0 6) (combine (respectPBCNoRef (seq 0 6) (map fst (map pm o)) L) (map snd (map pm o)))]) as (x & Hx).
    eexists. econstructor; [|exact Hx]. repeat constructor. }
  split; [apply tilt_turn|]. split; [apply unsplit_shift, unsplit6|]. split.
  { right. split; [lra|]. intros q q' ax Hq Hq' Hax. apply Rabs_le.
    assert (B : forall q, In q (map pm (sim_obj tilt 2 3 10 (mkV 1 2 3, mkV 100 0 0) halo6)) -> exists lo, lo = (ax (sim_vec tilt 2 (mkV 1 2 3) (mkV 50 50 50))) /\ lo - 10 <= ax (fst q) <= lo + 10).
    { intros x Hx. eexists. split; [reflexivity|]. rewrite pm_sim in Hx. apply in_map_iff in Hx. destruct Hx as (y & <- & Hy). cbn [fst].
      unfold halo6 in Hy. rewrite pm_shift in Hy. apply in_map_iff in Hy. destruct Hy as (z & <- & Hz). cbn in Hz. cbn [fst snd].
      intuition subst; cbn [fst snd pm pos]; unfold sim_vec, turn, tilt, vadd, vscale; axis Hax; lra. }
    destruct (B q Hq) as (l1 & -> & B1). destruct (B q' Hq') as (l2 & -> & B2). lra. }
  split; [discriminate|]. split; [apply (choice6 halo6 eq_refl)|]. split; [apply halo6_pos|].
  split; [apply Ex|]. split; [intros eig'; apply Ex|]. split.
  { unfold is_turn, orthonormal, ip. cbn [vx vy vz]. lra. }
  intros i Hi. destruct i as [|[|[|i]]]; [exists 1%nat, 1|exists 0%nat, (-1)|exists 2%nat, 1|lia]; (split; [lia|]); (split; [lra|]); unfold vscale, unit; cbn; f_equal; ring.
Qed.
