(** Runs of the shape iteration on an object that is turned, enlarged and weighted. *)
From Coq Require Import List Reals ZArith Lra Lia Bool Arith.
From Verif Require Import ListUtil XR GeoModel GeoSpec GeoProofs ShapeModel ShapeSpec ShapeProofs ShapeKatz ShapeMoveProps.
Import ListNotations.
Open Scope R_scope.

(** ** Turning *)
(** A turn, given by the images of the three unit vectors (a reflection is allowed). *)
Definition frame := (vec * vec * vec)%type.
Definition is_turn (Q : frame) : Prop := let '(u, v, w) := Q in orthonormal u v w.
Definition turn (Q : frame) (x : vec) : vec :=
  let '(u, v, w) := Q in vadd (vadd (vscale (vx x) u) (vscale (vy x) v)) (vscale (vz x) w).
Definition col (Q : frame) (i : nat) : vec := let '(u, v, w) := Q in match i with O => u | S O => v | _ => w end.

Lemma ip_add_l a b c : ip (vadd a b) c = ip a c + ip b c.
Proof. unfold ip, vadd. cbn [vx vy vz]. ring. Qed.
Lemma ip_scale_r c v w : ip v (vscale c w) = c * ip v w.
Proof. unfold ip, vscale. cbn [vx vy vz]. ring. Qed.
Lemma ip_add_r a b c : ip a (vadd b c) = ip a b + ip a c.
Proof. unfold ip, vadd. cbn [vx vy vz]. ring. Qed.
Lemma turn_ip Q a b : is_turn Q -> ip (turn Q a) (turn Q b) = ip a b.
Proof.
  destruct Q as [[u v] w]. intros (A & B & C & D & E & F). unfold turn.
  rewrite !ip_add_l, !ip_add_r, !ip_scale, !ip_scale_r.
  rewrite (ip_comm v u), (ip_comm w u), (ip_comm w v), A, B, C, D, E, F. unfold ip. ring.
Qed.
Lemma col_turn Q i x : is_turn Q -> ip (col Q i) (turn Q x) = coord x i.
Proof.
  destruct Q as [[u v] w]. intros (A & B & C & D & E & F). unfold turn, col.
  destruct i as [|[|i]]; rewrite !ip_add_r, !ip_scale_r; rewrite ?(ip_comm v u), ?(ip_comm w u), ?(ip_comm w v), ?A, ?B, ?C, ?D, ?E, ?F; cbn [coord]; ring.
Qed.
Lemma turn_scale Q c x : turn Q (vscale c x) = vscale c (turn Q x).
Proof. destruct Q as [[u v] w]. unfold turn, vadd, vscale. cbn [vx vy vz]. f_equal; ring. Qed.
Lemma turn_add Q a b : turn Q (vadd a b) = vadd (turn Q a) (turn Q b).
Proof. destruct Q as [[u v] w]. unfold turn, vadd, vscale. cbn [vx vy vz]. f_equal; ring. Qed.
Lemma turn_sub Q a b : turn Q (vsub a b) = vsub (turn Q a) (turn Q b).
Proof. destruct Q as [[u v] w]. unfold turn, vadd, vscale, vsub. cbn [vx vy vz]. f_equal; ring. Qed.
Lemma turn_v0 Q : turn Q v0 = v0.
Proof. destruct Q as [[u v] w]. unfold turn, vadd, vscale, v0. cbn [vx vy vz]. f_equal; ring. Qed.
(** A vector is determined by its products with the columns. *)
Lemma col_ext Q a b : is_turn Q -> (forall i, (i < 3)%nat -> ip (col Q i) a = ip (col Q i) b) -> a = b.
Proof.
  intros HQ H. apply sub_zero. destruct Q as [[u v] w].
  assert (S : forall x, ip x (vsub a b) = ip x a - ip x b) by (intros; unfold ip, vsub; cbn [vx vy vz]; ring).
  apply (frame_zero u v w); [exact HQ| | |]; rewrite S; [pose proof (H 0%nat ltac:(lia)) as E|pose proof (H 1%nat ltac:(lia)) as E|pose proof (H 2%nat ltac:(lia)) as E]; cbn [col] in E; rewrite E; ring.
Qed.

(** ** Matrices *)
Definition mv (h : nat -> nat -> R) (x : vec) : vec :=
  mkV (h 0%nat 0%nat * vx x + h 0%nat 1%nat * vy x + h 0%nat 2%nat * vz x)
      (h 1%nat 0%nat * vx x + h 1%nat 1%nat * vy x + h 1%nat 2%nat * vz x)
      (h 2%nat 0%nat * vx x + h 2%nat 1%nat * vy x + h 2%nat 2%nat * vz x).
Lemma eigenvector_mv h l e : eigenvector h l e <-> mv h e = vscale l e.
Proof.
  split.
  - intros H. unfold mv, vscale. f_equal; [apply (H 0%nat)|apply (H 1%nat)|apply (H 2%nat)]; lia.
  - unfold mv, vscale. intros [= A B C] i Hi. destruct i as [|[|[|i]]]; [exact A|exact B|exact C|lia].
Qed.
(** Q^T h Q / kappa. *)
Definition conj (Q : frame) (kappa : R) (h : nat -> nat -> R) (i j : nat) : R := ip (col Q i) (mv h (col Q j)) / kappa.
Lemma mv_sym h a b : (forall i j, h i j = h j i) -> ip a (mv h b) = ip b (mv h a).
Proof. intros H. unfold ip, mv. cbn [vx vy vz]. rewrite (H 1%nat 0%nat), (H 2%nat 0%nat), (H 2%nat 1%nat). ring. Qed.
Lemma conj_sym Q kappa h : (forall i j, h i j = h j i) -> forall i j, conj Q kappa h i j = conj Q kappa h j i.
Proof. intros H i j. unfold conj. rewrite mv_sym by auto. reflexivity. Qed.
Lemma conj_mv Q kappa h x i : (i < 3)%nat -> kappa <> 0 -> coord (mv (conj Q kappa h) x) i = ip (col Q i) (mv h (turn Q x)) / kappa.
Proof.
  intros Hi Hk. destruct Q as [[u v] w]. unfold conj, mv, turn, col, ip, vadd, vscale.
  destruct i as [|[|[|i]]]; [| | |lia]; cbn [coord vx vy vz]; field; auto.
Qed.

(** ** The eigensolver seen in the turned frame *)
Definition readm (l : list xr) (i j : nat) : R := match nth (3 * i + j) l NaN with Fin r => r | _ => 0 end.
Definition back (Q : frame) (kappa : R) (l : list xr) : list xr := freeze (fun i j => Fin (conj Q kappa (readm l) i j)).
(** Positive multiples of an extended number. *)
Definition xscale (c : R) (a : xr) : xr := match a with Fin r => Fin (c * r) | _ => a end.
Definition xturn (Q : frame) (w : xvec) : xvec :=
  match w with mkX (Fin a) (Fin b) (Fin c) => fv (turn Q (mkV a b c)) | _ => w end.
Definition turned_eig (Q : frame) (kappa : R) (eig : nat -> list xr -> eigres) : nat -> list xr -> eigres :=
  fun n l => let e := eig n (back Q kappa l) in
    mkE (xscale kappa (ev0 e)) (xscale kappa (ev1 e)) (xscale kappa (ev2 e)) (xturn Q (w0 e)) (xturn Q (w1 e)) (xturn Q (w2 e)).

Lemma xturn_fv Q v : xturn Q (fv v) = fv (turn Q v).
Proof. destruct v. reflexivity. Qed.
Lemma readm_freeze h i j : (i < 3)%nat -> (j < 3)%nat -> readm (freeze (fun i j => Fin (h i j))) i j = h i j.
Proof. intros Hi Hj. destruct i as [|[|[|i]]]; [| | |lia]; (destruct j as [|[|[|j]]]; [| | |lia]); reflexivity. Qed.
Lemma back_freeze Q kappa h : back Q kappa (freeze (fun i j => Fin (h i j))) = freeze (fun i j => Fin (conj Q kappa h i j)).
Proof.
  apply freeze_ext. intros i j _ _. unfold conj, mv. rewrite !readm_freeze by lia. reflexivity.
Qed.
Lemma turned_contract Q kappa eig : is_turn Q -> 0 < kappa -> eig_contract eig -> eig_contract (turned_eig Q kappa eig).
Proof.
  intros HQ Hk He n h Hs.
  destruct (He n (conj Q kappa h) (conj_sym Q kappa h Hs)) as (l0 & l1 & l2 & e0 & e1 & e2 & c0 & c1 & c2 & Hl & Ho & E0 & E1 & E2 & N0 & N1 & N2 & E).
  exists (kappa * l0), (kappa * l1), (kappa * l2), (turn Q e0), (turn Q e1), (turn Q e2), c0, c1, c2.
  assert (EV : forall l e, eigenvector (conj Q kappa h) l e -> eigenvector h (kappa * l) (turn Q e)).
  { intros l e H. apply eigenvector_mv. apply eigenvector_mv in H. apply (col_ext Q); auto. intros i Hi.
    rewrite ip_scale_r, col_turn by auto. pose proof (conj_mv Q kappa h e i Hi ltac:(lra)) as C. rewrite H in C.
    assert (C' : coord (vscale l e) i = l * coord e i) by (destruct i as [|[|i]]; reflexivity). rewrite C' in C.
    replace (ip (col Q i) (mv h (turn Q e))) with (kappa * (ip (col Q i) (mv h (turn Q e)) / kappa)) by (field; lra). rewrite <- C. ring. }
  split; [destruct Hl; split; apply Rmult_le_compat_l; lra|].
  split; [unfold orthonormal in *; rewrite !turn_ip by auto; exact Ho|].
  do 3 (split; [auto|]). do 3 (split; [assumption|]).
  unfold turned_eig. rewrite back_freeze, E. cbn [ev0 ev1 ev2 w0 w1 w2 xscale]. rewrite !xturn_fv, !turn_scale. reflexivity.
Qed.

(** ** Extended numbers under scaling *)
Section XScale.
  Variable c : R.
  Hypothesis Hc : 0 < c.
  Lemma sgn_scale r : sgn (c * r) = sgn r.
  Proof.
    unfold sgn. destruct (Rlt_dec 0 r), (Rlt_dec 0 (c * r)); try reflexivity.
    - exfalso. nra.
    - exfalso. nra.
    - destruct (Rlt_dec r 0), (Rlt_dec (c * r) 0); try reflexivity; exfalso; nra.
  Qed.
  Lemma eq0_scale r : c * r = 0 <-> r = 0.
  Proof. split; intros H; [apply Rmult_integral in H; lra|subst; ring]. Qed.
  Lemma xscale_add a b : xadd (xscale c a) (xscale c b) = xscale c (xadd a b).
  Proof. destruct a, b; cbn; try reflexivity. f_equal. ring. Qed.
  Lemma xscale_neg a : xneg (xscale c a) = xscale c (xneg a).
  Proof. destruct a; cbn; try reflexivity. f_equal. ring. Qed.
  Lemma xscale_sub a b : xsub (xscale c a) (xscale c b) = xscale c (xsub a b).
  Proof. unfold xsub. rewrite xscale_neg, xscale_add. reflexivity. Qed.
  Lemma xsgn_scale a : xsgn (xscale c a) = xsgn a.
  Proof. destruct a; cbn; try reflexivity. apply sgn_scale. Qed.
  Lemma xscale_inf s t : xscale c (inf_of s t) = inf_of s t.
  Proof. destruct s, t; reflexivity. Qed.
  Lemma xscale_mul_l a b : xmul (xscale c a) b = xscale c (xmul a b).
  Proof.
    destruct a, b; cbn [xmul xscale xsgn]; rewrite ?xscale_inf, ?sgn_scale; try reflexivity. f_equal. ring.
  Qed.
  Lemma xscale_div_l a b : xdiv (xscale c a) b = xscale c (xdiv a b).
  Proof.
    destruct a, b; cbn [xdiv xscale xsgn]; try reflexivity; try (destruct Req_EM_T); cbn [xscale]; rewrite ?xscale_inf, ?sgn_scale; try reflexivity;
      f_equal; unfold Rdiv; ring.
  Qed.
  Lemma xscale_div a b : xdiv (xscale c a) (xscale c b) = xdiv a b.
  Proof.
    assert (Z : forall (A : Type) r (x y : A), (if Req_EM_T (c * r) 0 then x else y) = if Req_EM_T r 0 then x else y).
    { intros A r x y. destruct (Req_EM_T (c * r) 0) as [E|E], (Req_EM_T r 0) as [F|F]; try reflexivity;
        [apply (proj1 (eq0_scale _)) in E; contradiction|exfalso; apply E; apply (proj2 (eq0_scale _)); auto]. }
    destruct a, b; cbn [xdiv xscale xsgn]; try reflexivity; rewrite Z, ?sgn_scale; try reflexivity.
    destruct Req_EM_T; [reflexivity|]. f_equal. field. lra.
  Qed.
  Lemma xscale_zero a : xzero (xscale c a) = xzero a.
  Proof.
    destruct a; cbn; try reflexivity. unfold xzero. cbn. destruct (Req_EM_T (c * r) 0) as [E|E], (Req_EM_T r 0) as [F|F]; try reflexivity;
      [apply (proj1 (eq0_scale _)) in E; congruence|exfalso; apply E; apply (proj2 (eq0_scale _)); auto].
  Qed.
  Lemma xscale_ltb a b : xltb (xscale c a) (xscale c b) = xltb a b.
  Proof. destruct a, b; cbn; try reflexivity. destruct (Rlt_dec (c * r) (c * r0)), (Rlt_dec r r0); try reflexivity; exfalso; nra. Qed.
End XScale.
Lemma xmul_comm a b : xmul a b = xmul b a.
Proof.
  assert (I : forall s t, inf_of s t = inf_of t s) by (intros [] []; reflexivity).
  destruct a, b; cbn; try reflexivity; try apply I. f_equal. ring.
Qed.
Lemma xscale_twice a b x : xscale a (xscale b x) = xscale (a * b) x.
Proof. destruct x; cbn; try reflexivity. f_equal. ring. Qed.
Lemma xscale_mul a b x y : 0 < a -> 0 < b -> xmul (xscale a x) (xscale b y) = xscale (a * b) (xmul x y).
Proof. intros Ha Hb. rewrite xscale_mul_l, xmul_comm, xscale_mul_l, xscale_twice, (xmul_comm y) by auto. reflexivity. Qed.
Lemma xscale_sq k x : 0 < k -> xsq (xscale k x) = xscale (k * k) (xsq x).
Proof. intros. apply xscale_mul; auto. Qed.
Lemma xscale_sqrt k x : 0 < k -> xsqrt (xscale (k * k) x) = xscale k (xsqrt x).
Proof.
  intros Hk. destruct x; cbn; try reflexivity. destruct (Rlt_dec (k * k * r) 0) as [H|H], (Rlt_dec r 0) as [H'|H']; cbn; try reflexivity.
  - exfalso. assert (0 <= k * k * r) by (apply Rmult_le_pos; nra). lra.
  - exfalso. apply H. assert (0 < k * k) by nra. nra.
  - f_equal. rewrite sqrt_mult by nra. rewrite sqrt_square by lra. reflexivity.
Qed.
Lemma nth_xscale k l i : nth i (map (xscale k) l) NaN = xscale k (nth i l NaN).
Proof. change NaN with (xscale k NaN) at 1. apply map_nth. Qed.

(** ** One shape *)
Definition sim_morph (Q : frame) (k : R) (mi : morph) : morph :=
  mkM (xscale k (md mi)) (mq mi) (ms mi) (xturn Q (major mi)) (xturn Q (inter mi)) (xturn Q (minor mi)).
Lemma xturn_x0 Q : xturn Q x0 = x0.
Proof. change x0 with (fv v0). rewrite xturn_fv, turn_v0. reflexivity. Qed.
Lemma sim_zeros Q k : sim_morph Q k zeros = zeros.
Proof. unfold sim_morph, zeros. cbn [md mq ms major inter minor]. rewrite !xturn_x0. cbn. repeat f_equal; ring. Qed.
Definition xvscale (k : R) (x : xvec) : xvec := mkX (xscale k (xx x)) (xscale k (xy x)) (xscale k (xz x)).
Lemma ellval_scale k q s x : 0 < k -> ellval q s (xvscale k x) = xscale (k * k) (ellval q s x).
Proof.
  intros Hk. assert (0 < k * k) by nra. unfold ellval, xvscale. cbn [xx xy xz]. rewrite !xscale_sq by auto.
  rewrite !xscale_div_l by auto. rewrite !xscale_add. reflexivity.
Qed.

(** ** Runs *)
Section Sim.
  Variable eig : nat -> list xr -> eigres.
  Hypothesis Heig : eig_contract eig.
  Variables (xyz ten xyz' ten' : list vec) (masses : list R) (center tcenter center' tcenter' : vec).
  Variables (d : R) (delta : option R) (tol : R) (wall mn : Z) (reduced : bool).
  Variables (Q : frame) (k kt mu : R).
  Hypothesis HQ : is_turn Q.
  Hypothesis Hk : 0 < k.
  Hypothesis Hkt : 0 < kt.
  Hypothesis Hmu : 0 < mu.
  Hypothesis Hx : map (fun p => vsub p center') xyz' = map (fun p => vscale k (turn Q (vsub p center))) xyz.
  Hypothesis Ht : map (fun p => vsub p tcenter') ten' = map (fun p => vscale kt (turn Q (vsub p tcenter))) ten.
  Hypothesis Hl : length masses = length ten.
  Hypothesis Hm : nonneg xyz masses.
  Let kappa := if reduced then (kt / k) * (kt / k) else kt * kt.
  Let eig' := turned_eig Q kappa eig.
  Let masses' := map (Rmult mu) masses.
  Let d' := k * d.
  Let delta' := option_map (Rmult k) delta.
  Lemma kappa_pos : 0 < kappa.
  Proof. unfold kappa. assert (0 < kt / k) by (apply Rdiv_lt_0_compat; auto). destruct reduced; nra. Qed.

  Lemma len_x : length xyz' = length xyz.
  Proof. apply (f_equal (@length _)) in Hx. now rewrite !map_length in Hx. Qed.
  Lemma len_t : length ten' = length ten.
  Proof. apply (f_equal (@length _)) in Ht. now rewrite !map_length in Ht. Qed.
  Lemma sim_nth c c' kk (l l' : list vec) i : map (fun p => vsub p c') l' = map (fun p => vscale kk (turn Q (vsub p c))) l -> (i < length l)%nat ->
    vsub (nth i l' v0) c' = vscale kk (turn Q (vsub (nth i l v0) c)).
  Proof.
    intros H Hi. assert (length l' = length l) as E by (apply (f_equal (@length _)) in H; now rewrite !map_length in H).
    apply (f_equal (fun m => nth i m v0)) in H.
    rewrite (nth_indep (map _ l') v0 (vsub v0 c')) in H by (rewrite map_length; lia).
    rewrite (nth_indep (map _ l) v0 (vscale kk (turn Q (vsub v0 c)))) in H by (rewrite map_length; auto).
    rewrite (map_nth (fun p => vsub p c')) in H. rewrite H.
    exact (map_nth (fun p => vscale kk (turn Q (vsub p c))) l v0 i).
  Qed.
  Lemma mass_nth i : nth i masses' 0 = mu * nth i masses 0.
  Proof. unfold masses'. rewrite <- (map_nth (Rmult mu)). rewrite Rmult_0_r. reflexivity. Qed.
  Lemma d2_scale a : (k * a) * (k * a) = k * k * (a * a).
  Proof. ring. Qed.

  (** The state of the second run. *)
  Definition same (st st' : kst) : Prop :=
    k_err st' = k_err st /\ k_q st' = k_q st /\ k_s st' = k_s st /\ k_it st' = k_it st /\ k_buf st' = k_buf st /\ k_pts st' = k_pts st /\
    k_rell st' = map (xscale k) (k_rell st) /\ k_mi st' = sim_morph Q k (k_mi st).

  Lemma dist2_ip c p : dist2 c p = ip (vsub p c) (vsub p c).
  Proof. unfold dist2, ip, vsub. cbn [vx vy vz]. ring. Qed.
  Lemma sphere_sim i : (i < length xyz)%nat -> in_sphere center' d' delta' (nth i xyz' v0) = in_sphere center d delta (nth i xyz v0).
  Proof.
    intros Hi. unfold in_sphere. rewrite !dist2_ip, (sim_nth center center' k xyz xyz' i Hx Hi).
    set (v := vsub (nth i xyz v0) center). rewrite ip_scale, ip_scale_r, turn_ip by auto. set (r := ip v v).
    assert (0 < k * k) by nra.
    assert (A : (if Rlt_dec (k * (k * r)) (d' * d') then true else false) = (if Rlt_dec r (d * d) then true else false)).
    { unfold d'. destruct (Rlt_dec (k * (k * r)) _), (Rlt_dec r (d * d)); try reflexivity; exfalso; nra. }
    rewrite A. unfold delta'. destruct delta as [dd|]; cbn [option_map]; [|reflexivity]. f_equal.
    unfold d'. replace ((k * d - k * dd) * (k * d - k * dd)) with (k * k * ((d - dd) * (d - dd))) by ring.
    destruct (Rle_dec _ (k * (k * r))), (Rle_dec _ r); try reflexivity; exfalso; nra.
  Qed.
  Lemma init_sim mi0 : same (katz_init xyz center d delta mi0) (katz_init xyz' center' d' delta' (sim_morph Q k mi0)).
  Proof.
    unfold katz_init. rewrite len_x. rewrite (compact_ext _ (fun i => in_sphere center d delta (nth i xyz v0)) _ sphere_sim).
    destruct compact as [buf pts]. unfold same. cbn [k_err k_q k_s k_it k_buf k_pts k_rell k_mi].
    do 6 (split; [reflexivity|]). split; [|reflexivity].
    assert (G : forall c l, map (fun p => xsqrt (ellval (Fin 1) (Fin 1) (mkX (Fin (vx c - vx p)) (Fin (vy c - vy p)) (Fin (vz c - vz p))))) l =
       map (fun v => xsqrt (Fin (ip v v))) (map (fun p => vsub p c) l)).
    { intros c l. rewrite map_map. apply map_ext. intros p.
      change (mkX (Fin (vx c - vx p)) (Fin (vy c - vy p)) (Fin (vz c - vz p))) with (fv (vsub c p)).
      rewrite ellval_fin by lra. f_equal. f_equal. unfold ip, vsub. cbn [vx vy vz]. field. }
    rewrite !G, Hx, !map_map. apply map_ext. intros p. rewrite ip_scale, ip_scale_r, turn_ip by auto.
    rewrite <- xscale_sqrt by auto. cbn [xscale]. f_equal. f_equal. ring.
  Qed.

  (** The tensors. *)
  Lemma mtot_sim select nb : mtot select masses' nb = mu * mtot select masses nb.
  Proof.
    unfold mtot. rewrite (total_ext _ (fun j => mu * nth j masses 0)) by (intros; apply mass_nth). apply total_scale.
  Qed.
  Lemma tdiv_sim select nb rell :
    existsb xzero (tensor_divisors select masses' nb reduced (map (xscale k) rell)) = existsb xzero (tensor_divisors select masses nb reduced rell).
  Proof.
    unfold tensor_divisors. rewrite !mass_fold, mtot_sim. set (M := mtot select masses nb).
    induction (seq 0 nb) as [|run l IH]; cbn [map existsb]; [reflexivity|]. f_equal; [|exact IH].
    destruct reduced; [|exact (xscale_zero mu Hmu (Fin M))].
    rewrite nth_xscale, xscale_sq by auto. change (Fin (mu * M)) with (xscale mu (Fin M)). assert (0 < k * k) by nra.
    rewrite xscale_mul by auto. apply xscale_zero. nra.
  Qed.
  Lemma tensor_any nns select ms cen nb rell : (nb = 0%nat \/ mtot select ms nb <> 0) -> good_rell select nb reduced rell ->
    freeze (calcShapeTensor nns select ms cen nb reduced rell) = freeze (fun i j => Fin (moment nns ms cen (weight reduced rell) (sel select nb) i j)).
  Proof.
    intros [->|H] Hr.
    - apply freeze_ext. intros i j Hi Hj. rewrite tensor_entry by auto. unfold tsum, sel, moment. cbn. f_equal. unfold Rdiv. symmetry. apply Rmult_0_l.
    - apply tensor_frozen; auto.
  Qed.
  Lemma total_over (f g : nat -> R) M l : total f l / M + total g l / M = total (fun x => f x + g x) l / M.
  Proof. rewrite total_plus. unfold Rdiv. ring. Qed.
  Lemma bilinear nns ms cen wt l a b : ip a (mv (moment nns ms cen wt l) b) =
    total (fun j => nth j ms 0 * wt j * ip a (vsub (nth j nns v0) cen) * ip b (vsub (nth j nns v0) cen)) l / total (fun j => nth j ms 0) l.
  Proof.
    unfold ip, mv, moment. cbn [vx vy vz]. set (M := total (fun j => nth j ms 0) l).
    rewrite (total_ext (fun j => nth j ms 0 * wt j * (vx a * vx (vsub (nth j nns v0) cen) + _ + _) * _)
      (fun j => let c i := coord (nth j nns v0) i - coord cen i in let m := nth j ms 0 * wt j in
        vx a * vx b * (m * c 0%nat * c 0%nat) + vx a * vy b * (m * c 0%nat * c 1%nat) + vx a * vz b * (m * c 0%nat * c 2%nat)
        + vy a * vx b * (m * c 1%nat * c 0%nat) + vy a * vy b * (m * c 1%nat * c 1%nat) + vy a * vz b * (m * c 1%nat * c 2%nat)
        + vz a * vx b * (m * c 2%nat * c 0%nat) + vz a * vy b * (m * c 2%nat * c 1%nat) + vz a * vz b * (m * c 2%nat * c 2%nat)))
      by (intros j _; unfold vsub; cbn [vx vy vz coord]; ring).
    cbv zeta. rewrite !total_plus, !total_scale. cbn [coord]. unfold Rdiv. ring.
  Qed.
  Lemma tensor_sim select nb rell : (forall j, In j (sel select nb) -> (j < length ten)%nat) ->
    (nb = 0%nat \/ mtot select masses nb <> 0) -> good_rell select nb reduced rell ->
    exists h, (forall i j, h i j = h j i) /\
      freeze (calcShapeTensor ten select masses tcenter nb reduced rell) = freeze (fun i j => Fin (h i j)) /\
      back Q kappa (freeze (calcShapeTensor ten' select masses' tcenter' nb reduced (map (xscale k) rell))) = freeze (fun i j => Fin (h i j)).
  Proof.
    intros Hs H Hr. exists (moment ten masses tcenter (weight reduced rell) (sel select nb)).
    split; [intros; apply moment_sym|]. split; [apply tensor_any; auto|].
    rewrite tensor_any.
    - rewrite back_freeze. apply freeze_ext. intros i j Hi Hj. f_equal. unfold conj. rewrite bilinear. unfold moment.
      assert (M : total (fun j => nth j masses' 0) (sel select nb) = mu * total (fun j => nth j masses 0) (sel select nb)) by exact (mtot_sim select nb).
      rewrite M.
      rewrite (total_ext _ (fun p => mu * kappa * (nth p masses 0 * weight reduced rell p * (coord (nth p ten v0) i - coord tcenter i) * (coord (nth p ten v0) j - coord tcenter j)))).
      + rewrite total_scale. destruct H as [->|H].
        * unfold sel. cbn [seq map total]. unfold Rdiv. ring.
        * pose proof kappa_pos. unfold mtot in H. field. repeat split; try lra; auto.
      + intros p Hp. rewrite mass_nth, (sim_nth tcenter tcenter' kt ten ten' p Ht (Hs p Hp)). rewrite !ip_scale_r, !col_turn by auto.
        assert (C : forall n, coord (vsub (nth p ten v0) tcenter) n = coord (nth p ten v0) n - coord tcenter n) by (intros [|[|n]]; reflexivity).
        rewrite !C. unfold weight, kappa. destruct reduced eqn:Er; [|ring].
        rewrite nth_xscale. destruct (Hr eq_refl p Hp) as (r & -> & Hr0). cbn [xscale]. field. split; lra.
    - destruct H as [H|H]; [left; auto|right]. rewrite mtot_sim. apply Rmult_integral_contrapositive_currified; lra.
    - intros Er p Hp. destruct (Hr Er p Hp) as (r & E & Hr0). rewrite nth_xscale, E. exists (k * r). split; [reflexivity|].
      apply Rmult_integral_contrapositive_currified; lra.
  Qed.

  (** What depends on the positions in the principal frame. *)
  Lemma princ_sim mi : (exists a b c, major mi = fv a /\ inter mi = fv b /\ minor mi = fv c) ->
    map (princ (sim_morph Q k mi) center') xyz' = map (xvscale k) (map (princ mi center) xyz).
  Proof.
    intros (a & b & c & Ea & Eb & Ec).
    transitivity (map (fun v => fv (mkV (ip (turn Q a) v) (ip (turn Q b) v) (ip (turn Q c) v))) (map (fun p => vsub p center') xyz')).
    - rewrite map_map. apply map_ext. intros p. apply princ_fv; unfold sim_morph; cbn [major inter minor]; rewrite ?Ea, ?Eb, ?Ec; apply xturn_fv.
    - rewrite Hx, !map_map. apply map_ext. intros p. rewrite (princ_fv mi a b c) by auto. rewrite !ip_scale_r, !turn_ip by auto. reflexivity.
  Qed.
  Lemma ell_sim q s x : in_ell d' delta' q s (xvscale k x) = in_ell d delta q s x.
  Proof.
    assert (K : 0 < k * k) by nra. unfold in_ell. rewrite ellval_scale by auto. unfold d'. rewrite d2_scale.
    change (Fin (k * k * (d * d))) with (xscale (k * k) (Fin (d * d))). rewrite xscale_ltb by auto. f_equal.
    unfold delta'. destruct delta as [dd|]; cbn [option_map]; [|reflexivity].
    destruct (Req_EM_T (k * d) (k * dd)) as [E|E], (Req_EM_T d dd) as [F|F]; try reflexivity.
    - exfalso. apply F. apply (Rmult_eq_reg_l k); lra.
    - exfalso. apply E. rewrite F. reflexivity.
    - assert (D1 : Fin (k * d - k * dd) = xscale k (Fin (d - dd))) by (cbn; f_equal; ring).
      assert (D2 : forall a, xsub (xmul a (Fin (k * d))) (Fin (k * dd)) = xscale k (xsub (xmul a (Fin d)) (Fin dd))).
      { intros a. change (Fin (k * d)) with (xscale k (Fin d)). change (Fin (k * dd)) with (xscale k (Fin dd)).
        rewrite xmul_comm, xscale_mul_l, xmul_comm, xscale_sub by auto. reflexivity. }
      unfold xvscale. cbn [xx xy xz]. rewrite D1, !D2, !xscale_sq by auto. rewrite !xscale_div by auto. reflexivity.
  Qed.
  Definition later (dl : R) (de : option R) (q s : xr) (x : xvec) : list xr :=
    [xsq q; xsq s] ++
    match de with
    | None => []
    | Some dd =>
        if Req_EM_T dl dd then []
        else if xltb (ellval q s x) (Fin (dl * dl))
        then [xsq (Fin (dl - dd)); xsq (xsub (xmul q (Fin dl)) (Fin dd)); xsq (xsub (xmul s (Fin dl)) (Fin dd))]
        else []
    end.
  Lemma later_sim q s x : existsb xzero (later d' delta' q s (xvscale k x)) = existsb xzero (later d delta q s x).
  Proof.
    assert (K : 0 < k * k) by nra. unfold later. rewrite !existsb_app. f_equal. unfold delta', d'.
    destruct delta as [dd|]; cbn [option_map]; [|reflexivity].
    destruct (Req_EM_T (k * d) (k * dd)) as [E|E], (Req_EM_T d dd) as [F|F]; try reflexivity.
    - exfalso. apply F. apply (Rmult_eq_reg_l k); lra.
    - exfalso. apply E. rewrite F. reflexivity.
    - rewrite ellval_scale by auto. rewrite d2_scale. change (Fin (k * k * (d * d))) with (xscale (k * k) (Fin (d * d))). rewrite xscale_ltb by auto.
      destruct xltb; [|reflexivity].
      assert (D1 : Fin (k * d - k * dd) = xscale k (Fin (d - dd))) by (cbn; f_equal; ring).
      assert (D2 : forall a, xsub (xmul a (Fin (k * d))) (Fin (k * dd)) = xscale k (xsub (xmul a (Fin d)) (Fin dd))).
      { intros a. change (Fin (k * d)) with (xscale k (Fin d)). change (Fin (k * dd)) with (xscale k (Fin dd)).
        rewrite xmul_comm, xscale_mul_l, xmul_comm, xscale_sub by auto. reflexivity. }
      rewrite D1, !D2, !xscale_sq by auto. cbn [existsb]. rewrite !xscale_zero by auto. reflexivity.
  Qed.

  Notation T0 st := (freeze (calcShapeTensor ten (k_buf st) masses tcenter (k_pts st) reduced (k_rell st))).
  Notation T1 st := (freeze (calcShapeTensor ten' (k_buf st) masses' tcenter' (k_pts st) reduced (k_rell st))).
  Definition new_morph (dl : R) (e : eigres) : morph :=
    mkM (Fin dl) (xsqrt (xdiv (ev1 e) (ev2 e))) (xsqrt (xdiv (ev0 e) (ev2 e))) (normed (w2 e)) (normed (w1 e)) (normed (w0 e)).
  Lemma eig_sim st st' mi0 : kinv xyz ten masses center tcenter d reduced mi0 st -> same st st' -> (forall j, In j (ssel st) -> (j < length ten)%nat) ->
    existsb xzero (tensor_divisors (k_buf st) masses (k_pts st) reduced (k_rell st)) = false ->
    let e := eig (Z.to_nat (k_it st)) (T0 st) in let e' := eig' (Z.to_nat (k_it st')) (T1 st') in
    new_morph d' e' = sim_morph Q k (new_morph d e) /\
    (exists a b c, normed (w2 e) = fv a /\ normed (w1 e) = fv b /\ normed (w0 e) = fv c) /\
    ev2 e' = xscale kappa (ev2 e) /\ xnorm (w2 e') = xnorm (w2 e) /\ xnorm (w1 e') = xnorm (w1 e) /\ xnorm (w0 e') = xnorm (w0 e).
  Proof.
    intros HI (_ & _ & _ & Eit & Ebuf & Epts & Erell & _) Hs HD. cbv zeta.
    pose proof HI as (_ & HL & _ & _).
    assert (N : ssel st = [] \/ ssel st <> []) by (destruct (ssel st); [left; auto|right; discriminate]).
    apply not_true_iff_false in HD. rewrite (tensor_divisors_ok xyz masses center reduced st HL) in HD.
    destruct (tensor_sim (k_buf st) (k_pts st) (k_rell st)) as (h & Hsym & E0 & E1).
    - exact Hs.
    - destruct N as [N|N]; [left; rewrite <- ssel_length, N; reflexivity|right].
      intros Z. apply HD. split; auto.
    - intros Er p Hp. change (In p (ssel st)) in Hp. destruct (HL p Hp) as (_ & r & E & _ & Hr0). exists r. split; auto.
      intros Z. apply HD. split; [intros Z'; rewrite Z' in Hp; destruct Hp|]. right. split; auto. exists p. split; auto. apply Hr0; auto.
    - rewrite Eit, Ebuf, Epts, Erell. unfold eig', turned_eig. cbv zeta. rewrite E1, E0.
      destruct (Heig (Z.to_nat (k_it st)) h Hsym) as (l0 & l1 & l2 & e0 & e1 & e2 & c0 & c1 & c2 & Hle & (O2 & O1 & O0 & _) & _ & _ & _ & N0 & N1 & N2 & ->).
      cbn [ev0 ev1 ev2 w0 w1 w2]. rewrite !xturn_fv, !turn_scale.
      assert (XN : forall c e, xnorm (fv (vscale c (turn Q e))) = xnorm (fv (vscale c e))).
      { intros c e. unfold xnorm, fv. cbn [xx xy xz xsq xmul xadd]. f_equal. f_equal.
        transitivity (ip (vscale c (turn Q e)) (vscale c (turn Q e))); [reflexivity|]. rewrite <- turn_scale, turn_ip by auto. reflexivity. }
      assert (TT : forall e, ip (turn Q e) (turn Q e) = ip e e) by (intros; apply turn_ip; auto).
      split.
      + unfold new_morph, sim_morph. cbn [ev0 ev1 ev2 w0 w1 w2 md mq ms major inter minor].
        rewrite !xscale_div by apply kappa_pos. rewrite !normed_unit by (auto; rewrite ?TT; auto). rewrite !xturn_fv, !turn_scale. reflexivity.
      + split; [|split; [reflexivity|rewrite !XN; auto]].
        rewrite !normed_unit by auto. do 3 eexists. repeat split; reflexivity.
  Qed.

  Lemma divisors_sim st st' mi0 : kinv xyz ten masses center tcenter d reduced mi0 st -> same st st' -> (forall j, In j (ssel st) -> (j < length ten)%nat) ->
    existsb xzero (divisors eig' xyz' ten' masses' center' tcenter' d' delta' reduced st') =
    existsb xzero (divisors eig xyz ten masses center tcenter d delta reduced st).
  Proof.
    intros HI HS Hj. unfold divisors. rewrite !existsb_app.
    destruct (existsb xzero (tensor_divisors (k_buf st) masses (k_pts st) reduced (k_rell st))) eqn:HD.
    - destruct HS as (_ & _ & _ & _ & Ebuf & Epts & Erell & _). rewrite Ebuf, Epts, Erell, tdiv_sim, HD. reflexivity.
    - destruct (eig_sim st st' mi0 HI HS Hj HD) as (EM & EF & E2 & X2 & X1 & X0). pose proof HS as (_ & Eq & Es & _ & Ebuf & Epts & Erell & _).
      set (e := eig (Z.to_nat (k_it st)) _) in *. set (e' := eig' (Z.to_nat (k_it st')) _) in *.
      clearbody e e'. rewrite Ebuf, Epts, Erell, tdiv_sim, HD. cbn [orb].
      fold (new_morph d' e'). fold (new_morph d e).
      pose proof (f_equal mq EM) as EQ. pose proof (f_equal ms EM) as ES. cbn [new_morph sim_morph mq ms] in EQ, ES.
      rewrite EQ, ES. set (q := xsqrt (xdiv (ev1 e) (ev2 e))) in *. set (s := xsqrt (xdiv (ev0 e) (ev2 e))) in *.
      cbn [existsb app]. rewrite E2, X2, X1, X0, Eq, Es, xscale_zero by apply kappa_pos.
      f_equal.
      transitivity (existsb xzero (flat_map (later d' delta' q s) (map (princ (new_morph d' e') center') xyz'))).
      { rewrite flat_map_map. reflexivity. }
      transitivity (existsb xzero (flat_map (later d delta q s) (map (princ (new_morph d e) center) xyz))).
      2:{ rewrite flat_map_map. reflexivity. }
      rewrite EM, princ_sim.
      + induction (map (princ (new_morph d e) center) xyz) as [|x l IH]; [reflexivity|]. cbn [map flat_map].
        rewrite (existsb_app _ (later d' delta' q s _)), (existsb_app _ (later d delta q s _)), later_sim. f_equal. exact IH.
      + destruct EF as (a & b & c & Ea & Eb & Ec). exists a, b, c. auto.
  Qed.

  Lemma body_sim st st' mi0 : kinv xyz ten masses center tcenter d reduced mi0 st -> same st st' -> (forall j, In j (ssel st) -> (j < length ten)%nat) ->
    existsb xzero (divisors eig xyz ten masses center tcenter d delta reduced st) = false ->
    same (katz_body eig xyz ten masses center tcenter d delta reduced st) (katz_body eig' xyz' ten' masses' center' tcenter' d' delta' reduced st').
  Proof.
    intros HI HS Hj HZ.
    assert (HD : existsb xzero (tensor_divisors (k_buf st) masses (k_pts st) reduced (k_rell st)) = false).
    { unfold divisors in HZ. rewrite existsb_app in HZ. apply orb_false_iff in HZ. apply HZ. }
    destruct (eig_sim st st' mi0 HI HS Hj HD) as (EM & EF & _). pose proof HS as (_ & Eq & Es & Eit & _).
    unfold katz_body. set (e := eig (Z.to_nat (k_it st)) _) in *. set (e' := eig' (Z.to_nat (k_it st')) _) in *.
    cbv zeta. fold (new_morph d e). fold (new_morph d' e').
    pose proof (f_equal mq EM) as EQ. pose proof (f_equal ms EM) as ES. cbn [new_morph sim_morph mq ms] in EQ, ES. rewrite EQ, ES.
    assert (PR : map (princ (new_morph d' e') center') xyz' = map (xvscale k) (map (princ (new_morph d e) center) xyz)).
    { rewrite EM. apply princ_sim. destruct EF as (a & b & c & Ea & Eb & Ec). exists a, b, c. auto. }
    rewrite PR, len_x. set (pr := map (princ (new_morph d e) center) xyz).
    set (q := xsqrt (xdiv (ev1 e) (ev2 e))) in *. set (s := xsqrt (xdiv (ev0 e) (ev2 e))) in *.
    rewrite (compact_ext (fun i => in_ell d' delta' q s (nth i (map (xvscale k) pr) x0)) (fun i => in_ell d delta q s (nth i pr x0))).
    - destruct compact as [buf pts]. unfold same. cbn [k_err k_q k_s k_it k_buf k_pts k_rell k_mi].
      rewrite Eq, Es, Eit. do 6 (split; [reflexivity|]). split; [|exact EM].
      rewrite !map_map. apply map_ext. intros p. rewrite ellval_scale, xscale_sqrt by auto. reflexivity.
    - intros i Hi. assert (X : x0 = xvscale k x0) by (unfold xvscale, x0; cbn; repeat f_equal; ring). rewrite X at 1. rewrite map_nth. apply ell_sim.
  Qed.

  Definition sim_res (r : pyres morph) : pyres morph := match r with Ret mi => Ret (sim_morph Q k mi) | ZeroDivision => ZeroDivision end.
  Hypothesis Hxt : length xyz = length ten.
  Lemma loop_sim fuel mi0 : forall st st', kinv xyz ten masses center tcenter d reduced mi0 st -> same st st' ->
    option_map fst (katz_loop eig' xyz' ten' masses' center' tcenter' d' delta' tol wall mn reduced fuel st') =
    option_map (fun r => sim_res (fst r)) (katz_loop eig xyz ten masses center tcenter d delta tol wall mn reduced fuel st).
  Proof.
    induction fuel as [|fuel IH]; intros st st' HI HS; pose proof HS as (Ee & _ & _ & Ei & _ & Ep & _ & Em); cbn [katz_loop]; rewrite Ee, Ei, Ep.
    - destruct xltb; [|cbn; rewrite Em; reflexivity].
      destruct Z.ltb; [cbn; rewrite sim_zeros; reflexivity|]. destruct Z.ltb; [cbn; rewrite sim_zeros; reflexivity|reflexivity].
    - destruct xltb; [|cbn; rewrite Em; reflexivity].
      destruct Z.ltb; [cbn; rewrite sim_zeros; reflexivity|]. destruct Z.ltb; [cbn; rewrite sim_zeros; reflexivity|].
      assert (Hj : forall j, In j (ssel st) -> (j < length ten)%nat).
      { intros j Hj. destruct HI as (_ & HL & _). destruct (HL j Hj) as (Hlt & _). lia. }
      rewrite (divisors_sim st st' mi0) by auto.
      destruct (existsb xzero (divisors eig xyz ten masses center tcenter d delta reduced st)) eqn:HZ; [reflexivity|].
      apply IH.
      + apply kinv_body; auto.
      + apply (body_sim st st' mi0); auto.
  Qed.
  Lemma katz_sim fuel mi0 :
    option_map fst (katz eig' xyz' ten' masses' center' tcenter' d' delta' tol wall mn reduced fuel (sim_morph Q k mi0)) =
    option_map (fun r => sim_res (fst r)) (katz eig xyz ten masses center tcenter d delta tol wall mn reduced fuel mi0).
  Proof. unfold katz. apply (loop_sim fuel mi0); [apply kinv_init|apply init_sim]. Qed.

  (** All three axes of a result are numbers. *)
  Definition fax (mi : morph) : Prop := exists a b c, major mi = fv a /\ inter mi = fv b /\ minor mi = fv c.
  Lemma fax_zeros : fax zeros.
  Proof. exists v0, v0, v0. repeat split; reflexivity. Qed.
  Lemma loop_fax fuel mi0 : forall st st', kinv xyz ten masses center tcenter d reduced mi0 st -> same st st' -> fax (k_mi st) ->
    forall mi tr, katz_loop eig xyz ten masses center tcenter d delta tol wall mn reduced fuel st = Some (Ret mi, tr) -> fax mi.
  Proof.
    induction fuel as [|fuel IH]; intros st st' HI HS Hf mi tr; cbn [katz_loop].
    - destruct xltb; [|intros [= <- _]; exact Hf].
      destruct Z.ltb; [intros [= <- _]; apply fax_zeros|]. destruct Z.ltb; [intros [= <- _]; apply fax_zeros|discriminate].
    - destruct xltb; [|intros [= <- _]; exact Hf].
      destruct Z.ltb; [intros [= <- _]; apply fax_zeros|]. destruct Z.ltb; [intros [= <- _]; apply fax_zeros|].
      assert (Hj : forall j, In j (ssel st) -> (j < length ten)%nat).
      { intros j Hj. destruct HI as (_ & HL & _). destruct (HL j Hj) as (Hlt & _). lia. }
      destruct (existsb xzero (divisors eig xyz ten masses center tcenter d delta reduced st)) eqn:HZ; [discriminate|].
      apply (IH _ (katz_body eig' xyz' ten' masses' center' tcenter' d' delta' reduced st')).
      + apply kinv_body; auto.
      + apply (body_sim st st' mi0); auto.
      + assert (HD : existsb xzero (tensor_divisors (k_buf st) masses (k_pts st) reduced (k_rell st)) = false).
        { unfold divisors in HZ. rewrite existsb_app in HZ. apply orb_false_iff in HZ. apply HZ. }
        destruct (eig_sim st st' mi0 HI HS Hj HD) as (_ & EF & _). unfold katz_body. cbv zeta. destruct compact as [b n]. cbn [k_mi].
        destruct EF as (x & y & z & A & B & C). exists x, y, z. cbn [major inter minor]. auto.
  Qed.
  Lemma katz_fax fuel mi0 mi tr : fax mi0 -> katz eig xyz ten masses center tcenter d delta tol wall mn reduced fuel mi0 = Some (Ret mi, tr) -> fax mi.
  Proof.
    intros H. unfold katz. apply (loop_fax fuel mi0 _ _ (kinv_init _ _ _ _ _ _ _ _ _) (init_sim mi0)).
    unfold katz_init. destruct compact. exact H.
  Qed.
End Sim.
