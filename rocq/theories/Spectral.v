(** A 3x3 real symmetric matrix has an orthonormal basis of eigenvectors. Nothing of /repo is
    modelled here: this shows that an eigensolver meeting [eig_contract] exists, so that no
    theorem assuming the contract is vacuous. *)
From Coq Require Import List Reals ZArith Lra Lia Bool Arith.
From Verif Require Import ListUtil XR GeoModel GeoSpec GeoProofs ShapeModel ShapeSpec ShapeProofs ShapeKatz.
Import ListNotations.
Open Scope R_scope.

(** A real root of a monic cubic, by the intermediate value theorem. *)
Lemma cubic_root a b c : { t : R | t * t * t + a * (t * t) + b * t + c = 0 }.
Proof.
  set (f := fun t => t * t * t + a * (t * t) + b * t + c).
  set (M := 1 + Rabs a + Rabs b + Rabs c).
  assert (HM : 1 <= M) by (unfold M; pose proof (Rabs_pos a); pose proof (Rabs_pos b); pose proof (Rabs_pos c); lra).
  assert (Hc : continuity f) by (unfold f; reg).
  assert (Ha := Rle_abs a). assert (Ha' := Rle_abs (- a)). rewrite Rabs_Ropp in Ha'.
  assert (Hb := Rle_abs b). assert (Hb' := Rle_abs (- b)). rewrite Rabs_Ropp in Hb'.
  assert (Hcc := Rle_abs c). assert (Hc' := Rle_abs (- c)). rewrite Rabs_Ropp in Hc'.
  assert (H2 : M <= M * M) by nra.
  assert (E : M * M * M = M * M * (1 + Rabs a + Rabs b + Rabs c)) by (unfold M; ring).
  assert (P1 : - (Rabs a * (M * M)) <= a * (M * M) <= Rabs a * (M * M)) by (split; nra).
  assert (P2 : - (Rabs b * (M * M)) <= b * M <= Rabs b * (M * M)).
  { pose proof (Rabs_pos b). split; nra. }
  assert (P3 : - (Rabs c * (M * M)) <= c <= Rabs c * (M * M)).
  { pose proof (Rabs_pos c). split; nra. }
  assert (Hhi : 0 < f M) by (unfold f; nra).
  assert (Hlo : f (- M) < 0).
  { unfold f. replace (- M * - M * - M) with (- (M * M * M)) by ring.
    replace (a * (- M * - M)) with (a * (M * M)) by ring. replace (b * - M) with (- (b * M)) by ring. nra. }
  destruct (IVT_cor f (- M) M Hc) as (z & _ & Hz); [lra|nra|].
  exists z. exact Hz.
Qed.

Definition cross (a b : vec) : vec :=
  mkV (vy a * vz b - vz a * vy b) (vz a * vx b - vx a * vz b) (vx a * vy b - vy a * vx b).

Lemma cross_l a b : ip a (cross a b) = 0. Proof. unfold ip, cross. cbn. ring. Qed.
Lemma cross_r a b : ip b (cross a b) = 0. Proof. unfold ip, cross. cbn. ring. Qed.

Lemma vec_dec (v : vec) : {v = v0} + {v <> v0}.
Proof.
  destruct v as [x y z]. unfold v0.
  destruct (Req_EM_T x 0); [|right; congruence]. destruct (Req_EM_T y 0); [|right; congruence].
  destruct (Req_EM_T z 0); [left|right]; congruence.
Defined.

Lemma ip_pos v : v <> v0 -> 0 < ip v v.
Proof.
  intros H. destruct v as [x y z]. unfold ip. cbn [vx vy vz].
  destruct (Req_EM_T x 0) as [->|]; [|nra]. destruct (Req_EM_T y 0) as [->|]; [|nra].
  destruct (Req_EM_T z 0) as [->|]; [|nra]. exfalso. apply H. reflexivity.
Qed.

Lemma ip_v0 v : ip v0 v = 0. Proof. unfold ip, v0. cbn. ring. Qed.

(** A non-zero vector orthogonal to a given one. *)
Lemma perp (r : vec) : { v : vec | v <> v0 /\ ip r v = 0 }.
Proof.
  destruct r as [x y z]. destruct (Req_EM_T x 0) as [->|Hx].
  - exists (mkV 1 0 0). split; [intros E; injection E; lra|]. unfold ip. cbn. ring.
  - exists (mkV (- y) x 0). split; [intros E; injection E; intros; lra|]. unfold ip. cbn. ring.
Qed.

Lemma parallel r s v : r <> v0 -> cross r s = v0 -> ip r v = 0 -> ip s v = 0.
Proof.
  intros Hr Hc Hv. unfold cross, v0 in Hc. injection Hc as H1 H2 H3.
  assert (P := ip_pos r Hr).
  assert (E : ip r r * ip s v = ip r s * ip r v).
  { unfold ip. destruct r as [a b c], s as [e f g], v as [x y z]. cbn [vx vy vz] in *.
    transitivity ((a * a + b * b + c * c) * (e * x + f * y + g * z)); [ring|].
    replace ((a * e + b * f + c * g) * (a * x + b * y + c * z)) with
      ((a * a + b * b + c * c) * (e * x + f * y + g * z)
       + (a * f - b * e) * (b * x - a * y) + (b * g - c * f) * (c * y - b * z) + (c * e - a * g) * (a * z - c * x)) by ring.
    rewrite H1, H2, H3. ring. }
  rewrite Hv, Rmult_0_r in E. apply Rmult_integral in E. destruct E; [lra|auto].
Qed.

(** The kernel of a singular matrix with rows r, s, t. *)
Lemma kernel r s t : det3 r s t = 0 -> { v : vec | v <> v0 /\ ip r v = 0 /\ ip s v = 0 /\ ip t v = 0 }.
Proof.
  intros D.
  assert (D1 : ip r (cross s t) = 0) by (rewrite <- D; unfold ip, cross, det3; cbn; ring).
  assert (D2 : ip s (cross t r) = 0) by (rewrite <- D; unfold ip, cross, det3; cbn; ring).
  assert (D3 : ip t (cross r s) = 0) by (rewrite <- D; unfold ip, cross, det3; cbn; ring).
  destruct (vec_dec (cross s t)) as [Z1|N]; [|exists (cross s t); repeat split; auto using cross_l, cross_r].
  destruct (vec_dec (cross t r)) as [Z2|N]; [|exists (cross t r); repeat split; auto using cross_l, cross_r].
  destruct (vec_dec (cross r s)) as [Z3|N]; [|exists (cross r s); repeat split; auto using cross_l, cross_r].
  assert (anti : forall a b, cross a b = v0 -> cross b a = v0).
  { intros a b H. unfold cross, v0 in *. injection H as H1 H2 H3. f_equal; lra. }
  destruct (vec_dec r) as [-> |Nr].
  - destruct (vec_dec s) as [-> |Ns].
    + destruct (perp t) as (v & Hv & Hp). exists v. repeat split; auto using ip_v0.
    + destruct (perp s) as (v & Hv & Hp). exists v. repeat split; auto using ip_v0.
      eapply parallel; [exact Ns|exact Z1|exact Hp].
  - destruct (perp r) as (v & Hv & Hp). exists v. repeat split; auto.
    + eapply parallel; [exact Nr|exact Z3|exact Hp].
    + eapply parallel; [exact Nr|apply anti; exact Z2|exact Hp].
Qed.

(** Unit vectors. *)
Lemma unit_of v : v <> v0 -> ip (vscale (/ sqrt (ip v v)) v) (vscale (/ sqrt (ip v v)) v) = 1.
Proof.
  intros H. assert (P := ip_pos v H). assert (Q := sqrt_lt_R0 _ P).
  set (k := sqrt (ip v v)) in *. assert (K : k * k = ip v v) by (apply sqrt_sqrt; lra).
  transitivity (/ k * / k * ip v v); [unfold ip, vscale; cbn; ring|]. rewrite <- K. field. lra.
Qed.

(** The action of a symmetric matrix. *)
Definition row (h : nat -> nat -> R) (i : nat) : vec := mkV (h i 0%nat) (h i 1%nat) (h i 2%nat).
Definition ap (h : nat -> nat -> R) (v : vec) : vec := mkV (ip (row h 0) v) (ip (row h 1) v) (ip (row h 2) v).

Lemma eigenvector_ap h l e : ap h e = vscale l e -> eigenvector h l e.
Proof.
  intros H i Hi. unfold ap, vscale, row, ip in H. cbn [vx vy vz] in H. injection H as H0 H1 H2.
  destruct i as [|[|[|i]]]; [exact H0|exact H1|exact H2|lia].
Qed.

Lemma self_adjoint h v w : (forall i j, h i j = h j i) -> ip v (ap h w) = ip (ap h v) w.
Proof.
  intros Hs. unfold ap, row, ip. cbn [vx vy vz].
  rewrite (Hs 1%nat 0%nat), (Hs 2%nat 0%nat), (Hs 2%nat 1%nat). ring.
Qed.

Definition lin3 (a b c : R) (e f g : vec) : vec := vadd (vadd (vscale a e) (vscale b f)) (vscale c g).

Lemma expand e f g w : orthonormal e f g -> w = lin3 (ip e w) (ip f w) (ip g w) e f g.
Proof.
  intros Ho. symmetry. apply sub_zero. apply (frame_zero e f g); auto;
    destruct Ho as (A & B & C & D & E & F);
    unfold ip, lin3, vsub, vadd, vscale in *; cbn [vx vy vz] in *.
  - set (p := vx e * vx w + vy e * vy w + vz e * vz w) in *. set (q := vx f * vx w + vy f * vy w + vz f * vz w) in *.
    set (r := vx g * vx w + vy g * vy w + vz g * vz w) in *.
    transitivity (p * (vx e * vx e + vy e * vy e + vz e * vz e) + q * (vx e * vx f + vy e * vy f + vz e * vz f)
                  + r * (vx e * vx g + vy e * vy g + vz e * vz g) - (vx e * vx w + vy e * vy w + vz e * vz w)); [ring|].
    rewrite A, D, E. fold p. ring.
  - set (p := vx e * vx w + vy e * vy w + vz e * vz w) in *. set (q := vx f * vx w + vy f * vy w + vz f * vz w) in *.
    set (r := vx g * vx w + vy g * vy w + vz g * vz w) in *.
    transitivity (p * (vx e * vx f + vy e * vy f + vz e * vz f) + q * (vx f * vx f + vy f * vy f + vz f * vz f)
                  + r * (vx f * vx g + vy f * vy g + vz f * vz g) - (vx f * vx w + vy f * vy w + vz f * vz w)); [ring|].
    rewrite B, D, F. fold q. ring.
  - set (p := vx e * vx w + vy e * vy w + vz e * vz w) in *. set (q := vx f * vx w + vy f * vy w + vz f * vz w) in *.
    set (r := vx g * vx w + vy g * vy w + vz g * vz w) in *.
    transitivity (p * (vx e * vx g + vy e * vy g + vz e * vz g) + q * (vx f * vx g + vy f * vy g + vz f * vz g)
                  + r * (vx g * vx g + vy g * vy g + vz g * vz g) - (vx g * vx w + vy g * vy w + vz g * vz w)); [ring|].
    rewrite C, E, F. fold r. ring.
Qed.

(** An orthonormal triad with a given first vector. *)
Lemma complete e : ip e e = 1 -> { fg : vec * vec | orthonormal e (fst fg) (snd fg) }.
Proof.
  intros He. destruct (perp e) as (v & Hv & Hp).
  set (f := vscale (/ sqrt (ip v v)) v). assert (Hf : ip f f = 1) by (apply unit_of; auto).
  assert (Hef : ip e f = 0) by (unfold f; rewrite (ip_comm e), ip_scale, (ip_comm v e), Hp; ring).
  exists (f, cross e f). cbn [fst snd]. repeat split; auto using cross_l, cross_r.
  transitivity (ip e e * ip f f - ip e f * ip e f); [unfold ip, cross; cbn; ring|]. rewrite He, Hf, Hef. ring.
Qed.

(** 2x2: a rotation (u, w) and eigenvalues for [[al, be], [be, ga]]. *)
Lemma diag2 al be ga : { r : R * R * R * R |
  let '(u, w, m1, m2) := r in u * u + w * w = 1 /\
    al * u + be * w = m1 * u /\ be * u + ga * w = m1 * w /\
    al * - w + be * u = m2 * - w /\ be * - w + ga * u = m2 * u }.
Proof.
  destruct (Req_EM_T be 0) as [-> |Hb].
  - exists (1, 0, al, ga). repeat split; ring.
  - set (D := sqrt ((al - ga) * (al - ga) / 4 + be * be)).
    set (m := (al + ga) / 2 + D). set (n := sqrt (be * be + (m - al) * (m - al))).
    assert (HD : D * D = (al - ga) * (al - ga) / 4 + be * be) by (unfold D; apply sqrt_sqrt; pose proof (Rle_0_sqr (al - ga)); pose proof (Rle_0_sqr be); unfold Rsqr in *; lra).
    assert (Hn : n * n = be * be + (m - al) * (m - al)) by (unfold n; apply sqrt_sqrt; pose proof (Rle_0_sqr (m - al)); pose proof (Rle_0_sqr be); unfold Rsqr in *; lra).
    assert (Hn0 : 0 < n) by (unfold n; apply sqrt_lt_R0; pose proof (Rle_0_sqr (m - al)); pose proof (Rsqr_pos_lt be Hb); unfold Rsqr in *; lra).
    assert (Hm : (m - al) * (m - ga) = be * be) by (transitivity (D * D - (al - ga) * (al - ga) / 4); [unfold m; field|rewrite HD; field]).
    exists (be / n, (m - al) / n, m, al + ga - m).
    assert (F : forall x y, x = y -> x / n = y / n) by (intros x y ->; reflexivity).
    repeat split.
    + replace (be / n * (be / n) + (m - al) / n * ((m - al) / n)) with ((be * be + (m - al) * (m - al)) / (n * n)) by (field; lra).
      rewrite Hn. field. rewrite <- Hn. nra.
    + replace (al * (be / n) + be * ((m - al) / n)) with ((al * be + be * (m - al)) / n) by (field; lra).
      replace (m * (be / n)) with (m * be / n) by (field; lra). apply F. ring.
    + replace (be * (be / n) + ga * ((m - al) / n)) with ((be * be + ga * (m - al)) / n) by (field; lra).
      replace (m * ((m - al) / n)) with (m * (m - al) / n) by (field; lra). apply F. nra.
    + replace (al * - ((m - al) / n) + be * (be / n)) with ((be * be - al * (m - al)) / n) by (field; lra).
      replace ((al + ga - m) * - ((m - al) / n)) with (- ((al + ga - m) * (m - al)) / n) by (field; lra). apply F. nra.
    + replace (be * - ((m - al) / n) + ga * (be / n)) with ((ga * be - be * (m - al)) / n) by (field; lra).
      replace ((al + ga - m) * (be / n)) with ((al + ga - m) * be / n) by (field; lra). apply F. ring.
Qed.

Record spectrum := mkS { sl0 : R; sl1 : R; sl2 : R; se0 : vec; se1 : vec; se2 : vec }.
Definition spectral (h : nat -> nat -> R) (s : spectrum) : Prop :=
  orthonormal (se2 s) (se1 s) (se0 s) /\
  eigenvector h (sl0 s) (se0 s) /\ eigenvector h (sl1 s) (se1 s) /\ eigenvector h (sl2 s) (se2 s).

Lemma diagonalise h : (forall i j, h i j = h j i) -> { s : spectrum | spectral h s }.
Proof.
  intros Hs.
  set (tr := h 0%nat 0%nat + h 1%nat 1%nat + h 2%nat 2%nat).
  set (m2 := h 0%nat 0%nat * h 1%nat 1%nat - h 0%nat 1%nat * h 0%nat 1%nat
           + h 0%nat 0%nat * h 2%nat 2%nat - h 0%nat 2%nat * h 0%nat 2%nat
           + h 1%nat 1%nat * h 2%nat 2%nat - h 1%nat 2%nat * h 1%nat 2%nat).
  set (dt := det3 (row h 0) (row h 1) (row h 2)).
  destruct (cubic_root (- tr) m2 (- dt)) as (l & Hl).
  set (rw := fun i => vsub (row h i) (mkV (if (i =? 0)%nat then l else 0) (if (i =? 1)%nat then l else 0) (if (i =? 2)%nat then l else 0))).
  assert (D : det3 (rw 0%nat) (rw 1%nat) (rw 2%nat) = 0).
  { transitivity (- (l * l * l + - tr * (l * l) + m2 * l + - dt)); [|rewrite Hl; ring].
    unfold dt, tr, m2, det3, rw, row, vsub. cbn [vx vy vz Nat.eqb].
    rewrite (Hs 1%nat 0%nat), (Hs 2%nat 0%nat), (Hs 2%nat 1%nat). ring. }
  destruct (kernel _ _ _ D) as (v & Hv & K0 & K1 & K2).
  set (e := vscale (/ sqrt (ip v v)) v). assert (He : ip e e = 1) by (apply unit_of; auto).
  assert (Hev : ap h v = vscale l v).
  { unfold ap, vscale. unfold rw, ip, vsub, row in *. cbn [vx vy vz Nat.eqb] in *. f_equal; lra. }
  assert (Hee : ap h e = vscale l e).
  { unfold e. set (k := / sqrt (ip v v)). clearbody k. unfold ap, vscale, ip, row in *. cbn [vx vy vz] in *.
    injection Hev as H0 H1 H2. f_equal.
    - transitivity (k * (h 0%nat 0%nat * vx v + h 0%nat 1%nat * vy v + h 0%nat 2%nat * vz v)); [ring|]. rewrite H0. ring.
    - transitivity (k * (h 1%nat 0%nat * vx v + h 1%nat 1%nat * vy v + h 1%nat 2%nat * vz v)); [ring|]. rewrite H1. ring.
    - transitivity (k * (h 2%nat 0%nat * vx v + h 2%nat 1%nat * vy v + h 2%nat 2%nat * vz v)); [ring|]. rewrite H2. ring. }
  destruct (complete e He) as ((f & g) & Ho). cbn [fst snd] in Ho.
  assert (Ho' := Ho). destruct Ho' as (_ & Hf & Hg & Hef & Heg & Hfg).
  set (al := ip f (ap h f)). set (be := ip f (ap h g)). set (ga := ip g (ap h g)).
  assert (Hf' : ap h f = lin3 0 al be e f g).
  { rewrite (expand e f g (ap h f) Ho). unfold al, be. f_equal.
    - rewrite self_adjoint, Hee, ip_scale, Hef by auto. ring.
    - rewrite ip_comm, self_adjoint; auto. }
  assert (Hg' : ap h g = lin3 0 be ga e f g).
  { rewrite (expand e f g (ap h g) Ho). unfold be, ga. f_equal.
    rewrite self_adjoint, Hee, ip_scale, Heg by auto. ring. }
  destruct (diag2 al be ga) as ((((u & w) & m1) & n2) & Hu & E1 & E2 & E3 & E4).
  set (p := lin3 0 u w e f g). set (q := lin3 0 (- w) u e f g).
  exists (mkS l m1 n2 e p q). unfold spectral. cbn [sl0 sl1 sl2 se0 se1 se2].
  assert (Hlin : forall a b, ap h (lin3 0 a b e f g) = vadd (vscale a (ap h f)) (vscale b (ap h g))).
  { intros a b. unfold ap, lin3, vadd, vscale, ip. cbn [vx vy vz]. f_equal; ring. }
  assert (ipl : forall a b a' b', ip (lin3 0 a b e f g) (lin3 0 a' b' e f g) = a * a' + b * b').
  { intros a b a' b'.
    transitivity (a * a' * ip f f + (a * b' + b * a') * ip f g + b * b' * ip g g);
      [unfold lin3, vadd, vscale, ip; cbn [vx vy vz]; ring|]. rewrite Hf, Hfg, Hg. ring. }
  assert (ipe : forall a b, ip (lin3 0 a b e f g) e = 0).
  { intros a b. transitivity (a * ip e f + b * ip e g); [unfold lin3, vadd, vscale, ip; cbn [vx vy vz]; ring|].
    rewrite Hef, Heg. ring. }
  assert (lin_eig : forall a b m, al * a + be * b = m * a -> be * a + ga * b = m * b ->
            ap h (lin3 0 a b e f g) = vscale m (lin3 0 a b e f g)).
  { intros a b m A B. rewrite Hlin, Hf', Hg'.
    transitivity (lin3 0 (al * a + be * b) (be * a + ga * b) e f g).
    - unfold lin3, vadd, vscale. cbn [vx vy vz]. f_equal; ring.
    - rewrite A, B. unfold lin3, vadd, vscale. cbn [vx vy vz]. f_equal; ring. }
  split; [|split; [|split]].
  - unfold orthonormal, p, q. rewrite !ipl, !ipe, He. repeat split; lra.
  - apply eigenvector_ap. exact Hee.
  - apply eigenvector_ap. apply lin_eig; auto.
  - apply eigenvector_ap. apply lin_eig; auto.
Qed.

Lemma sorted h : (forall i j, h i j = h j i) -> { s : spectrum | spectral h s /\ sl0 s <= sl1 s <= sl2 s }.
Proof.
  intros Hs. destruct (diagonalise h Hs) as ([x y z ex ey ez] & Ho & Hx & Hy & Hz).
  cbn [sl0 sl1 sl2 se0 se1 se2] in *. destruct Ho as (A & B & C & D & E & F).
  assert (D' := D). assert (E' := E). assert (F' := F). rewrite ip_comm in D', E', F'.
  Ltac fin s := exists s; unfold spectral, orthonormal; cbn; repeat split; auto; lra.
  destruct (Rle_dec x y) as [xy|xy]; destruct (Rle_dec y z) as [yz|yz]; destruct (Rle_dec x z) as [xz|xz];
    try (exfalso; lra).
  - fin (mkS x y z ex ey ez).
  - fin (mkS x z y ex ez ey).
  - fin (mkS z x y ez ex ey).
  - fin (mkS y x z ey ex ez).
  - fin (mkS y z x ey ez ex).
  - fin (mkS z y x ez ey ex).
Qed.

(** An eigensolver: entries of the list as a matrix, upper triangle. *)
Definition fin_of (x : xr) : R := match x with Fin r => r | _ => 0 end.
Definition of_list (l : list xr) (i j : nat) : R := fin_of (nth (3 * Nat.min i j + Nat.max i j) l NaN).
Lemma of_list_sym l i j : of_list l i j = of_list l j i.
Proof. unfold of_list. rewrite Nat.min_comm, Nat.max_comm. reflexivity. Qed.

Definition exact_eig (n : nat) (l : list xr) : eigres :=
  let s := proj1_sig (sorted (of_list l) (of_list_sym l)) in
  mkE (Fin (sl0 s)) (Fin (sl1 s)) (Fin (sl2 s)) (fv (se0 s)) (fv (se1 s)) (fv (se2 s)).

Theorem exact_eig_contract : eig_contract exact_eig.
Proof.
  intros n h Hs. unfold exact_eig. set (l := freeze _).
  destruct (sorted (of_list l) (of_list_sym l)) as (s & (Ho & H0 & H1 & H2) & Hle). cbn [proj1_sig].
  assert (E : forall i j, (i < 3)%nat -> (j < 3)%nat -> of_list l i j = h i j).
  { intros i j Hi Hj. unfold l, of_list.
    destruct i as [|[|[|i]]]; [| | |lia]; destruct j as [|[|[|j]]]; try lia; cbn; auto. }
  assert (T : forall k e, eigenvector (of_list l) k e -> eigenvector h k e).
  { intros k e He i Hi. specialize (He i Hi). rewrite !E in He by (auto; lia). exact He. }
  exists (sl0 s), (sl1 s), (sl2 s), (se0 s), (se1 s), (se2 s), 1, 1, 1.
  assert (S1 : forall v, vscale 1 v = v) by (intros []; unfold vscale; cbn; f_equal; ring).
  rewrite !S1. repeat split; auto; try lra; apply Ho.
Qed.
