(** Theorems C28 to C35: shapes. *)
From Coq Require Import List Reals ZArith Lra Lia Bool Arith Permutation.
From Verif Require Import ListUtil ParModel ParProofs CatMpi XR GeoModel GeoSpec GeoProofs ShapeModel ShapeSpec
  ShapeProofs ShapeKatz Spectral ShapePar ShapeFacts ShapeExamples.
Import ListNotations.
Open Scope R_scope.

(** * C28 *)
(** The particles a selection names, and their weights. *)
Definition chosen (select : nat -> nat) (nb : nat) : list nat := map select (seq 0 nb).
Definition right_weights (reduced : bool) (r_ell : list xr) (sel : list nat) (wt : nat -> R) : Prop :=
  forall k, In k sel ->
    if reduced then exists r, nth k r_ell NaN = Fin r /\ r <> 0 /\ wt k = / (r * r) else wt k = 1.

Theorem C28_tensor : forall ten select masses center nb reduced r_ell wt,
  total (fun k => nth k masses 0) (chosen select nb) <> 0 ->
  right_weights reduced r_ell (chosen select nb) wt ->
  forall i j, (i < 3)%nat -> (j < 3)%nat ->
    calcShapeTensor ten select masses center nb reduced r_ell i j =
    Fin (moment ten masses center wt (chosen select nb) i j).
Proof.
  intros ten select masses center nb reduced r_ell wt HM Hw i j Hi Hj.
  change (chosen select nb) with (sel select nb) in *.
  assert (Hg : good_rell select nb reduced r_ell).
  { intros Hr k Hk. specialize (Hw k Hk). rewrite Hr in Hw. destruct Hw as (r & A & B & _). eauto. }
  rewrite tensor_entry, tensor_fin by auto.
  assert (E : forall i j, moment ten masses center (weight reduced r_ell) (sel select nb) i j =
              moment ten masses center wt (sel select nb) i j).
  { intros i' j'. unfold moment. f_equal. apply total_ext. intros k Hk. specialize (Hw k Hk).
    replace (weight reduced r_ell k) with (wt k); [reflexivity|]. unfold weight.
    destruct reduced; [|auto]. destruct Hw as (r & -> & _ & ->). reflexivity. }
  rewrite E. f_equal. destruct (Nat.le_ge_cases i j).
  - rewrite Nat.max_r, Nat.min_l by auto. apply moment_sym.
  - rewrite Nat.max_l, Nat.min_r by auto. reflexivity.
Qed.
Print Assumptions C28_tensor.

Theorem C28_symmetric : forall ten select masses center nb reduced r_ell i j, (i < 3)%nat -> (j < 3)%nat ->
  calcShapeTensor ten select masses center nb reduced r_ell i j =
  calcShapeTensor ten select masses center nb reduced r_ell j i.
Proof. intros. rewrite !tensor_entry by auto. rewrite Nat.max_comm, Nat.min_comm. reflexivity. Qed.
Print Assumptions C28_symmetric.

Theorem C28_psd : forall ten select masses center nb reduced r_ell wt h v,
  (forall k, In k (chosen select nb) -> 0 <= nth k masses 0) ->
  0 < total (fun k => nth k masses 0) (chosen select nb) ->
  right_weights reduced r_ell (chosen select nb) wt ->
  (forall i j, (i < 3)%nat -> (j < 3)%nat ->
     calcShapeTensor ten select masses center nb reduced r_ell i j = Fin (h i j)) ->
  0 <= total (fun i => total (fun j => coord v i * h i j * coord v j) [0;1;2]%nat) [0;1;2]%nat.
Proof.
  intros ten select masses center nb reduced r_ell wt h v Hm HM Hw Hh.
  assert (E : forall i j, (i < 3)%nat -> (j < 3)%nat -> h i j = moment ten masses center wt (chosen select nb) i j).
  { intros i j Hi Hj. assert (F := Hh i j Hi Hj). rewrite (C28_tensor _ _ _ _ _ _ _ wt) in F by (auto; lra).
    injection F as ->. reflexivity. }
  cbn [total coord]. rewrite !E by lia.
  assert (Q := quad_nonneg ten masses center wt (chosen select nb) v).
  unfold quad in Q. match type of Q with _ -> _ -> 0 <= ?x => match goal with |- 0 <= ?y => replace y with x by ring end end.
  apply Q; auto. intros k Hk. apply Rmult_le_pos; auto. specialize (Hw k Hk).
  destruct reduced; [|lra]. destruct Hw as (r & _ & Hr & ->). left. apply Rinv_0_lt_compat. apply Rlt_0_sqr in Hr. exact Hr.
Qed.
Print Assumptions C28_psd.

(** Only the first nb entries of the index buffer and the rows they name matter. *)
Theorem C28_selected_only : forall ten ten' select select' masses masses' center nb reduced r_ell r_ell',
  (forall n, (n < nb)%nat -> select n = select' n) ->
  (forall n, (n < nb)%nat -> let k := select n in
     nth k ten v0 = nth k ten' v0 /\ nth k masses 0 = nth k masses' 0 /\ nth k r_ell NaN = nth k r_ell' NaN) ->
  forall i j, (i < 3)%nat -> (j < 3)%nat ->
    calcShapeTensor ten select masses center nb reduced r_ell i j =
    calcShapeTensor ten' select' masses' center nb reduced r_ell' i j.
Proof.
  intros ten ten' select select' masses masses' center nb reduced r_ell r_ell' Hs Hd i j Hi Hj.
  rewrite !tensor_entry by auto. unfold tsum.
  assert (Es : sel select nb = sel select' nb).
  { unfold sel. apply map_ext_in. intros n Hn. apply in_seq in Hn. apply Hs. lia. }
  assert (Hd' : forall k, In k (sel select nb) ->
            nth k ten v0 = nth k ten' v0 /\ nth k masses 0 = nth k masses' 0 /\ nth k r_ell NaN = nth k r_ell' NaN).
  { intros k Hk. unfold sel in Hk. apply in_map_iff in Hk. destruct Hk as (n & <- & Hn). apply in_seq in Hn. apply Hd. lia. }
  assert (Em : mtot select masses nb = mtot select' masses' nb).
  { unfold mtot. rewrite <- Es. apply total_ext. intros k Hk. apply Hd'. exact Hk. }
  rewrite <- Es, <- Em. f_equal. apply map_ext_in. intros k Hk. destruct (Hd' k Hk) as (A & B & C).
  unfold tensor_term. rewrite A, B, C. reflexivity.
Qed.
Print Assumptions C28_selected_only.

Example C28_example : let ten := [mkV 1 0 0; mkV 7 7 7; mkV (-1) 2 0] in let masses := [1; 5; 3] in
  let select := fun n => match n with O => 0 | _ => 2 end%nat in
  total (fun k => nth k masses 0) (chosen select 2) = 4 /\
  right_weights true [Fin 1; NaN; Fin 2] (chosen select 2) (fun k => match k with O => 1 | _ => 1/4 end) /\
  moment ten masses v0 (fun k => match k with O => 1 | _ => 1/4 end) (chosen select 2) 0 1 = - (3/8).
Proof.
  cbv zeta. split; [|split].
  - cbn. ring.
  - intros k [<- |[<- |[]]]; cbn.
    + exists 1. repeat split; try lra. 
    + exists 2. repeat split; try lra. 
  - unfold moment. cbn. field.
Qed.

(** * C29 *)
Section C29.
  Variables (ten : list vec) (select : nat -> nat) (masses : list R) (center : vec) (nb : nat).
  Variables (reduced : bool) (r_ell : list xr) (wt : nat -> R).
  Hypothesis HM : total (fun k => nth k masses 0) (chosen select nb) <> 0.
  Hypothesis Hw : right_weights reduced r_ell (chosen select nb) wt.
  Hypothesis Hin : forall k, In k (chosen select nb) -> (k < length ten)%nat /\ (k < length masses)%nat.

  Lemma chosen_mass k : total (fun x => nth x (map (Rmult k) masses) 0) (chosen select nb) =
    k * total (fun x => nth x masses 0) (chosen select nb).
  Proof.
    rewrite <- total_scale. apply total_ext. intros x _. rewrite <- (map_nth (Rmult k)). f_equal. ring.
  Qed.

  (** Rescaling all masses. *)
  Theorem C29_mass : forall k, k <> 0 -> forall i j, (i < 3)%nat -> (j < 3)%nat ->
    calcShapeTensor ten select (map (Rmult k) masses) center nb reduced r_ell i j =
    calcShapeTensor ten select masses center nb reduced r_ell i j.
  Proof.
    intros k Hk i j Hi Hj. rewrite !(C28_tensor _ _ _ _ _ _ _ wt); auto.
    - f_equal. apply moment_mass; auto.
    - rewrite chosen_mass. apply Rmult_integral_contrapositive_currified; auto.
  Qed.

  (** Visiting the particles in another order. *)
  Theorem C29_order : forall select', Permutation (chosen select nb) (chosen select' nb) ->
    forall i j, (i < 3)%nat -> (j < 3)%nat ->
    calcShapeTensor ten select' masses center nb reduced r_ell i j =
    calcShapeTensor ten select masses center nb reduced r_ell i j.
  Proof.
    intros select' Hp i j Hi Hj. rewrite !(C28_tensor _ _ _ _ _ _ _ wt); auto.
    - f_equal. symmetry. apply moment_perm; auto.
    - rewrite <- (total_perm _ _ _ Hp). auto.
    - intros k Hk. apply Hw. eapply Permutation_in; [symmetry; exact Hp|exact Hk].
  Qed.

  (** A linear map (in particular a rotation) M of cloud and centre conjugates the tensor. *)
  Theorem C29_linear : forall M i j, (i < 3)%nat -> (j < 3)%nat -> exists h : nat -> nat -> R,
    (forall a b, (a < 3)%nat -> (b < 3)%nat -> calcShapeTensor ten select masses center nb reduced r_ell a b = Fin (h a b)) /\
    calcShapeTensor (map (ap M) ten) select masses (ap M center) nb reduced r_ell i j =
    Fin (total (fun a => total (fun b => M i a * M j b * h a b) [0;1;2]%nat) [0;1;2]%nat).
  Proof.
    intros M i j Hi Hj. exists (moment ten masses center wt (chosen select nb)). split.
    - intros. apply C28_tensor; auto.
    - rewrite (C28_tensor _ _ _ _ _ _ _ wt) by auto. f_equal. apply moment_linear; auto.
  Qed.

  (** Scaling by k: factor k^2. *)
  Theorem C29_scale : forall k i j, (i < 3)%nat -> (j < 3)%nat -> exists h,
    calcShapeTensor ten select masses center nb reduced r_ell i j = Fin h /\
    calcShapeTensor (map (vscale k) ten) select masses (vscale k center) nb reduced r_ell i j = Fin (k * k * h).
  Proof.
    intros k i j Hi Hj. exists (moment ten masses center wt (chosen select nb) i j). split; [apply C28_tensor; auto|].
    rewrite (C28_tensor _ _ _ _ _ _ _ wt) by auto. f_equal. unfold moment, Rdiv. rewrite <- Rmult_assoc. f_equal.
    rewrite <- total_scale. apply total_ext. intros x Hx. rewrite (nth_map_in ten masses (chosen select nb)) by auto.
    destruct i as [|[|[|i]]]; [| | |lia]; (destruct j as [|[|[|j]]]; [| | |lia]); cbn [coord vscale vx vy vz]; ring.
  Qed.

  (** Moving cloud and centre together. *)
  Theorem C29_translate : forall t i j, (i < 3)%nat -> (j < 3)%nat ->
    calcShapeTensor (map (vadd t) ten) select masses (vadd t center) nb reduced r_ell i j =
    calcShapeTensor ten select masses center nb reduced r_ell i j.
  Proof.
    intros t i j Hi Hj. rewrite !(C28_tensor _ _ _ _ _ _ _ wt) by auto. f_equal. apply moment_ext; auto.
    intros k Hk. repeat split. intros a Ha. rewrite (nth_map_in ten masses (chosen select nb)) by auto.
    destruct a as [|[|[|a]]]; [| | |lia]; cbn [coord vadd vx vy vz]; ring.
  Qed.
End C29.
Print Assumptions C29_mass.
Print Assumptions C29_order.
Print Assumptions C29_linear.
Print Assumptions C29_scale.
Print Assumptions C29_translate.

Example C29_example : let ten := [mkV 1 0 0; mkV 0 2 0] in let masses := [1; 3] in
  total (fun k => nth k masses 0) (chosen (fun n => n) 2) <> 0 /\
  right_weights false [] (chosen (fun n => n) 2) (fun _ => 1) /\
  (forall k, In k (chosen (fun n => n) 2) -> (k < length ten)%nat /\ (k < length masses)%nat) /\
  Permutation (chosen (fun n => n) 2) (chosen (fun n => 1 - n)%nat 2).
Proof.
  cbv zeta. split; [cbn; lra|]. split; [intros k _; reflexivity|].
  split; [intros k [<- |[<- |[]]]; cbn; lia|]. apply perm_swap.
Qed.

(** * C30 *)
(** Particles in a plane through the centre (here the plane z = 0) end the run with
    ZeroDivisionError, whatever the eigensolver does within its contract. *)
Theorem C30_refuted : forall eig fuel, eig_contract eig -> (1 <= fuel)%nat ->
  katz eig flat5 flat5 ones5 v0 v0 10 None (1/100) 100 1 false fuel (mkM (Fin 10) (Fin 0) (Fin 0) x0 x0 x0) =
  Some (ZeroDivision, []).
Proof. intros eig [|fuel] He Hf; [lia|]. apply run_flat. auto. Qed.
Print Assumptions C30_refuted.

(** Every run that returns gives the failure marker or a valid shape with positive ratios. *)
Theorem C30_partial : forall eig xyz ten masses center tcenter d delta tol wall mn reduced fuel mi0 mi tr,
  eig_contract eig -> nonneg xyz masses -> tol < 1 ->
  katz eig xyz ten masses center tcenter d delta tol wall mn reduced fuel mi0 = Some (Ret mi, tr) ->
  mi = zeros \/ valid_shape d mi.
Proof.
  intros eig xyz ten masses center tcenter d delta tol wall mn reduced fuel mi0 mi tr He G Ht H.
  destruct (loop_outcome eig xyz ten masses center tcenter d delta tol wall mn reduced He G mi0 fuel _ (Ret mi) tr
              (kinv_init xyz ten masses center tcenter d delta reduced mi0) (sinv_init _ _ _ _ _ _ _) H) as (HS & HO).
  destruct HO as [-> |[(_ & _ & Hbad)|(before & e & q0 & s0 & q & s & Htr & <- & _)]]; [auto|lra|].
  destruct (HS before e [] Htr) as (wt & Hw & _ & Hsh). right. eapply shape_of_valid; eauto.
Qed.
Print Assumptions C30_partial.

(** A run raises only if the particles about to be used have no mass, contain one exactly at the
    centre (reduced tensor), lie in a plane through the centre, or if an inner semi-axis of the
    next shell has length zero. *)
Theorem C30_raises : forall eig xyz ten masses center tcenter d delta tol wall mn reduced fuel mi0 tr,
  eig_contract eig -> nonneg xyz masses ->
  katz eig xyz ten masses center tcenter d delta tol wall mn reduced fuel mi0 = Some (ZeroDivision, tr) ->
  exists sel, right_selection xyz center d delta tr sel /\ (mn <= Z.of_nat (length sel))%Z /\
    trouble xyz ten masses center tcenter d delta reduced tr sel.
Proof.
  intros eig xyz ten masses center tcenter d delta tol wall mn reduced fuel mi0 tr He G H.
  destruct (loop_outcome eig xyz ten masses center tcenter d delta tol wall mn reduced He G mi0 fuel _ ZeroDivision tr
              (kinv_init xyz ten masses center tcenter d delta reduced mi0) (sinv_init _ _ _ _ _ _ _) H) as (_ & HT & HL).
  exists (sel_rule xyz center d delta tr).
  split; [|auto]. eapply loop_selection; eauto.
Qed.
Print Assumptions C30_raises.

(** Conversely, if that is so for the particles inside the first sphere (shell), the run raises. *)
Theorem C30_plane : forall eig xyz ten masses center tcenter d delta tol wall mn reduced fuel mi0 sel,
  eig_contract eig -> nonneg xyz masses -> tol < 1 -> (1 <= wall)%Z -> (1 <= fuel)%nat ->
  right_selection xyz center d delta [] sel -> (mn <= Z.of_nat (length sel))%Z ->
  total (fun k => nth k masses 0) sel = 0 \/ (reduced = true /\ exists k, In k sel /\ nth k xyz v0 = center) \/
    coplanar ten masses tcenter sel ->
  katz eig xyz ten masses center tcenter d delta tol wall mn reduced fuel mi0 = Some (ZeroDivision, []).
Proof.
  intros eig xyz ten masses center tcenter d delta tol wall mn reduced fuel mi0 sel He G Ht Hw Hf HS Hm Hc.
  destruct fuel as [|fuel]; [lia|].
  assert (E : sel = sel_rule xyz center d delta []).
  { eapply selection_unique; [exact HS|]. eapply (rule_right xyz ten masses center tcenter d delta reduced).
    - intros pre e post F. destruct pre; discriminate.
    - intros pre e post F. destruct pre; discriminate. }
  subst sel. apply first_raises; auto.
Qed.
Print Assumptions C30_plane.

(** Each step of a run uses the second moment of its particles, weighted by the inverse squared
    radius of the step before if reduced, and its shape has the eigenvectors of that tensor as
    axes and the square roots of ratios of its eigenvalues as axis ratios. *)
Theorem C30_principal : forall eig xyz ten masses center tcenter d delta tol wall mn reduced fuel mi0 r tr,
  eig_contract eig -> nonneg xyz masses ->
  katz eig xyz ten masses center tcenter d delta tol wall mn reduced fuel mi0 = Some (r, tr) ->
  (forall pre e post, tr = pre ++ e :: post -> step_ok xyz ten masses center tcenter d reduced pre e) /\
  forall mi, r = Ret mi ->
    mi = zeros \/ (tr = [] /\ mi = mi0 /\ 1 <= tol) \/ exists before e, tr = before ++ [e] /\ snd e = mi.
Proof.
  intros eig xyz ten masses center tcenter d delta tol wall mn reduced fuel mi0 r tr He G H.
  destruct (loop_outcome eig xyz ten masses center tcenter d delta tol wall mn reduced He G mi0 fuel _ r tr
              (kinv_init xyz ten masses center tcenter d delta reduced mi0) (sinv_init _ _ _ _ _ _ _) H) as (HS & HO).
  split; auto. intros mi ->. destruct HO as [|[|(before & e & q0 & s0 & q & s & Htr & <- & _)]]; eauto 10.
Qed.
Print Assumptions C30_principal.

(** A tolerance of 1 or more returns the initial entry [d, 0, ...] without any step. *)
Theorem C30_tolerance : forall eig xyz ten masses center tcenter d delta tol wall mn reduced fuel mi0,
  1 <= tol -> katz eig xyz ten masses center tcenter d delta tol wall mn reduced fuel mi0 = Some (Ret mi0, []).
Proof.
  intros. unfold katz, katz_init. destruct compact.
  destruct fuel; cbn [katz_loop k_err k_mi k_trace xltb]; destruct Rlt_dec; try lra; reflexivity.
Qed.
Print Assumptions C30_tolerance.

(** The contract of the eigensolver can be met. *)
Theorem C30_contract_met : eig_contract exact_eig.
Proof. exact exact_eig_contract. Qed.
Print Assumptions C30_contract_met.

Example C30_example : eig_contract exact_eig /\ nonneg cloud6 ones6 /\
  (exists mi tr, katz exact_eig cloud6 cloud6 ones6 v0 v0 10 None (1/100) 100 1 false 100 (mkM (Fin 10) (Fin 0) (Fin 0) x0 x0 x0) = Some (Ret mi, tr) /\
    mq mi = Fin (2/3) /\ ms mi = Fin (1/3)) /\
  nonneg flat5 ones5 /\ right_selection flat5 v0 10 None [] [0;1;2;3]%nat /\ coplanar flat5 ones5 v0 [0;1;2;3]%nat.
Proof.
  split; [apply exact_eig_contract|]. split; [apply good6|]. split; [|split; [apply good5|split; [|apply flat_plane]]].
  - destruct (run6 exact_eig exact_eig_contract (mkM (Fin 10) (Fin 0) (Fin 0) x0 x0 x0) 98) as (mi & tr & H & Q & S & _).
    eauto 6.
  - rewrite <- flat_sel. apply (rule_right flat5 flat5 ones5 v0 v0 10 None false); intros pre e post F; destruct pre; discriminate.
Qed.

(** * C31 *)
Theorem C31_terminates : forall eig xyz ten masses center tcenter d delta tol wall mn reduced fuel mi0,
  (Z.to_nat wall <= fuel)%nat ->
  exists r tr, katz eig xyz ten masses center tcenter d delta tol wall mn reduced fuel mi0 = Some (r, tr).
Proof.
  intros. destruct (loop_terminates eig xyz ten masses center tcenter d delta tol wall mn reduced fuel
    (katz_init xyz center d delta mi0)) as ((mi & tr) & E).
  - unfold katz_init. destruct compact. cbn [k_it]. lia.
  - eauto.
Qed.
Print Assumptions C31_terminates.

(** At most IT_WALL tensors, each from at least IT_MIN particles. *)
Theorem C31_limits : forall eig xyz ten masses center tcenter d delta tol wall mn reduced fuel mi0 r tr,
  katz eig xyz ten masses center tcenter d delta tol wall mn reduced fuel mi0 = Some (r, tr) ->
  (length tr <= Z.to_nat wall)%nat /\ forall e, In e tr -> (mn <= Z.of_nat (length (fst (fst e))))%Z.
Proof.
  intros eig xyz ten masses center tcenter d delta tol wall mn reduced fuel mi0 r tr H.
  destruct (loop_facts _ _ _ _ _ _ _ _ _ _ _ _ fuel _ r tr (sinv_init xyz center d delta wall mn mi0) H) as [HS HL].
  split; auto. intros e He. apply in_split in He. destruct He as (pre & post & ->). eapply HS. reflexivity.
Qed.
Print Assumptions C31_limits.

(** A non-zero result means that both ratios changed by at most the relative tolerance. *)
Theorem C31_converged : forall eig xyz ten masses center tcenter d delta tol wall mn reduced fuel mi0 mi tr,
  eig_contract eig -> nonneg xyz masses -> tol < 1 ->
  katz eig xyz ten masses center tcenter d delta tol wall mn reduced fuel mi0 = Some (Ret mi, tr) ->
  mi <> zeros ->
  exists before e q0 s0 q s, tr = before ++ [e] /\ snd e = mi /\ previous before q0 s0 /\ 0 < q0 /\ 0 < s0 /\
    mq mi = Fin q /\ ms mi = Fin s /\ Rabs (q - q0) <= tol * q0 /\ Rabs (s - s0) <= tol * s0.
Proof.
  intros eig xyz ten masses center tcenter d delta tol wall mn reduced fuel mi0 mi tr He G Ht H Hz.
  destruct (loop_outcome eig xyz ten masses center tcenter d delta tol wall mn reduced He G mi0 fuel _ (Ret mi) tr
              (kinv_init xyz ten masses center tcenter d delta reduced mi0) (sinv_init _ _ _ _ _ _ _) H) as (HS & HO).
  destruct HO as [E|[(_ & _ & Hbad)|HC]]; [congruence|lra|exact HC].
Qed.
Print Assumptions C31_converged.

(** The cloud of C30_example needs two of its 100 steps. *)
Example C31_example : exists mi tr,
  katz exact_eig cloud6 cloud6 ones6 v0 v0 10 None (1/100) 100 1 false 100 (mkM (Fin 10) (Fin 0) (Fin 0) x0 x0 x0) = Some (Ret mi, tr) /\
  length tr = 2%nat /\ mi <> zeros /\ mq mi = Fin (2/3) /\ ms mi = Fin (1/3).
Proof.
  destruct (run6 exact_eig exact_eig_contract (mkM (Fin 10) (Fin 0) (Fin 0) x0 x0 x0) 98) as (mi & tr & H & Q & S & D & L & _).
  exists mi, tr. repeat split; auto. intros ->. injection Q. lra.
Qed.

(** * C32 *)
(** Whatever the buffer contained, the first entries are the particles inside, in order. *)
Theorem C32_compact : forall f n buf0 buf pts corr,
  fold_left (compact_step f) (seq 0 n) (buf0, 0%nat, 0%nat) = (buf, pts, corr) ->
  map buf (seq 0 pts) = filter f (seq 0 n).
Proof.
  intros f n buf0 buf pts corr H.
  destruct (compact_inv f n buf0 buf pts corr H) as (_ & A). tauto.
Qed.
Print Assumptions C32_compact.

(** Each step uses exactly the particles inside the ellipsoid found by the step before (the
    sphere of radius d at first), for shells also outside the inner boundary; each once, in
    catalogue order. Also in runs that raise. *)
Theorem C32_selection : forall eig xyz ten masses center tcenter d delta tol wall mn reduced fuel mi0 r tr,
  eig_contract eig -> nonneg xyz masses ->
  katz eig xyz ten masses center tcenter d delta tol wall mn reduced fuel mi0 = Some (r, tr) ->
  forall pre e post, tr = pre ++ e :: post -> right_selection xyz center d delta pre (fst (fst e)).
Proof.
  intros eig xyz ten masses center tcenter d delta tol wall mn reduced fuel mi0 r tr He G H.
  apply (loop_selection eig xyz ten masses center tcenter d delta tol wall mn reduced He G mi0 fuel r tr H).
Qed.
Print Assumptions C32_selection.

(** A two-step run, a particle inside the first sphere, a compaction of five flags into three
    selected positions, and a particle outside the inner sphere of a first shell. *)
Example C32_example : exists mi e1 e2,
  katz exact_eig cloud6 cloud6 ones6 v0 v0 10 None (1/100) 100 1 false 100 (mkM (Fin 10) (Fin 0) (Fin 0) x0 x0 x0) = Some (Ret mi, [e1; e2]) /\
  (exists x, rad2 v0 [] (nth 2 cloud6 v0) x /\ x < 10 * 10) /\
  fold_left (compact_step Nat.even) (seq 0 5) ((fun _ => 7%nat), 0%nat, 0%nat) =
    (fst (fst (fold_left (compact_step Nat.even) (seq 0 5) ((fun _ => 7%nat), 0%nat, 0%nat))), 3%nat, 2%nat) /\
  outside_inner v0 10 1 [] (mkV 9 1 0).
Proof.
  destruct (run6 exact_eig exact_eig_contract (mkM (Fin 10) (Fin 0) (Fin 0) x0 x0 x0) 98) as (mi & tr & H & Q & S & D & L & _).
  destruct tr as [|e1 [|e2 [|? ?]]]; try discriminate. exists mi, e1, e2. split; [exact H|]. split; [|split; [reflexivity|]].
  - exists 4. split; [left; split; [reflexivity|]|lra]. unfold ip, vsub, cloud6, v0. cbn. ring.
  - left. split; [reflexivity|]. unfold ip, vsub, v0. cbn. lra.
Qed.

(** * C33, C34, C35, C70 *)
Section Catalogue.
  Variables (eig : nat -> list xr -> eigres) (fuel : nat) (c : kcfg) (L : R).

  (** Objects without negative masses. *)
  Definition good_object (o : list vptc) : Prop := forall k, (k < length o)%nat -> 0 <= nth k (map snd o) 0.

  Lemma good_nonneg o : good_object o -> nonneg (cy_respectPBCNoRef (map pos o) L) (map snd o).
  Proof. intros H k Hk. rewrite cy_respect_length, map_length in Hk. auto. Qed.

  Lemma collect_spec {X} (l : list (option (pyres X))) r : collect l = Some (Ret r) -> l = map (fun x => Some (Ret x)) r.
  Proof.
    revert r. induction l as [|[[x|]|] l IH]; intros r H; cbn in H; try discriminate; [injection H as <-; reflexivity|].
    destruct (collect l) as [[r'|]|]; try discriminate. injection H as <-. cbn. f_equal. apply IH. reflexivity.
  Qed.
  Lemma collect_raise {X} (l : list (option (pyres X))) : (forall x, In x l -> x <> None) -> In (Some ZeroDivision) l ->
    collect l = Some ZeroDivision.
  Proof.
    induction l as [|[[x|]|] l IH]; intros Hn Hi; [destruct Hi| | |].
    - cbn. destruct Hi as [F|Hi]; [discriminate|]. rewrite IH; auto. intros; apply Hn; right; auto.
    - reflexivity.
    - destruct (Hn None (or_introl eq_refl) eq_refl).
  Qed.

  (** Entries of an object come from runs of the algorithm. *)
  Lemma obj_runs (P : morph -> Prop) vt o r200 center r :
    P zeros ->
    (forall d delta ten tc mi tr,
       ten = (match vt with LocalVel => map (fun _ => v0) o | GlobalVel => map vel o | _ => cy_respectPBCNoRef (map pos o) L end) ->
       tc = (match vt with LocalVel | GlobalVel => cy_calcCoM (combine ten (map snd o)) | _ => center end) ->
       katz eig (cy_respectPBCNoRef (map pos o) L) ten (map snd o) center tc d delta (c_tol c) (c_wall c) (c_min c)
            (c_reduced c) fuel (mkM (Fin d) (Fin 0) (Fin 0) x0 x0 x0) = Some (Ret mi, tr) -> P mi) ->
    obj_shape eig fuel c L vt o r200 center = Some (Ret r) -> Forall P r.
  Proof.
    intros Hz Hk H.
    assert (Loc : forall ten tc, ten = (match vt with LocalVel => map (fun _ => v0) o | GlobalVel => map vel o | _ => cy_respectPBCNoRef (map pos o) L end) ->
       tc = (match vt with LocalVel | GlobalVel => cy_calcCoM (combine ten (map snd o)) | _ => center end) ->
       calcObjMorphLocal eig fuel c r200 (cy_respectPBCNoRef (map pos o) L) ten (map snd o) center tc = Some (Ret r) -> Forall P r).
    { intros ten tc Et Ec E. unfold calcObjMorphLocal in E.
      destruct Req_EM_T; [injection E as <-; apply Forall_forall; intros x Hx; apply in_map_iff in Hx; destruct Hx as (? & <- & _); auto|].
      destruct Req_EM_T; [injection E as <-; apply Forall_forall; intros x Hx; apply in_map_iff in Hx; destruct Hx as (? & <- & _); auto|].
      apply collect_spec in E. apply Forall_forall. intros x Hx.
      assert (Hx' : In (Some (Ret x)) (map (fun x => Some (Ret x)) r)) by (apply (in_map (fun x => Some (Ret x))); auto).
      rewrite <- E in Hx'. apply in_map_iff in Hx'.
      destruct Hx' as (nb & F & _). cbv zeta in F.
      destruct katz as [[mi tr]|] eqn:K; [|discriminate]. cbn in F. injection F as ->. eapply Hk; eauto. }
    assert (Glo : forall ten tc, ten = (match vt with LocalVel => map (fun _ => v0) o | GlobalVel => map vel o | _ => cy_respectPBCNoRef (map pos o) L end) ->
       tc = (match vt with LocalVel | GlobalVel => cy_calcCoM (combine ten (map snd o)) | _ => center end) ->
       calcObjMorphGlobal eig fuel c r200 (cy_respectPBCNoRef (map pos o) L) ten (map snd o) center tc = Some (Ret r) -> Forall P r).
    { intros ten tc Et Ec E. unfold calcObjMorphGlobal in E.
      destruct Req_EM_T; [injection E as <-; auto|].
      apply collect_spec in E. apply Forall_forall. intros x Hx.
      assert (Hx' : In (Some (Ret x)) (map (fun x => Some (Ret x)) r)) by (apply (in_map (fun x => Some (Ret x))); auto).
      rewrite <- E in Hx'.
      destruct Hx' as [F|[]]. destruct katz as [[mi tr]|] eqn:K; [|discriminate]. cbn in F. injection F as ->. eapply Hk; eauto. }
    unfold obj_shape in H. destruct vt.
    - eapply Loc; [reflexivity|reflexivity|exact H].
    - eapply Glo; [reflexivity|reflexivity|exact H].
    - destruct com_raises; [discriminate|]. eapply Loc; [reflexivity|reflexivity|exact H].
    - destruct com_raises; [discriminate|]. eapply Glo; [reflexivity|reflexivity|exact H].
  Qed.
End Catalogue.

Lemma nth_map_seq {X} (f : nat -> X) n p d : (p < n)%nat -> nth p (map f (seq 0 n)) d = f p.
Proof.
  intros Hp. rewrite (nth_indep _ d (f 0%nat)) by (rewrite map_length, seq_length; auto).
  rewrite map_nth, seq_nth by auto. reflexivity.
Qed.

(** Returned catalogues. *)
Lemma driver_ret eig fuel c L vt objs r200 centers r : calcMorph eig fuel c L vt objs r200 centers (Ret r) ->
  forall p o, nth_error objs p = Some o ->
    raised (VMs (obj_shape eig fuel c L vt o (nth p r200 0) (nth p centers v0))) = false /\
    nth p (fst r) None = entry (VMs (obj_shape eig fuel c L vt o (nth p r200 0) (nth p centers v0))) /\
    nth p (snd r) 0 = total snd o /\ length (fst r) = length objs /\ length (snd r) = length objs.
Proof.
  intros H p o Ho. apply driver_result in H. cbv zeta in H. destruct existsb eqn:E; [discriminate|]. injection H as ->.
  assert (Hp : (p < length objs)%nat) by (apply nth_error_Some; congruence). cbn [fst snd].
  rewrite !nth_map_seq, !map_length, !seq_length by auto. rewrite (nth_error_nth objs p [] Ho).
  split; auto. apply not_true_iff_false. intros F. apply (not_true_iff_false _) in E. apply E. apply existsb_exists.
  exists p. split; [apply in_seq; lia|]. rewrite (nth_error_nth objs p [] Ho). exact F.
Qed.

Lemma driver_raise eig fuel c L vt objs r200 centers r : calcMorph eig fuel c L vt objs r200 centers r ->
  r = ZeroDivision <-> exists p o, nth_error objs p = Some o /\
    obj_shape eig fuel c L vt o (nth p r200 0) (nth p centers v0) = Some ZeroDivision.
Proof.
  intros H. apply driver_result in H. cbv zeta in H. subst r. destruct existsb eqn:E.
  - split; auto. intros _. apply existsb_exists in E. destruct E as (p & Hp & E). apply in_seq in Hp.
    exists p, (nth p objs []). split; [apply nth_error_nth'; lia|].
    destruct obj_shape as [[?|]|]; try discriminate. reflexivity.
  - split; [discriminate|]. intros (p & o & Ho & F). exfalso. apply (not_true_iff_false _) in E. apply E. apply existsb_exists.
    exists p. split; [apply in_seq; split; [lia|]; apply nth_error_Some; rewrite Ho; discriminate|].
    rewrite (nth_error_nth objs p [] Ho), F. reflexivity.
Qed.

(** A component as in the catalogue: exact zeros become NaN. *)
Definition shown (x : R) : xr := if Req_EM_T x 0 then NaN else Fin x.
Definition shown_vec (v : vec) : xvec := mkX (shown (vx v)) (shown (vy v)) (shown (vz v)).

Lemma nanz_fin x : nanz (Fin x) = shown x.
Proof. unfold nanz, shown. cbn [xeqb]. destruct Req_EM_T; reflexivity. Qed.
Lemma nanv_fv v : nanv (fv v) = shown_vec v.
Proof. unfold nanv, fv, shown_vec. cbn [xx xy xz]. rewrite !nanz_fin. reflexivity. Qed.

Definition all_nan (x : morph) : Prop :=
  x = mkM NaN NaN NaN (mkX NaN NaN NaN) (mkX NaN NaN NaN) (mkX NaN NaN NaN).

(** Every entry of a returned catalogue is NaN throughout and flagged not converged, or is
    flagged converged, with ratios 0 < s <= q <= 1 and an orthonormal triad, each component of
    which is shown unless it is exactly zero. *)
Theorem C33_partial : forall eig fuel c L vt objs r200 centers r p o rows x,
  eig_contract eig -> c_tol c < 1 ->
  calcMorph eig fuel c L vt objs r200 centers (Ret r) ->
  nth_error objs p = Some o -> good_object o ->
  nth p (fst r) None = Some rows -> In x rows ->
  (is_conv x = false /\ all_nan x) \/
  (is_conv x = true /\ exists q s a b e, mq x = Fin q /\ ms x = Fin s /\ 0 < s <= q /\ q <= 1 /\
     orthonormal a b e /\ major x = shown_vec a /\ inter x = shown_vec b /\ minor x = shown_vec e).
Proof.
  intros eig fuel c L vt objs r200 centers r p o rows x He Ht Hr Ho HG Hrow Hx.
  destruct (driver_ret _ _ _ _ _ _ _ _ _ Hr p o Ho) as (_ & E & _). rewrite Hrow in E.
  destruct obj_shape as [[raws|]|] eqn:ES; try discriminate. cbn in E. injection E as ->.
  apply in_map_iff in Hx. destruct Hx as (mi & <- & Hmi).
  assert (F : Forall (fun mi => mi = zeros \/ exists d, valid_shape d mi) raws).
  { eapply (obj_runs eig fuel c L _ vt o); [left; reflexivity| |exact ES].
    intros d delta ten tc mi' tr _ _ K.
    destruct (C30_partial _ _ _ _ _ _ _ _ _ _ _ _ _ _ _ _ He (good_nonneg L o HG) Ht K); eauto. }
  rewrite Forall_forall in F. destruct (F mi Hmi) as [-> |(d & Md & q & s & a & b & e & Q & S & Hs & Hq & Ma & Mb & Mc & Ho')].
  - left. assert (A : all_nan (nan_morph zeros)).
    { unfold all_nan, nan_morph, zeros. cbn. unfold nanv, x0. cbn. rewrite !nanz_fin. unfold shown. destruct Req_EM_T; [reflexivity|congruence]. }
    split; [rewrite A; reflexivity|auto].
  - right. unfold nan_morph, is_conv. cbn [mq ms major inter minor]. rewrite Q, S, Ma, Mb, Mc, !nanz_fin, !nanv_fv.
    assert (Eq : forall y, 0 < y -> shown y = Fin y) by (intros y Hy; unfold shown; destruct Req_EM_T; [lra|auto]).
    rewrite !Eq by lra. split; [reflexivity|]. exists q, s, a, b, e. repeat (split; auto); try lra; apply Ho'.
Qed.
Print Assumptions C33_partial.

(** If no component of its axes is exactly zero, a converged entry has finite unit axes. *)
Theorem C33_unit_partial : forall eig fuel c L vt objs r200 centers r p o rows x,
  eig_contract eig -> c_tol c < 1 ->
  calcMorph eig fuel c L vt objs r200 centers (Ret r) ->
  nth_error objs p = Some o -> good_object o ->
  nth p (fst r) None = Some rows -> In x rows -> is_conv x = true ->
  (forall w, In w [major x; inter x; minor x] -> xx w <> NaN /\ xy w <> NaN /\ xz w <> NaN) ->
  exists a b e, orthonormal a b e /\ major x = fv a /\ inter x = fv b /\ minor x = fv e.
Proof.
  intros eig fuel c L vt objs r200 centers r p o rows x He Ht Hr Ho HG Hrow Hx Hc Hn.
  destruct (C33_partial _ _ _ _ _ _ _ _ _ _ _ _ _ He Ht Hr Ho HG Hrow Hx) as [(F & _)|(_ & q & s & a & b & e & _ & _ & _ & _ & Hon & Ma & Mb & Mc)];
    [congruence|].
  exists a, b, e. split; auto.
  assert (E : forall v, xx (shown_vec v) <> NaN /\ xy (shown_vec v) <> NaN /\ xz (shown_vec v) <> NaN -> shown_vec v = fv v).
  { intros v (A & B & C). unfold shown_vec, fv in *. cbn [xx xy xz] in *. unfold shown in *.
    destruct (Req_EM_T (vx v) 0); [congruence|]. destruct (Req_EM_T (vy v) 0); [congruence|]. destruct (Req_EM_T (vz v) 0); [congruence|].
    reflexivity. }
  rewrite Ma, Mb, Mc in *. repeat split; apply E; apply Hn; cbn; auto.
Qed.
Print Assumptions C33_unit_partial.

(** Settings of the concrete catalogues: tolerance 1/100, at most 100 iterations, one particle. *)
Definition cfg1 : kcfg := mkC (1/100) 100 1 false false 0 [1].
Definition object (xyz vels : list vec) (masses : list R) : list vptc := combine (combine xyz vels) masses.
Definition still6 : list vec := [v0; v0; v0; v0; v0; v0].

Lemma spread6 : calcLocalSpread cloud6 <> 0.
Proof.
  unfold calcLocalSpread, cloud6. cbn [fold_left length INR vx vy vz].
  match goal with |- 0 + sqrt ?x / ?n + _ + _ + _ + _ + _ <> 0 => assert (H : 0 < sqrt x / n) end.
  { apply Rdiv_lt_0_compat; [apply sqrt_lt_R0|lra].
    match goal with |- 0 < (?a - ?b) * _ + _ + _ => assert (E : a - b = 3) by lra; rewrite E end.
    match goal with |- 0 < _ + ?a * ?a + ?b * ?b => pose proof (Rle_0_sqr a); pose proof (Rle_0_sqr b); unfold Rsqr in *; lra end. }
  assert (P : forall a, 0 <= sqrt a / (1+1+1+1+1+1)) by (intros; apply Rmult_le_pos; [apply sqrt_pos|lra]).
  assert (G : forall a b c d e f, 0 < a -> 0 <= b -> 0 <= c -> 0 <= d -> 0 <= e -> 0 <= f -> 0 + a + b + c + d + e + f <> 0) by (intros; lra).
  apply G; auto.
Qed.
Lemma spread5 : calcLocalSpread flat5 <> 0.
Proof.
  unfold calcLocalSpread, flat5. cbn [fold_left length INR vx vy vz].
  match goal with |- 0 + sqrt ?x / ?n + _ + _ + _ + _ <> 0 => assert (H : 0 < sqrt x / n) end.
  { apply Rdiv_lt_0_compat; [apply sqrt_lt_R0|lra].
    match goal with |- 0 < (?a - ?b) * _ + _ + _ => assert (E : a - b = 3) by lra; rewrite E end.
    match goal with |- 0 < _ + ?a * ?a + ?b * ?b => pose proof (Rle_0_sqr a); pose proof (Rle_0_sqr b); unfold Rsqr in *; lra end. }
  assert (P : forall a, 0 <= sqrt a / (1+1+1+1+1)) by (intros; apply Rmult_le_pos; [apply sqrt_pos|lra]).
  assert (G : forall a b c d e, 0 < a -> 0 <= b -> 0 <= c -> 0 <= d -> 0 <= e -> 0 + a + b + c + d + e <> 0) by (intros; lra).
  apply G; auto.
Qed.

Lemma pbc_off xyz : cy_respectPBCNoRef xyz 0 = xyz.
Proof. unfold cy_respectPBCNoRef. destruct Req_EM_T; [reflexivity|congruence]. Qed.

Lemma runs_exist eig fuel c L vt objs r200 centers : exists r, calcMorph eig fuel c L vt objs r200 centers r.
Proof.
  destruct (prange_exists (length objs) (shape_body eig fuel c L vt objs r200 centers) smem0) as (m & H).
  eexists. econstructor. exact H.
Qed.

(** The single entry of the whole-object catalogue of six particles on the axes, and of the flat
    one. *)
Lemma global6 eig vels : length vels = 6%nat ->
  obj_shape eig 100 cfg1 0 Global (object cloud6 vels ones6) 10 v0 =
  collect [option_map fst (katz eig cloud6 cloud6 ones6 v0 v0 10 None (1/100) 100 1 false 100 (mkM (Fin 10) (Fin 0) (Fin 0) x0 x0 x0))].
Proof.
  intros Hv. destruct vels as [|? [|? [|? [|? [|? [|? [|? ?]]]]]]]; try discriminate.
  unfold obj_shape, object. cbn [combine map pos snd fst cloud6 ones6].
  fold cloud6. fold ones6. rewrite pbc_off. unfold calcObjMorphGlobal. destruct Req_EM_T as [E|_]; [destruct (spread6 E)|].
  cbn [c_safe cfg1 c_tol c_wall c_min c_reduced]. rewrite Rplus_0_r. reflexivity.
Qed.
Lemma global5 eig vels : length vels = 5%nat ->
  obj_shape eig 100 cfg1 0 Global (object flat5 vels ones5) 10 v0 =
  collect [option_map fst (katz eig flat5 flat5 ones5 v0 v0 10 None (1/100) 100 1 false 100 (mkM (Fin 10) (Fin 0) (Fin 0) x0 x0 x0))].
Proof.
  intros Hv. destruct vels as [|? [|? [|? [|? [|? [|? ?]]]]]]; try discriminate.
  unfold obj_shape, object. cbn [combine map pos snd fst flat5 ones5].
  fold flat5. fold ones5. rewrite pbc_off. unfold calcObjMorphGlobal. destruct Req_EM_T as [E|_]; [destruct (spread5 E)|].
  cbn [c_safe cfg1 c_tol c_wall c_min c_reduced]. rewrite Rplus_0_r. reflexivity.
Qed.

(** C33 as stated fails: an entry flagged is_conv with NaN axis components (because the axis is
    aligned with the box), for every admissible eigensolver and schedule. *)
Theorem C33_refuted : forall eig, eig_contract eig ->
  (exists r, calcMorph eig 100 cfg1 0 Global [object cloud6 still6 ones6] [10] [v0] r) /\
  forall r, calcMorph eig 100 cfg1 0 Global [object cloud6 still6 ones6] [10] [v0] r ->
  exists x ms, r = Ret ([Some [x]], ms) /\ is_conv x = true /\ mq x = Fin (2/3) /\
    xy (major x) = NaN /\ xz (major x) = NaN.
Proof.
  intros eig He. split; [apply runs_exist|]. intros r Hr. apply driver_result in Hr. subst r.
  cbn [length seq map nth existsb]. rewrite global6 by auto.
  destruct (run6 eig He (mkM (Fin 10) (Fin 0) (Fin 0) x0 x0 x0) 98) as (mi & tr & H & Q & S & D & _ & a & b & e & Ma & Mb & Mc & Ho & A1 & A2 & A3).
  rewrite H. cbn [option_map fst map collect raised orb entry]. eexists _, _. split; [reflexivity|].
  unfold nan_morph, is_conv. cbn [mq major]. rewrite Q, Ma, nanv_fv, nanz_fin. unfold shown_vec. cbn [xy xz].
  assert (E : shown (2/3) = Fin (2/3)) by (unfold shown; destruct Req_EM_T; [lra|reflexivity]). rewrite E.
  split; [reflexivity|]. split; [reflexivity|].
  assert (Z : vy a = 0 /\ vz a = 0) by (split; [apply (A1 1%nat)|apply (A1 2%nat)]; lia).
  destruct Z as [-> ->]. unfold shown. destruct Req_EM_T; [auto|congruence].
Qed.
Print Assumptions C33_refuted.

(** The hypotheses of C33_partial are met by the catalogue of C33_refuted. *)
Example C33_example : exists r rows,
  eig_contract exact_eig /\ c_tol cfg1 < 1 /\
  calcMorph exact_eig 100 cfg1 0 Global [object cloud6 still6 ones6] [10] [v0] (Ret r) /\
  good_object (object cloud6 still6 ones6) /\ nth 0 (fst r) None = Some rows /\ rows <> [].
Proof.
  destruct (C33_refuted exact_eig exact_eig_contract) as ((r & Hr) & W). destruct (W r Hr) as (x & ms & -> & _).
  exists ([Some [x]], ms), [x]. split; [apply exact_eig_contract|]. split; [cbn; lra|]. split; [exact Hr|]. split.
  - intros [|[|[|[|[|[|k]]]]]] H; cbn in *; try lra; lia.
  - split; [reflexivity|discriminate].
Qed.

(** * C34 Local velocity shapes *)
Lemma nth_const {X} (l : list X) k : nth k (map (fun _ => v0) l) v0 = v0.
Proof. revert k. induction l as [|x l IH]; intros [|k]; cbn; auto. Qed.

Lemma com_zero (l : list vptc) : cy_calcCoM (combine (map (fun _ => v0) l) (map snd l)) = v0.
Proof.
  apply vec_ext. intros ax Hax. rewrite cy_com_mean by auto. unfold mean.
  assert (E : total (fun p => snd p * ax (fst p)) (combine (map (fun _ => v0) l) (map snd l)) = 0).
  { induction l as [|q l IH]; [reflexivity|]. cbn. cbn in IH. rewrite IH, (ax_v0 ax) by auto. ring. }
  rewrite (ax_v0 ax) by auto. unfold mean in *. unfold Rdiv.
  rewrite E. ring.
Qed.

Lemma zero_plane (o : list vptc) sel : coplanar (map (fun _ => v0) o) (map snd o) v0 sel.
Proof.
  exists (mkV 1 0 0). split; [unfold ip; cbn; ring|]. intros k _ _. rewrite nth_const. unfold ip, vsub, v0. cbn. ring.
Qed.

(** The property fails for every catalogue: results are unchanged by any change of velocities, *)
Theorem C34_refuted : forall eig fuel c L objs objs' r200 centers r r',
  map (map (fun q => (pos q, snd q))) objs = map (map (fun q => (pos q, snd q))) objs' ->
  calcMorph eig fuel c L LocalVel objs r200 centers r -> calcMorph eig fuel c L LocalVel objs' r200 centers r' -> r = r'.
Proof.
  intros eig fuel c L objs objs' r200 centers r r' E H H'. apply driver_result in H, H'. subst r r'.
  assert (Hl : length objs = length objs') by (rewrite <- (map_length (map (fun q => (pos q, snd q))) objs), E, map_length; auto).
  assert (Ho : forall p, map (fun q => (pos q, snd q)) (nth p objs []) = map (fun q => (pos q, snd q)) (nth p objs' [])).
  { intros p. change (@nil (vec * R)) with (map (fun q : vptc => (pos q, snd q)) []).
    rewrite <- (map_nth (map (fun q => (pos q, snd q))) objs [] p), <- (map_nth (map (fun q => (pos q, snd q))) objs' [] p), E. reflexivity. }
  assert (Hp : forall p, map pos (nth p objs []) = map pos (nth p objs' [])).
  { intros p. pose proof (f_equal (map fst) (Ho p)) as F. rewrite !map_map in F. exact F. }
  assert (Hm : forall p, map snd (nth p objs []) = map snd (nth p objs' [])).
  { intros p. pose proof (f_equal (map snd) (Ho p)) as F. rewrite !map_map in F. exact F. }
  assert (Hz : forall p, map (fun _ => v0) (nth p objs []) = map (fun _ => v0) (nth p objs' [])).
  { intros p. pose proof (f_equal (map (fun _ => v0)) (Ho p)) as F. rewrite !map_map in F. exact F. }
  assert (Hs : forall p, obj_shape eig fuel c L LocalVel (nth p objs []) (nth p r200 0) (nth p centers v0) =
                         obj_shape eig fuel c L LocalVel (nth p objs' []) (nth p r200 0) (nth p centers v0)).
  { intros p. unfold obj_shape. rewrite Hp, Hm, Hz. reflexivity. }
  rewrite <- Hl. replace (existsb (fun p => raised (VMs (obj_shape eig fuel c L LocalVel (nth p objs' []) (nth p r200 0) (nth p centers v0)))) (seq 0 (length objs)))
    with (existsb (fun p => raised (VMs (obj_shape eig fuel c L LocalVel (nth p objs []) (nth p r200 0) (nth p centers v0)))) (seq 0 (length objs)))
    by (induction (seq 0 (length objs)) as [|a l IH]; cbn [existsb]; [reflexivity|rewrite Hs, IH; reflexivity]).
  destruct existsb; [reflexivity|]. f_equal. f_equal; apply map_ext; intros p.
  - rewrite Hs. reflexivity.
  - rewrite <- (map_id (nth p objs [])) at 1. pose proof (f_equal (total (fun x => x)) (Hm p)) as F.
    rewrite !total_map in F. rewrite map_id. exact F.
Qed.
Print Assumptions C34_refuted.

(** no entry ever converges, *)
Theorem C34_never : forall eig fuel c L objs r200 centers r p o rows x,
  eig_contract eig -> calcMorph eig fuel c L LocalVel objs r200 centers (Ret r) ->
  nth_error objs p = Some o -> good_object o ->
  nth p (fst r) None = Some rows -> In x rows -> is_conv x = false.
Proof.
  intros eig fuel c L objs r200 centers r p o rows x He Hr Ho HG Hrow Hx.
  destruct (driver_ret _ _ _ _ _ _ _ _ _ Hr p o Ho) as (_ & E & _). rewrite Hrow in E.
  destruct obj_shape as [[raws|]|] eqn:ES; try discriminate. cbn in E. injection E as ->.
  apply in_map_iff in Hx. destruct Hx as (mi & <- & Hmi).
  assert (F : Forall (fun m => is_conv (nan_morph m) = false) raws).
  { eapply (obj_runs eig fuel c L _ LocalVel o); [| |exact ES].
    - unfold is_conv, nan_morph, zeros. cbn [mq]. rewrite nanz_fin. unfold shown. destruct Req_EM_T; [reflexivity|congruence].
    - intros d delta ten tc mi' tr Et Ec K.
      destruct (loop_outcome eig _ ten _ _ tc d delta _ _ _ _ He (good_nonneg L o HG) _ fuel _ (Ret mi') tr
              (kinv_init _ ten _ _ tc d delta _ _) (sinv_init _ _ _ _ _ _ _) K)
        as (HO & [-> |[(_ & -> & _)|(before & e & q0 & s0 & q & s & Htr & Hs & _)]]).
      + unfold is_conv, nan_morph, zeros. cbn [mq]. rewrite nanz_fin. unfold shown. destruct Req_EM_T; [reflexivity|congruence].
      + unfold is_conv, nan_morph. cbn [mq]. rewrite nanz_fin. unfold shown. destruct Req_EM_T; [reflexivity|congruence].
      + exfalso. destruct (HO before e [] Htr) as (wt & _ & _ & (l0 & l1 & l2 & a & b & e0 & Hl & Hl' & Ho' & _ & _ & Ec0 & _)).
        rewrite <- (eigen_quad _ _ _ Ec0 ltac:(apply Ho')) in Hl. unfold quad in Hl.
        rewrite Et in *. rewrite com_zero in Ec. subst tc.
        assert (Z : forall i j, moment (map (fun _ => v0) o) (map snd o) v0 wt (fst (fst e)) i j = 0).
        { intros i j. unfold moment. rewrite (total_ext _ (fun _ => 0)); [rewrite total_const; unfold Rdiv; ring|].
          intros k _. rewrite nth_const. ring. }
        rewrite !Z in Hl. lra. }
  rewrite Forall_forall in F. apply F. auto.
Qed.
Print Assumptions C34_never.

(** and as soon as the algorithm is run at all - a radius with enough particles of some object,
    which is not a single point - the call raises ZeroDivisionError. *)
Theorem C34_raises : forall eig fuel c L objs r200 centers r p o nb sel,
  eig_contract eig -> calcMorph eig fuel c L LocalVel objs r200 centers r ->
  nth_error objs p = Some o -> good_object o ->
  c_tol c < 1 -> (1 <= c_wall c)%Z -> (Z.to_nat (c_wall c) <= fuel)%nat ->
  calcLocalSpread (cy_respectPBCNoRef (map pos o) L) <> 0 -> nth p r200 0 <> 0 ->
  (nb < length (c_log_d c))%nat -> c_shell c = false ->
  right_selection (cy_respectPBCNoRef (map pos o) L) (nth p centers v0) (nth p r200 0 * nth nb (c_log_d c) 0) None [] sel ->
  (c_min c <= Z.of_nat (length sel))%Z ->
  r = ZeroDivision.
Proof.
  intros eig fuel c L objs r200 centers r p o nb sel He Hr Ho HG Ht Hw Hf Hsp Hr2 Hnb Hsh Hsel Hmin.
  apply (driver_raise _ _ _ _ _ _ _ _ _ Hr). exists p, o. split; auto. unfold obj_shape.
  destruct com_raises; [reflexivity|]. rewrite com_zero. unfold calcObjMorphLocal.
  destruct Req_EM_T; [contradiction|]. destruct Req_EM_T; [contradiction|]. rewrite Hsh.
  apply collect_raise.
  - intros x Hx. apply in_map_iff in Hx. destruct Hx as (n' & <- & _). cbv zeta.
    match goal with |- option_map fst ?k <> None => destruct k as [[? ?]|] eqn:K; [discriminate|] end.
    exfalso. match type of K with katz ?a1 ?a2 ?a3 ?a4 ?a5 ?a6 ?a7 ?a8 ?a9 ?b1 ?b2 ?b3 ?b4 ?b5 = _ =>
      destruct (C31_terminates a1 a2 a3 a4 a5 a6 a7 a8 a9 b1 b2 b3 b4 b5 Hf) as (? & ? & E) end. congruence.
  - apply in_map_iff. exists nb. split; [|apply in_seq; lia]. cbv zeta.
    rewrite (C30_plane _ _ _ _ _ _ _ _ _ _ _ _ _ _ sel); auto; [apply good_nonneg; auto|lia|].
    right. right. apply zero_plane.
Qed.
Print Assumptions C34_raises.

(** The whole-object velocity shapes do use the velocities: tensor of the velocities about
    their mean. *)
Theorem C34_global_partial : forall eig fuel c L objs r200 centers r p o,
  calcMorph eig fuel c L GlobalVel objs r200 centers (Ret r) -> nth_error objs p = Some o ->
  exists vc, (forall ax, In ax axes -> ax vc = mean ax (combine (map vel o) (map snd o))) /\
    nth p (fst r) None = match calcObjMorphGlobal eig fuel c (nth p r200 0) (cy_respectPBCNoRef (map pos o) L) (map vel o)
                                 (map snd o) (nth p centers v0) vc with Some (Ret l) => Some (map nan_morph l) | _ => None end.
Proof.
  intros eig fuel c L objs r200 centers r p o Hr Ho.
  destruct (driver_ret _ _ _ _ _ _ _ _ _ Hr p o Ho) as (A & E & _).
  exists (cy_calcCoM (combine (map vel o) (map snd o))). split; [intros ax Hax; apply cy_com_mean; auto|].
  rewrite E. unfold obj_shape in *. destruct com_raises; [discriminate|]. reflexivity.
Qed.
Print Assumptions C34_global_partial.

(** Six particles with velocities equal to their positions: the whole-object velocity shape has
    q = 2/3, the local call raises. *)
Example C34_example : exists r x,
  calcMorph exact_eig 100 cfg1 0 GlobalVel [object cloud6 cloud6 ones6] [10] [v0] (Ret r) /\
  fst r = [Some [x]] /\ mq x = Fin (2/3) /\
  calcMorph exact_eig 100 cfg1 0 LocalVel [object cloud6 cloud6 ones6] [10] [v0] ZeroDivision /\
  calcMorph exact_eig 100 cfg1 0 LocalVel [object cloud6 still6 ones6] [10] [v0] ZeroDivision /\
  good_object (object cloud6 cloud6 ones6).
Proof.
  destruct (runs_exist exact_eig 100 cfg1 0 GlobalVel [object cloud6 cloud6 ones6] [10] [v0]) as (r & Hr).
  destruct (runs_exist exact_eig 100 cfg1 0 LocalVel [object cloud6 cloud6 ones6] [10] [v0]) as (rl & Hl).
  destruct (runs_exist exact_eig 100 cfg1 0 LocalVel [object cloud6 still6 ones6] [10] [v0]) as (rs & Hs).
  assert (G6 : good_object (object cloud6 cloud6 ones6)) by (intros [|[|[|[|[|[|k]]]]]] H; cbn in *; try lra; lia).
  assert (El : rl = ZeroDivision).
  { eapply (C34_raises exact_eig 100 cfg1 0 [object cloud6 cloud6 ones6] [10] [v0] rl 0 _ 0 (seq 0 6) exact_eig_contract Hl eq_refl G6);
      try (cbn; lra); try (cbn; lia); try reflexivity.
    - unfold object. cbn [combine map pos snd fst cloud6 ones6]. fold cloud6. rewrite pbc_off. apply spread6.
    - unfold object. cbn [combine map pos snd fst cloud6 ones6]. fold cloud6. rewrite pbc_off. cbn [nth cfg1 c_log_d].
      rewrite Rmult_1_r. rewrite <- sel0.
      apply (rule_right cloud6 cloud6 ones6 v0 v0 10 None false); intros pre e post F; destruct pre; discriminate. }
  assert (Es : rl = rs) by (eapply C34_refuted; [|exact Hl|exact Hs]; reflexivity).
  subst rs. subst rl.
  assert (G := driver_result _ _ _ _ _ _ _ _ _ Hr). cbn [length seq map nth existsb] in G.
  destruct (run6 exact_eig exact_eig_contract (mkM (Fin 10) (Fin 0) (Fin 0) x0 x0 x0) 98) as (mi & tr & H & Q & _).
  assert (O : obj_shape exact_eig 100 cfg1 0 GlobalVel (object cloud6 cloud6 ones6) 10 v0 = Some (Ret [mi])).
  { unfold obj_shape, object. cbn [combine map pos vel snd fst cloud6 ones6].
    assert (C : com_raises [1;1;1;1;1;1] = false).
    { unfold com_raises. cbn. unfold np_sum. cbn. destruct Req_EM_T; [lra|reflexivity]. }
    rewrite C.
    assert (Z : cy_calcCoM [(mkV 3 0 0, 1); (mkV (-3) 0 0, 1); (mkV 0 2 0, 1); (mkV 0 (-2) 0, 1); (mkV 0 0 1, 1); (mkV 0 0 (-1), 1)] = v0).
    { unfold cy_calcCoM, v0. cbn [fold_left fst snd vx vy vz]. f_equal; field. }
    rewrite Z. fold cloud6. fold ones6. rewrite pbc_off. unfold calcObjMorphGlobal. destruct Req_EM_T as [E|_]; [destruct (spread6 E)|].
    cbn [c_safe cfg1 c_tol c_wall c_min c_reduced]. rewrite Rplus_0_r. rewrite H. reflexivity. }
  rewrite O in G. cbn [raised orb entry map] in G. subst r.
  eexists _, (nan_morph mi). split; [exact Hr|]. split; [reflexivity|].
  split; [unfold nan_morph; cbn [mq]; rewrite Q, nanz_fin; unfold shown; destruct Req_EM_T; [lra|reflexivity]|]. auto.
Qed.

(** * C35 Schedule independence *)
(** Some execution exists, and any two executions of the parallel loop give the same catalogue
    (or both raise). *)
Theorem C35_schedule : forall eig fuel c L vt objs r200 centers,
  exists r, calcMorph eig fuel c L vt objs r200 centers r /\
  forall r', calcMorph eig fuel c L vt objs r200 centers r' -> r' = r.
Proof.
  intros. destruct (runs_exist eig fuel c L vt objs r200 centers) as (r & Hr). exists r. split; [auto|].
  intros r' Hr'. apply driver_result in Hr, Hr'. congruence.
Qed.
Print Assumptions C35_schedule.

(** The entry of an object in any catalogue is its entry in a catalogue by itself: it does not
    depend on the other objects. *)
Theorem C35_own : forall eig fuel c L vt objs r200 centers r p o r1,
  calcMorph eig fuel c L vt objs r200 centers (Ret r) -> nth_error objs p = Some o ->
  calcMorph eig fuel c L vt [o] [nth p r200 0] [nth p centers v0] r1 ->
  exists x m, r1 = Ret ([x], [m]) /\ nth_error (fst r) p = Some x /\ nth_error (snd r) p = Some m.
Proof.
  intros eig fuel c L vt objs r200 centers r p o r1 Hr Ho H1.
  destruct (driver_ret _ _ _ _ _ _ _ _ _ Hr p o Ho) as (A & B & C & D & E).
  assert (Hp : (p < length objs)%nat) by (apply nth_error_Some; congruence).
  apply driver_result in H1. cbn [length seq map nth existsb] in H1. rewrite A in H1. cbn [orb] in H1. subst r1.
  eexists _, _. split; [reflexivity|]. rewrite <- B, <- C. split; apply nth_error_nth'; lia.
Qed.
Print Assumptions C35_own.

(** Two objects: the first of one repeated particle, which gets an unconverged entry, the second
    as in C33_refuted. *)
Definition point : list vptc := [(v0, v0, 1); (v0, v0, 1)].
Lemma point_shape eig : obj_shape eig 100 cfg1 0 Global point 10 v0 = Some (Ret [zeros]).
Proof.
  unfold obj_shape, point. cbn [map pos fst snd]. rewrite pbc_off. unfold calcObjMorphGlobal.
  destruct Req_EM_T as [|n]; [reflexivity|]. exfalso. apply n.
  unfold calcLocalSpread, v0. cbn [fold_left length INR vx vy vz].
  match goal with |- 0 + sqrt ?a / _ + sqrt ?b / _ = 0 => replace a with 0 by field; replace b with 0 by field end.
  rewrite sqrt_0. field.
Qed.
Example C35_example : exists r x y,
  calcMorph exact_eig 100 cfg1 0 Global [point; object cloud6 still6 ones6] [10; 10] [v0; v0] (Ret r) /\
  fst r = [Some [x]; Some [y]] /\ is_conv x = false /\ is_conv y = true.
Proof.
  destruct (runs_exist exact_eig 100 cfg1 0 Global [point; object cloud6 still6 ones6] [10; 10] [v0; v0]) as (r & Hr).
  assert (G := driver_result _ _ _ _ _ _ _ _ _ Hr). cbn [length seq map nth existsb] in G.
  rewrite point_shape, global6 in G by auto.
  destruct (run6 exact_eig exact_eig_contract (mkM (Fin 10) (Fin 0) (Fin 0) x0 x0 x0) 98) as (mi & tr & H & Q & _).
  rewrite H in G. cbn [option_map fst map collect raised orb entry] in G. subst r.
  eexists _, _, _. split; [exact Hr|]. split; [reflexivity|]. unfold is_conv, nan_morph, zeros. cbn [mq].
  rewrite Q, !nanz_fin. unfold shown. destruct Req_EM_T; [|congruence]. destruct Req_EM_T; [lra|]. auto.
Qed.

(** * C70 One degenerate object *)
(** A flat object aborts the whole call, although the other object alone has a shape; for every
    eigensolver within the contract and every schedule. *)
Theorem C70_refuted : forall eig, eig_contract eig ->
  (forall r, calcMorph eig 100 cfg1 0 Global [object flat5 still6 ones5; object cloud6 still6 ones6] [10; 10] [v0; v0] r ->
     r = ZeroDivision) /\
  (forall r, calcMorph eig 100 cfg1 0 Global [object cloud6 still6 ones6] [10] [v0] r ->
     exists x ms, r = Ret ([Some [x]], ms) /\ is_conv x = true).
Proof.
  intros eig He. split.
  - intros r Hr. apply (driver_raise _ _ _ _ _ _ _ _ _ Hr). exists 0%nat, (object flat5 still6 ones5). split; [reflexivity|].
    cbn [nth]. change (object flat5 still6 ones5) with (object flat5 [v0; v0; v0; v0; v0] ones5). rewrite global5 by auto.
    rewrite (C30_refuted eig 100) by (auto; lia). reflexivity.
  - intros r Hr. destruct (proj2 (C33_refuted eig He) r Hr) as (x & ms & E & C & _). eauto.
Qed.
Print Assumptions C70_refuted.

(** A call raises exactly if some object raises in a call by itself. *)
Theorem C70_partial : forall eig fuel c L vt objs r200 centers r,
  calcMorph eig fuel c L vt objs r200 centers r ->
  r = ZeroDivision <-> exists p o, nth_error objs p = Some o /\
    calcMorph eig fuel c L vt [o] [nth p r200 0] [nth p centers v0] ZeroDivision.
Proof.
  intros eig fuel c L vt objs r200 centers r Hr. rewrite (driver_raise _ _ _ _ _ _ _ _ _ Hr). split.
  - intros (p & o & Ho & E). exists p, o. split; auto.
    destruct (runs_exist eig fuel c L vt [o] [nth p r200 0] [nth p centers v0]) as (r1 & H1).
    assert (r1 = ZeroDivision); [|subst; auto].
    apply (driver_raise _ _ _ _ _ _ _ _ _ H1). exists 0%nat, o. split; auto.
  - intros (p & o & Ho & H1). exists p, o. split; auto.
    destruct (proj1 (driver_raise _ _ _ _ _ _ _ _ _ H1) eq_refl) as (p1 & o1 & Ho1 & E).
    destruct p1 as [|[|p1]]; try discriminate. injection Ho1 as <-. exact E.
Qed.
Print Assumptions C70_partial.

Example C70_example : exists r, calcMorph exact_eig 100 cfg1 0 Global [object flat5 still6 ones5; object cloud6 still6 ones6] [10; 10] [v0; v0] r.
Proof. apply runs_exist. Qed.
