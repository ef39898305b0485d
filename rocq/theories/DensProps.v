(** Density and enclosed mass profiles, C39-C43, C71, C72. *)
From Coq Require Import List Reals ZArith Lra Lia Bool Arith.
From Verif Require Import ListUtil ParModel ParProofs CatMpi XR CatModel GeoModel GeoSpec GeoProofs GeoProps ShapeModel ShapeSpec ShapeProofs
  ShapePar ShapeProps DensModel DensSpec DensProofs DensEll.
Import ListNotations.
Open Scope R_scope.

(** ** C39: spherical bins *)
Lemma increasing_le l : increasing l -> forall i j, (i <= j)%nat -> (j < length l)%nat -> 0 <= nth i l 0 <= nth j l 0.
Proof.
  intros (H0 & H) i j Hij. assert (P : forall k, (k < length l)%nat -> 0 <= nth k l 0).
  { induction k as [|k IH]; intros Hk; [destruct l; auto|]. specialize (H k Hk). specialize (IH ltac:(lia)). lra. }
  induction Hij as [|j Hij IH]; intros Hj; [split; [apply P; auto|lra]|]. specialize (H j Hj). specialize (IH ltac:(lia)). lra.
Qed.

Lemma sph_value_mass ps c r200 edges i : 0 < r200 -> increasing edges -> (S i < length edges)%nat ->
  let lo := nth i edges 0 * r200 in let hi := nth (S i) edges 0 * r200 in
  0 <= lo < hi /\ 0 < ball_volume hi - ball_volume lo /\
  sph_value ps c r200 edges i = shell_mass c lo hi ps / (ball_volume hi - ball_volume lo).
Proof.
  intros Hr Hi Hl lo hi. pose proof (increasing_le _ Hi i (S i) ltac:(lia) Hl). destruct Hi as (_ & Hi). specialize (Hi i Hl).
  assert (Hlo : 0 <= lo) by (apply Rmult_le_pos; lra). assert (Hlt : lo < hi) by (apply Rmult_lt_compat_r; auto).
  split; [auto|]. split.
  - unfold ball_volume. pose proof PI_RGT_0. rewrite <- Rmult_minus_distr_l. apply Rmult_lt_0_compat; [lra|].
    replace (hi ^ 3 - lo ^ 3) with ((hi - lo) * (hi * hi + hi * lo + lo * lo)) by ring. apply Rmult_lt_0_compat; [lra|].
    assert (0 < hi * hi) by (apply Rmult_lt_0_compat; lra). assert (0 <= hi * lo) by (apply Rmult_le_pos; lra).
    pose proof (Rle_0_sqr lo). unfold Rsqr in *. lra.
  - unfold sph_value. f_equal.
    + unfold shell_mass. apply total_ext. intros q _.
      pose proof (in_shell_iff c r200 (nth i edges 0) (nth (S i) edges 0) (fst q) Hlo ltac:(fold hi; lra)) as I. fold lo hi in I.
      destruct in_shell.
      * destruct (proj1 I eq_refl). destruct Rle_dec; [|lra]. destruct Rlt_dec; [reflexivity|lra].
      * destruct (Rle_dec lo (distance (fst q) c)); auto. destruct (Rlt_dec (distance (fst q) c) hi); auto.
        discriminate (proj2 I (conj r r0)).
    + unfold shell_volume, ball_volume. fold lo hi. ring.
Qed.

Notation sph_dens ps c r200 edges b :=
  (fst (calcDensProfBruteForceSph (map fst ps) (map snd ps) c r200 edges (repeat 0 (length edges - 1)) b)).

(* The density of a bin is the mass of the particles in it over its volume; no exception is
   raised, whatever the shell buffer contains. *)
Theorem C39_bins : forall ps c r200 edges b, 0 < r200 -> increasing edges ->
  exists d, sph_dens ps c r200 edges b = Ret d /\ length d = (length edges - 1)%nat /\
  forall i, (i < length edges - 1)%nat ->
    let lo := nth i edges 0 * r200 in let hi := nth (S i) edges 0 * r200 in
    0 < ball_volume hi - ball_volume lo /\
    nth i d 0 = shell_mass c lo hi ps / (ball_volume hi - ball_volume lo).
Proof.
  intros ps c r200 edges b Hr Hi. rewrite (sph_profile ps c r200 edges b _ eq_refl). eexists. split; [reflexivity|].
  split; [rewrite map_length, seq_length; auto|]. intros i Hl.
  destruct (sph_value_mass ps c r200 edges i Hr Hi ltac:(lia)) as (_ & V & E).
  cbv zeta. split; auto. rewrite nth_map_seq by auto. exact E.
Qed.
Print Assumptions C39_bins.

(* Sum over the bins. *)
Theorem C39_total : forall ps c r200 edges b d, 0 < r200 -> increasing edges -> edges <> [] ->
  sph_dens ps c r200 edges b = Ret d ->
  total (fun i => nth i d 0 * (ball_volume (nth (S i) edges 0 * r200) - ball_volume (nth i edges 0 * r200)))
    (seq 0 (length edges - 1)) =
  shell_mass c (hd 0 edges * r200) (last edges 0 * r200) ps.
Proof.
  intros ps c r200 edges b d Hr Hi Hne H. destruct (C39_bins ps c r200 edges b Hr Hi) as (d' & E & _ & N).
  rewrite E in H. injection H as <-.
  assert (Hlast : last edges 0 = nth (length edges - 1) edges 0).
  { clear - Hne. induction edges as [|x [|y l] IH]; [congruence|reflexivity|]. transitivity (last (y :: l) 0); [reflexivity|].
    rewrite IH by discriminate. cbn [length]. replace (S (S (length l)) - 1)%nat with (S (S (length l) - 1)) by lia. reflexivity. }
  assert (Hhd : hd 0 edges = nth 0 edges 0) by (destruct edges; reflexivity).
  assert (Hlen : (0 < length edges)%nat) by (destruct edges; [congruence|cbn; lia]).
  rewrite Hlast, Hhd.
  rewrite shell_ball.
  - rewrite <- (telescope (fun i => ball_mass c (nth i edges 0 * r200) ps)). apply total_ext. intros i Hin. apply in_seq in Hin.
    destruct (sph_value_mass ps c r200 edges i Hr Hi ltac:(lia)) as (L1 & V & _). cbv zeta in *.
    destruct (N i ltac:(lia)) as (_ & ->). rewrite shell_ball by lra. field. lra.
  - apply Rmult_le_compat_r; [lra|]. apply increasing_le; auto; lia.
Qed.
Print Assumptions C39_total.

(* A particle lies in at most one bin; adding it changes at most one density. *)
Theorem C39_one_bin : forall ps q c r200 edges b d d', 0 < r200 -> increasing edges ->
  sph_dens ps c r200 edges b = Ret d -> sph_dens (q :: ps) c r200 edges b = Ret d' ->
  forall i j, (i < length edges - 1)%nat -> (j < length edges - 1)%nat ->
    nth i d' 0 <> nth i d 0 -> nth j d' 0 <> nth j d 0 -> i = j.
Proof.
  intros ps q c r200 edges b d d' Hr Hi H H' i j Hli Hlj Ni Nj.
  destruct (C39_bins ps c r200 edges b Hr Hi) as (d1 & E & _ & N). rewrite E in H. injection H as <-.
  destruct (C39_bins (q :: ps) c r200 edges b Hr Hi) as (d2 & E' & _ & N'). rewrite E' in H'. injection H' as <-.
  assert (G : forall i, (i < length edges - 1)%nat -> nth i d2 0 <> nth i d1 0 ->
    nth i edges 0 * r200 <= distance (fst q) c < nth (S i) edges 0 * r200).
  { clear i j Hli Hlj Ni Nj. intros i Hl Hn. rewrite (proj2 (N i Hl)), (proj2 (N' i Hl)) in Hn.
    unfold shell_mass in Hn. cbn [total] in Hn.
    destruct (Rle_dec (nth i edges 0 * r200) (distance (fst q) c)); [|rewrite Rplus_0_l in Hn; congruence].
    destruct (Rlt_dec (distance (fst q) c) (nth (S i) edges 0 * r200)); [lra|rewrite Rplus_0_l in Hn; congruence]. }
  specialize (G i Hli Ni) as Gi. specialize (G j Hlj Nj) as Gj. clear G.
  destruct (Nat.lt_trichotomy i j) as [Hij|[ |Hij]]; auto; exfalso.
  - pose proof (increasing_le _ Hi (S i) j ltac:(lia) ltac:(lia)).
    assert (nth (S i) edges 0 * r200 <= nth j edges 0 * r200) by (apply Rmult_le_compat_r; lra). lra.
  - pose proof (increasing_le _ Hi (S j) i ltac:(lia) ltac:(lia)).
    assert (nth (S j) edges 0 * r200 <= nth i edges 0 * r200) by (apply Rmult_le_compat_r; lra). lra.
Qed.
Print Assumptions C39_one_bin.

(* Densities are non-negative, and zero in bins without particles. *)
Theorem C39_nonneg : forall ps c r200 edges b d i, 0 < r200 -> increasing edges ->
  sph_dens ps c r200 edges b = Ret d -> (i < length edges - 1)%nat ->
  ((forall q, In q ps -> 0 <= snd q) -> 0 <= nth i d 0) /\
  ((forall q, In q ps -> ~ nth i edges 0 * r200 <= distance (fst q) c < nth (S i) edges 0 * r200) -> nth i d 0 = 0).
Proof.
  intros ps c r200 edges b d i Hr Hi H Hl.
  destruct (C39_bins ps c r200 edges b Hr Hi) as (d1 & E & _ & N). rewrite E in H. injection H as <-.
  destruct (N i Hl) as (V & ->). split.
  - intros Hm. apply Rmult_le_pos; [|apply Rlt_le, Rinv_0_lt_compat; auto]. unfold shell_mass.
    clear - Hm. induction ps as [|q ps IH]; cbn [total]; [lra|].
    pose proof (Hm q (or_introl eq_refl)). specialize (IH (fun q Hq => Hm q (or_intror Hq))).
    destruct Rle_dec; [destruct Rlt_dec|]; lra.
  - intros Ho. unfold shell_mass. replace (total _ ps) with 0; [unfold Rdiv; ring|]. symmetry.
    clear - Ho. induction ps as [|q ps IH]; cbn [total]; auto.
    rewrite IH by (intros q' Hq'; apply Ho; right; auto). specialize (Ho q (or_introl eq_refl)).
    destruct (Rle_dec (nth i edges 0 * r200) (distance (fst q) c)); [|ring].
    destruct (Rlt_dec (distance (fst q) c) (nth (S i) edges 0 * r200)); [tauto|ring].
Qed.
Print Assumptions C39_nonneg.

(* The edges built from the radii. *)
Lemma midpoints_length rs : length (midpoints rs) = (length rs - 1)%nat.
Proof. induction rs as [|x [|y l] IH]; [reflexivity|reflexivity|]. cbn [midpoints length] in *. rewrite IH. lia. Qed.
Lemma midpoints_nth rs : forall i, (S i < length rs)%nat -> nth i (midpoints rs) 0 = (nth i rs 0 + nth (S i) rs 0) / 2.
Proof.
  induction rs as [|x [|y l] IH]; intros i Hi; [cbn in Hi; lia|cbn in Hi; lia|]. destruct i as [|i]; [reflexivity|].
  transitivity (nth i (midpoints (y :: l)) 0); [reflexivity|]. rewrite IH by (cbn in *; lia). reflexivity.
Qed.
Lemma last_nth {X} (l : list X) d : l <> [] -> last l d = nth (length l - 1) l d.
Proof.
  intros Hne. induction l as [|x [|y l] IH]; [congruence|reflexivity|]. transitivity (last (y :: l) d); [reflexivity|].
  rewrite IH by discriminate. cbn [length]. replace (S (S (length l)) - 1)%nat with (S (S (length l) - 1)) by lia. reflexivity.
Qed.
Theorem C39_edges : forall rs, rs <> [] -> / 10 ^ 8 < hd 0 rs -> increasing rs ->
  exists edges, edges_sph rs = DOk edges /\ increasing edges /\ length edges = S (length rs).
Proof.
  intros rs Hne Hhd (_ & Hi). unfold edges_sph. destruct rs as [|x l] eqn:Ers; [congruence|]. rewrite <- Ers in *.
  eexists. split; [reflexivity|].
  assert (Hlen : length (/ 10 ^ 8 :: midpoints rs ++ [last rs 0]) = S (length rs)).
  { cbn [length]. rewrite app_length, midpoints_length. cbn. rewrite Ers. cbn. lia. }
  split; auto. split; [apply Rlt_le, Rinv_0_lt_compat, pow_lt; cbn [hd]; lra|].
  rewrite Hlen. intros i Hil. assert (L0 : length rs <> 0%nat) by (rewrite Ers; discriminate).
  assert (Hlast : nth (length rs - 1) (midpoints rs ++ [last rs 0]) 0 = last rs 0).
  { rewrite app_nth2; rewrite midpoints_length; [rewrite Nat.sub_diag; reflexivity|lia]. }
  assert (Hmid : forall k, (S k < length rs)%nat -> nth k (midpoints rs ++ [last rs 0]) 0 = (nth k rs 0 + nth (S k) rs 0) / 2).
  { intros k Hk. rewrite app_nth1 by (rewrite midpoints_length; lia). apply midpoints_nth. auto. }
  assert (Hh : hd 0 rs = nth 0 rs 0) by (rewrite Ers; reflexivity).
  change (nth (S i) (/ 10 ^ 8 :: midpoints rs ++ [last rs 0]) 0) with (nth i (midpoints rs ++ [last rs 0]) 0).
  destruct i as [|i].
  - change (nth 0 (/ 10 ^ 8 :: midpoints rs ++ [last rs 0]) 0) with (/ 10 ^ 8).
    destruct (Nat.eq_dec (length rs) 1) as [E1|N1].
    + replace 0%nat with (length rs - 1)%nat by lia. rewrite Hlast, last_nth by auto. replace (length rs - 1)%nat with 0%nat by lia.
      rewrite <- Hh. exact Hhd.
    + rewrite Hmid by lia. pose proof (Hi 0%nat ltac:(lia)). rewrite <- Hh in *. lra.
  - change (nth (S i) (/ 10 ^ 8 :: midpoints rs ++ [last rs 0]) 0) with (nth i (midpoints rs ++ [last rs 0]) 0).
    rewrite Hmid by lia. destruct (Nat.eq_dec (S i) (length rs - 1)) as [E1|N1].
    + rewrite E1. rewrite Hlast, last_nth by auto. rewrite <- E1. pose proof (Hi i ltac:(lia)). lra.
    + rewrite Hmid by lia. pose proof (Hi i ltac:(lia)). pose proof (Hi (S i) ltac:(lia)). lra.
Qed.
Print Assumptions C39_edges.

(** *** All objects *)
Definition obj_of xyz masses (cat : list (list nat)) p : list ptc := ptcs xyz masses (nth p cat []).

Lemma nth_objs xyz masses cat p : nth p (map (ptcs xyz masses) cat) [] = obj_of xyz masses cat p.
Proof. unfold obj_of. change [] with (ptcs xyz masses []) at 1. apply map_nth. Qed.
Lemma obj_centers_nth fuel kind choose L objs p : (p < length objs)%nat ->
  nth p (obj_centers fuel kind choose L objs) None = center_of fuel kind (choose p) 1000 L (nth p objs []).
Proof.
  intros Hp. unfold obj_centers. set (g := fun po : nat * list ptc => center_of fuel kind (choose (fst po)) 1000 L (snd po)).
  rewrite (nth_indep _ None (g (0%nat, []))) by (rewrite map_length, combine_length, seq_length; lia).
  rewrite map_nth, combine_nth by (rewrite seq_length; auto). rewrite seq_nth by auto. reflexivity.
Qed.
Lemma obj_centers_length fuel kind choose L objs : length (obj_centers fuel kind choose L objs) = length objs.
Proof. unfold obj_centers. rewrite map_length, combine_length, seq_length. lia. Qed.
Lemma no_none (cs : list (option vec)) p : existsb is_none cs = false -> (p < length cs)%nat -> exists c, nth p cs None = Some c.
Proof.
  intros H Hp. destruct (nth p cs None) as [c|] eqn:E; [eauto|]. exfalso.
  assert (existsb is_none cs = true); [|congruence]. apply existsb_exists. exists None. split; [rewrite <- E; apply nth_In; auto|reflexivity].
Qed.
Lemma combine_map {X Y} (l : list X) (l' : list Y) : length l = length l' ->
  map fst (combine l l') = l /\ map snd (combine l l') = l'.
Proof. revert l'. induction l as [|x l IH]; intros [|y l'] H; try discriminate; cbn; auto. injection H as H. destruct (IH l' H) as [-> ->]. auto. Qed.
(** Particles of an object as handed to the binning routine. *)
Definition seen (L : R) (o : list ptc) : list (vec * R) := combine (cy_respectPBCNoRef (map fst o) L) (map snd o).
Lemma seen_fst L o : map fst (seen L o) = cy_respectPBCNoRef (map fst o) L /\ map snd (seen L o) = map snd o.
Proof. apply combine_map. rewrite cy_respect_length, !map_length. reflexivity. Qed.

Lemma edges_sph_length rs edges : edges_sph rs = DOk edges -> length edges = S (length rs) /\ edges <> [].
Proof.
  unfold edges_sph. destruct rs as [|x l] eqn:E; [discriminate|]. rewrite <- E. intros H.
  assert (H' : edges = / 10 ^ 8 :: midpoints rs ++ [last rs 0]) by congruence. subst edges.
  split; [|discriminate]. cbn [length]. rewrite app_length, midpoints_length. cbn. rewrite E. cbn. lia.
Qed.

Lemma calc_sph_indep cs r200s edges d : forall p x ms (b b' : nat -> nat), length x = length ms ->
  fst (calcDensProfBruteForceSph x ms (from_some (nth p cs None)) (nth p r200s 0) edges d b) =
  fst (calcDensProfBruteForceSph x ms (from_some (nth p cs None)) (nth p r200s 0) edges d b').
Proof.
  intros p x ms b b' H. destruct (combine_map x ms H) as [E1 E2]. pose proof (sph_indep (combine x ms) (from_some (nth p cs None)) (nth p r200s 0) edges d b b') as X.
  rewrite E1, E2 in X. exact X.
Qed.

(** The outcome of the spherical driver, for every schedule. *)
Lemma sph_driver fuel kind choose xyz masses r200s rs cat L r edges :
  calcDensProfsSphDirectBinning fuel kind choose xyz masses r200s rs (concat cat) (map (@length nat) cat) L r ->
  cat <> [] -> edges_sph rs = DOk edges ->
  (r = DRecursionError /\ exists p, (p < length cat)%nat /\ center_of fuel kind (choose p) 1000 L (obj_of xyz masses cat p) = None) \/
  (r = DOk (map (fun p => map (sph_value (seen L (obj_of xyz masses cat p))
       (from_some (center_of fuel kind (choose p) 1000 L (obj_of xyz masses cat p))) (nth p r200s 0) edges) (seq 0 (length rs)))
       (seq 0 (length cat))) /\
   forall p, (p < length cat)%nat -> exists c, center_of fuel kind (choose p) 1000 L (obj_of xyz masses cat p) = Some c).
Proof.
  intros H Hne He.
  assert (Hsz : map (@length nat) cat <> []) by (destruct cat; [congruence|discriminate]).
  destruct H as [H|H E|edges' H E Hn|edges' r H E objs cs Hn Hl]; try congruence.
  - left. split; auto. rewrite parts_concat in Hn. apply existsb_exists in Hn. destruct Hn as (x & Hin & Hx).
    destruct x; [discriminate|]. apply (In_nth _ _ None) in Hin. destruct Hin as (p & Hp & Ep).
    rewrite obj_centers_length, map_length in Hp. exists p. split; auto.
    rewrite obj_centers_nth, nth_objs in Ep by (rewrite map_length; auto). exact Ep.
  - right. rewrite E in He. injection He as ->. 
    assert (Ecs : cs = obj_centers fuel kind choose L objs) by reflexivity.
    assert (Eo : objs = map (ptcs xyz masses) cat) by (unfold objs; rewrite parts_concat; reflexivity).
    clearbody cs objs. subst objs. rewrite Ecs in *. clear cs Ecs. set (objs := map (ptcs xyz masses) cat) in *.
    set (cs := obj_centers fuel kind choose L objs) in *.
    destruct (edges_sph_length _ _ E) as (Le & _).
    apply dens_loop_result in Hl; [|intros; apply calc_sph_indep; auto].
    assert (Hlo : length objs = length cat) by (unfold objs; rewrite map_length; auto).
    assert (Hc : forall p, (p < length cat)%nat -> nth p cs None = center_of fuel kind (choose p) 1000 L (obj_of xyz masses cat p)).
    { intros p Hp. unfold cs. rewrite obj_centers_nth by lia. unfold objs. rewrite nth_objs. reflexivity. }
    assert (Hd : forall p, (p < length cat)%nat -> dens_result L objs (fun p x ms buf => calcDensProfBruteForceSph x ms (from_some (nth p cs None)) (nth p r200s 0)
                        edges (repeat 0 (length rs)) buf) p =
       Ret (map (sph_value (seen L (obj_of xyz masses cat p)) (from_some (nth p cs None)) (nth p r200s 0) edges) (seq 0 (length rs)))).
    { intros p Hp. unfold dens_result. unfold objs at 1 2. rewrite nth_objs.
      destruct (seen_fst L (obj_of xyz masses cat p)) as [<- <-]. apply sph_profile. lia. }
    rewrite Hlo in Hl. split.
    + rewrite Hl. replace (existsb _ _) with false.
      * f_equal. apply map_ext_in. intros p Hp. apply in_seq in Hp. rewrite Hd by lia. rewrite Hc by lia. reflexivity.
      * symmetry. apply not_true_iff_false. rewrite existsb_exists. intros (p & Hp & Hz). apply in_seq in Hp. rewrite Hd in Hz by lia. discriminate.
    + intros p Hp. rewrite <- Hc by auto. apply no_none; auto. unfold cs. rewrite obj_centers_length. lia.
Qed.

(* Every run over a catalogue returns, for each object, the binned densities of its particles
   about its centre; with increasing edges the only possible exception is the endless recursion
   of calcMode (C26). *)
Theorem C39_driver : forall fuel kind choose xyz masses r200s rs cat L r edges,
  calcDensProfsSphDirectBinning fuel kind choose xyz masses r200s rs (concat cat) (map (@length nat) cat) L r ->
  cat <> [] -> edges_sph rs = DOk edges -> increasing edges ->
  (forall p, (p < length cat)%nat -> 0 < nth p r200s 0) ->
  r = DRecursionError \/
  exists rows, r = DOk rows /\ length rows = length cat /\
  forall p, (p < length cat)%nat -> exists c,
    center_of fuel kind (choose p) 1000 L (obj_of xyz masses cat p) = Some c /\
    length (nth p rows []) = length rs /\
    forall i, (i < length rs)%nat ->
      let lo := nth i edges 0 * nth p r200s 0 in let hi := nth (S i) edges 0 * nth p r200s 0 in
      nth i (nth p rows []) 0 = shell_mass c lo hi (seen L (obj_of xyz masses cat p)) / (ball_volume hi - ball_volume lo).
Proof.
  intros fuel kind choose xyz masses r200s rs cat L r edges H Hne He Hi Hr.
  destruct (edges_sph_length _ _ He) as (Le & _).
  destruct (sph_driver _ _ _ _ _ _ _ _ _ _ _ H Hne He) as [[-> _]|[-> Hc]]; [auto|]. right.
  eexists. split; [reflexivity|]. split; [rewrite map_length, seq_length; auto|]. intros p Hp.
  destruct (Hc p Hp) as (c & Ec). exists c. split; auto. rewrite nth_map_seq by auto. rewrite Ec. cbn [from_some].
  split; [rewrite map_length, seq_length; auto|]. intros i Hii. rewrite nth_map_seq by auto.
  apply (sph_value_mass (seen L (obj_of xyz masses cat p)) c (nth p r200s 0) edges i (Hr p Hp) Hi ltac:(lia)).
Qed.
Print Assumptions C39_driver.

(** Two objects of two and one particles; radii 1, 2 and virial radii 1: edges 1e-8, 3/2, 2. *)
Definition ex_xyz := [mkV 1 0 0; mkV 3 0 0; mkV 7 7 7].
Definition ex_m := [1; 1; 2].
Example C39_example : exists r rows, let cat := [[0; 1]; [2]]%nat in
  calcDensProfsSphDirectBinning 1 CCom (fun p => seq 0 (2 - p)) ex_xyz ex_m [1; 1] [1; 2] (concat cat) (map (@length nat) cat) 0 r /\
  edges_sph [1; 2] = DOk [/ 10 ^ 8; 3 / 2; 2] /\ increasing [/ 10 ^ 8; 3 / 2; 2] /\ r = DOk rows /\
  nth 0 (nth 0 rows []) 0 = 2 / (ball_volume (3 / 2) - ball_volume (/ 10 ^ 8)) /\
  nth 1 (nth 0 rows []) 0 = 0 /\ nth 0 (nth 1 rows []) 0 = 0.
Proof.
  assert (E8 : 0 < / 10 ^ 8 < 1).
  { split; [apply Rinv_0_lt_compat, pow_lt; lra|]. rewrite <- Rinv_1. apply Rinv_lt_contravar; [rewrite Rmult_1_l; apply pow_lt; lra|].
    apply Rlt_pow_R1; [lra|lia]. }
  set (cat := [[0; 1]; [2]]%nat).
  assert (He : edges_sph [1; 2] = DOk [/ 10 ^ 8; 3 / 2; 2]).
  { unfold edges_sph. cbn [midpoints app last]. replace ((1 + 2) / 2) with (3 / 2) by lra. reflexivity. }
  assert (Hi : increasing [/ 10 ^ 8; 3 / 2; 2]).
  { split; [cbn [hd]; lra|]. intros [|[|i]] Hi; cbn [nth length] in *; try lra; lia. }
  assert (R : exists r, calcDensProfsSphDirectBinning 1 CCom (fun p => seq 0 (2 - p)) ex_xyz ex_m [1; 1] [1; 2] (concat cat) (map (@length nat) cat) 0 r).
  { match goal with |- exists r, ?P => idtac end.
    edestruct (@prange_exists dloc (dval R)) as [m' Hm]. eexists.
    eapply sph_ok; [discriminate|exact He|reflexivity|]. econstructor. exact Hm. }
  destruct R as (r & R).
  destruct (C39_driver _ _ _ _ _ _ _ _ _ _ _ R ltac:(discriminate) He Hi) as [Hx|(rows & Hr & _ & Hrow)].
  - intros p Hp. destruct p as [|[|p]]; cbn in *; try lra; lia.
  - destruct (sph_driver _ _ _ _ _ _ _ _ _ _ _ R ltac:(discriminate) He) as [[_ (p & Hp & Hc)]|[Hr _]]; [discriminate Hc|congruence].
  - exists r, rows. cbv zeta. split; auto. split; auto. split; auto. split; auto.
    assert (S0 : seen 0 (obj_of ex_xyz ex_m cat 0) = [(mkV 1 0 0, 1); (mkV 3 0 0, 1)]).
    { unfold seen, cy_respectPBCNoRef. destruct Req_EM_T; [reflexivity|lra]. }
    assert (S1 : seen 0 (obj_of ex_xyz ex_m cat 1) = [(mkV 7 7 7, 2)]).
    { unfold seen, cy_respectPBCNoRef. destruct Req_EM_T; [reflexivity|lra]. }
    destruct (Hrow 0%nat ltac:(cbn; lia)) as (c0 & C0 & _ & V0).
    destruct (Hrow 1%nat ltac:(cbn; lia)) as (c1 & C1 & _ & V1).
    assert (X0 : c0 = mkV 2 0 0).
    { unfold center_of in C0. unfold respectPBCNoRef in C0. destruct Req_EM_T in C0; [|lra]. injection C0 as <-.
      apply vec_ext. intros ax Hax. rewrite com_mean by (auto; unfold mass; cbn; lra). unfold mean, mass. axis Hax; cbn; lra. }
    assert (X1 : c1 = mkV 7 7 7).
    { unfold center_of in C1. unfold respectPBCNoRef in C1. destruct Req_EM_T in C1; [|lra]. injection C1 as <-.
      apply vec_ext. intros ax Hax. rewrite com_mean by (auto; unfold mass; cbn; lra). unfold mean, mass. axis Hax; cbn; lra. }
    subst c0 c1.
    assert (D : forall x y, distance (mkV x 0 0) (mkV y 0 0) = Rabs (x - y)).
    { intros x y. unfold distance, norm, vsub. cbn [vx vy vz]. rewrite <- sqrt_Rsqr_abs. f_equal. unfold Rsqr. ring. }
    assert (D7 : distance (mkV 7 7 7) (mkV 7 7 7) = 0).
    { unfold distance, norm, vsub. cbn [vx vy vz]. rewrite <- sqrt_0. f_equal. ring. }
    pose proof (V0 0%nat ltac:(cbn; lia)) as V00. pose proof (V0 1%nat ltac:(cbn; lia)) as V01.
    pose proof (V1 0%nat ltac:(cbn; lia)) as V10. clear V0 V1. cbv zeta in *. rewrite S0 in *. rewrite S1 in *.
    cbn [nth] in *. rewrite !Rmult_1_r in *. unfold shell_mass in *. cbn [total fst snd] in *. rewrite !D in *. rewrite D7 in *.
    replace (1 - 2) with (- (1)) in * by ring. replace (3 - 2) with 1 in * by ring. rewrite Rabs_Ropp, Rabs_R1 in *.
    repeat split.
    + rewrite V00. destruct (Rle_dec (/ 10 ^ 8) 1); [|lra]. destruct (Rlt_dec 1 (3 / 2)); [|lra]. f_equal. ring.
    + rewrite V01. destruct (Rle_dec (3 / 2) 1); [lra|]. unfold Rdiv. ring.
    + rewrite V10. destruct (Rle_dec (/ 10 ^ 8) 0); [lra|]. unfold Rdiv. ring.
Qed.

(** ** C71: schedules and other objects *)
Theorem C71_schedule : forall fuel kind choose xyz masses r200s rs cat L r r',
  calcDensProfsSphDirectBinning fuel kind choose xyz masses r200s rs (concat cat) (map (@length nat) cat) L r ->
  calcDensProfsSphDirectBinning fuel kind choose xyz masses r200s rs (concat cat) (map (@length nat) cat) L r' -> r = r'.
Proof.
  intros fuel kind choose xyz masses r200s rs cat L r r' H H'.
  destruct cat as [|o0 cat0] eqn:Ec.
  - destruct H; destruct H'; try reflexivity; try (exfalso; cbn in *; congruence).
  - rewrite <- Ec in *. assert (Hne : cat <> []) by (rewrite Ec; discriminate).
    assert (Hsz : map (@length nat) cat <> []) by (rewrite Ec; discriminate).
    destruct (edges_sph rs) as [edges| | | |] eqn:He.
    + destruct (sph_driver _ _ _ _ _ _ _ _ _ _ _ H Hne He) as [[-> (p & Hp & Hx)]|[-> Hx]];
      destruct (sph_driver _ _ _ _ _ _ _ _ _ _ _ H' Hne He) as [[-> (p' & Hp' & Hx')]|[-> Hx']]; auto.
      * destruct (Hx' p Hp) as (c & E). congruence.
      * destruct (Hx p' Hp') as (c & E). congruence.
    + unfold edges_sph in He. destruct rs; discriminate.
    + destruct H; destruct H'; try reflexivity; try (exfalso; congruence).
    + unfold edges_sph in He. destruct rs; discriminate.
    + unfold edges_sph in He. destruct rs; discriminate.
Qed.
Print Assumptions C71_schedule.
(** Two objects; some run exists, so the theorem speaks about at least one result. *)
Example C71_example : exists r rows, let cat := [[0; 1]; [2]]%nat in
  calcDensProfsSphDirectBinning 1 CCom (fun p => seq 0 (2 - p)) ex_xyz ex_m [1; 1] [1; 2] (concat cat) (map (@length nat) cat) 0 r /\
  r = DOk rows /\ forall r', calcDensProfsSphDirectBinning 1 CCom (fun p => seq 0 (2 - p)) ex_xyz ex_m [1; 1] [1; 2] (concat cat) (map (@length nat) cat) 0 r' -> r' = DOk rows.
Proof.
  destruct C39_example as (r & rows & H). cbv zeta in *. destruct H as (H & _ & _ & -> & _). exists (DOk rows), rows.
  split; auto. split; auto. intros r' H'. eapply C71_schedule; eassumption.
Qed.

(* The row of an object is determined by its own particles, radius and the choice made for it. *)
Theorem C71_own : forall fuel kind choose choose' xyz xyz' masses masses' r200s r200s' rs cat cat' L rows rows' p,
  calcDensProfsSphDirectBinning fuel kind choose xyz masses r200s rs (concat cat) (map (@length nat) cat) L (DOk rows) ->
  calcDensProfsSphDirectBinning fuel kind choose' xyz' masses' r200s' rs (concat cat') (map (@length nat) cat') L (DOk rows') ->
  (p < length cat)%nat -> (p < length cat')%nat ->
  obj_of xyz masses cat p = obj_of xyz' masses' cat' p -> nth p r200s 0 = nth p r200s' 0 -> choose p = choose' p ->
  nth p rows [] = nth p rows' [].
Proof.
  intros fuel kind choose choose' xyz xyz' masses masses' r200s r200s' rs cat cat' L rows rows' p H H' Hp Hp' Ho Hr Hc.
  assert (Hne : cat <> []) by (intros ->; cbn in Hp; lia). assert (Hne' : cat' <> []) by (intros ->; cbn in Hp'; lia).
  assert (He : exists edges, edges_sph rs = DOk edges).
  { inversion H; eauto. }
  destruct He as (edges & He).
  destruct (sph_driver _ _ _ _ _ _ _ _ _ _ _ H Hne He) as [[E _]|[E _]]; [discriminate|]. injection E as ->.
  destruct (sph_driver _ _ _ _ _ _ _ _ _ _ _ H' Hne' He) as [[E _]|[E _]]; [discriminate|]. injection E as ->.
  rewrite !nth_map_seq by auto. rewrite Ho, Hr, Hc. reflexivity.
Qed.
Print Assumptions C71_own.

(** ** C40: ellipsoidal binning overwrites the catalogue *)
Lemma edges_ell_length rs edges : edges_ell rs = DOk edges -> length edges = S (length rs).
Proof.
  unfold edges_ell. intros H. pose proof (midpoints_length rs) as M. destruct (midpoints rs) as [|m0 [|m1 l]] eqn:E; try discriminate.
  destruct Req_EM_T; [discriminate|]. assert (H' : edges = m0 * m0 / m1 :: (m0 :: m1 :: l) ++ [last rs 0]) by congruence.
  subst edges. cbn [length app] in *. rewrite app_length. cbn. lia.
Qed.
Lemma calc_ell_indep interp sh rs edges r200 c x ms b b' : length x = length ms ->
  fst (ell_calc interp sh rs edges r200 c x ms b) = fst (ell_calc interp sh rs edges r200 c x ms b').
Proof.
  intros H. destruct (combine_map x ms H) as [E1 E2]. unfold ell_calc.
  match goal with |- fst (calcDensProfBruteForceEll x ms c ?A ?B ?C ?M ?I ?N ?D b) = _ =>
    pose proof (ell_indep (combine x ms) c A B C M I N D b b') as X end.
  rewrite E1, E2 in X. exact X.
Qed.

(** Every object has a particle, the masses of the listed particles are positive, and the random
    choices are drawn from the object. *)
Definition regular (masses : list R) (choose : nat -> list nat) (cat : list (list nat)) : Prop :=
  (forall p, (p < length cat)%nat -> nth p cat [] <> [] /\ valid_choice (choose p) (length (nth p cat []))) /\
  (forall i, In i (concat cat) -> 0 < nth i masses 0).

Lemma ell_objects masses choose cat xyz idx' p : regular masses choose cat ->
  overwritten (concat cat) (map (@length nat) cat) = Some idx' -> (p < length cat)%nat ->
  exists x m, nth p (map (ptcs xyz masses) (parts idx' (map (@length nat) cat))) [] = repeat (x, m) (length (nth p cat [])) /\ 0 < m.
Proof.
  intros (Hreg & Hm) Ho Hp. destruct (overwritten_parts _ _ _ (offsets_total cat) Ho) as (Hl & Hin & Hv).
  destruct (Hv p ltac:(rewrite map_length; auto)) as (v & Ev & _).
  assert (Es : nth p (map (@length nat) cat) 0%nat = length (nth p cat [])) by (change 0%nat with (@length nat []); apply map_nth).
  rewrite Es in Ev. exists (nth v xyz v0), (nth v masses 0).
  assert (Hpl : (p < length (parts idx' (map (@length nat) cat)))%nat) by (unfold parts; rewrite !map_length, seq_length; auto).
  split.
  - change [] with (ptcs xyz masses []) at 1. rewrite map_nth, Ev. unfold ptcs. generalize (length (nth p cat [])).
    induction n; cbn; congruence.
  - apply Hm, Hin. destruct (Hreg p Hp) as (Hne & _).
    assert (I : In v (nth p (parts idx' (map (@length nat) cat)) [])).
    { rewrite Ev. destruct (nth p cat []); [congruence|]. left. reflexivity. }
    unfold parts in I. rewrite nth_map_seq in I by (rewrite map_length; auto).
    unfold slice in I.
    assert (F : forall n (l : list nat) y, In y (firstn n l) -> In y l).
    { intros n l y Hy. rewrite <- (firstn_skipn n l). apply in_or_app. auto. }
    assert (G : forall n (l : list nat) y, In y (skipn n l) -> In y l).
    { intros n l y Hy. rewrite <- (firstn_skipn n l). apply in_or_app. auto. }
    eauto.
Qed.

(* Whatever the particles, shapes and radii: with the centre of mass as centre, every profile the
   routine returns consists of NaN only. *)
Theorem C40_nan : forall interp fuel choose xyz masses r200s rs shs cat L rows idx',
  0 <= L -> regular masses choose cat ->
  calcDensProfsEllDirectBinning interp fuel CCom choose xyz masses r200s rs shs (concat cat) (map (@length nat) cat) L (DOk rows) idx' ->
  rows = repeat (repeat NaN (length rs)) (length cat).
Proof.
  intros interp fuel choose xyz masses r200s rs shs cat L rows idx' HL Hreg H.
  inversion H as [| | | | |edges idx'' r Hsz He Ho objs cs Hn Hl]; subst.
  apply dens_loop_result in Hl; [|intros; apply calc_ell_indep; auto].
  assert (Hlo : length objs = length cat) by (unfold objs, parts; rewrite !map_length, seq_length; auto).
  destruct (existsb _ _) eqn:Ex in Hl; [discriminate|]. injection Hl as ->. rewrite Hlo in *.
  assert (G : forall p, (p < length cat)%nat -> ret_of (dens_result L objs (fun p x ms buf => ell_calc interp (nth p shs (mkSh [] [] [] [] [] [])) rs edges (nth p r200s 0)
       (from_some (nth p cs None)) x ms buf) p) = repeat NaN (length rs) \/ dens_result L objs (fun p x ms buf => ell_calc interp (nth p shs (mkSh [] [] [] [] [] [])) rs edges (nth p r200s 0)
       (from_some (nth p cs None)) x ms buf) p = ZeroDivision).
  { intros p Hp. destruct (ell_objects masses choose cat xyz idx' p Hreg Ho Hp) as (x & m & Eo & Hm).
    destruct (proj1 Hreg p Hp) as (Hne & Hv).
    assert (Hk : (0 < length (nth p cat []))%nat) by (destruct (nth p cat []); [congruence|cbn; lia]).
    assert (Ec : nth p cs None = Some x).
    { unfold cs. rewrite obj_centers_nth by lia. unfold objs. rewrite Eo.
      apply (center_const fuel CCom (choose p) L x m _ HL Hk Hv Hm). }
    unfold dens_result. rewrite Ec. unfold objs. rewrite Eo. cbn [from_some].
    assert (MR : forall {X Y} (f : X -> Y) x n, map f (repeat x n) = repeat (f x) n) by (intros X Y f y n; induction n; cbn; congruence).
    rewrite !MR. cbn [fst snd]. rewrite (proj2 (respect_const (choose p) x _ L HL Hk Hv)).
    set (k := length (nth p cat [])) in *. unfold ell_calc.
    match goal with |- ret_of (fst (calcDensProfBruteForceEll _ _ _ ?A ?B ?C ?M ?I ?N ?D ?b)) = _ \/ _ =>
      destruct (ell_coincident x (repeat m k) A B C M I N (length rs) b D) as [E|E] end.
    - unfold interp_edges. rewrite map_length, (edges_ell_length _ _ He). lia.
    - apply repeat_length.
    - rewrite repeat_length in E. right. exact E.
    - rewrite repeat_length in E. left. rewrite E. reflexivity. }
  apply (nth_ext _ _ [] []); [rewrite map_length, seq_length, repeat_length; auto|].
  intros p Hp. rewrite map_length, seq_length in Hp. rewrite nth_map_seq by auto.
  rewrite (nth_indep (repeat _ _) [] (repeat NaN (length rs))) by (rewrite repeat_length; auto). rewrite nth_repeat.
  destruct (G p Hp) as [E|E]; [exact E|]. exfalso.
  match type of Ex with ?X = false => assert (X = true); [|congruence] end.
  apply existsb_exists. exists p. split; [apply in_seq; lia|]. rewrite E. reflexivity.
Qed.
Print Assumptions C40_nan.

(* With the mode as centre, no profiles are returned as soon as one object has five particles. *)
Theorem C40_mode : forall interp fuel choose xyz masses r200s rs shs cat L rows idx' p,
  0 <= L -> regular masses choose cat -> (p < length cat)%nat -> (5 <= length (nth p cat []))%nat ->
  ~ calcDensProfsEllDirectBinning interp fuel CMode choose xyz masses r200s rs shs (concat cat) (map (@length nat) cat) L (DOk rows) idx'.
Proof.
  intros interp fuel choose xyz masses r200s rs shs cat L rows idx' p HL Hreg Hp H5 H.
  inversion H as [| | | | |edges idx'' r Hsz He Ho objs cs Hn Hl]; subst. clear Hl.
  destruct (ell_objects masses choose cat xyz idx' p Hreg Ho Hp) as (x & m & Eo & Hm).
  destruct (proj1 Hreg p Hp) as (Hne & Hv).
  assert (Hlo : length objs = length cat) by (unfold objs, parts; rewrite !map_length, seq_length; auto).
  destruct (no_none cs p Hn) as (c & Ec); [unfold cs; rewrite obj_centers_length; lia|].
  unfold cs in Ec. rewrite obj_centers_nth in Ec by lia. unfold objs in Ec. rewrite Eo in Ec.
  pose proof (center_const fuel CMode (choose p) L x m (length (nth p cat [])) HL ltac:(lia) Hv Hm H5). cbv beta iota in *. congruence.
Qed.
Print Assumptions C40_mode.

(* After a run that returns profiles, the catalogue of the caller lists a single particle for
   each object, as often as the object has particles. *)
Theorem C40_catalogue : forall interp fuel kind choose xyz masses r200s rs shs cat L rows idx' p,
  calcDensProfsEllDirectBinning interp fuel kind choose xyz masses r200s rs shs (concat cat) (map (@length nat) cat) L (DOk rows) idx' ->
  (p < length cat)%nat -> exists v, nth p (parts idx' (map (@length nat) cat)) [] = repeat v (length (nth p cat [])).
Proof.
  intros interp fuel kind choose xyz masses r200s rs shs cat L rows idx' p H Hp.
  inversion H as [| | | | |edges idx'' r Hsz He Ho objs cs Hn Hl]; subst. clear Hl.
  destruct (overwritten_parts _ _ _ (offsets_total cat) Ho) as (_ & _ & Hv).
  destruct (Hv p ltac:(rewrite map_length; auto)) as (v & Ev & _). exists v. rewrite Ev. f_equal.
  change 0%nat with (@length nat []). apply map_nth.
Qed.
Print Assumptions C40_catalogue.

(** One object with two particles, in spherical shapes: the catalogue is changed from [0; 1] to
    [0; 0] and the profile is NaN at every radius. *)
Definition sphere_interp (xs ys : list xr) (r : R) : xr := Fin 1.
Lemma ex_interp_run : exists rows idx',
  calcDensProfsEllDirectBinning sphere_interp 1 CCom (fun _ => [0; 1]%nat) [mkV 1 0 0; mkV 3 0 0] [1; 1] [1] [1; 2; 3]
    [] (concat [[0; 1]%nat]) (map (@length nat) [[0; 1]%nat]) 0 (DOk rows) idx' /\ idx' = [0; 0]%nat.
Proof.
  assert (He : exists edges, edges_ell [1; 2; 3] = DOk edges).
  { unfold edges_ell. cbn [midpoints]. destruct Req_EM_T; [lra|eauto]. }
  destruct He as (edges & He).
  set (cat := [[0; 1]%nat]). set (xyz := [mkV 1 0 0; mkV 3 0 0]). set (masses := [1; 1]).
  set (objs := map (ptcs xyz masses) (parts [0; 0]%nat (map (@length nat) cat))).
  set (cs := obj_centers 1 CCom (fun _ => [0; 1]%nat) 0 objs).
  set (calc := fun p x ms buf => ell_calc sphere_interp (nth p [] (mkSh [] [] [] [] [] [])) [1; 2; 3] edges (nth p [1] 0) (from_some (nth p cs None)) x ms buf).
  destruct (@prange_exists dloc (dval xr) (length objs) (dens_body 0 objs calc) dmem0) as [m' Hm].
  assert (Hl : dens_loop 0 objs calc (if existsb (fun p => is_zerodiv (drow m' p)) (seq 0 (length objs)) then DZeroDivision
                 else DOk (map (fun p => ret_of (drow m' p)) (seq 0 (length objs))))) by (constructor; exact Hm).
  assert (Hcalc : forall p x ms b b', length x = length ms -> fst (calc p x ms b) = fst (calc p x ms b'))
    by (intros; unfold calc; apply calc_ell_indep; auto).
  pose proof (dens_loop_result 0 objs calc Hcalc _ Hl) as Hr. rewrite Hr in Hl.
  replace (existsb (fun p => is_zerodiv (dens_result 0 objs calc p)) (seq 0 (length objs))) with false in Hl.
  - eexists _, [0; 0]%nat. split; [|reflexivity]. eapply ell_ok; [discriminate|exact He|reflexivity|reflexivity|exact Hl].
  - symmetry. apply not_true_iff_false. rewrite existsb_exists. intros (p & Hp & Hz). apply in_seq in Hp. change (length objs) with 1%nat in Hp.
    replace p with 0%nat in Hz by lia. clear p Hp. unfold dens_result, calc in Hz.
    cbn [nth objs map parts] in Hz.
    assert (Eo : nth 0 objs [] = [(mkV 1 0 0, 1); (mkV 1 0 0, 1)]) by reflexivity. rewrite Eo in Hz. clear Eo.
    set (o := [(mkV 1 0 0, 1); (mkV 1 0 0, 1)]) in Hz. destruct (seen_fst 0 o) as [E1 E2]. rewrite <- E1, <- E2 in Hz.
    unfold ell_calc in Hz. rewrite (ell_profile _ _ _ _ _ _ _ _ 3) in Hz; [|unfold interp_edges; rewrite map_length, (edges_ell_length _ _ He); reflexivity|reflexivity].
    destruct (existsb _ (seq 0 3)) eqn:Ex in Hz; [|discriminate Hz]. clear Hz. apply existsb_exists in Ex. destruct Ex as (i & Hi & Hb).
    apply in_seq in Hi. unfold ell_bad in Hb. apply orb_true_iff in Hb.
    assert (Hc : from_some (nth 0 cs None) = mkV 1 0 0).
    { unfold cs. rewrite obj_centers_nth by (cbn; lia). assert (Eo : nth 0 objs [] = o) by reflexivity. rewrite Eo.
      pose proof (center_const 1 CCom [0; 1]%nat 0 (mkV 1 0 0) 1 2 ltac:(lra) ltac:(lia)) as X. cbv beta iota in X.
      change (repeat (mkV 1 0 0, 1) 2) with o in X. rewrite X; [reflexivity| |lra].
      split; [repeat constructor; cbn; lia|]. split; [cbn; lia|reflexivity]. }
    rewrite Hc in Hb.
    assert (Hs : seen 0 o = o). { unfold seen, cy_respectPBCNoRef. destruct Req_EM_T; [reflexivity|lra]. }
    rewrite Hs in Hb. destruct Hb as [Hb|Hb].
    + apply existsb_exists in Hb. destruct Hb as (y & Hy & Hz). apply in_flat_map in Hy. destruct Hy as (p & _ & Hy).
      assert (A1 : forall ws k, (k < 3)%nat -> nth k (interp_axis sphere_interp [] ws [1; 2; 3] 1) x0 = fv (mkV 1 1 1)).
      { intros ws [|[|[|k]]] Hk; [reflexivity..|lia]. }
      assert (A2 : forall xs ys k, (k < 4)%nat -> nth k (interp_edges sphere_interp xs ys edges 1) NaN = Fin 1).
      { intros xs ys k Hk. unfold interp_edges. rewrite (nth_indep _ NaN (sphere_interp xs ys (0 * 1))) by (rewrite map_length, (edges_ell_length _ _ He); auto).
        rewrite (map_nth (fun e => sphere_interp xs ys (e * 1))). reflexivity. }
      assert (HX : xzero y = false); [|congruence]. unfold shell_divisors in Hy. rewrite !in_app_iff in Hy.
      assert (AX : forall k, (k < 4)%nat -> In y (axes_of (interp_edges sphere_interp [] [] edges 1) (interp_edges sphere_interp [] [] edges 1) (interp_edges sphere_interp [] [] edges 1) k) -> xzero y = false).
      { intros k Hk. unfold axes_of. rewrite !A2 by auto. intros [<-|[<-|[<-|[]]]]; apply xzero_fin; lra. }
      destruct Hy as [Hy|[Hy|Hy]].
      * unfold frame_divisors in Hy. cbn [sh_major sh_inter sh_minor sh_a nth] in Hy. rewrite !A1 in Hy by lia.
        rewrite !xnorm_fv in Hy. assert (sqrt (ip (mkV 1 1 1) (mkV 1 1 1)) <> 0).
        { apply sqrt_ip. unfold ip. cbn. lra. }
        destruct Hy as [<-|[<-|[<-|[]]]]; apply xzero_fin; auto.
      * apply (AX (S i)); auto; lia.
      * destruct in_ellipsoid; [|destruct Hy]. apply (AX i); auto; lia.
    + apply andb_true_iff in Hb. destruct Hb as [Hb _]. apply existsb_exists in Hb. destruct Hb as (q & Hq & Hb).
      assert (fst q = mkV 1 0 0) as Eq by (destruct Hq as [<-|[<-|[]]]; reflexivity). rewrite Eq, center_outside in Hb. discriminate.
Qed.

Theorem C40_refuted : exists interp fuel choose xyz masses r200s rs shs cat L rows idx',
  regular masses choose cat /\
  calcDensProfsEllDirectBinning interp fuel CCom choose xyz masses r200s rs shs (concat cat) (map (@length nat) cat) L (DOk rows) idx' /\
  idx' <> concat cat /\ rows = [[NaN; NaN; NaN]].
Proof.
  destruct ex_interp_run as (rows & idx' & H & E).
  exists sphere_interp, 1%nat, (fun _ => [0; 1]%nat), [mkV 1 0 0; mkV 3 0 0], [1; 1], [1], [1; 2; 3], [], [[0; 1]%nat], 0, rows, idx'.
  assert (Hreg : regular [1; 1] (fun _ => [0; 1]%nat) [[0; 1]%nat]).
  { split.
    - intros p Hp. cbn in Hp. replace p with 0%nat by lia. split; [discriminate|].
      split; [repeat constructor; cbn; lia|]. split; [cbn; lia|reflexivity].
    - intros i Hi. cbn in Hi. destruct Hi as [<-|[<-|[]]]; cbn; lra. }
  split; auto. split; [exact H|]. split; [rewrite E; discriminate|].
  apply (C40_nan _ _ _ _ _ _ _ _ _ _ _ _ (Rle_refl 0) Hreg H).
Qed.
Print Assumptions C40_refuted.

(* Only catalogues of one-particle objects survive unchanged. *)
Theorem C40_single_partial : forall interp fuel kind choose xyz masses r200s rs shs l L r idx',
  calcDensProfsEllDirectBinning interp fuel kind choose xyz masses r200s rs shs l (repeat 1%nat (length l)) L r idx' -> idx' = l.
Proof.
  intros interp fuel kind choose xyz masses r200s rs shs l L r idx' H.
  assert (O : overwritten l (repeat 1%nat (length l)) = Some l).
  { unfold overwritten. rewrite repeat_length.
    assert (Off : forall p, (p <= length l)%nat -> nth p (offsets (repeat 1%nat (length l))) 0%nat = p).
    { induction p as [|p IH]; intros Hp; [reflexivity|]. rewrite offsets_S by (rewrite repeat_length; lia). rewrite IH by lia.
      rewrite (nth_indep _ 0%nat 1%nat) by (rewrite repeat_length; lia). rewrite nth_repeat. lia. }
    assert (G : forall k, (k <= length l)%nat -> fold_left (overwrite (repeat 1%nat (length l))) (seq 0 k) (Some l) = Some l).
    { induction k as [|k IH]; intros Hk; [reflexivity|]. rewrite seq_S, fold_left_app, IH by lia. cbn [fold_left plus].
      destruct (overwrite (repeat 1%nat (length l)) (Some l) k) as [l2|] eqn:E.
      - destruct (overwrite_nth (repeat 1%nat (length l)) l k l2 ltac:(rewrite repeat_length; lia) ltac:(rewrite Off; lia) E) as (L2 & N2). f_equal.
        apply (nth_ext _ _ 0%nat 0%nat L2). intros m _. rewrite N2, !Off by lia.
        destruct (Nat.leb_spec k m), (Nat.ltb_spec m (S k)); cbn [andb]; auto. f_equal. lia.
      - exfalso. unfold overwrite in E. destruct (nth_error l k) eqn:En; [discriminate|]. apply nth_error_None in En. lia. }
    apply G. lia. }
  inversion H; subst; congruence.
Qed.
Print Assumptions C40_single_partial.
Example C40_single_example :
  overwritten [5; 3]%nat (repeat 1%nat 2) = Some [5; 3]%nat /\ overwritten [5; 3; 4]%nat [2; 1]%nat = Some [5; 5; 5]%nat.
Proof. repeat split. Qed.

Example C40_mode_example : regular [1; 1; 1; 1; 1] (fun _ => [0; 1; 2; 3; 4]%nat) [[0; 1; 2; 3; 4]%nat] /\
  (5 <= length (nth 0 [[0; 1; 2; 3; 4]%nat] []))%nat.
Proof.
  split; [|cbn; lia]. split.
  - intros p Hp. cbn in Hp. replace p with 0%nat by lia. split; [discriminate|].
    split; [repeat constructor; cbn; lia|]. split; [cbn; lia|reflexivity].
  - intros i Hi. cbn in Hi. repeat (destruct Hi as [<-|Hi]; [cbn; lra|]). destruct Hi.
Qed.

(** ** C41: enclosed masses *)
Notation mencl_sph ps c r200 radii b :=
  (fst (calcMenclsBruteForceSph (map fst ps) (map snd ps) c r200 radii (repeat 0 (length radii)) b)).
Lemma mencl_ball ps c r200 radii b i : 0 <= r200 -> (i < length radii)%nat -> 0 <= nth i radii 0 ->
  nth i (mencl_sph ps c r200 radii b) 0 = ball_mass c (nth i radii 0 * r200) ps.
Proof.
  intros Hr Hi Hp. rewrite mencl_profile.
  set (g := fun rad => total (fun q : vec * R => if Rltb (sqdist c (fst q)) (rad * r200 * (rad * r200)) then snd q else 0) ps).
  rewrite (nth_indep (map g radii) 0 (g 0)) by (rewrite map_length; auto). rewrite map_nth. unfold g, ball_mass.
  apply total_ext. intros q _. pose proof (in_ball_iff c r200 (nth i radii 0) (fst q) ltac:(apply Rmult_le_pos; auto)) as I.
  destruct (Rlt_dec (distance (fst q) c) (nth i radii 0 * r200)) as [H|H].
  - rewrite (proj2 I H). reflexivity.
  - destruct Rltb; auto. tauto.
Qed.
Lemma mencl_length ps c r200 radii b : length (mencl_sph ps c r200 radii b) = length radii.
Proof. rewrite mencl_profile. apply map_length. Qed.

(* Each entry is the mass of the particles inside the radius. *)
Theorem C41_enclosed : forall ps c r200 radii b, 0 <= r200 -> (forall r, In r radii -> 0 <= r) ->
  length (mencl_sph ps c r200 radii b) = length radii /\
  forall i, (i < length radii)%nat -> nth i (mencl_sph ps c r200 radii b) 0 = ball_mass c (nth i radii 0 * r200) ps.
Proof.
  intros ps c r200 radii b Hr Hp. split; [apply mencl_length|]. intros i Hi. apply mencl_ball; auto. apply Hp, nth_In; auto.
Qed.
Print Assumptions C41_enclosed.

Lemma ball_mono ps c x y : (forall q, In q ps -> 0 <= snd q) -> x <= y -> 0 <= ball_mass c x ps <= ball_mass c y ps.
Proof.
  intros Hm H. unfold ball_mass. induction ps as [|q ps IH]; cbn [total]; [lra|].
  pose proof (Hm q (or_introl eq_refl)). specialize (IH (fun q Hq => Hm q (or_intror Hq))).
  destruct (Rlt_dec (distance (fst q) c) x), (Rlt_dec (distance (fst q) c) y); lra.
Qed.
Lemma ball_all ps c x : (forall q, In q ps -> 0 <= snd q) -> ball_mass c x ps <= mass ps.
Proof.
  intros Hm. unfold ball_mass, mass. induction ps as [|q ps IH]; cbn [total]; [lra|].
  pose proof (Hm q (or_introl eq_refl)). specialize (IH (fun q Hq => Hm q (or_intror Hq))). unfold ptc in *.
  destruct (Rlt_dec (distance (fst q) c) x); lra.
Qed.

(* Non-decreasing in the radius and never above the total mass. *)
Theorem C41_monotone : forall ps c r200 radii b i j, 0 <= r200 -> (forall r, In r radii -> 0 <= r) ->
  (forall q, In q ps -> 0 <= snd q) -> (i < length radii)%nat -> (j < length radii)%nat ->
  nth i radii 0 <= nth j radii 0 ->
  0 <= nth i (mencl_sph ps c r200 radii b) 0 <= nth j (mencl_sph ps c r200 radii b) 0 /\
  nth j (mencl_sph ps c r200 radii b) 0 <= mass ps.
Proof.
  intros ps c r200 radii b i j Hr Hp Hm Hi Hj Hij. destruct (C41_enclosed ps c r200 radii b Hr Hp) as (_ & N).
  rewrite (N i Hi), (N j Hj). split; [apply ball_mono; auto; apply Rmult_le_compat_r; auto|apply ball_all; auto].
Qed.
Print Assumptions C41_monotone.

(* Additive over particles; equal to the total mass once the radius exceeds all distances. *)
Theorem C41_additive : forall ps qs c r200 radii b i, 0 <= r200 -> (forall r, In r radii -> 0 <= r) -> (i < length radii)%nat ->
  nth i (mencl_sph (ps ++ qs) c r200 radii b) 0 = nth i (mencl_sph ps c r200 radii b) 0 + nth i (mencl_sph qs c r200 radii b) 0.
Proof.
  intros ps qs c r200 radii b i Hr Hp Hi.
  destruct (C41_enclosed (ps ++ qs) c r200 radii b Hr Hp) as (_ & N1). destruct (C41_enclosed ps c r200 radii b Hr Hp) as (_ & N2).
  destruct (C41_enclosed qs c r200 radii b Hr Hp) as (_ & N3). rewrite N1, N2, N3 by auto. unfold ball_mass. apply total_app.
Qed.
Print Assumptions C41_additive.
Theorem C41_all : forall ps c r200 radii b i, 0 <= r200 -> (forall r, In r radii -> 0 <= r) -> (i < length radii)%nat ->
  (forall q, In q ps -> distance (fst q) c < nth i radii 0 * r200) ->
  nth i (mencl_sph ps c r200 radii b) 0 = mass ps.
Proof.
  intros ps c r200 radii b i Hr Hp Hi Hall. destruct (C41_enclosed ps c r200 radii b Hr Hp) as (_ & N). rewrite N by auto.
  unfold ball_mass, mass. apply total_ext. intros q Hq. specialize (Hall q Hq). destruct Rlt_dec; [reflexivity|lra].
Qed.
Print Assumptions C41_all.

(* The mass of a density bin is the difference of the masses enclosed by its edges. *)
Theorem C41_difference : forall ps c r200 edges b b' d i, 0 < r200 -> increasing edges ->
  sph_dens ps c r200 edges b = Ret d -> (i < length edges - 1)%nat ->
  nth i d 0 * (ball_volume (nth (S i) edges 0 * r200) - ball_volume (nth i edges 0 * r200)) =
  nth (S i) (mencl_sph ps c r200 edges b') 0 - nth i (mencl_sph ps c r200 edges b') 0.
Proof.
  intros ps c r200 edges b b' d i Hr Hi H Hl.
  destruct (C39_bins ps c r200 edges b Hr Hi) as (d1 & E & _ & N). rewrite E in H. injection H as <-.
  destruct (N i Hl) as (V & ->). destruct (sph_value_mass ps c r200 edges i Hr Hi ltac:(lia)) as (L1 & _). cbv zeta in *.
  pose proof (increasing_le _ Hi i (S i) ltac:(lia) ltac:(lia)).
  rewrite !mencl_ball by (try lra; lia). rewrite shell_ball by lra. field. lra.
Qed.
Print Assumptions C41_difference.

Example C41_example : let ps := [(mkV 1 0 0, 1); (mkV 3 0 0, 1); (mkV 0 7 0, 2)] in
  (forall r, In r [2; 4; 8] -> 0 <= r) /\ (forall q, In q ps -> 0 <= snd q) /\
  mencl_sph ps (mkV 0 0 0) 1 [2; 4; 8] (fun _ => 0%nat) = [1; 2; 4].
Proof.
  cbv zeta. split; [cbn; intuition lra|]. split; [cbn; intros q Hq; intuition (subst; cbn; lra)|].
  set (ps := [(mkV 1 0 0, 1); (mkV 3 0 0, 1); (mkV 0 7 0, 2)]).
  assert (Hp : forall r, In r [2; 4; 8] -> 0 <= r) by (cbn; intuition lra).
  destruct (C41_enclosed ps (mkV 0 0 0) 1 [2; 4; 8] (fun _ => 0%nat) ltac:(lra) Hp) as (Hl & N).
  apply (nth_ext _ _ 0 0); [exact Hl|]. intros i Hi. rewrite Hl in Hi. rewrite N by auto.
  assert (D1 : distance (mkV 1 0 0) (mkV 0 0 0) = 1).
  { unfold distance, norm, vsub. cbn [vx vy vz]. replace ((1 - 0) * (1 - 0) + (0 - 0) * (0 - 0) + (0 - 0) * (0 - 0)) with (1 * 1) by ring. apply sqrt_square. lra. }
  assert (D3 : distance (mkV 3 0 0) (mkV 0 0 0) = 3).
  { unfold distance, norm, vsub. cbn [vx vy vz]. replace ((3 - 0) * (3 - 0) + (0 - 0) * (0 - 0) + (0 - 0) * (0 - 0)) with (3 * 3) by ring. apply sqrt_square. lra. }
  assert (D7 : distance (mkV 0 7 0) (mkV 0 0 0) = 7).
  { unfold distance, norm, vsub. cbn [vx vy vz]. replace ((0 - 0) * (0 - 0) + (7 - 0) * (7 - 0) + (0 - 0) * (0 - 0)) with (7 * 7) by ring. apply sqrt_square. lra. }
  unfold ball_mass, ps. cbn [total fst snd]. rewrite D1, D3, D7.
  destruct i as [|[|[|i]]]; cbn [nth length] in *; [..|lia]; repeat (destruct Rlt_dec; try lra).
Qed.

(** ** C42: ellipsoidal shells *)
(** Growing positive semi-axes. *)
Definition growing (l : list R) : Prop := 0 < hd 0 l /\ forall i, (S i < length l)%nat -> nth i l 0 < nth (S i) l 0.
Lemma growing_pos l : growing l -> forall i, (i < length l)%nat -> 0 < nth i l 0.
Proof.
  intros (H0 & H) i. induction i as [|i IH]; intros Hi; [destruct l; auto; cbn in Hi; lia|]. specialize (H i Hi). specialize (IH ltac:(lia)). lra.
Qed.
Definition ellipsoid_volume (a b e : R) : R := 4 / 3 * PI * a * b * e.
(** Mass of the particles inside ellipsoid i+1 and not inside ellipsoid i. *)
Definition in_shell_of u v w c (A B E : list R) (i : nat) (p : vec) : Prop :=
  inside_ellipsoid u v w c (nth (S i) A 0) (nth (S i) B 0) (nth (S i) E 0) p /\
  ~ inside_ellipsoid u v w c (nth i A 0) (nth i B 0) (nth i E 0) p.
Notation ell_dens ps c u v w A B E n b :=
  (fst (calcDensProfBruteForceEll (map fst ps) (map snd ps) c (map Fin A) (map Fin B) (map Fin E)
     (repeat (fv u) n) (repeat (fv v) n) (repeat (fv w) n) (repeat (Fin 0) n) b)).

Section C42.
  Variables (ps : list (vec * R)) (c u v w : vec) (A B E : list R) (n : nat).
  Hypothesis Hu : 0 < ip u u.
  Hypothesis Hv : 0 < ip v v.
  Hypothesis Hw : 0 < ip w w.
  Hypothesis HA : length A = S n.
  Hypothesis HB : length B = S n.
  Hypothesis HE : length E = S n.
  Hypothesis GA : growing A.
  Hypothesis GB : growing B.
  Hypothesis GE : growing E.

  Lemma c42_profile b : ell_dens ps c u v w A B E n b =
    Ret (map (fun i => if existsb (ell_sel c u v w A B E i) ps then Fin (ell_shell_mass ps c u v w A B E i / (ell_vol A B E (S i) - ell_vol A B E i)) else NaN) (seq 0 n)).
  Proof.
    apply ell_fin_profile; auto; intros i Hi; try (apply growing_pos; auto; lia);
    [apply GA|apply GB|apply GE]; lia.
  Qed.
  Lemma c42_sel i q : ell_sel c u v w A B E i q = true <-> in_shell_of u v w c A B E i (fst q).
  Proof. unfold ell_sel, in_shell_of. destruct inside_dec; [destruct inside_dec|]; split; try tauto; try discriminate; auto. Qed.

  (* Empty shells are NaN; the others hold their mass over their volume. *)
  Theorem C42_shells : forall b, exists d, ell_dens ps c u v w A B E n b = Ret d /\ length d = n /\
    forall i, (i < n)%nat ->
      let vol := ellipsoid_volume (nth (S i) A 0) (nth (S i) B 0) (nth (S i) E 0) - ellipsoid_volume (nth i A 0) (nth i B 0) (nth i E 0) in
      0 < vol /\
      ((forall q, In q ps -> ~ in_shell_of u v w c A B E i (fst q)) /\ nth i d NaN = NaN \/
       (exists q, In q ps /\ in_shell_of u v w c A B E i (fst q)) /\
       nth i d NaN = Fin ((ellipsoid_mass u v w c (nth (S i) A 0) (nth (S i) B 0) (nth (S i) E 0) ps -
                           ellipsoid_mass u v w c (nth i A 0) (nth i B 0) (nth i E 0) ps) / vol)).
  Proof.
    intros b. rewrite c42_profile. eexists. split; [reflexivity|]. split; [rewrite map_length, seq_length; auto|].
    intros i Hi vol. split.
    - assert (ell_vol A B E i < ell_vol A B E (S i)).
      { apply (vol_grow A B E n); auto; intros k Hk; try (apply growing_pos; auto; lia); [apply GA|apply GB|apply GE]; lia. }
      unfold vol, ellipsoid_volume. unfold ell_vol in *. lra.
    - rewrite nth_map_seq by auto. destruct existsb eqn:X.
      + right. apply existsb_exists in X. destruct X as (q & Hq & Hs). split; [exists q; split; auto; apply c42_sel; auto|].
        f_equal. f_equal. apply (ell_shell_diff ps c u v w A B E n); auto; intros k Hk; try (apply growing_pos; auto; lia); [apply GA|apply GB|apply GE]; lia.
      + left. split; auto. intros q Hq Hs. apply c42_sel in Hs.
        assert (existsb (ell_sel c u v w A B E i) ps = true) by (apply existsb_exists; eauto). congruence.
  Qed.

  (* A particle is in at most one shell. *)
  Theorem C42_one_shell : forall i j p, (i < n)%nat -> (j < n)%nat ->
    in_shell_of u v w c A B E i p -> in_shell_of u v w c A B E j p -> i = j.
  Proof.
    intros i j p Hi Hj (I1 & I2) (J1 & J2).
    assert (N : forall i j, (i <= j)%nat -> (j <= n)%nat ->
      inside_ellipsoid u v w c (nth i A 0) (nth i B 0) (nth i E 0) p -> inside_ellipsoid u v w c (nth j A 0) (nth j B 0) (nth j E 0) p).
    { intros k l Hkl Hl. apply (nested_le c u v w A B E n); auto; intros m Hm; try (apply growing_pos; auto; lia); [apply GA|apply GB|apply GE]; lia. }
    destruct (Nat.lt_trichotomy i j) as [H|[H|H]]; auto; exfalso.
    - apply J2. apply (N (S i) j); auto; lia.
    - apply I2. apply (N (S j) i); auto; lia.
  Qed.

  (* Sum over the non-empty shells. *)
  Theorem C42_total : forall b d, ell_dens ps c u v w A B E n b = Ret d ->
    total (fun i => match nth i d NaN with
                    | Fin x => x * (ellipsoid_volume (nth (S i) A 0) (nth (S i) B 0) (nth (S i) E 0) - ellipsoid_volume (nth i A 0) (nth i B 0) (nth i E 0))
                    | _ => 0
                    end) (seq 0 n) =
    ellipsoid_mass u v w c (nth n A 0) (nth n B 0) (nth n E 0) ps - ellipsoid_mass u v w c (nth 0 A 0) (nth 0 B 0) (nth 0 E 0) ps.
  Proof.
    intros b d H. rewrite c42_profile in H. injection H as <-.
    rewrite <- (ell_sum ps c u v w A B E n); auto; try (intros k Hk; try (apply growing_pos; auto; lia); first [apply GA|apply GB|apply GE]; lia).
    apply total_ext. intros i Hi. apply in_seq in Hi. rewrite nth_map_seq by lia. destruct existsb; auto.
    assert (ell_vol A B E i < ell_vol A B E (S i)).
    { apply (vol_grow A B E n); auto; try lia; intros k Hk; try (apply growing_pos; auto; lia); [apply GA|apply GB|apply GE]; lia. }
    change (ellipsoid_volume (nth (S i) A 0) (nth (S i) B 0) (nth (S i) E 0)) with (ell_vol A B E (S i)).
    change (ellipsoid_volume (nth i A 0) (nth i B 0) (nth i E 0)) with (ell_vol A B E i). field. lra.
  Qed.
End C42.
Print Assumptions C42_shells.
Print Assumptions C42_one_shell.
Print Assumptions C42_total.

(** Spheres of radii 1, 2, 3 and a particle in the outer shell. *)
Example C42_example : exists d,
  growing [1; 2; 3] /\
  ell_dens [(mkV (5 / 2) 0 0, 3)] (mkV 0 0 0) (mkV 1 0 0) (mkV 0 1 0) (mkV 0 0 1) [1; 2; 3] [1; 2; 3] [1; 2; 3] 2 (fun _ => 0%nat) = Ret d /\
  nth 0 d NaN = NaN /\ nth 1 d NaN = Fin (3 / (ellipsoid_volume 3 3 3 - ellipsoid_volume 2 2 2)).
Proof.
  assert (G : growing [1; 2; 3]).
  { split; [cbn; lra|]. intros [|[|i]] Hi; cbn in *; try lra; lia. }
  assert (I : forall k, 0 < k -> inside_ellipsoid (mkV 1 0 0) (mkV 0 1 0) (mkV 0 0 1) (mkV 0 0 0) k k k (mkV (5 / 2) 0 0) <-> (5 / 2 / k) * (5 / 2 / k) < 1).
  { intros k Hk. unfold inside_ellipsoid, coord_along, ip, vsub. cbn [vx vy vz].
    replace (1 * 1 + 0 * 0 + 0 * 0) with 1 by ring. replace (0 * 0 + 1 * 1 + 0 * 0) with 1 by ring. replace (0 * 0 + 0 * 0 + 1 * 1) with 1 by ring.
    rewrite sqrt_1. match goal with |- ?X < 1 <-> ?Y < 1 => replace X with Y by (field; lra) end. tauto. }
  destruct (C42_shells [(mkV (5 / 2) 0 0, 3)] (mkV 0 0 0) (mkV 1 0 0) (mkV 0 1 0) (mkV 0 0 1) [1; 2; 3] [1; 2; 3] [1; 2; 3] 2) with (b := fun _ : nat => 0%nat)
    as (d & E & Hl & N); auto; try (unfold ip; cbn; lra).
  exists d. split; auto. split; auto. split.
  - destruct (N 0%nat ltac:(lia)) as (_ & [[_ X]|[(q & [<-|[]] & Hs) X]]); auto.
    exfalso. destruct Hs as (Hs & _). cbn [nth fst] in Hs. apply I in Hs; lra.
  - destruct (N 1%nat ltac:(lia)) as (_ & [[X _]|[_ X]]).
    + exfalso. apply (X (mkV (5 / 2) 0 0, 3)); [left; auto|]. split; cbn [nth fst]; rewrite I by lra; lra.
    + rewrite X. cbn [nth]. f_equal. f_equal. unfold ellipsoid_mass. cbn [total fst snd].
      destruct (inside_dec _ _ _ _ 3 3 3 _) as [H3|H3]; [|exfalso; apply H3; apply I; lra].
      destruct (inside_dec _ _ _ _ 2 2 2 _) as [H2|H2]; [exfalso; apply I in H2; lra|]. ring.
Qed.

(* The ellipsoids of one object come from its shape profile: with A(r), B(r), E(r) the semi-axes
   and u, v, w the axes that the interpolation gives at radius r, shell i lies between the
   ellipsoids of radii edge_i R200 and edge_(i+1) R200. *)
Theorem C42_interpolated : forall interp sh rs edges r200 c ps u v w (A B E : R -> R) b, edges_ell rs = DOk edges ->
  0 < ip u u -> 0 < ip v v -> 0 < ip w w ->
  (forall e, In e edges -> interp (sh_a sh) (sh_a sh) (e * r200) = Fin (A (e * r200)) /\
     interp (sh_a sh) (sh_b sh) (e * r200) = Fin (B (e * r200)) /\ interp (sh_a sh) (sh_c sh) (e * r200) = Fin (E (e * r200))) ->
  (forall r, In r rs -> forall ws x, In (ws, x) [(sh_major sh, u); (sh_inter sh, v); (sh_minor sh, w)] ->
     interp (sh_a sh) (map xx ws) (r * r200) = Fin (vx x) /\ interp (sh_a sh) (map xy ws) (r * r200) = Fin (vy x) /\
     interp (sh_a sh) (map xz ws) (r * r200) = Fin (vz x)) ->
  let at_edges (f : R -> R) := map (fun e => f (e * r200)) edges in
  growing (at_edges A) -> growing (at_edges B) -> growing (at_edges E) ->
  exists d, fst (ell_calc interp sh rs edges r200 c (map fst ps) (map snd ps) b) = Ret d /\ length d = length rs /\
  forall i, (i < length rs)%nat ->
    let lo := nth i edges 0 * r200 in let hi := nth (S i) edges 0 * r200 in
    let shell p := inside_ellipsoid u v w c (A hi) (B hi) (E hi) p /\ ~ inside_ellipsoid u v w c (A lo) (B lo) (E lo) p in
    ((forall q, In q ps -> ~ shell (fst q)) /\ nth i d NaN = NaN \/
     (exists q, In q ps /\ shell (fst q)) /\
     nth i d NaN = Fin ((ellipsoid_mass u v w c (A hi) (B hi) (E hi) ps - ellipsoid_mass u v w c (A lo) (B lo) (E lo) ps) /
                        (ellipsoid_volume (A hi) (B hi) (E hi) - ellipsoid_volume (A lo) (B lo) (E lo)))).
Proof.
  intros interp sh rs edges r200 c ps u v w A B E b He Hu Hv Hw HX HW at_edges GA GB GE.
  pose proof (edges_ell_length _ _ He) as Le.
  assert (EA : forall ys (f : R -> R), (forall e, In e edges -> interp (sh_a sh) ys (e * r200) = Fin (f (e * r200))) ->
    interp_edges interp (sh_a sh) ys edges r200 = map Fin (at_edges f)).
  { intros ys f H. unfold interp_edges, at_edges. rewrite map_map. apply map_ext_in. auto. }
  assert (RP : forall n (x : xvec) (l : list R), length l = n -> map (fun _ => x) l = repeat x n) by (intros n x l <-; induction l; cbn; congruence).
  assert (EW : forall ws x, In (ws, x) [(sh_major sh, u); (sh_inter sh, v); (sh_minor sh, w)] ->
    interp_axis interp (sh_a sh) ws rs r200 = repeat (fv x) (length rs)).
  { intros ws x Hin. unfold interp_axis. rewrite <- (RP _ (fv x) rs eq_refl). apply map_ext_in. intros r Hr.
    destruct (HW r Hr ws x Hin) as (E1 & E2 & E3). rewrite E1, E2, E3. destruct x. reflexivity. }
  unfold ell_calc. rewrite (EA _ A), (EA _ B), (EA _ E) by (intros; apply HX; auto).
  rewrite (EW _ u), (EW _ v), (EW _ w) by (cbn; tauto).
  assert (LL : forall f, length (at_edges f) = S (length rs)) by (intros; unfold at_edges; rewrite map_length; auto).
  assert (NN : forall (f : R -> R) k, (k < length edges)%nat -> nth k (at_edges f) 0 = f (nth k edges 0 * r200)).
  { intros f k Hk. unfold at_edges. rewrite (nth_indep _ 0 (f (0 * r200))) by (rewrite map_length; auto). exact (map_nth (fun e => f (e * r200)) edges 0 k). }
  destruct (C42_shells ps c u v w (at_edges A) (at_edges B) (at_edges E) (length rs) Hu Hv Hw (LL A) (LL B) (LL E) GA GB GE b) as (d & Ed & Ld & Hd).
  exists d. split; [exact Ed|]. split; [exact Ld|]. intros i Hi.
  specialize (Hd i Hi). cbv zeta in Hd. destruct Hd as (_ & Hd). unfold in_shell_of in Hd. rewrite !NN in Hd by lia. exact Hd.
Qed.
Print Assumptions C42_interpolated.

(** Ellipsoids with axis ratios 1 : 4/5 : 3/5 at every radius, radii 1, 2, 3 and R200 = 2: the
    edges are 9/10, 3/2, 5/2 and 3, and the particle at distance 4 on the long axis lies between
    the ellipsoids of radii 3/2 R200 = 3 and 5/2 R200 = 5. *)
Definition ex_shapes : shapes :=
  mkSh [Fin 5] [Fin 4] [Fin 3] [mkX (Fin 1) (Fin 0) (Fin 0)] [mkX (Fin 0) (Fin 1) (Fin 0)] [mkX (Fin 0) (Fin 0) (Fin 1)].
Definition ex_line (xs ys : list xr) (r : R) : xr :=
  match ys with
  | [Fin y] => if Rlt_dec 2 y then Fin (y / 5 * r) else Fin y
  | _ => NaN
  end.
Example C42_interpolated_example : exists d,
  fst (ell_calc ex_line ex_shapes [1; 2; 3] [9 / 10; 3 / 2; 5 / 2; 3] 2 (mkV 0 0 0) [mkV 4 0 0] [7] (fun _ => 0%nat)) = Ret d /\
  nth 0 d NaN = NaN /\ nth 1 d NaN = Fin (7 / (ellipsoid_volume 5 4 3 - ellipsoid_volume 3 (12 / 5) (9 / 5))) /\ nth 2 d NaN = NaN.
Proof.
  assert (He : edges_ell [1; 2; 3] = DOk [9 / 10; 3 / 2; 5 / 2; 3]).
  { unfold edges_ell. cbn [midpoints app last]. destruct Req_EM_T; [lra|].
    replace ((1 + 2) / 2) with (3 / 2) by lra. replace ((2 + 3) / 2) with (5 / 2) by lra. replace (3 / 2 * (3 / 2) / (5 / 2)) with (9 / 10) by lra. reflexivity. }
  assert (I : forall k, 0 < k -> inside_ellipsoid (mkV 1 0 0) (mkV 0 1 0) (mkV 0 0 1) (mkV 0 0 0) k (4 / 5 * k) (3 / 5 * k) (mkV 4 0 0) <-> (4 / k) * (4 / k) < 1).
  { intros k Hk. unfold inside_ellipsoid, coord_along, ip, vsub. cbn [vx vy vz].
    replace (1 * 1 + 0 * 0 + 0 * 0) with 1 by ring. replace (0 * 0 + 1 * 1 + 0 * 0) with 1 by ring. replace (0 * 0 + 0 * 0 + 1 * 1) with 1 by ring.
    rewrite sqrt_1. match goal with |- ?X < 1 <-> ?Y < 1 => replace X with Y by (field; lra) end. tauto. }
  assert (In5 : forall k, 4 < k -> inside_ellipsoid (mkV 1 0 0) (mkV 0 1 0) (mkV 0 0 1) (mkV 0 0 0) k (4 / 5 * k) (3 / 5 * k) (mkV 4 0 0)).
  { intros k Hk. apply I; [lra|]. assert (4 / k < 1) by (apply (Rmult_lt_reg_r k); [lra|]; unfold Rdiv; rewrite Rmult_assoc, Rinv_l; lra).
    assert (0 < 4 / k) by (apply Rdiv_lt_0_compat; lra). nra. }
  assert (Out : forall k, 0 < k <= 4 -> ~ inside_ellipsoid (mkV 1 0 0) (mkV 0 1 0) (mkV 0 0 1) (mkV 0 0 0) k (4 / 5 * k) (3 / 5 * k) (mkV 4 0 0)).
  { intros k Hk H. apply I in H; [|lra]. assert (1 <= 4 / k) by (apply (Rmult_le_reg_r k); [lra|]; unfold Rdiv; rewrite Rmult_assoc, Rinv_l; lra). nra. }
  destruct (C42_interpolated ex_line ex_shapes [1; 2; 3] [9 / 10; 3 / 2; 5 / 2; 3] 2 (mkV 0 0 0) [(mkV 4 0 0, 7)] (mkV 1 0 0) (mkV 0 1 0) (mkV 0 0 1)
    (fun r => r) (fun r => 4 / 5 * r) (fun r => 3 / 5 * r) (fun _ => 0%nat) He) as (d & Ed & _ & N).
  - unfold ip; cbn; lra.
  - unfold ip; cbn; lra.
  - unfold ip; cbn; lra.
  - intros e _. unfold ex_line, ex_shapes. cbn [sh_a sh_b sh_c]. destruct (Rlt_dec 2 5), (Rlt_dec 2 4), (Rlt_dec 2 3); try lra.
    repeat split; f_equal; lra.
  - intros r _ ws x [H|[H|[H|[]]]]; injection H as <- <-; unfold ex_line, ex_shapes; cbn [sh_major sh_inter sh_minor map xx xy xz vx vy vz];
      destruct (Rlt_dec 2 1), (Rlt_dec 2 0); try lra; auto.
  - split; [cbn; lra|]. intros [|[|[|i]]] Hi; cbn in *; try lra; lia.
  - split; [cbn; lra|]. intros [|[|[|i]]] Hi; cbn in *; try lra; lia.
  - split; [cbn; lra|]. intros [|[|[|i]]] Hi; cbn in *; try lra; lia.
  - exists d. split; [exact Ed|]. repeat split.
    + destruct (N 0%nat ltac:(cbn; lia)) as [[_ X]|[(q & [<-|[]] & Hs & _) _]]; auto. exfalso. cbn [nth fst] in Hs. apply Out in Hs; lra.
    + destruct (N 1%nat ltac:(cbn; lia)) as [[X _]|[_ X]].
      * exfalso. apply (X (mkV 4 0 0, 7)); [left; auto|]. cbn [nth fst]. split; [apply In5|apply Out]; lra.
      * rewrite X. cbn [nth]. f_equal. unfold ellipsoid_mass. cbn [total fst snd].
        destruct inside_dec as [H5|H5]; [|exfalso; apply H5; apply In5; lra]. destruct inside_dec as [H3|H3]; [exfalso; apply Out in H3; lra|].
        replace (5 / 2 * 2) with 5 by lra. replace (3 / 2 * 2) with 3 by lra. replace (4 / 5 * 5) with 4 by lra. replace (3 / 5 * 5) with 3 by lra.
        replace (4 / 5 * 3) with (12 / 5) by lra. replace (3 / 5 * 3) with (9 / 5) by lra. f_equal. ring.
    + destruct (N 2%nat ltac:(cbn; lia)) as [[_ X]|[(q & [<-|[]] & _ & Hs) _]]; auto. exfalso. apply Hs. cbn [nth fst]. apply In5; lra.
Qed.

(** ** C43: kernel estimate *)
Theorem C43_symmetric : forall r s h, calcKTilde r s h = calcKTilde s r h.
Proof.
  intros r s h. unfold calcKTilde. rewrite (Rmult_comm s r). destruct Req_EM_T; auto. destruct Req_EM_T; auto.
  replace ((r - s) * (r - s)) with ((s - r) * (s - r)) by ring. replace ((r + s) * (r + s)) with ((s + r) * (s + r)) by ring. reflexivity.
Qed.
Print Assumptions C43_symmetric.

(* Density of a normal distribution of width h in each coordinate, times h^3, at distance d. *)
Definition gauss3 (h d2 : R) : R := / Rpower (2 * PI) (3 / 2) * exp (- d2 / (2 * (h * h))).
(* The kernel is the average of gauss3 over the directions of a particle at distance s from the
   centre, seen from a point at distance r: with mu the cosine of the angle, the squared
   separation is r^2 + s^2 - 2 r s mu. F is any antiderivative. *)
Theorem C43_average : forall r s h, 0 < r -> 0 < s -> 0 < h ->
  exists k, calcKTilde r s h = Ret (Fin k) /\ 0 < k /\
  forall F, (forall mu, derivable_pt_lim F mu (gauss3 h (r * r + s * s - 2 * r * s * mu))) ->
    k = (F 1 - F (-1)) / 2.
Proof.
  intros r s h Hr Hs Hh. unfold calcKTilde.
  assert (Hhh : 0 < h * h) by (apply Rmult_lt_0_compat; auto). assert (Hrs : 0 < r * s) by (apply Rmult_lt_0_compat; auto).
  assert (Hq : 0 < r * s / (h * h)) by (apply Rmult_lt_0_compat; auto; apply Rinv_0_lt_compat; auto).
  destruct Req_EM_T; [lra|]. destruct Req_EM_T; [lra|].
  assert (HP : 0 < Rpower (2 * PI) (3 / 2)) by (unfold Rpower; apply exp_pos).
  set (P := Rpower (2 * PI) (3 / 2)) in *. eexists. split; [reflexivity|]. split.
  - repeat apply Rmult_lt_0_compat; try lra; try (apply Rinv_0_lt_compat; auto; lra).
    apply Rlt_Rminus. apply exp_increasing. unfold Rdiv. apply Rmult_lt_compat_r; [apply Rinv_0_lt_compat; lra|].
    apply Ropp_lt_contravar. nra.
  - intros F HF. set (G := fun mu => / P * (h * h / (r * s)) * exp (- (r * r + s * s - 2 * r * s * mu) / (2 * (h * h)))).
    assert (HG : forall mu, derivable_pt_lim G mu (gauss3 h (r * r + s * s - 2 * r * s * mu))).
    { intros mu. unfold G, gauss3.
      set (a := / P * (h * h / (r * s))). set (lin := fun mu => - (r * r + s * s - 2 * r * s * mu) / (2 * (h * h))).
      assert (HL : derivable_pt_lim lin mu (r * s / (h * h))).
      { unfold lin.
        assert (X : derivable_pt_lim (fun x => (- (r * r + s * s) / (2 * (h * h))) + (r * s / (h * h)) * x) mu (0 + r * s / (h * h) * 1)).
        { apply (derivable_pt_lim_plus (fun _ => - (r * r + s * s) / (2 * (h * h))) (fun x => r * s / (h * h) * x)).
          - apply derivable_pt_lim_const.
          - apply (derivable_pt_lim_scal id). apply derivable_pt_lim_id. }
        replace (r * s / (h * h)) with (0 + r * s / (h * h) * 1) by ring.
        eapply derivable_pt_lim_ext; [|exact X]. intros x. cbv beta. field. lra. }
      replace (/ Rpower (2 * PI) (3 / 2) * exp (- (r * r + s * s - 2 * r * s * mu) / (2 * (h * h))))
        with (a * (exp (lin mu) * (r * s / (h * h)))).
      - apply (derivable_pt_lim_scal (fun mu => exp (lin mu)) a).
        apply (derivable_pt_lim_comp lin exp); auto. apply derivable_pt_lim_exp.
      - unfold a, lin. fold P. field. repeat split; lra. }
    assert (HD : forall mu, derivable_pt_lim (fun x => F x - G x) mu 0).
    { intros mu. replace 0 with (gauss3 h (r * r + s * s - 2 * r * s * mu) - gauss3 h (r * r + s * s - 2 * r * s * mu)) by ring.
      apply (derivable_pt_lim_minus F G); auto. }
    assert (EQ : F 1 - G 1 = F (-1) - G (-1)).
    { assert (pr : derivable (fun x => F x - G x)) by (intros x; exists 0; apply HD).
      apply (null_derivative_1 (fun x => F x - G x) pr). intros x. apply derive_pt_eq_0. apply HD. }
    replace (F 1 - F (-1)) with (G 1 - G (-1)) by lra. unfold G.
    replace (- (r * r + s * s - 2 * r * s * 1) / (2 * (h * h))) with (- ((s - r) * (s - r)) / (2 * (h * h))) by (field; lra).
    replace (- (r * r + s * s - 2 * r * s * -1) / (2 * (h * h))) with (- ((s + r) * (s + r)) / (2 * (h * h))) by (field; lra).
    field. repeat split; lra.
Qed.
Print Assumptions C43_average.

(** Density at radius x R200 of a unit mass at distance d from the centre. *)
Definition unit_density (x r200 d : R) : R := match kernel_term x r200 d 1 with Ret (Fin k) => k | _ => 0 end.
Lemma kernel_term_fin x r200 d m : 0 < x -> 0 < r200 -> 0 < d ->
  kernel_term x r200 d m = Ret (Fin (m * unit_density x r200 d)) /\ 0 < unit_density x r200 d.
Proof.
  intros Hx Hr Hd.
  assert (Hh : 0 < width r200 d).
  { unfold width. apply Rmult_lt_0_compat; [lra|]. apply sqrt_lt_R0. apply Rmult_lt_0_compat; auto. apply Rinv_0_lt_compat. lra. }
  destruct (C43_average (x * r200) d (width r200 d)) as (k & Ek & Pk & _); auto; [apply Rmult_lt_0_compat; auto|].
  assert (Hhh : 0 < width r200 d * width r200 d * width r200 d) by (apply Rmult_lt_0_compat; auto; apply Rmult_lt_0_compat; auto).
  assert (E : forall m, kernel_term x r200 d m = Ret (Fin (m * (k / (width r200 d * width r200 d * width r200 d))))).
  { intros m'. unfold kernel_term. rewrite Ek. destruct Req_EM_T; [lra|]. f_equal. rewrite Fin_mul, xdiv_fin by lra. f_equal. field. lra. }
  unfold unit_density. rewrite !E. rewrite Rmult_1_l. split; auto. apply Rmult_lt_0_compat; auto. apply Rinv_0_lt_compat. auto.
Qed.
Lemma kernel_terms_fin x r200 c ps : 0 < x -> 0 < r200 -> (forall q, In q ps -> 0 < distance (fst q) c) ->
  kernel_terms x r200 c ps = Ret (Fin (total (fun q => snd q * unit_density x r200 (distance (fst q) c)) ps)).
Proof.
  intros Hx Hr Hd. unfold kernel_terms.
  assert (G : forall y, fold_left (fun d q => kernel_add d (kernel_term x r200 (norm (vsub (fst q) c)) (snd q))) ps (Ret (Fin y)) =
    Ret (Fin (y + total (fun q => snd q * unit_density x r200 (distance (fst q) c)) ps))).
  { induction ps as [|q ps IH]; intros y; cbn [fold_left total]; [rewrite Rplus_0_r; reflexivity|].
    destruct (kernel_term_fin x r200 (norm (vsub (fst q) c)) (snd q) Hx Hr (Hd q (or_introl eq_refl))) as [-> _].
    cbn [kernel_add]. rewrite Fin_add, IH by (intros q' Hq'; apply Hd; right; auto). do 2 f_equal. unfold distance. ring. }
  rewrite G, Rplus_0_l. reflexivity.
Qed.

(** No particle, as seen by the routine, sits at the centre. *)
Definition off_centre (L : R) (c : vec) (o : list ptc) : Prop := forall q, In q (seen L o) -> 0 < distance (fst q) c.

(* Every run of the loop over the radii returns the mass-weighted sum of positive densities that
   depend only on the radius, R200 and the distance. *)
Theorem C43_sum : forall rs r200 c L o r, kernel_object rs r200 c L o r -> 0 < r200 -> (forall x, In x rs -> 0 < x) -> off_centre L c o ->
  r = DOk (map (fun x => Fin (total (fun q => snd q * unit_density x r200 (distance (fst q) c)) (seen L o))) rs) /\
  (forall x q, In x rs -> In q (seen L o) -> 0 < unit_density x r200 (distance (fst q) c)).
Proof.
  intros rs r200 c L o r H Hr Hx Ho. apply kernel_object_result in H. cbv zeta in H. fold (seen L o) in H. split.
  - rewrite H. replace (existsb _ rs) with false.
    + f_equal. apply map_ext_in. intros x Hin. rewrite kernel_terms_fin by auto. reflexivity.
    + symmetry. apply not_true_iff_false. rewrite existsb_exists. intros (x & Hin & Hz). rewrite kernel_terms_fin in Hz by auto. discriminate.
  - intros x q Hin Hq. apply (kernel_term_fin x r200 _ 1); auto.
Qed.
Print Assumptions C43_sum.

(** Positions that the routine does not move. *)
Definition unmoved (L : R) (o : list ptc) : Prop := cy_respectPBCNoRef (map fst o) L = map fst o.
Lemma seen_unmoved L o : unmoved L o -> seen L o = o.
Proof. unfold unmoved, seen. intros ->. induction o as [|[x m] o IH]; [reflexivity|]. cbn. f_equal. exact IH. Qed.

(* Additive over the particles, at a fixed centre, for objects that do not cross the box. *)
Theorem C43_additive : forall rs r200 c L o1 o2 r1 r2 r12,
  kernel_object rs r200 c L o1 r1 -> kernel_object rs r200 c L o2 r2 -> kernel_object rs r200 c L (o1 ++ o2) r12 ->
  0 < r200 -> (forall x, In x rs -> 0 < x) -> off_centre L c o1 -> off_centre L c o2 ->
  unmoved L o1 -> unmoved L o2 -> unmoved L (o1 ++ o2) ->
  exists w1 w2, r1 = DOk (map Fin w1) /\ r2 = DOk (map Fin w2) /\
    r12 = DOk (map Fin (map (fun ab => fst ab + snd ab) (combine w1 w2))) /\ length w1 = length rs /\ length w2 = length rs.
Proof.
  intros rs r200 c L o1 o2 r1 r2 r12 H1 H2 H12 Hr Hx C1 C2 U1 U2 U12.
  set (D := fun o x => total (fun q => snd q * unit_density x r200 (distance (fst q) c)) (o : list ptc)).
  exists (map (D o1) rs), (map (D o2) rs).
  assert (C12 : off_centre L c (o1 ++ o2)).
  { unfold off_centre in *. rewrite seen_unmoved in * by auto. intros q Hq. apply in_app_or in Hq. destruct Hq; auto. }
  destruct (C43_sum _ _ _ _ _ _ H1 Hr Hx C1) as [-> _]. destruct (C43_sum _ _ _ _ _ _ H2 Hr Hx C2) as [-> _].
  destruct (C43_sum _ _ _ _ _ _ H12 Hr Hx C12) as [-> _]. rewrite !seen_unmoved by auto.
  rewrite !map_map, !map_length. repeat split. f_equal. clear. induction rs as [|x rs IH]; [reflexivity|]. cbn [map combine fst snd].
  f_equal; [|exact IH]. unfold D. rewrite total_app. reflexivity.
Qed.
Print Assumptions C43_additive.

(* Linear in the masses. *)
Theorem C43_linear : forall rs r200 c L o r k r', kernel_object rs r200 c L o r ->
  kernel_object rs r200 c L (map (fun q => (fst q, k * snd q)) o) r' ->
  0 < r200 -> (forall x, In x rs -> 0 < x) -> off_centre L c o ->
  exists w, r = DOk (map Fin w) /\ r' = DOk (map Fin (map (Rmult k) w)) /\ length w = length rs /\
    ((forall q, In q o -> 0 <= snd q) -> forall x, In x w -> 0 <= x).
Proof.
  intros rs r200 c L o r k r' H H' Hr Hx Ho.
  set (D := fun x => total (fun q => snd q * unit_density x r200 (distance (fst q) c)) (seen L o)).
  assert (Es : seen L (map (fun q => (fst q, k * snd q)) o) = map (fun q => (fst q, k * snd q)) (seen L o)).
  { unfold seen. rewrite !map_map. cbn [fst snd].
    change (map (fun x => fst x) o) with (map fst o). generalize (cy_respectPBCNoRef (map fst o) L). clear.
    induction o as [|q o IH]; intros [|x l]; cbn; auto. f_equal. apply IH. }
  exists (map D rs).
  assert (Ho' : off_centre L c (map (fun q => (fst q, k * snd q)) o)).
  { unfold off_centre. rewrite Es. intros q Hq. apply in_map_iff in Hq. destruct Hq as (q' & <- & Hq). exact (Ho q' Hq). }
  destruct (C43_sum _ _ _ _ _ _ H Hr Hx Ho) as [-> P]. destruct (C43_sum _ _ _ _ _ _ H' Hr Hx Ho') as [-> _].
  rewrite !map_map, map_length, Es. repeat split.
  - f_equal. apply map_ext. intros x. f_equal. unfold D. rewrite total_map, <- total_scale. apply total_ext. intros q _. cbn [fst snd]. ring.
  - intros Hm x Hin. apply in_map_iff in Hin. destruct Hin as (y & <- & Hy). unfold D. apply total_nonneg. intros q Hq.
    apply Rmult_le_pos; [|apply Rlt_le, P; auto].
    assert (I : In (snd q) (map snd (seen L o))) by (apply in_map; auto). rewrite (proj2 (seen_fst L o)) in I.
    apply in_map_iff in I. destruct I as (q' & <- & Hq'). apply Hm. auto.
Qed.
Print Assumptions C43_linear.

(* A particle at the centre makes the routine raise. *)
Theorem C43_raises : forall rs r200 c L o r q, kernel_object rs r200 c L o r -> rs <> [] ->
  In q (seen L o) -> fst q = c -> r = DZeroDivision.
Proof.
  intros rs r200 c L o r q H Hrs Hq Ec. apply kernel_object_result in H. cbv zeta in H. fold (seen L o) in H.
  destruct rs as [|x rs]; [congruence|].
  assert (E : kernel_terms x r200 c (seen L o) = ZeroDivision).
  { unfold kernel_terms. apply in_split in Hq. destruct Hq as (l1 & l2 & ->). rewrite fold_left_app. cbn [fold_left].
    replace (kernel_term x r200 (norm (vsub (fst q) c)) (snd q)) with (@ZeroDivision xr).
    - replace (kernel_add (fold_left (fun d q0 => kernel_add d (kernel_term x r200 (norm (vsub (fst q0) c)) (snd q0))) l1 (Ret (Fin 0))) ZeroDivision)
        with (@ZeroDivision xr) by (destruct fold_left; reflexivity).
      clear. induction l2; cbn; auto.
    - rewrite Ec. unfold kernel_term.
      assert (W : width r200 (norm (vsub c c)) = 0).
      { unfold width. replace (norm (vsub c c)) with 0.
        - unfold Rdiv. rewrite Rmult_0_l, sqrt_0. ring.
        - unfold norm, vsub. cbn [vx vy vz]. rewrite !Rminus_diag_eq by reflexivity. symmetry.
          replace (0 * 0 + 0 * 0 + 0 * 0) with 0 by ring. apply sqrt_0. }
      rewrite W. unfold calcKTilde. destruct (Req_EM_T (0 * 0) 0); [reflexivity|lra]. }
  rewrite H. cbn [existsb]. rewrite E. reflexivity.
Qed.
Print Assumptions C43_raises.

Example C43_example : exists r, kernel_object [1; 2] 1 (mkV 0 0 0) 0 [(mkV 1 0 0, 1); (mkV 0 3 4, 2)] r /\
  off_centre 0 (mkV 0 0 0) [(mkV 1 0 0, 1); (mkV 0 3 4, 2)] /\ unmoved 0 [(mkV 1 0 0, 1); (mkV 0 3 4, 2)] /\
  exists x y, r = DOk [Fin x; Fin y] /\ 0 < x.
Proof.
  assert (U : unmoved 0 [(mkV 1 0 0, 1); (mkV 0 3 4, 2)]).
  { unfold unmoved, cy_respectPBCNoRef. destruct Req_EM_T; [reflexivity|lra]. }
  assert (O : off_centre 0 (mkV 0 0 0) [(mkV 1 0 0, 1); (mkV 0 3 4, 2)]).
  { unfold off_centre. rewrite seen_unmoved by auto. intros q Hq. unfold distance, norm. apply sqrt_lt_R0.
    destruct Hq as [<-|[<-|[]]]; cbn; lra. }
  edestruct (@prange_exists nat (pyres xr)) as [m' Hm]. eexists.
  match goal with |- ?A /\ _ => assert (K : A) by (constructor; exact Hm) end.
  split; [exact K|]. split; auto. split; auto.
  destruct (C43_sum _ _ _ _ _ _ K ltac:(lra) ltac:(cbn; intuition lra) O) as [-> P]. rewrite seen_unmoved in * by auto.
  eexists _, _. split; [reflexivity|]. apply total_pos; [|discriminate].
  intros q Hq. apply Rmult_lt_0_compat; [destruct Hq as [<-|[<-|[]]]; cbn; lra|]. apply P; auto. left. reflexivity.
Qed.

(** *** C71 for the other two drivers *)
Theorem C71_schedule_ell : forall interp fuel kind choose xyz masses r200s rs shs idx_cat obj_size L r1 i1 r2 i2,
  calcDensProfsEllDirectBinning interp fuel kind choose xyz masses r200s rs shs idx_cat obj_size L r1 i1 ->
  calcDensProfsEllDirectBinning interp fuel kind choose xyz masses r200s rs shs idx_cat obj_size L r2 i2 -> r1 = r2.
Proof.
  intros interp fuel kind choose xyz masses r200s rs shs idx_cat obj_size L r1 i1 r2 i2 H1 H2.
  destruct H1 as [?|? ?|? ?|e1 j1 ? E1 O1|e1 j1 ? E1 O1 N1|e1 j1 r ? E1 O1 objs1 cs1 N1 D1];
  destruct H2 as [?|? ?|? ?|e2 j2 ? E2 O2|e2 j2 ? E2 O2 N2|e2 j2 r' ? E2 O2 objs2 cs2 N2 D2]; try congruence; try reflexivity.
  - rewrite O1 in O2. injection O2 as <-. assert (true = false) by (rewrite <- N1; exact N2). discriminate.
  - rewrite O1 in O2. injection O2 as <-. assert (true = false) by (rewrite <- N2; exact N1). discriminate.
  - rewrite O1 in O2. injection O2 as <-. rewrite E1 in E2. injection E2 as <-.
    apply dens_loop_result in D1; [|intros; apply calc_ell_indep; auto].
    apply dens_loop_result in D2; [|intros; apply calc_ell_indep; auto]. rewrite D1, D2. reflexivity.
Qed.
Print Assumptions C71_schedule_ell.

Lemma kernel_objects_det fuel kind choose rs L p objs r200s r : kernel_objects fuel kind choose rs L p objs r200s r ->
  forall r', kernel_objects fuel kind choose rs L p objs r200s r' -> r = r'.
Proof.
  assert (K : forall x c o a b, kernel_object rs x c L o a -> kernel_object rs x c L o b -> a = b).
  { intros x c o a b Ha Hb. apply kernel_object_result in Ha, Hb. cbv zeta in *. congruence. }
  induction 1 as [p r200s|p o objs r200s Hc|p o objs r200s c Hc Hk|p o objs r200s c row rest Hc Hk Hrest IH];
    intros r' H'; inversion H'; subst; try congruence.
  - replace c0 with c in * by congruence.
    match goal with A : kernel_object _ _ _ _ _ DZeroDivision, B : kernel_object _ _ _ _ _ (DOk _) |- _ => pose proof (K _ _ _ _ _ A B) end. discriminate.
  - replace c0 with c in * by congruence.
    match goal with A : kernel_object _ _ _ _ _ DZeroDivision, B : kernel_object _ _ _ _ _ (DOk _) |- _ => pose proof (K _ _ _ _ _ A B) end. discriminate.
  - replace c0 with c in * by congruence.
    match goal with A : kernel_object _ _ _ _ _ (DOk row), B : kernel_object _ _ _ _ _ (DOk row0) |- _ => pose proof (K _ _ _ _ _ A B) as E end.
    injection E as <-. match goal with A : kernel_objects _ _ _ _ _ _ _ _ rest0 |- _ => rewrite (IH _ A) end. reflexivity.
Qed.
Theorem C71_schedule_kernel : forall fuel kind choose xyz masses r200s rs idx_cat obj_size L r r',
  calcDensProfsKernelBased fuel kind choose xyz masses r200s rs idx_cat obj_size L r ->
  calcDensProfsKernelBased fuel kind choose xyz masses r200s rs idx_cat obj_size L r' -> r = r'.
Proof. intros fuel kind choose xyz masses r200s rs idx_cat obj_size L r r' H H'. destruct H; destruct H'; try congruence. eapply kernel_objects_det; eauto. Qed.
Print Assumptions C71_schedule_kernel.

