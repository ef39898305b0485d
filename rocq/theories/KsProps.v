(** C116: the two-sample test of Kolmogorov and Smirnov. *)
From Coq Require Import List Reals Arith Lia Lra Permutation Sorting.
From Verif Require Import StatModel StatProps2 KsModel.
Import ListNotations.
Open Scope R_scope.

(** ** Specification *)
(** The share of the sample that is at most t: n of its values are. *)
Inductive at_most (t : R) : list R -> nat -> Prop :=
| am_nil : at_most t [] 0
| am_in x l n : x <= t -> at_most t l n -> at_most t (x :: l) (S n)
| am_out x l n : t < x -> at_most t l n -> at_most t (x :: l) n.
Definition share (l : list R) (t s : R) : Prop := exists n, at_most t l n /\ s = INR n / INR (length l).
(** D is the largest distance between the shares of the two samples, over all real numbers. *)
Definition largest_distance (x y : list R) (D : R) : Prop :=
  (forall t a b, share x t a -> share y t b -> Rabs (a - b) <= D) /\
  (exists t a b, share x t a /\ share y t b /\ Rabs (a - b) = D).

(** ** Proofs *)
Lemma upto_at_most l t : at_most t l (upto l t).
Proof.
  unfold upto. induction l as [|x l IH]; [constructor|]. cbn [filter]. destruct (Rle_dec x t); cbn [length]; constructor; auto. lra.
Qed.
Lemma at_most_fun t l n m : at_most t l n -> at_most t l m -> n = m.
Proof. intros H. revert m. induction H; intros m K; inversion K; subst; auto; try lra. Qed.
Lemma share_cdf l t : share l t (cdf l t).
Proof. exists (upto l t). split; [apply upto_at_most|reflexivity]. Qed.
Lemma share_fun l t s : share l t s -> s = cdf l t.
Proof. intros (n & H & ->). unfold cdf. rewrite (at_most_fun _ _ _ _ H (upto_at_most l t)). reflexivity. Qed.
Lemma upto_length l t : (upto l t <= length l)%nat.
Proof. unfold upto. induction l as [|x l IH]; [cbn; lia|]. cbn [filter]. destruct (Rle_dec x t); cbn [length]; lia. Qed.
Lemma len_pos {A} (l : list A) : l <> [] -> 0 < INR (length l).
Proof. intros H. apply lt_0_INR. destruct l; [congruence|cbn; lia]. Qed.
Lemma cdf_range l t : l <> [] -> 0 <= cdf l t <= 1.
Proof.
  intros H. pose proof (len_pos l H). pose proof (le_INR _ _ (upto_length l t)). pose proof (pos_INR (upto l t)). unfold cdf. split.
  - apply Rmult_le_pos; [lra|]. apply Rlt_le, Rinv_0_lt_compat. lra.
  - apply (Rmult_le_reg_r (INR (length l))); [lra|]. unfold Rdiv. rewrite Rmult_assoc, Rinv_l by lra. lra.
Qed.
(** Below all values the share is 0, otherwise it is the share at a value of one of the samples. *)
Lemma upto_none l t : (forall x, In x l -> t < x) -> upto l t = 0%nat.
Proof.
  unfold upto. induction l as [|x l IH]; intros H; [reflexivity|]. cbn [filter]. destruct (Rle_dec x t) as [L|_]; [specialize (H x (or_introl eq_refl)); lra|].
  apply IH. intros z Hz. apply H. now right.
Qed.
Lemma upto_step l t u : u <= t -> (forall x, In x l -> x <= t -> x <= u) -> upto l t = upto l u.
Proof.
  intros Hu H. unfold upto. f_equal. apply filter_ext_in. intros x Hx. destruct (Rle_dec x t), (Rle_dec x u); try reflexivity; exfalso; [|lra]. apply n. apply H; assumption.
Qed.
(** The last value up to t. *)
Lemma last_below l t : (forall x, In x l -> t < x) \/ exists u, In u l /\ u <= t /\ forall x, In x l -> x <= t -> x <= u.
Proof.
  induction l as [|a l IH]; [left; intros x []|]. destruct (Rle_dec a t) as [L|L].
  - right. destruct IH as [H|(u & U1 & U2 & U3)].
    + exists a. split; [now left|]. split; [exact L|]. intros x [<-|Hx] Hxt; [lra|]. specialize (H x Hx). lra.
    + destruct (Rle_dec a u).
      * exists u. split; [now right|]. split; [exact U2|]. intros x [<-|Hx]; auto.
      * exists a. split; [now left|]. split; [exact L|]. intros x [<-|Hx] Hxt; [lra|]. specialize (U3 x Hx Hxt). lra.
  - destruct IH as [H|(u & U1 & U2 & U3)].
    + left. intros x [<-|Hx]; [lra|auto].
    + right. exists u. split; [now right|]. split; [exact U2|]. intros x [<-|Hx] Hxt; [lra|auto].
Qed.
Lemma fold_max_ge d l : d <= fold_right Rmax d l /\ forall a, In a l -> a <= fold_right Rmax d l.
Proof.
  induction l as [|b l [IH1 IH2]]; cbn [fold_right]; [split; [lra|intros a []]|]. pose proof (Rmax_l b (fold_right Rmax d l)). pose proof (Rmax_r b (fold_right Rmax d l)).
  split; [lra|]. intros a [<-|Ha]; [lra|]. specialize (IH2 a Ha). lra.
Qed.
Lemma fold_max_in d l : fold_right Rmax d l = d \/ In (fold_right Rmax d l) l.
Proof.
  induction l as [|b l IH]; cbn [fold_right]; [now left|]. unfold Rmax at 1 3. destruct (Rle_dec b (fold_right Rmax d l)); [|right; now left].
  destruct IH as [->|IH]; [now left|right; now right].
Qed.
Lemma fold_min_le d l : fold_right Rmin d l <= d /\ forall a, In a l -> fold_right Rmin d l <= a.
Proof.
  induction l as [|b l [IH1 IH2]]; cbn [fold_right]; [split; [lra|intros a []]|]. pose proof (Rmin_l b (fold_right Rmin d l)). pose proof (Rmin_r b (fold_right Rmin d l)).
  split; [lra|]. intros a [<-|Ha]; [lra|]. specialize (IH2 a Ha). lra.
Qed.
Lemma fold_min_in d l : fold_right Rmin d l = d \/ In (fold_right Rmin d l) l.
Proof.
  induction l as [|b l IH]; cbn [fold_right]; [now left|]. unfold Rmin at 1 3. destruct (Rle_dec b (fold_right Rmin d l)); [right; now left|].
  destruct IH as [->|IH]; [now left|right; now right].
Qed.
Lemma np_max_spec l : l <> [] -> In (np_max l) l /\ forall a, In a l -> a <= np_max l.
Proof.
  intros H. unfold np_max. split; [|apply fold_max_ge]. destruct l as [|b l]; [congruence|]. cbn [hd].
  destruct (fold_max_in b (b :: l)) as [->|K]; [now left|exact K].
Qed.
Lemma np_min_spec l : l <> [] -> In (np_min l) l /\ forall a, In a l -> np_min l <= a.
Proof.
  intros H. unfold np_min. split; [|apply fold_min_le]. destruct l as [|b l]; [congruence|]. cbn [hd].
  destruct (fold_min_in b (b :: l)) as [->|K]; [now left|exact K].
Qed.
Lemma cddiffs_in x y a : In a (cddiffs x y) <-> exists t, In t (x ++ y) /\ a = cdf x t - cdf y t.
Proof. unfold cddiffs. rewrite in_map_iff. split; intros (t & H1 & H2); exists t; split; auto. Qed.
(** At the largest value both shares are 1. *)
Lemma upto_all l t : (forall x, In x l -> x <= t) -> upto l t = length l.
Proof.
  unfold upto. induction l as [|x l IH]; intros H; [reflexivity|]. cbn [filter]. destruct (Rle_dec x t) as [_|N]; [|exfalso; apply N, H; now left].
  cbn [length]. f_equal. apply IH. intros z Hz. apply H. now right.
Qed.
Lemma zero_in x y : x <> [] -> y <> [] -> In 0 (cddiffs x y).
Proof.
  intros Hx Hy. apply cddiffs_in. destruct (np_max_spec (x ++ y)) as [H1 H2]; [destruct x; [congruence|discriminate]|].
  exists (np_max (x ++ y)). split; [exact H1|]. unfold cdf. rewrite !upto_all by (intros z Hz; apply H2, in_or_app; auto).
  pose proof (len_pos x Hx). pose proof (len_pos y Hy). unfold Rdiv. rewrite !Rinv_r by lra. ring.
Qed.
Lemma ks_largest x y : x <> [] -> y <> [] -> largest_distance x y (ks_2samp x y) /\ 0 <= ks_2samp x y <= 1.
Proof.
  intros Hx Hy. pose proof (zero_in x y Hx Hy) as Z. assert (NE : cddiffs x y <> []) by (intros E; rewrite E in Z; contradiction).
  destruct (np_max_spec _ NE) as [A1 A2]. destruct (np_min_spec _ NE) as [B1 B2]. pose proof (A2 0 Z). pose proof (B2 0 Z).
  assert (R : forall t, -1 <= cdf x t - cdf y t <= 1) by (intros t; pose proof (cdf_range x t Hx); pose proof (cdf_range y t Hy); lra).
  unfold ks_2samp, clip01. set (M := np_max (cddiffs x y)) in *. set (m := np_min (cddiffs x y)) in *.
  apply cddiffs_in in A1. destruct A1 as (tM & _ & EM). apply cddiffs_in in B1. destruct B1 as (tm & _ & Em).
  pose proof (R tM). pose proof (R tm). rewrite (Rmax_right 0 (- m)) by lra. rewrite (Rmin_right 1 (- m)) by lra.
  assert (D : Rmax (- m) M = - m \/ Rmax (- m) M = M) by (unfold Rmax; destruct (Rle_dec (- m) M); auto).
  pose proof (Rmax_l (- m) M). pose proof (Rmax_r (- m) M). split; [|destruct D as [-> | ->]; lra]. split.
  - intros t a b Ha Hb. rewrite (share_fun _ _ _ Ha), (share_fun _ _ _ Hb).
    assert (K : m <= cdf x t - cdf y t <= M); [|apply Rabs_le; lra].
    destruct (last_below (x ++ y) t) as [N|(u & U1 & U2 & U3)].
    + unfold cdf. rewrite !upto_none by (intros z Hz; apply N, in_or_app; auto). unfold Rdiv. cbn [INR]. rewrite !Rmult_0_l. lra.
    + assert (In (cdf x u - cdf y u) (cddiffs x y)) as I by (apply cddiffs_in; exists u; auto).
      unfold cdf. rewrite (upto_step x t u U2), (upto_step y t u U2) by (intros z Hz; apply U3, in_or_app; auto). split; [apply (B2 _ I)|apply (A2 _ I)].
  - destruct D as [D|D]; rewrite D in *.
    + exists tm, (cdf x tm), (cdf y tm). split; [apply share_cdf|]. split; [apply share_cdf|]. rewrite <- Em. rewrite Rabs_left1 by lra. reflexivity.
    + exists tM, (cdf x tM), (cdf y tM). split; [apply share_cdf|]. split; [apply share_cdf|]. rewrite <- EM. apply Rabs_pos_eq. lra.
Qed.
Lemma largest_unique x y D E : largest_distance x y D -> largest_distance x y E -> D = E.
Proof. intros (H1 & t & a & b & Ha & Hb & Hd) (K1 & t' & a' & b' & Ka & Kb & Kd). specialize (H1 _ _ _ Ka Kb). specialize (K1 _ _ _ Ha Hb). lra. Qed.
Lemma largest_sym x y D : largest_distance x y D -> largest_distance y x D.
Proof.
  intros (H1 & t & a & b & Ha & Hb & Hd). split.
  - intros t' a' b' Ka Kb. rewrite Rabs_minus_sym. eauto.
  - exists t, b, a. rewrite Rabs_minus_sym. auto.
Qed.
Lemma at_most_perm t l l' n : Permutation l l' -> at_most t l n -> at_most t l' n.
Proof.
  intros P. revert n. induction P as [|a l l' P IH|a b l|l l' l'' P1 IH1 P2 IH2]; intros n H; auto.
  - inversion H; subst; constructor; auto.
  - inversion H as [|? ? ? ? K|? ? ? ? K]; subst; inversion K; subst;
      repeat (first [apply am_in; [assumption|] | apply am_out; [assumption|] | assumption]).
Qed.
Lemma share_perm l l' t s : Permutation l l' -> share l t s -> share l' t s.
Proof. intros P (n & H & ->). exists n. rewrite (Permutation_length P). split; [eapply at_most_perm; eauto|reflexivity]. Qed.
Lemma largest_perm x x' y y' D : Permutation x x' -> Permutation y y' -> largest_distance x y D -> largest_distance x' y' D.
Proof.
  intros P Q (H1 & t & a & b & Ha & Hb & Hd). split.
  - intros t' a' b' Ka Kb. apply (H1 t'); eapply share_perm; try (symmetry; eassumption); eassumption.
  - exists t, a, b. split; [eapply share_perm; eauto|]. split; [eapply share_perm; eauto|exact Hd].
Qed.
(** Under an increasing function. *)
Lemma at_most_map f t l n : (forall a b, a < b -> f a < f b) -> at_most t l n -> at_most (f t) (map f l) n.
Proof. intros F. induction 1; cbn [map]; constructor; auto. destruct (Rle_lt_or_eq_dec x t H) as [L| ->]; [apply Rlt_le; auto|lra]. Qed.
Lemma cdf_map f t l : (forall a b, a < b -> f a < f b) -> cdf (map f l) (f t) = cdf l t.
Proof.
  intros F. unfold cdf. rewrite map_length. f_equal. f_equal. eapply at_most_fun; [apply upto_at_most|]. apply at_most_map; [exact F|apply upto_at_most].
Qed.
Lemma ks_map f x y : (forall a b, a < b -> f a < f b) -> ks_2samp (map f x) (map f y) = ks_2samp x y.
Proof.
  intros F. assert (E : cddiffs (map f x) (map f y) = cddiffs x y); [|unfold ks_2samp; now rewrite E].
  unfold cddiffs. rewrite <- map_app, map_map. apply map_ext. intros t. now rewrite !cdf_map by exact F.
Qed.

(** The statistic is the largest distance between the two distributions, between 0 and 1. *)
Theorem C116_sup : forall pvalue x y, x <> [] -> y <> [] -> exists D p, KSTest pvalue x y = Some (D, p) /\ largest_distance x y D /\ 0 <= D <= 1.
Proof.
  intros pvalue x y Hx Hy. exists (ks_2samp x y), (pvalue (ks_2samp x y) (length x) (length y)). split; [|now apply ks_largest].
  unfold KSTest. destruct x; [congruence|]. destruct y; [congruence|]. reflexivity.
Qed.
Print Assumptions C116_sup.
(** NaN exactly for an empty sample. *)
Theorem C116_nan : forall pvalue x y, KSTest pvalue x y = None <-> x = [] \/ y = [].
Proof.
  intros pvalue x y. unfold KSTest. destruct x as [|a x]; [intuition|]. destruct y as [|b y]; [intuition|]. split; [discriminate|intros [|]; discriminate].
Qed.
Print Assumptions C116_nan.
Definition stat (r : option (R * R)) : option R := option_map fst r.
(** The order of the values and the order of the samples do not matter. *)
Theorem C116_order : forall pvalue x x' y y', Permutation x x' -> Permutation y y' ->
  KSTest pvalue x y = KSTest pvalue x' y' /\ stat (KSTest pvalue x y) = stat (KSTest pvalue y x).
Proof.
  intros pvalue x x' y y' P Q.
  assert (S : forall a b, stat (KSTest pvalue a b) = match a, b with [], _ | _, [] => None | _, _ => Some (ks_2samp a b) end) by (intros [|? ?] [|? ?]; reflexivity).
  destruct x as [|a x]; [apply Permutation_nil in P; subst; rewrite !S; split; [reflexivity|now destruct y]|].
  destruct y as [|b y]; [apply Permutation_nil in Q; subst; rewrite !S; split; [unfold KSTest; now destruct x'|reflexivity]|].
  assert (Nx : a :: x <> []) by discriminate. assert (Ny : b :: y <> []) by discriminate.
  assert (Nx' : x' <> []) by (intros ->; symmetry in P; apply Permutation_nil in P; discriminate).
  assert (Ny' : y' <> []) by (intros ->; symmetry in Q; apply Permutation_nil in Q; discriminate).
  destruct (ks_largest _ _ Nx Ny) as [L _]. destruct (ks_largest _ _ Nx' Ny') as [L' _]. destruct (ks_largest _ _ Ny Nx) as [L'' _].
  pose proof (largest_unique _ _ _ _ (largest_perm _ _ _ _ _ P Q L) L') as E. pose proof (largest_unique _ _ _ _ (largest_sym _ _ _ L) L'') as E'. split.
  - pose proof (Permutation_length P) as LP. pose proof (Permutation_length Q) as LQ. unfold KSTest.
    destruct x' as [|a' x']; [congruence|]. destruct y' as [|b' y']; [congruence|]. cbv zeta. rewrite E, LP, LQ. reflexivity.
  - rewrite !S. now rewrite E'.
Qed.
Print Assumptions C116_order.
(** Only the order of the values enters: the same increasing function of both samples, such as a change of unit,
    leaves the result alone. *)
Theorem C116_units : forall pvalue f x y, (forall a b, a < b -> f a < f b) -> KSTest pvalue (map f x) (map f y) = KSTest pvalue x y.
Proof.
  intros pvalue f x y F. pose proof (ks_map f x y F) as E. unfold KSTest. destruct x as [|a x]; [reflexivity|]. destruct y as [|b y]; [reflexivity|].
  cbn [map] in *. cbv zeta. rewrite E. cbn [length]. now rewrite !map_length.
Qed.
Print Assumptions C116_units.

(** ** Samples without a difference *)
(** The sample in order. *)
Lemma upto_count l t : upto l t = length (filter (fun x => if Rle_dec x t then true else false) l). Proof. reflexivity. Qed.
Lemma upto_perm l l' t : Permutation l l' -> upto l t = upto l' t.
Proof. intros P. eapply at_most_fun; [eapply at_most_perm; [exact P|apply upto_at_most]|apply upto_at_most]. Qed.
Lemma upto_eq_perm x : forall y, length x = length y -> (forall t, upto x t = upto y t) -> Permutation x y.
Proof.
  assert (G : forall n x y, length x = n -> length y = n -> (forall t, upto x t = upto y t) -> Permutation x y).
  { induction n as [|n IH]; intros a b La Lb H; [destruct a, b; try discriminate; constructor|].
    assert (Na : a <> []) by (intros ->; discriminate). assert (Nb : b <> []) by (intros ->; discriminate).
    destruct (np_min_spec a Na) as [A1 A2]. destruct (np_min_spec b Nb) as [B1 B2]. set (u := np_min a) in *. set (v := np_min b) in *.
    assert (P : forall l (w : R), In w l -> upto l w <> 0%nat).
    { intros l w Hw. unfold upto. intros Z. apply length_zero_iff_nil in Z. assert (In w (filter (fun x => if Rle_dec x w then true else false) l)) as I by (apply filter_In; split; [exact Hw|destruct (Rle_dec w w); [reflexivity|lra]]). rewrite Z in I. contradiction. }
    assert (E : u = v).
    { destruct (Rtotal_order u v) as [L|[E|L]]; [|exact E|]; exfalso.
      - apply (P a u A1). rewrite H. apply upto_none. intros z Hz. specialize (B2 z Hz). lra.
      - apply (P b v B1). rewrite <- H. apply upto_none. intros z Hz. specialize (A2 z Hz). lra. }
    rewrite <- E in B1. destruct (in_split _ _ A1) as (a1 & a2 & Ea). destruct (in_split _ _ B1) as (b1 & b2 & Eb).
    assert (Pa : Permutation a (u :: a1 ++ a2)) by (rewrite Ea; symmetry; apply Permutation_middle).
    assert (Pb : Permutation b (u :: b1 ++ b2)) by (rewrite Eb; symmetry; apply Permutation_middle).
    rewrite Pa, Pb. constructor. apply IH.
    - apply Permutation_length in Pa. cbn in Pa. lia.
    - apply Permutation_length in Pb. cbn in Pb. lia.
    - intros t. specialize (H t). rewrite (upto_perm _ _ t Pa), (upto_perm _ _ t Pb) in H. unfold upto in *. cbn [filter] in H. destruct (Rle_dec u t); cbn [length] in H; lia. }
  intros y L H. now apply (G (length x)).
Qed.
Lemma upto_app l l' t : upto (l ++ l') t = (upto l t + upto l' t)%nat.
Proof. unfold upto. rewrite filter_app, app_length. reflexivity. Qed.
Fixpoint copies (n : nat) (l : list R) : list R := match n with O => [] | S k => l ++ copies k l end.
Lemma upto_copies n l t : upto (copies n l) t = (n * upto l t)%nat.
Proof. induction n as [|n IH]; [reflexivity|]. cbn [copies]. rewrite upto_app, IH. lia. Qed.
Lemma length_copies n l : length (copies n l) = (n * length l)%nat.
Proof. induction n as [|n IH]; [reflexivity|]. cbn [copies]. rewrite app_length, IH. lia. Qed.
(** The statistic is 0 exactly for samples in which every value has the same share: as many copies of the one as
    the other has values are a rearrangement of as many copies of the other as the one has. *)
Theorem C116_zero : forall pvalue x y, x <> [] -> y <> [] ->
  (stat (KSTest pvalue x y) = Some 0 <-> Permutation (copies (length y) x) (copies (length x) y)).
Proof.
  intros pvalue x y Hx Hy. destruct (ks_largest x y Hx Hy) as [(L1 & L2) _].
  assert (S : stat (KSTest pvalue x y) = Some (ks_2samp x y)) by (unfold KSTest; destruct x; [congruence|]; destruct y; [congruence|]; reflexivity).
  rewrite S. clear S. pose proof (len_pos x Hx) as Px. pose proof (len_pos y Hy) as Py.
  assert (K : forall t, cdf x t = cdf y t <-> (length y * upto x t = length x * upto y t)%nat).
  { intros t. unfold cdf. split; intros E.
    - apply INR_eq. rewrite !mult_INR. apply (f_equal (fun z => z * INR (length x) * INR (length y))) in E. field_simplify in E; lra.
    - apply (f_equal INR) in E. rewrite !mult_INR in E. apply (Rmult_eq_reg_r (INR (length x) * INR (length y))); [|nra].
      replace (INR (upto x t) / INR (length x) * (INR (length x) * INR (length y))) with (INR (length y) * INR (upto x t)) by (field; lra).
      replace (INR (upto y t) / INR (length y) * (INR (length x) * INR (length y))) with (INR (length x) * INR (upto y t)) by (field; lra). exact E. }
  split; intros H.
  - assert (Z : ks_2samp x y = 0) by congruence. apply upto_eq_perm; [rewrite !length_copies; lia|]. intros t. rewrite !upto_copies. apply K.
    specialize (L1 t _ _ (share_cdf x t) (share_cdf y t)). rewrite Z in L1. pose proof (Rabs_pos (cdf x t - cdf y t)).
    destruct (Req_dec (cdf x t - cdf y t) 0) as [E|E]; [lra|]. apply Rabs_pos_lt in E. lra.
  - f_equal. destruct L2 as (t & a & b & Ha & Hb & <-). rewrite (share_fun _ _ _ Ha), (share_fun _ _ _ Hb).
    assert (E : cdf x t = cdf y t) by (apply K; rewrite <- !upto_copies; now apply upto_perm). rewrite E, Rminus_diag_eq, Rabs_R0 by reflexivity. reflexivity.
Qed.
Print Assumptions C116_zero.
(** Two samples that do not overlap have the statistic 1. *)
Theorem C116_apart : forall pvalue x y, x <> [] -> y <> [] -> (forall a b, In a x -> In b y -> a < b) -> stat (KSTest pvalue x y) = Some 1.
Proof.
  intros pvalue x y Hx Hy H. destruct (ks_largest x y Hx Hy) as [(L1 & L2) R].
  assert (S : stat (KSTest pvalue x y) = Some (ks_2samp x y)) by (unfold KSTest; destruct x; [congruence|]; destruct y; [congruence|]; reflexivity).
  rewrite S. f_equal. destruct (np_max_spec x Hx) as [M1 M2]. specialize (L1 (np_max x) _ _ (share_cdf x _) (share_cdf y _)). revert L1.
  unfold cdf. rewrite (upto_all x) by exact M2. rewrite (upto_none y) by (intros z Hz; now apply H). pose proof (len_pos x Hx). unfold Rdiv. rewrite Rinv_r by lra. cbn [INR].
  rewrite Rmult_0_l, Rminus_0_r, Rabs_R1. lra.
Qed.
Print Assumptions C116_apart.

(** Two samples of different size with the same shares; and two that do not overlap. A change of the unit of only one
    sample changes the result. *)
Example C116_ex : forall pvalue, stat (KSTest pvalue [1; 2] [2; 1; 1; 2]) = Some 0 /\ stat (KSTest pvalue [1; 2] [3; 4; 4]) = Some 1 /\
  KSTest pvalue (map (fun t => 10 * t) [1; 2]) (map (fun t => 10 * t) [3; 4; 4]) = KSTest pvalue [1; 2] [3; 4; 4] /\
  stat (KSTest pvalue (map (fun t => 10 * t) [1; 2]) [2; 1; 1; 2]) <> stat (KSTest pvalue [1; 2] [2; 1; 1; 2]).
Proof.
  intros pvalue. assert (A : stat (KSTest pvalue [1; 2] [2; 1; 1; 2]) = Some 0).
  { apply C116_zero; try discriminate. cbn [length copies app].
    apply (Permutation_trans (l' := [1;1;1;1;2;2;2;2])); [|symmetry].
    - do 1 constructor. apply (Permutation_cons_app [1;1;1] [2;2;2] 2). cbn. constructor. apply (Permutation_cons_app [1;1] [2;2] 2). cbn. constructor. apply (Permutation_cons_app [1] [2] 2). reflexivity.
    - apply (Permutation_cons_app [1;1;1;1] [2;2;2] 2). cbn. do 2 constructor. apply (Permutation_cons_app [1;1] [2;2] 2). cbn. apply (Permutation_cons_app [1;1] [2] 2). cbn. reflexivity. }
  split; [exact A|]. split; [apply C116_apart; try discriminate; cbn; intuition lra|]. split; [apply C116_units; intros; lra|].
  destruct (C116_order pvalue _ _ _ _ (Permutation_refl (map (fun t => 10 * t) [1; 2])) (Permutation_refl [2; 1; 1; 2])) as [_ ->].
  rewrite (C116_apart pvalue [2; 1; 1; 2] (map (fun t => 10 * t) [1; 2])); try discriminate; [|cbn; intuition lra]. rewrite A. intros E. injection E. lra.
Qed.
