(** Statistics: C62, C64, C76, C77, C78. *)
From Coq Require Import Reals Lra Lia Bool Arith ZArith Permutation Sorted List.
From Verif Require Import XR StatModel SplitProps.
Import ListNotations.
Local Open Scope R_scope.

(** ** C62: binned measurements *)
(** Independent of the code: bin i is the first one nearest to x. *)
Definition nearest (bins : list R) (x : R) (i : nat) : Prop :=
  (i < length bins)%nat /\ (forall k, (k < length bins)%nat -> Rabs (nth i bins 0 - x) <= Rabs (nth k bins 0 - x)) /\
  (forall k, (k < i)%nat -> Rabs (nth i bins 0 - x) < Rabs (nth k bins 0 - x)).
Lemma argmin_from_bound l : forall i best bi, (bi < i)%nat -> (argmin_from l i best bi < i + length l)%nat.
Proof.
  induction l as [|x l IH]; intros i best bi H; simpl; [lia|].
  destruct (xisnan best); [lia|]. destruct (xisnan x || xltb x best); [specialize (IH (S i) x i ltac:(lia)) | specialize (IH (S i) best bi ltac:(lia))]; lia.
Qed.
Lemma np_argmin_bound l : l <> [] -> (np_argmin l < length l)%nat.
Proof. destruct l; [congruence|]. intros _. simpl. pose proof (argmin_from_bound l 1 x 0 ltac:(lia)). lia. Qed.
Lemma argmin_from_fin (f : nat -> R) : forall n i b, (b < i)%nat ->
  (forall k, (k < i)%nat -> f b <= f k) -> (forall k, (k < b)%nat -> f b < f k) ->
  let r := argmin_from (map (fun k => Fin (f k)) (seq i n)) i (Fin (f b)) b in
  (r < i + n)%nat /\ (forall k, (k < i + n)%nat -> f r <= f k) /\ (forall k, (k < r)%nat -> f r < f k).
Proof.
  induction n as [|n IH]; intros i b Hb H1 H2; cbn [seq map argmin_from].
  - cbv zeta. split; [lia|]. split; [|exact H2]. intros k Hk. apply H1. lia.
  - cbn [xisnan orb xltb]. destruct (Rlt_dec (f i) (f b)) as [L|L].
    + specialize (IH (S i) i ltac:(lia)). replace (S i + n)%nat with (i + S n)%nat in IH by lia. apply IH.
      * intros k Hk. destruct (Nat.eq_dec k i) as [->|]; [lra|]. specialize (H1 k ltac:(lia)). lra.
      * intros k Hk. specialize (H1 k ltac:(lia)). lra.
    + specialize (IH (S i) b ltac:(lia)). replace (S i + n)%nat with (i + S n)%nat in IH by lia. apply IH; [|exact H2].
      intros k Hk. destruct (Nat.eq_dec k i) as [->|]; [lra|]. apply H1. lia.
Qed.
Lemma list_as_seq {A B} (f : A -> B) (l : list A) d : map f l = map (fun k => f (nth k l d)) (seq 0 (length l)).
Proof. induction l as [|a l IH]; [reflexivity|]. simpl. f_equal. rewrite <- seq_shift, map_map. exact IH. Qed.
Lemma np_argmin_nearest bins x : bins <> [] -> nearest bins x (np_argmin (map (fun a => Fin (Rabs (a - x))) bins)).
Proof.
  intros Hb. rewrite (list_as_seq _ bins 0). destruct bins as [|b bins]; [congruence|]. set (L := b :: bins) in *.
  replace (length L) with (S (length bins)) by reflexivity. cbn [seq map np_argmin].
  destruct (argmin_from_fin (fun k => Rabs (nth k L 0 - x)) (length bins) 1 0 ltac:(lia)) as (H1 & H2 & H3).
  - intros k Hk. replace k with 0%nat by lia. lra.
  - intros k Hk. lia.
  - unfold nearest. replace (length L) with (1 + length bins)%nat by reflexivity. auto.
Qed.
Lemma closest_bound ror d r200 : ror <> [] -> (closest_idx ror d r200 < length ror)%nat.
Proof.
  intros H. unfold closest_idx. set (f := fun x => _). pose proof (np_argmin_bound (map f ror)) as B. rewrite map_length in B.
  apply B. destruct ror; [congruence | discriminate].
Qed.
Lemma closest_nearest ror d r200 : ror <> [] -> r200 <> 0 -> nearest ror (d / r200) (closest_idx ror (Fin d) r200).
Proof.
  intros H Hr. unfold closest_idx. rewrite (map_ext _ (fun a => Fin (Rabs (a - d / r200)))); [now apply np_argmin_nearest|].
  intros a. simpl. destruct (Req_EM_T r200 0) as [E|_]; [contradiction|]. reflexivity.
Qed.
Lemma append_at_length y i x : length (append_at y i x) = length y.
Proof.
  unfold append_at. rewrite app_length, firstn_length. pose proof (skipn_length i y) as H. destruct (skipn i y); simpl in *; lia.
Qed.
Lemma append_at_nth y i x j : (i < length y)%nat -> nth j (append_at y i x) [] = if Nat.eqb i j then nth j y [] ++ [x] else nth j y [].
Proof.
  unfold append_at. revert i j. induction y as [|z y IH]; intros i j H; simpl in H; [lia|].
  destruct i as [|i], j as [|j]; simpl; trivial. apply IH. lia.
Qed.
(** The measurements of the considered objects, in the order of the loops. *)
Definition entries (objs : list nat) (nrad : nat) : list (nat * nat) := flat_map (fun obj => map (fun rad => (obj, rad)) (seq 0 nrad)) objs.
Definition entry (t : list (list xr)) (p : nat * nat) : xr := nth (snd p) (nth (fst p) t []) NaN.
Lemma filter_snoc {A} (f : A -> bool) l x : filter f (l ++ [x]) = filter f l ++ (if f x then [x] else []).
Proof. rewrite filter_app. simpl. destruct (f x); reflexivity. Qed.
Lemma collect_nth objs d param ror r200 i : ror <> [] ->
  nth i (collect objs d param ror r200) [] =
  map (entry param) (filter (fun p => negb (xisnan (entry param p)) && Nat.eqb (closest_idx ror (entry d p) (nth (fst p) r200 0)) i) (entries objs (length ror))) /\
  length (collect objs d param ror r200) = length ror.
Proof.
  intros Hr. unfold collect, entries. set (ps := flat_map _ objs). clearbody ps.
  induction ps as [|p ps IH] using rev_ind.
  - simpl. split; [|apply repeat_length]. clear. revert i. induction (length ror); intros [|i]; simpl; auto.
  - rewrite fold_left_app, filter_snoc, map_app. cbn [fold_left]. destruct IH as [IH1 IH2].
    set (y := fold_left _ ps _) in *. fold (entry param p). fold (entry d p). destruct (xisnan (entry param p)) eqn:E; cbn [negb andb].
    + simpl. rewrite app_nil_r. auto.
    + rewrite append_at_nth, append_at_length by (rewrite IH2; now apply closest_bound). split; [|exact IH2]. rewrite IH1.
      destruct (Nat.eqb _ i); simpl; [reflexivity | now rewrite app_nil_r].
Qed.
Lemma flat_filter_perm {A} (f : A -> nat) (l : list A) n : (forall x, In x l -> (f x < n)%nat) ->
  Permutation (flat_map (fun i => filter (fun x => Nat.eqb (f x) i) l) (seq 0 n)) l.
Proof.
  induction l as [|a l IH]; intros H.
  - simpl. induction (seq 0 n); simpl; auto.
  - assert (Ha : (f a < n)%nat) by (apply H; now left). specialize (IH (fun x Hx => H x (or_intror Hx))).
    transitivity (a :: flat_map (fun i => filter (fun x => Nat.eqb (f x) i) l) (seq 0 n)); [|now constructor]. clear IH H.
    assert (E : forall b m, (forall i, In i (seq b m) -> i <> f a) -> flat_map (fun i => filter (fun x => Nat.eqb (f x) i) (a :: l)) (seq b m) = flat_map (fun i => filter (fun x => Nat.eqb (f x) i) l) (seq b m)).
    { intros b m Hk. induction (seq b m) as [|i s IHs]; [reflexivity|]. cbn [flat_map]. rewrite IHs by (intros; apply Hk; now right). f_equal.
      simpl. destruct (Nat.eqb_spec (f a) i) as [E'|]; [exfalso; apply (Hk i); [now left | congruence] | reflexivity]. }
    assert (Hn : seq 0 n = seq 0 (f a) ++ [f a] ++ seq (S (f a)) (n - f a - 1)).
    { change [f a] with (seq (f a) 1). replace (S (f a)) with (f a + 1)%nat by lia. rewrite <- seq_app. replace (f a) with (0 + f a)%nat at 2 by lia. rewrite <- seq_app. f_equal. lia. }
    rewrite Hn, !flat_map_app. rewrite !E by (intros i Hi; apply in_seq in Hi; lia).
    cbn [flat_map]. rewrite !app_nil_r. cbn [filter]. rewrite Nat.eqb_refl. symmetry. apply Permutation_middle.
Qed.
Lemma filter_andb {A} (f g : A -> bool) l : filter (fun x => f x && g x) l = filter g (filter f l).
Proof. induction l as [|a l IH]; [reflexivity|]. simpl. destruct (f a); simpl; [destruct (g a); now rewrite IH | exact IH]. Qed.
Lemma concat_nth {A} (ls : list (list A)) : concat ls = flat_map (fun i => nth i ls []) (seq 0 (length ls)).
Proof.
  induction ls as [|l ls IH]; [reflexivity|]. simpl. rewrite IH. f_equal. rewrite <- seq_shift. rewrite !flat_map_concat_map, map_map. reflexivity.
Qed.
Lemma collect_all objs d param ror r200 : ror <> [] ->
  Permutation (concat (collect objs d param ror r200)) (map (entry param) (filter (fun p => negb (xisnan (entry param p))) (entries objs (length ror)))).
Proof.
  intros Hr. rewrite concat_nth. destruct (collect_nth objs d param ror r200 0 Hr) as [_ HL]. rewrite HL.
  set (good := filter (fun p => negb (xisnan (entry param p))) (entries objs (length ror))).
  rewrite <- (flat_filter_perm (fun p => closest_idx ror (entry d p) (nth (fst p) r200 0)) good (length ror)) by (intros; now apply closest_bound).
  rewrite !flat_map_concat_map, concat_map, map_map. rewrite (map_ext _ (fun x => map (entry param) (filter (fun x0 => Nat.eqb (closest_idx ror (entry d x0) (nth (fst x0) r200 0)) x) good))); [reflexivity|].
  intros i. destruct (collect_nth objs d param ror r200 i Hr) as [-> _]. unfold good. now rewrite filter_andb.
Qed.
(** Every non-NaN measurement is used exactly once, NaN never. *)
Theorem C62_once d param ror r200 : ror <> [] ->
  length (getShape_y d param ror r200) = length ror /\
  Permutation (concat (getShape_y d param ror r200))
    (map (entry param) (filter (fun p => negb (xisnan (entry param p))) (entries (seq 0 (length param)) (length ror)))).
Proof. intros H. split; [apply (collect_nth _ _ _ _ _ 0 H) | now apply collect_all]. Qed.
Print Assumptions C62_once.
(** The same for the objects of one mass group. *)
Theorem C62_once_group d idx g param ror r200 : ror <> [] ->
  length (getShapeMs_y d idx g param ror r200) = length ror /\
  Permutation (concat (getShapeMs_y d idx g param ror r200))
    (map (entry param) (filter (fun p => negb (xisnan (entry param p))) (entries (nth g idx []) (length ror)))).
Proof. intros H. split; [apply (collect_nth _ _ _ _ _ 0 H) | now apply collect_all]. Qed.
Print Assumptions C62_once_group.
(** Each is in the bin nearest to its normalised radius. *)
Theorem C62_nearest d param ror r200 : ror <> [] ->
  exists bin : nat * nat -> nat,
    (forall p x, entry d p = Fin x -> nth (fst p) r200 0 <> 0 -> nearest ror (x / nth (fst p) r200 0) (bin p)) /\
    (forall i, nth i (getShape_y d param ror r200) [] =
       map (entry param) (filter (fun p => negb (xisnan (entry param p)) && Nat.eqb (bin p) i) (entries (seq 0 (length param)) (length ror)))) /\
    (forall idx g i, nth i (getShapeMs_y d idx g param ror r200) [] =
       map (entry param) (filter (fun p => negb (xisnan (entry param p)) && Nat.eqb (bin p) i) (entries (nth g idx []) (length ror)))).
Proof.
  intros H. exists (fun p => closest_idx ror (entry d p) (nth (fst p) r200 0)). split; [|split].
  - intros p x E Hr. rewrite E. now apply closest_nearest.
  - intros i. apply (collect_nth _ _ _ _ _ i H).
  - intros idx g i. apply (collect_nth _ _ _ _ _ i H).
Qed.
Print Assumptions C62_nearest.
Lemma nearest_unique bins x i j : nearest bins x i -> nearest bins x j -> i = j.
Proof.
  intros (Hi & H1 & H2) (Hj & H3 & H4). destruct (Nat.lt_trichotomy i j) as [L|[E|L]]; [|exact E|].
  - specialize (H4 i L). specialize (H1 j Hj). lra.
  - specialize (H2 j L). specialize (H3 i Hi). lra.
Qed.
(** The mass groups together use what the average over all objects uses. *)
Theorem C62_groups {C} (dc : C) m center v args nb r d param ror r200 : is_argsort m args -> (1 <= nb)%nat -> ror <> [] -> length param = length m ->
  M_split dc m center v args nb = Some r ->
  forall i, Permutation (flat_map (fun g => nth i (getShapeMs_y d (idx_groups r) g param ror r200) []) (seq 0 (length (idx_groups r)))) (nth i (getShape_y d param ror r200) []).
Proof.
  intros Hs Hnb Hror HL Hr i. destruct (C49_partition dc m center v args nb r Hs Hnb Hr) as [HP _].
  destruct (C62_nearest d param ror r200 Hror) as (bin & _ & H1 & H2). rewrite H1, HL.
  rewrite flat_map_concat_map, (map_ext _ _ (fun g => H2 (idx_groups r) g i)), <- flat_map_concat_map. clear H1 H2.
  set (f := fun p => _ && _). generalize (idx_groups r) HP. intros ls HPl.
  transitivity (map (entry param) (filter f (entries (concat ls) (length ror)))).
  - clear HPl HP. rewrite concat_nth. induction (seq 0 (length ls)) as [|g gs IH]; [reflexivity|].
    simpl. rewrite IH. unfold entries. rewrite flat_map_app, filter_app, map_app. reflexivity.
  - apply Permutation_map. assert (HE : Permutation (entries (concat ls) (length ror)) (entries (seq 0 (length m)) (length ror))) by (apply Permutation_flat_map, HPl).
    clear -HE. induction HE; simpl; auto.
    + destruct (f x); auto.
    + destruct (f x), (f y); auto. apply perm_swap.
    + eauto using Permutation_trans.
Qed.
Print Assumptions C62_groups.
(** The hypotheses hold for two objects, radii 0.5 and 1, with one NaN. *)
Example C62_ex : nth 0 (getShape_y [[Fin 1; Fin 2]; [Fin 3; Fin 4]] [[Fin (7/10); NaN]; [Fin (8/10); Fin (9/10)]] [1/2; 1] [2; 4]) [] = [Fin (7/10); Fin (8/10)] /\
  nearest [1/2; 1] (1 / 2) 0 /\ nearest [1/2; 1] (3 / 4) 0.
Proof.
  assert (N1 : nearest [1/2; 1] (1 / 2) 0).
  { split; [simpl; lia|]. split; [|intros; lia]. intros k Hk. simpl in Hk. destruct k as [|[|k]]; [| |lia]; simpl; repeat (unfold Rabs; destruct Rcase_abs); lra. }
  assert (N2 : nearest [1/2; 1] (3 / 4) 0).
  { split; [simpl; lia|]. split; [|intros; lia]. intros k Hk. simpl in Hk. destruct k as [|[|k]]; [| |lia]; simpl; repeat (unfold Rabs; destruct Rcase_abs); lra. }
  assert (N4 : nearest [1/2; 1] (4 / 4) 1).
  { split; [simpl; lia|]. split.
    - intros k Hk. simpl in Hk. destruct k as [|[|k]]; [| |lia]; simpl; repeat (unfold Rabs; destruct Rcase_abs); lra.
    - intros k Hk. destruct k; [|lia]. simpl; repeat (unfold Rabs; destruct Rcase_abs); lra. }
  split; [|split; assumption].
  destruct (C62_nearest [[Fin 1; Fin 2]; [Fin 3; Fin 4]] [[Fin (7/10); NaN]; [Fin (8/10); Fin (9/10)]] [1/2; 1] [2; 4] ltac:(discriminate)) as (bin & Hb & H1 & _).
  rewrite H1. simpl.
  rewrite (nearest_unique _ _ _ _ (Hb (0, 0)%nat 1 eq_refl ltac:(simpl; lra)) N1).
  rewrite (nearest_unique _ _ _ _ (Hb (1, 1)%nat 4 eq_refl ltac:(simpl; lra)) N4).
  assert (E : bin (1, 0)%nat = 0%nat) by (apply (nearest_unique _ _ _ _ (Hb (1, 0)%nat 3 eq_refl ltac:(simpl; lra)) N2)).
  rewrite E. reflexivity.
Qed.
