(** Distribution of the group files over MPI ranks, gather, chunked broadcast, file order,
    and existence of executions of calcObjCat. *)
From Coq Require Import List ZArith Bool Lia Permutation.
From Verif Require Import ListUtil ParModel ParProofs CatModel CatSpec CatProofs CatPar.
Import ListNotations.

Lemma zrange_seq a b : zrange (Z.of_nat a) (Z.of_nat b) = seq a (b - a).
Proof.
  unfold zrange. rewrite map_map. replace (Z.to_nat (Z.of_nat b - Z.of_nat a)) with (b - a)%nat by lia.
  rewrite <- (map_id (seq a (b - a))). generalize (b - a)%nat as c. intros c.
  transitivity (map (fun k => (a + k)%nat) (seq 0 c)).
  - apply map_ext. intros k. lia.
  - rewrite map_id. assert (G : forall z, map (fun k => (a + k)%nat) (seq z c) = seq (a + z) c).
    { induction c as [|c IH]; intros z; [reflexivity|]. simpl. f_equal. rewrite IH. f_equal. lia. }
    rewrite G. f_equal. lia.
Qed.

Definition first_file (n size rank : nat) : nat :=
  if Nat.leb size n then rank * (n / size) else Nat.min rank n.
Definition end_file (n size rank : nat) : nat :=
  if Nat.leb size n then (if Nat.eqb rank (size - 1) then n else (rank + 1) * (n / size))
  else Nat.min (rank + 1) n.

Lemma my_files_seq n size rank : (1 <= size)%nat -> (1 <= n)%nat -> (rank < size)%nat ->
  my_files n size rank = seq (first_file n size rank) (end_file n size rank - first_file n size rank).
Proof.
  intros Hs Hn Hr. unfold my_files, first_file, end_file, perrank, is_last.
  destruct (Nat.leb_spec size n) as [Hle|Hgt].
  - assert (Hq : (1 <= n / size)%nat) by (apply Nat.div_le_lower_bound; lia).
    replace (Nat.eqb (n / size) 0) with false by (symmetry; apply Nat.eqb_neq; lia).
    replace (Z.of_nat rank <=? Z.of_nat n - 1)%Z with true by (symmetry; apply Z.leb_le; lia).
    rewrite Nat.add_0_r.
    rewrite <- (Nat2Z.inj_mul rank).
    destruct (Nat.eqb_spec rank (size - 1)) as [->|Hne].
    + rewrite <- zrange_seq. f_equal.
      replace (Z.of_nat (size - 1) + 1)%Z with (Z.of_nat size) by lia.
      rewrite Nat2Z.inj_mul. rewrite Nat2Z.inj_sub by lia. lia.
    + rewrite <- zrange_seq. f_equal. lia.
  - rewrite Nat.div_small by lia. cbn [Nat.eqb]. rewrite Nat.add_0_l.
    destruct (Z.leb_spec (Z.of_nat rank) (Z.of_nat n - 1)) as [Hl|Hl].
    + rewrite !Nat.min_l by lia.
      destruct (Z.eqb_spec (Z.of_nat rank) (Z.of_nat n - 1)) as [He|He];
        rewrite <- zrange_seq; f_equal; lia.
    + rewrite !Nat.min_r by lia. rewrite Nat.sub_diag. cbn [seq].
      unfold zrange. replace (Z.to_nat _) with 0%nat by lia. reflexivity.
Qed.

Lemma ranges_cover n size : (1 <= size)%nat -> (1 <= n)%nat ->
  forall r, (r <= size)%nat ->
  flat_map (my_files n size) (seq 0 r) = seq 0 (if Nat.eqb r size then n else first_file n size r).
Proof.
  intros Hs Hn. assert (Hdiv : (size * (n / size) <= n)%nat) by (apply Nat.mul_div_le; lia).
  induction r as [|r IH]; intros Hr.
  - destruct (Nat.eqb_spec 0 size); [lia|]. unfold first_file. destruct Nat.leb; reflexivity.
  - rewrite seq_S, flat_map_app, IH by lia. simpl (flat_map _ [_]). rewrite app_nil_r.
    rewrite my_files_seq by lia.
    replace (Nat.eqb r size) with false by (symmetry; apply Nat.eqb_neq; lia).
    replace (0 + r)%nat with r by lia.
    assert (Hfe : (first_file n size r <= end_file n size r)%nat).
    { unfold first_file, end_file. destruct (Nat.leb_spec size n); [|lia].
      destruct (Nat.eqb_spec r (size - 1)); nia. }
    assert (He : end_file n size r = if Nat.eqb (S r) size then n else first_file n size (S r)).
    { unfold first_file, end_file. destruct (Nat.eqb_spec (S r) size) as [E|E].
      - destruct (Nat.leb_spec size n); [|lia].
        replace (Nat.eqb r (size - 1)) with true by (symmetry; apply Nat.eqb_eq; lia). reflexivity.
      - destruct (Nat.leb_spec size n); [|f_equal; lia].
        replace (Nat.eqb r (size - 1)) with false by (symmetry; apply Nat.eqb_neq; lia).
        f_equal. lia. }
    rewrite <- He.
    replace (end_file n size r) with (first_file n size r + (end_file n size r - first_file n size r))%nat at 2 by lia.
    rewrite seq_app. reflexivity.
Qed.

Lemma ranges_all n size : (1 <= size)%nat -> (1 <= n)%nat ->
  flat_map (my_files n size) (seq 0 size) = seq 0 n.
Proof. intros Hs Hn. rewrite ranges_cover by lia. rewrite Nat.eqb_refl. reflexivity. Qed.

Lemma skipn_skipn' {X} a b : forall l : list X, skipn b (skipn a l) = skipn (a + b) l.
Proof. induction a as [|a IH]; intros [|x l]; simpl; auto. apply skipn_nil. Qed.

Section Gather.
  Variable X : Type.
  Variable files : list (list X).

  Lemma flat_map_flat_map {P Q R} (f : P -> list Q) (g : Q -> list R) l :
    flat_map (fun x => flat_map g (f x)) l = flat_map g (flat_map f l).
  Proof. induction l; simpl; auto. rewrite flat_map_app, IHl. reflexivity. Qed.

  Lemma flat_nth : flat_map (fun i => nth i files []) (seq 0 (length files)) = concat files.
  Proof.
    assert (G : forall pre, flat_map (fun i => nth i (pre ++ files) []) (seq (length pre) (length files)) = concat files).
    { induction files as [|x l IH]; intros pre; [reflexivity|]. simpl.
      rewrite app_nth2, Nat.sub_diag by lia. simpl. f_equal.
      specialize (IH (pre ++ [x])). rewrite app_length in IH. simpl in IH.
      rewrite Nat.add_1_r in IH. rewrite <- app_assoc in IH. exact IH. }
    apply (G []).
  Qed.

  Lemma local_all size : (1 <= size)%nat -> files <> [] ->
    flat_map (local_table X files size) (seq 0 size) = concat files.
  Proof.
    intros Hs Hf. unfold local_table. rewrite flat_map_flat_map.
    rewrite ranges_all; auto; [apply flat_nth|]. destruct files; [congruence|simpl; lia].
  Qed.

  Lemma gather_prefix size garbage : length garbage = list_sum (counts X files size) ->
    forall r, (r <= size)%nat ->
    fold_left (fun buf r => store X buf (nth r (displs X files size) 0%nat) (local_table X files size r))
              (seq 0 r) garbage =
    flat_map (local_table X files size) (seq 0 r) ++
    skipn (list_sum (firstn r (counts X files size))) garbage.
  Proof.
    intros Hg. assert (Hc : length (counts X files size) = size)
      by (unfold counts; rewrite map_length, seq_length; reflexivity).
    assert (Hn : forall r, (r < size)%nat -> nth r (counts X files size) 0%nat = length (local_table X files size r)).
    { intros r Hr. unfold counts. apply (nth_map_seq (fun r => length (local_table X files size r))). auto. }
    assert (Hfl : forall r, (r <= size)%nat ->
       length (flat_map (local_table X files size) (seq 0 r)) = list_sum (firstn r (counts X files size))).
    { induction r as [|r IH]; intros Hr; [reflexivity|].
      rewrite seq_S, flat_map_app, app_length, IH by lia. rewrite firstn_S_nth by lia.
      rewrite Hn by lia. simpl. rewrite app_nil_r. reflexivity. }
    induction r as [|r IH]; intros Hr; [reflexivity|].
    rewrite seq_S, fold_left_app, IH by lia. simpl (fold_left _ [_] _).
    rewrite flat_map_app. simpl (flat_map _ [_]). rewrite app_nil_r.
    unfold displs. rewrite nth_map_seq by lia.
    assert (Hoff : list_sum (firstn r (counts X files size)) =
                   length (flat_map (local_table X files size) (seq 0 r))) by (rewrite Hfl by lia; reflexivity).
    rewrite firstn_S_nth, Hn by lia. rewrite Hoff.
    set (P := flat_map (local_table X files size) (seq 0 r)).
    set (sg := local_table X files size r). unfold store.
    rewrite firstn_all2', <- app_assoc. simpl (0 + r)%nat. fold sg. f_equal. f_equal.
    rewrite <- (skipn_skipn' (length P) (length sg)), skipn_all2', skipn_skipn'. reflexivity.
  Qed.

  Lemma gatherv_ok size garbage : (1 <= size)%nat -> files <> [] ->
    length garbage = list_sum (counts X files size) ->
    gatherv X files size garbage = concat files.
  Proof.
    intros Hs Hf Hg. unfold gatherv. rewrite gather_prefix by (auto; lia).
    rewrite local_all by auto. rewrite firstn_all2.
    - rewrite <- Hg, skipn_all, app_nil_r. reflexivity.
    - unfold counts. rewrite map_length, seq_length. lia.
  Qed.

  Lemma counts_sum size : (1 <= size)%nat -> files <> [] ->
    list_sum (counts X files size) = length (concat files).
  Proof.
    intros Hs Hf. rewrite <- (local_all size Hs Hf). unfold counts.
    generalize (seq 0 size). induction l; simpl; auto. rewrite app_length. congruence.
  Qed.
End Gather.

Section Bcast.
  Variable X : Type.

  Lemma slice_glue (l : list X) i j : (i <= j)%nat -> firstn i l ++ slice i j l = firstn j l.
  Proof.
    intros Hij. unfold slice. rewrite <- (firstn_skipn i (firstn j l)).
    rewrite firstn_firstn, Nat.min_l by lia. f_equal.
    rewrite firstn_skipn_comm. f_equal. f_equal. lia.
  Qed.

  Lemma bcast_ok limit (total : list X) : bcast_chunks X limit total = total.
  Proof.
    unfold bcast_chunks. set (nb := length total). set (pc := pieces limit nb).
    assert (Hpc : (1 <= pc)%nat) by (unfold pc, pieces; lia).
    assert (Hch : (pc * (nb / pc) <= nb)%nat) by (apply Nat.mul_div_le; lia).
    set (chunk := (nb / pc)%nat) in *. clearbody chunk. clearbody pc.
    assert (G : forall r, (r <= pc)%nat ->
      fold_left (fun out i =>
        out ++ slice (i * chunk)
                     ((i + 1) * chunk + (if Nat.eqb i (pc - 1) then nb - pc * chunk else 0)) total)
      (seq 0 r) [] = firstn (if Nat.eqb r pc then nb else r * chunk)%nat total).
    { induction r as [|r IH]; intros Hr.
      - destruct (Nat.eqb_spec 0 pc); [lia|]. reflexivity.
      - rewrite seq_S, fold_left_app, IH by lia. simpl (fold_left _ [_] _).
        replace (Nat.eqb r pc) with false by (symmetry; apply Nat.eqb_neq; lia).
        rewrite slice_glue by nia. f_equal.
        destruct (Nat.eqb_spec (S r) pc) as [E|E].
        + replace (Nat.eqb r (pc - 1)) with true by (symmetry; apply Nat.eqb_eq; lia).
          clear - E Hch. rewrite <- E in *. replace (r + 1)%nat with (S r) by lia. lia.
        + replace (Nat.eqb r (pc - 1)) with false by (symmetry; apply Nat.eqb_neq; lia). lia. }
    rewrite G by lia. rewrite Nat.eqb_refl. apply firstn_all.
  Qed.
End Bcast.

(** ** Sorting by number *)
Lemma take_perm {F} (l : list F) : forall idxs out, take l idxs = Some out ->
  Forall2 (fun i x => nth_error l i = Some x) idxs out.
Proof.
  induction idxs as [|i is IH]; simpl; intros out H; [injection H as <-; constructor|].
  destruct (nth_error l i) eqn:E; [|discriminate]. destruct (take l is) eqn:E2; [|discriminate].
  injection H as <-. constructor; auto.
Qed.

Lemma Forall2_nth_perm {F} (l : list F) idxs out :
  Forall2 (fun i x => nth_error l i = Some x) idxs out ->
  Permutation idxs (seq 0 (length l)) -> Permutation out l.
Proof.
  intros HF HP.
  assert (E : map Some out = map (nth_error l) idxs).
  { clear HP. induction HF; simpl; congruence. }
  assert (E2 : map (nth_error l) (seq 0 (length l)) = map Some l).
  { clear. assert (G : forall pre, map (nth_error (pre ++ l)) (seq (length pre) (length l)) = map Some l).
    { induction l as [|x l IH]; intros pre; [reflexivity|]. simpl.
      rewrite nth_error_app2, Nat.sub_diag by lia. simpl. f_equal.
      specialize (IH (pre ++ [x])). rewrite app_length in IH. simpl in IH.
      rewrite Nat.add_1_r in IH. rewrite <- app_assoc in IH. exact IH. }
    apply (G []). }
  assert (P : Permutation (map Some out) (map Some l)).
  { rewrite E, <- E2. apply Permutation_map. exact HP. }
  apply Permutation_map_inv in P. destruct P as (l' & Hl & P).
  assert (out = l'); [|subst; symmetry; auto].
  clear - Hl. revert l' Hl. induction out as [|a o IH]; intros [|b l'] H; simpl in H; try discriminate; auto.
  injection H as -> H. f_equal. auto.
Qed.

Lemma sorted_files_spec {F} (key : F -> Z) g out :
  sorted_files key g out -> Permutation out g /\ ascending key out.
Proof.
  intros (perm & (HP & Hs) & Ht). rewrite map_length in HP.
  pose proof (take_perm _ _ _ Ht) as HF. split; [eapply Forall2_nth_perm; eauto|].
  intros i j x y Hi Hj Hij.
  assert (Hk : forall k z, nth_error out k = Some z ->
            (k < length perm)%nat /\ nth (nth k perm 0%nat) (map key g) 0%Z = key z).
  { clear - HF. intros k z. revert k. induction HF as [|a b l l' Hab HF IH]; intros [|k] Hk; simpl in Hk; try discriminate.
    - injection Hk as ->. simpl. split; [lia|].
      apply nth_error_nth. rewrite nth_error_map, Hab. reflexivity.
    - destruct (IH k Hk). simpl. split; [lia|auto]. }
  destruct (Hk i x Hi) as [Li Ei]. destruct (Hk j y Hj) as [Lj Ej].
  rewrite <- Ei, <- Ej. apply Hs. lia.
Qed.

Lemma sorted_unique {F} (key : F -> Z) : forall l l',
  (forall x y, In x l -> In y l -> key x = key y -> x = y) ->
  Permutation l l' -> ascending key l -> ascending key l' -> l = l'.
Proof.
  induction l as [|a l IH]; intros l' Hinj HP Hs Hs'.
  - apply Permutation_nil in HP. auto.
  - destruct l' as [|b l']; [apply Permutation_sym, Permutation_nil in HP; discriminate|].
    assert (Hab : a = b).
    { assert (Ia : In a (b :: l')) by (eapply Permutation_in; [exact HP|left; auto]).
      assert (Ib : In b (a :: l)) by (eapply Permutation_in; [symmetry; exact HP|left; auto]).
      destruct Ia as [|Ia]; [congruence|]. destruct Ib as [|Ib]; [congruence|].
      apply Hinj; [left; auto|right; auto|].
      apply In_nth_error in Ia. destruct Ia as (i & Hi). apply In_nth_error in Ib. destruct Ib as (j & Hj).
      pose proof (Hs 0%nat (S j) a b eq_refl Hj ltac:(lia)).
      pose proof (Hs' 0%nat (S i) b a eq_refl Hi ltac:(lia)). lia. }
    subst b. f_equal. apply Permutation_cons_inv in HP. apply IH; auto.
    + intros x y Hx Hy. apply Hinj; right; auto.
    + intros i j x y Hi Hj Hij. apply (Hs (S i) (S j) x y Hi Hj). lia.
    + intros i j x y Hi Hj Hij. apply (Hs' (S i) (S j) x y Hi Hj). lia.
Qed.

(** ** Executions exist *)
Lemma shuffle_single {L V} (l : list (act L V)) : shuffle L V [l] l.
Proof.
  induction l as [|a l IH].
  - apply sh_done. constructor; auto.
  - apply (sh_step L V [] a l []). exact IH.
Qed.

Lemma prange_exists {L V} n body (m : mem L V) : exists m', prange L V n body m m'.
Proof.
  exists (runl L V (flat_map (body 0%nat) (seq 0 n)) m).
  exists [seq 0 n], (flat_map (body 0%nat) (seq 0 n)). split; [|split].
  - simpl. rewrite app_nil_r. reflexivity.
  - simpl. apply shuffle_single.
  - reflexivity.
Qed.

Lemma calcObjCat_exists A zero nb_shs sh_len fof_sizes group_r200 minp :
  exists out, calcObjCat A zero nb_shs sh_len fof_sizes group_r200 minp out.
Proof.
  destruct (Nat.eq_dec (nb_halos nb_shs) 0) as [E|E].
  - exists None. apply coc_empty. auto.
  - destruct (prange_exists (nb_halos nb_shs) (body1 A zero nb_shs sh_len group_r200 minp)
                (mem0 A zero (fun _ => (0%nat, 0%nat)))) as [m1 H1].
    destruct (prange_exists (nb_halos nb_shs)
       (body2 A nb_shs sh_len fof_sizes minp (pass_of A nb_shs m1) (list_sum (pass_of A nb_shs m1))
          (list_max (size_of A nb_shs m1))) m1) as [m2 H2].
    eexists. eapply coc_run; eauto.
    + apply take_nonzero. unfold pass_of, size_of. rewrite !map_length. reflexivity.
    + apply take_nonzero. unfold pass_of, r200_of. rewrite !map_length. reflexivity.
Qed.

(** ** File numbers *)
Lemma re_split_digits ds : forall cur, Forall (fun d => (d <= 9)%nat) ds ->
  re_split cur true (chars ds ++ dot_hdf5) = [cur ++ chars ds; [46; 104; 100; 102]%nat; [53%nat]; []].
Proof.
  induction ds as [|d ds IH]; intros cur H.
  - simpl. rewrite app_nil_r. reflexivity.
  - inversion H; subst. cbn [chars map app re_split].
    assert (E : isdigit (48 + d) = true).
    { unfold isdigit. apply andb_true_iff. split; apply Nat.leb_le; lia. }
    rewrite E. change (map (fun d0 => (48 + d0)%nat) ds) with (chars ds).
    rewrite IH by auto. rewrite <- app_assoc. reflexivity.
Qed.

Lemma re_split_tail pre d ds : Forall (fun d => (d <= 9)%nat) (d :: ds) ->
  forall cur b, (pre = [] -> b = false) -> (forall c, last pre 0%nat = c -> pre <> [] -> isdigit c = false) ->
  exists front, re_split cur b (pre ++ chars (d :: ds) ++ dot_hdf5) =
    front ++ [chars (d :: ds); [46; 104; 100; 102]%nat; [53%nat]; []].
Proof.
  intros Hd. induction pre as [|c pre IH]; intros cur b Hb Hl.
  - rewrite Hb by auto. exists [cur]. inversion Hd; subst. cbn [chars map app re_split].
    assert (E : isdigit (48 + d) = true).
    { unfold isdigit. apply andb_true_iff. split; apply Nat.leb_le; lia. }
    rewrite E. change (map (fun d0 => (48 + d0)%nat) ds) with (chars ds).
    rewrite re_split_digits by auto. reflexivity.
  - cbn [app re_split].
    assert (Hl' : forall x, last pre 0%nat = x -> pre <> [] -> isdigit x = false).
    { intros x Hx Hp. apply Hl; [|discriminate]. destruct pre; [congruence|exact Hx]. }
    assert (Hc : pre = [] -> isdigit c = false).
    { intros ->. apply Hl; [reflexivity|discriminate]. }
    destruct (isdigit c) eqn:E.
    + assert (Hp : pre = [] -> true = false) by (intros X; specialize (Hc X); congruence).
      destruct b.
      * apply IH; auto.
      * destruct (IH [c] true Hp Hl') as [fr Hf]. exists (cur :: fr). rewrite Hf. reflexivity.
    + destruct b.
      * destruct (IH [c] false (fun _ => eq_refl) Hl') as [fr Hf]. exists (cur :: fr). rewrite Hf. reflexivity.
      * apply IH; auto.
Qed.

Lemma fold_decimal ds a : Forall (fun d => (d <= 9)%nat) ds ->
  fold_left (fun a c => (10 * a + Z.of_nat (c - 48))%Z) (chars ds) a =
  (a * 10 ^ Z.of_nat (length ds) + decimal ds)%Z.
Proof.
  revert a; induction ds as [|d ds IH]; intros a H.
  - cbn. lia.
  - inversion H; subst. cbn [chars map fold_left decimal length].
    change (map (fun d0 => (48 + d0)%nat) ds) with (chars ds). rewrite IH by auto.
    replace (48 + d - 48)%nat with d by lia.
    rewrite Nat2Z.inj_succ, Z.pow_succ_r by lia. ring.
Qed.

Lemma file_number_ok pre ds : ds <> [] -> Forall (fun d => (d <= 9)%nat) ds ->
  (pre <> [] -> isdigit (last pre 0%nat) = false) ->
  file_number (pre ++ chars ds ++ dot_hdf5) = Some (decimal ds).
Proof.
  intros Hne Hd Hp. destruct ds as [|d ds]; [congruence|].
  destruct (re_split_tail pre d ds Hd [] false (fun _ => eq_refl)) as [fr E].
  { intros c <- H. auto. }
  unfold file_number, neg_index. rewrite E, rev_app_distr. cbn [rev app nth_error Nat.sub].
  unfold parse_int. change (chars (d :: ds)) with ((48 + d)%nat :: chars ds).
  assert (Hf : forallb isdigit ((48 + d)%nat :: chars ds) = true).
  { apply forallb_forall. intros c Hc. change ((48 + d)%nat :: chars ds) with (chars (d :: ds)) in Hc.
    unfold chars in Hc. apply in_map_iff in Hc. destruct Hc as (x & <- & Hx).
    rewrite Forall_forall in Hd. specialize (Hd x Hx). unfold isdigit.
    apply andb_true_iff. split; apply Nat.leb_le; lia. }
  rewrite Hf. f_equal. change ((48 + d)%nat :: chars ds) with (chars (d :: ds)).
  rewrite fold_decimal by auto. lia.
Qed.
