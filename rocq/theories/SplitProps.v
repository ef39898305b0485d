(** Mass splitting: C48, C49, C65, C75. *)
From Coq Require Import Reals Lra Lia Bool Arith Permutation Sorted List.
From Verif Require Import XR StatModel.
Import ListNotations.
Local Open Scope R_scope.

(** ** Blocks *)
Lemma div_up_step len n : (1 <= n)%nat -> (1 <= len)%nat -> ((len + n - 1) / n = S ((len - n + n - 1) / n))%nat.
Proof.
  intros Hn Hl. destruct (le_lt_dec n len) as [H|H].
  - replace (len + n - 1)%nat with ((len - n + n - 1) + 1 * n)%nat by lia. rewrite Nat.div_add by lia. lia.
  - replace (len - n)%nat with 0%nat by lia. rewrite (Nat.div_small (0 + n - 1)) by lia.
    symmetry. apply (Nat.div_unique _ _ _ (len - 1)); lia.
Qed.
Lemma blocks_nil {A} n : (1 <= n)%nat -> blocks (@nil A) n = [].
Proof. intros H. unfold blocks, getBlocks, range_step. destruct n; [lia|]. simpl length. rewrite Nat.div_small by lia. reflexivity. Qed.
Lemma skipn_add' {A} a m (l : list A) : skipn (m + a) l = skipn m (skipn a l).
Proof. revert l. induction a as [|a IH]; intros l; [now rewrite Nat.add_0_r|]. rewrite Nat.add_succ_r. destruct l; [now rewrite !skipn_nil|]. simpl. apply IH. Qed.
Lemma blocks_step {A} (l : list A) n : (1 <= n)%nat -> l <> [] -> blocks l n = firstn n l :: blocks (skipn n l) n.
Proof.
  intros Hn Hl. unfold blocks, getBlocks, range_step. destruct n as [|n']; [lia|]. set (n := S n') in *. clearbody n.
  assert (1 <= length l)%nat by (destruct l; simpl; [congruence | lia]).
  rewrite div_up_step, skipn_length by lia. cbn [seq map]. f_equal.
  rewrite map_map. rewrite <- seq_shift, !map_map. apply map_ext. intros k.
  replace (S k * n)%nat with (k * n + n)%nat by lia. now rewrite skipn_add'.
Qed.
Lemma blocks_ind {A} (n : nat) (P : list A -> Prop) :
  (1 <= n)%nat -> P [] -> (forall l, l <> [] -> P (skipn n l) -> P l) -> forall l, P l.
Proof.
  intros Hn H0 HS l. remember (length l) as k eqn:Hk. revert l Hk. induction k as [k IH] using lt_wf_ind. intros l Hk.
  destruct l as [|a l]; [exact H0|]. apply HS; [discriminate|]. apply (IH (length (skipn n (a :: l)))); [|reflexivity].
  rewrite skipn_length. cbn [length] in *. lia.
Qed.
Lemma blocks_concat {A} (l : list A) n : (1 <= n)%nat -> concat (blocks l n) = l.
Proof.
  intros Hn. revert l. apply (blocks_ind n); [exact Hn | now rewrite blocks_nil |].
  intros l Hl IH. rewrite blocks_step by assumption. simpl. rewrite IH. apply firstn_skipn.
Qed.
Lemma blocks_length {A} (l : list A) n : (1 <= n)%nat -> length (blocks l n) = ((length l + n - 1) / n)%nat.
Proof. intros H. unfold blocks, getBlocks, range_step. destruct n; [lia|]. now rewrite !map_length, seq_length. Qed.
Lemma nth_skipn' {A} (l : list A) a i d : nth i (skipn a l) d = nth (a + i) l d.
Proof. revert a. induction l as [|x l IH]; intros [|a]; try reflexivity; [now destruct i|]. simpl. apply IH. Qed.
Lemma nth_firstn' {A} (l : list A) n i d : (i < n)%nat -> nth i (firstn n l) d = nth i l d.
Proof. revert n i. induction l as [|x l IH]; intros [|n] [|i] H; try lia; try reflexivity. simpl. apply IH. lia. Qed.
Lemma blocks_nth {A} (l : list A) n j : (1 <= n)%nat -> (j < length (blocks l n))%nat -> nth j (blocks l n) [] = firstn n (skipn (j * n) l).
Proof.
  intros Hn Hj. rewrite blocks_length in Hj by exact Hn. unfold blocks, getBlocks, range_step. destruct n as [|n']; [lia|]. set (n := S n') in *. clearbody n.
  rewrite map_map, (nth_indep _ [] (firstn n (skipn (0 * n) l))) by now rewrite map_length, seq_length.
  rewrite (map_nth (fun k => firstn n (skipn (k * n) l))). now rewrite seq_nth.
Qed.
Lemma blocks_map {A B} (f : A -> B) l n : blocks (map f l) n = map (map f) (blocks l n).
Proof.
  destruct n as [|n']; [reflexivity|]. revert l. apply (blocks_ind (S n')); [lia | cbn [map]; rewrite !blocks_nil by lia; reflexivity |].
  intros l Hl IH. rewrite (blocks_step l) by (try lia; assumption).
  rewrite (blocks_step (map f l)) by (first [lia | intros E; apply Hl; destruct l; [reflexivity | discriminate E]]).
  cbn [map]. rewrite <- IH, firstn_map, skipn_map. reflexivity.
Qed.
Lemma block_start (l k n : nat) : (1 <= n)%nat -> (k < (l + n - 1) / n)%nat -> (k * n < l)%nat.
Proof. intros Hn Hk. pose proof (Nat.mul_div_le (l + n - 1) n ltac:(lia)). nia. Qed.
Lemma block_end (l k n : nat) : (1 <= n)%nat -> (S k < (l + n - 1) / n)%nat -> (S k * n <= l)%nat.
Proof. intros Hn Hk. pose proof (block_start l (S k) n Hn Hk). lia. Qed.
Lemma block_last (l k n : nat) : (1 <= n)%nat -> (S k = (l + n - 1) / n)%nat -> (l <= S k * n)%nat.
Proof. intros Hn Hk. pose proof (Nat.mod_upper_bound (l + n - 1) n ltac:(lia)). pose proof (Nat.div_mod (l + n - 1) n ltac:(lia)). nia. Qed.

(** *** C65 *)
Theorem C65_lossless {A} (lst : list A) n : (1 <= n)%nat ->
  exists bs, getBlocks lst n = Some bs /\ concat bs = lst /\
    (forall j, (S j < length bs)%nat -> length (nth j bs []) = n) /\
    (forall j, S j = length bs -> (1 <= length (nth j bs []) <= n)%nat).
Proof.
  intros Hn. exists (blocks lst n). split; [unfold blocks; destruct n; [lia|reflexivity]|]. split; [now apply blocks_concat|].
  pose proof (blocks_length lst n Hn) as HL.
  split; intros j Hj; rewrite blocks_nth by lia; rewrite firstn_length, skipn_length; rewrite HL in Hj.
  - pose proof (block_end _ _ _ Hn Hj). nia.
  - pose proof (block_last _ _ _ Hn Hj). pose proof (block_start (length lst) j n Hn ltac:(lia)). nia.
Qed.
Print Assumptions C65_lossless.
Example C65_ex : getBlocks [1;2;3;4;5]%nat 2 = Some [[1;2];[3;4];[5]]%nat.
Proof. reflexivity. Qed.
(** The only block size that fails. *)
Theorem C65_zero {A} (lst : list A) n : getBlocks lst n = None <-> n = 0%nat.
Proof. destruct n; simpl; split; intros; congruence. Qed.
Print Assumptions C65_zero.
Example C65_zero_ex : getBlocks [1;2]%nat 0 = None. Proof. reflexivity. Qed.

(** ** M_split *)
Lemma chunk_pos len nb : (1 <= nb)%nat -> (1 <= len)%nat -> (1 <= chunk_size len nb)%nat.
Proof.
  intros. unfold chunk_size. destruct (Nat.eqb_spec (len mod nb) 0) as [E|E]; [|lia].
  pose proof (Nat.div_mod len nb ltac:(lia)). destruct (len / nb)%nat; lia.
Qed.
Lemma chunk_zero nb : (1 <= nb)%nat -> chunk_size 0 nb = 0%nat.
Proof. intros. unfold chunk_size. rewrite Nat.mod_0_l, Nat.div_0_l by lia. reflexivity. Qed.
(** chunk_size is the quotient rounded up. *)
Lemma chunk_ceil len nb : (1 <= nb)%nat -> (len <= nb * chunk_size len nb < len + nb)%nat.
Proof.
  intros H. unfold chunk_size. pose proof (Nat.div_mod len nb ltac:(lia)). pose proof (Nat.mod_upper_bound len nb ltac:(lia)).
  destruct (Nat.eqb_spec (len mod nb) 0); nia.
Qed.
Definition masses (m : list R) (idx : list nat) := map (fun i => nth i m 0) idx.
Lemma argsort_length m args : is_argsort m args -> length args = length m.
Proof. intros [H _]. rewrite (Permutation_length H). apply seq_length. Qed.
Lemma argsort_bound m args i : is_argsort m args -> In i args <-> (i < length m)%nat.
Proof. intros [H _]. split; intros Hi; [apply (Permutation_in _ H) in Hi; apply in_seq in Hi; lia|]. apply (Permutation_in _ (Permutation_sym H)), in_seq. lia. Qed.
Lemma sorted_nth l i j : Sorted Rle l -> (i <= j < length l)%nat -> nth i l 0 <= nth j l 0.
Proof.
  intros HS. apply Sorted_StronglySorted in HS; [|intros a b c; apply Rle_trans]. revert i j.
  induction HS as [|a l HS IH HF]; intros i j H; simpl in *; [lia|]. destruct i, j; try lra; try lia.
  - rewrite Forall_forall in HF. apply HF, nth_In. lia.
  - apply IH. lia.
Qed.
Lemma map_firstn_seq {A} (args : list A) d n a : (a + n <= length args)%nat -> map (fun i => nth i args d) (seq a n) = firstn n (skipn a args).
Proof.
  revert n a. induction args as [|x args IH]; intros n a H; simpl in H.
  - replace n with 0%nat by lia. reflexivity.
  - destruct a as [|a].
    + destruct n as [|n]; [reflexivity|]. simpl. f_equal. rewrite <- seq_shift, map_map. now apply (IH n 0%nat); lia.
    + simpl. rewrite <- seq_shift, map_map. apply IH. lia.
Qed.
Lemma sum_full (f : nat -> nat) n j : (forall k, (k < j)%nat -> f k = n) -> sum_nat (map f (seq 0 j)) = (j * n)%nat.
Proof.
  induction j as [|j IH]; intros H; [reflexivity|]. rewrite seq_S, map_app. unfold sum_nat in *. rewrite fold_right_app. simpl.
  rewrite H by lia. rewrite Nat.add_0_r. transitivity (fold_right Nat.add 0 (map f (seq 0 j)) + n)%nat; [|rewrite IH by (intros; apply H; lia); lia].
  generalize (map f (seq 0 j)). intros l. induction l; simpl; lia.
Qed.

Section Split.
  Context {C : Type}.
  Variables (dc : C) (m : list R) (center : list C) (v : option (list C)) (args : list nat) (nb : nat).
  Hypothesis Hsort : is_argsort m args.
  Hypothesis Hnb : (1 <= nb)%nat.
  Let n := chunk_size (length m) nb.
  Let nG := length (blocks (masses m args) n).
  Lemma split_shape : m <> [] -> (1 <= n)%nat /\
    exists r, M_split dc m center v args nb = Some r /\
      m_groups r = blocks (masses m args) n /\
      c_groups r = blocks (map (fun i => nth i center dc) args) n /\
      v_groups r = match v with Some v => blocks (map (fun i => nth i v dc) args) n | None => [] end /\
      idx_groups r = blocks args n /\
      edges r = map (fun i => if Nat.eqb i nG then nth (length m - 1) (masses m args) 0 else nth (i * n) (masses m args) 0) (seq 0 (nG + 1)).
  Proof.
    intros Hm. assert (Hn : (1 <= n)%nat) by (apply chunk_pos; [exact Hnb | destruct m; [congruence | simpl; lia]]). split; [exact Hn|].
    assert (HM : M_split dc m center v args nb = M_split dc m center v args (S (nb - 1))) by (f_equal; lia). rewrite HM.
    unfold M_split. replace (S (nb - 1)) with nb by lia. clear HM. fold n.
    destruct (Nat.eqb_spec n 0) as [E|E]; [lia|]. fold (masses m args).
    eexists. split; [reflexivity|]. cbn [m_groups c_groups v_groups idx_groups edges].
    split; [reflexivity|]. split; [reflexivity|]. split; [reflexivity|].
    assert (HLa : length (masses m args) = length m) by (unfold masses; rewrite map_length; now apply argsort_length).
    split; [|unfold nG; now rewrite HLa].
    unfold masses at 1 2 3. rewrite blocks_map.
    transitivity (map (fun j => nth j (blocks args n) []) (seq 0 (length (map (map (fun i => nth i m 0)) (blocks args n))))).
    2:{ rewrite map_length. clear. induction (blocks args n) as [|b bs IH]; [reflexivity|]. simpl. f_equal. rewrite <- seq_shift, map_map. exact IH. }
    apply map_ext_in. intros j Hj. apply in_seq in Hj. rewrite map_length in Hj.
    pose proof (blocks_length args n Hn) as HL.
    assert (Hlen : forall k, length (nth k (map (map (fun i => nth i m 0)) (blocks args n)) []) = length (nth k (blocks args n) [])).
    { intros k. change (@nil R) with (map (fun i => nth i m 0) []). now rewrite map_nth, map_length. }
    rewrite Hlen, (map_ext _ _ Hlen).
    rewrite (sum_full _ n).
    - rewrite blocks_nth, firstn_length, skipn_length by lia.
      destruct (Nat.le_ge_cases n (length args - j * n)) as [H|H].
      + rewrite Nat.min_l by lia. apply map_firstn_seq. lia.
      + rewrite Nat.min_r by lia. rewrite map_firstn_seq by (pose proof (block_start (length args) j n Hn ltac:(lia)); lia).
        rewrite !firstn_all2; rewrite ?skipn_length; trivial; lia.
    - intros k Hk. rewrite blocks_nth, firstn_length, skipn_length by lia. pose proof (block_end (length args) k n Hn ltac:(lia)). nia.
  Qed.
End Split.

Lemma Some_inj {A} (x y : A) : Some x = Some y -> x = y. Proof. congruence. Qed.
Lemma split_empty {C} (dc : C) center v args nb : (1 <= nb)%nat -> M_split dc [] center v args nb = Some (mkSplit [] [] [] [] []).
Proof. intros H. unfold M_split. destruct nb; [lia|]. rewrite chunk_zero by lia. reflexivity. Qed.
Lemma perm_nil args : is_argsort [] args -> args = [].
Proof. intros [H _]. apply Permutation_nil. apply Permutation_sym, H. Qed.
Lemma index_in_blocks (n : nat) (l : list nat) i : (1 <= n)%nat -> In i l -> exists j, (j < length (blocks l n))%nat /\ In i (nth j (blocks l n) []).
Proof.
  intros Hn Hi. rewrite <- (blocks_concat l n Hn) in Hi. apply in_concat in Hi. destruct Hi as (b & Hb & Hi).
  destruct (In_nth _ _ [] Hb) as (j & Hj & <-). eauto.
Qed.
Lemma NoDup_concat_unique {A} (ls : list (list A)) i j x : NoDup (concat ls) -> In x (nth i ls []) -> In x (nth j ls []) -> i = j.
Proof.
  revert i j. induction ls as [|l ls IH]; intros i j H Hi Hj; [destruct i; simpl in Hi; contradiction|].
  simpl in H. assert (Hd : forall k, In x l -> ~ In x (nth k ls [])).
  { intros k Hl Hk. assert (Hc : In x (concat ls)).
    { apply in_concat. exists (nth k ls []). split; [|exact Hk]. destruct (le_lt_dec (length ls) k) as [E|E]; [rewrite nth_overflow in Hk by exact E; contradiction|]. now apply nth_In. }
    clear -H Hl Hc. induction l as [|a l IHl]; [contradiction|]. inversion H; subst. destruct Hl as [->|Hl]; [apply H2, in_or_app; now right|auto]. }
  assert (Hn : NoDup (concat ls)) by (clear -H; induction l; [exact H|apply IHl; now inversion H]).
  destruct i, j; simpl in *; auto; exfalso; [now apply (Hd j)|now apply (Hd i)].
Qed.

(** *** C49 *)
(** Every object is in exactly one index group. *)
Theorem C49_partition {C} (dc : C) m center v args nb r : is_argsort m args -> (1 <= nb)%nat -> M_split dc m center v args nb = Some r ->
  Permutation (concat (idx_groups r)) (seq 0 (length m)) /\
  (forall i, (i < length m)%nat -> exists! j, (j < length (idx_groups r))%nat /\ In i (nth j (idx_groups r) [])).
Proof.
  intros Hs Hnb Hr. destruct m as [|m0 m'] eqn:Em.
  - rewrite split_empty in Hr by exact Hnb. apply Some_inj in Hr. subst r. simpl. split; [constructor | intros; lia].
  - rewrite <- Em in *. destruct (split_shape dc m center v args nb Hs Hnb ltac:(congruence)) as (Hn & r' & Hr' & _ & _ & _ & Hidx & _).
    assert (r' = r) by congruence. subst r'. rewrite Hidx.
    assert (HP : Permutation (concat (blocks args (chunk_size (length m) nb))) (seq 0 (length m))) by (rewrite blocks_concat by exact Hn; apply Hs).
    split; [exact HP|]. intros i Hi. apply (argsort_bound m args) in Hi; [|exact Hs].
    destruct (index_in_blocks _ _ _ Hn Hi) as (j & Hj & Hin). exists j. split; [now split|]. intros j' [Hj' Hin'].
    apply (NoDup_concat_unique _ _ _ i) with (3 := Hin'); [|exact Hin]. apply (Permutation_NoDup (Permutation_sym HP)), seq_NoDup.
Qed.
Print Assumptions C49_partition.
(** Mass, centre and vector groups hold the values of the objects of the index groups. *)
Theorem C49_aligned {C} (dc : C) m center v args nb r : is_argsort m args -> (1 <= nb)%nat -> M_split dc m center v args nb = Some r ->
  m_groups r = map (map (fun i => nth i m 0)) (idx_groups r) /\
  c_groups r = map (map (fun i => nth i center dc)) (idx_groups r) /\
  (forall vs, v = Some vs -> v_groups r = map (map (fun i => nth i vs dc)) (idx_groups r)).
Proof.
  intros Hs Hnb Hr. destruct m as [|m0 m'] eqn:Em.
  - rewrite split_empty in Hr by exact Hnb. apply Some_inj in Hr. subst r. simpl. auto.
  - rewrite <- Em in *. destruct (split_shape dc m center v args nb Hs Hnb ltac:(congruence)) as (Hn & r' & Hr' & H1 & H2 & H3 & H4 & _).
    assert (r' = r) by congruence. subst r'. rewrite H1, H2, H3, H4. unfold masses. rewrite !blocks_map. repeat split; auto.
    intros vs ->. now rewrite blocks_map.
Qed.
Print Assumptions C49_aligned.
(** All groups but the last have the same size, the last is not empty and not larger. *)
Theorem C49_sizes {C} (dc : C) m center v args nb r : is_argsort m args -> (1 <= nb)%nat -> M_split dc m center v args nb = Some r ->
  exists size, (forall j, (S j < length (idx_groups r))%nat -> length (nth j (idx_groups r) []) = size) /\
    (forall j, S j = length (idx_groups r) -> (1 <= length (nth j (idx_groups r) []) <= size)%nat).
Proof.
  intros Hs Hnb Hr. destruct m as [|m0 m'] eqn:Em.
  - rewrite split_empty in Hr by exact Hnb. apply Some_inj in Hr. subst r. exists 0%nat. simpl. split; intros; lia.
  - rewrite <- Em in *. destruct (split_shape dc m center v args nb Hs Hnb ltac:(congruence)) as (Hn & r' & Hr' & _ & _ & _ & H4 & _).
    assert (r' = r) by congruence. subst r'. rewrite H4. exists (chunk_size (length m) nb).
    destruct (C65_lossless args _ Hn) as (bs & Hb & _ & Hb1 & Hb2).
    replace (blocks args (chunk_size (length m) nb)) with bs by (unfold blocks; now rewrite Hb). auto.
Qed.
Print Assumptions C49_sizes.
Lemma nth_edges (f : nat -> R) k i : (i < k)%nat -> nth i (map f (seq 0 k)) 0 = f i.
Proof. intros H. rewrite (nth_indep _ 0 (f 0%nat)) by now rewrite map_length, seq_length. rewrite map_nth, seq_nth by exact H. reflexivity. Qed.
Lemma masses_nth m args i : (i < length args)%nat -> nth i (masses m args) 0 = nth (nth i args 0%nat) m 0.
Proof. intros H. unfold masses. rewrite (nth_indep _ 0 (nth 0 m 0)) by now rewrite map_length. now rewrite (map_nth (fun i => nth i m 0)). Qed.
(** One edge more than groups, and an object of group j lies between edges j and j+1. *)
Theorem C49_edges {C} (dc : C) m center v args nb r : is_argsort m args -> (1 <= nb)%nat -> m <> [] -> M_split dc m center v args nb = Some r ->
  length (edges r) = S (length (idx_groups r)) /\
  (forall j i, In i (nth j (idx_groups r) []) -> nth j (edges r) 0 <= nth i m 0 <= nth (S j) (edges r) 0) /\
  Sorted Rle (edges r).
Proof.
  intros Hs Hnb Hm Hr. destruct (split_shape dc m center v args nb Hs Hnb Hm) as (Hn & r' & Hr' & _ & _ & _ & H4 & H5).
  assert (r' = r) by congruence. subst r'. set (n := chunk_size (length m) nb) in *. clearbody n.
  pose proof (argsort_length _ _ Hs) as HLa.
  assert (HLm : length (masses m args) = length m) by (unfold masses; now rewrite map_length).
  assert (HG : length (blocks args n) = length (blocks (masses m args) n)) by (unfold masses; now rewrite blocks_map, map_length).
  assert (HL : length (blocks args n) = ((length args + n - 1) / n)%nat) by now apply blocks_length.
  rewrite H4, H5, <- HG. set (g := length (blocks args n)) in *.
  destruct Hs as [HP HS]. fold (masses m args) in HS.
  assert (Hle : forall a b, (a <= b < length m)%nat -> nth a (masses m args) 0 <= nth b (masses m args) 0) by (intros; apply sorted_nth; [exact HS | lia]).
  split; [rewrite map_length, seq_length; lia|]. split.
  - intros j i Hi. assert (Hj : (j < g)%nat).
    { destruct (le_lt_dec g j) as [E|E]; [|exact E]. rewrite nth_overflow in Hi by exact E. contradiction. }
    rewrite blocks_nth in Hi by assumption. destruct (In_nth _ _ 0%nat Hi) as (k & Hk & Hik).
    rewrite firstn_length, skipn_length in Hk. rewrite nth_firstn', nth_skipn' in Hik by lia.
    assert (Hx : nth i m 0 = nth (j * n + k) (masses m args) 0) by (rewrite masses_nth by lia; now rewrite Hik).
    rewrite !nth_edges by lia. destruct (Nat.eqb_spec j g) as [E|_]; [lia|]. rewrite Hx. split; [apply Hle; lia|].
    destruct (Nat.eqb_spec (S j) g) as [E|E].
    + apply Hle. lia.
    + pose proof (block_start (length args) (S j) n Hn ltac:(lia)). apply Hle. lia.
  - apply (Sorted_StronglySorted (R := Rle)) in HS; [|intros a b c; apply Rle_trans].
    set (f := fun i => _). assert (Hf : forall i, (i < g)%nat -> f i <= f (S i)).
    { intros i Hi. unfold f. destruct (Nat.eqb_spec i g) as [E|_]; [lia|]. destruct (Nat.eqb_spec (S i) g) as [E|E].
      - pose proof (block_start (length args) i n Hn ltac:(lia)). apply Hle. lia.
      - pose proof (block_start (length args) (S i) n Hn ltac:(lia)). apply Hle. simpl in *. lia. }
    clearbody f. clear -Hf. replace (g + 1)%nat with (S g) by lia.
    assert (HI : forall a k, (a + k <= g)%nat -> Sorted Rle (map f (seq a (S k)))).
    { intros a k. revert a. induction k as [|k IH]; intros a H; [simpl; repeat constructor|].
      change (map f (seq a (S (S k)))) with (f a :: map f (seq (S a) (S k))). constructor; [apply IH; lia|]. simpl. constructor. apply Hf. lia. }
    now apply HI.
Qed.
Print Assumptions C49_edges.
(** Groups are consecutive in mass: nothing in an earlier group is heavier than anything in a later one. *)
Theorem C49_ordered {C} (dc : C) m center v args nb r : is_argsort m args -> (1 <= nb)%nat -> M_split dc m center v args nb = Some r ->
  forall j k i i', (j < k)%nat -> In i (nth j (idx_groups r) []) -> In i' (nth k (idx_groups r) []) -> nth i m 0 <= nth i' m 0.
Proof.
  intros Hs Hnb Hr j k i i' Hjk Hi Hi'. destruct m as [|m0 m'] eqn:Em.
  - rewrite split_empty in Hr by exact Hnb. apply Some_inj in Hr. subst r. destruct j; contradiction.
  - rewrite <- Em in *. destruct (C49_edges dc m center v args nb r Hs Hnb ltac:(congruence) Hr) as (HL & HE & HS).
    assert (Hk : (k < length (idx_groups r))%nat) by (destruct (le_lt_dec (length (idx_groups r)) k) as [E|E]; [rewrite nth_overflow in Hi' by exact E; contradiction | exact E]).
    apply Rle_trans with (nth (S j) (edges r) 0); [apply HE, Hi|]. apply Rle_trans with (nth k (edges r) 0); [|apply HE, Hi'].
    apply sorted_nth; [exact HS | lia].
Qed.
Print Assumptions C49_ordered.
(** M_split fails exactly for no bins. *)
Theorem C49_total {C} (dc : C) m center v args nb : M_split dc m center v args nb = None <-> nb = 0%nat.
Proof. unfold M_split. destruct nb; [tauto|]. destruct (Nat.eqb _ 0); split; intros; discriminate. Qed.
Print Assumptions C49_total.
Lemma five_sorted : is_argsort [3; 1; 5; 2; 4] [1;3;0;4;2]%nat.
Proof.
  split; [|simpl; repeat constructor; lra]. simpl.
  apply NoDup_Permutation; [repeat constructor; simpl; intuition lia | repeat constructor; simpl; intuition lia |]. intros x; simpl; intuition lia.
Qed.
Example C49_ex : exists r, M_split 0 [3; 1; 5; 2; 4] [30; 10; 50; 20; 40] (Some [300; 100; 500; 200; 400]) [1;3;0;4;2]%nat 2 = Some r /\ is_argsort [3; 1; 5; 2; 4] [1;3;0;4;2]%nat /\
  edges r = [1; 4; 5] /\ idx_groups r = [[1;3;0];[4;2]]%nat /\ c_groups r = [[10;20;30];[40;50]] /\ v_groups r = [[100;200;300];[400;500]].
Proof. eexists. split; [reflexivity|]. split; [apply five_sorted|]. repeat split. Qed.
Example C49_total_ex : M_split 0 [3; 1] [30; 10] None [1;0]%nat 0 = None. Proof. reflexivity. Qed.

(** *** C75: the number of groups *)
Theorem C75_refuted : ~ (forall (m center : list R) args nb r, is_argsort m args -> (1 <= nb <= length m)%nat -> M_split 0 m center None args nb = Some r -> length (idx_groups r) = nb).
Proof.
  intros H. specialize (H [3; 1; 5; 2; 4] [3; 1; 5; 2; 4] [1;3;0;4;2]%nat 4%nat _ five_sorted ltac:(simpl; lia) eq_refl). discriminate H.
Qed.
Print Assumptions C75_refuted.
Lemma split_count {C} (dc : C) m center v args nb r : is_argsort m args -> (1 <= nb)%nat -> m <> [] -> M_split dc m center v args nb = Some r ->
  length (idx_groups r) = ((length m + chunk_size (length m) nb - 1) / chunk_size (length m) nb)%nat /\ (1 <= chunk_size (length m) nb)%nat.
Proof.
  intros Hs Hnb Hm Hr. destruct (split_shape dc m center v args nb Hs Hnb Hm) as (Hn & r' & Hr' & _ & _ & _ & H4 & _).
  assert (r' = r) by congruence. subst r'. now rewrite H4, blocks_length, (argsort_length m).
Qed.
(** Never more groups than asked for, at least one for a non-empty catalogue; the exact number if it
    divides the number of objects or if there are at least nb*(nb-1) objects. *)
Theorem C75_partial {C} (dc : C) m center v args nb r : is_argsort m args -> (1 <= nb)%nat -> m <> [] -> M_split dc m center v args nb = Some r ->
  (1 <= length (idx_groups r) <= nb)%nat /\
  ((length m mod nb = 0)%nat -> length (idx_groups r) = nb) /\
  ((nb * (nb - 1) <= length m)%nat -> length (idx_groups r) = nb).
Proof.
  intros Hs Hnb Hm Hr. destruct (split_count dc m center v args nb r Hs Hnb Hm Hr) as [-> Hn].
  assert (1 <= length m)%nat by (destruct m; [congruence | simpl; lia]).
  pose proof (chunk_ceil (length m) nb Hnb) as Hc. set (L := length m) in *. set (n := chunk_size L nb) in *.
  assert (Hub : ((L + n - 1) / n <= nb)%nat) by (apply Nat.lt_succ_r, Nat.div_lt_upper_bound; [lia | nia]).
  assert (Hlb : forall k, (1 <= k)%nat -> ((k - 1) * n < L)%nat -> (k <= (L + n - 1) / n)%nat) by (intros k Hk H'; apply Nat.div_le_lower_bound; [lia | nia]).
  split; [split; [apply Hlb; lia | exact Hub]|]. split; intros H'; apply Nat.le_antisymm; try exact Hub; apply Hlb; trivial.
  - assert (n = L / nb)%nat as E by (unfold n, chunk_size; rewrite H'; reflexivity). pose proof (Nat.div_mod L nb ltac:(lia)). nia.
  - nia.
Qed.
Print Assumptions C75_partial.
Example C75_ex : exists r, M_split 0 [3; 1; 5; 2; 4] [3; 1; 5; 2; 4] None [1;3;0;4;2]%nat 2 = Some r /\ length (idx_groups r) = 2%nat /\ (2 * (2 - 1) <= 5)%nat.
Proof. eexists. split; [reflexivity|]. split; [reflexivity | lia]. Qed.

(** *** C48: the groups of the density plots *)
Definition in_group (m ed : list R) (g i : nat) : Prop := (i < length m)%nat /\ nth g ed 0 < nth i m 0 < nth (S g) ed 0.
Lemma members_spec m ed g i : In i (group_members m ed g) <-> in_group m ed g i.
Proof.
  unfold group_members, in_group. rewrite filter_In, in_seq. rewrite andb_true_iff.
  destruct (Rlt_dec (nth g ed 0) (nth i m 0)), (Rlt_dec (nth i m 0) (nth (S g) ed 0)); intuition (try lia; try discriminate; try lra).
Qed.
(** An object whose mass is a group edge is in no group. *)
Theorem C48_edge_dropped {C} (dc : C) m center v args nb r i : is_argsort m args -> (1 <= nb)%nat -> m <> [] -> M_split dc m center v args nb = Some r ->
  In (nth i m 0) (edges r) -> forall g, (g < length (idx_groups r))%nat -> ~ In i (group_members m (edges r) g).
Proof.
  intros Hs Hnb Hm Hr Hin g Hg. rewrite members_spec. intros (_ & H1 & H2).
  destruct (C49_edges dc m center v args nb r Hs Hnb Hm Hr) as (HL & _ & HS).
  destruct (In_nth _ _ 0 Hin) as (k & Hk & E). rewrite <- E in *.
  destruct (le_lt_dec k g) as [H|H].
  - pose proof (sorted_nth _ k g HS ltac:(lia)). lra.
  - pose proof (sorted_nth _ (S g) k HS ltac:(lia)). lra.
Qed.
Print Assumptions C48_edge_dropped.
(** So the lightest and the heaviest object of any catalogue are in no group, for any number of groups. *)
Theorem C48_extremes_dropped {C} (dc : C) m center v args nb r i : is_argsort m args -> (1 <= nb)%nat -> (i < length m)%nat -> M_split dc m center v args nb = Some r ->
  (forall k, (k < length m)%nat -> nth i m 0 <= nth k m 0) \/ (forall k, (k < length m)%nat -> nth k m 0 <= nth i m 0) ->
  forall g, (g < length (idx_groups r))%nat -> ~ In i (group_members m (edges r) g).
Proof.
  intros Hs Hnb Hi Hr Hx g Hg. rewrite members_spec. intros (_ & H1 & H2).
  assert (Hm : m <> []) by (destruct m; [simpl in Hi; lia | discriminate]).
  assert (Hed : forall e, In e (edges r) -> exists k, (k < length m)%nat /\ e = nth k m 0).
  { intros e He. destruct (split_shape dc m center v args nb Hs Hnb Hm) as (Hn & r' & Hr' & _ & _ & _ & _ & H5).
    assert (r' = r) by congruence. subst r'. rewrite H5 in He. apply in_map_iff in He. destruct He as (k & He & Hk). apply in_seq in Hk.
    pose proof (argsort_length _ _ Hs) as HLa.
    assert (HLm : length (masses m args) = length m) by (unfold masses; now rewrite map_length).
    assert (Hin : In e (masses m args)).
    { destruct (Nat.eqb_spec k (length (blocks (masses m args) (chunk_size (length m) nb)))) as [E|E]; subst e; apply nth_In; rewrite HLm.
      - destruct m; [congruence | simpl; lia].
      - apply block_start; [exact Hn|]. rewrite <- HLm at 1. rewrite <- (blocks_length (masses m args)) by exact Hn. lia. }
    unfold masses in Hin. apply in_map_iff in Hin. destruct Hin as (a & <- & Ha). exists a. split; [|reflexivity]. now apply (argsort_bound m args). }
  destruct (C49_edges dc m center v args nb r Hs Hnb Hm Hr) as (HL & _ & _).
  destruct (Hed _ (nth_In (edges r) 0 (n := g) ltac:(lia))) as (a & Ha & Ea).
  destruct (Hed _ (nth_In (edges r) 0 (n := S g) ltac:(lia))) as (b & Hb & Eb).
  rewrite Ea in H1. rewrite Eb in H2. destruct Hx as [Hx|Hx]; [specialize (Hx a Ha) | specialize (Hx b Hb)]; lra.
Qed.
Print Assumptions C48_extremes_dropped.
Theorem C48_refuted : ~ (forall (m center : list R) args nb r, is_argsort m args -> (1 <= nb)%nat -> M_split 0 m center None args nb = Some r ->
  forall i, (i < length m)%nat -> exists g, (g < length (idx_groups r))%nat /\ In i (group_members m (edges r) g)).
Proof.
  intros H. destruct (H [3; 1; 5; 2; 4] [3; 1; 5; 2; 4] [1;3;0;4;2]%nat 2%nat _ five_sorted ltac:(lia) eq_refl 1%nat ltac:(simpl; lia)) as (g & Hg & Hi).
  revert Hi. apply (C48_extremes_dropped 0 [3; 1; 5; 2; 4] [3; 1; 5; 2; 4] None [1;3;0;4;2]%nat 2 _ 1 five_sorted ltac:(lia) ltac:(simpl; lia) eq_refl); [|exact Hg].
  left. intros k Hk. simpl in Hk. do 5 (destruct k as [|k]; [simpl; lra|]). lia.
Qed.
Print Assumptions C48_refuted.
(** An object whose mass is no edge is in exactly the group M_split puts it in. *)
Theorem C48_partial {C} (dc : C) m center v args nb r i : is_argsort m args -> (1 <= nb)%nat -> (i < length m)%nat -> M_split dc m center v args nb = Some r ->
  ~ In (nth i m 0) (edges r) ->
  forall g, (g < length (idx_groups r))%nat -> In i (group_members m (edges r) g) <-> In i (nth g (idx_groups r) []).
Proof.
  intros Hs Hnb Hi Hr Hne. assert (Hm : m <> []) by (destruct m; [simpl in Hi; lia | discriminate]).
  destruct (C49_edges dc m center v args nb r Hs Hnb Hm Hr) as (HL & HE & HS).
  destruct (C49_partition dc m center v args nb r Hs Hnb Hr) as (_ & HP). destruct (HP i Hi) as (j & (Hj & Hij) & Hu).
  assert (Hst : forall g, (g < length (idx_groups r))%nat -> In i (nth g (idx_groups r) []) -> nth g (edges r) 0 < nth i m 0 < nth (S g) (edges r) 0).
  { intros g Hg Hin. destruct (HE g i Hin) as [[A|A] [B|B]]; try lra; exfalso; apply Hne; rewrite <- ?A, ?B; apply nth_In; lia. }
  intros g Hg. rewrite members_spec. split.
  - intros (_ & H1 & H2). destruct (Hst j Hj Hij) as [H3 H4]. destruct (Nat.lt_trichotomy j g) as [L|[->|L]]; [|exact Hij|].
    + pose proof (sorted_nth _ (S j) g HS ltac:(lia)). lra.
    + pose proof (sorted_nth _ (S g) j HS ltac:(lia)). lra.
  - intros Hin. split; [exact Hi | now apply Hst].
Qed.
Print Assumptions C48_partial.
(** With at least as many groups as objects every group is empty. *)
Theorem C48_all_empty {C} (dc : C) m center v args nb r : is_argsort m args -> (1 <= nb)%nat -> (length m <= nb)%nat -> M_split dc m center v args nb = Some r ->
  forall g, (g < length (idx_groups r))%nat -> group_members m (edges r) g = [].
Proof.
  intros Hs Hnb Hle Hr g Hg. destruct m as [|m0 m'] eqn:Em; [reflexivity|]. rewrite <- Em in *. assert (Hm : m <> []) by congruence.
  assert (Hn1 : chunk_size (length m) nb = 1%nat).
  { pose proof (chunk_ceil (length m) nb Hnb). pose proof (chunk_pos (length m) nb Hnb ltac:(rewrite Em; simpl; lia)). nia. }
  destruct (group_members m (edges r) g) as [|i l] eqn:E; [reflexivity|]. exfalso.
  assert (Hin : In i (group_members m (edges r) g)) by (rewrite E; now left).
  assert (Hi : (i < length m)%nat) by (apply members_spec in Hin; apply Hin).
  revert Hin. apply (C48_edge_dropped dc m center v args nb r i Hs Hnb Hm Hr); [|exact Hg].
  destruct (split_shape dc m center v args nb Hs Hnb Hm) as (Hn & r' & Hr' & _ & _ & _ & _ & H5).
  assert (r' = r) by congruence. subst r'. rewrite H5, Hn1.
  pose proof (argsort_length _ _ Hs) as HLa.
  assert (HLm : length (masses m args) = length m) by (unfold masses; now rewrite map_length).
  apply (argsort_bound m args) in Hi; [|exact Hs]. destruct (In_nth _ _ 0%nat Hi) as (k & Hk & Ek).
  apply in_map_iff. exists k. rewrite blocks_length by lia. rewrite Nat.div_1_r.
  split; [|apply in_seq; lia]. destruct (Nat.eqb_spec k (length (masses m args) + 1 - 1)) as [E'|_]; [lia|].
  rewrite Nat.mul_1_r, masses_nth by exact Hk. now rewrite Ek.
Qed.
Print Assumptions C48_all_empty.
Example C48_ex : exists r, M_split 0 [3; 1; 5; 2; 4] [3; 1; 5; 2; 4] None [1;3;0;4;2]%nat 2 = Some r /\ ~ In 3 (edges r) /\ In 0%nat (group_members [3; 1; 5; 2; 4] (edges r) 0).
Proof.
  eexists. split; [reflexivity|]. split; [simpl; intuition lra|]. apply members_spec. split; [simpl; lia|]. simpl. lra.
Qed.
Example C48_empty_ex : exists r, M_split 0 [2; 1] [2; 1] None [1;0]%nat 2 = Some r /\ is_argsort [2; 1] [1;0]%nat /\ length (idx_groups r) = 2%nat /\ group_members [2;1] (edges r) 1 = [].
Proof.
  assert (Hs : is_argsort [2; 1] [1;0]%nat) by (split; [apply perm_swap | simpl; repeat constructor; lra]).
  eexists. split; [reflexivity|]. split; [exact Hs|]. split; [reflexivity|].
  apply (C48_all_empty 0 [2; 1] [2; 1] None [1;0]%nat 2 _ Hs ltac:(lia) ltac:(simpl; lia) eq_refl). simpl. lia.
Qed.
