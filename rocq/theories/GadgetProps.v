(** Reading Gadget records and headers: C56, C57, C58. *)
From Coq Require Import Lia String Bool ZArith List.
From Verif Require Import GadgetModel GadgetSpec.
Import ListNotations.
Local Open Scope Z_scope.

(** ** Words *)
Definition is_be (o : order) : bool := match o with LE => false | BE => true end.
Lemma to_le_spec k v : to_le k v = bytes_of LE k v.
Proof.
  unfold bytes_of. revert v. induction k as [|k IH]; intros v; [reflexivity|]. cbn [to_le seq map]. f_equal; [change (256 ^ Z.of_nat 0) with 1; now rewrite Z.div_1_r|].
  rewrite IH, <- seq_shift, map_map. apply map_ext. intros i. rewrite Nat2Z.inj_succ, Z.pow_succ_r by lia. rewrite Z.div_div by (try lia; apply Z.pow_pos_nonneg; lia). reflexivity.
Qed.
Lemma be_rev k v : bytes_of BE k v = rev (bytes_of LE k v).
Proof. unfold bytes_of. apply map_rev. Qed.
Lemma bytes_of_length o k v : length (bytes_of o k v) = k.
Proof. unfold bytes_of. destruct o; rewrite map_length, ?rev_length, seq_length; reflexivity. Qed.
Lemma to_le_length k v : length (to_le k v) = k.
Proof. rewrite to_le_spec. apply bytes_of_length. Qed.
Lemma bytes_of_ok o k v : Forall byte_ok (bytes_of o k v).
Proof. unfold bytes_of. apply Forall_forall. intros b Hb. apply in_map_iff in Hb. destruct Hb as (i & <- & _). apply Z.mod_pos_bound. lia. Qed.
Lemma le_to_le k v : le (to_le k v) = v mod 256 ^ Z.of_nat k.
Proof.
  revert v. induction k as [|k IH]; intros v; [simpl; now rewrite Z.mod_1_r|]. cbn [to_le le]. rewrite IH, Nat2Z.inj_succ, Z.pow_succ_r by lia. rewrite Z.rem_mul_r by (try lia; apply Z.pow_nonzero; lia). reflexivity.
Qed.
Lemma to_le_le l : Forall byte_ok l -> to_le (length l) (le l) = l.
Proof.
  induction 1 as [|b l Hb H IH]; [reflexivity|]. cbn [length to_le le]. unfold byte_ok in Hb. f_equal; [rewrite Z.add_mod, Z.mul_comm, Z.mod_mul, Z.add_0_r, Z.mod_mod, Z.mod_small by lia; reflexivity|].
  rewrite Z.mul_comm, Z.div_add, Z.div_small, Z.add_0_l by lia. exact IH.
Qed.
(** Reading a word and swapping it if need be gives the number written. *)
Lemma swp_bytes o k v : 0 <= v < 256 ^ Z.of_nat k -> swp (is_be o) k (le (bytes_of o k v)) = v.
Proof.
  intros Hv. destruct o; unfold swp, is_be.
  - rewrite <- to_le_spec, le_to_le. now apply Z.mod_small.
  - unfold byteswap. replace k with (length (bytes_of BE k v)) at 1 by apply bytes_of_length. rewrite to_le_le by apply bytes_of_ok. rewrite be_rev, rev_involutive, <- to_le_spec, le_to_le. now apply Z.mod_small.
Qed.
Lemma firstn_skipn_app {A} (pre mid post : list A) k : length mid = k -> firstn k (skipn (length pre) (pre ++ mid ++ post)) = mid.
Proof. intros H. rewrite skipn_app, skipn_all, Nat.sub_diag. simpl. rewrite <- H, firstn_app, firstn_all, Nat.sub_diag. simpl. apply app_nil_r. Qed.
Lemma word_at_app pre mid post k : length mid = k -> word_at (pre ++ mid ++ post) (length pre) k = GOk (le mid).
Proof. intros H. unfold word_at. rewrite (firstn_skipn_app pre mid post k H). now rewrite H, Nat.eqb_refl. Qed.
Lemma word_at_bytes bs pos k o v pre post : bs = pre ++ bytes_of o k v ++ post -> pos = length pre -> word_at bs pos k = GOk (le (bytes_of o k v)).
Proof. intros -> ->. apply word_at_app, bytes_of_length. Qed.

(** ** C56 *)
Definition fits (payload : list Z) : Prop := Z.of_nat (length payload) < 2 ^ 32.
Lemma marker_length o p : length (marker o p) = 4%nat. Proof. apply bytes_of_length. Qed.
Lemma frecord_length o p : length (frecord o p) = (length p + 8)%nat.
Proof. unfold frecord. rewrite !app_length, !marker_length. lia. Qed.
Lemma swp_marker o p : fits p -> swp (is_be o) 4 (le (marker o p)) = Z.of_nat (length p).
Proof. intros H. apply swp_bytes. unfold fits in H. change (256 ^ Z.of_nat 4) with (2 ^ 32). lia. Qed.
(** A complete record that is not the one asked for is passed over. *)
Lemma find_skip fuel o block n pre p post cur : fits p -> cur <> n ->
  find_loop (S fuel) (pre ++ frecord o p ++ post) 1 (is_be o) block n (length pre) cur = find_loop fuel (pre ++ frecord o p ++ post) 1 (is_be o) block n (length (pre ++ frecord o p)) (cur + 1).
Proof.
  intros Hp Hn. set (bs := pre ++ frecord o p ++ post). cbn [find_loop]. assert (L : (length pre < length bs)%nat) by (unfold bs; rewrite !app_length, frecord_length; lia).
  apply Nat.ltb_lt in L. rewrite L. change (1 =? 2) with false. cbv iota zeta.
  rewrite (word_at_bytes bs (length pre) 4 o (Z.of_nat (length p)) pre (p ++ marker o p ++ post)) by (trivial; unfold bs, frecord; now rewrite <- !app_assoc). cbn [gbind]. fold (marker o p).
  rewrite (swp_marker o p Hp). apply Z.eqb_neq in Hn. rewrite Hn. rewrite Nat2Z.id.
  rewrite (word_at_bytes bs (length pre + 4 + length p) 4 o (Z.of_nat (length p)) (pre ++ marker o p ++ p) post); [|unfold bs, frecord; now rewrite <- !app_assoc | rewrite !app_length, marker_length; lia].
  cbn [gbind]. fold (marker o p). rewrite (swp_marker o p Hp), Z.eqb_refl. f_equal. rewrite app_length, frecord_length. lia.
Qed.
(** The record asked for: nothing behind its payload is looked at. *)
Lemma find_here fuel o block pre p post cur : fits p ->
  find_loop (S fuel) (pre ++ marker o p ++ post) 1 (is_be o) block cur (length pre) cur = GOk ((length pre + 4)%nat, Z.of_nat (length p)).
Proof.
  intros Hp. set (bs := pre ++ marker o p ++ post). cbn [find_loop]. assert (L : (length pre < length bs)%nat) by (unfold bs; rewrite !app_length, marker_length; lia).
  apply Nat.ltb_lt in L. rewrite L. change (1 =? 2) with false. cbv iota zeta. rewrite Z.eqb_refl.
  rewrite (word_at_bytes bs (length pre) 4 o (Z.of_nat (length p)) pre post) by trivial. cbn [gbind]. fold (marker o p). now rewrite (swp_marker o p Hp).
Qed.
Lemma frecords_snoc o ps p : frecords o (ps ++ [p]) = frecords o ps ++ frecord o p.
Proof. unfold frecords. rewrite map_app, concat_app. simpl. now rewrite app_nil_r. Qed.
Lemma frecords_app o ps qs : frecords o (ps ++ qs) = frecords o ps ++ frecords o qs.
Proof. unfold frecords. now rewrite map_app, concat_app. Qed.
Lemma frecords_length_ge o ps : (8 * length ps <= length (frecords o ps))%nat.
Proof. induction ps as [|p ps IH]; [simpl; lia|]. unfold frecords in *. simpl. rewrite app_length, frecord_length. lia. Qed.
Lemma find_skips fuel o block n ps done rest : Forall fits ps -> Z.of_nat (length done + length ps) < n ->
  find_loop (length ps + fuel) (frecords o done ++ frecords o ps ++ rest) 1 (is_be o) block n (length (frecords o done)) (Z.of_nat (length done) + 1) =
  find_loop fuel (frecords o (done ++ ps) ++ rest) 1 (is_be o) block n (length (frecords o (done ++ ps))) (Z.of_nat (length (done ++ ps)) + 1).
Proof.
  revert done. induction ps as [|p ps IH]; intros done HF Hn; [simpl; now rewrite app_nil_r|]. inversion HF as [|? ? Hp HF']; subst. cbn [length plus].
  change (frecords o (p :: ps)) with (frecord o p ++ frecords o ps). rewrite <- app_assoc. rewrite find_skip by (trivial; simpl in Hn; lia).
  replace (frecords o done ++ frecord o p) with (frecords o (done ++ [p])) by apply frecords_snoc.
  replace (frecords o done ++ frecord o p ++ frecords o ps ++ rest) with (frecords o (done ++ [p]) ++ frecords o ps ++ rest) by (rewrite frecords_snoc; now rewrite <- app_assoc).
  replace (Z.of_nat (length done) + 1 + 1) with (Z.of_nat (length (done ++ [p])) + 1) by (rewrite app_length; simpl; lia).
  rewrite IH by (trivial; rewrite app_length; simpl in *; lia). now rewrite <- !app_assoc.
Qed.
(** Reading a file that begins with complete records [ps]. *)
Lemma find_after o block n ps rest : Forall fits ps -> Z.of_nat (length ps) < n -> exists fuel,
  find_block (frecords o ps ++ rest) 1 (is_be o) block n = find_loop (S fuel) (frecords o ps ++ rest) 1 (is_be o) block n (length (frecords o ps)) (Z.of_nat (length ps) + 1) /\ (8 * fuel + 8 >= length rest)%nat.
Proof.
  intros HF Hn. unfold find_block. pose proof (frecords_length_ge o ps). exists (length (frecords o ps ++ rest) - length ps)%nat.
  assert (HL : (length ps <= length (frecords o ps ++ rest))%nat) by (rewrite app_length; lia).
  replace (S (length (frecords o ps ++ rest))) with (length ps + S (length (frecords o ps ++ rest) - length ps))%nat by lia.
  rewrite (find_skips _ o block n ps [] rest HF) by exact Hn. split; [reflexivity|]. rewrite app_length. lia.
Qed.
Theorem C56_found o block ps p rest : Forall fits (ps ++ [p]) ->
  let bs := frecords o (ps ++ [p]) ++ rest in
  exists offset, find_block bs 1 (is_be o) block (Z.of_nat (length ps) + 1) = GOk (offset, Z.of_nat (length p)) /\ offset = (length (frecords o ps) + 4)%nat /\ firstn (length p) (skipn offset bs) = p.
Proof.
  intros HF. apply Forall_app in HF. destruct HF as [HF Hp]. inversion Hp as [|? ? Hp' _]; subst. cbv zeta. rewrite frecords_snoc, <- app_assoc.
  destruct (find_after o block (Z.of_nat (length ps) + 1) ps (frecord o p ++ rest) HF ltac:(lia)) as (fuel & E & _). rewrite E. unfold frecord. rewrite <- !app_assoc. rewrite find_here by exact Hp'.
  eexists. split; [reflexivity|]. split; [reflexivity|]. rewrite app_assoc. replace (length (frecords o ps) + 4)%nat with (length (frecords o ps ++ marker o p)) by (rewrite app_length, marker_length; lia). now apply firstn_skipn_app.
Qed.
Print Assumptions C56_found.
Lemma loop_end fuel bs swap block n pos cur : (length bs <= pos)%nat -> find_loop (S fuel) bs 1 swap block n pos cur = GErr (SysExit BlockNotFound).
Proof. intros H. cbn [find_loop]. destruct (Nat.ltb_spec pos (length bs)); [lia | reflexivity]. Qed.
Theorem C56_not_found o block ps n : Forall fits ps -> Z.of_nat (length ps) < n -> find_block (frecords o ps) 1 (is_be o) block n = GErr (SysExit BlockNotFound).
Proof.
  intros HF Hn. destruct (find_after o block n ps [] HF Hn) as (fuel & E & _). rewrite app_nil_r in E. rewrite E. now apply loop_end.
Qed.
Print Assumptions C56_not_found.
(** A record before the one asked for whose second marker is wrong is reported. *)
Theorem C56_corrupt o block ps p wrong rest n : Forall fits ps -> fits p -> Z.of_nat (length ps) + 1 < n -> 0 <= wrong < 2 ^ 32 -> wrong <> Z.of_nat (length p) ->
  find_block (frecords o ps ++ marker o p ++ p ++ bytes_of o 4 wrong ++ rest) 1 (is_be o) block n = GErr (SysExit SomethingWrong).
Proof.
  intros HF Hp Hn Hw Hne. destruct (find_after o block n ps (marker o p ++ p ++ bytes_of o 4 wrong ++ rest) HF ltac:(lia)) as (fuel & E & _). rewrite E. clear E. set (pre := frecords o ps). set (bs := pre ++ marker o p ++ p ++ bytes_of o 4 wrong ++ rest).
  cbn [find_loop]. assert (L : (length pre < length bs)%nat) by (unfold bs; rewrite !app_length, marker_length; lia).
  apply Nat.ltb_lt in L. rewrite L. change (1 =? 2) with false. cbv iota zeta.
  rewrite (word_at_bytes bs (length pre) 4 o (Z.of_nat (length p)) pre (p ++ bytes_of o 4 wrong ++ rest)) by trivial. cbn [gbind]. fold (marker o p). rewrite (swp_marker o p Hp).
  destruct (Z.eqb_spec (Z.of_nat (length ps) + 1) n); [lia|]. rewrite Nat2Z.id.
  rewrite (word_at_bytes bs (length pre + 4 + length p) 4 o wrong (pre ++ marker o p ++ p) rest); [|unfold bs; now rewrite <- !app_assoc | rewrite !app_length, marker_length; lia].
  cbn [gbind]. rewrite swp_bytes by (change (256 ^ Z.of_nat 4) with (2 ^ 32); lia). destruct (Z.eqb_spec (Z.of_nat (length p)) wrong); [congruence | reflexivity].
Qed.
Print Assumptions C56_corrupt.
(** The second marker of the record asked for is not looked at: a wrong one goes unnoticed. *)
Theorem C56_refuted o block ps p wrong rest : Forall fits ps -> fits p ->
  find_block (frecords o ps ++ marker o p ++ p ++ bytes_of o 4 wrong ++ rest) 1 (is_be o) block (Z.of_nat (length ps) + 1) = GOk ((length (frecords o ps) + 4)%nat, Z.of_nat (length p)).
Proof. intros HF Hp. destruct (find_after o block (Z.of_nat (length ps) + 1) ps (marker o p ++ p ++ bytes_of o 4 wrong ++ rest) HF ltac:(lia)) as (fuel & E & _). rewrite E. now apply find_here. Qed.
Print Assumptions C56_refuted.
(** The search ends for every file whatsoever. *)
Lemma find_loop_ends fuel bs format swap block n pos cur : (length bs < pos + fuel)%nat -> (0 < fuel)%nat -> find_loop fuel bs format swap block n pos cur <> GErr OutOfFuel.
Proof.
  revert pos cur. induction fuel as [|fuel IH]; intros pos cur H H0; [lia|]. cbn [find_loop]. destruct (Nat.ltb_spec pos (length bs)) as [L|L]; [|discriminate].
  set (pos1 := if format =? 2 then (pos + 16)%nat else pos). assert (pos <= pos1)%nat by (unfold pos1; destruct (format =? 2); lia). clearbody pos1. set (found := if format =? 2 then _ else _). clearbody found.
  cbv zeta. unfold word_at at 1. destruct (Nat.eqb _ 4); cbn [gbind]; [|discriminate]. destruct found; [discriminate|]. unfold word_at. destruct (Nat.eqb _ 4); cbn [gbind]; [|discriminate].
  match goal with |- context [if ?b then _ else _] => destruct b end; [|discriminate]. apply IH; lia.
Qed.
Theorem C56_ends bs format swap block n : find_block bs format swap block n <> GErr OutOfFuel.
Proof. apply find_loop_ends; lia. Qed.
Print Assumptions C56_ends.
Example C56_ex : find_block (frecords BE [[1; 2; 3]; [4; 5]; []]) 1 true "VEL " 2 = GOk (15%nat, 2) /\ find_block (frecords BE [[1; 2; 3]; [4; 5]; []]) 1 true "ID  " 4 = GErr (SysExit BlockNotFound).
Proof. split; reflexivity. Qed.

(** ** C57 *)
(** No block of a format 2 file is ever found. *)
Lemma loop2_never fuel bs swap block n pos cur r : find_loop fuel bs 2 swap block n pos cur <> GOk r.
Proof.
  revert pos cur. induction fuel as [|fuel IH]; intros pos cur; [discriminate|]. cbn [find_loop]. destruct (Nat.ltb pos (length bs)); [|discriminate]. change (2 =? 2) with true. cbv iota zeta. unfold str_eq_bytes.
  unfold word_at at 1. destruct (Nat.eqb _ 4); cbn [gbind]; [|discriminate]. unfold word_at. destruct (Nat.eqb _ 4); cbn [gbind]; [|discriminate]. match goal with |- context [if ?b then _ else _] => destruct b end; [apply IH | discriminate].
Qed.
Theorem C57_refuted bs swap block n r : find_block bs 2 swap block n <> GOk r.
Proof. apply loop2_never. Qed.
Print Assumptions C57_refuted.
Definition named_ok (r : list Z * Z * list Z) : Prop := let '(name, _, payload) := r in length name = 4%nat /\ fits payload.
Definition nrecords (o : order) (rs : list (list Z * Z * list Z)) : list Z := concat (map (named o) rs).
Lemma named_length o name next p : length name = 4%nat -> length (named o (name, next, p)) = (24 + length p)%nat.
Proof. intros H. unfold named. rewrite !app_length, frecord_length, !bytes_of_length, H. lia. Qed.
(** A well-formed file is read to its end and the block reported as missing, present or not. *)
Theorem C57_partial o block n rs : Forall named_ok rs -> find_block (nrecords o rs) 2 (is_be o) block n = GErr (SysExit BlockNotFound).
Proof.
  intros HF. unfold find_block.
  assert (G : forall rs done fuel cur, Forall named_ok rs -> (length (nrecords o rs) < fuel)%nat ->
    find_loop fuel (done ++ nrecords o rs) 2 (is_be o) block n (length done) cur = GErr (SysExit BlockNotFound)).
  { clear. induction rs as [|[[name next] p] rs IH]; intros done fuel cur HF Hfuel; (destruct fuel as [|fuel]; [lia|]).
    - cbn [find_loop]. simpl. rewrite app_nil_r. now rewrite Nat.ltb_irrefl.
    - inversion HF as [|? ? HNP HF']; subst. destruct HNP as [Hname Hp]. change (nrecords o ((name, next, p) :: rs)) with (named o (name, next, p) ++ nrecords o rs) in *. set (bs := done ++ named o (name, next, p) ++ nrecords o rs). set (rest := nrecords o rs) in *.
      rewrite app_length, named_length in Hfuel by exact Hname. cbn [find_loop]. assert (L : (length done < length bs)%nat) by (unfold bs; rewrite !app_length, named_length by exact Hname; lia).
      apply Nat.ltb_lt in L. rewrite L. change (2 =? 2) with true. cbv iota zeta. unfold str_eq_bytes.
      set (pre := done ++ bytes_of o 4 8 ++ name ++ bytes_of o 4 next ++ bytes_of o 4 8).
      assert (Epre : length pre = (length done + 16)%nat) by (unfold pre; rewrite !app_length, !bytes_of_length, Hname; lia).
      assert (Ebs : bs = pre ++ frecord o p ++ rest) by (unfold bs, pre, named; now rewrite <- !app_assoc).
      rewrite (word_at_bytes bs (length done + 16) 4 o (Z.of_nat (length p)) pre (p ++ marker o p ++ rest)); [|rewrite Ebs; unfold frecord; now rewrite <- !app_assoc | lia]. cbn [gbind]. fold (marker o p). rewrite (swp_marker o p Hp), Nat2Z.id.
      rewrite (word_at_bytes bs (length done + 16 + 4 + length p) 4 o (Z.of_nat (length p)) (pre ++ marker o p ++ p) rest); [|rewrite Ebs; unfold frecord; now rewrite <- !app_assoc | rewrite !app_length, marker_length; lia].
      cbn [gbind]. fold (marker o p). rewrite (swp_marker o p Hp), Z.eqb_refl.
      replace (length done + 16 + 4 + length p + 4)%nat with (length (done ++ named o (name, next, p))) by (rewrite app_length, named_length by exact Hname; lia).
      unfold bs. rewrite app_assoc. apply IH; [exact HF' | unfold rest in *; lia]. }
  apply (G rs [] _ 1 HF). lia.
Qed.
Print Assumptions C57_partial.
(** "POS " is there and is not found. *)
Example C57_ex : find_block (nrecords LE [(HEAD, 264, [0]); ([80; 79; 83; 32], 10, [1; 2])]) 2 false "POS " 2 = GErr (SysExit BlockNotFound).
Proof. reflexivity. Qed.

(** ** C58 *)
(** What the reader should return. *)
Definition as_read (format : Z) (o : order) (h : head) : header :=
  mkHeader format (is_be o) (npart h) (massarr h) (time h) (redshift h) (sfr h) (feedback h) (nall h) (cooling h) (filenum h) (boxsize h) (omega_m h) (omega_l h) (hubble h).
Lemma s32_mod v : int32 v -> s32 (v mod 2 ^ 32) = v.
Proof.
  unfold int32, s32. change (2 ^ 31) with 2147483648. change (2 ^ 32) with 4294967296. intros H. destruct (Z.ltb_spec (v mod 4294967296) 2147483648) as [L|L].
  - destruct (Z_lt_le_dec v 0) as [N|N]; [|now apply Z.mod_small; lia]. rewrite <- (Z.mod_add v 1), Z.mod_small in L by lia. lia.
  - destruct (Z_lt_le_dec v 0) as [N|N]; [|rewrite Z.mod_small in L by lia; lia]. rewrite <- (Z.mod_add v 1), Z.mod_small by lia. lia.
Qed.
Definition enc (o : order) (f : nat * Z) : list Z := bytes_of o (fst f) (snd f).
Definition width (fs : list (nat * Z)) : nat := fold_right (fun f s => (fst f + s)%nat) 0%nat fs.
Lemma enc_length o fs : length (concat (map (enc o) fs)) = width fs.
Proof. induction fs as [|f fs IH]; [reflexivity|]. simpl. rewrite app_length, IH. unfold enc. now rewrite bytes_of_length. Qed.
(** The word behind the fields fs1. *)
Lemma field_at o bs pre fs1 k v fs2 post pos : bs = pre ++ concat (map (enc o) (fs1 ++ (k, v) :: fs2)) ++ post -> pos = (length pre + width fs1)%nat -> word_at bs pos k = GOk (le (bytes_of o k v)).
Proof.
  intros -> ->. rewrite <- (enc_length o fs1), <- app_length. rewrite map_app, concat_app. cbn [map concat]. unfold enc at 2. cbn [fst snd].
  apply (word_at_bytes _ _ k o v (pre ++ concat (map (enc o) fs1)) (concat (map (enc o) fs2) ++ post)); [now rewrite <- !app_assoc | reflexivity].
Qed.
Lemma words_at_fields o k : forall vs bs pre fs1 fs2 post pos, bs = pre ++ concat (map (enc o) (fs1 ++ map (fun v => (k, v)) vs ++ fs2)) ++ post -> pos = (length pre + width fs1)%nat ->
  words_at bs pos k (length vs) = map (fun v => le (bytes_of o k v)) vs.
Proof.
  induction vs as [|v vs IH]; intros bs pre fs1 fs2 post pos Eb Ep; [reflexivity|]. cbn [length words_at map]. rewrite (field_at o bs pre fs1 k v (map (fun v => (k, v)) vs ++ fs2) post pos Eb Ep). f_equal.
  apply (IH bs pre (fs1 ++ [(k, v)]) fs2 post); [rewrite Eb; now rewrite <- app_assoc|]. rewrite Ep. clear. induction fs1 as [|f fs1 IH]; simpl in *; lia.
Qed.
Lemma swp32 o v : uint32 v -> swp (is_be o) 4 (le (bytes_of o 4 v)) = v. Proof. exact (swp_bytes o 4 v). Qed.
Lemma swp64 o v : uint64 v -> swp (is_be o) 8 (le (bytes_of o 8 v)) = v. Proof. exact (swp_bytes o 8 v). Qed.
Lemma swp_int o v : int32 v -> s32 (swp (is_be o) 4 (le (bytes_of o 4 (v mod 2 ^ 32)))) = v.
Proof. intros H. rewrite swp32; [now apply s32_mod|]. unfold uint32. apply Z.mod_pos_bound. reflexivity. Qed.
Lemma detect_value o v f : v = 8 /\ f = 2 \/ v = 256 /\ f = 1 -> detect (le (bytes_of o 4 v)) = GOk (f, is_be o).
Proof. intros [[-> ->]|[-> ->]]; destruct o; reflexivity. Qed.
Lemma width_map {A} k (g : A -> Z) l : width (map (fun v => (k, g v)) l) = (k * length l)%nat.
Proof. induction l as [|x l IH]; cbn [map length]; [unfold width; simpl; lia|]. change (width ((k, g x) :: map (fun v => (k, g v)) l)) with (k + width (map (fun v => (k, g v)) l))%nat. rewrite IH. lia. Qed.
Lemma width_app a b : width (a ++ b) = (width a + width b)%nat.
Proof. induction a as [|f a IH]; [reflexivity|]. cbn [app]. change (width (f :: a ++ b)) with (fst f + width (a ++ b))%nat. change (width (f :: a)) with (fst f + width a)%nat. rewrite IH. lia. Qed.
Lemma parse_fields format o h bs pre post : head_ok h -> word_at bs 0 4 = GOk (le (bytes_of o 4 (if format =? 2 then 8 else 256))) -> format = 1 \/ format = 2 ->
  bs = pre ++ head_bytes o h ++ post -> length pre = (if format =? 2 then 20%nat else 4%nat) -> parse_header bs = GOk (as_read format o h).
Proof.
  intros (L1 & L2 & L3 & L4 & B1 & B2 & B3 & H1 & H2 & H3 & H4 & H5 & H6 & H7 & H8 & H9 & H10) E0 HF Ebs Lpre. unfold parse_header. rewrite E0. cbn [gbind].
  rewrite (detect_value o _ format) by (destruct HF as [-> | ->]; [right | left]; split; reflexivity). cbn [gbind]. rewrite <- Lpre.
  assert (Eb : bs = pre ++ concat (map (enc o) (fields h)) ++ (padding h ++ post)) by (rewrite Ebs; unfold head_bytes; now rewrite <- !app_assoc). clear Ebs. unfold fields in Eb.
  set (A := map (fun v => (4%nat, v mod 2 ^ 32)) (npart h)) in *. set (B := map (fun v => (8%nat, v)) (massarr h)) in *. set (C := map (fun v => (4%nat, v)) (nall h)) in *.
  assert (WA : width A = 24%nat) by (unfold A; rewrite (width_map 4 (fun v => v mod 2 ^ 32)), L1; reflexivity).
  assert (WB : width B = 48%nat) by (unfold B; rewrite (width_map 8 (fun v => v)), L2; reflexivity).
  assert (WC : width C = 24%nat) by (unfold C; rewrite (width_map 4 (fun v => v)), L3; reflexivity).
  cbv zeta.
  assert (EA : words_at bs (length pre) 4 6 = map (fun v => le (bytes_of o 4 v)) (map (fun v => v mod 2 ^ 32) (npart h))).
  { pose proof (fun fs2 post => words_at_fields o 4 (map (fun v => v mod 2 ^ 32) (npart h)) bs pre [] fs2 post (length pre)) as W. rewrite map_length, L1 in W. eapply W; [|simpl; lia]. rewrite Eb. unfold A. rewrite map_map. reflexivity. }
  assert (EB : words_at bs (length pre + 24) 8 6 = map (fun v => le (bytes_of o 8 v)) (massarr h)).
  { pose proof (fun fs2 post => words_at_fields o 8 (massarr h) bs pre A fs2 post (length pre + 24)%nat) as W. rewrite L2 in W. eapply W; [rewrite Eb; reflexivity | lia]. }
  assert (EC : words_at bs (length pre + 96) 4 6 = map (fun v => le (bytes_of o 4 v)) (nall h)).
  { pose proof (fun fs2 post => words_at_fields o 4 (nall h) bs pre (A ++ B ++ [(8%nat, time h); (8%nat, redshift h); (4%nat, sfr h mod 2 ^ 32); (4%nat, feedback h mod 2 ^ 32)]) fs2 post (length pre + 96)%nat) as W. rewrite L3 in W. eapply W; [rewrite Eb; rewrite <- !app_assoc; reflexivity | rewrite !width_app, WA, WB; simpl width; lia]. }
  set (T1 := [(8%nat, time h); (8%nat, redshift h); (4%nat, sfr h mod 2 ^ 32); (4%nat, feedback h mod 2 ^ 32)]) in *.
  set (T2 := [(4%nat, cooling h mod 2 ^ 32); (4%nat, filenum h mod 2 ^ 32); (8%nat, boxsize h); (8%nat, omega_m h); (8%nat, omega_l h); (8%nat, hubble h)]) in *.
  assert (SP : forall (l : list (nat * Z)) i x, nth_error l i = Some x -> l = firstn i l ++ x :: skipn (S i) l).
  { intros l i x E. destruct (nth_error_split l i E) as (l1 & l2 & -> & <-). rewrite firstn_app, firstn_all, Nat.sub_diag. cbn [firstn]. rewrite app_nil_r, skipn_app, skipn_all2, app_nil_l by lia. replace (S (length l1) - length l1)%nat with 1%nat by lia. reflexivity. }
  assert (F1 : forall i k v off, nth_error T1 i = Some (k, v) -> off = (72 + width (firstn i T1))%nat -> word_at bs (length pre + off) k = GOk (le (bytes_of o k v))).
  { intros i k v off E ->. apply (field_at o bs pre (A ++ B ++ firstn i T1) k v (skipn (S i) T1 ++ C ++ T2) (padding h ++ post)); [|rewrite !width_app; lia].
    rewrite Eb. rewrite (SP T1 i (k, v) E) at 1. rewrite <- !app_assoc. reflexivity. }
  assert (F2 : forall i k v off, nth_error T2 i = Some (k, v) -> off = (120 + width (firstn i T2))%nat -> word_at bs (length pre + off) k = GOk (le (bytes_of o k v))).
  { intros i k v off E ->. apply (field_at o bs pre (A ++ B ++ T1 ++ C ++ firstn i T2) k v (skipn (S i) T2) (padding h ++ post)); [|rewrite !width_app, WA, WB, WC; simpl width; lia].
    rewrite Eb. rewrite (SP T2 i (k, v) E) at 1. rewrite <- !app_assoc. reflexivity. }
  rewrite (F1 0%nat 8%nat (time h)) by reflexivity. cbn [gbind]. rewrite (F1 1%nat 8%nat (redshift h)) by reflexivity. cbn [gbind]. rewrite (F1 2%nat 4%nat (sfr h mod 2 ^ 32)) by reflexivity. cbn [gbind]. rewrite (F1 3%nat 4%nat (feedback h mod 2 ^ 32)) by reflexivity. cbn [gbind].
  rewrite (F2 0%nat 4%nat (cooling h mod 2 ^ 32)) by reflexivity. cbn [gbind]. rewrite (F2 1%nat 4%nat (filenum h mod 2 ^ 32)) by reflexivity. cbn [gbind].
  rewrite (F2 2%nat 8%nat (boxsize h)) by reflexivity. cbn [gbind]. rewrite (F2 3%nat 8%nat (omega_m h)) by reflexivity. cbn [gbind]. rewrite (F2 4%nat 8%nat (omega_l h)) by reflexivity. cbn [gbind]. rewrite (F2 5%nat 8%nat (hubble h)) by reflexivity. cbn [gbind].
  rewrite EA, EB, EC, !map_map. unfold as_read. rewrite !swp64, !swp_int by assumption. f_equal.
  assert (M1 : map (fun x => s32 (swp (is_be o) 4 (le (bytes_of o 4 (x mod 2 ^ 32))))) (npart h) = npart h) by (rewrite <- map_id; apply map_ext_in; intros v Hv; apply swp_int; rewrite Forall_forall in B1; now apply B1).
  assert (M2 : map (fun x => swp (is_be o) 8 (le (bytes_of o 8 x))) (massarr h) = massarr h) by (rewrite <- map_id; apply map_ext_in; intros v Hv; apply swp64; rewrite Forall_forall in B2; now apply B2).
  assert (M3 : map (fun x => swp (is_be o) 4 (le (bytes_of o 4 x))) (nall h) = nall h) by (rewrite <- map_id; apply map_ext_in; intros v Hv; apply swp32; rewrite Forall_forall in B3; now apply B3).
  now rewrite M1, M2, M3.
Qed.
Lemma head_bytes_length o h : head_ok h -> length (head_bytes o h) = 256%nat.
Proof.
  intros (L1 & L2 & L3 & L4 & _). unfold head_bytes. rewrite app_length, L4. replace (length (concat (map (fun f => bytes_of o (fst f) (snd f)) (fields h)))) with (width (fields h)) by (symmetry; apply enc_length).
  unfold fields. rewrite !width_app, (width_map 4 (fun v => v mod 2 ^ 32)), (width_map 8 (fun v => v)), (width_map 4 (fun v => v)), L1, L2, L3. reflexivity.
Qed.
(** Format and byte order are recognised and every number of the header comes back, whatever follows. *)
Theorem C58 o h rest : head_ok h -> parse_header (start1 o h ++ rest) = GOk (as_read 1 o h) /\ parse_header (start2 o h ++ rest) = GOk (as_read 2 o h).
Proof.
  intros H. pose proof (head_bytes_length o h H) as L. split.
  - apply (parse_fields 1 o h _ (marker o (head_bytes o h)) (marker o (head_bytes o h) ++ rest) H); [|now left | unfold start1, frecord; now rewrite <- !app_assoc | apply marker_length].
    unfold start1, frecord, marker. rewrite L, <- !app_assoc. now apply (word_at_bytes _ _ 4 o _ [] _ eq_refl).
  - apply (parse_fields 2 o h _ (bytes_of o 4 8 ++ HEAD ++ bytes_of o 4 264 ++ bytes_of o 4 8 ++ marker o (head_bytes o h)) (marker o (head_bytes o h) ++ rest) H); [|now right | unfold start2, named, frecord; now rewrite <- !app_assoc | now rewrite !app_length, marker_length, !bytes_of_length].
    unfold start2, named. rewrite <- !app_assoc. now apply (word_at_bytes _ _ 4 o _ [] _ eq_refl).
Qed.
Print Assumptions C58.
(** Anything else at the beginning is rejected. *)
Theorem C58_reject b0 b1 b2 b3 rest : Forall byte_ok [b0; b1; b2; b3] -> (forall o v, v = 8 \/ v = 256 -> [b0; b1; b2; b3] <> bytes_of o 4 v) -> parse_header (b0 :: b1 :: b2 :: b3 :: rest) = GErr (SysExit IncorrectFormat).
Proof.
  intros HB HN. unfold parse_header. rewrite (word_at_app [] [b0; b1; b2; b3] rest 4 eq_refl : word_at (b0 :: b1 :: b2 :: b3 :: rest) 0 4 = _). cbn [gbind].
  set (l := [b0; b1; b2; b3]) in *. unfold detect. assert (SG : forall w v, (v = 8 \/ v = 256) -> s32 w = v -> 0 <= w < 2 ^ 32 -> w = v).
  { intros w v Hv. unfold s32. destruct (Z.ltb_spec w (2 ^ 31)); [trivial|]. change (2 ^ 31) with 2147483648 in *. change (2 ^ 32) with 4294967296. lia. }
  assert (LB : forall l, Forall byte_ok l -> 0 <= le l < 256 ^ Z.of_nat (length l)).
  { clear. induction 1 as [|b l Hb H IH]; [simpl; lia|]. cbn [le length]. rewrite Nat2Z.inj_succ, Z.pow_succ_r by lia. unfold byte_ok in Hb. lia. }
  assert (E1 : forall v, le l = v -> l = bytes_of LE 4 v) by (intros v <-; rewrite <- to_le_spec; symmetry; now apply (to_le_le l)).
  assert (HR : Forall byte_ok (rev l)) by now apply Forall_rev.
  assert (BS : byteswap 4 (le l) = le (rev l)) by (unfold byteswap; rewrite (to_le_le l HB : to_le 4 (le l) = l); reflexivity).
  assert (E2 : forall v, le (rev l) = v -> l = bytes_of BE 4 v) by (intros v <-; rewrite be_rev, <- to_le_spec, (to_le_le (rev l) HR : to_le 4 (le (rev l)) = rev l); now rewrite rev_involutive).
  pose proof (LB l HB) as R1. pose proof (LB (rev l) HR) as R2. change (256 ^ Z.of_nat (length l)) with (2 ^ 32) in R1. change (256 ^ Z.of_nat (length (rev l))) with (2 ^ 32) in R2.
  rewrite BS. cbv zeta. set (w := le l) in *. set (w' := le (rev l)) in *.
  destruct (Z.eqb_spec (s32 w) 8) as [Q|_]; [exfalso; apply (HN LE 8); [now left | apply E1; apply SG; auto]|].
  destruct (Z.eqb_spec (s32 w) 256) as [Q|_]; [exfalso; apply (HN LE 256); [now right | apply E1; apply SG; auto]|].
  destruct (Z.eqb_spec (s32 w') 8) as [Q|_]; [exfalso; apply (HN BE 8); [now left | apply E2; apply SG; auto]|].
  destruct (Z.eqb_spec (s32 w') 256) as [Q|_]; [exfalso; apply (HN BE 256); [now right | apply E2; apply SG; auto]|]. reflexivity.
Qed.
Print Assumptions C58_reject.
Definition head1 : head := mkHead [0; 5; 0; 0; 2; 0] [0; 1; 0; 0; 0; 0] 4607182418800017408 0 0 (-1) [0; 50; 0; 0; 20; 0] 1 10 7 8 9 10 (repeat 0 96).
Lemma head1_ok : head_ok head1.
Proof. unfold head_ok, int32, uint32, uint64. repeat split; try reflexivity; try (cbn; lia); repeat constructor; try (cbn; lia). Qed.
Example C58_ex : parse_header (start2 BE head1 ++ [1; 2; 3]) = GOk (as_read 2 BE head1).
Proof. apply C58, head1_ok. Qed.
Example C58_reject_ex : parse_header [1; 1; 0; 0; 9] = GErr (SysExit IncorrectFormat).
Proof. reflexivity. Qed.
