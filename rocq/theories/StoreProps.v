(** Theorems C37 and C38: dumped shape catalogues. *)
From Coq Require Import List Reals ZArith Lra Lia Bool Arith.
From Verif Require Import XR StoreModel.
Import ListNotations.

(** ** Specification *)
(** A catalogue of n objects and r radii. *)
Definition has (dims : list nat) (a : nd) : Prop := shape a = dims /\ wf a.
Definition wf_cat (n r : nat) (c : cat) : Prop :=
  has [n; r] (c_d c) /\ has [n; r] (c_q c) /\ has [n; r] (c_s c) /\
  has [n; r; 3%nat] (c_minor c) /\ has [n; r; 3%nat] (c_inter c) /\ has [n; r; 3%nat] (c_major c) /\
  has [n; 3%nat] (c_cent c) /\ has [n] (c_m c).

(** The same array with every number printed and parsed, in units [k] for dimensional ones. *)
Definition reread (rnd : xr -> xr) (a : nd) : nd := mkA (shape a) (map rnd (data a)).
Definition printed (rnd : xr -> xr) (k : R) (a : nd) : nd :=
  mkA (shape a) (map (fun x => xdiv (rnd (xmul x (Fin k))) (Fin k)) (data a)).
Definition back (rnd : xr -> xr) (l m : R) (c : cat) : cat :=
  mkCat (printed rnd l (c_d c)) (reread rnd (c_q c)) (reread rnd (c_s c))
        (reread rnd (c_minor c)) (reread rnd (c_inter c)) (reread rnd (c_major c))
        (printed rnd l (c_cent c)) (printed rnd m (c_m c)).

(** ** Text files *)
Lemma chunk_length n m : forall l, length (chunk n m l) = n.
Proof. induction n as [|n IH]; intros l; cbn; auto. Qed.
Lemma chunk_rows n m : forall l, length l = (n * m)%nat -> Forall (fun r => length r = m) (chunk n m l).
Proof.
  induction n as [|n IH]; intros l Hl; cbn; constructor.
  - rewrite firstn_length. lia.
  - apply IH. rewrite skipn_length. lia.
Qed.
Lemma chunk_concat n m : forall l, length l = (n * m)%nat -> concat (chunk n m l) = l.
Proof.
  induction n as [|n IH]; intros l Hl; cbn.
  - destruct l; [reflexivity|discriminate].
  - rewrite IH by (rewrite skipn_length; lia). apply firstn_skipn.
Qed.
Lemma filter_all {X} (f : X -> bool) l : Forall (fun x => f x = true) l -> filter f l = l.
Proof. induction 1 as [|x l H _ IH]; cbn; [reflexivity|]. rewrite H, IH. reflexivity. Qed.

Definition dims1 (n m : nat) : list nat := filter (fun k => negb (k =? 1)%nat) [n; m].
Lemma load_chunk n m l : length l = (n * m)%nat -> (1 <= n)%nat -> (1 <= m)%nat ->
  loadtxt (chunk n m l) = mkA (dims1 n m) l.
Proof.
  intros Hl Hn Hm. unfold loadtxt. pose proof (chunk_rows n m l Hl) as F.
  rewrite filter_all.
  - pose proof (chunk_length n m l) as E. pose proof (chunk_concat n m l Hl) as C.
    destruct (chunk n m l) as [|r rs]; [cbn in E; lia|]. apply Forall_inv in F.
    rewrite C, E, F. reflexivity.
  - eapply Forall_impl; [|exact F]. intros [|x r] H; [cbn in H; lia|reflexivity].
Qed.

Lemma Ok_inj {X} (x y : X) : Ok x = Ok y -> x = y.
Proof. congruence. Qed.

Section Proofs.
  Variables (rnd : xr -> xr) (l m : R).

  Lemma flat2_ok n r a : (1 <= n)%nat -> has [n; r; 3%nat] a -> flat2 a = Ok (mkA [n; (r * 3)%nat] (data a)).
  Proof.
    intros Hn [E W]. unfold flat2, shape0. rewrite E. cbn [bind]. unfold reshape_infer.
    unfold wf in W. rewrite E in W. cbn [size fold_right] in *.
    replace (n * 1 * 1)%nat with n by lia. rewrite W. replace (n * (r * (3 * 1)))%nat with ((r * 3) * n)%nat by lia.
    destruct (Nat.eqb_spec n 0); [lia|]. rewrite Nat.mod_mul, Nat.div_mul by lia. reflexivity.
  Qed.

  (** What the files contain. *)
  Lemma dump_ok n r c : (1 <= n)%nat -> wf_cat n r c ->
    dump rnd l m c = Ok (mkF (chunk n r (map rnd (data (scale l (c_d c))))) (chunk n r (map rnd (data (c_q c))))
      (chunk n r (map rnd (data (c_s c)))) (chunk n (r * 3) (map rnd (data (c_minor c))))
      (chunk n (r * 3) (map rnd (data (c_inter c)))) (chunk n (r * 3) (map rnd (data (c_major c))))
      (chunk n 1 (map rnd (data (scale m (c_m c))))) (chunk n 3 (map rnd (data (scale l (c_cent c)))))).
  Proof.
    intros Hn ([Ed Wd] & [Eq Wq] & [Es Ws] & Ha & Hb & He & [Ec Wc] & [Em Wm]).
    unfold dump, shape0, scale. cbn [shape data]. rewrite Ed. cbn [bind].
    destruct (Nat.eqb_spec n 0); [lia|].
    rewrite (flat2_ok n r), (flat2_ok n r), (flat2_ok n r) by auto. cbn [bind].
    unfold savetxt. cbn [shape data bind]. rewrite Eq, Es, Em, Ec. reflexivity.
  Qed.

  Definition twice (k : R) (a : nd) : list xr := map (fun x => xdiv x (Fin k)) (map rnd (data (scale k a))).
  Lemma twice_printed k a : mkA (shape a) (twice k a) = printed rnd k a.
  Proof. unfold twice, printed, scale. cbn [data]. rewrite !map_map. reflexivity. Qed.

  Lemma infer_ok pre post k L : (1 <= size pre * size post)%nat -> length L = (k * (size pre * size post))%nat -> forall sh,
    reshape_infer pre post (mkA sh L) = Ok (mkA (pre ++ [k] ++ post) L).
  Proof.
    intros Hp HL sh. unfold reshape_infer. cbn [data]. destruct (Nat.eqb_spec (size pre * size post) 0); [lia|].
    rewrite HL, Nat.mod_mul, Nat.div_mul by lia. reflexivity.
  Qed.

  Lemma lens n r c : wf_cat n r c ->
    length (map rnd (data (scale l (c_d c)))) = (n * r)%nat /\ length (map rnd (data (c_q c))) = (n * r)%nat /\
    length (map rnd (data (c_s c))) = (n * r)%nat /\ length (map rnd (data (c_minor c))) = (n * (r * 3))%nat /\
    length (map rnd (data (c_inter c))) = (n * (r * 3))%nat /\ length (map rnd (data (c_major c))) = (n * (r * 3))%nat /\
    length (map rnd (data (scale m (c_m c)))) = (n * 1)%nat /\ length (map rnd (data (scale l (c_cent c)))) = (n * 3)%nat.
  Proof.
    intros ([Ed Wd] & [Eq Wq] & [Es Ws] & [Ea Wa] & [Eb Wb] & [Ee We] & [Ec Wc] & [Em Wm]).
    unfold wf, scale in *. cbn [data]. rewrite !map_length.
    rewrite Ed in Wd. rewrite Eq in Wq. rewrite Es in Ws. rewrite Ea in Wa. rewrite Eb in Wb. rewrite Ee in We.
    rewrite Ec in Wc. rewrite Em in Wm. cbn [size fold_right] in *. lia.
  Qed.

  Lemma dims1_ge n k : (2 <= n)%nat -> (2 <= k)%nat -> dims1 n k = [n; k].
  Proof. intros. unfold dims1. cbn [filter]. destruct (Nat.eqb_spec n 1); [lia|]. destruct (Nat.eqb_spec k 1); [lia|]. reflexivity. Qed.
  Lemma dims1_row k : (2 <= k)%nat -> dims1 1 k = [k].
  Proof. intros. unfold dims1. cbn [filter]. destruct (Nat.eqb_spec k 1); [lia|]. reflexivity. Qed.
  Lemma dims1_col n : (2 <= n)%nat -> dims1 n 1 = [n].
  Proof. intros. unfold dims1. cbn [filter]. destruct (Nat.eqb_spec n 1); [lia|]. reflexivity. Qed.
  Lemma dims1_one : dims1 1 1 = [].
  Proof. reflexivity. Qed.

  Ltac lens_of W := destruct (lens _ _ _ W) as (Ld & Lq & Ls & La & Lb & Le & Lm & Lc).
  Ltac loads := rewrite !load_chunk by lia.

  (** The three axes arrays of at least two objects. *)
  Lemma split3_ok n r L : (2 <= n)%nat -> (1 <= r)%nat -> length L = (n * (r * 3))%nat ->
    split3 (mkA (dims1 n (r * 3)) L) = Ok (mkA [n; r; 3%nat] L).
  Proof.
    intros Hn Hr HL. rewrite dims1_ge by lia. unfold split3, shape0. cbn [shape bind].
    apply (infer_ok [n] [3%nat] r); cbn [size fold_right]; lia.
  Qed.
  Lemma axes1_ok r L : (1 <= r)%nat -> length L = (1 * (r * 3))%nat ->
    reshape_infer [1%nat] [3%nat] (mkA (dims1 1 (r * 3)) L) = Ok (mkA [1%nat; r; 3%nat] L).
  Proof. intros Hr HL. apply (infer_ok [1%nat] [3%nat] r); cbn [size fold_right]; lia. Qed.

  (** All fields equal to those of [back]. *)
  Lemma back_fields n r c d q s a b e ct ms : wf_cat n r c ->
    d = mkA [n; r] (twice l (c_d c)) -> q = mkA [n; r] (map rnd (data (c_q c))) -> s = mkA [n; r] (map rnd (data (c_s c))) ->
    a = mkA [n; r; 3%nat] (map rnd (data (c_minor c))) -> b = mkA [n; r; 3%nat] (map rnd (data (c_inter c))) ->
    e = mkA [n; r; 3%nat] (map rnd (data (c_major c))) -> ct = mkA [n; 3%nat] (twice l (c_cent c)) -> ms = mkA [n] (twice m (c_m c)) ->
    Ok (mkCat d q s a b e ct ms) = Ok (back rnd l m c).
  Proof.
    intros ([Ed _] & [Eq _] & [Es _] & [Ea _] & [Eb _] & [Ee _] & [Ec _] & [Em _]) -> -> -> -> -> -> -> ->.
    unfold back, reread. rewrite <- !twice_printed, Ed, Eq, Es, Ea, Eb, Ee, Ec, Em. reflexivity.
  Qed.

  Lemma twice_length k a : length (twice k a) = length (map rnd (data (scale k a))).
  Proof. unfold twice. rewrite map_length. reflexivity. Qed.

  Lemma load_local_ok n r c f : (1 <= n)%nat -> (2 <= r)%nat -> wf_cat n r c -> dump rnd l m c = Ok f ->
    load_local l m f = Ok (back rnd l m c).
  Proof.
    intros Hn Hr W D. rewrite (dump_ok n r) in D by auto. apply Ok_inj in D. subst f. lens_of W.
    unfold load_local. cbn [f_d f_q f_s f_minor f_inter f_major f_m f_cent]. loads.
    assert (n = 1%nat \/ (2 <= n)%nat) as [-> |Hn2] by lia.
    - rewrite dims1_row, dims1_one by lia. rewrite (axes1_ok r), (axes1_ok r), (axes1_ok r) by lia.
      rewrite dims1_row by lia. unfold shape0, unscale. cbn [shape data bind length].
      destruct (Nat.eqb_spec r 0); [lia|]. cbn [negb andb Nat.eqb].
      unfold reshape. cbn [data]. fold (twice l (c_cent c)). rewrite twice_length, Lc. cbn [Nat.mul Nat.add Nat.eqb size fold_right bind].
      fold (twice l (c_d c)). rewrite (infer_ok [1%nat] [] r) by (cbn [size fold_right]; rewrite ?twice_length; lia). cbn [bind].
      rewrite (infer_ok [1%nat] [] r) by (cbn [size fold_right]; lia). cbn [bind]. rewrite (infer_ok [1%nat] [] r) by (cbn [size fold_right]; lia). cbn [bind app].
      apply (back_fields 1 r); auto.
    - rewrite (split3_ok n r), (split3_ok n r), (split3_ok n r) by lia. rewrite !dims1_ge, dims1_col by lia.
      unfold shape0, unscale. cbn [shape data bind length]. destruct (Nat.eqb_spec n 0); [lia|]. cbn [negb andb Nat.eqb].
      apply (back_fields n r); auto.
  Qed.

  Lemma load_global_ok n c f : (1 <= n)%nat -> wf_cat n 1 c -> dump rnd l m c = Ok f ->
    load_global l m f = Ok (back rnd l m c).
  Proof.
    intros Hn W D. rewrite (dump_ok n 1) in D by auto. apply Ok_inj in D. subst f. lens_of W.
    unfold load_global. cbn [f_d f_q f_s f_minor f_inter f_major f_m f_cent]. loads.
    assert (n = 1%nat \/ (2 <= n)%nat) as [-> |Hn2] by lia.
    - change (dims1 1 3) with (dims1 1 (1 * 3)). rewrite (axes1_ok 1), (axes1_ok 1), (axes1_ok 1) by lia.
      unfold unscale. cbn [shape data bind length dims1 filter Nat.eqb negb].
      unfold reshape. cbn [data]. fold (twice l (c_cent c)). fold (twice l (c_d c)).
      rewrite !twice_length, Lc, Ld, Lq, Ls. cbn [Nat.mul Nat.add Nat.eqb size fold_right bind].
      apply (back_fields 1 1); auto.
    - change (dims1 n 3) with (dims1 n (1 * 3)).  rewrite (split3_ok n 1), (split3_ok n 1), (split3_ok n 1) by lia.
      rewrite !dims1_col by lia. unfold unscale. cbn [shape data bind length]. destruct (Nat.eqb_spec n 0); [lia|].
      fold (twice l (c_d c)). rewrite (infer_ok [] [1%nat] n) by (cbn [size fold_right]; rewrite ?twice_length; lia). cbn [bind].
      rewrite (infer_ok [] [1%nat] n) by (cbn [size fold_right]; lia). cbn [bind]. rewrite (infer_ok [] [1%nat] n) by (cbn [size fold_right]; lia). cbn [bind app].
      apply (back_fields n 1); auto. rewrite dims1_ge by lia. reflexivity.
  Qed.
End Proofs.

(** * C37 *)
(** With at least two radii a local catalogue is read back, number by number, object by object;
    each number as printed. *)
Theorem C37_local_partial : forall rnd l m n r c, (1 <= n)%nat -> (2 <= r)%nat -> wf_cat n r c ->
  exists f, dump rnd l m c = Ok f /\ load_local l m f = Ok (back rnd l m c).
Proof.
  intros rnd l m n r c Hn Hr W. exists (mkF (chunk n r (map rnd (data (scale l (c_d c))))) (chunk n r (map rnd (data (c_q c))))
      (chunk n r (map rnd (data (c_s c)))) (chunk n (r * 3) (map rnd (data (c_minor c))))
      (chunk n (r * 3) (map rnd (data (c_inter c)))) (chunk n (r * 3) (map rnd (data (c_major c))))
      (chunk n 1 (map rnd (data (scale m (c_m c))))) (chunk n 3 (map rnd (data (scale l (c_cent c)))))).
  pose proof (dump_ok rnd l m n r c Hn W) as D. split; [exact D|]. apply (load_local_ok rnd l m n r c _ Hn Hr W D).
Qed.
Print Assumptions C37_local_partial.

(** With a single radius no local catalogue can be read back: reading raises an exception. *)
Theorem C37_refuted : forall rnd l m n c, (1 <= n)%nat -> wf_cat n 1 c ->
  exists f e, dump rnd l m c = Ok f /\ load_local l m f = Raise e /\ e = (if (n =? 1)%nat then IndexError else ValueError).
Proof.
  intros rnd l m n c Hn W. pose proof (dump_ok rnd l m n 1 c Hn W) as D. eexists. eexists. split; [exact D|]. split; [|reflexivity].
  destruct (lens rnd l m _ _ _ W) as (Ld & Lq & Ls & La & Lb & Le & Lm & Lc).
  unfold load_local. cbn [f_d f_q f_s f_minor f_inter f_major f_m f_cent]. rewrite !load_chunk by lia.
  assert (n = 1%nat \/ (2 <= n)%nat) as [-> |Hn2] by lia; [reflexivity|].
  rewrite !dims1_col by lia. unfold shape0, unscale. cbn [shape data bind length].
  destruct (Nat.eqb_spec n 0); [lia|]. cbn [negb andb Nat.eqb].
  assert (I : forall sh L, length L = (n * (1 * 3))%nat -> reshape_infer [1%nat] [3%nat] (mkA sh L) = Ok (mkA [1%nat; n; 3%nat] L)).
  { intros sh L HL. apply (infer_ok [1%nat] [3%nat] n); cbn [size fold_right]; lia. }
  rewrite !I by assumption. cbn [bind]. unfold reshape. cbn [data]. rewrite map_length, Lc. cbn [size fold_right].
  destruct (Nat.eqb_spec (n * 3) (1 * (3 * 1))); [lia|]. destruct (Nat.eqb_spec n 1); [lia|]. reflexivity.
Qed.
Print Assumptions C37_refuted.

(** The whole-object catalogues are always read back. *)
Theorem C37_global : forall rnd l m n c, (1 <= n)%nat -> wf_cat n 1 c ->
  exists f, dump rnd l m c = Ok f /\ load_global l m f = Ok (back rnd l m c).
Proof.
  intros rnd l m n c Hn W. pose proof (dump_ok rnd l m n 1 c Hn W) as D. eexists. split; [exact D|].
  apply (load_global_ok rnd l m n c _ Hn W D).
Qed.
Print Assumptions C37_global.

Lemma unscaled k x : (0 < k)%R -> xdiv (xmul x (Fin k)) (Fin k) = x.
Proof.
  intros Hk. destruct x as [r| | |]; cbn [xmul xdiv].
  - destruct (Req_EM_T k 0); [lra|]. f_equal. field. lra.
  - cbn [xsgn]. rewrite sgn_pos by auto. cbn [inf_of xdiv]. destruct (Req_EM_T k 0); [lra|]. cbn [xsgn].
    rewrite sgn_pos by auto. reflexivity.
  - cbn [xsgn]. rewrite sgn_pos by auto. cbn [inf_of xdiv]. destruct (Req_EM_T k 0); [lra|]. cbn [xsgn].
    rewrite sgn_pos by auto. reflexivity.
  - reflexivity.
Qed.

(** If no digits are lost in printing, the catalogue read back is the dumped one. *)
Theorem C37_exact : forall rnd l m c, (0 < l)%R -> (0 < m)%R ->
  (forall x, In x (data (scale l (c_d c)) ++ data (c_q c) ++ data (c_s c) ++ data (c_minor c) ++ data (c_inter c)
                   ++ data (c_major c) ++ data (scale l (c_cent c)) ++ data (scale m (c_m c))) -> rnd x = x) ->
  back rnd l m c = c.
Proof.
  intros rnd l m c Hl Hm H.
  assert (P : forall k a, (0 < k)%R -> (forall x, In x (data (scale k a)) -> rnd x = x) -> printed rnd k a = a).
  { intros k [sh L] Hk E. unfold printed, scale in *. cbn [data shape] in *. f_equal.
    rewrite <- (map_id L) at 2. apply map_ext_in. intros x Hx. rewrite E by (apply (in_map (fun x => xmul x (Fin k))); auto).
    apply unscaled. auto. }
  assert (Q : forall a, (forall x, In x (data a) -> rnd x = x) -> reread rnd a = a).
  { intros [sh L] E. unfold reread. cbn [data shape] in *. f_equal. rewrite <- (map_id L) at 2. apply map_ext_in. auto. }
  unfold back. rewrite !P, !Q; auto; [destruct c; reflexivity|..]; intros x Hx; apply H; rewrite !in_app_iff; tauto.
Qed.
Print Assumptions C37_exact.

(** Files without numbers are the catalogue of no objects for the global shapes; for the local shapes they are
    refused. A table of global shapes with two columns is refused. *)
Theorem C37_no_objects : forall l m f blank, (forall r, In r blank -> r = []) ->
  f_d f = blank -> f_q f = blank -> f_s f = blank -> f_minor f = blank -> f_inter f = blank -> f_major f = blank -> f_m f = blank -> f_cent f = blank ->
  load_global l m f = Ok (mkCat empty empty empty empty empty empty empty empty) /\ load_local l m f = Raise ValueError.
Proof.
  intros l m f blank Hb E1 E2 E3 E4 E5 E6 E7 E8.
  assert (L : loadtxt blank = empty).
  { unfold loadtxt. replace (filter _ blank) with (@nil (list xr)); [reflexivity|]. clear -Hb. induction blank as [|r b IH]; [reflexivity|].
    rewrite (Hb r) by (left; reflexivity). cbn [filter]. apply IH. intros r' H. apply Hb. right. exact H. }
  unfold load_global, load_local. rewrite E1, E2, E3, E4, E5, E6, E7, E8, L. split; reflexivity.
Qed.
Print Assumptions C37_no_objects.
Theorem C37_columns : forall l m f x y x' y', f_d f = [[x; y]; [x'; y']] -> load_global l m f = Raise AssertionError.
Proof. intros l m f x y x' y' E. unfold load_global. rewrite E. reflexivity. Qed.
Print Assumptions C37_columns.
Example C37_no_objects_example : let f := mkF [[]] [[]] [[]] [[]] [[]] [[]] [[]] [[]] in
  load_global 1 1 f = Ok (mkCat empty empty empty empty empty empty empty empty) /\ load_local 1 1 f = Raise ValueError /\
  load_global 1 1 (mkF [[Fin 1; Fin 2]; [Fin 3; Fin 4]] [] [] [] [] [] [] []) = Raise AssertionError.
Proof. intros f. split; [|split; [|eapply C37_columns; reflexivity]]; apply (C37_no_objects 1 1 f [[]]); auto; intros r [<-|[]]; reflexivity. Qed.

(** Two objects with two radii (read back), and two objects with one radius (not read back). *)
Definition some_cat (n r : nat) : cat :=
  let arr dims := mkA dims (map (fun i => Fin (INR i)) (seq 0 (size dims))) in
  mkCat (arr [n; r]) (arr [n; r]) (arr [n; r]) (arr [n; r; 3%nat]) (arr [n; r; 3%nat]) (arr [n; r; 3%nat]) (arr [n; 3%nat]) (arr [n]).
Lemma some_cat_wf n r : wf_cat n r (some_cat n r).
Proof. unfold wf_cat, has, wf, some_cat. cbn [c_d c_q c_s c_minor c_inter c_major c_cent c_m shape data]. rewrite !map_length, !seq_length. auto 20. Qed.
Example C37_example :
  wf_cat 2 2 (some_cat 2 2) /\ back (fun x => x) 1 1 (some_cat 2 2) = some_cat 2 2 /\
  (exists f, dump (fun x => x) 1 1 (some_cat 2 2) = Ok f /\ load_local 1 1 f = Ok (some_cat 2 2)) /\
  (exists f, dump (fun x => x) 1 1 (some_cat 2 1) = Ok f /\ load_local 1 1 f = Raise ValueError) /\
  (exists f, dump (fun x => x) 1 1 (some_cat 1 1) = Ok f /\ load_local 1 1 f = Raise IndexError).
Proof.
  split; [apply some_cat_wf|]. split; [apply C37_exact; [lra|lra|auto]|]. split; [|split].
  - destruct (C37_local_partial (fun x => x) 1 1 2 2 (some_cat 2 2) ltac:(lia) ltac:(lia) (some_cat_wf 2 2)) as (f & D & L).
    exists f. split; [exact D|]. rewrite L. f_equal. apply C37_exact; [lra|lra|auto].
  - destruct (C37_refuted (fun x => x) 1 1 2 (some_cat 2 1) ltac:(lia) (some_cat_wf 2 1)) as (f & e & D & L & ->). eauto.
  - destruct (C37_refuted (fun x => x) 1 1 1 (some_cat 1 1) ltac:(lia) (some_cat_wf 1 1)) as (f & e & D & L & ->). eauto.
Qed.

(** * C38 *)
Section History.
  Variables (rnd : xr -> xr) (l m : R).
  Hypothesis Hl : (0 < l)%R.
  Hypothesis Hm : (0 < m)%R.
  (** Printing a parsed number again gives the same text. *)
  Hypothesis rnd_idem : forall x, rnd (rnd x) = rnd x.
  Variables (sel cfg : Type) (count : sel -> nat) (radii : cfg -> nat) (compute : sel -> cfg -> cat).
  Hypothesis compute_wf : forall x k, wf_cat (count x) (radii k) (compute x k).
  Notation after := (after rnd l m sel cfg compute (load_local l m)).
  Notation query := (query l sel cfg count radii compute (load_local l m)).
  Notation call := (call sel cfg).

  (** The right answer: entry (i, j) is that of object i and radius j. *)
  Definition entry_of (c : cat) (r i j : nat) : entry :=
    mkEn (xmul (nth (i * r + j) (data (c_d c)) NaN) (Fin l)) (nth (i * r + j) (data (c_s c)) NaN) (nth (i * r + j) (data (c_q c)) NaN)
         (negb (xisnan (nth (i * r + j) (data (c_q c)) NaN)))
         (fun t => nth ((i * r + j) * 3 + t) (data (c_minor c)) NaN)
         (fun t => nth ((i * r + j) * 3 + t) (data (c_inter c)) NaN)
         (fun t => nth ((i * r + j) * 3 + t) (data (c_major c)) NaN).

  Definition same_entry (x y : entry) : Prop :=
    e_d x = e_d y /\ e_s x = e_s y /\ e_q x = e_q y /\ e_conv x = e_conv y /\
    forall t, e_minor x t = e_minor y t /\ e_inter x t = e_inter y t /\ e_major x t = e_major y t.

  Lemma answer_ok n r c : wf_cat n r c ->
    exists g, answer l n r c = Ok g /\ forall i j, (i < n)%nat -> (j < r)%nat -> same_entry (g i j) (entry_of c r i j).
  Proof.
    intros ([Ed Wd] & [Eq Wq] & [Es Ws] & [Ea Wa] & [Eb Wb] & [Ee We] & [Ec Wc] & [Em Wm]).
    unfold answer, assign2, assign3. unfold scale at 1. cbn [shape]. rewrite Ed, Eq, Es, Ea, Eb, Ee.
    rewrite !Nat.eqb_refl. cbn [orb andb bind]. eexists. split; [reflexivity|]. intros i j Hi Hj.
    assert (P : (pick n i * r + pick r j = i * r + j)%nat).
    { unfold pick. destruct (Nat.eqb_spec n 1); destruct (Nat.eqb_spec r 1); subst; lia. }
    unfold same_entry, entry_of. cbn [e_d e_s e_q e_conv e_minor e_inter e_major]. rewrite P.
    repeat split; auto. unfold scale. cbn [data].
    change NaN with ((fun x => xmul x (Fin l)) NaN) at 1. rewrite map_nth. reflexivity.
  Qed.

  (** Without a dump before, the query returns the shapes of the selection asked for. *)
  Theorem C38_fresh_partial : forall h x k, (forall o, In o h -> exists y j, o = Query sel cfg y j) ->
    exists g, query (after h) x k = Ok g /\
    forall i j, (i < count x)%nat -> (j < radii k)%nat -> same_entry (g i j) (entry_of (compute x k) (radii k) i j).
  Proof.
    intros h x k Hh. assert (E : after h = None).
    { unfold StoreModel.after. assert (G : forall st, fold_left (step rnd l m sel cfg compute (load_local l m)) h st = st).
      { induction h as [|o h IH]; intros st; [reflexivity|]. cbn [fold_left].
        destruct (Hh o (or_introl eq_refl)) as (y & j & ->). apply IH. intros o Ho. apply Hh. right. auto. }
      apply G. }
    rewrite E. unfold StoreModel.query, base. cbn [bind]. apply answer_ok. auto.
  Qed.

  Lemma printed_idem k a : (0 < k)%R -> printed rnd k (printed rnd k a) = printed rnd k a.
  Proof.
    intros Hk. unfold printed. cbn [shape data]. f_equal. rewrite map_map. apply map_ext. intros x.
    assert (E : forall y, xmul (xdiv y (Fin k)) (Fin k) = y).
    { intros [y| | |]; cbn [xdiv xmul]; [|cbn [xsgn] ..|reflexivity].
      - destruct (Req_EM_T k 0); [lra|]. cbn [xmul]. f_equal. field. lra.
      - destruct (Req_EM_T k 0); [lra|]. rewrite sgn_pos by auto. cbn [inf_of xmul xsgn]. rewrite sgn_pos by auto. reflexivity.
      - destruct (Req_EM_T k 0); [lra|]. rewrite sgn_pos by auto. cbn [inf_of xmul xsgn]. rewrite sgn_pos by auto. reflexivity. }
    rewrite E, rnd_idem. reflexivity.
  Qed.
  Lemma reread_idem a : reread rnd (reread rnd a) = reread rnd a.
  Proof. unfold reread. cbn [shape data]. f_equal. rewrite map_map. apply map_ext. auto. Qed.
  Lemma back_idem c : back rnd l m (back rnd l m c) = back rnd l m c.
  Proof. unfold back. cbn [c_d c_q c_s c_minor c_inter c_major c_cent c_m]. rewrite !printed_idem, !reread_idem by auto. reflexivity. Qed.
  Lemma back_wf n r c : wf_cat n r c -> wf_cat n r (back rnd l m c).
  Proof.
    unfold wf_cat, has, wf, back, printed, reread. cbn [c_d c_q c_s c_minor c_inter c_major c_cent c_m shape data]. rewrite !map_length. auto.
  Qed.

  (** After the first dump (with at least two radii) every query, whatever selection and
      settings it names and whatever calls come between, is answered from the first dump; a
      later dump does not change the files' content. *)
  Theorem C38_first_dump : forall h0 x0 k0 h x k,
    (forall o, In o h0 -> exists y j, o = Query sel cfg y j) ->
    (1 <= count x0)%nat -> (2 <= radii k0)%nat ->
    query (after (h0 ++ Dump sel cfg x0 k0 :: h)) x k = answer l (count x) (radii k) (back rnd l m (compute x0 k0)).
  Proof.
    intros h0 x0 k0 h x k Hh Hn Hr.
    assert (E0 : after h0 = None).
    { unfold StoreModel.after. assert (G : forall st, fold_left (step rnd l m sel cfg compute (load_local l m)) h0 st = st).
      { induction h0 as [|o h0 IH]; intros st; [reflexivity|]. cbn [fold_left].
        destruct (Hh o (or_introl eq_refl)) as (y & j & ->). apply IH. intros o Ho. apply Hh. right. auto. }
      apply G. }
    unfold StoreModel.after in *. rewrite fold_left_app, E0. cbn [fold_left].
    set (P := fun st : option files => exists f, st = Some f /\ load_local l m f = Ok (back rnd l m (compute x0 k0))).
    assert (S1 : P (step rnd l m sel cfg compute (load_local l m) None (Dump sel cfg x0 k0))).
    { unfold P, step, dump_call, base. cbn [bind].
      destruct (C37_local_partial rnd l m (count x0) (radii k0) (compute x0 k0) Hn Hr (compute_wf x0 k0)) as (f & D & L).
      rewrite D. eauto. }
    assert (G : forall st, P st -> P (fold_left (step rnd l m sel cfg compute (load_local l m)) h st)).
    { induction h as [|o h IH]; intros st Hst; [exact Hst|]. cbn [fold_left]. apply IH.
      destruct o as [y j|y j]; [|exact Hst]. unfold step, dump_call, base. destruct Hst as (f & -> & L). rewrite L. cbn [bind].
      destruct (C37_local_partial rnd l m (count x0) (radii k0) _ Hn Hr (back_wf _ _ _ (compute_wf x0 k0))) as (f' & D' & L').
      rewrite D'. exists f'. split; [reflexivity|]. rewrite L'. f_equal. apply back_idem. }
    destruct (G _ S1) as (f & -> & L). unfold StoreModel.query, base. rewrite L. reflexivity.
  Qed.

  (** In particular queries for what was dumped first are answered right, as printed. *)
  Theorem C38_same_partial : forall h0 x0 k0 h,
    (forall o, In o h0 -> exists y j, o = Query sel cfg y j) ->
    (1 <= count x0)%nat -> (2 <= radii k0)%nat ->
    exists g, query (after (h0 ++ Dump sel cfg x0 k0 :: h)) x0 k0 = Ok g /\
    forall i j, (i < count x0)%nat -> (j < radii k0)%nat ->
      same_entry (g i j) (entry_of (back rnd l m (compute x0 k0)) (radii k0) i j).
  Proof.
    intros h0 x0 k0 h Hh Hn Hr. rewrite C38_first_dump by auto. apply answer_ok. apply back_wf. auto.
  Qed.

  (** Which later queries are answered at all: exactly those with as many radii as the dump and as many
      objects, or any number of objects if one was dumped, each of which gets the shapes of that one. *)
  Theorem C38_answered : forall h0 x0 k0 h x k,
    (forall o, In o h0 -> exists y j, o = Query sel cfg y j) ->
    (1 <= count x0)%nat -> (2 <= radii k0)%nat ->
    let fits := (count x0 = count x \/ count x0 = 1%nat) /\ radii k0 = radii k in
    (fits -> exists g, query (after (h0 ++ Dump sel cfg x0 k0 :: h)) x k = Ok g /\
      forall i j, (i < count x)%nat -> (j < radii k)%nat ->
        same_entry (g i j) (entry_of (back rnd l m (compute x0 k0)) (radii k0) (if (count x0 =? 1)%nat then 0 else i) j)) /\
    (~ fits -> query (after (h0 ++ Dump sel cfg x0 k0 :: h)) x k = Raise ValueError).
  Proof.
    intros h0 x0 k0 h x k Hh Hn Hr fits. rewrite C38_first_dump by auto.
    destruct (back_wf _ _ _ (compute_wf x0 k0)) as ([Ed Wd] & [Eq Wq] & [Es Ws] & [Ea Wa] & [Eb Wb] & [Ee We] & _).
    unfold answer, assign2, assign3. unfold scale. cbn [shape data]. rewrite Ed, Eq, Es, Ea, Eb, Ee. split.
    - intros (Hc & Hk). replace ((count x0 =? count x)%nat || (count x0 =? 1)%nat) with true by (symmetry; apply Bool.orb_true_iff; rewrite !Nat.eqb_eq; tauto).
      replace ((radii k0 =? radii k)%nat || (radii k0 =? 1)%nat) with true by (symmetry; apply Bool.orb_true_iff; rewrite !Nat.eqb_eq; tauto).
      rewrite Nat.eqb_refl. cbn [andb bind]. eexists. split; [reflexivity|]. intros i j Hi Hj.
      unfold same_entry, entry_of, pick. cbn [e_d e_s e_q e_conv e_minor e_inter e_major].
      destruct (Nat.eqb_spec (radii k0) 1) as [X|_]; [lia|].
      repeat split; auto. change NaN with ((fun x => xmul x (Fin l)) NaN) at 1. rewrite map_nth. reflexivity.
    - intros N. replace (((count x0 =? count x)%nat || (count x0 =? 1)%nat) && ((radii k0 =? radii k)%nat || (radii k0 =? 1)%nat)) with false; [reflexivity|].
      symmetry. apply Bool.not_true_is_false. rewrite Bool.andb_true_iff, !Bool.orb_true_iff, !Nat.eqb_eq. intros ([H1|H1] & [H2|H2]); try lia; apply N; split; auto.
  Qed.

  (** A dump with one radius makes every later query fail. *)
  Theorem C38_one_radius : forall x0 k0 h x k, (1 <= count x0)%nat -> radii k0 = 1%nat ->
    exists e, query (after (Dump sel cfg x0 k0 :: h)) x k = Raise e.
  Proof.
    intros x0 k0 h x k Hn Hr. unfold StoreModel.after. cbn [fold_left].
    pose proof (compute_wf x0 k0) as W. rewrite Hr in W.
    destruct (C37_refuted rnd l m (count x0) (compute x0 k0) Hn W) as (f & e & D & L & _).
    assert (S1 : step rnd l m sel cfg compute (load_local l m) None (Dump sel cfg x0 k0) = Some f).
    { unfold step, dump_call, base. cbn [bind]. rewrite D. reflexivity. }
    rewrite S1.
    assert (G : fold_left (step rnd l m sel cfg compute (load_local l m)) h (Some f) = Some f).
    { induction h as [|o h IH]; [reflexivity|]. cbn [fold_left]. destruct o as [y j|y j]; [|exact IH].
      unfold step, dump_call, base. rewrite L. cbn [bind]. exact IH. }
    rewrite G. exists e. unfold StoreModel.query, base. rewrite L. reflexivity.
  Qed.
End History.
Print Assumptions C38_fresh_partial.
Print Assumptions C38_first_dump.
Print Assumptions C38_same_partial.
Print Assumptions C38_answered.
Print Assumptions C38_one_radius.

(** C38 as stated fails. Selections are lists of object numbers; the computed axis ratio of an
    object is its number plus one. *)
Definition const_cat (x : list nat) (r : nat) : cat :=
  let row w f := flat_map (fun p => repeat (f p) (r * w)) x in
  let n := length x in
  mkCat (mkA [n; r] (row 1%nat (fun _ => Fin 1))) (mkA [n; r] (row 1%nat (fun p => Fin (INR p + 1)))) (mkA [n; r] (row 1%nat (fun p => Fin (INR p + 1))))
        (mkA [n; r; 3%nat] (row 3%nat (fun _ => Fin 1))) (mkA [n; r; 3%nat] (row 3%nat (fun _ => Fin 1))) (mkA [n; r; 3%nat] (row 3%nat (fun _ => Fin 1)))
        (mkA [n; 3%nat] (repeat (Fin 1) (n * 3))) (mkA [n] (repeat (Fin 1) n)).
Lemma const_cat_wf x r : wf_cat (length x) r (const_cat x r).
Proof.
  assert (F : forall w (f : nat -> xr) , length (flat_map (fun p => repeat (f p) (r * w)) x) = (length x * (r * w))%nat).
  { intros w f. induction x as [|p x IH]; [reflexivity|]. cbn [flat_map length]. rewrite app_length, repeat_length, IH. lia. }
  unfold wf_cat, has, wf, const_cat. cbn [c_d c_q c_s c_minor c_inter c_major c_cent c_m shape data size fold_right].
  rewrite !F, !repeat_length. repeat split; lia.
Qed.

(** Objects 0 and 1 are dumped, objects 2 and 3 asked for: the answer is that for 0 and 1; and
    after a dump of object 0 alone, a query for three objects returns three copies of it. *)
Theorem C38_refuted :
  let ask dumped x := query 1 (list nat) nat (@length nat) (fun k => k) const_cat (load_local 1 1)
      (after (fun y => y) 1 1 (list nat) nat const_cat (load_local 1 1) [Dump _ _ dumped 2%nat]) x 2%nat in
  (exists g, ask [0;1]%nat [2;3]%nat = Ok g /\ e_q (g 0%nat 0%nat) = Fin 1 /\
     nth 0 (data (c_q (const_cat [2;3]%nat 2))) NaN = Fin (1 + 1 + 1)) /\
  (exists g, ask [0]%nat [1;2;3]%nat = Ok g /\ e_q (g 0%nat 0%nat) = Fin 1 /\ e_q (g 1%nat 0%nat) = Fin 1 /\ e_q (g 2%nat 0%nat) = Fin 1).
Proof.
  assert (B : forall x, back (fun y => y) 1 1 (const_cat x 2) = const_cat x 2) by (intros; apply C37_exact; [lra|lra|auto]).
  cbv zeta. split.
  - change [Dump _ _ [0;1]%nat 2%nat] with ([] ++ [Dump _ _ [0;1]%nat 2%nat]).
    rewrite (C38_first_dump (fun y => y) 1 1 ltac:(lra) ltac:(lra) ltac:(auto) (list nat) nat (@length nat) (fun k => k) const_cat
       const_cat_wf [] [0;1]%nat 2%nat [] [2;3]%nat 2%nat); [|intros ? []|cbn; lia|cbn; lia].
    rewrite B. eexists. split; [reflexivity|]. cbn. split; f_equal; lra.
  - change [Dump _ _ [0]%nat 2%nat] with ([] ++ [Dump _ _ [0]%nat 2%nat]).
    rewrite (C38_first_dump (fun y => y) 1 1 ltac:(lra) ltac:(lra) ltac:(auto) (list nat) nat (@length nat) (fun k => k) const_cat
       const_cat_wf [] [0]%nat 2%nat [] [1;2;3]%nat 2%nat); [|intros ? []|cbn; lia|cbn; lia].
    rewrite B. eexists. split; [reflexivity|]. cbn. split; [f_equal; lra|]. split; f_equal; lra.
Qed.
Print Assumptions C38_refuted.

(** A history meeting the hypotheses of the theorems above. *)
Example C38_example :
  let h := [Query (list nat) nat [5]%nat 3%nat; Dump _ _ [0;1]%nat 2%nat; Dump _ _ [2;3]%nat 4%nat] in
  exists g, query 1 (list nat) nat (@length nat) (fun k => k) const_cat (load_local 1 1)
      (after (fun y => y) 1 1 (list nat) nat const_cat (load_local 1 1) h) [0;1]%nat 2%nat = Ok g /\ e_q (g 1%nat 1%nat) = Fin (1 + 1).
Proof.
  cbv zeta. change [Query (list nat) nat [5]%nat 3%nat; Dump _ _ [0;1]%nat 2%nat; Dump _ _ [2;3]%nat 4%nat]
    with ([Query (list nat) nat [5]%nat 3%nat] ++ [Dump _ _ [0;1]%nat 2%nat; Dump _ _ [2;3]%nat 4%nat]).
  rewrite (C38_first_dump (fun y => y) 1 1 ltac:(lra) ltac:(lra) ltac:(auto) (list nat) nat (@length nat) (fun k => k) const_cat
       const_cat_wf [Query _ _ [5]%nat 3%nat] [0;1]%nat 2%nat [Dump _ _ [2;3]%nat 4%nat] [0;1]%nat 2%nat);
    [|intros o [<-|[]]; eauto|cbn; lia|cbn; lia].
  rewrite C37_exact; [|lra|lra|auto]. eexists. split; [reflexivity|]. cbn. f_equal.
Qed.
