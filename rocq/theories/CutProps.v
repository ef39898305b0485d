(** C106, C107: catalogues cut at a fraction of R200 and the printed overview. *)
From Coq Require Import List Reals Lra Lia Permutation Arith.
From Verif Require Import XR GeoModel EpsModel CatModel CatProofs CutModel.
Import ListNotations.
Open Scope R_scope.

(** ** Vocabulary *)

(** Particles of an object (index, position) within r of c. *)
Definition inside (c : vec) (r : R) (o : list (nat * vec)) : list nat :=
  map fst (filter (fun q => if Rle_dec (norm (vsub (snd q) c)) r then true else false) o).
(** scipy's query_ball_point: the indices of all points within r, in any order. *)
Definition ball_query (query : list vec -> vec -> R -> list nat) : Prop :=
  forall xyz c r, Permutation (query xyz c r)
    (filter (fun i => if Rle_dec (norm (vsub (nth i xyz v0) c)) r then true else false) (seq 0 (length xyz))).

(** ** Lemmas *)
Lemma setrow_length {X} (a : list X) i v : (i < length a)%nat -> length (setrow a i v) = length a.
Proof. intros. unfold setrow. rewrite app_length, firstn_length. cbn [length]. rewrite skipn_length. lia. Qed.
Lemma setrow_nth {X} (a : list X) i v j d : (i < length a)%nat ->
  nth j (setrow a i v) d = if Nat.eqb j i then v else nth j a d.
Proof.
  intros Hi. unfold setrow. destruct (Nat.eqb_spec j i) as [->|N].
  - rewrite app_nth2; rewrite firstn_length_le by lia; [|lia]. now rewrite Nat.sub_diag.
  - destruct (Nat.lt_ge_cases j i).
    + rewrite app_nth1 by (rewrite firstn_length_le; lia). revert i Hi H N. revert j. induction a as [|x a IH]; intros j i Hi H N; cbn in Hi; [lia|].
      destruct i; [lia|]. destruct j; [reflexivity|]. cbn. apply IH; lia.
    + rewrite app_nth2; rewrite firstn_length_le by lia; [|lia].
      replace (j - i)%nat with (S (j - S i)) by lia. cbn. rewrite <- (firstn_skipn (S i) a) at 2.
      rewrite app_nth2; rewrite firstn_length_le by lia; [reflexivity|lia].
Qed.

Lemma obj_of_nth objs i : (i < length objs)%nat -> obj_of (concat objs) (map (@length nat) objs) i = nth i objs [].
Proof. intros Hi. unfold obj_of. exact (slice_object objs i _ (nth_error_nth' objs [] Hi)). Qed.

Lemma inside_positions (P : vec -> bool) : forall (obj : list nat) (xyz : list vec), length xyz = length obj ->
  map (fun i => nth i obj 0%nat) (filter (fun i => P (nth i xyz v0)) (seq 0 (length xyz))) =
  map fst (filter (fun q => P (snd q)) (combine obj xyz)).
Proof.
  induction obj as [|x obj IH]; intros [|y xyz] H; try discriminate; [reflexivity|].
  cbn [length] in *. injection H as H. cbn [seq]. rewrite <- seq_shift. cbn [combine filter].
  assert (G : map (fun i => nth i (x :: obj) 0%nat) (filter (fun i => P (nth i (y :: xyz) v0)) (map S (seq 0 (length xyz)))) =
              map fst (filter (fun q => P (snd q)) (combine obj xyz))).
  { rewrite <- IH by auto. generalize (seq 0 (length xyz)). induction l as [|i l IHl]; [reflexivity|]. cbn [map filter nth].
    destruct (P (nth i xyz v0)); [cbn [map nth]; f_equal|]; exact IHl. }
  cbn [snd]. change (nth 0 (y :: xyz) v0) with y. destruct (P y); [cbn [map fst]; f_equal|]; exact G.
Qed.

Section Proofs.
  Variables (fuel : nat) (kind : center_kind) (choose : nat -> list nat) (query : list vec -> vec -> R -> list nat) (ps : list ptc).
  Variables (objs : list (list nat)) (L : R) (r200 : list R) (frac : R) (cs : list vec).
  Hypothesis Hq : ball_query query.
  Hypothesis Hlen : length cs = length objs.
  (** The unwrapped positions of object i. *)
  Let pos i := respectPBCNoRef (choose i) (map fst (gather ps (nth i objs []))) L.
  Hypothesis Hc : forall i, (i < length objs)%nat ->
    center_of fuel kind (choose i) (extent (pos i)) L (gather ps (nth i objs [])) = Some (nth i cs v0).
  Let kept i := inside (nth i cs v0) (nth i r200 0 * frac) (combine (nth i objs []) (pos i)).

  Lemma centers_ok : forall k i0 centers, (i0 + k = length objs)%nat -> length centers = length objs ->
    (forall j, (j < i0)%nat -> nth j centers v0 = nth j cs v0) ->
    centers_loop fuel kind choose ps Direct L (concat objs) (map (@length nat) objs) (seq i0 k) centers = COk cs.
  Proof.
    induction k as [|k IH]; intros i0 centers Hi Lc Hj; cbn [seq centers_loop].
    - f_equal. apply nth_ext with (d := v0) (d' := v0); [congruence|]. intros j Hj'. apply Hj. lia.
    - rewrite obj_of_nth by lia. fold (pos i0). rewrite Hc by lia. cbn [write cbind]. apply IH; [lia|rewrite setrow_length; lia|].
      intros j Hjj. rewrite setrow_nth by lia. destruct (Nat.eqb_spec j i0) as [->|N]; [reflexivity|]. apply Hj. lia.
  Qed.

  Lemma pos_length i : length (pos i) = length (nth i objs []).
  Proof.
    unfold pos, respectPBCNoRef, gather. destruct (Req_EM_T L 0); [now rewrite !map_length|]. cbv zeta. now rewrite !map_length.
  Qed.

  Lemma nn_inside i : Permutation (map (fun j => nth j (nth i objs []) 0%nat) (query (pos i) (nth i cs v0) (nth i r200 0 * frac))) (kept i).
  Proof.
    eapply Permutation_trans; [apply Permutation_map, Hq|]. unfold kept, inside.
    rewrite (inside_positions (fun v => if Rle_dec (norm (vsub v (nth i cs v0))) (nth i r200 0 * frac) then true else false)) by apply pos_length.
    apply Permutation_refl.
  Qed.

  Definition nonempty {X} (l : list X) : bool := match l with [] => false | _ => true end.

  Lemma cut_ok : forall k i0 outs sizes rem, (i0 + k = length objs)%nat -> length sizes = length objs ->
    (forall j, In j rem -> (j < i0)%nat) -> map (fun j => nth j sizes 0%nat) rem = map (@length nat) outs ->
    Forall2 (fun o j => Permutation o (kept j)) outs rem ->
    exists outs' sizes' rem',
      cut_loop choose query ps (Some L) (concat objs) (map (@length nat) objs) r200 frac cs (seq i0 k) (concat outs, sizes, rem) =
        COk (concat outs', sizes', rem') /\
      map (fun j => nth j sizes' 0%nat) rem' = map (@length nat) outs' /\
      rem' = rem ++ filter (fun j => nonempty (kept j)) (seq i0 k) /\
      Forall2 (fun o j => Permutation o (kept j)) outs' rem'.
  Proof.
    induction k as [|k IH]; intros i0 outs sizes rem Hi Ls Hr Hs Hf; cbn [seq cut_loop filter].
    - exists outs, sizes, rem. rewrite app_nil_r. auto.
    - rewrite obj_of_nth by lia. cbn [unwrap_arg cbind]. fold (pos i0). pose proof (nn_inside i0) as P.
      destruct (query (pos i0) (nth i0 cs v0) (nth i0 r200 0 * frac)) as [|x nn] eqn:E.
      + cbn [map] in P. apply Permutation_nil in P. rewrite P. cbn [nonempty].
        apply IH; auto; [lia|]. intros j Hj. specialize (Hr j Hj). lia.
      + assert (NE : nonempty (kept i0) = true).
        { destruct (kept i0); [|reflexivity]. apply Permutation_sym, Permutation_nil in P. discriminate. }
        rewrite NE.
        destruct (IH (S i0) (outs ++ [map (fun j => nth j (nth i0 objs []) 0%nat) (x :: nn)]) (setrow sizes i0 (length (x :: nn))) (rem ++ [i0])) as (o' & s' & r' & A & B & C & D).
        * lia.
        * rewrite setrow_length; lia.
        * intros j Hj. apply in_app_iff in Hj. destruct Hj as [Hj|[<-|[]]]; [specialize (Hr j Hj)|]; lia.
        * rewrite !map_app. f_equal.
          -- rewrite <- Hs. apply map_ext_in. intros j Hj. specialize (Hr j Hj). rewrite setrow_nth by lia. destruct (Nat.eqb_spec j i0); [lia|reflexivity].
          -- cbn [map]. rewrite setrow_nth by lia. rewrite Nat.eqb_refl. cbn [length]. now rewrite map_length.
        * apply Forall2_app; [exact Hf|]. constructor; [exact P|constructor].
        * exists o', s', r'. rewrite concat_app in A. cbn [concat] in A. rewrite app_nil_r in A. split; [exact A|]. split; [exact B|]. split; [|exact D].
          rewrite C, <- app_assoc. reflexivity.
  Qed.
End Proofs.

(** ** C106: particles beyond the given fraction of R200 are removed *)

(** The function raises TypeError for every catalogue with an object, whatever the particles: with the
    centre of mass always, with the mode whenever the mode of the first object is found. *)
Theorem C106_refuted : forall fuel kind choose query ps objs L r200 frac, objs <> [] ->
  (kind = CMode -> exists c, center_of fuel CMode (choose 0%nat)
     (extent (respectPBCNoRef (choose 0%nat) (map fst (gather ps (nth 0 objs []))) L)) L (gather ps (nth 0 objs [])) = Some c) ->
  getCatWithinFracR200 fuel kind choose query ps (concat objs) (map (@length nat) objs) L r200 frac = CTypeError.
Proof.
  intros fuel kind choose query ps objs L r200 frac Ho Hm. unfold getCatWithinFracR200, cat_within. rewrite map_length.
  destruct objs as [|o objs]; [contradiction|]. cbn [length seq centers_loop].
  rewrite obj_of_nth by (cbn; lia).
  destruct kind.
  - destruct (Hm eq_refl) as (c & ->). reflexivity.
  - reflexivity.
Qed.
Print Assumptions C106_refuted.
Example C106_refuted_example :
  getCatWithinFracR200 0 CCom (fun _ => [0%nat]) (fun _ _ _ => []) [(v0, 1)] [0%nat] [1%nat] 0 [1] 1 = CTypeError.
Proof. apply (C106_refuted 0 CCom (fun _ => [0%nat]) (fun _ _ _ => []) [(v0, 1)] [[0%nat]] 0 [1] 1); [discriminate|discriminate]. Qed.

(** Without objects nothing is removed. With the rows of [centers] written directly and the box size
    passed on, the result would be right: the objects that keep a particle, in their order, each with
    exactly the particles within the radius. Missing: that the code does this for a non-empty catalogue. *)
Theorem C106_partial : forall fuel kind choose query ps objs L r200 frac cs,
  ball_query query -> length cs = length objs ->
  let pos i := respectPBCNoRef (choose i) (map fst (gather ps (nth i objs []))) L in
  (forall i, (i < length objs)%nat ->
     center_of fuel kind (choose i) (extent (pos i)) L (gather ps (nth i objs [])) = Some (nth i cs v0)) ->
  let kept i := inside (nth i cs v0) (nth i r200 0 * frac) (combine (nth i objs []) (pos i)) in
  (objs = [] -> getCatWithinFracR200 fuel kind choose query ps [] [] L r200 frac = COk ([], [])) /\
  exists outs,
    cat_within fuel kind choose query ps Direct (Some L) (concat objs) (map (@length nat) objs) L r200 frac =
      COk (concat outs, map (@length nat) outs) /\
    Forall2 (fun o i => Permutation o (kept i)) outs (filter (fun i => nonempty (kept i)) (seq 0 (length objs))).
Proof.
  intros fuel kind choose query ps objs L r200 frac cs Hq Hlen pos Hc kept. split; [reflexivity|].
  unfold cat_within. rewrite map_length.
  rewrite (centers_ok fuel kind choose ps objs L cs Hlen Hc) by (rewrite ?repeat_length; try lia; intros; lia). cbn [cbind].
  destruct (cut_ok choose query ps objs L r200 frac cs Hq Hlen (length objs) 0 [] (repeat 0%nat (length objs)) []) as (outs & s & r & A & B & C & D).
  - lia.
  - apply repeat_length.
  - intros j [].
  - reflexivity.
  - constructor.
  - cbn [concat] in A. rewrite A. cbn [cbind]. exists outs. rewrite B. split; [reflexivity|]. cbn [app] in C. subst r. exact D.
Qed.
Print Assumptions C106_partial.

(** With the write repaired, the missing box length raises TypeError as well. *)
Theorem C106_second_refuted : forall fuel kind choose query ps objs L r200 frac cs,
  objs <> [] -> length cs = length objs ->
  (forall i, (i < length objs)%nat ->
     center_of fuel kind (choose i) (extent (respectPBCNoRef (choose i) (map fst (gather ps (nth i objs []))) L)) L (gather ps (nth i objs [])) = Some (nth i cs v0)) ->
  cat_within fuel kind choose query ps Direct None (concat objs) (map (@length nat) objs) L r200 frac = CTypeError.
Proof.
  intros fuel kind choose query ps objs L r200 frac cs Hne Hlen Hc. unfold cat_within. rewrite map_length.
  rewrite (centers_ok fuel kind choose ps objs L cs Hlen Hc) by (rewrite ?repeat_length; lia || auto).
  destruct objs as [|o objs]; [contradiction|]. reflexivity.
Qed.
Print Assumptions C106_second_refuted.

(** Two objects: of the pair nothing is left, of the triple the particle in the middle. *)
Definition balls (xyz : list vec) (c : vec) (r : R) : list nat :=
  filter (fun i => if Rle_dec (norm (vsub (nth i xyz v0) c)) r then true else false) (seq 0 (length xyz)).
Definition line (x : R) : ptc := (mkV x 0 0, 1).
Definition five : list ptc := map line [0; 2; 9; 10; 11].
Lemma norm_line x : norm (mkV x 0 0) = Rabs x.
Proof. unfold norm. cbn. rewrite <- sqrt_Rsqr_abs. f_equal. unfold Rsqr. ring. Qed.
Example C106_partial_example :
  ball_query balls /\
  cat_within 0 CCom (fun p => match p with O => seq 0 2 | _ => seq 0 3 end) balls five Direct (Some 0)
    (concat [[0; 1]; [2; 3; 4]]%nat) (map (@length nat) [[0; 1]; [2; 3; 4]]%nat) 0 [1; 1] (1/2) = COk ([3]%nat, [1]%nat).
Proof.
  split; [intros xyz c r; apply Permutation_refl|].
  set (ch := fun p : nat => match p with O => seq 0 2 | _ => seq 0 3 end).
  assert (PBC : forall c xyz, respectPBCNoRef c xyz 0 = xyz).
  { intros. unfold respectPBCNoRef. destruct Req_EM_T; [reflexivity|lra]. }
  unfold cat_within. cbn [map length].
  rewrite (centers_ok 0 CCom ch five [[0; 1]; [2; 3; 4]]%nat 0 [mkV 1 0 0; mkV 10 0 0]); try reflexivity.
  - cbn [cbind seq cut_loop unwrap_arg]. rewrite !PBC.
    change [2%nat; 3%nat] with (map (@length nat) [[0; 1]; [2; 3; 4]]%nat). rewrite !obj_of_nth by (cbn; lia).
    cbn [nth gather map five line fst]. unfold balls. cbn [length seq filter nth].
    unfold vsub. cbn [vx vy vz]. replace (0 - 0) with 0 by ring. rewrite !norm_line.
    replace (Rabs (0 - 1)) with 1 by (rewrite Rabs_left; lra). replace (Rabs (2 - 1)) with 1 by (rewrite Rabs_right; lra).
    replace (Rabs (9 - 10)) with 1 by (rewrite Rabs_left; lra). replace (Rabs (11 - 10)) with 1 by (rewrite Rabs_right; lra).
    replace (Rabs (10 - 10)) with 0 by (rewrite Rabs_right; lra).
    destruct (Rle_dec 1 (1 * (1 / 2))); [lra|]. destruct (Rle_dec 0 (1 * (1 / 2))); [|lra]. reflexivity.
  - intros i Hi. cbn [length] in Hi. unfold center_of. rewrite PBC. f_equal.
    assert (Hi' : i = 0%nat \/ i = 1%nat) by lia.
    destruct Hi' as [->| ->]; cbn [nth gather map five line fst snd combine ch seq]; unfold calcCoM, ref_of, np_vsum, np_sum; cbn [map fst snd length seq nth fold_left vadd vsub vscale vx vy vz v0 INR];
    unfold vadd, vsub, vscale, v0; cbn [vx vy vz]; apply f_equal3; field.
  - intros j Hj. inversion Hj.
Qed.

Example C106_second_example :
  cat_within 0 CCom (fun _ => seq 0 1) balls five Direct None (concat [[3]]%nat) (map (@length nat) [[3]]%nat) 0 [1] (1/2) = CTypeError.
Proof.
  apply (C106_second_refuted 0 CCom (fun _ => seq 0 1) balls five [[3]]%nat 0 [1] (1/2) [mkV 10 0 0]); [discriminate|reflexivity|].
  intros [|i] Hi; [|cbn in Hi; lia]. unfold center_of, respectPBCNoRef. destruct Req_EM_T; [|lra]. f_equal.
  cbn [nth gather map five line fst snd combine seq]. unfold calcCoM, ref_of, np_vsum, np_sum. cbn [map fst snd length seq nth fold_left vadd vsub vscale vx vy vz v0 INR].
  unfold vadd, vsub, vscale, v0. cbn [vx vy vz]. apply f_equal3; field.
Qed.

(** ** C107: the printed overview *)

(** The last line counts 0 objects with sufficient resolution, whatever the catalogue holds. *)
Theorem C107_refuted : forall idx_cat obj_size nb_shs sh_len l, obj_info idx_cat obj_size nb_shs sh_len = Some l ->
  nth 5 l 1%nat = 0%nat.
Proof.
  intros idx_cat obj_size nb_shs sh_len l H. unfold obj_info in H. destruct nb_shs; [discriminate|]. injection H as <-. cbn [nth].
  induction idx_cat; [reflexivity|]. exact IHidx_cat.
Qed.
Print Assumptions C107_refuted.
(** One halo of five particles: the first line says 1, the last 0. *)
Example C107_refuted_example : obj_info [0; 1; 2; 3; 4]%nat [5]%nat [1]%nat [5]%nat = Some [1; 1; 1; 1; 0; 0]%nat.
Proof. reflexivity. Qed.

(** The other lines: for halos given by the lists of their subhalos and a catalogue of [objs]. Missing:
    the last line. *)
Theorem C107_partial : forall (halos : list (list nat)) (objs : list (list nat)), halos <> [] ->
  exists last, obj_info (concat objs) (map (@length nat) objs) (map (@length nat) halos) (concat halos) =
    Some [ length objs;
           length (filter (fun h => nonempty h) halos); length halos; length (concat halos);
           (length halos - length (filter (fun h => nonempty h) halos))%nat; last ].
Proof.
  intros halos objs H. unfold obj_info. destruct (map (@length nat) halos) as [|x l] eqn:E.
  - destruct halos; [contradiction|discriminate].
  - rewrite <- E. clear x l E H. eexists. f_equal.
    assert (A : length (filter (fun n => negb (Nat.eqb n 0)) (map (@length nat) halos)) = length (filter (fun h => nonempty h) halos)).
    { induction halos as [|[|y h] halos IH]; [reflexivity|exact IH|]. cbn. now rewrite IH. }
    assert (B : (length (filter (fun n => Nat.eqb n 0) (map (@length nat) halos)) + length (filter (fun h => nonempty h) halos) = length halos)%nat).
    { induction halos as [|[|y h] halos IH]; [reflexivity| |]; cbn in *; lia. }
    rewrite A, !map_length. repeat f_equal. lia.
Qed.
Print Assumptions C107_partial.
(** A halo with two subhalos, one without, one with one; no subhalos at all in an empty file. *)
Example C107_partial_example : obj_info [0; 1; 2]%nat [3]%nat [2; 0; 1]%nat [3; 1; 1]%nat = Some [1; 2; 3; 3; 1; 0]%nat /\
  obj_info [] [] [] [] = None.
Proof. split; reflexivity. Qed.
