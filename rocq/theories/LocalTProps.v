(** C114: which objects enter the histogram of triaxialities at a depth (getLocalTHist). The rows d, q and s are
    those of the shape catalogue (calcMorphLocal), where radii without a shape are NaN. *)
From Coq Require Import List Reals Bool Arith Lia Lra ZArith.
From Verif Require Import XR GeoModel EpsProps StatModel StatProps StatProps2 HistModel HistProps ShapeModel ShapeSpec ShapeProofs ShapeKatz
  Spectral ShapeFacts ShapeExamples ShapeProps.
Import ListNotations.
Open Scope R_scope.

(** The columns of a catalogue: one list of entries per object. *)
Definition column (f : morph -> xr) (cat : list (list morph)) : list (list xr) := map (map f) cat.
(** The triaxialities of a catalogue at the depth [frac] R200, as drawn. *)
Definition drawn_T (big : R) (r200 : list R) (frac : R) (cat : list (list morph)) : list xr :=
  local_T big r200 frac (column md cat) (column mq cat) (column ms cat).

(** ** The position of a NaN *)
Lemma argmin_from_nan l : forall pre best bi, (bi < length pre)%nat -> nth bi pre (Fin 0) = best -> best = NaN \/ In NaN l ->
  nth (argmin_from l (length pre) best bi) (pre ++ l) (Fin 0) = NaN.
Proof.
  induction l as [|x l IH]; intros pre best bi Hb Hn H; cbn [argmin_from].
  - destruct H as [->|[]]. rewrite app_nil_r. exact Hn.
  - destruct (xisnan best) eqn:B.
    + rewrite app_nth1 by exact Hb. rewrite Hn. now destruct best.
    + assert (A : pre ++ x :: l = (pre ++ [x]) ++ l) by now rewrite <- app_assoc.
      assert (L : S (length pre) = length (pre ++ [x])) by (rewrite app_length; cbn; lia).
      rewrite A, L. destruct (xisnan x || xltb x best) eqn:C.
      * apply IH; [rewrite app_length; cbn; lia|rewrite app_nth2, Nat.sub_diag by lia; reflexivity|].
        destruct H as [->|[->|H]]; [discriminate|now left|now right].
      * apply IH; [rewrite app_length; cbn; lia|rewrite app_nth1 by exact Hb; exact Hn|].
        destruct H as [->|[->|H]]; [discriminate|discriminate|now right].
Qed.
Lemma np_argmin_nan l : In NaN l -> nth (np_argmin l) l (Fin 0) = NaN.
Proof.
  destruct l as [|x l]; [contradiction|]. intros H. cbn [np_argmin].
  apply (argmin_from_nan l [x] x 0 ltac:(cbn; lia) eq_refl). destruct H as [->|H]; auto.
Qed.
Lemma radius_nan d r200 frac : In NaN d -> (radius_index d r200 frac < length d)%nat /\ nth (radius_index d r200 frac) d (Fin 0) = NaN.
Proof.
  intros H. unfold radius_index. set (f := fun x => xabs (xsub x (Fin (r200 * frac)))).
  assert (N : In NaN (map f d)) by (change NaN with (f NaN); now apply in_map).
  pose proof (np_argmin_nan _ N) as E. assert (B : (np_argmin (map f d) < length d)%nat).
  { rewrite <- (map_length f). apply np_argmin_bound. intros Z. rewrite Z in N. contradiction. }
  split; [exact B|]. rewrite (nth_indep _ (Fin 0) (f (Fin 0))) in E by now rewrite map_length. rewrite map_nth in E.
  unfold f in E. destruct (nth _ d (Fin 0)); try discriminate. reflexivity.
Qed.
Lemma radius_nearest ds r200 frac : ds <> [] -> nearest ds (r200 * frac) (radius_index (map Fin ds) r200 frac).
Proof. intros H. unfold radius_index. rewrite map_map. apply (np_argmin_nearest ds (r200 * frac) H). Qed.

Lemma local_T_nth big r200 frac : forall cat p row r, nth_error cat p = Some row -> nth_error r200 p = Some r ->
  nth_error (drawn_T big r200 frac cat) p =
  Some (let i := radius_index (map md row) r frac in
        zero_to_nan (nan_to_num big (triaxiality (nth i (map mq row) NaN) (nth i (map ms row) NaN)))).
Proof.
  unfold drawn_T, local_T, T_column, take_at, column. revert r200. intros r200 cat. revert r200.
  induction cat as [|c cat IH]; intros [|r0 r200] [|p] row r H1 H2; try discriminate.
  - cbn in H1, H2. injection H1 as ->. injection H2 as ->. reflexivity.
  - cbn in H1, H2. specialize (IH r200 p row r H1 H2). cbn [map combine nth_error fst snd]. exact IH.
Qed.

Lemma nth_error_ext_len {A} (l m : list A) : length l = length m -> (forall n x y, nth_error l n = Some x -> nth_error m n = Some y -> x = y) -> l = m.
Proof.
  revert m. induction l as [|a l IH]; intros [|b m] HL H; try discriminate; [reflexivity|]. f_equal; [exact (H 0%nat a b eq_refl eq_refl)|].
  apply IH; [cbn in HL; lia|]. intros n x y. exact (H (S n) x y).
Qed.
Lemma filter_nth_length {A} (f : A -> bool) d l : length (filter (fun k => f (nth k l d)) (seq 0 (length l))) = length (filter f l).
Proof.
  induction l as [|a l IH]; [reflexivity|]. cbn [length seq filter nth]. rewrite <- seq_shift.
  assert (E : forall g (k : list nat), length (filter g (map S k)) = length (filter (fun x => g (S x)) k)).
  { intros g k. induction k as [|x k IHk]; [reflexivity|]. cbn. destruct (g (S x)); cbn; now rewrite IHk. }
  destruct (f a); cbn [length]; rewrite E; cbn [nth]; now rewrite IH.
Qed.

(** ** Objects with a radius without shape *)
(** A catalogue entry: a radius that is not zero with a shape, or NaN for the radius and the ratios. *)
Definition entry_ok (mi : morph) : Prop := (exists d, md mi = Fin d) \/ (md mi = NaN /\ mq mi = NaN /\ ms mi = NaN).
Lemma dropped big r200 frac cat p row r : nth_error cat p = Some row -> nth_error r200 p = Some r ->
  Forall entry_ok row -> In NaN (map md row) -> nth_error (drawn_T big r200 frac cat) p = Some NaN.
Proof.
  intros H1 H2 HF HN. rewrite (local_T_nth big r200 frac cat p row r H1 H2). f_equal.
  destruct (radius_nan _ r frac HN) as [B E]. cbv zeta. set (i := radius_index (map md row) r frac) in *. clearbody i.
  rewrite map_length in B. destruct (nth_error row i) as [mi|] eqn:Hi; [|apply nth_error_None in Hi; lia].
  assert (N : forall (f : morph -> xr) d, nth i (map f row) d = f mi).
  { intros f d. apply nth_error_nth. rewrite nth_error_map, Hi. reflexivity. }
  rewrite N in E. rewrite !N. rewrite Forall_forall in HF. destruct (HF mi (nth_error_In _ _ Hi)) as [[d Hd]|(_ & -> & ->)]; [congruence|].
  cbn. unfold zero_to_nan. cbn [xeqb]. destruct (Req_EM_T 0 0); [reflexivity|contradiction].
Qed.
Lemma nanz_zero : nanz (Fin 0) = NaN.
Proof. unfold nanz. cbn [xeqb]. destruct (Req_EM_T 0 0); [reflexivity|contradiction]. Qed.
(** Rows that calcObjMorphLocal returns, with zeros replaced by NaN. *)
Lemma rows_ok eig fuel c r200 xyz ten masses center tcenter l : eig_contract eig -> nonneg xyz masses -> c_tol c < 1 ->
  (forall x, In x (c_log_d c) -> x <> 0) ->
  calcObjMorphLocal eig fuel c r200 xyz ten masses center tcenter = Some (Ret l) ->
  length l = length (c_log_d c) /\
  forall nb mi, nth_error l nb = Some mi -> mi = zeros \/ (valid_shape (r200 * nth nb (c_log_d c) 0) mi /\ r200 * nth nb (c_log_d c) 0 <> 0).
Proof.
  intros He G Ht HR H.
  assert (ZZ : forall k nb mi, nth_error (map (fun _ : R => zeros) k) nb = Some mi -> mi = zeros).
  { intros k nb mi E. apply nth_error_In in E. apply in_map_iff in E. destruct E as (_ & <- & _). reflexivity. }
  unfold calcObjMorphLocal in H. destruct Req_EM_T; [injection H as <-; split; [apply map_length|intros; left; eapply ZZ; eassumption]|].
  destruct Req_EM_T as [|Hr]; [injection H as <-; split; [apply map_length|intros; left; eapply ZZ; eassumption]|].
  apply collect_spec in H. split; [apply (f_equal (@length _)) in H; rewrite !map_length, seq_length in H; symmetry; exact H|].
  intros nb mi Hmi. assert (X : nth_error (map (fun x => Some (Ret x)) l) nb = Some (Some (Ret mi))) by (rewrite nth_error_map, Hmi; reflexivity).
  rewrite <- H, nth_error_map in X. destruct (nth_error (seq 0 (length (c_log_d c))) nb) as [n'|] eqn:En; [|discriminate].
  assert (Hlt : (nb < length (c_log_d c))%nat) by (rewrite <- (seq_length (length (c_log_d c)) 0); apply nth_error_Some; rewrite En; discriminate).
  apply nth_error_nth with (d := 0%nat) in En. rewrite seq_nth in En by exact Hlt. cbn in En. subst n'. cbn [option_map] in X. apply Some_inj in X.
  match type of X with option_map fst ?k = _ => destruct k as [[r tr]|] eqn:K; [|discriminate] end. cbn in X. injection X as ->.
  apply C30_partial in K; auto. destruct K as [->|V]; [now left|right]. split; [exact V|].
  apply Rmult_integral_contrapositive_currified; [exact Hr|]. apply HR. now apply nth_In.
Qed.
Lemma entries_ok eig fuel c r200 xyz ten masses center tcenter l : eig_contract eig -> nonneg xyz masses -> c_tol c < 1 ->
  (forall x, In x (c_log_d c) -> x <> 0) ->
  calcObjMorphLocal eig fuel c r200 xyz ten masses center tcenter = Some (Ret l) -> Forall entry_ok (map nan_morph l).
Proof.
  intros He G Ht HR H. destruct (rows_ok _ _ _ _ _ _ _ _ _ _ He G Ht HR H) as [_ K]. apply Forall_forall. intros y Hy.
  apply in_map_iff in Hy. destruct Hy as (mi & <- & Hmi). apply In_nth_error in Hmi. destruct Hmi as (nb & Hmi).
  destruct (K nb mi Hmi) as [->|[(D & _) N]].
  - right. cbn. rewrite nanz_zero. auto.
  - left. cbn [nan_morph md]. rewrite D. exists (r200 * nth nb (c_log_d c) 0). unfold nanz. cbn [xeqb]. destruct Req_EM_T; [contradiction|reflexivity].
Qed.

(** An object for which the algorithm finds no shape at any one of its radii is left out at every depth,
    whatever its shape there. *)
Theorem C114_dropped : forall eig fuel c r xyz ten masses center tcenter l big r200 frac cat p,
  eig_contract eig -> nonneg xyz masses -> c_tol c < 1 -> (forall x, In x (c_log_d c) -> x <> 0) ->
  calcObjMorphLocal eig fuel c r xyz ten masses center tcenter = Some (Ret l) -> In zeros l ->
  nth_error cat p = Some (map nan_morph l) -> nth_error r200 p = Some r ->
  nth_error (drawn_T big r200 frac cat) p = Some NaN.
Proof.
  intros eig fuel c r xyz ten masses center tcenter l big r200 frac cat p He G Ht HR H HZ Hc Hr.
  eapply dropped; [exact Hc|exact Hr|eapply entries_ok; eassumption|]. rewrite map_map. apply in_map_iff. exists zeros. split; [|exact HZ].
  cbn. apply nanz_zero.
Qed.
Print Assumptions C114_dropped.

Lemma few_particles eig xyz ten masses center tcenter d delta tol wall mn reduced fuel mi0 r :
  tol < 1 -> (Z.of_nat (length (filter (fun k => in_sphere center d delta (nth k xyz v0)) (seq 0 (length xyz)))) < mn)%Z ->
  option_map fst (katz eig xyz ten masses center tcenter d delta tol wall mn reduced fuel mi0) = Some r -> r = Ret zeros.
Proof.
  intros Ht Hm H. unfold katz, katz_init in H. destruct compact as [buf pts] eqn:C. apply compact_ok in C. destruct C as [C _].
  assert (L : pts = length (filter (fun i => in_sphere center d delta (nth i xyz v0)) (seq 0 (length xyz)))).
  { rewrite <- C, map_length, seq_length. reflexivity. }
  rewrite <- L in Hm. destruct fuel; cbn [katz_loop k_err k_it k_pts xltb] in H; destruct Rlt_dec as [_|N]; try lra;
    (destruct (wall <? 1)%Z; [|apply Z.ltb_lt in Hm; rewrite Hm in H]; cbn in H; injection H as <-; reflexivity).
Qed.
(** The particles closer to the centre than a radius. *)
Definition closer_than (rad : R) (center : vec) (xyz : list vec) : list vec :=
  filter (fun x => let v := vsub x center in
    if Rlt_dec (vx v * vx v + vy v * vy v + vz v * vz v) (rad * rad) then true else false) xyz.
(** In particular: an object with fewer than IT_MIN particles inside one of its radii (ellipsoids; not shells). *)
Theorem C114_sparse : forall eig fuel c r xyz ten masses center tcenter l big r200 frac cat p nb,
  eig_contract eig -> nonneg xyz masses -> c_tol c < 1 -> (forall x, In x (c_log_d c) -> x <> 0) ->
  calcObjMorphLocal eig fuel c r xyz ten masses center tcenter = Some (Ret l) ->
  nth_error cat p = Some (map nan_morph l) -> nth_error r200 p = Some r ->
  (nb < length (c_log_d c))%nat -> c_shell c = false ->
  (Z.of_nat (length (closer_than (r * nth nb (c_log_d c) 0)%R center xyz)) < c_min c)%Z ->
  nth_error (drawn_T big r200 frac cat) p = Some NaN.
Proof.
  intros eig fuel c r xyz ten masses center tcenter l big r200 frac cat p nb He G Ht HR H Hc Hr Hn Hs Hm.
  eapply C114_dropped; eauto.
  unfold calcObjMorphLocal in H. assert (ZZ : In zeros (map (fun _ : R => zeros) (c_log_d c))).
  { apply in_map_iff. exists (nth nb (c_log_d c) 0). split; [reflexivity|now apply nth_In]. }
  destruct Req_EM_T; [injection H as <-; exact ZZ|]. destruct Req_EM_T; [injection H as <-; exact ZZ|]. rewrite Hs in H.
  apply collect_spec in H. apply (f_equal (fun k => nth_error k nb)) in H. rewrite !nth_error_map in H.
  assert (En : nth_error (seq 0 (length (c_log_d c))) nb = Some nb).
  { rewrite (nth_error_nth' _ 0%nat) by now rewrite seq_length. now rewrite seq_nth. }
  rewrite En in H. cbn [option_map] in H. destruct (nth_error l nb) as [mi|] eqn:El; [|discriminate]. cbn [option_map] in H. apply Some_inj in H.
  apply few_particles in H; [|exact Ht|].
  - injection H as ->. eapply nth_error_In. exact El.
  - eapply Z.le_lt_trans; [|exact Hm]. apply Nat2Z.inj_le. unfold closer_than. rewrite <- (filter_nth_length _ v0). apply Nat.eq_le_incl. f_equal. apply filter_ext. intros k.
    unfold in_sphere, dist2. cbv zeta. cbn [vsub vx vy vz].
    match goal with |- (if Rlt_dec ?a _ then _ else _) = (if Rlt_dec ?b _ then _ else _) => replace a with b by ring end. reflexivity.
Qed.
Print Assumptions C114_sparse.

(** An object with a shape at each of its radii is drawn with the triaxiality of the radius nearest to the depth
    asked for, in [0, 1], unless q = 1 there. Missing: objects without a shape at some radius. *)
Theorem C114_partial : forall eig fuel c r xyz ten masses center tcenter l big r200 frac cat p,
  eig_contract eig -> nonneg xyz masses -> c_tol c < 1 -> (forall x, In x (c_log_d c) -> x <> 0) -> c_log_d c <> [] ->
  calcObjMorphLocal eig fuel c r xyz ten masses center tcenter = Some (Ret l) -> ~ In zeros l ->
  nth_error cat p = Some (map nan_morph l) -> nth_error r200 p = Some r ->
  exists j mi q s, nearest (map (fun x => r * x) (c_log_d c)) (r * frac) j /\ nth_error l j = Some mi /\
    mq mi = Fin q /\ ms mi = Fin s /\ 0 < s <= q /\ q <= 1 /\
    nth_error (drawn_T big r200 frac cat) p = Some (if Req_EM_T q 1 then NaN else Fin ((1 - q * q) / (1 - s * s))) /\
    (q < 1 -> 0 <= (1 - q * q) / (1 - s * s) <= 1).
Proof.
  intros eig fuel c r xyz ten masses center tcenter l big r200 frac cat p He G Ht HR HN H HZ Hc Hr.
  destruct (rows_ok _ _ _ _ _ _ _ _ _ _ He G Ht HR H) as [HL K].
  assert (K' : forall nb mi, nth_error l nb = Some mi -> valid_shape (r * nth nb (c_log_d c) 0) mi /\ r * nth nb (c_log_d c) 0 <> 0).
  { intros nb mi E. destruct (K nb mi E) as [->|V]; [|exact V]. exfalso. apply HZ. eapply nth_error_In. exact E. }
  set (ds := map (fun x => r * x) (c_log_d c)).
  assert (ED : map md (map nan_morph l) = map Fin ds).
  { apply nth_error_ext_len; [unfold ds; rewrite !map_length; exact HL|]. intros n x y Hx Hy. unfold ds in Hy.
    rewrite !nth_error_map in Hx, Hy. destruct (nth_error l n) as [mi|] eqn:E; [|discriminate].
    destruct (nth_error (c_log_d c) n) as [z|] eqn:Ez; [|discriminate]. cbn in Hx, Hy. injection Hx as <-. injection Hy as <-.
    destruct (K' n mi E) as [(D & _) N]. rewrite (nth_error_nth _ _ 0 Ez) in D, N. rewrite D. unfold nanz. cbn [xeqb]. destruct Req_EM_T; [contradiction|reflexivity]. }
  assert (NE : ds <> []) by (unfold ds; destruct (c_log_d c); [contradiction|discriminate]).
  pose proof (radius_nearest ds r frac NE) as Near. set (j := radius_index (map Fin ds) r frac) in *.
  assert (Hj : (j < length l)%nat) by (rewrite HL; destruct Near as [Q _]; unfold ds in Q; rewrite map_length in Q; exact Q).
  destruct (nth_error l j) as [mi|] eqn:El; [|apply nth_error_None in El; lia].
  destruct (K' j mi El) as [(_ & q & s & _ & _ & _ & Q & S & B1 & B2 & _) _].
  exists j, mi, q, s. split; [exact Near|]. split; [exact El|]. split; [exact Q|]. split; [exact S|]. split; [exact B1|]. split; [exact B2|].
  rewrite (local_T_nth big r200 frac cat p (map nan_morph l) r Hc Hr), ED. cbv zeta. fold j.
  assert (N : forall f d, nth j (map f (map nan_morph l)) d = f (nan_morph mi) :> xr).
  { intros f d. apply nth_error_nth. rewrite !nth_error_map, El. reflexivity. }
  rewrite !N. cbn [nan_morph mq ms]. rewrite Q, S.
  assert (E : forall x, 0 < x -> nanz (Fin x) = Fin x) by (intros x Hx; unfold nanz; cbn [xeqb]; destruct (Req_EM_T x 0); [lra|reflexivity]).
  rewrite !E by lra. clear -B1 B2. destruct (Req_EM_T s 1) as [->|Hs].
  - assert (q = 1) as -> by lra. split; [|lra]. destruct (Req_EM_T 1 1); [|contradiction]. rewrite C76_sphere. cbn [nan_to_num]. unfold zero_to_nan. cbn [xeqb]. destruct (Req_EM_T 0 0); [reflexivity|contradiction].
  - destruct (C76_range q s ltac:(lra) ltac:(lra) ltac:(lra)) as (t & Et & Hr & H0 & _). rewrite Et. rewrite (triax_fin q s ltac:(nra)) in Et. injection Et as ->.
    split; [|intros _; exact Hr]. cbn [nan_to_num]. unfold zero_to_nan. cbn [xeqb]. destruct (Req_EM_T t 0) as [Z|Z], (Req_EM_T q 1) as [Z'|Z']; try reflexivity; exfalso; tauto.
Qed.
Print Assumptions C114_partial.

(** ** Witness *)
(** Six particles on the axes, R200 = 10, radii 1/10 and 10: no particle lies within 1/10. *)
Definition two_radii : kcfg := mkC (1/100) 100 1 false false 0 [1/100; 1].
Lemma two_radii_rows : exists mi, calcObjMorphLocal exact_eig 100 two_radii 10 cloud6 cloud6 ones6 v0 v0 = Some (Ret [zeros; mi]) /\
  md mi = Fin 10 /\ mq mi = Fin (2/3) /\ ms mi = Fin (1/3).
Proof.
  destruct (run6 exact_eig exact_eig_contract (mkM (Fin 10) (Fin 0) (Fin 0) x0 x0 x0) 98) as (mi & tr & H & Q & S & D & _).
  exists mi. split; [|auto]. unfold calcObjMorphLocal. destruct Req_EM_T as [E|_]; [destruct (spread6 E)|]. destruct Req_EM_T as [E|_]; [lra|].
  unfold two_radii. cbn [c_log_d length seq map c_shell nth c_tol c_wall c_min c_reduced]. replace (10 * 1) with 10 by ring. rewrite H.
  destruct (C31_terminates exact_eig cloud6 cloud6 ones6 v0 v0 (10 * (1/100)) None (1/100) 100 1 false 100
    (mkM (Fin (10 * (1/100))) (Fin 0) (Fin 0) x0 x0 x0) ltac:(lia)) as (r & tr' & T).
  rewrite T. cbn [option_map fst]. assert (r = Ret zeros) as ->; [|reflexivity].
  eapply (few_particles exact_eig cloud6 cloud6 ones6 v0 v0 (10 * (1/100)) None (1/100) 100 1 false 100); [lra| |rewrite T; reflexivity].
  unfold cloud6. cbn [length seq filter nth]. unfold in_sphere, dist2. cbn [vx vy vz v0].
  repeat (destruct Rlt_dec; [lra|]). cbn. lia.
Qed.
(** It has the shape q = 2/3, s = 1/3 at R200, hence the triaxiality 5/8 there, but is left out of the histogram
    at R200: no bar has a height. *)
Theorem C114_refuted : exists mi, calcObjMorphLocal exact_eig 100 two_radii 10 cloud6 cloud6 ones6 v0 v0 = Some (Ret [zeros; mi]) /\
  md mi = Fin (10 * 1) /\ triaxiality (mq mi) (ms mi) = Fin (5/8) /\
  let cat := [map nan_morph [zeros; mi]] in
  forall big nb, (2 <= nb)%nat ->
    getLocalTHist big nb [10] 1 (column md cat) (column mq cat) (column ms cat) = Some (repeat NaN (nb - 1)).
Proof.
  destruct two_radii_rows as (mi & H & D & Q & S). exists mi. split; [exact H|]. split; [rewrite D; f_equal; ring|]. split.
  { rewrite Q, S, triax_fin by lra. f_equal. lra. }
  cbv zeta. intros big nb Hnb. unfold getLocalTHist.
  change (local_T big [10] 1 _ _ _) with (drawn_T big [10] 1 [map nan_morph [zeros; mi]]).
  assert (E : drawn_T big [10] 1 [map nan_morph [zeros; mi]] = [NaN]).
  { pose proof (C114_dropped exact_eig 100 two_radii 10 cloud6 cloud6 ones6 v0 v0 [zeros; mi] big [10] 1 [map nan_morph [zeros; mi]] 0
      exact_eig_contract good6 ltac:(cbn; lra) ltac:(cbn; intros x [<-|[<-|[]]]; lra) H (or_introl eq_refl) eq_refl eq_refl) as P.
    assert (L : length (drawn_T big [10] 1 [map nan_morph [zeros; mi]]) = 1%nat) by reflexivity.
    destruct (drawn_T big [10] 1 [map nan_morph [zeros; mi]]) as [|y [|? ?]]; try discriminate. cbn in P. injection P as ->. reflexivity. }
  rewrite E. destruct (C113_partial nb [NaN] Hnb) as (bars & -> & _ & Z & _). f_equal. apply Z. reflexivity.
Qed.
Print Assumptions C114_refuted.
(** With the outer radius alone the same particles meet C114_partial. *)
Example C114_ex : let c := mkC (1/100) 100 1 false false 0 [1] in exists mi,
  calcObjMorphLocal exact_eig 100 c 10 cloud6 cloud6 ones6 v0 v0 = Some (Ret [mi]) /\ ~ In zeros [mi] /\
  nth_error (drawn_T 1 [10] 1 [map nan_morph [mi]]) 0 = Some (Fin (5/8)).
Proof.
  intros c. destruct (run6 exact_eig exact_eig_contract (mkM (Fin 10) (Fin 0) (Fin 0) x0 x0 x0) 98) as (mi & tr & H & Q & S & D & _).
  exists mi. assert (E : calcObjMorphLocal exact_eig 100 c 10 cloud6 cloud6 ones6 v0 v0 = Some (Ret [mi])).
  { unfold calcObjMorphLocal. destruct Req_EM_T as [E|_]; [destruct (spread6 E)|]. destruct Req_EM_T as [E|_]; [lra|].
    unfold c. cbn [c_log_d length seq map c_shell nth c_tol c_wall c_min c_reduced]. replace (10 * 1) with 10 by ring. rewrite H. reflexivity. }
  assert (Z : ~ In zeros [mi]). { intros [->|[]]. cbn in Q. injection Q. lra. }
  split; [exact E|]. split; [exact Z|].
  destruct (C114_partial exact_eig 100 c 10 cloud6 cloud6 ones6 v0 v0 [mi] 1 [10] 1 [map nan_morph [mi]] 0 exact_eig_contract good6 ltac:(cbn; lra)
    ltac:(cbn; intros x [<-|[]]; lra) ltac:(discriminate) E Z eq_refl eq_refl) as (j & mi' & q & s & (J & _) & Ej & Q' & S' & _ & _ & -> & _).
  cbn in J. assert (j = 0%nat) as -> by lia. cbn in Ej. injection Ej as <-. rewrite Q in Q'. rewrite S in S'. injection Q' as <-. injection S' as <-.
  destruct Req_EM_T as [X|_]; [lra|]. do 2 f_equal. lra.
Qed.
