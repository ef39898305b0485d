(** C115: what the figures of plotShapeProfs show. *)
From Coq Require Import List Reals Bool Arith Lia Lra ZArith Permutation.
From Verif Require Import XR GeoModel EpsProps StatModel StatProps StatProps2 StatProps3 SplitProps FigModel FigProps ShapeModel ShapeSpec ShapeProofs ShapeKatz
  Spectral ShapeFacts ShapeExamples ShapeProps LocalTProps ShapeFigModel.
Import ListNotations.
Open Scope R_scope.

(** ** Specification *)
(** The intermediate and the minor axis ratio and the triaxiality of one entry of the shape catalogue; a sphere
    has no triaxiality. *)
Definition ratio_q (mi : morph) : option R := match mq mi with Fin q => Some q | _ => None end.
Definition ratio_s (mi : morph) : option R := match ms mi with Fin s => Some s | _ => None end.
Definition triax (mi : morph) : option R :=
  match mq mi, ms mi with
  | Fin q, Fin s => if Req_EM_T s 1 then None else Some ((1 - q * q) / (1 - s * s))
  | _, _ => None
  end.
(** The values of a quantity that the objects [objs] have at radius i. *)
Definition values (g : morph -> option R) (cat : list (list morph)) (objs : list nat) (i : nat) : list R :=
  flat_map (fun p => match nth_error cat p with
                     | Some row => match nth_error row i with
                                   | Some mi => match g mi with Some x => [x] | None => [] end
                                   | None => []
                                   end
                     | None => []
                     end) objs.
(** A figure with the median of the values as line and quartiles over the root of their number as band. *)
Definition shows (fig : panel) (n : nat) (vals : nat -> list R) : Prop :=
  length (p_line fig) = n /\ length (p_low fig) = n /\ length (p_high fig) = n /\
  forall i, (i < n)%nat ->
    (vals i = [] -> nth i (p_line fig) PInf = NaN /\ nth i (p_low fig) PInf = NaN /\ nth i (p_high fig) PInf = NaN) /\
    (vals i <> [] -> exists x q1 q3, middle (vals i) x /\ quartile 1 (vals i) q1 /\ quartile 3 (vals i) q3 /\
       nth i (p_line fig) NaN = Fin x /\
       nth i (p_low fig) NaN = Fin (x - q1 / sqrt (INR (length (vals i)))) /\
       nth i (p_high fig) NaN = Fin (x + q3 / sqrt (INR (length (vals i))))).
(** A catalogue as calcMorphLocal makes it: one row per object, from the particles of the object. *)
Definition catalogue (ror r200 : list R) (cat : list (list morph)) : Prop :=
  forall p row, nth_error cat p = Some row ->
    exists eig fuel c xyz ten masses center tcenter l,
      eig_contract eig /\ nonneg xyz masses /\ c_tol c < 1 /\ c_log_d c = ror /\
      calcObjMorphLocal eig fuel c (nth p r200 0) xyz ten masses center tcenter = Some (Ret l) /\ row = map nan_morph l.

(** ** Proofs *)
Definition lift (o : option R) : xr := match o with Some x => Fin x | None => NaN end.
Lemma finite_map_Fin l : finite (map Fin l) = Some l.
Proof. induction l as [|a l IH]; cbn; [reflexivity|]. now rewrite IH. Qed.
Lemma panel_shows y vals n : length y = n -> (forall i, (i < n)%nat -> nth i y [] = map Fin (vals i)) -> shows (panel_of y) n vals.
Proof.
  intros HL H. unfold shows, panel_of. cbn [p_line p_low p_high]. rewrite !map_length. repeat (split; [exact HL|]). intros i Hi.
  assert (N : forall (f : list xr -> xr) d, nth i (map f y) d = f (map Fin (vals i))).
  { intros f d. rewrite (nth_indep _ d (f [])) by (rewrite map_length; lia). rewrite map_nth. f_equal. apply H. exact Hi. }
  rewrite !N. unfold bin_stats. rewrite finite_map_Fin. set (z := vals i). clearbody z. split.
  - intros ->. cbn. auto.
  - intros Hz. exists (median z), (quantile (1/4) z), (quantile (3/4) z).
    split; [now apply median_middle|]. split; [replace (1/4) with (INR 1 / 4) by (simpl; lra); apply quantile_quartile; [exact Hz|lia]|].
    split; [replace (3/4) with (INR 3 / 4) by (simpl; lra); apply quantile_quartile; [exact Hz|lia]|].
    unfold median_quantile. destruct z; [congruence|]. cbn [fst snd xsub xneg xadd]. auto.
Qed.
Lemma filter_one (g : nat -> bool) i n : (i < n)%nat -> filter (fun k => g k && Nat.eqb k i) (seq 0 n) = if g i then [i] else [].
Proof.
  intros H. assert (Hn : seq 0 n = seq 0 i ++ [i] ++ seq (S i) (n - i - 1)).
  { change [i] with (seq i 1). replace (S i) with (i + 1)%nat by lia. rewrite <- seq_app. replace i with (0 + i)%nat at 2 by lia. rewrite <- seq_app. f_equal. lia. }
  assert (Z : forall a m, (forall k, In k (seq a m) -> k <> i) -> filter (fun k => g k && Nat.eqb k i) (seq a m) = []).
  { intros a m K. induction (seq a m) as [|x l IH]; [reflexivity|]. cbn [filter]. destruct (Nat.eqb_spec x i) as [->|_]; [exfalso; apply (K i); [now left|reflexivity]|].
    rewrite andb_false_r. apply IH. intros k Hk. apply K. now right. }
  rewrite Hn, !filter_app, !Z; [|intros k Hk; apply in_seq in Hk; lia ..]. cbn [filter app]. rewrite Nat.eqb_refl, andb_true_r. destruct (g i); reflexivity.
Qed.
Lemma filter_map {A B} (f : A -> B) (g : B -> bool) l : filter g (map f l) = map f (filter (fun x => g (f x)) l).
Proof. induction l as [|a l IH]; [reflexivity|]. cbn. destruct (g (f a)); cbn; now rewrite IH. Qed.
Lemma filter_flat {A B} (f : A -> list B) (g : B -> bool) l : filter g (flat_map f l) = flat_map (fun x => filter g (f x)) l.
Proof. induction l as [|a l IH]; [reflexivity|]. cbn. now rewrite filter_app, IH. Qed.
Lemma filter_ext_in' {A} (f g : A -> bool) l : (forall x, In x l -> f x = g x) -> filter f l = filter g l.
Proof. apply filter_ext_in. Qed.
(** Entry of a column. *)
Lemma column_entry f cat p i : StatProps.entry (LocalTProps.column f cat) (p, i) =
  match nth_error cat p with Some row => match nth_error row i with Some mi => f mi | None => NaN end | None => NaN end.
Proof.
  unfold StatProps.entry, LocalTProps.column. cbn [fst snd]. destruct (nth_error cat p) as [row|] eqn:E.
  - rewrite (nth_error_nth (map (map f) cat) p [] (x := map f row)) by (rewrite nth_error_map, E; reflexivity).
    destruct (nth_error row i) as [mi|] eqn:F.
    + apply nth_error_nth. rewrite nth_error_map, F. reflexivity.
    + apply nth_overflow. rewrite map_length. now apply nth_error_None.
  - rewrite (nth_overflow (map (map f) cat)) by (rewrite map_length; now apply nth_error_None). now destruct i.
Qed.
(** Values end up in the bin of their radius. *)
Lemma collected f g cat ror r200 objs i : ror <> [] -> (i < length ror)%nat ->
  (forall p row k mi, nth_error cat p = Some row -> nth_error row k = Some mi -> (k < length ror)%nat ->
     f mi = lift (g mi) /\ (g mi <> None -> closest_idx ror (md mi) (nth p r200 0) = k)) ->
  nth i (StatModel.collect objs (LocalTProps.column md cat) (LocalTProps.column f cat) ror r200) [] = map Fin (values g cat objs i).
Proof.
  intros Hr Hi H. destruct (collect_nth objs (LocalTProps.column md cat) (LocalTProps.column f cat) ror r200 i Hr) as [-> _].
  unfold entries, values. rewrite filter_flat, !flat_map_concat_map, !concat_map, !map_map. f_equal. apply map_ext. intros p.
  rewrite filter_map, map_map.
  rewrite (filter_ext_in' _ (fun k => negb (xisnan (StatProps.entry (LocalTProps.column f cat) (p, k))) && Nat.eqb k i)).
  - rewrite filter_one by exact Hi. rewrite column_entry. destruct (nth_error cat p) as [row|] eqn:E; [|reflexivity].
    destruct (nth_error row i) as [mi|] eqn:F; [|reflexivity]. destruct (H p row i mi E F Hi) as [K _]. rewrite K.
    destruct (g mi); cbn [lift xisnan negb map]; [|reflexivity]. rewrite column_entry, E, F, K. destruct (g mi) eqn:G; reflexivity || idtac.
  - intros k Hk. apply in_seq in Hk. rewrite !column_entry. cbn [fst]. destruct (nth_error cat p) as [row|] eqn:E; [|reflexivity].
    destruct (nth_error row k) as [mi|] eqn:F; [|reflexivity]. destruct (H p row k mi E F ltac:(lia)) as [K C]. rewrite K.
    destruct (g mi); [|reflexivity]. rewrite C by discriminate. reflexivity.
Qed.
Lemma nearest_self ror k x : NoDup ror -> (k < length ror)%nat -> x = nth k ror 0 -> nearest ror x k.
Proof.
  intros Hn Hk ->. unfold nearest. split; [exact Hk|]. replace (nth k ror 0 - nth k ror 0) with 0 by ring. rewrite Rabs_R0. split.
  - intros j _. apply Rabs_pos.
  - intros j Hj. apply Rabs_pos_lt. intros E. assert (nth j ror 0 = nth k ror 0) as E' by lra. eapply NoDup_nth in E'; [lia|exact Hn|lia|exact Hk].
Qed.
(** What an entry of a catalogue looks like. *)
Lemma cat_entry ror r200 cat : NoDup ror -> (forall x, In x ror -> x <> 0) -> catalogue ror r200 cat ->
  forall p row k mi, nth_error cat p = Some row -> nth_error row k = Some mi -> (k < length ror)%nat ->
  (md mi = NaN /\ mq mi = NaN /\ ms mi = NaN) \/
  (closest_idx ror (md mi) (nth p r200 0) = k /\ exists q s, mq mi = Fin q /\ ms mi = Fin s /\ 0 < s <= q /\ q <= 1).
Proof.
  intros Hn H0 HC p row k mi E F Hk. destruct (HC p row E) as (eig & fuel & c & xyz & ten & masses & center & tcenter & l & He & G & Ht & Hror & H & ->).
  rewrite <- Hror in *. set (r := nth p r200 0) in *. clearbody r.
  destruct (rows_ok _ _ _ _ _ _ _ _ _ _ He G Ht H0 H) as [_ K]. rewrite nth_error_map in F. destruct (nth_error l k) as [m0|] eqn:El; [|discriminate].
  cbn in F. apply Some_inj in F. subst mi. destruct (K k m0 El) as [->|[(D & q & s & _ & _ & _ & Q & S & B1 & B2 & _) N]].
  - left. cbn. rewrite nanz_zero. auto.
  - right. cbn [nan_morph md mq ms]. rewrite D, Q, S.
    assert (X : forall x, x <> 0 -> nanz (Fin x) = Fin x) by (intros x Hx; unfold nanz; cbn [xeqb]; destruct (Req_EM_T x 0); [contradiction|reflexivity]).
    rewrite !X by (exact N || lra). split; [|exists q, s; auto].
    assert (Hr : r <> 0) by (intros ->; apply N; ring).
    assert (NE : c_log_d c <> []) by (intros Z; rewrite Z in Hk; cbn in Hk; lia).
    eapply nearest_unique; [apply closest_nearest; [exact NE|exact Hr]|]. apply nearest_self; [exact Hn|exact Hk|]. field. exact Hr.
Qed.
Lemma T_rows_column cat : T_rows (LocalTProps.column mq cat) (LocalTProps.column ms cat) = column (fun mi => triaxiality (mq mi) (ms mi)) cat.
Proof.
  unfold T_rows, LocalTProps.column. induction cat as [|row cat IH]; [reflexivity|]. cbn [map combine fst snd]. f_equal; [|exact IH]. clear.
  induction row as [|mi row IH]; [reflexivity|]. cbn [map combine fst snd]. f_equal. exact IH.
Qed.
Lemma triax_lift q s : 0 < s <= q -> q <= 1 -> triaxiality (Fin q) (Fin s) = lift (if Req_EM_T s 1 then None else Some ((1 - q * q) / (1 - s * s))).
Proof.
  intros H1 H2. destruct (Req_EM_T s 1) as [->|N].
  - assert (q = 1) as -> by lra. apply C76_sphere.
  - cbn [lift]. apply triax_fin. nra.
Qed.

(** The figures of all objects and of the mass groups: at each radius the median of q, s and T over the objects
    with a shape there; the groups share out the objects by mass. Missing: the width of the band. *)
Theorem C115_partial : forall ror r200 masses args cat nb figs,
  ror <> [] -> NoDup ror -> (forall x, In x ror -> x <> 0) -> catalogue ror r200 cat -> length masses = length cat -> is_argsort masses args ->
  getShapeProfs ror r200 masses args (LocalTProps.column md cat) (LocalTProps.column mq cat) (LocalTProps.column ms cat) nb = Some figs ->
  let n := length ror in let all := seq 0 (length cat) in
  shows (q_all figs) n (values ratio_q cat all) /\ shows (s_all figs) n (values ratio_s cat all) /\ shows (T_all figs) n (values triax cat all) /\
  exists groups, Permutation (concat groups) all /\
    (forall j k p p', (j < k)%nat -> In p (nth j groups []) -> In p' (nth k groups []) -> nth p masses 0 <= nth p' masses 0) /\
    length (q_grp figs) = length groups /\ length (s_grp figs) = length groups /\ length (T_grp figs) = length groups /\
    forall k, (k < length groups)%nat -> let objs := nth k groups [] in let none := mkPanel [] [] [] in objs <> [] /\
      shows (nth k (q_grp figs) none) n (values ratio_q cat objs) /\
      shows (nth k (s_grp figs) none) n (values ratio_s cat objs) /\
      shows (nth k (T_grp figs) none) n (values triax cat objs).
Proof.
  intros ror r200 masses args cat nb figs Hr Hn H0 HC HL Ha H n all.
  assert (E : forall f g, (forall mi, mq mi = NaN -> ms mi = NaN -> f mi = NaN /\ g mi = None) ->
    (forall mi q s, mq mi = Fin q -> ms mi = Fin s -> 0 < s <= q -> q <= 1 -> f mi = lift (g mi)) ->
    forall objs, shows (panel_of (StatModel.collect objs (LocalTProps.column md cat) (LocalTProps.column f cat) ror r200)) n (values g cat objs)).
  { intros f g F1 F2 objs. apply panel_shows; [apply (collect_nth objs (LocalTProps.column md cat) (LocalTProps.column f cat) ror r200 0 Hr)|]. intros i Hi.
    apply collected; [exact Hr|exact Hi|]. intros p row k mi P1 P2 Hk.
    destruct (cat_entry ror r200 cat Hn H0 HC p row k mi P1 P2 Hk) as [(_ & Q & S)|(C & q & s & Q & S & B1 & B2)].
    - destruct (F1 mi Q S) as [-> ->]. split; [reflexivity|congruence].
    - split; [eapply F2; eassumption|intros _; exact C]. }
  pose proof (E mq ratio_q ltac:(intros mi Q S; unfold ratio_q; rewrite Q; auto) ltac:(intros mi q s Q S _ _; unfold ratio_q; rewrite Q; reflexivity)) as Eq.
  pose proof (E ms ratio_s ltac:(intros mi Q S; unfold ratio_s; rewrite S; auto) ltac:(intros mi q s Q S _ _; unfold ratio_s; rewrite S; reflexivity)) as Es.
  pose proof (E (fun mi => triaxiality (mq mi) (ms mi)) triax ltac:(intros mi Q S; unfold triax; rewrite Q, S; auto)
    ltac:(intros mi q s Q S B1 B2; unfold triax; rewrite Q, S; apply triax_lift; assumption)) as Et. clear E.
  unfold getShapeProfs in H. destruct (M_split tt masses [] None args nb) as [sp|] eqn:Hsp; [|discriminate].
  assert (Hnb : (1 <= nb)%nat) by (destruct nb; [discriminate Hsp|lia]).
  assert (Hg : length (m_groups sp) = length (idx_groups sp)).
  { clear -Hsp. unfold M_split in Hsp. destruct nb; [discriminate|]. destruct (Nat.eqb _ 0); apply Some_inj in Hsp; subst sp; cbn [m_groups idx_groups]; [reflexivity|].
    now rewrite map_length, seq_length. }
  rewrite T_rows_column in H. rewrite Hg in H.
  destruct (m_groups sp) as [|g0 gs] eqn:Hm; [discriminate|]. cbv zeta in H. apply Some_inj in H. subst figs. cbn [q_all s_all T_all q_grp s_grp T_grp].
  assert (La : forall f, seq 0 (length (LocalTProps.column f cat)) = all) by (intros f; unfold LocalTProps.column; now rewrite map_length).
  unfold getShape_y. rewrite !La. split; [apply Eq|]. split; [apply Es|]. split; [apply Et|].
  exists (idx_groups sp). destruct (C49_partition tt masses [] None args nb sp Ha Hnb Hsp) as [P _]. rewrite HL in P. split; [exact P|].
  split; [exact (C49_ordered tt masses [] None args nb sp Ha Hnb Hsp)|]. rewrite !map_length, seq_length. do 3 (split; [reflexivity|]).
  intros k Hk. cbv zeta. rewrite !nth_map_seq by exact Hk. split; [|split; [apply Eq|split; [apply Es|apply Et]]].
  destruct (C49_sizes tt masses [] None args nb sp Ha Hnb Hsp) as (size & S1 & S2).
  destruct (C49_sizes tt masses [] None args nb sp Ha Hnb Hsp) as (_ & _ & _).
  intros Z. assert (size <> 0)%nat.
  { specialize (S2 (length (idx_groups sp) - 1)%nat ltac:(lia)). lia. }
  destruct (Nat.eq_dec (S k) (length (idx_groups sp))) as [L|L].
  - specialize (S2 k L). rewrite Z in S2. cbn in S2. lia.
  - specialize (S1 k ltac:(lia)). rewrite Z in S1. cbn in S1. lia.
Qed.
Print Assumptions C115_partial.

(** The figures fail exactly without mass bins or without objects. *)
Theorem C115_errors : forall ror r200 masses args d q s nb, is_argsort masses args ->
  getShapeProfs ror r200 masses args d q s nb = None <-> nb = 0%nat \/ masses = [].
Proof.
  intros ror r200 masses args d q s nb Ha. unfold getShapeProfs. destruct nb as [|nb]; [cbn; tauto|].
  destruct (M_split tt masses [] None args (S nb)) as [sp|] eqn:E; [|apply C49_total in E; discriminate].
  assert (L : length (m_groups sp) = length (idx_groups sp)).
  { clear -E. unfold M_split in E. destruct (Nat.eqb _ 0); apply Some_inj in E; subst sp; cbn [m_groups idx_groups]; [reflexivity|].
    now rewrite map_length, seq_length. }
  destruct (C49_partition tt masses [] None args (S nb) sp Ha ltac:(lia) E) as [P _].
  destruct (m_groups sp) as [|g gs] eqn:M; split; intros H.
  - right. destruct (idx_groups sp); [|discriminate L]. apply Permutation_length in P. rewrite seq_length in P. cbn in P. now destruct masses.
  - reflexivity.
  - discriminate.
  - destruct H as [H|H]; [discriminate|]. subst masses. rewrite split_empty in E by lia. apply Some_inj in E. subst sp. discriminate M.
Qed.
Print Assumptions C115_errors.

(** ** The band *)
Lemma single_middle v x : middle [v] x -> x = v.
Proof. intros (s & P & _ & ->). apply Permutation_sym, Permutation_length_1_inv in P. subst s. cbn. lra. Qed.
Lemma single_quartile j v x : quartile j [v] x -> x = v.
Proof. intros (s & P & _ & E). apply Permutation_sym, Permutation_length_1_inv in P. subst s. cbv zeta in E. cbn [length] in E. rewrite Nat.sub_diag, Nat.mul_0_r in E. cbn in E. lra. Qed.
Definition one_radius : kcfg := mkC (1/100) 100 1 false false 0 [1].
Lemma one_radius_row : exists mi, calcObjMorphLocal exact_eig 100 one_radius 10 cloud6 cloud6 ones6 v0 v0 = Some (Ret [mi]) /\
  mq mi = Fin (2/3) /\ ms mi = Fin (1/3).
Proof.
  destruct (run6 exact_eig exact_eig_contract (mkM (Fin 10) (Fin 0) (Fin 0) x0 x0 x0) 98) as (mi & tr & H & Q & S & D & _).
  exists mi. split; [|auto]. unfold calcObjMorphLocal. destruct Req_EM_T as [E|_]; [destruct (spread6 E)|]. destruct Req_EM_T as [E|_]; [lra|].
  unfold one_radius. cbn [c_log_d length seq map c_shell nth c_tol c_wall c_min c_reduced]. replace (10 * 1) with 10 by ring. rewrite H. reflexivity.
Qed.
Lemma nan_ratio x : 0 < x -> nanz (Fin x) = Fin x.
Proof. intros Hx. unfold nanz. cbn [xeqb]. destruct (Req_EM_T x 0); [lra|reflexivity]. Qed.
(** One object with q = 2/3: the line is at 2/3, the band reaches from 0 to 4/3, beyond every axis ratio. *)
Theorem C115_refuted : exists cat figs, catalogue [1] [10] cat /\ is_argsort [5] [0%nat] /\
  getShapeProfs [1] [10] [5] [0%nat] (LocalTProps.column md cat) (LocalTProps.column mq cat) (LocalTProps.column ms cat) 1 = Some figs /\
  values ratio_q cat [0%nat] 0 = [2/3] /\
  p_line (q_all figs) = [Fin (2/3)] /\ p_low (q_all figs) = [Fin 0] /\ p_high (q_all figs) = [Fin (4/3)].
Proof.
  destruct one_radius_row as (mi & H & Q & S). set (cat := [map nan_morph [mi]]).
  assert (A : is_argsort [5] [0%nat]) by (split; cbn; [reflexivity|repeat constructor]).
  assert (C : catalogue [1] [10] cat).
  { intros [|[|p]] row E; cbn in E; try discriminate. apply Some_inj in E. subst row.
    exists exact_eig, 100%nat, one_radius, cloud6, cloud6, ones6, v0, v0, [mi].
    split; [apply exact_eig_contract|]. split; [apply good6|]. split; [cbn; lra|]. split; [reflexivity|]. split; [exact H|reflexivity]. }
  destruct (getShapeProfs [1] [10] [5] [0%nat] (LocalTProps.column md cat) (LocalTProps.column mq cat) (LocalTProps.column ms cat) 1) as [figs|] eqn:E.
  2: { apply (proj1 (C115_errors _ _ _ _ _ _ _ _ A)) in E. destruct E; discriminate. }
  exists cat, figs. split; [exact C|]. split; [exact A|]. split; [exact E|].
  assert (V : values ratio_q cat [0%nat] 0 = [2/3]).
  { unfold values, cat. cbn [flat_map nth_error map app]. unfold ratio_q. cbn [nan_morph mq]. rewrite Q, nan_ratio by lra. reflexivity. }
  split; [exact V|].
  destruct (C115_partial [1] [10] [5] [0%nat] cat 1 figs ltac:(discriminate) ltac:(repeat constructor; auto) ltac:(intros x [<-|[]]; lra) C eq_refl A E) as ((L1 & L2 & L3 & W) & _).
  destruct (W 0%nat ltac:(cbn; lia)) as [_ W']. cbn [length seq] in W'. fold cat in W'. change (length cat) with 1%nat in W'. cbn [seq] in W'. rewrite V in W'.
  destruct (W' ltac:(discriminate)) as (x & q1 & q3 & M & Q1 & Q3 & X1 & X2 & X3). apply single_middle in M. apply single_quartile in Q1, Q3. subst x q1 q3.
  cbn [length] in *. replace (INR 1) with 1 in * by reflexivity. rewrite sqrt_1 in *.
  destruct (p_line (q_all figs)) as [|? [|? ?]]; try discriminate. destruct (p_low (q_all figs)) as [|? [|? ?]]; try discriminate. destruct (p_high (q_all figs)) as [|? [|? ?]]; try discriminate.
  cbn in X1, X2, X3. subst. repeat split; f_equal; f_equal; lra.
Qed.
Print Assumptions C115_refuted.
(** Six particles on the axes, two radii of which the inner one holds no particle: the catalogue meets the
    hypotheses of C115_partial; the line is missing inside, and at the outer radius T = 5/8. Without objects there
    are no figures. *)
Example C115_ex : exists cat figs, catalogue [1/100; 1] [10] cat /\ is_argsort [5] [0%nat] /\ NoDup [1/100; 1] /\
  getShapeProfs [1/100; 1] [10] [5] [0%nat] (LocalTProps.column md cat) (LocalTProps.column mq cat) (LocalTProps.column ms cat) 1 = Some figs /\
  p_line (T_all figs) = [NaN; Fin (5/8)].
Proof.
  destruct two_radii_rows as (mi & H & D & Q & S). set (cat := [map nan_morph [zeros; mi]]).
  assert (A : is_argsort [5] [0%nat]) by (split; cbn; [reflexivity|repeat constructor]).
  assert (ND : NoDup [1/100; 1]) by (repeat constructor; cbn; intuition lra).
  assert (C : catalogue [1/100; 1] [10] cat).
  { intros [|[|p]] row E; cbn in E; try discriminate. apply Some_inj in E. subst row.
    exists exact_eig, 100%nat, two_radii, cloud6, cloud6, ones6, v0, v0, [zeros; mi].
    split; [apply exact_eig_contract|]. split; [apply good6|]. split; [cbn; lra|]. split; [reflexivity|]. split; [exact H|reflexivity]. }
  destruct (getShapeProfs [1/100; 1] [10] [5] [0%nat] (LocalTProps.column md cat) (LocalTProps.column mq cat) (LocalTProps.column ms cat) 1) as [figs|] eqn:E.
  2: { apply (proj1 (C115_errors _ _ _ _ _ _ _ _ A)) in E. destruct E; discriminate. }
  exists cat, figs. split; [exact C|]. split; [exact A|]. split; [exact ND|]. split; [exact E|].
  destruct (C115_partial [1/100; 1] [10] [5] [0%nat] cat 1 figs ltac:(discriminate) ND ltac:(intros x [<-|[<-|[]]]; lra) C eq_refl A E) as (_ & _ & (L1 & _ & _ & W) & _).
  change (seq 0 (length cat)) with [0%nat] in W.
  assert (V0 : values triax cat [0%nat] 0 = []).
  { unfold values, cat. cbn [flat_map nth_error map app]. unfold triax. cbn [nan_morph zeros mq ms]. rewrite nanz_zero. reflexivity. }
  assert (V1 : values triax cat [0%nat] 1 = [5/8]).
  { unfold values, cat. cbn [flat_map nth_error map app]. unfold triax. cbn [nan_morph mq ms]. rewrite Q, S, !nan_ratio by lra. destruct Req_EM_T; [lra|]. cbn [app]. f_equal. lra. }
  destruct (W 0%nat ltac:(cbn; lia)) as [W0 _]. rewrite V0 in W0. destruct (W0 eq_refl) as (X0 & _).
  destruct (W 1%nat ltac:(cbn; lia)) as [_ W1]. rewrite V1 in W1. destruct (W1 ltac:(discriminate)) as (x & q1 & q3 & M & _ & _ & X1 & _). apply single_middle in M. subst x.
  destruct (p_line (T_all figs)) as [|a [|b [|? ?]]]; try discriminate. cbn in X0, X1. now subst.
Qed.
Example C115_errors_ex : getShapeProfs [1] [] [] [] [] [] [] 3 = None /\ is_argsort [] [].
Proof. split; [reflexivity|]. split; [constructor|constructor]. Qed.
