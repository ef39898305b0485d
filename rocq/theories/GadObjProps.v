(** Property C99: the data of a Gadget object are in one unit. *)
From Coq Require Import String List Reals Bool ZArith Lia Lra.
From Verif Require Import ListUtil CacheModel CacheSpec CacheProofs ConfigModel ConfigSpec ConfigProofs ConfigUnits GadObjModel.
Import ListNotations.
Local Open Scope R_scope.

(** ** Specification *)
(** Megaparsec per h in centimetres and the input length unit expressed in it. *)
Definition mpc_h (c : config) : R := 3085678 * 10 ^ 18 / little_h c.
Definition length_scale (c : config) : R := in_l c / mpc_h c.
Definition mass_scale (c : config) : R := in_m c / (1989 * 10 ^ 40 / little_h c).
(** The units in force after a program: only the updates count. *)
Definition units_after (c : config) (h : list gop) : config :=
  fold_left (fun c x => match x with
    | GIn l m v hh => fst (updateIn c l m v hh)
    | GOut l m v hh => fst (updateOut c l m v hh)
    | _ => c end) h c.
Definition times (f : R) (l : list R) : list R := map (fun x => x * f) l.
Definition times2 (f : R) (l : list (list R)) : list (list R) := map (times f) l.
(** Units that can be divided by. *)
Definition fit (c : config) : Prop := little_h c <> 0 /\ in_l c <> 0 /\ in_m c <> 0 /\ in_v c <> 0 /\ out_l c <> 0 /\ out_m c <> 0 /\ out_v c <> 0.
(** One unit for everything: the numbers an analysis works on are those of the files times one factor. *)
Definition one_unit (s : snap) (raw : list R) (x : obs) : Prop :=
  match x with
  | OUse pos _ r box => exists f, f <> 0 /\ pos = times2 f (sn_pos s) /\ r = of_groups (sn_sel s) (times f raw) /\ box = sn_box s * f
  | _ => True
  end.

Lemma some_inj {A} (a b : A) : Some a = Some b -> a = b.
Proof. congruence. Qed.
Lemma units_app c h1 h2 : units_after c (h1 ++ h2) = units_after (units_after c h1) h2.
Proof. apply fold_left_app. Qed.

Lemma of_groups_times sel f raw : of_groups sel (times f raw) = times f (of_groups sel raw).
Proof.
  unfold of_groups, times. rewrite map_map. apply map_ext. intros g.
  rewrite <- (Rmult_0_l f) at 1. exact (map_nth (fun x => x * f) raw 0 g).
Qed.
Lemma mpc_nz c : little_h c <> 0 -> mpc_h c <> 0.
Proof. intros H. now apply mpch_nz. Qed.
Lemma facs_ok c : fit c ->
  unit_facs c = inl (mpc_h c / in_l c, 1989 * 10 ^ 40 / little_h c / in_m c, 10 ^ 5 / in_v c).
Proof.
  intros (H & Hl & Hm & Hv & _). unfold unit_facs. rewrite internal_ok by auto. rewrite !pydiv_ok by auto. reflexivity.
Qed.
Lemma facs_inv c x : unit_facs c = inl x -> fst (fst x) = mpc_h c / in_l c /\ snd (fst x) = 1989 * 10 ^ 40 / little_h c / in_m c /\
  in_l c <> 0 /\ in_m c <> 0 /\ little_h c <> 0.
Proof.
  unfold unit_facs. destruct (Req_EM_T (little_h c) 0) as [E|N].
  - unfold internal, admissible. rewrite E. destruct (Req_EM_T 0 0); [discriminate|congruence].
  - rewrite internal_ok by auto. unfold pydiv. destruct (Req_EM_T (in_l c) 0); [discriminate|].
    destruct (Req_EM_T (in_m c) 0); [discriminate|]. destruct (Req_EM_T (in_v c) 0); [discriminate|].
    intros H. apply (f_equal (fun y => match y with inl z => z | inr _ => x end)) in H. cbn beta iota in H. subst x. auto.
Qed.
Lemma pos_inv c s v : read_pos c s = inl v -> v = times2 (length_scale c) (sn_pos s) /\ length_scale c <> 0.
Proof.
  unfold read_pos. destruct (unit_facs c) as [[[fl fm] fv]|e] eqn:E; [|discriminate].
  destruct (facs_inv c _ E) as (E1 & _ & Hl & _ & Hh). cbn [fst snd] in E1. subst fl.
  assert (Hn := mpc_nz c Hh).
  intros H. apply (f_equal (fun y => match y with inl z => z | inr _ => v end)) in H. cbn beta iota in H. subst v. split.
  - unfold times2, times. apply map_ext. intros p. apply map_ext. intros x. unfold length_scale. field. auto.
  - unfold length_scale, Rdiv. apply Rmult_integral_contrapositive_currified; auto. now apply Rinv_neq_0_compat.
Qed.
Lemma mass_inv c s v : read_mass c s = inl v -> v = times (mass_scale c) (sn_mass s).
Proof.
  unfold read_mass. destruct (unit_facs c) as [[[fl fm] fv]|e] eqn:E; [|discriminate].
  destruct (facs_inv c _ E) as (_ & E1 & Hl & Hm & Hh). cbn [fst snd] in E1. subst fm.
  assert (Hn := emh_nz (little_h c) Hh).
  intros H. apply (f_equal (fun y => match y with inl z => z | inr _ => v end)) in H. cbn beta iota in H. subst v.
  unfold times. apply map_ext. intros x. unfold mass_scale. pose proof (p10 40). field. auto.
Qed.
Lemma pos_ok c s : fit c -> read_pos c s = inl (times2 (length_scale c) (sn_pos s)).
Proof.
  intros H. destruct (read_pos c s) as [v|e] eqn:E.
  - f_equal. now apply pos_inv in E.
  - unfold read_pos in E. rewrite facs_ok in E by auto. discriminate.
Qed.
Lemma mass_ok c s : fit c -> read_mass c s = inl (times (mass_scale c) (sn_mass s)).
Proof.
  intros H. destruct (read_mass c s) as [v|e] eqn:E.
  - f_equal. now apply mass_inv in E.
  - unfold read_mass in E. rewrite facs_ok in E by auto. discriminate.
Qed.

Section Obj.
  Variable files : fofargs -> list R + err.
  Notation inv := (cinv fofargs (list R)).
  Notation run := (grun files).
  Notation step := (gstep files).

  Lemma run_app m h1 : forall h2 w, run m (h1 ++ h2) w = match run m h1 w with Some w => run m h2 w | None => None end.
  Proof.
    induction h1 as [|x h1 IH]; intros h2 w; [reflexivity|]. cbn [app grun].
    destruct (step m w x) as [[w' o]|]; [apply IH|reflexivity].
  Qed.

  (** Radii kept in the memo were scaled with the units in force at some time. *)
  Definition kept (Q : R -> Prop) (e : fofargs * list R) : Prop :=
    exists raw f, files (fst e) = inl raw /\ Q f /\ snd e = times f raw.
  Lemma get_kept m c memo a a1 a2 (Q : R -> Prop) : Q (length_scale c) -> inv m (kept Q) memo ->
    exists memo' o, getFoF files m c memo a a1 a2 = Some (memo', o) /\ inv m (kept Q) memo' /\
      (forall v, o = inl v -> exists raw f, files a = inl raw /\ Q f /\ v = times f raw) /\
      (little_h c <> 0 -> forall raw, files a = inl raw -> exists f, Q f /\ o = inl (times f raw)).
  Proof.
    intros Hc Hi.
    assert (Hok : forall raw, little_h c <> 0 -> files a = inl raw -> fof_inner files c a = inl (times (length_scale c) raw)).
    { intros raw Hh Hf. rewrite (inner_ok files c a raw Hh Hf). unfold rescaled, times, length_scale, mpc_h. f_equal.
      apply map_ext. intros x. unfold Rdiv. ring. }
    assert (Hnew : forall v, fof_inner files c a = inl v -> kept Q (a, v)).
    { intros v Hv. destruct (files a) as [raw|e] eqn:Ef; [|unfold fof_inner in Hv; rewrite Ef in Hv; discriminate].
      destruct (Req_EM_T (little_h c) 0) as [E|N].
      - unfold fof_inner, internal, admissible in Hv. rewrite Ef, E in Hv. destruct (Req_EM_T 0 0); [discriminate|congruence].
      - rewrite (Hok raw N eq_refl) in Hv. apply (f_equal (fun y => match y with inl z => z | inr _ => v end)) in Hv. cbn beta iota in Hv.
        exists raw, (length_scale c). cbn [fst snd]. auto. }
    assert (Hgood : forall o, (o = fof_inner files c a \/ exists v, o = inl v /\ kept Q (a, v)) ->
      (forall v, o = inl v -> exists raw f, files a = inl raw /\ Q f /\ v = times f raw) /\
      (little_h c <> 0 -> forall raw, files a = inl raw -> exists f, Q f /\ o = inl (times f raw))).
    { intros o [->|(v & -> & raw & f & H1 & H2 & H3)]; split.
      - intros v Hv. destruct (Hnew v Hv) as (raw & f & H1 & H2 & H3). exists raw, f. auto.
      - intros Hh raw Hf. exists (length_scale c). auto.
      - intros v' [= <-]. exists raw, f. auto.
      - intros _ raw' Hf. cbn [fst snd] in *. assert (raw' = raw) by congruence. subst. exists f. auto. }
    unfold getFoF.
    destruct (cinv_call fofargs fofargs (list R) err fofargs_dec (fun a => a) (fof_inner files c) m (kept Q) memo a a1 Hnew Hi)
      as (s1 & ran & o & -> & Hi1 & Ho).
    destruct o as [v|e].
    - destruct (cinv_call fofargs fofargs (list R) err fofargs_dec (fun a => a) (fof_inner files c) m (kept Q) s1 a a2 Hnew Hi1)
        as (s2 & ran2 & o2 & -> & Hi2 & Ho2).
      exists s2, o2. split; [auto|split; [auto|]]. now apply Hgood.
    - exists s1, (inr e). split; [auto|split; [auto|]]. now apply Hgood.
  Qed.

  (** Scales in force at some time during a program. *)
  Definition seen (c0 : config) (h : list gop) (f : R) : Prop := exists p q, h = p ++ q /\ f = length_scale (units_after c0 p).
  Lemma seen_app c0 h q f : seen c0 h f -> seen c0 (h ++ q) f.
  Proof. intros (p & q' & -> & ->). exists p, (q' ++ q). now rewrite app_assoc. Qed.
  Lemma seen_now c0 h : seen c0 h (length_scale (units_after c0 h)).
  Proof. exists h, []. now rewrite app_nil_r. Qed.

  (** Where an object comes from. *)
  Definition made (m : mode) (c0 : config) (h : list gop) (i : nat) (o : gobj) : Prop :=
    exists p a1 a2 q wp, h = p ++ GNew (g_snap o) a1 a2 :: q /\ run m p (start c0) = Some wp /\ length (w_objs wp) = i /\
      g_pos o = times2 (length_scale (units_after c0 p)) (sn_pos (g_snap o)) /\
      g_mass o = times (mass_scale (units_after c0 p)) (sn_mass (g_snap o)) /\
      g_box o = sn_box (g_snap o) * length_scale (units_after c0 p) /\
      length_scale (units_after c0 p) <> 0 /\
      exists raw f, files (sn_fof (g_snap o)) = inl raw /\ seen c0 h f /\ g_r200 o = of_groups (sn_sel (g_snap o)) (times f raw).
  Lemma made_app m c0 h i o q : made m c0 h i o -> made m c0 (h ++ q) i o.
  Proof.
    intros (p & a1 & a2 & q' & wp & E & H1 & H2 & H3 & H4 & H5 & H5' & raw & f & H6 & H7 & H8).
    exists p, a1, a2, (q' ++ q), wp. rewrite E, <- app_assoc. repeat (split; [first [reflexivity|assumption]|]).
    exists raw, f. split; auto. split; auto. rewrite E in H7. apply (seen_app c0 _ q) in H7. rewrite <- app_assoc in H7. exact H7.
  Qed.
  Definition wok (m : mode) (c0 : config) (h : list gop) (w : world) : Prop :=
    w_conf w = units_after c0 h /\ inv m (kept (seen c0 h)) (w_memo w) /\
    forall i o, nth_error (w_objs w) i = Some o -> made m c0 h i o.

  Lemma set_nth_same {A} i (x : A) l o : nth_error l i = Some o -> nth_error (set_nth i x l) i = Some x.
  Proof. revert i; induction l as [|y l IH]; intros [|i] H; cbn in *; try discriminate; auto. Qed.
  Lemma set_nth_other {A} i j (x : A) l : i <> j -> nth_error (set_nth i x l) j = nth_error l j.
  Proof. revert i j; induction l as [|y l IH]; intros [|i] [|j] H; cbn in *; auto; congruence. Qed.
  Lemma set_nth_len {A} i (x : A) l : length (set_nth i x l) = length l.
  Proof. revert i; induction l as [|y l IH]; intros [|i]; cbn; auto. Qed.

  Lemma refresh_ok m c0 h w i o a1 a2 x : wok m c0 h w -> nth_error (w_objs w) i = Some o ->
    exists w' r, refresh files m w i o a1 a2 = Some (w', r) /\ wok m c0 (h ++ [x]) (mkW (units_after c0 (h ++ [x])) (w_memo w') (w_objs w')) /\
      w_conf w' = w_conf w /\ length (w_objs w') = length (w_objs w) /\
      (forall o', r = inl o' -> nth_error (w_objs w') i = Some o' /\ g_snap o' = g_snap o /\ g_pos o' = g_pos o /\ g_mass o' = g_mass o /\ g_box o' = g_box o /\ made m c0 (h ++ [x]) i o') /\
      (little_h (w_conf w) <> 0 -> exists o', r = inl o').
  Proof.
    intros (Hc & Hm & Ho) Hi. unfold refresh.
    destruct (get_kept m (w_conf w) (w_memo w) (sn_fof (g_snap o)) a1 a2 (seen c0 h)) as (memo & r & -> & Hi' & Hv & Hs); auto.
    { rewrite Hc. apply seen_now. }
    assert (Hi2 : inv m (kept (seen c0 (h ++ [x]))) memo).
    { eapply cinv_mono; [|exact Hi']. intros e (raw & f & K1 & K2 & K3). exists raw, f. split; [auto|split; [now apply seen_app|auto]]. }
    assert (Mo := Ho i o Hi).
    destruct r as [r|e].
    - destruct (Hv r eq_refl) as (raw & f & K1 & K2 & K3).
      set (o' := mkG (g_snap o) (g_pos o) (g_mass o) (g_box o) (of_groups (sn_sel (g_snap o)) r)).
      assert (Mo' : made m c0 (h ++ [x]) i o').
      { apply (made_app _ _ _ _ _ [x]) in Mo.
        destruct Mo as (p & b1 & b2 & q & wp & E & H1 & H2 & H3 & H4 & H5 & H5' & _).
        exists p, b1, b2, q, wp. unfold o'. cbn [g_snap g_pos g_mass g_box g_r200]. repeat (split; [assumption|]).
        exists raw, f. split; auto. split; [now apply seen_app|]. now rewrite K3. }
      eexists _, _. split; [reflexivity|]. split; [|split; [reflexivity|]]; [|split; [apply set_nth_len|]].
      + split; [reflexivity|]. split; [exact Hi2|]. cbn [w_objs]. intros j oj Hj.
        destruct (Nat.eq_dec i j) as [<-|Nij].
        * fold o' in Hj. rewrite (set_nth_same i o' _ o Hi) in Hj. apply some_inj in Hj. subst oj. exact Mo'.
        * rewrite set_nth_other in Hj by auto. apply made_app. now apply Ho.
      + split; [|intros _; eexists; reflexivity].
        intros o1 E1. apply (f_equal (fun y => match y with inl z => z | inr _ => o1 end)) in E1. cbv beta iota zeta in E1. subst o1. change (mkG _ _ _ _ _) with o'. cbn [w_objs].
        fold o'. rewrite (set_nth_same i o' _ o Hi). repeat split. exact Mo'.
    - eexists _, _. split; [reflexivity|]. split; [|split; [reflexivity|]]; [|split; [reflexivity|]].
      + split; [reflexivity|]. split; [exact Hi2|]. cbn [w_objs]. intros j oj Hj. apply made_app. now apply Ho.
      + split; [discriminate|]. intros Hh.
        destruct (Ho i o Hi) as (p & b1 & b2 & q & wp & _ & _ & _ & _ & _ & _ & _ & raw & f & K1 & _).
        destruct (Hs Hh raw K1) as (f' & _ & Q). discriminate.
  Qed.

  Lemma units_plain c0 h x : match x with GIn _ _ _ _ | GOut _ _ _ _ => False | _ => True end -> units_after c0 (h ++ [x]) = units_after c0 h.
  Proof. intros H. rewrite units_app. destruct x; try contradiction; reflexivity. Qed.

  Lemma world_eta w : mkW (w_conf w) (w_memo w) (w_objs w) = w. Proof. now destruct w. Qed.

  Lemma step_ok m c0 h w x : run m h (start c0) = Some w -> wok m c0 h w ->
    exists w' o, step m w x = Some (w', o) /\ wok m c0 (h ++ [x]) w'.
  Proof.
    intros Hrun Hw. destruct Hw as (Hc & Hm & Ho).
    assert (Hmono : inv m (kept (seen c0 (h ++ [x]))) (w_memo w)).
    { eapply cinv_mono; [|exact Hm]. intros e (raw & f & K1 & K2 & K3). exists raw, f. split; [auto|split; [now apply seen_app|auto]]. }
    assert (Hobj : forall i o, nth_error (w_objs w) i = Some o -> made m c0 (h ++ [x]) i o).
    { intros i o Hi. apply made_app. now apply Ho. }
    assert (Hstay : match x with GIn _ _ _ _ | GOut _ _ _ _ => False | _ => True end -> wok m c0 (h ++ [x]) w).
    { intros Hx. split; [rewrite units_plain; auto|]. auto. }
    destruct x as [l ms v hh|l ms v hh|s a1 a2|i|i|i a1 a2|i|i a1 a2]; cbn [gstep].
    - eexists _, _. split; [reflexivity|]. split; [|auto]. cbn [w_conf]. rewrite units_app, <- Hc. reflexivity.
    - eexists _, _. split; [reflexivity|]. split; [|auto]. cbn [w_conf]. rewrite units_app, <- Hc. reflexivity.
    - unfold new. destruct (internal (w_conf w)) as [[[li mi] vi]|e] eqn:Ei; [|eexists _, _; split; [reflexivity|auto]].
      destruct (pydiv (in_l (w_conf w)) li) as [f|e] eqn:Ef; [|eexists _, _; split; [reflexivity|auto]].
      destruct (get_kept m (w_conf w) (w_memo w) (sn_fof s) a1 a2 (seen c0 h)) as (memo & r & -> & Hi' & Hv & Hs); auto.
      { rewrite Hc. apply seen_now. }
      assert (Hi2 : inv m (kept (seen c0 (h ++ [GNew s a1 a2]))) memo).
      { eapply cinv_mono; [|exact Hi']. intros e (raw & f' & K1 & K2 & K3). exists raw, f'. split; [auto|split; [now apply seen_app|auto]]. }
      destruct r as [r|e].
      2:{ eexists _, _. split; [reflexivity|]. split; [cbn [w_conf]; rewrite units_plain; auto|auto]. }
      destruct (read_pos (w_conf w) s) as [pos|e] eqn:Ep.
      2:{ eexists _, _. split; [reflexivity|]. split; [cbn [w_conf]; rewrite units_plain; auto|auto]. }
      destruct (read_mass (w_conf w) s) as [mass|e] eqn:Em.
      2:{ eexists _, _. split; [reflexivity|]. split; [cbn [w_conf]; rewrite units_plain; auto|auto]. }
      eexists _, _. split; [reflexivity|]. split; [cbn [w_conf]; rewrite units_plain; auto|]. split; [exact Hi2|]. cbn [w_objs].
      intros i o Hi. destruct (lt_dec i (length (w_objs w))) as [L|L].
      { rewrite nth_error_app1 in Hi by auto. auto. }
      rewrite nth_error_app2 in Hi by lia.
      destruct (i - length (w_objs w))%nat as [|k] eqn:Ek; [|destruct k; discriminate]. cbn in Hi. apply some_inj in Hi. subst o.
      destruct (pos_inv _ _ _ Ep) as [P1 P2]. apply mass_inv in Em.
      destruct (Hv r eq_refl) as (raw & f' & K1 & K2 & K3).
      exists h, a1, a2, [], w. cbn [g_snap g_pos g_mass g_box g_r200]. split; [reflexivity|]. split; [exact Hrun|].
      split; [lia|]. rewrite <- Hc. split; [exact P1|]. split; [exact Em|]. split.
      { f_equal. destruct (Req_EM_T (little_h (w_conf w)) 0) as [E|N].
        - exfalso. unfold internal, admissible in Ei. rewrite E in Ei. destruct (Req_EM_T 0 0); [discriminate|congruence].
        - rewrite internal_ok in Ei by auto. 
          assert (El : li = mpc_h (w_conf w)) by exact (f_equal (fun y => match y with inl (a, _, _) => a | inr _ => li end) (eq_sym Ei)).
          rewrite El, pydiv_ok in Ef by (now apply mpc_nz).
          exact (f_equal (fun y => match y with inl a => a | inr _ => f end) (eq_sym Ef)). }
      split; [exact P2|]. exists raw, f'. split; [auto|]. split; [now apply seen_app|]. now rewrite K3.
    - destruct (nth_error (w_objs w) i) as [o|]; eexists _, _; (split; [reflexivity|auto]).
    - destruct (nth_error (w_objs w) i) as [o|]; eexists _, _; (split; [reflexivity|auto]).
    - destruct (nth_error (w_objs w) i) as [o|] eqn:Hi; [|eexists _, _; split; [reflexivity|auto]].
      unfold get_r200.
      destruct (refresh_ok m c0 h w i o a1 a2 (GR200 i a1 a2)) as (w' & r & -> & Hw' & Hc' & _); [repeat split; auto|auto|].
      rewrite units_plain in Hw' by exact I. rewrite <- Hc, <- Hc', world_eta in Hw'.
      destruct r as [o'|e]; eexists _, _; (split; [reflexivity|auto]).
    - destruct (nth_error (w_objs w) i) as [o|]; eexists _, _; (split; [reflexivity|auto]).
    - destruct (nth_error (w_objs w) i) as [o|] eqn:Hi; [|eexists _, _; split; [reflexivity|auto]].
      unfold use_vel. destruct (read_pos (w_conf w) (g_snap o)) as [pos|e]; [|eexists _, _; split; [reflexivity|auto]].
      destruct (read_mass (w_conf w) (g_snap o)) as [mass|e]; [|eexists _, _; split; [reflexivity|auto]].
      destruct (refresh_ok m c0 h w i o a1 a2 (GUseVel i a1 a2)) as (w' & r & -> & Hw' & Hc' & _); [repeat split; auto|auto|].
      rewrite units_plain in Hw' by exact I. rewrite <- Hc, <- Hc', world_eta in Hw'.
      destruct r as [o'|e]; eexists _, _; (split; [reflexivity|auto]).
  Qed.

  Lemma run_ok m c0 h : exists w, run m h (start c0) = Some w /\ wok m c0 h w.
  Proof.
    induction h as [|x h IH] using rev_ind.
    - exists (start c0). split; [reflexivity|]. split; [reflexivity|]. split; [apply cinv_init|]. intros [|i] o H; discriminate.
    - destruct IH as (w & Hr & Hw). destruct (step_ok m c0 h w x Hr Hw) as (w' & o & Hs & Hw').
      exists w'. rewrite run_app, Hr. cbn [grun]. rewrite Hs. auto.
  Qed.

  (** Objects keep what they were made with. *)
  Definition same_data (o o' : gobj) : Prop := g_snap o' = g_snap o /\ g_pos o' = g_pos o /\ g_mass o' = g_mass o /\ g_box o' = g_box o.
  Lemma same_refl o : same_data o o. Proof. repeat split. Qed.
  Lemma same_trans o1 o2 o3 : same_data o1 o2 -> same_data o2 o3 -> same_data o1 o3.
  Proof. unfold same_data. intros (A & B & C & D) (A' & B' & C' & D'). repeat split; congruence. Qed.
  Lemma refresh_keeps m w i o a1 a2 w' r j oj : nth_error (w_objs w) i = Some o -> refresh files m w i o a1 a2 = Some (w', r) ->
    nth_error (w_objs w) j = Some oj -> exists oj', nth_error (w_objs w') j = Some oj' /\ same_data oj oj'.
  Proof.
    intros Hi Hr Hj. unfold refresh in Hr.
    destruct (getFoF files m (w_conf w) (w_memo w) (sn_fof (g_snap o)) a1 a2) as [[memo [x|e]]|]; [| |discriminate];
      apply some_inj in Hr; pose proof (f_equal fst Hr) as Hr'; cbn [fst] in Hr'; subst w'; cbn [w_objs].
    - destruct (Nat.eq_dec i j) as [<-|N].
      + rewrite (set_nth_same i _ _ o Hi). eexists. split; [reflexivity|]. assert (oj = o) by congruence. subst. repeat split.
      + rewrite set_nth_other by auto. exists oj. split; auto. apply same_refl.
    - exists oj. split; auto. apply same_refl.
  Qed.
  Lemma step_keeps m w x w' o j oj : step m w x = Some (w', o) -> nth_error (w_objs w) j = Some oj ->
    exists oj', nth_error (w_objs w') j = Some oj' /\ same_data oj oj'.
  Proof.
    intros Hs Hj.
    assert (Hid : w' = w -> exists oj', nth_error (w_objs w') j = Some oj' /\ same_data oj oj').
    { intros ->. exists oj. split; auto. apply same_refl. }
    assert (Hmk : forall c memo, w' = mkW c memo (w_objs w) -> exists oj', nth_error (w_objs w') j = Some oj' /\ same_data oj oj').
    { intros c memo ->. exists oj. split; auto. apply same_refl. }
    destruct x as [l ms v hh|l ms v hh|s a1 a2|i|i|i a1 a2|i|i a1 a2]; cbn [gstep] in Hs.
    - apply some_inj in Hs. apply (f_equal fst) in Hs. cbn [fst] in Hs. eapply Hmk. symmetry. exact Hs.
    - apply some_inj in Hs. apply (f_equal fst) in Hs. cbn [fst] in Hs. eapply Hmk. symmetry. exact Hs.
    - unfold new in Hs. destruct (internal (w_conf w)) as [[[li mi] vi]|e];
        [|apply some_inj in Hs; apply (f_equal fst) in Hs; apply Hid; symmetry; exact Hs].
      destruct (pydiv (in_l (w_conf w)) li) as [f|e];
        [|apply some_inj in Hs; apply (f_equal fst) in Hs; apply Hid; symmetry; exact Hs].
      destruct (getFoF files m (w_conf w) (w_memo w) (sn_fof s) a1 a2) as [[memo [r|e]]|]; [| |discriminate].
      + destruct (read_pos (w_conf w) s) as [pos|e];
          [|apply some_inj in Hs; apply (f_equal fst) in Hs; eapply Hmk; symmetry; exact Hs].
        destruct (read_mass (w_conf w) s) as [mass|e];
          [|apply some_inj in Hs; apply (f_equal fst) in Hs; eapply Hmk; symmetry; exact Hs].
        apply some_inj in Hs. apply (f_equal fst) in Hs. cbn [fst] in Hs. subst w'. cbn [w_objs].
        exists oj. split; [|apply same_refl]. rewrite nth_error_app1; auto. apply nth_error_Some. congruence.
      + apply some_inj in Hs. apply (f_equal fst) in Hs. eapply Hmk. symmetry. exact Hs.
    - destruct (nth_error (w_objs w) i); apply some_inj in Hs; apply (f_equal fst) in Hs; apply Hid; symmetry; exact Hs.
    - destruct (nth_error (w_objs w) i); apply some_inj in Hs; apply (f_equal fst) in Hs; apply Hid; symmetry; exact Hs.
    - destruct (nth_error (w_objs w) i) as [o1|] eqn:Hi; [|apply some_inj in Hs; apply (f_equal fst) in Hs; apply Hid; symmetry; exact Hs].
      unfold get_r200 in Hs. destruct (refresh files m w i o1 a1 a2) as [[w1 r]|] eqn:Hr; [|discriminate].
      assert (w' = w1) by (destruct r; apply some_inj in Hs; apply (f_equal fst) in Hs; symmetry; exact Hs). subst w1.
      exact (refresh_keeps _ _ _ _ _ _ _ _ _ _ Hi Hr Hj).
    - destruct (nth_error (w_objs w) i); apply some_inj in Hs; apply (f_equal fst) in Hs; apply Hid; symmetry; exact Hs.
    - destruct (nth_error (w_objs w) i) as [o1|] eqn:Hi; [|apply some_inj in Hs; apply (f_equal fst) in Hs; apply Hid; symmetry; exact Hs].
      unfold use_vel in Hs. destruct (read_pos (w_conf w) (g_snap o1)) as [pos|e];
          [|apply some_inj in Hs; apply (f_equal fst) in Hs; apply Hid; symmetry; exact Hs].
      destruct (read_mass (w_conf w) (g_snap o1)) as [mass|e];
          [|apply some_inj in Hs; apply (f_equal fst) in Hs; apply Hid; symmetry; exact Hs].
      destruct (refresh files m w i o1 a1 a2) as [[w1 r]|] eqn:Hr; [|discriminate].
      assert (w' = w1) by (destruct r; apply some_inj in Hs; apply (f_equal fst) in Hs; symmetry; exact Hs). subst w1.
      exact (refresh_keeps _ _ _ _ _ _ _ _ _ _ Hi Hr Hj).
  Qed.
  Lemma run_keeps m h : forall w w' j oj, run m h w = Some w' -> nth_error (w_objs w) j = Some oj ->
    exists oj', nth_error (w_objs w') j = Some oj' /\ same_data oj oj'.
  Proof.
    induction h as [|x h IH]; intros w w' j oj Hr Hj; cbn [grun] in Hr.
    - apply some_inj in Hr. subst w'. exists oj. split; auto. apply same_refl.
    - destruct (step m w x) as [[w1 o]|] eqn:Hs; [|discriminate].
      destruct (step_keeps _ _ _ _ _ _ _ Hs Hj) as (o1 & H1 & S1).
      destruct (IH _ _ _ _ Hr H1) as (o2 & H2 & S2). exists o2. split; auto. eapply same_trans; eauto.
  Qed.

  (** The world after a program in which an object was made, and the object. *)
  Lemma made_ok m c0 p s a1 a2 q raw : fit (units_after c0 p) -> files (sn_fof s) = inl raw ->
    exists wp w o f, run m p (start c0) = Some wp /\ run m (p ++ GNew s a1 a2 :: q) (start c0) = Some w /\
      wok m c0 (p ++ GNew s a1 a2 :: q) w /\
      nth_error (w_objs w) (length (w_objs wp)) = Some o /\ g_snap o = s /\
      g_pos o = times2 (length_scale (units_after c0 p)) (sn_pos s) /\
      g_mass o = times (mass_scale (units_after c0 p)) (sn_mass s) /\
      g_box o = sn_box s * length_scale (units_after c0 p) /\
      seen c0 (p ++ GNew s a1 a2 :: q) f /\ g_r200 o = of_groups (sn_sel s) (times f raw).
  Proof.
    intros Hf Hraw. destruct (run_ok m c0 p) as (wp & Hrp & Hwp).
    destruct (run_ok m c0 (p ++ GNew s a1 a2 :: q)) as (w & Hr & Hw).
    exists wp, w.
    assert (Hs : exists w1 o1, step m wp (GNew s a1 a2) = Some (w1, None) /\ nth_error (w_objs w1) (length (w_objs wp)) = Some o1 /\ g_snap o1 = s /\
       g_pos o1 = times2 (length_scale (units_after c0 p)) (sn_pos s) /\ g_mass o1 = times (mass_scale (units_after c0 p)) (sn_mass s) /\
       g_box o1 = sn_box s * length_scale (units_after c0 p)).
    { destruct Hwp as (Hc & Hm & _). cbn [gstep]. unfold new. rewrite Hc.
      destruct Hf as (Hh & Hf'). rewrite internal_ok by auto. rewrite pydiv_ok by (now apply mpch_nz).
      destruct (get_kept m (units_after c0 p) (w_memo wp) (sn_fof s) a1 a2 (seen c0 p)) as (memo & r & -> & _ & _ & Hg); auto.
      { apply seen_now. }
      destruct (Hg Hh raw Hraw) as (f & _ & ->).
      rewrite pos_ok, mass_ok by (split; auto). eexists _, _. split; [reflexivity|]. cbn [w_objs].
      rewrite nth_error_app2, Nat.sub_diag by auto. split; [reflexivity|]. repeat split. }
    destruct Hs as (w1 & o1 & Hs & Hn & S0 & S1 & S2 & S3).
    assert (Hr1 : run m q w1 = Some w).
    { rewrite run_app, Hrp in Hr. cbn [grun] in Hr. rewrite Hs in Hr. exact Hr. }
    destruct (run_keeps _ _ _ _ _ _ Hr1 Hn) as (o & Ho & (K0 & K1 & K2 & K3)).
    pose proof (proj2 (proj2 Hw) _ _ Ho) as Mo.
    destruct Mo as (p' & b1 & b2 & q' & wp' & _ & _ & _ & _ & _ & _ & _ & raw' & f & Hraw' & Hseen & Hr200).
    exists o, f. split; [exact Hrp|]. split; [exact Hr|]. split; [exact Hw|]. split; [exact Ho|].
    rewrite K0, S0 in Hraw', Hr200. assert (raw' = raw) by congruence. subst raw'.
    rewrite K0, K1, K2, K3. auto 10.
  Qed.
End Obj.

(** ** C99 *)
(** Whatever was done before, getXYZMasses() and getVelXYZ() of an object give the numbers of the snapshot
    converted from the current input to the current output units: the physical value. *)
Theorem C99_getters : forall files m c0 p s a1 a2 q raw,
  let h := p ++ GNew s a1 a2 :: q in
  fit (units_after c0 p) -> files (sn_fof s) = inl raw -> fit (units_after c0 h) ->
  exists wp w, grun files m p (start c0) = Some wp /\ grun files m h (start c0) = Some w /\
    let c := units_after c0 h in let k := length (w_objs wp) in
    gstep files m w (GXYZ k) = Some (w, Some (OXYZ (times2 (in_l c / out_l c) (sn_pos s)) (times (in_m c / out_m c) (sn_mass s)))) /\
    gstep files m w (GVel k) = Some (w, Some (OVel (times2 (in_v c / out_v c) (sn_vel s)))).
Proof.
  intros files m c0 p s a1 a2 q raw h Hp Hraw Hc.
  destruct (made_ok files m c0 p s a1 a2 q raw Hp Hraw) as (wp & w & o & f & Hrp & Hr & (Hcw & _) & Ho & S0 & _).
  fold h in Hr, Hcw. exists wp, w. split; [exact Hrp|]. split; [exact Hr|]. cbv zeta. cbn [gstep]. rewrite Ho, S0, Hcw.
  set (c := units_after c0 h) in *. clearbody c. clear - Hc.
  pose proof Hc as (Hh & Hl & Hm & Hv & Hol & Hom & Hov). pose proof (p10 18). pose proof (p10 40). pose proof (p10 5).
  split; do 3 f_equal.
  - unfold get_xyz. rewrite pos_ok, mass_ok by auto. rewrite internal_ok by auto. rewrite !pydiv_ok by auto.
    unfold times2, times. rewrite !map_map. f_equal.
    + apply map_ext. intros x. rewrite map_map. apply map_ext. intros y. unfold length_scale, mpc_h. field. auto.
    + apply map_ext. intros y. unfold mass_scale. field. auto.
  - unfold get_vel, read_vel. rewrite facs_ok by auto. rewrite internal_ok by auto. rewrite !pydiv_ok by auto.
    unfold times2, times. rewrite !map_map. f_equal.
    apply map_ext. intros x. rewrite map_map. apply map_ext. intros y. field. auto.
Qed.
Print Assumptions C99_getters.

(** What the analyses work on. Methods that use the data kept in the object: positions, masses and box in
    the units in force when the object was made; radii in the units in force at some time before.
    Velocity methods: positions and masses in the current units, the box in the units in force when the
    object was made, radii as above. *)
Theorem C99_analyses : forall files m c0 p s a1 a2 q raw,
  let h := p ++ GNew s a1 a2 :: q in
  fit (units_after c0 p) -> files (sn_fof s) = inl raw ->
  exists wp w, grun files m p (start c0) = Some wp /\ grun files m h (start c0) = Some w /\
    let k := length (w_objs wp) in let made := units_after c0 p in let now := units_after c0 h in
    (exists f, (exists before after, h = before ++ after /\ f = length_scale (units_after c0 before)) /\
       gstep files m w (GUse k) = Some (w, Some (OUse (times2 (length_scale made) (sn_pos s)) (times (mass_scale made) (sn_mass s))
                                                 (of_groups (sn_sel s) (times f raw)) (sn_box s * length_scale made)))) /\
    (fit now -> forall b1 b2, exists w' f, (exists before after, h = before ++ after /\ f = length_scale (units_after c0 before)) /\
       gstep files m w (GUseVel k b1 b2) = Some (w', Some (OUse (times2 (length_scale now) (sn_pos s)) (times (mass_scale now) (sn_mass s))
                                                          (of_groups (sn_sel s) (times f raw)) (sn_box s * length_scale made)))).
Proof.
  intros files m c0 p s a1 a2 q raw h Hp Hraw.
  destruct (made_ok files m c0 p s a1 a2 q raw Hp Hraw) as (wp & w & o & f & Hrp & Hr & Hw & Ho & S0 & S1 & S2 & S3 & Hf & S4).
  fold h in Hr, Hw, Hf. exists wp, w. split; [exact Hrp|]. split; [exact Hr|]. cbv zeta. split.
  - exists f. split; [exact Hf|]. cbn [gstep]. rewrite Ho. unfold use. now rewrite S1, S2, S3, S4.
  - intros Hn b1 b2. cbn [gstep]. rewrite Ho. unfold use_vel. rewrite (proj1 Hw), S0, pos_ok, mass_ok by auto.
    destruct Hw as (Hcw & Hm & _). unfold refresh. rewrite Hcw, S0.
    destruct (get_kept files m (units_after c0 h) (w_memo w) (sn_fof s) b1 b2 (seen c0 h)) as (memo & r & -> & _ & _ & Hg); auto.
    { apply seen_now. }
    destruct (Hg (proj1 Hn) raw Hraw) as (f' & Hf' & ->). cbn [g_r200 g_box].
    eexists _, f'. split; [exact Hf'|]. rewrite S3. reflexivity.
Qed.
Print Assumptions C99_analyses.

(** getR200(): the radii, converted to the current output unit, of a catalogue read in the units in force
    at some time before. These are the right ones, the numbers in the files times input over output unit,
    as long as no change of units alters the input length unit in megaparsecs per h. *)
Theorem C99_radii : forall files m c0 p s a1 a2 q raw b1 b2,
  let h := p ++ GNew s a1 a2 :: q in
  fit (units_after c0 p) -> files (sn_fof s) = inl raw -> fit (units_after c0 h) ->
  exists wp w w' f, grun files m p (start c0) = Some wp /\ grun files m h (start c0) = Some w /\
    (exists before after, h = before ++ after /\ f = length_scale (units_after c0 before)) /\
    let c := units_after c0 h in
    gstep files m w (GR200 (length (w_objs wp)) b1 b2) = Some (w', Some (OR200 (of_groups (sn_sel s) (times (f * (mpc_h c / out_l c)) raw)))) /\
    ((forall before after, h = before ++ after -> length_scale (units_after c0 before) = length_scale c) ->
     gstep files m w (GR200 (length (w_objs wp)) b1 b2) = Some (w', Some (OR200 (of_groups (sn_sel s) (times (in_l c / out_l c) raw))))).
Proof.
  intros files m c0 p s a1 a2 q raw b1 b2 h Hp Hraw Hn.
  destruct (made_ok files m c0 p s a1 a2 q raw Hp Hraw) as (wp & w & o & f & Hrp & Hr & Hw & Ho & S0 & S1 & S2 & S3 & Hf & S4).
  fold h in Hr, Hw, Hf. destruct Hw as (Hcw & Hm & _).
  destruct (get_kept files m (units_after c0 h) (w_memo w) (sn_fof s) b1 b2 (seen c0 h)) as (memo & r & Eg & _ & _ & Hg); auto.
  { apply seen_now. }
  destruct (Hg (proj1 Hn) raw Hraw) as (f' & Hf' & Er). subst r.
  set (c := units_after c0 h) in *.
  assert (G : exists w', gstep files m w (GR200 (length (w_objs wp)) b1 b2) = Some (w', Some (OR200 (of_groups (sn_sel s) (times (f' * (mpc_h c / out_l c)) raw))))).
  { cbn [gstep]. rewrite Ho. unfold get_r200, refresh. rewrite Hcw, S0, Eg. cbn [w_conf g_r200].
    destruct Hn as (Hh & _ & _ & _ & Hol & _). rewrite internal_ok by auto. rewrite pydiv_ok by auto.
    assert (E : map (fun x => x * (3085678 * 10 ^ 18 / little_h c / out_l c)) (of_groups (sn_sel s) (times f' raw)) = of_groups (sn_sel s) (times (f' * (mpc_h c / out_l c)) raw)).
    { rewrite !of_groups_times. unfold times. rewrite map_map. apply map_ext. intros x. unfold mpc_h, Rdiv. ring. }
    rewrite E. eexists. reflexivity. }
  destruct G as (w' & G). exists wp, w, w', f'. split; [exact Hrp|]. split; [exact Hr|]. split; [exact Hf'|]. cbv zeta. split; [exact G|].
  intros Hs. destruct Hf' as (b & a & Eb & Ef). rewrite (Hs _ _ Eb) in Ef. subst f'.
  destruct Hn as (Hh & _ & _ & _ & Hol & _). pose proof (mpc_nz c Hh) as Hz. rewrite G.
  replace (length_scale c * (mpc_h c / out_l c)) with (in_l c / out_l c); [reflexivity|]. unfold length_scale. field. auto.
Qed.
Print Assumptions C99_radii.
(** Radii 1 and 7 kpc in the files; the object belongs to the second group; output unit 1/2 kpc. *)
Example C99_radii_example : forall m b1 b2,
  let s := mkSnap [[1; 2; 3]] [1] [[0; 0; 0]] 10 ("groups"%string, "R200"%string, 1%nat) [1%nat] in
  let files := fun _ : fofargs => inl [1; 7] : list R + err in
  let c := mkConfig (3085678 * 10 ^ 15) 1 1 1 (3085678 * 10 ^ 15 / 2) 1 1 in
  exists w w', grun files m [GNew s b1 b2] (start c) = Some w /\ gstep files m w (GR200 0 b1 b2) = Some (w', Some (OR200 [14])).
Proof.
  intros m b1 b2 s files c. pose proof (p10 15) as H15.
  assert (N : 3085678 * 10 ^ 15 <> 0) by (apply Rmult_integral_contrapositive_currified; auto; lra).
  assert (F : fit c).
  { unfold fit. cbn [little_h in_l in_m in_v out_l out_m out_v c]. clearbody c. set (y := 3085678 * 10 ^ 15) in *. clearbody y. repeat split; lra. }
  destruct (C99_radii files m c [] s b1 b2 [] [1; 7] b1 b2 F eq_refl F) as (wp & w & w' & f & Hp & Hr & _ & _ & H).
  cbn [grun] in Hp. apply some_inj in Hp. subst wp. exists w, w'. split; [exact Hr|].
  etransitivity; [apply H|].
  - intros before after E. destruct before as [|x [|y l]]; [reflexivity| |destruct l; discriminate E].
    cbn [app] in E. injection E as <- _. reflexivity.
  - unfold units_after. cbn [app fold_left]. unfold of_groups, times. cbn [sn_sel s map nth in_l out_l c].
    replace (7 * (3085678 * 10 ^ 15 / (3085678 * 10 ^ 15 / 2))) with 14; [reflexivity|].
    set (y := 3085678 * 10 ^ 15) in *. clearbody y. field. lra.
Qed.

(** Hence: as long as no change of units alters the input length unit in megaparsecs per h, every analysis
    has everything in one unit. *)
Theorem C99_partial : forall files m c0 p s a1 a2 q raw F,
  let h := p ++ GNew s a1 a2 :: q in
  fit (units_after c0 p) -> files (sn_fof s) = inl raw -> fit (units_after c0 h) ->
  (forall before after, h = before ++ after -> length_scale (units_after c0 before) = F) ->
  exists wp w, grun files m p (start c0) = Some wp /\ grun files m h (start c0) = Some w /\
    (exists x, gstep files m w (GUse (length (w_objs wp))) = Some (w, Some x) /\ one_unit s raw x) /\
    (forall b1 b2, exists w' x, gstep files m w (GUseVel (length (w_objs wp)) b1 b2) = Some (w', Some x) /\ one_unit s raw x).
Proof.
  intros files m c0 p s a1 a2 q raw F h Hp Hraw Hc Hsame.
  destruct (C99_analyses files m c0 p s a1 a2 q raw Hp Hraw) as (wp & w & Hrp & Hr & (f & (b & a & Eb & Ef) & H1) & H2).
  fold h in Hr, H2, Eb. exists wp, w. split; [exact Hrp|]. split; [exact Hr|].
  assert (E1 : length_scale (units_after c0 p) = F) by (eapply Hsame; reflexivity).
  assert (E2 : length_scale (units_after c0 h) = F) by (apply (Hsame h []); now rewrite app_nil_r).
  assert (NF : F <> 0).
  { rewrite <- E1. destruct Hp as (Hh & Hl & _). unfold length_scale, Rdiv. apply Rmult_integral_contrapositive_currified; auto.
    apply Rinv_neq_0_compat. now apply mpc_nz. }
  split.
  - eexists. split; [exact H1|]. cbn [one_unit]. exists F. rewrite E1. rewrite (Hsame _ _ Eb) in Ef. subst f. auto.
  - intros b1 b2. destruct (H2 Hc b1 b2) as (w' & f' & (b' & a' & Eb' & Ef') & H3). exists w'. eexists. split; [exact H3|].
    cbn [one_unit]. exists F. rewrite E1, E2. rewrite (Hsame _ _ Eb') in Ef'. subst f'. auto.
Qed.
Print Assumptions C99_partial.

(** ** Counterexamples *)
Definition kpc_unit : R := 3085678 * 10 ^ 15.
Definition mpc_unit : R := 3085678 * 10 ^ 18.
(** h = 1, input in kpc. *)
Definition conf_kpc : config := mkConfig kpc_unit 1 1 1 1 1 1.
Definition to_mpc : gop := GIn (Num mpc_unit) (Num 1) (Num 1) 1.
Lemma to_mpc_ok c : fst (updateIn c (Num mpc_unit) (Num 1) (Num 1) 1) = mkConfig mpc_unit 1 1 1 (out_l c) (out_m c) (out_v c).
Proof.
  destruct (updateIn_spec c (Num mpc_unit) (Num 1) (Num 1) 1) as [(l & m & v & -> & _ & Hl & Hm & Hv)|(e & _ & [Q|Q])].
  - simpl in Hl, Hm, Hv. subst. reflexivity.
  - exfalso; lra.
  - exfalso. apply Q. repeat split; eexists; simpl; reflexivity.
Qed.
Lemma scale_kpc : length_scale conf_kpc = / 1000.
Proof.
  unfold length_scale, mpc_h, conf_kpc, kpc_unit. cbn [in_l little_h].
  replace (10 ^ 18) with (10 ^ 15 * 1000) by (replace 1000 with (10 ^ 3) by (simpl; lra); rewrite <- pow_add; reflexivity).
  pose proof (p10 15) as H. set (y := 10 ^ 15) in *. clearbody y. field. lra.
Qed.
Lemma scale_mpc l m v : length_scale (mkConfig mpc_unit 1 1 1 l m v) = 1.
Proof. unfold length_scale, mpc_h, mpc_unit. cbn [in_l little_h]. pose proof (p10 18) as H. set (y := 10 ^ 18) in *. clearbody y. field. lra. Qed.
Lemma unit_nz : kpc_unit <> 0 /\ mpc_unit <> 0.
Proof.
  pose proof (p10 15). pose proof (p10 18). unfold kpc_unit, mpc_unit.
  split; apply Rmult_integral_contrapositive_currified; auto; lra.
Qed.
Lemma fit_kpc : fit conf_kpc.
Proof. destruct unit_nz. unfold fit, conf_kpc. cbn. repeat split; auto; lra. Qed.
Lemma fit_mpc : fit (mkConfig mpc_unit 1 1 1 1 1 1).
Proof. destruct unit_nz. unfold fit. cbn. repeat split; auto; lra. Qed.

(** Two simulations, the first in kpc, the second in Mpc. The object of the first is made, the input units
    of the second are set, and velocity shapes of the first are requested: its positions are a thousand
    times too large for its box and its radii, or the box does not fit the others. *)
Theorem C99_refuted : forall m b1 b2, exists files s raw w w' x,
  files (sn_fof s) = inl raw /\ grun files m [GNew s b1 b2; to_mpc] (start conf_kpc) = Some w /\
  gstep files m w (GUseVel 0 b1 b2) = Some (w', Some x) /\ ~ one_unit s raw x.
Proof.
  intros m b1 b2.
  set (s := mkSnap [[1; 2; 3]] [1] [[0; 0; 0]] 10 ("groups"%string, "R200"%string, 1%nat) [0%nat]).
  set (files := fun _ : fofargs => inl [1] : list R + err).
  destruct (C99_analyses files m conf_kpc [] s b1 b2 [to_mpc] [1] fit_kpc eq_refl) as (wp & w & Hp & Hr & _ & H).
  assert (E : units_after conf_kpc ([] ++ GNew s b1 b2 :: [to_mpc]) = mkConfig mpc_unit 1 1 1 1 1 1).
  { unfold units_after. cbn [app fold_left to_mpc]. apply to_mpc_ok. }
  rewrite E in H. cbn [grun] in Hp. apply some_inj in Hp. subst wp.
  destruct (H fit_mpc b1 b2) as (w' & f & _ & Hs).
  exists files, s, [1], w, w'. eexists. split; [reflexivity|]. split; [exact Hr|]. split; [exact Hs|].
  cbn [one_unit]. intros (g & _ & G1 & _ & G2). change (units_after conf_kpc []) with conf_kpc in G2.
  rewrite scale_kpc in G2. rewrite scale_mpc in G1. cbn in G1, G2. injection G1 as G1 _ _. lra.
Qed.
Print Assumptions C99_refuted.

(** The units are corrected and the object is made again: the catalogue is not read again, so that the
    radii are a thousand times too small for the positions. *)
Theorem C99_remade_refuted : forall limit b1 b2, (limit <= b1)%Z -> (limit <= b2)%Z -> exists files s raw w x,
  files (sn_fof s) = inl raw /\ grun files (MemLimited limit) [GNew s b1 b2; to_mpc; GNew s b1 b2] (start conf_kpc) = Some w /\
  gstep files (MemLimited limit) w (GUse 1) = Some (w, Some x) /\ ~ one_unit s raw x.
Proof.
  intros limit b1 b2 L1 L2.
  set (a := ("groups"%string, "R200"%string, 1%nat)).
  set (s := mkSnap [[1; 2; 3]] [1] [[0; 0; 0]] 10 a [0%nat]).
  set (files := fun _ : fofargs => inl [1] : list R + err).
  set (c1 := mkConfig mpc_unit 1 1 1 1 1 1).
  assert (H0 : little_h conf_kpc <> 0) by (cbn; lra).
  destruct (get_mem files limit conf_kpc (init _ _) a b1 b2 L1 L2) as (s1 & o1 & G1 & R1 & _ & K1 & _).
  { apply ready_init. }
  assert (Eo : o1 = inl (times (/ 1000) [1])).
  { destruct (get_kept files (MemLimited limit) conf_kpc (init _ _) a b1 b2 (eq (length_scale conf_kpc)) eq_refl (cinv_init _ _ _ _))
      as (s1' & o1' & G1' & _ & _ & Hg).
    destruct (Hg H0 [1] eq_refl) as (f & <- & E). rewrite <- scale_kpc. congruence. }
  subst o1. specialize (K1 _ eq_refl).
  destruct (get_mem files limit c1 s1 a b1 b2 L1 L2 R1) as (s2 & o2 & G2 & _ & _ & _ & J2 & _).
  specialize (J2 _ K1). subst o2.
  set (A := mkG s (times2 (/ 1000) [[1; 2; 3]]) (times (mass_scale conf_kpc) [1]) (10 * / 1000) (of_groups [0%nat] (times (/ 1000) [1]))).
  set (B := mkG s (times2 1 [[1; 2; 3]]) (times (mass_scale c1) [1]) (10 * 1) (of_groups [0%nat] (times (/ 1000) [1]))).
  exists files, s, [1], (mkW c1 s2 [A; B]), (use B). split; [reflexivity|]. split; [|split; [reflexivity|]].
  - cbn [grun gstep to_mpc]. unfold new at 1. cbn [start w_conf w_memo w_objs].
    rewrite internal_ok by auto. rewrite pydiv_ok by (now apply mpch_nz).
    cbn [sn_fof s]. rewrite G1, pos_ok, mass_ok by apply fit_kpc. cbn [w_conf w_memo w_objs].
    rewrite to_mpc_ok. change (mkConfig mpc_unit 1 1 1 (out_l conf_kpc) (out_m conf_kpc) (out_v conf_kpc)) with c1.
    unfold new. cbn [w_conf w_memo w_objs]. assert (Hc1 : little_h c1 <> 0) by (cbn; lra).
    rewrite internal_ok by auto. rewrite pydiv_ok by (now apply mpch_nz).
    cbn [sn_fof s]. rewrite G2, pos_ok, mass_ok by apply fit_mpc.
    change (in_l conf_kpc / (3085678 * 10 ^ 18 / little_h conf_kpc)) with (length_scale conf_kpc).
    change (in_l c1 / (3085678 * 10 ^ 18 / little_h c1)) with (length_scale c1).
    rewrite scale_kpc. unfold c1 at 2 4. rewrite scale_mpc. reflexivity.
  - unfold use, B. cbn [one_unit g_pos g_mass g_r200 g_box]. intros (g & _ & Q1 & Q2 & _).
    cbn in Q1, Q2. injection Q1 as Q1 _ _. injection Q2 as Q2. lra.
Qed.
Print Assumptions C99_remade_refuted.

(** Non-vacuity of [C99_partial]: two objects and a change of the output units. *)
Example C99_example : forall m b1 b2,
  let s := mkSnap [[1; 2; 3]; [4; 5; 6]] [1; 2] [[0; 0; 0]; [1; 1; 1]] 10 ("groups"%string, "R200"%string, 1%nat) [1%nat] in
  let files := fun _ : fofargs => inl [1; 7] : list R + err in
  exists wp w, grun files m [GNew s b1 b2] (start conf_kpc) = Some wp /\
    grun files m ([GNew s b1 b2] ++ GNew s b1 b2 :: [GOut (Num 5) (Num 2) (Num 3) 1]) (start conf_kpc) = Some w /\
    (exists x, gstep files m w (GUse (length (w_objs wp))) = Some (w, Some x) /\ one_unit s [1; 7] x) /\
    (forall b1 b2, exists w' x, gstep files m w (GUseVel (length (w_objs wp)) b1 b2) = Some (w', Some x) /\ one_unit s [1; 7] x).
Proof.
  intros m b1 b2 s files.
  assert (E : fst (updateOut conf_kpc (Num 5) (Num 2) (Num 3) 1) = mkConfig kpc_unit 1 1 1 5 2 3).
  { destruct (updateOut_spec conf_kpc (Num 5) (Num 2) (Num 3) 1) as [(l & mm & v & -> & _ & Hl & Hm & Hv)|(e & _ & [Q|Q])].
    - simpl in Hl, Hm, Hv. subst. reflexivity.
    - exfalso; lra.
    - exfalso. apply Q. repeat split; eexists; simpl; reflexivity. }
  apply (C99_partial files m conf_kpc [GNew s b1 b2] s b1 b2 [GOut (Num 5) (Num 2) (Num 3) 1] [1; 7] (/ 1000)).
  - apply fit_kpc.
  - reflexivity.
  - unfold units_after. cbn [app fold_left]. rewrite E. destruct unit_nz. unfold fit. cbn. repeat split; auto; lra.
  - intros before after Hh.
    destruct before as [|x1 before]; [exact scale_kpc|]. injection Hh as <- Hh.
    destruct before as [|x2 before]; [exact scale_kpc|]. injection Hh as <- Hh.
    destruct before as [|x3 before]; [exact scale_kpc|]. injection Hh as <- Hh.
    destruct before as [|x4 before]; [|discriminate].
    unfold units_after. cbn [fold_left]. rewrite E. exact scale_kpc.
Qed.
