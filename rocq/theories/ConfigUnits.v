(** Lemmas on unit tables, conversions, labels and the group catalogue reader. *)
From Coq Require Import List Reals String Bool ZArith Lia Lra.
From Verif Require Import ListUtil CacheModel CacheSpec CacheProofs ConfigModel ConfigSpec ConfigProofs.
Import ListNotations.
Local Open Scope R_scope.

Lemma kpc_pos : 0 < kpc_cm.
Proof. unfold kpc_cm. apply Rmult_lt_0_compat; [lra|apply pow_lt; lra]. Qed.
Lemma msun_pos : 0 < msun_g.
Proof. unfold msun_g. apply Rmult_lt_0_compat; [lra|apply pow_lt; lra]. Qed.
Lemma p10 n : 10 ^ n <> 0. Proof. apply pow_nonzero; lra. Qed.
Lemma p10_pos n : 0 < 10 ^ n. Proof. apply pow_lt; lra. Qed.

Lemma mpc_eq : kpc_cm * 10 ^ 3 = 3085678 * 10 ^ 18.
Proof. unfold kpc_cm. rewrite Rmult_assoc, <- pow_add. reflexivity. Qed.
Lemma gpc_eq : kpc_cm * 10 ^ 6 = 3085678 * 10 ^ 21.
Proof. unfold kpc_cm. rewrite Rmult_assoc, <- pow_add. reflexivity. Qed.
Lemma pc_eq : kpc_cm / 10 ^ 3 = 3085678 * 10 ^ 12.
Proof.
  unfold kpc_cm. replace (10 ^ 15) with (10 ^ 12 * 10 ^ 3) by (rewrite <- pow_add; reflexivity).
  field.
Qed.
Lemma emsun_eq : msun_g * 10 ^ 10 = 1989 * 10 ^ 40.
Proof. unfold msun_g. rewrite Rmult_assoc, <- pow_add. reflexivity. Qed.

(** Dictionaries and tables agree. *)
Definition agrees (d : pydict) (tab : string -> R -> Prop) : Prop :=
  NoDup (map fst d) /\ forall s x, In (s, x) d <-> tab s x.

Lemma length_agrees h : agrees (length_d h) (length_unit h).
Proof.
  split.
  - simpl. repeat constructor; simpl; intuition discriminate.
  - intros s x. unfold length_d. rewrite mpc_eq, gpc_eq, pc_eq. fold kpc_cm.
    split.
    + simpl. intros H. decompose [or] H; clear H; try tauto;
        match goal with H : (_, _) = (_, _) |- _ => inversion H; subst end; constructor.
    + intros H; inversion H; subst; simpl; unfold kpc_cm; tauto.
Qed.
Lemma mass_agrees h : agrees (mass_d h) (mass_unit h).
Proof.
  split.
  - simpl. repeat constructor; simpl; intuition discriminate.
  - intros s x. unfold mass_d. rewrite emsun_eq.
    split.
    + simpl. intros H. decompose [or] H; clear H; try tauto;
        match goal with H : (_, _) = (_, _) |- _ => inversion H; subst end; constructor.
    + intros H; inversion H; subst; simpl; unfold msun_g; tauto.
Qed.
Lemma velocity_agrees : agrees velocity_d velocity_unit.
Proof.
  split.
  - simpl. repeat constructor; simpl; intuition discriminate.
  - intros s x. unfold velocity_d. split.
    + simpl. intros [H|[]]. inversion H; subst. constructor.
    + intros H; inversion H; subst; simpl; tauto.
Qed.

Lemma getitem_In d k x : getitem d k = inl x -> In (k, x) d.
Proof.
  induction d as [|[k' v] d IH]; simpl; [discriminate|].
  destruct (string_dec k k'); intros H; [inversion H; subst; auto|auto].
Qed.
Lemma In_getitem d k x : NoDup (map fst d) -> In (k, x) d -> getitem d k = inl x.
Proof.
  induction d as [|[k' v] d IH]; simpl; [tauto|]. intros Hn [H|H].
  - inversion H; subst. destruct (string_dec k k); congruence.
  - inversion Hn; subst. destruct (string_dec k k') as [->|]; auto.
    exfalso. apply H2. apply in_map_iff. exists (k', x); auto.
Qed.
Lemma has_key_spec d k : has_key d k = true <-> exists x, In (k, x) d.
Proof.
  unfold has_key. rewrite existsb_exists. split.
  - intros ([k' x] & H & Hs). simpl in Hs. destruct (string_dec k k'); [subst; eauto|discriminate].
  - intros (x & H). exists (k, x). split; auto. simpl. destruct (string_dec k k); congruence.
Qed.

Lemma resolve_ok d tab u x : agrees d tab -> (resolve d u = inl x <-> denotes tab u x).
Proof.
  intros [Hn Ha]. destruct u as [s|y]; simpl; [|split; congruence].
  destruct (has_key d s) eqn:Hk.
  - rewrite <- Ha. split; [apply getitem_In|apply In_getitem; auto].
  - split; [discriminate|]. intros H. apply Ha in H.
    assert (has_key d s = true) by (apply has_key_spec; eauto). congruence.
Qed.
Lemma resolve_err d tab u e : agrees d tab -> resolve d u = inr e ->
  e = AssertionError /\ ~ exists x, denotes tab u x.
Proof.
  intros [Hn Ha]. destruct u as [s|y]; simpl; [|discriminate].
  destruct (has_key d s) eqn:Hk.
  - apply has_key_spec in Hk. destruct Hk as [x Hx]. rewrite (In_getitem _ _ _ Hn Hx). discriminate.
  - intros [= <-]. split; auto. intros [x Hx]. apply Ha in Hx.
    assert (has_key d s = true) by (apply has_key_spec; eauto). congruence.
Qed.

Lemma admissible_ok h : h <> 0 -> admissible h = inl (length_d h, mass_d h, velocity_d).
Proof. intros H. unfold admissible. destruct (Req_EM_T h 0); tauto. Qed.

Lemma internal_ok c : little_h c <> 0 ->
  internal c = inl (3085678 * 10 ^ 18 / little_h c, 1989 * 10 ^ 40 / little_h c, 10 ^ 5).
Proof.
  intros H. unfold internal. rewrite admissible_ok by auto.
  rewrite <- mpc_eq, <- emsun_eq. reflexivity.
Qed.
Lemma pydiv_ok x y : y <> 0 -> pydiv x y = inl (x / y).
Proof. intros H. unfold pydiv. destruct (Req_EM_T y 0); tauto. Qed.

Lemma mpch_nz h : h <> 0 -> 3085678 * 10 ^ 18 / h <> 0.
Proof.
  intros H. unfold Rdiv. repeat apply Rmult_integral_contrapositive_currified;
    try lra; try apply p10. now apply Rinv_neq_0_compat.
Qed.
Lemma emh_nz h : h <> 0 -> 1989 * 10 ^ 40 / h <> 0.
Proof.
  intros H. unfold Rdiv. repeat apply Rmult_integral_contrapositive_currified;
    try lra; try apply p10. now apply Rinv_neq_0_compat.
Qed.

(** ** Updates *)
Lemma updateIn_spec c l m v h :
  (exists l' m' v', updateIn c l m v h =
     (mkConfig l' m' v' h (out_l c) (out_m c) (out_v c), None) /\ h <> 0 /\
     denotes (length_unit h) l l' /\ denotes (mass_unit h) m m' /\ denotes velocity_unit v v') \/
  (exists e, updateIn c l m v h = (set_h c h, Some e) /\
     (h = 0 \/ ~ ((exists x, denotes (length_unit h) l x) /\ (exists x, denotes (mass_unit h) m x) /\
                  (exists x, denotes velocity_unit v x)))).
Proof.
  unfold updateIn. simpl little_h. unfold admissible.
  destruct (Req_EM_T h 0) as [->|Hh]; [right; eexists; split; [reflexivity|auto]|].
  destruct (resolve (length_d h) l) as [l'|e] eqn:Hl.
  2:{ right. eexists; split; [reflexivity|]. right.
      apply (resolve_err _ _ _ _ (length_agrees h)) in Hl. tauto. }
  destruct (resolve (mass_d h) m) as [m'|e] eqn:Hm.
  2:{ right. eexists; split; [reflexivity|]. right.
      apply (resolve_err _ _ _ _ (mass_agrees h)) in Hm. tauto. }
  destruct (resolve velocity_d v) as [v'|e] eqn:Hv.
  2:{ right. eexists; split; [reflexivity|]. right.
      apply (resolve_err _ _ _ _ velocity_agrees) in Hv. tauto. }
  left. exists l', m', v'. split; [reflexivity|]. split; auto.
  apply (resolve_ok _ _ _ _ (length_agrees h)) in Hl.
  apply (resolve_ok _ _ _ _ (mass_agrees h)) in Hm.
  apply (resolve_ok _ _ _ _ velocity_agrees) in Hv. auto.
Qed.
Lemma updateOut_spec c l m v h :
  (exists l' m' v', updateOut c l m v h =
     (mkConfig (in_l c) (in_m c) (in_v c) h l' m' v', None) /\ h <> 0 /\
     denotes (length_unit h) l l' /\ denotes (mass_unit h) m m' /\ denotes velocity_unit v v') \/
  (exists e, updateOut c l m v h = (set_h c h, Some e) /\
     (h = 0 \/ ~ ((exists x, denotes (length_unit h) l x) /\ (exists x, denotes (mass_unit h) m x) /\
                  (exists x, denotes velocity_unit v x)))).
Proof.
  unfold updateOut. simpl little_h. unfold admissible.
  destruct (Req_EM_T h 0) as [->|Hh]; [right; eexists; split; [reflexivity|auto]|].
  destruct (resolve (length_d h) l) as [l'|e] eqn:Hl.
  2:{ right. eexists; split; [reflexivity|]. right.
      apply (resolve_err _ _ _ _ (length_agrees h)) in Hl. tauto. }
  destruct (resolve (mass_d h) m) as [m'|e] eqn:Hm.
  2:{ right. eexists; split; [reflexivity|]. right.
      apply (resolve_err _ _ _ _ (mass_agrees h)) in Hm. tauto. }
  destruct (resolve velocity_d v) as [v'|e] eqn:Hv.
  2:{ right. eexists; split; [reflexivity|]. right.
      apply (resolve_err _ _ _ _ velocity_agrees) in Hv. tauto. }
  left. exists l', m', v'. split; [reflexivity|]. split; auto.
  apply (resolve_ok _ _ _ _ (length_agrees h)) in Hl.
  apply (resolve_ok _ _ _ _ (mass_agrees h)) in Hm.
  apply (resolve_ok _ _ _ _ velocity_agrees) in Hv. auto.
Qed.

Lemma denotes_fun_l h u x y : denotes (length_unit h) u x -> denotes (length_unit h) u y -> x = y.
Proof.
  intros H1 H2. apply (resolve_ok _ _ _ _ (length_agrees h)) in H1.
  apply (resolve_ok _ _ _ _ (length_agrees h)) in H2. congruence.
Qed.
Lemma denotes_fun_m h u x y : denotes (mass_unit h) u x -> denotes (mass_unit h) u y -> x = y.
Proof.
  intros H1 H2. apply (resolve_ok _ _ _ _ (mass_agrees h)) in H1.
  apply (resolve_ok _ _ _ _ (mass_agrees h)) in H2. congruence.
Qed.
Lemma denotes_fun_v u x y : denotes velocity_unit u x -> denotes velocity_unit u y -> x = y.
Proof.
  intros H1 H2. apply (resolve_ok _ _ _ _ velocity_agrees) in H1.
  apply (resolve_ok _ _ _ _ velocity_agrees) in H2. congruence.
Qed.

(** ** Conversions *)
Lemma get_mpch h : getitem (length_d h) "Mpc/h" = inl (3085678 * 10 ^ 18 / h).
Proof. apply In_getitem; [apply length_agrees|]. apply length_agrees. constructor. Qed.
Lemma get_kms : getitem velocity_d "km/s" = inl (10 ^ 5).
Proof. apply In_getitem; [apply velocity_agrees|]. apply velocity_agrees. constructor. Qed.
Lemma len_in c x : little_h c <> 0 ->
  LengthInToInternal c x = inl (x * (in_l c / (3085678 * 10 ^ 18 / little_h c))).
Proof.
  intros H. unfold LengthInToInternal, factor_from_in. rewrite admissible_ok by auto.
  unfold sel_l. cbn [fst snd]. rewrite get_mpch. rewrite pydiv_ok by (apply mpch_nz; auto). reflexivity.
Qed.
Lemma len_out c x : little_h c <> 0 -> out_l c <> 0 ->
  LengthInternalToOut c x = inl (x * (3085678 * 10 ^ 18 / little_h c / out_l c)).
Proof.
  intros H Ho. unfold LengthInternalToOut, factor_to_out. rewrite admissible_ok by auto.
  unfold sel_l. cbn [fst snd]. rewrite get_mpch. rewrite pydiv_ok by auto. reflexivity.
Qed.
Lemma vel_in c x : little_h c <> 0 ->
  VelInToInternal c x = inl (x * (in_v c / 10 ^ 5)).
Proof.
  intros H. unfold VelInToInternal, factor_from_in. rewrite admissible_ok by auto.
  unfold sel_v. cbn [fst snd]. rewrite get_kms. rewrite pydiv_ok by (apply (p10 5)). reflexivity.
Qed.
Lemma vel_out c x : little_h c <> 0 -> out_v c <> 0 ->
  VelInternalToOut c x = inl (x * (10 ^ 5 / out_v c)).
Proof.
  intros H Ho. unfold VelInternalToOut, factor_to_out. rewrite admissible_ok by auto.
  unfold sel_v. cbn [fst snd]. rewrite get_kms. rewrite pydiv_ok by auto. reflexivity.
Qed.
Lemma mass_in_fails c x : little_h c <> 0 -> MassInToInternal c x = inr KeyError.
Proof. intros H. unfold MassInToInternal, factor_from_in. rewrite admissible_ok by auto. reflexivity. Qed.
Lemma mass_out_fails c x : little_h c <> 0 -> MassInternalToOut c x = inr KeyError.
Proof. intros H. unfold MassInternalToOut, factor_to_out. rewrite admissible_ok by auto. reflexivity. Qed.

(** ** argmin *)
Lemma argmin_min l : forall best bestv i,
  exists y, (argmin best bestv i l = best /\ y = bestv \/
             (i <= argmin best bestv i l)%nat /\ nth_error l (argmin best bestv i l - i) = Some y) /\
            y <= bestv /\ Forall (fun z => y <= z) l.
Proof.
  induction l as [|z l IH]; intros best bestv i; simpl.
  - exists bestv. repeat split; auto; try lra.
  - destruct (Rlt_dec z bestv) as [Hlt|Hge].
    + destruct (IH i z (S i)) as (y & Hy & Hle & Hall). exists y. split; [|split].
      * right. destruct Hy as [[H1 H2]|[H1 H2]].
        -- rewrite H1. split; [lia|]. rewrite Nat.sub_diag. simpl. congruence.
        -- split; [lia|]. replace (argmin i z (S i) l - i)%nat
             with (S (argmin i z (S i) l - S i)) by lia. exact H2.
      * lra.
      * constructor; auto.
    + destruct (IH best bestv (S i)) as (y & Hy & Hle & Hall). exists y. split; [|split].
      * destruct Hy as [[H1 H2]|[H1 H2]]; [left; auto|right].
        split; [lia|]. replace (argmin best bestv (S i) l - i)%nat
             with (S (argmin best bestv (S i) l - S i)) by lia. exact H2.
      * lra.
      * constructor; auto; lra.
Qed.
Lemma np_argmin_spec l : l <> [] -> exists y, nth_error l (np_argmin l) = Some y /\ Forall (fun z => y <= z) l.
Proof.
  destruct l as [|x l]; [congruence|]. intros _. simpl.
  destruct (argmin_min l 0 x 1) as (y & Hy & Hle & Hall). exists y. split; [|constructor; auto].
  destruct Hy as [[H1 H2]|[H1 H2]].
  - rewrite H1. simpl. congruence.
  - destruct (argmin 0 x 1 l); [lia|]. simpl in *. now rewrite Nat.sub_0_r in H2.
Qed.

Lemma one_label_ok d tab base b out : agrees d tab -> d <> [] -> tab base b -> b <> 0 ->
  exists lab, one_label d base out = inl lab /\ label_ok tab out lab.
Proof.
  intros [Hn Ha] Hne Hb Hb0. unfold one_label.
  destruct (existsb _ d) eqn:Hex.
  - apply existsb_exists in Hex. destruct Hex as ([s x] & Hin & Hx). simpl in Hx.
    destruct (Req_EM_T out x) as [->|]; [|discriminate].
    destruct (np_argmin_spec (map (fun e => Rabs (snd e - x)) d)) as (y & Hy & Hall).
    { destruct d; simpl; congruence. }
    assert (y <= 0).
    { rewrite Forall_forall in Hall. apply Hall. apply in_map_iff. exists (s, x). simpl.
      split; auto. rewrite Rminus_diag_eq by auto. apply Rabs_R0. }
    rewrite nth_error_map in Hy |- *.
    destruct (nth_error d (np_argmin (map (fun e => Rabs (snd e - x)) d))) as [[s' x']|] eqn:He; [|discriminate].
    simpl in *. inversion Hy; subst y; clear Hy.
    pose proof (Rabs_pos (x' - x)).
    assert (x' = x).
    { destruct (Req_dec (x' - x) 0); [lra|]. pose proof (Rabs_pos_lt _ H1). lra. }
    subst x'. apply nth_error_In in He. apply Ha in He.
    exists (LName s'). split; auto. split; [intros _; eauto|].
    intros Q; exfalso; apply Q; eauto.
  - rewrite (In_getitem d base b Hn) by (apply Ha; auto). rewrite pydiv_ok by auto.
    exists (LNumeric (out / b) base). split; auto. split.
    + intros [s Hs]. exfalso. apply Ha in Hs. assert (existsb (fun e => if Req_EM_T out (snd e) then true else false) d = true).
      { apply existsb_exists. exists (s, out). split; auto. simpl. destruct (Req_EM_T out out); congruence. }
      congruence.
    + intros _. exists base, b. auto.
Qed.

Lemma labels_ok c : little_h c <> 0 ->
  exists l m v, LMVLabel c = inl (l, m, v) /\ label_ok (length_unit (little_h c)) (out_l c) l /\
    label_ok (mass_unit (little_h c)) (out_m c) m /\ label_ok velocity_unit (out_v c) v.
Proof.
  intros H. unfold LMVLabel. rewrite admissible_ok by auto.
  destruct (one_label_ok (length_d (little_h c)) (length_unit (little_h c)) "kpc" (3085678 * 10 ^ 15) (out_l c)
     (length_agrees _)) as (l & -> & Hl); try discriminate; try constructor.
  { pose proof kpc_pos. unfold kpc_cm in *. lra. }
  destruct (one_label_ok (mass_d (little_h c)) (mass_unit (little_h c)) "Msun" (1989 * 10 ^ 30) (out_m c)
     (mass_agrees _)) as (m & -> & Hm); try discriminate; try constructor.
  { pose proof msun_pos. unfold msun_g in *. lra. }
  destruct (one_label_ok velocity_d velocity_unit "km/s" (10 ^ 5) (out_v c)
     velocity_agrees) as (v & -> & Hv); try discriminate; try constructor.
  { apply (p10 5). }
  exists l, m, v. auto.
Qed.

(** ** Objects *)
Lemma construct_ok c xyz ms r lb : little_h c <> 0 ->
  construct c xyz ms r lb =
  inl (mkObj (map (map (fun x => x * (in_l c / (3085678 * 10 ^ 18 / little_h c)))) xyz)
             (map (fun x => x * (in_m c / (1989 * 10 ^ 40 / little_h c))) ms)
             (map (fun x => x * (in_l c / (3085678 * 10 ^ 18 / little_h c))) r)
             (lb * (in_l c / (3085678 * 10 ^ 18 / little_h c)))).
Proof.
  intros H. unfold construct. rewrite internal_ok by auto.
  rewrite !pydiv_ok by (apply mpch_nz || apply emh_nz; auto). reflexivity.
Qed.

Lemma getters_ok c c' xyz ms r lb : little_h c <> 0 -> usable c' ->
  exists o, construct c xyz ms r lb = inl o /\
    getR200 c' o = inl (map (fun x => x * (in_l c / out_l c') * (little_h c / little_h c')) r) /\
    getXYZMasses c' o = inl (map (map (fun x => x * (in_l c / out_l c') * (little_h c / little_h c'))) xyz,
                             map (fun x => x * (in_m c / out_m c') * (little_h c / little_h c')) ms).
Proof.
  intros H (Hh & Hl & Hm & Hv). rewrite construct_ok by auto. eexists. split; [reflexivity|].
  pose proof (p10 18). pose proof (p10 40).
  unfold getR200, getXYZMasses. rewrite internal_ok by auto. rewrite !pydiv_ok by auto. simpl o_r200.
  simpl o_xyz. simpl o_masses. rewrite !map_map. split.
  - f_equal. apply map_ext. intros x. field. auto.
  - do 2 f_equal.
    + apply map_ext. intros p. rewrite map_map. apply map_ext. intros x. field. auto.
    + apply map_ext. intros x. field. auto.
Qed.

(** ** Group catalogue reader *)
Section FoF.
  Variable files : fofargs -> list R + err.
  Notation cst := (state fofargs (list R)).
  Notation inner := (fof_inner files).
  Notation fcall c := (call fofargs fofargs (list R) err fofargs_dec (fun a => a) (inner c)).

  Lemma inner_ok c a raw : little_h c <> 0 -> files a = inl raw ->
    inner c a = inl (rescaled c raw).
  Proof.
    intros H Hf. unfold fof_inner. rewrite Hf, internal_ok by auto.
    rewrite pydiv_ok by (apply mpch_nz; auto). f_equal. apply map_ext. intros x.
    unfold Rdiv. ring.
  Qed.

  Lemma config_after_app c h1 h2 : config_after c (h1 ++ h2) = config_after (config_after c h1) h2.
  Proof. unfold config_after. apply fold_left_app. Qed.

  (* provenance: a stored entry was computed under the configuration of an earlier Get *)
  Definition prov (c0 : config) (pre : list uop) (e : fofargs * list R) : Prop :=
    exists p a1 a2 q, pre = p ++ GetFoF (fst e) a1 a2 :: q /\
      inner (config_after c0 p) (fst e) = inl (snd e).

  Lemma prov_app c0 pre q e : prov c0 pre e -> prov c0 (pre ++ q) e.
  Proof.
    intros (p & a1 & a2 & q' & -> & H). exists p, a1, a2, (q' ++ q).
    rewrite <- app_assoc. simpl. auto.
  Qed.

  Notation inv := (cinv fofargs (list R)).

  Lemma get_prov m c0 pre s a a1 a2 : inv m (prov c0 pre) s ->
    exists s' o, getFoF files m (config_after c0 pre) s a a1 a2 = Some (s', o) /\
      inv m (prov c0 (pre ++ [GetFoF a a1 a2])) s' /\
      (o = inner (config_after c0 pre) a \/ exists v, o = inl v /\ prov c0 (pre ++ [GetFoF a a1 a2]) (a, v)).
  Proof.
    intros Hi. unfold getFoF.
    set (c := config_after c0 pre). set (P := prov c0 (pre ++ [GetFoF a a1 a2])).
    assert (Hnew : forall v, inner c a = inl v -> P (a, v)).
    { intros v Hv. exists pre, a1, a2, []. auto. }
    assert (HiP : inv m P s) by (eapply cinv_mono; [|exact Hi]; intros; now apply prov_app).
    destruct (cinv_call fofargs fofargs (list R) err fofargs_dec (fun a => a) (inner c) m P s a a1 Hnew HiP)
      as (s1 & ran & o & -> & Hi1 & Ho).
    destruct o as [v|e].
    - destruct (cinv_call fofargs fofargs (list R) err fofargs_dec (fun a => a) (inner c) m P s1 a a2 Hnew Hi1)
        as (s2 & ran2 & o2 & -> & Hi2 & Ho2).
      exists s2, o2. auto.
    - exists s1, (inr e). split; [auto|split; [auto|]]. destruct Ho as [Ho|(v & Hv & _)]; [auto|discriminate].
  Qed.

  Lemma urun_app m h1 : forall h2 cs,
    urun files m (h1 ++ h2) cs =
    match urun files m h1 cs with
    | None => None
    | Some (c, s, rs) => match urun files m h2 (c, s) with
                         | None => None
                         | Some (c', s', rs') => Some (c', s', rs ++ rs')
                         end
    end.
  Proof.
    induction h1 as [|o h1 IH]; intros h2 cs; simpl.
    - destruct cs as [c s]; simpl. destruct (urun files m h2 (c, s)) as [[[? ?] ?]|]; auto.
    - destruct (ustep files m cs o) as [[[c s] r]|]; auto. rewrite IH.
      destruct (urun files m h1 (c, s)) as [[[c1 s1] rs]|]; auto.
      destruct (urun files m h2 (c1, s1)) as [[[c2 s2] rs2]|]; auto. destruct r; reflexivity.
  Qed.

  Lemma urun_prov m c0 pre :
    exists s rs, urun files m pre (c0, init _ _) = Some (config_after c0 pre, s, rs) /\
      inv m (prov c0 pre) s.
  Proof.
    induction pre as [|o pre IH] using rev_ind.
    - exists (init _ _), []. split; [reflexivity|]. apply cinv_init.
    - destruct IH as (s & rs & Hr & Hi). rewrite urun_app, Hr.
      assert (Hmono : inv m (prov c0 (pre ++ [o])) s).
      { eapply cinv_mono; [|exact Hi]; intros; now apply prov_app. }
      rewrite config_after_app.
      destruct o as [l ms v hh|l ms v hh|a a1 a2]; simpl.
      + eexists s, _. split; [reflexivity|auto].
      + eexists s, _. split; [reflexivity|auto].
      + destruct (get_prov m c0 pre s a a1 a2 Hi) as (s' & o & -> & Hi' & _).
        eexists s', _. split; [reflexivity|auto].
  Qed.

  Lemma fof_fresh m c0 pre a a1 a2 raw :
    files a = inl raw -> little_h (config_after c0 pre) <> 0 ->
    (forall p b1 b2 q, pre = p ++ GetFoF a b1 b2 :: q -> little_h (config_after c0 p) <> 0 ->
       rescaled (config_after c0 p) raw = rescaled (config_after c0 pre) raw) ->
    (forall p b1 b2 q, pre = p ++ GetFoF a b1 b2 :: q -> little_h (config_after c0 p) <> 0) ->
    exists c s rs, urun files m (pre ++ [GetFoF a a1 a2]) (c0, init _ _) =
      Some (c, s, rs ++ [inl (rescaled (config_after c0 pre) raw)]).
  Proof.
    intros Hf Hh Hsame Hnz.
    destruct (urun_prov m c0 pre) as (s & rs & Hr & Hi).
    rewrite urun_app, Hr. simpl.
    destruct (get_prov m c0 pre s a a1 a2 Hi) as (s' & o & -> & Hi' & Ho).
    eexists _, s', rs. simpl. do 3 f_equal.
    destruct Ho as [->|(v & -> & Hp)].
    - rewrite (inner_ok _ _ raw); auto.
    - destruct Hp as (p & b1 & b2 & q & Hpre & Hv). simpl in *.
      destruct q as [|x q] using rev_ind.
      + apply app_inj_tail in Hpre. destruct Hpre as [-> _].
        rewrite (inner_ok _ _ raw) in Hv; auto. congruence.
      + clear IHq. rewrite app_comm_cons, app_assoc in Hpre.
        apply app_inj_tail in Hpre. destruct Hpre as [Hpre _].
        specialize (Hnz _ _ _ _ Hpre). specialize (Hsame _ _ _ _ Hpre Hnz).
        rewrite (inner_ok _ _ raw) in Hv; auto. congruence.
  Qed.

  (* enough memory: the first answer is kept forever *)
  Notation rdy := (ready fofargs (list R)).
  Notation kp := (keeps fofargs (list R)).

  Lemma get_mem limit c s a a1 a2 : (limit <= a1)%Z -> (limit <= a2)%Z -> rdy s ->
    exists s' o, getFoF files (MemLimited limit) c s a a1 a2 = Some (s', o) /\ rdy s' /\
      (forall k v, kp k v s -> kp k v s') /\ (forall v, o = inl v -> kp a v s') /\
      (forall v, kp a v s -> o = inl v) /\
      (o = inner c a \/ exists v, o = inl v /\ kp a v s).
  Proof.
    intros H1 H2 Hr. unfold getFoF.
    destruct (mem_call_varying fofargs fofargs (list R) err fofargs_dec (fun a => a) (inner c) limit s a a1 H1 Hr)
      as (s1 & ran & o & -> & Hr1 & Hk1 & Hn1 & Ho1 & Hin1).
    destruct o as [v|e].
    - destruct (mem_call_varying fofargs fofargs (list R) err fofargs_dec (fun a => a) (inner c) limit s1 a a2 H2 Hr1)
        as (s2 & ran2 & o2 & -> & Hr2 & Hk2 & Hn2 & Ho2 & Hin2).
      exists s2, o2.
      assert (Hov : o2 = inl v) by (apply Ho2; apply Hn1; auto). subst o2.
      split; [auto|split; [auto|split; [auto|split; [|split]]]]; auto.
    - exists s1, (inr e). split; [auto|split; [auto|split; [auto|split; [|split]]]]; auto.
  Qed.

  Lemma urun_mem limit h : forall c s, Forall (enough limit) h -> rdy s ->
    exists s' rs, urun files (MemLimited limit) h (c, s) = Some (config_after c h, s', rs) /\ rdy s' /\
      (forall k v, kp k v s -> kp k v s').
  Proof.
    induction h as [|o h IH]; intros c s He Hr.
    - exists s, []. auto.
    - inversion He; subst. destruct o as [l ms v hh|l ms v hh|a a1 a2]; simpl.
      + destruct (IH (fst (updateIn c l ms v hh)) s H2 Hr) as (s' & rs & -> & Hr' & Hk).
        exists s', rs. auto.
      + destruct (IH (fst (updateOut c l ms v hh)) s H2 Hr) as (s' & rs & -> & Hr' & Hk).
        exists s', rs. auto.
      + destruct H1 as [Hb1 Hb2].
        destruct (get_mem limit c s a a1 a2 Hb1 Hb2 Hr) as (s1 & o & -> & Hr1 & Hk1 & _).
        destruct (IH c s1 H2 Hr1) as (s' & rs & -> & Hr' & Hk).
        exists s', (o :: rs). auto.
  Qed.

  Lemma fof_stale limit c0 h1 h2 a a1 a2 b1 b2 v :
    Forall (enough limit) (h1 ++ GetFoF a a1 a2 :: h2 ++ [GetFoF a b1 b2]) ->
    (exists c s rs, urun files (MemLimited limit) (h1 ++ [GetFoF a a1 a2]) (c0, init _ _)
                     = Some (c, s, rs ++ [inl v])) ->
    exists c s rs, urun files (MemLimited limit) (h1 ++ GetFoF a a1 a2 :: h2 ++ [GetFoF a b1 b2]) (c0, init _ _)
      = Some (c, s, rs ++ [inl v]).
  Proof.
    intros He (c & s & rs & Hr).
    apply Forall_app in He. destruct He as [He1 He]. inversion He; subst.
    apply Forall_app in H2. destruct H2 as [He2 He3]. inversion He3; subst.
    destruct (urun_mem limit h1 c0 (init _ _) He1 (ready_init _ _)) as (s1 & rs1 & Hr1 & Hd1 & _).
    rewrite urun_app, Hr1 in Hr. simpl in Hr.
    destruct H1 as [? ?].
    destruct (get_mem limit (config_after c0 h1) s1 a a1 a2) as (s2 & o & Hg & Hd2 & _ & Hn & _); auto.
    rewrite Hg in Hr. injection Hr as Hc Hs Hrs. subst s2. apply app_inj_tail in Hrs. destruct Hrs as [_ ->].
    destruct (urun_mem limit h2 (config_after c0 h1) s He2 Hd2) as (s3 & rs3 & Hr3 & Hd3 & Hk3).
    rewrite urun_app, Hr1. simpl. rewrite Hg. rewrite urun_app, Hr3. simpl.
    destruct H2 as [? ?].
    destruct (get_mem limit (config_after (config_after c0 h1) h2) s3 a b1 b2) as (s4 & o4 & Hg4 & Hd4 & _ & _ & Ho4 & _); auto.
    rewrite Hg4. rewrite (Ho4 v) by (apply Hk3; apply Hn; auto).
    eexists _, s4, (rs1 ++ inl v :: rs3). rewrite <- app_assoc. reflexivity.
  Qed.
End FoF.
