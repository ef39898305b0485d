(** Properties C10-C15 and C66: units. *)
From Coq Require Import List Reals String Bool ZArith Lia Lra.
From Verif Require Import CacheModel ConfigModel ConfigSpec ConfigProofs ConfigUnits.
Import ListNotations.
Local Open Scope R_scope.

(** ** C10: radii of the group catalogue and the configured input units *)

(** Refuted: with enough free memory the first radii returned for some arguments are
    returned for ever, whatever units are configured in between. *)
Theorem C10_radii_frozen :
  forall (files : fofargs -> list R + err) (limit : Z) (c0 : config) (h1 h2 : list uop)
         (a : fofargs) (a1 a2 b1 b2 : Z) (v : list R),
    Forall (enough limit) (h1 ++ GetFoF a a1 a2 :: h2 ++ [GetFoF a b1 b2]) ->
    (exists c s rs, urun files (MemLimited limit) (h1 ++ [GetFoF a a1 a2]) (c0, init _ _)
                     = Some (c, s, rs ++ [inl v])) ->
    exists c s rs,
      urun files (MemLimited limit) (h1 ++ GetFoF a a1 a2 :: h2 ++ [GetFoF a b1 b2])
           (c0, init _ _) = Some (c, s, rs ++ [inl v]).
Proof. exact fof_stale. Qed.
Print Assumptions C10_radii_frozen.

(** Hence a program that reads, changes the input unit from kpc to Mpc and reads again
    gets radii that are not those of the configured unit. *)
Theorem C10_units_followed_refuted :
  ~ (forall files limit c0 h a a1 a2 raw c s rs v,
       Forall (enough limit) (h ++ [GetFoF a a1 a2]) -> files a = inl raw ->
       little_h (config_after c0 h) <> 0 ->
       urun files (MemLimited limit) (h ++ [GetFoF a a1 a2]) (c0, init _ _)
         = Some (c, s, rs ++ [inl v]) ->
       v = rescaled (config_after c0 h) raw).
Proof.
  intros H.
  set (a := ("groups"%string, "R200"%string, 1%nat)).
  set (files := fun _ : fofargs => inl [1] : list R + err).
  set (g := GetFoF a 5 5).
  set (u := UpdIn (Name "Mpc") (Name "Msun") (Name "km/s") 1).
  set (c0 := mkConfig (3085678 * 10 ^ 15) 1 1 1 1 1 1).
  assert (Hone : exists c s rs, urun files (MemLimited 2) ([] ++ [g]) (c0, init _ _)
                  = Some (c, s, rs ++ [inl (rescaled c0 [1])])).
  { apply fof_fresh with (pre := []); simpl; auto; try lra.
    - intros p b1 b2 q Q. destruct p; discriminate.
    - intros p b1 b2 q Q. destruct p; discriminate. }
  destruct (C10_radii_frozen files 2 c0 [] [u] a 5 5 5 5 (rescaled c0 [1])) as (c & s & rs & Hr).
  - repeat constructor; simpl; lia.
  - exact Hone.
  - assert (Hh : config_after c0 [g; u] = mkConfig (3085678 * 10 ^ 18) (1989 * 10 ^ 30) (10 ^ 5) 1 1 1 1).
    { unfold config_after. cbn [fold_left g u].
      destruct (updateIn_spec c0 (Name "Mpc") (Name "Msun") (Name "km/s") 1)
        as [(l & m & v & -> & _ & Hl & Hm & Hv)|(e & _ & [Q|Q])].
      - simpl in Hl, Hm, Hv. inversion Hl; inversion Hm; inversion Hv; subst. reflexivity.
      - exfalso; lra.
      - exfalso. apply Q. repeat split; eexists; simpl; constructor. }
    assert (Hx : rescaled c0 [1] = rescaled (config_after c0 [g; u]) [1]).
    { apply (H files 2%Z c0 [g; u] a 5%Z 5%Z [1] c s rs); auto.
      - repeat constructor; simpl; lia.
      - rewrite Hh; simpl; lra. }
    rewrite Hh in Hx. unfold rescaled, c0 in Hx. cbn [in_l little_h map] in Hx.
    apply (f_equal (hd 0)) in Hx. cbn [hd] in Hx.
    assert (E18 : 10 ^ 18 = 10 ^ 15 * 1000).
    { replace 1000 with (10 ^ 3) by (simpl; lra). rewrite <- pow_add. reflexivity. }
    rewrite !E18 in Hx.
    assert (Hp : 0 < 10 ^ 15) by (apply pow_lt; lra).
    set (y := 10 ^ 15) in *. clearbody y.
    assert (E1 : 1 * (3085678 * y) / (3085678 * (y * 1000) / 1) = / 1000) by (field; lra).
    assert (E2 : 1 * (3085678 * (y * 1000)) / (3085678 * (y * 1000) / 1) = 1) by (field; lra).
    rewrite E1, E2 in Hx. lra.
Qed.
Print Assumptions C10_units_followed_refuted.

(** What does hold, in every mode of the cache: if every earlier read of the same
    catalogue was made under a configuration that scales the radii in the same way, the
    radii are those of the current configuration. Missing for the full property: reads
    after the input unit or h has changed. *)
Theorem C10_units_followed_partial :
  forall (files : fofargs -> list R + err) (m : mode) (c0 : config) (pre : list uop)
         (a : fofargs) (a1 a2 : Z) (raw : list R),
    files a = inl raw -> little_h (config_after c0 pre) <> 0 ->
    (forall p b1 b2 q, pre = p ++ GetFoF a b1 b2 :: q ->
       little_h (config_after c0 p) <> 0 /\
       rescaled (config_after c0 p) raw = rescaled (config_after c0 pre) raw) ->
    exists c s rs, urun files m (pre ++ [GetFoF a a1 a2]) (c0, init _ _) =
      Some (c, s, rs ++ [inl (rescaled (config_after c0 pre) raw)]).
Proof.
  intros files m c0 pre a a1 a2 raw Hf Hh H. apply fof_fresh; auto.
  - intros p b1 b2 q Hp _. now apply (H p b1 b2 q).
  - intros p b1 b2 q Hp. now apply (H p b1 b2 q).
Qed.
Print Assumptions C10_units_followed_partial.

(** Non-vacuity: units set first, two catalogues read, the first read again. *)
Example C10_example :
  let files := fun a : fofargs => match a with (d, _, _) =>
      if string_dec d "g1" then inl [2; 3] else inl [7] end : list R + err in
  let a := ("g1"%string, "R200"%string, 1%nat) in
  let b := ("g2"%string, "R200"%string, 1%nat) in
  let pre := [UpdIn (Name "kpc") (Name "Msun") (Name "km/s") 1; GetFoF a 9 9; GetFoF b 9 9] in
  exists c s rs, urun files (MemLimited 4) (pre ++ [GetFoF a 9 9]) (default, init _ _) =
      Some (c, s, rs ++ [inl (rescaled (config_after default pre) [2; 3])]).
Proof.
  intros files a b pre.
  assert (Hc : little_h (fst (updateIn default (Name "kpc") (Name "Msun") (Name "km/s") 1)) = 1).
  { destruct (updateIn_spec default (Name "kpc") (Name "Msun") (Name "km/s") 1)
      as [(l & m & v & -> & _)|(e & -> & _)]; reflexivity. }
  apply C10_units_followed_partial; auto.
  - simpl. rewrite Hc. lra.
  - intros p b1 b2 q Hp.
    destruct p as [|x p]; [discriminate|]. inversion Hp; subst x. clear Hp.
    destruct p as [|x p].
    + inversion H1; subst. simpl. rewrite Hc. split; [lra|reflexivity].
    + inversion H1; subst x. destruct p as [|x p]; [discriminate|].
      inversion H2. destruct p; discriminate.
Qed.

(** ** C11: conversions *)
Theorem C11_conversions_consistent :
  forall (c : config) (x k y : R), usable c ->
    exists xi yi vi wi,
      LengthInToInternal c x = inl xi /\ VelInToInternal c x = inl vi /\
      LengthInToInternal c y = inl yi /\ VelInToInternal c y = inl wi /\
      LengthInternalToOut c xi = inl (x * (in_l c / out_l c)) /\
      VelInternalToOut c vi = inl (x * (in_v c / out_v c)) /\
      LengthInToInternal c (k * x + y) = inl (k * xi + yi) /\
      VelInToInternal c (k * x + y) = inl (k * vi + wi) /\
      (in_l c = out_l c -> LengthInternalToOut c xi = inl x) /\
      (in_v c = out_v c -> VelInternalToOut c vi = inl x).
Proof.
  intros c x k y (Hh & Hl & Hm & Hv).
  pose proof (p10 18). pose proof (p10 5).
  rewrite !len_in, !vel_in by auto.
  do 4 eexists. repeat (split; [reflexivity|]).
  rewrite len_out, vel_out by auto.
  assert (E1 : x * (in_l c / (3085678 * 10 ^ 18 / little_h c)) *
               (3085678 * 10 ^ 18 / little_h c / out_l c) = x * (in_l c / out_l c))
    by (field; auto).
  assert (E2 : x * (in_v c / 10 ^ 5) * (10 ^ 5 / out_v c) = x * (in_v c / out_v c))
    by (field; auto).
  rewrite E1, E2. repeat (split; [first [reflexivity | f_equal; ring]|]). split.
  - intros ->. f_equal. field; auto.
  - intros ->. f_equal. field; auto.
Qed.
Print Assumptions C11_conversions_consistent.

(** The same for units given by name or by value: after both updates a length [x]
    becomes [x] times the ratio of the documented values of the two units. *)
Theorem C11_named_units :
  forall c ul um uv wl wm wv h li mi vi lo mo vo,
    h <> 0 -> lo <> 0 -> vo <> 0 ->
    denotes (length_unit h) ul li -> denotes (mass_unit h) um mi -> denotes velocity_unit uv vi ->
    denotes (length_unit h) wl lo -> denotes (mass_unit h) wm mo -> denotes velocity_unit wv vo ->
    exists c1 c2, updateIn c ul um uv h = (c1, None) /\ updateOut c1 wl wm wv h = (c2, None) /\
      forall x, exists xi vx, LengthInToInternal c2 x = inl xi /\ VelInToInternal c2 x = inl vx /\
        LengthInternalToOut c2 xi = inl (x * li / lo) /\
        VelInternalToOut c2 vx = inl (x * vi / vo).
Proof.
  intros c ul um uv wl wm wv h li mi vi lo mo vo Hh Hlo Hvo H1 H2 H3 H4 H5 H6.
  destruct (updateIn_spec c ul um uv h)
    as [(l & m & v & E & _ & Hl & Hm & Hv)|(e & _ & [Q|Q])]; try (exfalso; eauto 8; fail).
  rewrite (denotes_fun_l _ _ _ _ Hl H1), (denotes_fun_v _ _ _ Hv H3) in E.
  eexists. rewrite E.
  match goal with |- context [updateOut ?c1 _ _ _ _] =>
    destruct (updateOut_spec c1 wl wm wv h)
      as [(l2 & m2 & v2 & E2 & _ & Hl2 & Hm2 & Hv2)|(e & _ & [Q|Q])] end;
    try (exfalso; eauto 8; fail).
  rewrite (denotes_fun_l _ _ _ _ Hl2 H4), (denotes_fun_v _ _ _ Hv2 H6) in E2.
  eexists. split; [reflexivity|]. split; [exact E2|].
  intros x. rewrite len_in, vel_in by auto. do 2 eexists. do 2 (split; [reflexivity|]).
  rewrite len_out, vel_out by auto. cbn [in_l out_l little_h in_v out_v].
  pose proof (p10 18). pose proof (p10 5).
  split; f_equal; field; auto.
Qed.
Print Assumptions C11_named_units.

(** 5 Mpc/h expressed in kpc/h is 5000. *)
Example C11_example :
  exists c1 c2, updateIn default (Name "Mpc/h") (Name "Msun/h") (Num 1e5) (7/10) = (c1, None) /\
    updateOut c1 (Name "kpc/h") (Name "Msun") (Name "km/s") (7/10) = (c2, None) /\
    exists xi, LengthInToInternal c2 5 = inl xi /\ LengthInternalToOut c2 xi = inl 5000.
Proof.
  destruct (C11_named_units default (Name "Mpc/h") (Name "Msun/h") (Num 1e5)
     (Name "kpc/h") (Name "Msun") (Name "km/s") (7/10)
     (3085678 * 10 ^ 18 / (7/10)) (1989 * 10 ^ 30 / (7/10)) 1e5
     (3085678 * 10 ^ 15 / (7/10)) (1989 * 10 ^ 30) (10 ^ 5))
    as (c1 & c2 & H1 & H2 & H); simpl denotes; try constructor; try lra.
  - exists c1, c2. split; [auto|split; auto]. destruct (H 5) as (xi & vx & H3 & _ & H4 & _).
    exists xi. split; auto. rewrite H4. f_equal.
    replace (10 ^ 18) with (10 ^ 15 * 1000).
    + pose proof (p10 15). field.
    + replace 1000 with (10 ^ 3) by (simpl; lra). rewrite <- pow_add. reflexivity.
Qed.

(** ** C12: rejected updates *)
Theorem C12_rejected_update_refuted :
  exists c l m v h c' e, updateIn c l m v h = (c', Some e) /\ c' <> c /\
    exists x y y', LengthInToInternal c x = inl y /\ LengthInToInternal c' x = inl y' /\ y <> y'.
Proof.
  exists (mkConfig (3085678 * 10 ^ 18) 1 1 1 1 1 1), (Name "parsec"), (Num 1), (Num 1), 2.
  eexists _, AssertionError. split; [|split].
  - unfold updateIn. simpl little_h. rewrite admissible_ok by lra. reflexivity.
  - intros Q. apply (f_equal little_h) in Q. simpl in Q. lra.
  - exists 1. rewrite !len_in by (simpl; lra). do 2 eexists. do 2 (split; [reflexivity|]).
    cbn [in_l little_h set_h fst]. pose proof (p10 18). intros Q.
    assert (E1 : 1 * (3085678 * 10 ^ 18 / (3085678 * 10 ^ 18 / 1)) = 1) by (field; auto).
    assert (E2 : 1 * (3085678 * 10 ^ 18 / (3085678 * 10 ^ 18 / 2)) = 2) by (field; auto).
    rewrite E1, E2 in Q. lra.
Qed.
Print Assumptions C12_rejected_update_refuted.

(** What holds: a rejected update leaves all six units as they were (only h may change,
    and nothing changes if the h given is the current one); an update is rejected
    exactly if h is 0 or some argument names no documented unit. *)
Theorem C12_rejected_update_partial :
  forall c l m v h,
    let legal := h <> 0 /\ (exists x, denotes (length_unit h) l x) /\
                 (exists x, denotes (mass_unit h) m x) /\ (exists x, denotes velocity_unit v x) in
    forall upd, upd = updateIn \/ upd = updateOut ->
    (snd (upd c l m v h) = None <-> legal) /\
    (snd (upd c l m v h) <> None ->
       same_in c (fst (upd c l m v h)) /\ same_out c (fst (upd c l m v h)) /\
       (h = little_h c -> fst (upd c l m v h) = c)).
Proof.
  intros c l m v h legal upd Hu.
  assert (Hs : (snd (upd c l m v h) = None /\ legal) \/
               (exists e, upd c l m v h = (set_h c h, Some e) /\ ~ legal)).
  { destruct Hu as [-> | ->].
    - destruct (updateIn_spec c l m v h) as [(l' & m' & v' & -> & H1 & H2 & H3 & H4)|(e & -> & H)].
      + left. split; [reflexivity|]. unfold legal. eauto 8.
      + right. exists e. split; auto. unfold legal. tauto.
    - destruct (updateOut_spec c l m v h) as [(l' & m' & v' & -> & H1 & H2 & H3 & H4)|(e & -> & H)].
      + left. split; [reflexivity|]. unfold legal. eauto 8.
      + right. exists e. split; auto. unfold legal. tauto. }
  destruct Hs as [[H1 H2]|(e & H1 & H2)].
  - split; [tauto|]. congruence.
  - rewrite H1. simpl. split; [intuition discriminate|]. intros _.
    repeat split. intros ->. destruct c; reflexivity.
Qed.
Print Assumptions C12_rejected_update_partial.

Example C12_example :
  snd (updateIn default (Name "kpc") (Name "Kg") (Num 1) (6774 / 10 ^ 4)) <> None /\
  fst (updateIn default (Name "kpc") (Name "Kg") (Num 1) (6774 / 10 ^ 4)) = default.
Proof.
  destruct (C12_rejected_update_partial default (Name "kpc") (Name "Kg") (Num 1) (6774 / 10 ^ 4)
              updateIn (or_introl eq_refl)) as [H1 H2].
  assert (H : snd (updateIn default (Name "kpc") (Name "Kg") (Num 1) (6774 / 10 ^ 4)) <> None).
  { rewrite H1. intros (_ & _ & [x Hx] & _). inversion Hx. }
  split; auto. apply H2; auto.
Qed.

(** ** C13: mass conversion helpers *)

(** Refuted: they convert nothing at all, in no configuration. *)
Theorem C13_mass_helpers_refuted :
  forall c x, little_h c <> 0 ->
    MassInToInternal c x = inr KeyError /\ MassInternalToOut c x = inr KeyError.
Proof. intros c x H. split; [apply mass_in_fails|apply mass_out_fails]; auto. Qed.
Print Assumptions C13_mass_helpers_refuted.

(** What holds: masses handed to a constructor and read back by getXYZMasses are
    converted by the ratio of the units (the code path that does not use the helpers).
    Missing: the helpers themselves. *)
Theorem C13_mass_conversion_partial :
  forall c c' xyz ms r lb, little_h c <> 0 -> usable c' -> little_h c' = little_h c ->
    exists o ps, construct c xyz ms r lb = inl o /\
      getXYZMasses c' o = inl (ps, map (fun x => x * (in_m c / out_m c')) ms).
Proof.
  intros c c' xyz ms r lb Hh Hu He.
  destruct (getters_ok c c' xyz ms r lb Hh Hu) as (o & H1 & _ & H2).
  exists o. eexists. split; [exact H1|]. rewrite H2. do 2 f_equal. apply map_ext. intros x.
  rewrite He. unfold Rdiv. rewrite (Rinv_r (little_h c)); auto. ring.
Qed.
Print Assumptions C13_mass_conversion_partial.

Example C13_example :
  exists o ps, construct default [[1; 2; 3]] [4] [5] 10 = inl o /\
    getXYZMasses default o = inl (ps, [4 * (in_m default / out_m default)]).
Proof.
  assert (Hh : little_h default <> 0) by (unfold default; cbn [little_h]; pose proof (p10_pos 4); lra).
  apply (C13_mass_conversion_partial default default [[1; 2; 3]] [4] [5] 10); auto.
  pose proof kpc_pos. pose proof msun_pos. pose proof (p10_pos 3). pose proof (p10_pos 5).
  unfold usable, default; cbn [little_h out_l out_m out_v].
  repeat split; try lra.
Qed.

(** ** C14: labels *)
Theorem C14_labels :
  forall c, little_h c <> 0 ->
    exists l m v, LMVLabel c = inl (l, m, v) /\
      label_ok (length_unit (little_h c)) (out_l c) l /\
      label_ok (mass_unit (little_h c)) (out_m c) m /\
      label_ok velocity_unit (out_v c) v.
Proof. exact labels_ok. Qed.
Print Assumptions C14_labels.

(** With h = 1 "kpc" and "kpc/h" coincide: the label is one of the two. *)
Example C14_example :
  exists l m v, LMVLabel (mkConfig 1 1 1 1 (3085678 * 10 ^ 15) 7 (10 ^ 5)) = inl (l, m, v) /\
    (exists s, l = LName s /\ length_unit 1 s (3085678 * 10 ^ 15)) /\ v = LName "km/s".
Proof.
  destruct (C14_labels (mkConfig 1 1 1 1 (3085678 * 10 ^ 15) 7 (10 ^ 5))) as (l & m & v & H & Hl & _ & Hv);
    [simpl; lra|].
  exists l, m, v. split; auto. split.
  - apply Hl. exists "kpc"%string. constructor.
  - destruct Hv as [Hv _]. destruct Hv as (s & -> & Hs); [eexists; constructor|].
    inversion Hs; subst; reflexivity.
Qed.

(** ** C15: input and output systems *)
Theorem C15_independent_refuted :
  exists c l m v h x y y', snd (updateOut c l m v h) = None /\
    LengthInToInternal c x = inl y /\
    LengthInToInternal (fst (updateOut c l m v h)) x = inl y' /\ y <> y'.
Proof.
  exists (mkConfig (3085678 * 10 ^ 18) 1 1 1 1 1 1), (Num 1), (Num 1), (Num 1), 2, 1.
  destruct (updateOut_spec (mkConfig (3085678 * 10 ^ 18) 1 1 1 1 1 1) (Num 1) (Num 1) (Num 1) 2)
    as [(l & m & v & -> & _)|(e & _ & [Q|Q])].
  - rewrite !len_in by (simpl; lra). do 2 eexists. split; [reflexivity|]. do 2 (split; [reflexivity|]).
    cbn [in_l little_h set_h fst]. pose proof (p10 18). intros Q.
    assert (E1 : 1 * (3085678 * 10 ^ 18 / (3085678 * 10 ^ 18 / 1)) = 1) by (field; auto).
    assert (E2 : 1 * (3085678 * 10 ^ 18 / (3085678 * 10 ^ 18 / 2)) = 2) by (field; auto).
    rewrite E1, E2 in Q. lra.
  - exfalso; lra.
  - exfalso. apply Q. repeat split; eexists; simpl; reflexivity.
Qed.
Print Assumptions C15_independent_refuted.

(** What holds: along any sequence of output updates the input units stay, and if all
    of them pass the current h, every input conversion is unchanged; symmetrically for
    input updates. *)
Theorem C15_independent_partial :
  forall (hist : list uop) (c : config),
    (Forall (fun o => match o with UpdOut _ _ _ _ => True | _ => False end) hist ->
       same_in c (config_after c hist)) /\
    (Forall (fun o => match o with UpdIn _ _ _ _ => True | _ => False end) hist ->
       same_out c (config_after c hist)) /\
    (Forall (fun o => match o with UpdOut _ _ _ h => h = little_h c | _ => False end) hist ->
       forall x, LengthInToInternal (config_after c hist) x = LengthInToInternal c x /\
                 VelInToInternal (config_after c hist) x = VelInToInternal c x /\
                 forall xyz ms r lb, construct (config_after c hist) xyz ms r lb = construct c xyz ms r lb) /\
    (Forall (fun o => match o with UpdIn _ _ _ h => h = little_h c | _ => False end) hist ->
       forall x, LengthInternalToOut (config_after c hist) x = LengthInternalToOut c x /\
                 VelInternalToOut (config_after c hist) x = VelInternalToOut c x).
Proof.
  intros hist c.
  assert (HO : forall c l m v h, same_in c (fst (updateOut c l m v h)) /\
                 little_h (fst (updateOut c l m v h)) = h).
  { intros c1 l m v h. destruct (updateOut_spec c1 l m v h) as [(? & ? & ? & -> & _)|(? & -> & _)];
      simpl; repeat split. }
  assert (HI : forall c l m v h, same_out c (fst (updateIn c l m v h)) /\
                 little_h (fst (updateIn c l m v h)) = h).
  { intros c1 l m v h. destruct (updateIn_spec c1 l m v h) as [(? & ? & ? & -> & _)|(? & -> & _)];
      simpl; repeat split. }
  assert (A1 : forall hist c, Forall (fun o => match o with UpdOut _ _ _ _ => True | _ => False end) hist ->
       same_in c (config_after c hist)).
  { clear c hist. intros hist. induction hist as [|o hist IH]; intros c H; [repeat split|].
    inversion H; subst. destruct o; try tauto. simpl. specialize (IH (fst (updateOut c l m v h)) H3).
    destruct (HO c l m v h) as [(a1 & a2 & a3) _]. destruct IH as (b1 & b2 & b3).
    unfold config_after in *. repeat split; congruence. }
  assert (A2 : forall hist c, Forall (fun o => match o with UpdIn _ _ _ _ => True | _ => False end) hist ->
       same_out c (config_after c hist)).
  { clear c hist A1. intros hist. induction hist as [|o hist IH]; intros c H; [repeat split|].
    inversion H; subst. destruct o; try tauto. simpl. specialize (IH (fst (updateIn c l m v h)) H3).
    destruct (HI c l m v h) as [(a1 & a2 & a3) _]. destruct IH as (b1 & b2 & b3).
    unfold config_after in *. repeat split; congruence. }
  assert (B1 : forall hist c h0, Forall (fun o => match o with UpdOut _ _ _ h => h = h0 | _ => False end) hist ->
       little_h c = h0 -> little_h (config_after c hist) = h0).
  { clear c hist. intros hist. induction hist as [|o hist IH]; intros c h0 H Hc; auto.
    inversion H; subst. destruct o; try tauto. simpl. apply IH; auto.
    destruct (HO c l m v h) as [_ E]. congruence. }
  assert (B2 : forall hist c h0, Forall (fun o => match o with UpdIn _ _ _ h => h = h0 | _ => False end) hist ->
       little_h c = h0 -> little_h (config_after c hist) = h0).
  { clear c hist. intros hist. induction hist as [|o hist IH]; intros c h0 H Hc; auto.
    inversion H; subst. destruct o; try tauto. simpl. apply IH; auto.
    destruct (HI c l m v h) as [_ E]. congruence. }
  split; [auto|split; [auto|split]].
  - intros H x. pose proof (B1 hist c _ H eq_refl) as Eh.
    assert (Es : same_in c (config_after c hist)).
    { apply A1. eapply Forall_impl; [|exact H]. intros []; tauto. }
    destruct Es as (e1 & e2 & e3).
    unfold LengthInToInternal, VelInToInternal, factor_from_in, construct, internal.
    rewrite Eh, e1, e2, e3. auto.
  - intros H x. pose proof (B2 hist c _ H eq_refl) as Eh.
    assert (Es : same_out c (config_after c hist)).
    { apply A2. eapply Forall_impl; [|exact H]. intros []; tauto. }
    destruct Es as (e1 & e2 & e3).
    unfold LengthInternalToOut, VelInternalToOut, factor_to_out.
    rewrite Eh, e1, e3. auto.
Qed.
Print Assumptions C15_independent_partial.

Example C15_example :
  let hist := [UpdOut (Name "Gpc") (Num 3) (Num 4) (6774 / 10 ^ 4);
               UpdOut (Name "nonsense") (Num 3) (Num 4) (6774 / 10 ^ 4)] in
  LengthInToInternal (config_after default hist) 12 = LengthInToInternal default 12.
Proof.
  intros hist. destruct (C15_independent_partial hist default) as (_ & _ & H & _).
  apply H. repeat constructor.
Qed.

(** ** C66: data handed over in one unit system and read back in another *)
Theorem C66_physical_values_preserved :
  forall c c' xyz ms r lb, little_h c <> 0 -> usable c' ->
    exists o, construct c xyz ms r lb = inl o /\
      getR200 c' o =
        inl (map (fun x => x * (in_l c / out_l c') * (little_h c / little_h c')) r) /\
      getXYZMasses c' o =
        inl (map (map (fun x => x * (in_l c / out_l c') * (little_h c / little_h c'))) xyz,
             map (fun x => x * (in_m c / out_m c') * (little_h c / little_h c')) ms).
Proof. exact getters_ok. Qed.
Print Assumptions C66_physical_values_preserved.

(** So with h kept, the physical value [x * unit] is preserved. *)
Theorem C66_same_h :
  forall c c' xyz ms r lb, little_h c <> 0 -> usable c' -> little_h c' = little_h c ->
    exists o r', construct c xyz ms r lb = inl o /\ getR200 c' o = inl r' /\
      map (fun x => x * out_l c') r' = map (fun x => x * in_l c) r.
Proof.
  intros c c' xyz ms r lb Hh Hu He.
  destruct (getters_ok c c' xyz ms r lb Hh Hu) as (o & H1 & H2 & _).
  exists o. eexists. split; [exact H1|]. split; [exact H2|]. rewrite map_map. apply map_ext.
  intros x. rewrite He. destruct Hu as (_ & Ho & _). field. auto.
Qed.
Print Assumptions C66_same_h.

Example C66_example :
  exists o r', construct (mkConfig 2 1 1 3 1 1 1) [[1; 2; 3]] [4] [5; 6] 10 = inl o /\
    getR200 (mkConfig 9 9 9 3 4 1 1) o = inl r' /\ map (fun x => x * 4) r' = [5 * 2; 6 * 2].
Proof.
  apply (C66_same_h (mkConfig 2 1 1 3 1 1 1) (mkConfig 9 9 9 3 4 1 1));
    unfold usable; simpl; repeat split; lra.
Qed.
