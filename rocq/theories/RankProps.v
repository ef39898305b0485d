(** C102: runs with several MPI processes. *)
From Coq Require Import List Bool Arith Lia.
From Verif Require Import RankModel.
Import ListNotations.

(** ** Specification *)
(** No data: None or a tuple of None. *)
Inductive nothing : pyval -> Prop := No_none : nothing PNone | No_tup l : Forall nothing l -> nothing (PTup l).
(** The outcome on another rank agrees with the one on rank 0: it finishes without data when rank 0
    finishes, and raises what rank 0 raises. *)
Definition agrees (root other : res pyval) : Prop :=
  match root with Ok _ => exists v, other = Ok v /\ nothing v | Err e => other = Err e end.
(** An object every attribute of which is set, as on one process. *)
Definition complete (o : obj) : Prop := Forall (fun v => v <> PNone) (all_attrs o).

Lemma bases_ok l : Forall (fun v => v <> PNone) l -> bases l = Ok tt.
Proof. induction 1 as [|v l H _ IH]; [reflexivity|]. simpl. destruct v; [congruence| |]; exact IH. Qed.
Lemma nothing2 : nothing (PTup [PNone; PNone]).
Proof. constructor. repeat constructor. Qed.

(** Objects made from arrays exist on every rank with every attribute. *)
Theorem C102_arrays convert o : arrays_init convert = Ok o -> complete o /\
  (** the n-th argument (positions, masses, indices, radii, sizes) ends up in its own attribute *)
  o_xyz o = PData 0 /\ o_masses o = PData 1 /\ o_idx_cat o = PData 2 /\ o_r200 o = PData 3 /\ o_obj_size o = PData 4.
Proof. unfold arrays_init. destruct convert; [|discriminate]. intros [= <-]. split; [unfold complete; repeat constructor; discriminate|]. now repeat split. Qed.
Print Assumptions C102_arrays.

(** Every method but fitDensProfs: the other ranks finish when rank 0 does, and what they raise rank 0
    raises too. With a valid selection and a computation that succeeds, ranks agree. *)
Theorem C102_partial m o rank katz dens_method convert lengths valid compute centres : m <> FitDensProfs -> complete o -> rank <> 0 ->
  let root := run 0 katz dens_method convert lengths valid compute centres m o in
  let other := run rank katz dens_method convert lengths valid compute centres m o in
  (forall v, root = Ok v -> exists w, other = Ok w /\ nothing w) /\
  (forall e, other = Err e -> root = Err e) /\
  (valid = Ok tt -> (exists n, compute = Ok n) -> (exists n, centres = Ok n) -> agrees root other).
Proof.
  intros Hm Hc Hr. assert (E : Nat.eqb rank 0 = false) by now apply Nat.eqb_neq.
  assert (Hb : bases (all_attrs o) = Ok tt) by now apply bases_ok. assert (B : base (o_xyz o) = Ok (o_xyz o) /\ base (o_masses o) = Ok (o_masses o) /\ base (o_r200 o) = Ok (o_r200 o) /\ base (o_idx_cat o) = Ok (o_idx_cat o) /\ base (o_obj_size o) = Ok (o_obj_size o)).
  { unfold complete, all_attrs in Hc. inversion_clear Hc as [|? ? H1 K1]. inversion_clear K1 as [|? ? H2 K2]. inversion_clear K2 as [|? ? H3 K3]. inversion_clear K3 as [|? ? H4 K4]. inversion_clear K4 as [|? ? H5 _].
    repeat split; [destruct (o_xyz o) | destruct (o_masses o) | destruct (o_r200 o) | destruct (o_idx_cat o) | destruct (o_obj_size o)]; congruence || reflexivity. }
  destruct B as (B1 & B2 & B3 & B4 & B5).
  assert (Q1 : bases [o_r200 o; o_obj_size o] = Ok tt) by (simpl; now rewrite B3, B5).
  assert (Q2 : bases [o_idx_cat o; o_obj_size o] = Ok tt) by (simpl; now rewrite B4, B5).
  intros root other. unfold root, other. pose proof nothing2 as N2. pose proof No_none as N1.
  unfold agrees. destruct m; try congruence; unfold run, do_root, on_root, getMassesCenters_; rewrite ?E, ?Nat.eqb_refl, ?Hb, ?Q1, ?Q2, ?B1, ?B2, ?B3, ?B4, ?B5;
    destruct katz as [[]|ek], dens_method as [[]|em], convert as [[]|ec], lengths as [[]|el], valid as [[]|ev], compute as [nc|eco], centres as [nce|ece]; cbn [bind unpack2 bases fold_right]; 
    (split; [|split]); try (intros ? [=]; eauto; fail); try (intros; discriminate); try (intros; congruence); try (intros _ _ _; eauto; fail); try (intros _ [? [=]]; fail); try (intros _ _ [? [=]]; fail); eauto.
Qed.
Print Assumptions C102_partial.
Example C102_ex : let o := Obj (PData 0) (PData 1) (PData 2) (PData 3) (PData 4) in
  complete o /\ run 0 (Ok tt) (Ok tt) (Ok tt) (Ok tt) (Ok tt) (Ok 7) (Ok 8) EstDensProfs o = Ok (PData 7) /\ run 3 (Ok tt) (Ok tt) (Ok tt) (Ok tt) (Ok tt) (Ok 7) (Ok 8) EstDensProfs o = Ok PNone.
Proof. repeat split. unfold complete. repeat constructor; discriminate. Qed.

(** genHalo returns five times None elsewhere. *)
Theorem C102_halo rank n : rank <> 0 -> genHalo 0 (Ok n) = Ok (PTup (repeat (PData n) 5)) /\ genHalo rank (Ok n) = Ok (PTup (repeat PNone 5)).
Proof. intros Hr. unfold genHalo. apply Nat.eqb_neq in Hr. rewrite Hr. now split. Qed.
Print Assumptions C102_halo.

(** Wrong method dictionaries are refused on every rank alike, by every method that takes one. *)
Definition takes_katz (m : method) : bool :=
  match m with
  | EstDensProfs | GetShapeCatLocal | GetShapeCatGlobal | VizLocalShapes | VizGlobalShapes | PlotLocalTHist | PlotGlobalTHist
  | PlotShapeProfs | DumpShapeCatLocal | DumpShapeCatGlobal => true
  | _ => false
  end.
Definition takes_fit (m : method) : bool := match m with FitDensProfs | EstConcentrations | PlotDensProfs => true | _ => false end.
Theorem C102_checks m o rank katz dens_method convert lengths valid compute centres e :
  (takes_katz m = true -> run rank (Err e) dens_method convert lengths valid compute centres m o = Err e) /\
  (takes_fit m = true -> run rank katz (Err e) convert lengths valid compute centres m o = Err e) /\
  (takes_katz m = false -> forall k k', run rank k dens_method convert lengths valid compute centres m o = run rank k' dens_method convert lengths valid compute centres m o).
Proof. split; [|split]; destruct m; intros H; try discriminate; reflexivity. Qed.
Print Assumptions C102_checks.
Example C102_checks_ex : run 3 (Err TypeError) (Ok tt) (Ok tt) (Ok tt) (Ok tt) (Ok 7) (Ok 8) EstDensProfs (Obj (PData 0) (PData 1) (PData 2) (PData 3) (PData 4)) = Err TypeError.
Proof. reflexivity. Qed.

(** fitDensProfs: whenever rank 0 returns best fits, every other rank raises TypeError. *)
Theorem C102_refuted o rank katz dens_method convert lengths valid compute centres v : rank <> 0 ->
  run 0 katz dens_method convert lengths valid compute centres FitDensProfs o = Ok v ->
  run rank katz dens_method convert lengths valid compute centres FitDensProfs o = Err TypeError.
Proof.
  intros Hr. apply Nat.eqb_neq in Hr. unfold run, on_root. rewrite Hr. destruct dens_method as [[]|]; [|discriminate]. destruct (bases [o_r200 o; o_obj_size o]) as [[]|]; [|discriminate].
  destruct convert as [[]|]; [|discriminate]. destruct lengths as [[]|]; [|discriminate]. cbn [bind column]. reflexivity.
Qed.
Print Assumptions C102_refuted.
Example C102_refuted_ex : run 0 (Ok tt) (Ok tt) (Ok tt) (Ok tt) (Ok tt) (Ok 7) (Ok 8) FitDensProfs (Obj (PData 0) (PData 1) (PData 2) (PData 3) (PData 4)) = Ok (PData 7).
Proof. reflexivity. Qed.

(** Objects made from Gadget files: whenever rank 0 obtains its object, every other rank raises AttributeError. *)
Theorem C102_gadget_refuted rank convert compute o : rank <> 0 -> gadget_init 0 convert compute = Ok o -> gadget_init rank convert compute = Err AttributeError.
Proof. intros Hr. apply Nat.eqb_neq in Hr. unfold gadget_init. rewrite Hr. destruct convert; [reflexivity | discriminate]. Qed.
Print Assumptions C102_gadget_refuted.
Example C102_gadget_ex : gadget_init 0 (Ok tt) (Ok 5) = Ok (Obj (PData 5) (PData 5) (PData 5) (PData 5) (PData 5)) /\ gadget_init 1 (Ok tt) (Ok 5) = Err AttributeError.
Proof. split; reflexivity. Qed.

(** An invalid selection raises on rank 0 alone: the other ranks carry on with the program. *)
Theorem C102_selection_refuted o rank e compute centres : rank <> 0 -> complete o ->
  run 0 (Ok tt) (Ok tt) (Ok tt) (Ok tt) (Err e) compute centres GetShapeCatLocal o = Err e /\
  run rank (Ok tt) (Ok tt) (Ok tt) (Ok tt) (Err e) compute centres GetShapeCatLocal o = Ok PNone.
Proof. intros Hr Hc. apply Nat.eqb_neq in Hr. unfold run, on_root. rewrite Hr, (bases_ok _ Hc). split; reflexivity. Qed.
Print Assumptions C102_selection_refuted.
