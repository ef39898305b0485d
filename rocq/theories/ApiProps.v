(** C95: the internal calls hand over what their callees expect. *)
From Coq Require Import String List ZArith Bool Ascii Lia.
From Verif Require Import ApiModel.
Import ListNotations.
Local Open Scope string_scope.
Local Open Scope list_scope.

(** ** What binding means *)
(** Positional arguments fill the parameters from the left; every keyword names one of the remaining
    parameters, once; every other parameter has a default. *)
Definition binds (ps : list (string * bool)) (args : list arg) : Prop :=
  exists given rest, ps = given ++ rest /\ List.length given = List.length (pos_args args) /\
    NoDup (kw_args args) /\ (forall k, In k (kw_args args) -> exists d, In (k, d) rest) /\
    (forall p d, In (p, d) rest -> d = true \/ In p (kw_args args)).
Lemma mem_In x l : mem x l = true <-> In x l.
Proof.
  unfold mem. rewrite existsb_exists. split; [intros (y & H & E); apply String.eqb_eq in E; now subst | intros H; exists x; split; [exact H | apply String.eqb_refl]].
Qed.
Lemma nodup_NoDup l : nodup l = true <-> NoDup l.
Proof.
  induction l as [|x l IH]; simpl; [split; [constructor | reflexivity]|]. rewrite andb_true_iff, negb_true_iff, IH, NoDup_cons_iff.
  rewrite <- not_true_iff_false, mem_In. tauto.
Qed.
Lemma accepts_binds ps args : accepts ps args = true <-> binds ps args.
Proof.
  unfold accepts. rewrite !andb_true_iff, Nat.leb_le, nodup_NoDup, !forallb_forall. set (n := List.length (pos_args args)). split.
  - intros (((H1 & H2) & H3) & H4). exists (firstn n ps), (skipn n ps). split; [symmetry; apply firstn_skipn|].
    split; [rewrite firstn_length; lia|]. split; [exact H2|]. split.
    + intros k Hk. specialize (H3 k Hk). apply mem_In, in_map_iff in H3. destruct H3 as ((p & d) & <- & Hp). now exists d.
    + intros p d Hp. specialize (H4 _ Hp). apply orb_true_iff in H4. simpl in H4. rewrite mem_In in H4. exact H4.
  - intros (g & r & -> & Hg & H2 & H3 & H4). rewrite app_length. assert (E : skipn n (g ++ r) = r) by (fold n in Hg; rewrite <- Hg, skipn_app, Nat.sub_diag, skipn_all; reflexivity).
    rewrite E. repeat split; [unfold n in *; lia | exact H2 | |].
    + intros k Hk. destruct (H3 k Hk) as (d & Hd). apply mem_In, in_map_iff. now exists (k, d).
    + intros (p & d) Hp. simpl. apply orb_true_iff. rewrite mem_In. now apply H4.
Qed.

(** ** Reachability *)
(** Functions that can run, directly or indirectly, when [m] is called. *)
Inductive reach (m : string) : string -> Prop :=
| reach_self : reach m m
| reach_call c : In c calls -> reach m (c_caller c) -> reach m (c_callee c).
Definition add_all (new s : list string) : list string := fold_left (fun s x => if mem x s then s else x :: s) new s.
Fixpoint grow (fuel : nat) (s : list string) : list string :=
  match fuel with
  | O => s
  | S k => grow k (add_all (flat_map (fun c => if mem (c_caller c) s then [c_callee c] else []) calls) s)
  end.
Definition closed (s : list string) : bool := forallb (fun c => negb (mem (c_caller c) s) || mem (c_callee c) s) calls.
Lemma closed_reach s m : closed s = true -> mem m s = true -> forall x, reach m x -> mem x s = true.
Proof.
  unfold closed. rewrite forallb_forall. intros H Hm x R. induction R as [|c Hc R IH]; [exact Hm|].
  specialize (H c Hc). rewrite IH in H. exact H.
Qed.
(** The calls that a method can lead to are all fine. *)
Definition fine (m : string) : bool :=
  let s := grow 12 [m] in closed s && mem m s && forallb (fun c => negb (mem (c_caller c) s) || ok c) calls.
Lemma fine_sound m : fine m = true -> forall c, In c calls -> reach m (c_caller c) ->
  exists ps, params_of (c_callee c) = Some ps /\ binds ps (c_args c).
Proof.
  unfold fine. cbv zeta. rewrite !andb_true_iff, forallb_forall. intros ((H1 & H2) & H3) c Hc R.
  specialize (H3 c Hc). rewrite (closed_reach _ _ H1 H2 _ R) in H3. simpl in H3. unfold ok in H3.
  destruct (params_of (c_callee c)) as [ps|]; [|discriminate]. exists ps. split; [reflexivity | now apply accepts_binds].
Qed.

(** ** C95 *)
(** All public methods but two: whatever internal call they lead to binds its arguments. *)
Definition broken : list string := ["DensShapeProfsGadget.getShapeCatVelGlobal"; "DensShapeProfsBase.plotLocalEpsHist"].
Theorem C95_partial m : In m public -> ~ In m broken -> forall c, In c calls -> reach m (c_caller c) ->
  exists ps, params_of (c_callee c) = Some ps /\ binds ps (c_args c).
Proof.
  intros Hm Hb. apply fine_sound.
  assert (A : forallb (fun m => mem m broken || fine m) public = true) by (vm_compute; reflexivity).
  rewrite forallb_forall in A. specialize (A m Hm). apply orb_true_iff in A. destruct A as [A|A]; [|exact A]. apply mem_In in A. contradiction.
Qed.
Print Assumptions C95_partial.
(** The two others lead to a call that cannot bind. *)
Theorem C95_refuted : forall m, In m broken -> In m public /\ exists c ps, In c calls /\ reach m (c_caller c) /\ params_of (c_callee c) = Some ps /\ ~ binds ps (c_args c).
Proof.
  assert (D : forall c, In c calls -> ok c = false -> params_of (c_callee c) <> None -> exists ps, params_of (c_callee c) = Some ps /\ ~ binds ps (c_args c)).
  { intros c _ Ho Hn. unfold ok in Ho. destruct (params_of (c_callee c)) as [ps|]; [|contradiction]. exists ps. split; [reflexivity|]. rewrite <- accepts_binds. congruence. }
  assert (F : forall file line, match find (fun c => String.eqb (c_file c) file && Z.eqb (c_line c) line && negb (ok c))%bool calls with Some c => In c calls /\ ok c = false | None => True end).
  { intros file line. destruct (find _ calls) as [c|] eqn:E; [|exact I]. apply find_some in E. destruct E as [H1 H2]. rewrite !andb_true_iff, negb_true_iff in H2. tauto. }
  intros m [<-|[<-|[]]]; (split; [apply mem_In; vm_compute; reflexivity|]).
  - specialize (F "shape_profs/shape_profs_classes.pyx" 659%Z). destruct (find _ calls) as [c|] eqn:E; [|vm_compute in E; discriminate].
    destruct F as [F1 F2]. assert (Ec : c_caller c = "DensShapeProfsGadget.getShapeCatVelGlobal" /\ params_of (c_callee c) <> None).
    { vm_compute in E. injection E as <-. split; [reflexivity | vm_compute; discriminate]. }
    destruct Ec as [Ec En]. destruct (D c F1 F2 En) as (ps & P1 & P2). exists c, ps. rewrite Ec. repeat split; trivial. constructor.
  - pose proof (F "shape_profs/shape_profs_tools.py" 424%Z) as F0. destruct (find (fun c => String.eqb (c_file c) "shape_profs/shape_profs_tools.py" && _ && _)%bool calls) as [c|] eqn:E; [|vm_compute in E; discriminate].
    destruct F0 as [F1 F2]. assert (Ec : c_caller c = "shape_profs_tools.getLocalEpsHist" /\ params_of (c_callee c) <> None).
    { vm_compute in E. injection E as <-. split; [reflexivity | vm_compute; discriminate]. }
    destruct Ec as [Ec En]. destruct (D c F1 F2 En) as (ps & P1 & P2). exists c, ps. rewrite Ec. repeat split; trivial.
    destruct (find (fun c => String.eqb (c_callee c) "shape_profs_tools.getLocalEpsHist") calls) as [c'|] eqn:E'; [|vm_compute in E'; discriminate].
    pose proof (find_some _ _ E') as [G1 G2]. apply String.eqb_eq in G2. rewrite <- G2. apply (reach_call _ c' G1).
    assert (c_caller c' = "DensShapeProfsBase.plotLocalEpsHist") as -> by (vm_compute in E'; injection E' as <-; reflexivity). constructor.
Qed.
Print Assumptions C95_refuted.
(** Nothing is swapped: where all arguments bind, a variable named like a parameter is handed over for
    that parameter. Names are compared without regard to case. *)
Definition lower_ascii (a : ascii) : ascii := let n := nat_of_ascii a in if (Nat.leb 65 n && Nat.leb n 90)%bool then ascii_of_nat (n + 32) else a.
Fixpoint lower (s : string) : string := match s with EmptyString => EmptyString | String a s' => String (lower_ascii a) (lower s') end.
Definition straight (ps : list string) (args : list string) : bool :=
  forallb (fun i => forallb (fun j => negb (String.eqb (lower (nth i args "")) (lower (nth j ps "?"))) || Nat.eqb i j) (seq 0 (List.length ps))) (seq 0 (List.length args)).
Theorem C95_order c ps i j : In c calls -> params_of (c_callee c) = Some ps -> binds ps (c_args c) ->
  (i < List.length (pos_args (c_args c)))%nat -> (j < List.length ps)%nat ->
  lower (nth i (pos_args (c_args c)) "") = lower (nth j (map fst ps) "?") -> i = j.
Proof.
  intros Hc Hp Hb Hi Hj E.
  assert (A : forallb (fun c => match params_of (c_callee c) with Some ps => negb (accepts ps (c_args c)) || straight (map fst ps) (pos_args (c_args c)) | None => true end) calls = true) by (vm_compute; reflexivity).
  rewrite forallb_forall in A. specialize (A c Hc). rewrite Hp, (proj2 (accepts_binds _ _) Hb) in A. simpl in A. unfold straight in A.
  rewrite forallb_forall in A. specialize (A i ltac:(apply in_seq; lia)). rewrite forallb_forall in A. specialize (A j ltac:(apply in_seq; rewrite map_length; lia)).
  apply orb_true_iff in A. destruct A as [A|A]; [|now apply Nat.eqb_eq]. apply negb_true_iff, String.eqb_neq in A. contradiction.
Qed.
Print Assumptions C95_order.
(** The data of the object reach the routines of the base class under their own names: in every call of
    them that binds, a positional parameter gets the variable of its name, but for the eight below; the index
    catalogue gets the whole one or that of the selection. *)
Definition computed : list string := ["a"; "b"; "c"; "dens_profs"; "dens_profs_fit"; "idx_cat"; "r_over_r200"; "r_over_r200_fit"].
Definition named (p v : string) : bool :=
  if String.eqb p "idx_cat" then mem v ["idx_cat"; "subset_idx_cat"] else mem p computed || String.eqb (lower p) (lower v).
Theorem C95_data c ps i p v : In c calls -> prefix "CosmicBase." (c_callee c) = true -> params_of (c_callee c) = Some ps -> binds ps (c_args c) ->
  nth_error (map fst ps) i = Some p -> nth_error (pos_args (c_args c)) i = Some v ->
  (~ In p computed -> lower v = lower p) /\ (p = "idx_cat" -> v = "idx_cat" \/ v = "subset_idx_cat").
Proof.
  intros Hc Hx Hp Hb Hi Hv.
  assert (A : forallb (fun c => negb (prefix "CosmicBase." (c_callee c)) || match params_of (c_callee c) with Some ps => negb (accepts ps (c_args c)) || forallb (fun pv => named (fst pv) (snd pv)) (combine (map fst ps) (pos_args (c_args c))) | None => true end) calls = true) by (vm_compute; reflexivity).
  rewrite forallb_forall in A. specialize (A c Hc). rewrite Hx, Hp, (proj2 (accepts_binds _ _) Hb) in A. cbn [negb orb] in A.
  rewrite forallb_forall in A. specialize (A (p, v)).
  assert (N : In (p, v) (combine (map fst ps) (pos_args (c_args c)))).
  { revert Hi Hv. generalize (map fst ps) as l, (pos_args (c_args c)) as l'. clear. intros l. revert i. induction l as [|x l IH]; intros [|i] [|y l'] H1 H2; try discriminate; cbn [nth_error combine] in *.
    - left. congruence. - right. eapply IH; eauto. }
  specialize (A N). cbn [fst snd] in A. unfold named in A. destruct (String.eqb_spec p "idx_cat") as [->|Np].
  - apply mem_In in A. split; [intros M; exfalso; apply M; cbn; tauto|]. intros _. destruct A as [A|[A|[]]]; auto.
  - split; [|congruence]. intros M. apply orb_true_iff in A. destruct A as [A|A]; [apply mem_In in A; contradiction|].
    apply String.eqb_eq in A. congruence.
Qed.
Print Assumptions C95_data.
Example C95_data_ex : exists c ps, In c calls /\ prefix "CosmicBase." (c_callee c) = true /\ params_of (c_callee c) = Some ps /\ binds ps (c_args c) /\
  nth_error (map fst ps) 1 = Some "masses" /\ nth_error (pos_args (c_args c)) 1 = Some "masses" /\ nth_error (map fst ps) 3 = Some "idx_cat" /\ nth_error (pos_args (c_args c)) 3 = Some "subset_idx_cat".
Proof.
  destruct (find (fun c => String.eqb (c_callee c) "CosmicBase._getShapeCatGlobalBase" && Z.eqb (c_line c) 130)%bool calls) as [c|] eqn:E; [|vm_compute in E; discriminate].
  exists c. pose proof (proj1 (find_some _ _ E)) as Hc. vm_compute in E. injection E as <-. eexists. split; [exact Hc|]. split; [reflexivity|]. split; [vm_compute; reflexivity|].
  split; [apply accepts_binds; vm_compute; reflexivity|]. repeat split.
Qed.
(** Signatures: no parameter twice, and none without a default after one with a default. *)
Fixpoint defaults_last (ps : list (string * bool)) : bool :=
  match ps with [] => true | (_, true) :: r => forallb snd r && defaults_last r | (_, false) :: r => defaults_last r end.
Theorem C95_signatures f : In f functions -> NoDup (map fst (f_params f)) /\
  forall i j, (i < j < List.length (f_params f))%nat -> snd (nth i (f_params f) ("", false)) = true -> snd (nth j (f_params f) ("", false)) = true.
Proof.
  intros H. assert (A : forallb (fun f => nodup (map fst (f_params f)) && defaults_last (f_params f)) functions = true) by (vm_compute; reflexivity).
  rewrite forallb_forall in A. specialize (A f H). apply andb_true_iff in A. destruct A as [A B]. split; [now apply nodup_NoDup|].
  revert B. generalize (f_params f). clear. intros l. induction l as [|[p b] l IH]; intros B i j Hij Hi; [simpl in Hij; lia|].
  destruct j as [|j]; [lia|]. simpl in Hij. destruct i as [|i].
  - simpl in Hi. subst. simpl in B. apply andb_true_iff in B. destruct B as [B _]. rewrite forallb_forall in B. simpl. apply B. apply nth_In. lia.
  - simpl in Hi |- *. apply (IH) with (i := i); [|lia|exact Hi]. destruct b; simpl in B; [now apply andb_true_iff in B|exact B].
Qed.
Print Assumptions C95_signatures.
Example C95_example : In "DensShapeProfsBase.getShapeCatLocal" public /\ ~ In "DensShapeProfsBase.getShapeCatLocal" broken /\
  reach "DensShapeProfsBase.getShapeCatLocal" "shape_profs_algos.runShellAlgo".
Proof.
  split; [apply mem_In; vm_compute; reflexivity|]. split; [intros H; apply mem_In in H; vm_compute in H; discriminate|].
  assert (S : forall a b, existsb (fun c => String.eqb (c_caller c) a && String.eqb (c_callee c) b)%bool calls = true -> forall m, reach m a -> reach m b).
  { intros a b H m R. apply existsb_exists in H. destruct H as (c & Hc & H). apply andb_true_iff in H. destruct H as [Ha Hb]. apply String.eqb_eq in Ha, Hb. subst. now apply reach_call. }
  apply (S "shape_profs_algos.calcObjMorphLocal"); [vm_compute; reflexivity|]. apply (S "shape_profs_algos.calcMorphLocal"); [vm_compute; reflexivity|].
  apply (S "CosmicBase._getShapeCatLocalBase"); [vm_compute; reflexivity|]. apply (S "DensShapeProfsBase.getShapeCatLocal"); [vm_compute; reflexivity|]. constructor.
Qed.
