(** * C127: the methods of the documentation *)
From Coq Require Import String List ZArith Bool Lia.
From Verif Require Import ApiModel ApiProps DocModel.
Import ListNotations.
Local Open Scope string_scope.
Local Open Scope list_scope.

(** Parameter number i of the list receives the value v: by position, or by its name. *)
Definition receives (ps : list (string * bool)) (args : list arg) (i : nat) (v : string) : Prop :=
  nth_error (pos_args args) i = Some v \/ (List.length (pos_args args) <= i)%nat /\ exists p d, nth_error ps i = Some (p, d) /\ In (K p v) args.
(** A call that follows the parameters [ds] of the documentation is right for the parameters [ps]: it
    is accepted and parameter number i receives what the documentation promises. *)
Definition serves (ds ps : list (string * bool)) (args : list arg) : Prop :=
  binds ps args /\ List.length ds = List.length ps /\ forall i v, receives ds args i v <-> receives ps args i v.
(** What the documentation promises of one entry. *)
Definition keeps (e : entry) : Prop :=
  exists m, method_of (e_class e) (e_name e) = Some m /\ forall args, binds (e_params e) args -> serves (e_params e) (m_params m) args.

Definition missing : list string := ["getPartType"; "getVelXYZMasses"].
Definition renamed : list string := ["estDensProfs"; "fitDensProfs"; "estConcentrations"; "plotDensProfs"].
Definition shifted : list string := ["dumpShapeCatLocal"; "dumpShapeCatGlobal"].
Definition wrong : list string := missing ++ renamed ++ shifted.

Definition pair_eqb (x y : string * bool) : bool := String.eqb (fst x) (fst y) && Bool.eqb (snd x) (snd y).
Fixpoint params_eqb (a b : list (string * bool)) : bool :=
  match a, b with [], [] => true | x :: a, y :: b => pair_eqb x y && params_eqb a b | _, _ => false end.
Lemma params_eqb_eq a b : params_eqb a b = true -> a = b.
Proof.
  revert b; induction a as [|[x d] a IH]; destruct b as [|[y f] b]; cbn [params_eqb]; try discriminate; [reflexivity|]. unfold pair_eqb. cbn [fst snd]. rewrite !andb_true_iff. intros ((E & F) & H). apply String.eqb_eq in E. apply eqb_prop in F. rewrite (IH _ H). congruence.
Qed.
(** The entries that are right are right for every way of handing over the arguments. *)
Theorem C127_partial e : In e documented -> ~ In (e_name e) wrong -> keeps e.
Proof.
  intros He N. assert (H : forallb (fun e => mem (e_name e) wrong || match method_of (e_class e) (e_name e) with Some m => params_eqb (e_params e) (m_params m) | None => false end) documented = true) by (vm_compute; reflexivity).
  rewrite forallb_forall in H. specialize (H e He). apply orb_true_iff in H. destruct H as [H|H]; [now apply mem_In in H|].
  unfold keeps. destruct (method_of (e_class e) (e_name e)) as [m|]; [|discriminate]. exists m. split; [reflexivity|]. intros args B. rewrite <- (params_eqb_eq _ _ H). split; [exact B|]. split; [reflexivity | tauto].
Qed.
Print Assumptions C127_partial.

(** Names agree except for these. *)
Definition new_name (p : string) : string := if String.eqb p "ROverR200" then "r_over_r200" else if String.eqb p "ROverR200_fit" then "r_over_r200_fit" else p.
Definition avoids (args : list arg) : Prop := forall k, In k (kw_args args) -> k <> "ROverR200" /\ k <> "ROverR200_fit" /\ k <> "r_over_r200" /\ k <> "r_over_r200_fit".
Lemma in_kw k v args : In (K k v) args -> In k (kw_args args).
Proof. intros H. unfold kw_args. apply in_flat_map. exists (K k v). split; [exact H | now left]. Qed.
Lemma avoids_new k args : avoids args -> In k (kw_args args) -> new_name k = k.
Proof. intros A H. destruct (A k H) as (N1 & N2 & _). unfold new_name. destruct (String.eqb_spec k "ROverR200"); [contradiction|]. destruct (String.eqb_spec k "ROverR200_fit"); [contradiction | reflexivity]. Qed.
Lemma avoids_old k args : avoids args -> In (new_name k) (kw_args args) -> new_name k = k.
Proof.
  intros A H. destruct (A _ H) as (_ & _ & N3 & N4). unfold new_name in *. destruct (String.eqb_spec k "ROverR200"); [contradiction|]. destruct (String.eqb_spec k "ROverR200_fit"); [contradiction | reflexivity].
Qed.
(** Calls of the density methods that hand over the radii by position do what the documentation says. *)
Theorem C127_by_position e : In e documented -> In (e_name e) renamed -> exists m, method_of (e_class e) (e_name e) = Some m /\
  forall args, binds (e_params e) args -> avoids args -> serves (e_params e) (m_params m) args.
Proof.
  intros He N. assert (H : forallb (fun e => negb (mem (e_name e) renamed) || match method_of (e_class e) (e_name e) with Some m => params_eqb (map (fun p => (new_name (fst p), snd p)) (e_params e)) (m_params m) | None => false end) documented = true) by (vm_compute; reflexivity).
  rewrite forallb_forall in H. specialize (H e He). apply orb_true_iff in H. destruct H as [H|H]; [apply negb_true_iff in H; apply mem_In in N; congruence|].
  destruct (method_of (e_class e) (e_name e)) as [m|]; [|discriminate]. exists m. split; [reflexivity|]. intros args (g & r & E & L & ND & K1 & K2) A. rewrite <- (params_eqb_eq _ _ H). split; [|split].
  - exists (map (fun p => (new_name (fst p), snd p)) g), (map (fun p => (new_name (fst p), snd p)) r). rewrite E, map_app. split; [reflexivity|]. split; [now rewrite map_length|]. split; [exact ND|]. split.
    + intros k Hk. destruct (K1 k Hk) as (d & Hd). exists d. apply in_map_iff. exists (k, d). cbn. rewrite (avoids_new k args A Hk). split; [reflexivity | exact Hd].
    + intros p d Hp. apply in_map_iff in Hp as ((q & d') & Eq & Hq). cbn in Eq. injection Eq as <- <-. destruct (K2 q d' Hq) as [D|D]; [now left|]. right. now rewrite (avoids_new q args A D).
  - now rewrite map_length.
  - intros i v. unfold receives. rewrite nth_error_map. split; (intros [Q|(Q & p & d & Q1 & Q2)]; [now left | right; split; [exact Q|]]).
    + exists p, d. rewrite Q1. cbn. rewrite (avoids_new p args A (in_kw _ _ _ Q2)). split; [reflexivity | exact Q2].
    + destruct (nth_error (e_params e) i) as [[q d']|]; [|discriminate]. cbn in Q1. injection Q1 as <- <-. exists q, d'. split; [reflexivity|]. now rewrite <- (avoids_old q args A (in_kw _ _ _ Q2)).
Qed.
Print Assumptions C127_by_position.

Lemma binds_dec ps args b : accepts ps args = b -> if b then binds ps args else ~ binds ps args.
Proof. intros <-. destruct (accepts ps args) eqn:E; [now apply accepts_binds | intros B; apply accepts_binds in B; congruence]. Qed.
Lemma not_keeps_type e m args : method_of (e_class e) (e_name e) = Some m -> accepts (e_params e) args = true -> accepts (m_params m) args = false -> ~ keeps e.
Proof. intros M A B (m' & M' & H). rewrite M in M'. injection M' as <-. apply accepts_binds in A. apply (binds_dec _ _ false) in B. destruct (H args A) as (X & _). contradiction. Qed.
(** All the others are wrong: two names that no class has, radii whose name is not accepted as a keyword,
    and a folder where the numbers of the objects are expected. *)
Theorem C127_refuted e : In e documented -> In (e_name e) wrong -> ~ keeps e /\
  (In (e_name e) missing -> forall args, ordered args = true -> attempt (e_class e) (e_name e) args = AttributeError) /\
  (In (e_name e) renamed -> exists args, binds (e_params e) args /\ attempt (e_class e) (e_name e) args = TypeError) /\
  (In (e_name e) shifted -> exists args m, binds (e_params e) args /\ attempt (e_class e) (e_name e) args = Enters /\ method_of (e_class e) (e_name e) = Some m /\
     nth_error (m_params m) 0 = Some ("obj_numbers", false) /\ receives (m_params m) args 0 "CAT_DEST").
Proof.
  intros He N. set (kws := map (fun p : string * bool => K (fst p) (fst p)) (e_params e)).
  assert (H : forallb (fun e => (negb (mem (e_name e) missing) || match method_of (e_class e) (e_name e) with None => true | Some _ => false end)
     && (negb (mem (e_name e) renamed) || match method_of (e_class e) (e_name e) with Some m => negb (accepts (m_params m) (map (fun p : string * bool => K (fst p) (fst p)) (e_params e))) | None => false end)
     && (negb (mem (e_name e) renamed) || accepts (e_params e) (map (fun p : string * bool => K (fst p) (fst p)) (e_params e)))
     && (negb (mem (e_name e) shifted) || match method_of (e_class e) (e_name e) with Some m => params_eqb (m_params m) [("obj_numbers", false); ("katz_config", true)] | None => false end
         && params_eqb (e_params e) [("CAT_DEST", false); ("obj_numbers", false); ("katz_config", true)])) documented = true) by (vm_compute; reflexivity).
  rewrite forallb_forall in H. specialize (H e He). rewrite !andb_true_iff, !orb_true_iff in H. destruct H as (((H1 & H2) & H3) & H4).
  assert (O : forall l, ordered (map (fun p : string * bool => K (fst p) (fst p)) l) = true) by (intros [|p l]; [reflexivity|]; cbn [map ordered]; apply forallb_forall; intros a Ha; apply in_map_iff in Ha as (q & <- & _); reflexivity).
  assert (G1 : In (e_name e) missing -> method_of (e_class e) (e_name e) = None).
  { intros I. apply mem_In in I. rewrite I in H1. destruct (method_of (e_class e) (e_name e)); [destruct H1; discriminate | reflexivity]. }
  assert (G2 : In (e_name e) renamed -> exists m, method_of (e_class e) (e_name e) = Some m /\ accepts (m_params m) kws = false /\ accepts (e_params e) kws = true).
  { intros I. apply mem_In in I. rewrite I in H2, H3. destruct (method_of (e_class e) (e_name e)) as [m|]; [|destruct H2; discriminate]. exists m. split; [reflexivity|]. split; [destruct H2 as [H2|H2]; [discriminate | now apply negb_true_iff] | destruct H3 as [H3|H3]; [discriminate | exact H3]]. }
  assert (G3 : In (e_name e) shifted -> exists m, method_of (e_class e) (e_name e) = Some m /\ m_params m = [("obj_numbers", false); ("katz_config", true)] /\ e_params e = [("CAT_DEST", false); ("obj_numbers", false); ("katz_config", true)]).
  { intros I. apply mem_In in I. rewrite I in H4. destruct H4 as [H4|H4]; [discriminate|]. destruct (method_of (e_class e) (e_name e)) as [m|]; [|discriminate]. apply andb_true_iff in H4 as (A & B). exists m. split; [reflexivity|]. split; now apply params_eqb_eq. }
  split; [|split; [|split]].
  - unfold wrong in N. rewrite !in_app_iff in N. destruct N as [N|[N|N]].
    + intros (m & M & _). rewrite (G1 N) in M. discriminate.
    + destruct (G2 N) as (m & M & A & B). exact (not_keeps_type e m kws M B A).
    + destruct (G3 N) as (m & M & A & B). apply (not_keeps_type e m [P "CAT_DEST"; P "obj_numbers"; P "katz_config"] M); [rewrite B | rewrite A]; reflexivity.
  - intros I args Ho. unfold attempt. now rewrite Ho, (G1 I).
  - intros I. destruct (G2 I) as (m & M & A & B). exists kws. split; [now apply accepts_binds|]. unfold attempt. fold kws in A. unfold kws. rewrite O, M. fold kws. now rewrite A.
  - intros I. destruct (G3 I) as (m & M & A & B). exists [P "CAT_DEST"; P "obj_numbers"], m. split; [apply accepts_binds; rewrite B; reflexivity|]. split; [unfold attempt; rewrite M, A; reflexivity|]. split; [exact M|]. rewrite A. split; [reflexivity | left; reflexivity].
Qed.
Print Assumptions C127_refuted.

(** The calls shown: all enter the method, except three. *)
Theorem C127_shown s : In s shown ->
  attempt (sn_class s) (sn_name s) (sn_args s) =
    (if String.eqb (sn_name s) "dumpShapeCatVelLocal" || String.eqb (sn_name s) "dumpShapeCatVelGlobal" then AttributeError
     else if String.eqb (sn_file s) "docs/source/shape_estimation/index.rst" && (sn_line s =? 159)%Z then SyntaxError else Enters).
Proof.
  intros Hs. assert (V : forall a b : verdict, {a = b} + {a <> b}) by decide equality.
  assert (H : forallb (fun s => if V (attempt (sn_class s) (sn_name s) (sn_args s)) (if String.eqb (sn_name s) "dumpShapeCatVelLocal" || String.eqb (sn_name s) "dumpShapeCatVelGlobal" then AttributeError
     else if String.eqb (sn_file s) "docs/source/shape_estimation/index.rst" && (sn_line s =? 159)%Z then SyntaxError else Enters) then true else false) shown = true).
  { apply forallb_forall. clear s Hs. intros s Hs. destruct (V _ _) as [|N]; [reflexivity|]. exfalso. apply N. clear N. repeat (destruct Hs as [<-|Hs]; [vm_compute; reflexivity|]). destruct Hs. }
  rewrite forallb_forall in H. specialize (H s Hs). now destruct (V _ _).
Qed.
Print Assumptions C127_shown.
(** Entering means that the method exists and the arguments bind. *)
Theorem C127_enters c n args : attempt c n args = Enters <-> ordered args = true /\ exists m, method_of c n = Some m /\ binds (m_params m) args.
Proof.
  unfold attempt. destruct (ordered args); [|split; [discriminate | intros (H & _); discriminate]]. destruct (method_of c n) as [m|]; [|split; [discriminate | intros (_ & m & H & _); discriminate]].
  destruct (accepts (m_params m) args) eqn:A; split; try discriminate; try reflexivity.
  - intros _. split; [reflexivity|]. exists m. split; [reflexivity | now apply accepts_binds].
  - intros (_ & m' & H & B). injection H as <-. apply accepts_binds in B. congruence.
Qed.
Print Assumptions C127_enters.

(** A documented call of each kind. *)
Example C127_example :
  attempt "DensShapeProfs" "getShapeCatLocal" [P "objs"; K "katz_config" "conf"] = Enters /\
  attempt "DensShapeProfs" "estDensProfs" [P "radii"; P "objs"; K "spherical" "False"] = Enters /\
  attempt "DensShapeProfs" "estDensProfs" [K "ROverR200" "radii"; K "obj_numbers" "objs"] = TypeError /\
  attempt "DensShapeProfsGadget" "dumpShapeCatLocal" [P "folder"; P "objs"; K "katz_config" "conf"] = TypeError /\
  attempt "DensShapeProfsGadget" "getPartType" [] = AttributeError /\
  attempt "DensShapeProfs" "getVelXYZ" [] = AttributeError /\ attempt "DensShapeProfsGadget" "getVelXYZ" [] = Enters /\
  (exists e, In e documented /\ e_name e = "plotLocalTHist" /\ ~ In (e_name e) wrong /\ binds (e_params e) [P "bins"; P "frac"; P "objs"]) /\
  (exists e, In e documented /\ e_name e = "fitDensProfs" /\ In (e_name e) renamed /\ binds (e_params e) [P "profs"; P "radii"; K "obj_numbers" "objs"; K "method" "nfw"] /\ avoids [P "profs"; P "radii"; K "obj_numbers" "objs"; K "method" "nfw"]).
Proof.
  repeat (split; [vm_compute; reflexivity|]).
  assert (F : forall n, existsb (fun e => String.eqb (e_name e) n) documented = true -> exists e, In e documented /\ e_name e = n /\ In e (filter (fun e => String.eqb (e_name e) n) documented)).
  { intros n H. apply existsb_exists in H as (e & He & E). exists e. split; [exact He|]. split; [now apply String.eqb_eq | now apply filter_In]. }
  split.
  - destruct (F "plotLocalTHist" ltac:(vm_compute; reflexivity)) as (e & He & En & Hf). exists e. rewrite En. split; [exact He|]. split; [reflexivity|]. split; [intros H; apply mem_In in H; vm_compute in H; discriminate|].
    apply accepts_binds. vm_compute in Hf. repeat destruct Hf as [<-|Hf]; try reflexivity; destruct Hf.
  - destruct (F "fitDensProfs" ltac:(vm_compute; reflexivity)) as (e & He & En & Hf). exists e. rewrite En. split; [exact He|]. split; [reflexivity|]. split; [apply mem_In; reflexivity|]. split.
    + apply accepts_binds. vm_compute in Hf. repeat destruct Hf as [<-|Hf]; try reflexivity; destruct Hf.
    + intros k [<-|[<-|[]]]; repeat split; discriminate.
Qed.
