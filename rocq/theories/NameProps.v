(** C96, C97, C98: names and folders of output files. *)
From Coq Require Import Reals Lra Lia ZArith List String Ascii Decimal DecimalNat DecimalString Bool.
From Verif Require Import MockModel MockProps NameModel.
Import ListNotations.
Local Open Scope string_scope.

(** ** Strings *)
Fixpoint has (c : ascii) (s : string) : bool := match s with EmptyString => false | String d s => Ascii.eqb d c || has c s end.
Lemma has_app c a b : has c (a ++ b) = has c a || has c b.
Proof. induction a as [|d a IH]; [reflexivity|]. cbn. now rewrite IH, orb_assoc. Qed.
Lemma app_assoc_s (a b c : string) : (a ++ b) ++ c = a ++ (b ++ c).
Proof. induction a as [|d a IH]; [reflexivity|]. cbn. now rewrite IH. Qed.
Lemma app_cancel_l (a b c : string) : a ++ b = a ++ c -> b = c.
Proof. induction a as [|d a IH]; [trivial|]. cbn. intros [= H]. now apply IH. Qed.
Lemma length_app (a b : string) : length (a ++ b) = (length a + length b)%nat.
Proof. induction a as [|d a IH]; [reflexivity|]. cbn. now rewrite IH. Qed.
Lemma app_cancel_r (a b c : string) : a ++ c = b ++ c -> a = b.
Proof.
  intros H. assert (L : length a = length b) by (apply (f_equal length) in H; rewrite !length_app in H; lia).
  revert b L H. induction a as [|d a IH]; intros [|e b] L H; cbn in *; try discriminate; trivial. injection H as -> H. f_equal. apply IH; [lia | exact H].
Qed.
(** The last [c] and the first [c] of a text are where they are. *)
Lemma split_last c a b s t : has c s = false -> has c t = false -> a ++ String c s = b ++ String c t -> a = b /\ s = t.
Proof.
  intros Hs Ht. revert b. induction a as [|d a IH]; intros [|e b]; cbn.
  - intros [= H]. auto.
  - intros [= <- H]. subst s. rewrite has_app in Hs. cbn in Hs. rewrite Ascii.eqb_refl, orb_true_r in Hs. discriminate.
  - intros [= -> H]. subst t. rewrite has_app in Ht. cbn in Ht. rewrite Ascii.eqb_refl, orb_true_r in Ht. discriminate.
  - intros [= <- H]. destruct (IH b H) as [-> ->]. auto.
Qed.
Lemma split_first c a b s t : has c a = false -> has c b = false -> a ++ String c s = b ++ String c t -> a = b /\ s = t.
Proof.
  revert b. induction a as [|d a IH]; intros [|e b] Ha Hb; cbn in *.
  - intros [= H]. auto.
  - intros [= <- H]. rewrite Ascii.eqb_refl in Hb. discriminate.
  - intros [= -> H]. rewrite Ascii.eqb_refl in Ha. discriminate.
  - apply orb_false_iff in Ha, Hb. intros [= <- H]. destruct (IH b) as [-> ->]; tauto.
Qed.
(** Decimal numbers. *)
Lemma to_uint_nonnil n : Nat.to_uint n <> Nil.
Proof. rewrite <- (Unsigned.of_to n), Unsigned.to_of. unfold unorm. destruct (nzhead _); discriminate. Qed.
Lemma dec_inj n m : dec n = dec m -> n = m.
Proof.
  unfold dec. intros H. apply Unsigned.to_uint_inj. apply (f_equal NilZero.uint_of_string) in H.
  rewrite !NilZero.usu in H by apply to_uint_nonnil. congruence.
Qed.
Definition digit (c : ascii) : bool := match c with "0"%char | "1"%char | "2"%char | "3"%char | "4"%char | "5"%char | "6"%char | "7"%char | "8"%char | "9"%char => true | _ => false end.
Lemma dec_digits c n : digit c = false -> has c (dec n) = false.
Proof.
  intros Hc. assert (G : forall d, has c (NilEmpty.string_of_uint d) = false).
  { induction d as [|d IH|d IH|d IH|d IH|d IH|d IH|d IH|d IH|d IH|d IH]; [reflexivity|..]; cbn [NilEmpty.string_of_uint has]; rewrite IH, orb_false_r; apply Ascii.eqb_neq; intros <-; discriminate. }
  unfold dec, NilZero.string_of_uint. destruct (Nat.to_uint n) eqn:E; try apply G. now apply to_uint_nonnil in E.
Qed.
Lemma fmt2_inj x y : fmt2 x = fmt2 y -> hundredths x = hundredths y.
Proof.
  unfold fmt2. generalize (hundredths x) (hundredths y). intros k l H. cbn [append] in H.
  apply (split_first "."%char) in H; try (now apply dec_digits). destruct H as [H1 H2]. apply dec_inj in H1.
  assert (L : forall n, (n < 10)%nat -> length (dec n) = 1%nat) by (intros n Hn; do 10 (destruct n as [|n]; [reflexivity|]); lia).
  assert (B : forall n, (n mod 100 / 10 < 10)%nat) by (intros n; pose proof (Nat.mod_upper_bound n 100); apply Nat.div_lt_upper_bound; lia).
  unfold two_digits in H2.
  assert (S1 : forall a b a' b', length a = 1%nat -> length a' = 1%nat -> a ++ b = a' ++ b' -> a = a' /\ b = b').
  { intros [|c [|? ?]] b [|c' [|? ?]] b' La La'; cbn in *; try discriminate. intros [= -> ->]. auto. }
  apply S1 in H2; [|apply L, B | apply L, B]. destruct H2 as [H2 H3]. apply dec_inj in H2, H3.
  pose proof (Nat.div_mod (k mod 100) 10 ltac:(lia)). pose proof (Nat.div_mod (l mod 100) 10 ltac:(lia)).
  rewrite (Nat.div_mod k 100), (Nat.div_mod l 100) by lia. lia.
Qed.
Lemma fmt2_clean c x : digit c = false -> c <> "."%char -> has c (fmt2 x) = false.
Proof.
  intros H1 H2. unfold fmt2, two_digits. rewrite !has_app, !dec_digits by exact H1. cbn [has orb]. rewrite !orb_false_r. apply Ascii.eqb_neq. congruence.
Qed.

(** ** C96, dumped catalogues: different contents, different files *)
Definition body (src : source) : string := match src with Direct => "" | Gadget t => "_" ++ species_str t | GadgetVel t => "_v" ++ species_str t end.
Lemma suffix_body src r : suffix src ++ r = body src ++ String "_" r.
Proof. destruct src as [|[]|[]]; reflexivity. Qed.
Lemma clean_tail snap ext : has "_" snap = false -> has "_" ext = false -> has "_" (snap ++ ext) = false.
Proof. intros H1 H2. now rewrite has_app, H1, H2. Qed.
Theorem C96_dumps cat q sc src snap q' sc' src' snap' : has "_" snap = false -> has "_" snap' = false ->
  dump_file cat q sc src snap = dump_file cat q' sc' src' snap' -> q = q' /\ sc = sc' /\ src = src' /\ snap = snap'.
Proof.
  intros H1 H2. unfold dump_file. rewrite !suffix_body. intros H. apply app_cancel_l in H. cbn [append] in H. injection H as H.
  assert (A : forall q sc src r, quantity_str q ++ String "_" (scope_str sc ++ body src ++ r) = (quantity_str q ++ String "_" (scope_str sc ++ body src)) ++ r) by (intros; rewrite !app_assoc_s; cbn [append]; now rewrite !app_assoc_s).
  rewrite !A in H. apply (split_last "_"%char) in H; [|now apply clean_tail | now apply clean_tail]. destruct H as [H3 H4].
  apply app_cancel_r in H4. clear A. repeat split; trivial.
  all: destruct q, q'; try discriminate; trivial; destruct sc, sc'; try discriminate; trivial; destruct src as [|[]|[]], src' as [|[]|[]]; try discriminate; trivial.
Qed.
Print Assumptions C96_dumps.
Example C96_dumps_ex : dump_file "./cat" QMinor Global (GadgetVel Stars) "024" = "./cat/minor_global_vstars_024.txt" /\ has "_" "024" = false.
Proof. split; reflexivity. Qed.
(** Snapshot names with an underscore can lead to the files of another class. *)
Theorem C96_snap_refuted cat q sc snap : dump_file cat q sc Direct ("dm_" ++ snap) = dump_file cat q sc (Gadget Dm) snap.
Proof. reflexivity. Qed.
Print Assumptions C96_snap_refuted.

(** ** C96, plots *)
(** The plots that share a file: the two ellipticity histograms; groups whose lower edges agree in the
    first two decimals of the logarithm; density plots of all classes. *)
Definition same_picture (p p' : plot) : Prop :=
  match p, p' with
  | PGroup a m, PGroup a' m' => a = a' /\ hundredths (log10 m) = hundredths (log10 m')
  | PRhoGroup m, PRhoGroup m' => hundredths (log10 m) = hundredths (log10 m')
  | PEps _, PEps _ => True
  | _, _ => p = p'
  end.
Definition density (p : plot) : bool := match p with PRho | PRhoGroup _ => true | _ => false end.
Lemma base_clean p : has "_" (plot_base p) = false.
Proof. destruct p as [[]|[] m|[]|[]|[] n| |m]; cbn [plot_base axis_str scope_cap append has]; rewrite ?has_app, ?fmt2_clean, ?dec_digits by (reflexivity || discriminate); reflexivity. Qed.
Lemma plot_suffix_body p src r : plot_suffix p src ++ r = (if density p then "" else body src) ++ String "_" r.
Proof. destruct p; cbn [plot_suffix density]; rewrite <- ?suffix_body; reflexivity. Qed.
Theorem C96_partial viz p src snap p' src' snap' : has "_" snap = false -> has "_" snap' = false -> (forall t, src <> GadgetVel t /\ src' <> GadgetVel t) ->
  (plot_file viz p src snap = plot_file viz p' src' snap' <-> same_picture p p' /\ snap = snap' /\ (density p = true \/ src = src')).
Proof.
  intros H1 H2 HV. unfold plot_file. rewrite !plot_suffix_body. split.
  - intros H. apply app_cancel_l in H. cbn [append] in H. injection H as H. rewrite <- !app_assoc_s in H.
    apply (split_last "_"%char) in H; [|now apply clean_tail | now apply clean_tail]. destruct H as [H3 H4]. apply app_cancel_r in H4.
    pose proof (base_clean p) as C1. pose proof (base_clean p') as C2.
    assert (K : plot_base p = plot_base p' /\ (if density p then "" else body src) = (if density p' then "" else body src')).
    { assert (N : forall (b : bool) s, (forall t, s <> GadgetVel t) -> (if b then "" else body s) = "" \/ exists r, (if b then "" else body s) = String "_" r).
      { intros [] [|t|t] Hs; auto; [right; eexists; reflexivity | now destruct (Hs t)]. }
      destruct (N (density p) src (fun t => proj1 (HV t))) as [E|(r & E)], (N (density p') src' (fun t => proj2 (HV t))) as [E'|(r' & E')]; rewrite E, E' in *.
      - apply app_cancel_r in H3. auto.
      - exfalso. apply (f_equal (has "_"%char)) in H3. rewrite !has_app, C1, C2 in H3. discriminate.
      - exfalso. apply (f_equal (has "_"%char)) in H3. rewrite !has_app, C1, C2 in H3. discriminate.
      - apply (split_first "_"%char) in H3; trivial. destruct H3 as [-> ->]. auto. }
    destruct K as [K1 K2]. assert (S : same_picture p p').
    { clear - K1. destruct p as [[]|[] m|[]|[]|[] n| |m], p' as [[]|[] m'|[]|[]|[] n'| |m']; cbn in K1; try discriminate K1; cbn [same_picture]; trivial;
      try (injection K1 as K1); try (apply fmt2_inj in K1; auto; fail); try (apply dec_inj in K1; now subst). }
    split; [exact S|]. split; [exact H4|]. destruct p as [|? ?| | | | |], p' as [|? ?| | | | |]; cbn in S; try (now left); try discriminate; try contradiction; right; cbn in K2; try discriminate S;
      destruct src as [|[]|t], src' as [|[]|t']; cbn in K2; try discriminate; trivial; destruct (HV t); congruence || (destruct (HV t'); congruence).
  - intros (S & -> & D). f_equal. f_equal. f_equal.
    + destruct p, p'; cbn in S; try discriminate; try contradiction; trivial; try congruence; cbn [plot_base]; unfold fmt2; [destruct S as [-> S]|]; now rewrite S.
    + f_equal. destruct p, p'; cbn in S; try discriminate; try contradiction; trivial; cbn [density] in *; destruct D as [D|D]; try discriminate; now subst.
Qed.
Print Assumptions C96_partial.
Lemma log10_power x : log10 (Rpower 10 x) = x.
Proof. unfold log10, Rpower. rewrite ln_exp. field. assert (H := ln_increasing 1 10 ltac:(lra) ltac:(lra)). rewrite ln_1 in H. lra. Qed.
Lemma round_to x k : (IZR k - 1 / 2 < x < IZR k + 1 / 2)%R -> py_round x = k.
Proof.
  intros H. pose proof (py_round_near x) as N. assert (A : (IZR (py_round x) - IZR k < 1 /\ -1 < IZR (py_round x) - IZR k)%R) by lra. rewrite <- minus_IZR in A.
  destruct A as [A1 A2]. apply lt_IZR in A1. apply (lt_IZR (-1)) in A2. lia.
Qed.
Example C96_example : plot_file "./viz" (PGroup AT (Rpower 10 11)) (Gadget Dm) "024" = "./viz/TM11.00_dm_024.pdf" /\ plot_file "./viz" (PObj Local 12) Direct "024" = "./viz/LocalObj12_024.pdf".
Proof.
  split; [|reflexivity]. unfold plot_file, plot_base. rewrite log10_power. unfold fmt2, hundredths. rewrite (round_to _ 1100) by lra. reflexivity.
Qed.
(** The names of all kinds of plots. *)
Example C96_names :
  map (fun p => plot_file "viz" p (Gadget Stars) "024")
    [PProf Aq; PProf As_; PProf AT; PTHist Local; PTHist Global; PEps Global; PObj Global 3; PRho] =
  ["viz/q_stars_024.pdf"; "viz/s_stars_024.pdf"; "viz/T_stars_024.pdf"; "viz/LocalTCount_stars_024.pdf"; "viz/GlobalTCount_stars_024.pdf";
   "viz/EpsCount_stars_024.pdf"; "viz/GlobalObj3_stars_024.pdf"; "viz/RhoProf_024.pdf"]%list /\
  map (fun p => plot_file "viz" p Direct "024") [PGroup Aq (Rpower 10 12); PGroup As_ (Rpower 10 12); PRhoGroup (Rpower 10 12)] =
  ["viz/qM12.00_024.pdf"; "viz/sM12.00_024.pdf"; "viz/RhoProfM12.00_024.pdf"]%list.
Proof.
  split; [reflexivity|]. unfold plot_file, plot_base. cbn [map]. rewrite !log10_power. unfold fmt2, hundredths. rewrite !(round_to _ 1200) by lra. reflexivity.
Qed.
(** The names of the eight files of a catalogue, for every folder and snapshot. *)
Theorem C96_files cat snap : let f sc src q := dump_file cat q sc src snap in let all := [QD; QQ; QS; QMinor; QInter; QMajor; QM; QCenters]%list in
  map (f Local Direct) all = map (fun n => cat ++ "/" ++ n ++ "_local_" ++ snap ++ ".txt") ["d"; "q"; "s"; "minor"; "inter"; "major"; "m"; "centers"]%list /\
  map (f Global (Gadget Gas)) all = map (fun n => cat ++ "/" ++ n ++ "_global_gas_" ++ snap ++ ".txt") ["d"; "q"; "s"; "minor"; "inter"; "major"; "m"; "centers"]%list /\
  map (f Local (GadgetVel Dm)) all = map (fun n => cat ++ "/" ++ n ++ "_local_vdm_" ++ snap ++ ".txt") ["d"; "q"; "s"; "minor"; "inter"; "major"; "m"; "centers"]%list.
Proof. repeat split. Qed.
Print Assumptions C96_files.
(** Local and global ellipticities; densities of halos and of galaxies; two mass groups. *)
Theorem C96_refuted viz src snap :
  plot_file viz (PEps Local) src snap = plot_file viz (PEps Global) src snap /\
  plot_file viz PRho (Gadget Dm) snap = plot_file viz PRho (Gadget Stars) snap /\
  exists m m', (m < m')%R /\ forall a, plot_file viz (PGroup a m) src snap = plot_file viz (PGroup a m') src snap.
Proof.
  split; [reflexivity|]. split; [reflexivity|]. exists (Rpower 10 11), (Rpower 10 (11 + / 1000)). split; [apply Rpower_lt; lra|].
  intros a. unfold plot_file, plot_base. rewrite !log10_power. unfold fmt2, hundredths. now rewrite !(round_to _ 1100) by lra.
Qed.
Print Assumptions C96_refuted.

(** ** C97, the folder for output is created where the files go *)
Lemma prefixes_self {A} (l : list A) : In l (prefixes l).
Proof. induction l as [|x l IH]; [now left|]. right. now apply in_map. Qed.
Lemma path_eqb_refl p : path_eqb p p = true.
Proof. unfold path_eqb. now destruct (list_eq_dec string_dec p p). Qed.
Lemma path_eqb_eq p q : path_eqb p q = true -> p = q.
Proof. unfold path_eqb. destruct (list_eq_dec string_dec p q); congruence. Qed.
Lemma save_iff pkg s cwd dest name w : (exists w', save pkg s cwd dest name w = Some w') <-> In (resolve cwd dest) (prefixes (resolve (currentdir pkg s) dest) ++ dirs w)%list.
Proof.
  unfold save, write, mkdir_p. cbn [dirs]. destruct (existsb _ _) eqn:E.
  - apply existsb_exists in E. destruct E as (d & Hd & E). apply path_eqb_eq in E. subst d. split; eauto.
  - split; [intros (w' & H); discriminate|]. intros H. assert (E' : existsb (path_eqb (resolve cwd dest)) (prefixes (resolve (currentdir pkg s) dest) ++ dirs w) = true); [|congruence].
    apply existsb_exists. exists (resolve cwd dest). split; [exact H | apply path_eqb_refl].
Qed.
(** Absolute destinations, or a saving module whose folder is the working directory, or a folder that
    was there already: the file is written into the folder meant. *)
Theorem C97_partial pkg s cwd dest name w : absolute dest = true \/ currentdir pkg s = cwd \/ In (resolve cwd dest) (dirs w) ->
  exists w', save pkg s cwd dest name w = Some w' /\ In (resolve cwd dest ++ [name])%list (files w').
Proof.
  intros H. assert (I : In (resolve cwd dest) (prefixes (resolve (currentdir pkg s) dest) ++ dirs w)%list).
  { apply in_or_app. destruct H as [H|[H|H]]; [|subst cwd; left; apply prefixes_self | now right].
    left. unfold resolve. rewrite H. apply prefixes_self. }
  apply (proj2 (save_iff pkg s cwd dest name w)) in I. destruct I as (w' & E). exists w'. split; [exact E|].
  unfold save, write in E. destruct (existsb _ _); [|discriminate]. injection E as <-. now left.
Qed.
Print Assumptions C97_partial.
Example C97_example : absolute "/data/viz" = true /\ resolve ["home"; "u"] "./viz" = ["home"; "u"; "viz"] /\
  save ["opt"; "cosmic_profiles"] ShapeTools ["home"; "u"] "/data/viz" "q_024.pdf" (mkFs [] []) = Some (mkFs [[]; ["data"]; ["data"; "viz"]] [["data"; "viz"; "q_024.pdf"]]).
Proof. repeat split. Qed.
(** Where folders are made, and which destinations do not depend on it: those that start with a slash. *)
Theorem C97_folders pkg : currentdir pkg ShapeTools = (pkg ++ ["shape_profs"])%list /\ currentdir pkg DensTools = (pkg ++ ["dens_profs"])%list /\
  (forall d, currentdir pkg (Compiled d) = d) /\ (forall dest, absolute dest = true <-> exists rest, dest = "/" ++ rest) /\
  (forall cwd, resolve cwd "" = cwd).
Proof.
  repeat split.
  - destruct dest as [|c r]; [discriminate|]. intros H. apply Ascii.eqb_eq in H. subst. now exists r.
  - intros (r & ->). reflexivity.
  - intros cwd. unfold resolve. cbn. apply app_nil_r.
Qed.
Print Assumptions C97_folders.
(** The documented "./viz" (folder will be created if not present): the folder is made inside the
    package, and saving a plot of the profiles fails. *)
Theorem C97_refuted : exists pkg cwd, let w := mkFs [[]; ["home"]; cwd; ["opt"]; pkg; (pkg ++ ["shape_profs"])%list; (pkg ++ ["dens_profs"])%list] [] in
  forall s, s = ShapeTools \/ s = DensTools -> forall name, save pkg s cwd "./viz" name w = None /\ In (currentdir pkg s ++ ["viz"])%list (dirs (mkdir_p (currentdir pkg s) "./viz" w)).
Proof.
  exists ["opt"; "cosmic_profiles"], ["home"; "u"]. cbv zeta. intros s [->| ->] name; split; try reflexivity; cbn; tauto.
Qed.
Print Assumptions C97_refuted.
(** In general: with a relative destination that is not there yet, saving fails for every working
    directory outside the folder of the saving module. *)
Theorem C97_relative_refuted pkg s cwd dest name w : absolute dest = false -> ~ In (resolve cwd dest) (dirs w) ->
  (forall r, currentdir pkg s <> cwd ++ r)%list -> (forall r, cwd <> currentdir pkg s ++ r)%list -> save pkg s cwd dest name w = None.
Proof.
  intros H1 H2 H3 H4. destruct (save pkg s cwd dest name w) as [w'|] eqn:E; [exfalso|reflexivity].
  assert (I : exists w', save pkg s cwd dest name w = Some w') by eauto. apply save_iff in I. apply in_app_or in I. destruct I as [I|I]; [|contradiction].
  unfold resolve in I. rewrite H1 in I. assert (P : forall (l p : path), In p (prefixes l) -> exists r, l = (p ++ r)%list).
  { induction l as [|x l IH]; intros p [<-|Hp]; [now exists [] | destruct Hp | now exists (x :: l)|].
    apply in_map_iff in Hp. destruct Hp as (p' & <- & Hp). destruct (IH p' Hp) as (r & ->). now exists r. }
  apply P in I. destruct I as (r & I). clear - I H3 H4. set (c := components dest) in *. clearbody c. rewrite <- app_assoc in I.
  revert I H3 H4. generalize (currentdir pkg s). induction cwd as [|x cwd IH]; intros l I H3 H4; [now apply (H3 l)|].
  destruct l as [|y l]; [now apply (H4 (x :: cwd))|]. cbn in I. injection I as -> I.
  apply (IH l I); intros r' E; [apply (H3 r') | apply (H4 r')]; now rewrite E.
Qed.
Print Assumptions C97_relative_refuted.

(** ** C98, the shapes used for ellipsoidal density profiles are those of the object's own catalogue *)
(** After a dump, shape queries of the same class find what was dumped. *)
Theorem C98_query X cat src snap (disk : string -> option X) x computed : query_shapes X cat src snap (dump_shapes X cat src snap x disk) computed = x.
Proof. unfold query_shapes, dump_shapes. now rewrite String.eqb_refl. Qed.
Print Assumptions C98_query.
(** The density profiles of a Gadget object do not look there, and use what a direct object left. *)
Theorem C98_refuted X cat snap t (disk : string -> option X) x computed :
  disk (dump_file cat QD Local Direct snap) = None ->
  density_shapes X cat (Gadget t) snap (dump_shapes X cat (Gadget t) snap x disk) computed = computed /\
  density_shapes X cat (Gadget t) snap (dump_shapes X cat Direct snap x disk) computed = x.
Proof.
  intros H. unfold density_shapes, dump_shapes, density_shape_file. rewrite String.eqb_refl. split; [|reflexivity].
  destruct (String.eqb_spec (dump_file cat QD Local Direct snap) (dump_file cat QD Local (Gadget t) snap)) as [E|_]; [exfalso|now rewrite H].
  unfold dump_file in E. rewrite !suffix_body in E. apply app_cancel_l in E. cbn [append quantity_str scope_str] in E. injection E as E.
  destruct t; cbn [body append species_str] in E; apply (f_equal String.length) in E; cbn in E; rewrite ?length_app in E; cbn in E; lia.
Qed.
Print Assumptions C98_refuted.
(** Objects of the direct class: as for queries. Without any dump: the shapes computed. *)
Theorem C98_partial X cat src snap (disk : string -> option X) x computed :
  density_shapes X cat Direct snap (dump_shapes X cat Direct snap x disk) computed = x /\
  (disk (dump_file cat QD Local Direct snap) = None -> density_shapes X cat src snap disk computed = computed).
Proof. unfold density_shapes, dump_shapes, density_shape_file. rewrite String.eqb_refl. split; [reflexivity|]. now intros ->. Qed.
Print Assumptions C98_partial.
Example C98_example : let disk := dump_shapes nat "./cat" Direct "024" 1%nat (fun _ => None) in
  query_shapes nat "./cat" (Gadget Stars) "024" disk 7%nat = 7%nat /\ density_shapes nat "./cat" (Gadget Stars) "024" disk 7%nat = 1%nat.
Proof. split; reflexivity. Qed.
