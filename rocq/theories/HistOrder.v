(** C113: the order of the objects does not matter for the figures of HistModel. *)
From Coq Require Import List Reals Permutation Lra Lia.
From Verif Require Import XR GeoModel EpsModel StatModel HistModel HistProps.
Import ListNotations.
Local Open Scope R_scope.

Lemma count_perm f x y : Permutation x y -> count f x = count f y.
Proof.
  intros H. unfold count. induction H as [|a x y _ IH|a b x|x y z _ IH1 _ IH2]; cbn [filter]; auto; [destruct (f a); cbn; congruence| |congruence].
  destruct (f a), (f b); reflexivity.
Qed.
Lemma hist_perm n x y : Permutation x y -> hist n x = hist n y.
Proof.
  intros H. unfold hist. destruct n as [|n]; [reflexivity|]. f_equal.
  assert (E : forall e, histogram e x = histogram e y).
  { intros e. unfold histogram. f_equal. f_equal; [|f_equal; apply count_perm; exact H]. apply map_ext. intros a. apply count_perm. exact H. }
  rewrite E. reflexivity.
Qed.
(** An object as the drawing routines get it: radius, radii of the shapes, q and s. *)
Record drawn_obj := mkO { o_r : R; o_d : list xr; o_q : list xr; o_s : list xr }.
Lemma local_map big frac l : local_T big (map o_r l) frac (map o_d l) (map o_q l) (map o_s l) =
  map (fun o => let i := radius_index (o_d o) (o_r o) frac in zero_to_nan (nan_to_num big (triaxiality (nth i (o_q o) NaN) (nth i (o_s o) NaN)))) l.
Proof. unfold local_T, T_column, take_at. induction l as [|o l IH]; [reflexivity|]. cbn [map combine fst snd]. f_equal. exact IH. Qed.
(* Drawing the same objects in another order gives the same bars. *)
Theorem C113_order : forall big nb frac l l', Permutation l l' ->
  getGlobalTHist big nb (map o_q l) (map o_s l) = getGlobalTHist big nb (map o_q l') (map o_s l') /\
  getLocalTHist big nb (map o_r l) frac (map o_d l) (map o_q l) (map o_s l) = getLocalTHist big nb (map o_r l') frac (map o_d l') (map o_q l') (map o_s l').
Proof.
  intros big nb frac l l' H. split.
  - unfold getGlobalTHist. apply hist_perm. unfold T_column. rewrite !map_map, !combine_maps, !map_map. apply Permutation_map. exact H.
  - unfold getLocalTHist. rewrite !local_map. apply hist_perm, Permutation_map. exact H.
Qed.
Print Assumptions C113_order.
(* Objects without a value (NaN) can be left out. *)
Theorem C113_missing : forall nb x, hist nb (filter (fun v => match v with NaN => false | _ => true end) x) = hist nb x.
Proof.
  intros nb x. assert (C : forall f, f NaN = false -> count f (filter (fun v => match v with NaN => false | _ => true end) x) = count f x).
  { intros f F. unfold count. induction x as [|v x IH]; [reflexivity|].
    destruct v as [r| | |]; cbn [filter]; [..|rewrite F; exact IH]; (match goal with |- context [if f ?v then _ else _] => destruct (f v) end; cbn [length]; [f_equal|]; exact IH). }
  unfold hist. destruct nb as [|n]; [reflexivity|]. f_equal.
  assert (E : forall e, histogram e (filter (fun v => match v with NaN => false | _ => true end) x) = histogram e x).
  { intros e. unfold histogram. f_equal. f_equal; [|f_equal; apply C; reflexivity]. apply map_ext. intros a. apply C. reflexivity. }
  rewrite E. reflexivity.
Qed.
Print Assumptions C113_missing.
(** Two objects with different radii, in both orders. *)
Example C113_order_example : let a := mkO 1 [Fin (1/2); Fin 1] [Fin (8/10); Fin (9/10)] [Fin (6/10); Fin (6/10)] in
  let b := mkO 3 [Fin (3/2); Fin 3] [Fin (7/10); Fin (1/2)] [Fin (3/10); Fin (4/10)] in
  Permutation [a; b] [b; a] /\ a <> b /\
  getLocalTHist 1000 5 [1; 3] 1 [o_d a; o_d b] [o_q a; o_q b] [o_s a; o_s b] = getLocalTHist 1000 5 [3; 1] 1 [o_d b; o_d a] [o_q b; o_q a] [o_s b; o_s a].
Proof.
  intros a b. split; [apply perm_swap|]. split; [unfold a, b; intros E; injection E; intros; lra|].
  exact (proj2 (C113_order 1000 5 1 [a; b] [b; a] (perm_swap _ _ _))).
Qed.
