(** C119: catalogue indices in simulations with very many particles. *)
From Coq Require Import List ZArith Bool Lia.
From Verif Require Import CatModel CatSpec CatProofs CatProps Cat32Model.
Import ListNotations.
Open Scope Z_scope.

(** Lemmas about 32-bit numbers. *)
Lemma w32_id z : - 2 ^ 31 <= z < 2 ^ 31 -> w32 z = z.
Proof. intros H. unfold w32. rewrite Z.mod_small; [lia|]. change (2 ^ 32) with (2 ^ 31 + 2 ^ 31). lia. Qed.
Lemma w32_range z : - 2 ^ 31 <= w32 z < 2 ^ 31.
Proof. unfold w32. pose proof (Z.mod_pos_bound (z + 2 ^ 31) (2 ^ 32) ltac:(reflexivity)). change (2 ^ 32) with (2 ^ 31 + 2 ^ 31) in *. lia. Qed.
Lemma w32_fix z : w32 z = z <-> - 2 ^ 31 <= z < 2 ^ 31.
Proof. split; [intros <-; apply w32_range|apply w32_id]. Qed.
Lemma w32_add a b : w32 (w32 a + b) = w32 (a + b).
Proof.
  unfold w32. f_equal. replace ((a + 2 ^ 31) mod 2 ^ 32 - 2 ^ 31 + b + 2 ^ 31) with ((a + 2 ^ 31) mod 2 ^ 32 + b) by ring.
  rewrite Zplus_mod_idemp_l. f_equal. ring.
Qed.
Lemma sum32_gen l : forall a, fold_left (fun acc x => w32 (acc + x)) l (w32 a) = w32 (a + fold_right Z.add 0 l).
Proof.
  induction l as [|x l IH]; intros a; cbn [fold_left fold_right]; [now rewrite Z.add_0_r|].
  rewrite w32_add, IH. f_equal. ring.
Qed.
Lemma sum32_w l : sum32 l = w32 (fold_right Z.add 0 l).
Proof. unfold sum32. change 0 with (w32 0) at 1. rewrite sum32_gen. reflexivity. Qed.
Lemma of_nat_sum l : fold_right Z.add 0 (map Z.of_nat l) = Z.of_nat (list_sum l).
Proof. induction l as [|x l IH]; [reflexivity|]. cbn [map fold_right]. rewrite IH. change (list_sum (x :: l)) with (x + list_sum l)%nat. lia. Qed.

(** The row of an object. *)
Lemma fill_ok n : forall cells l lim, (n <= length cells)%nat -> lim < 2 ^ 31 -> lim = l + Z.of_nat n -> - 2 ^ 31 <= l ->
  firstn n (fill cells l lim) = map (fun k => l + Z.of_nat k) (seq 0 n).
Proof.
  induction n as [|n IH]; intros cells l lim Hc Hl E Hm; [reflexivity|].
  destruct cells as [|c cs]; [cbn in Hc; lia|]. cbn [fill length] in *. rewrite (proj2 (Z.ltb_lt l lim)) by lia.
  cbn [firstn seq map]. rewrite w32_id by lia. rewrite IH by lia. rewrite Z.add_0_r. f_equal. rewrite <- seq_shift, map_map.
  apply map_ext. intros k. lia.
Qed.
Lemma fill_none cells l lim : lim <= l -> fill cells l lim = cells.
Proof. intros H. destruct cells as [|c cs]; [reflexivity|]. cbn [fill]. rewrite (proj2 (Z.ltb_ge l lim)) by lia. reflexivity. Qed.
Lemma firstn_repeat {X} (x : X) n m : (n <= m)%nat -> firstn n (repeat x m) = repeat x n.
Proof. revert m. induction n as [|n IH]; intros [|m] H; cbn; try reflexivity; try lia. f_equal. apply IH. lia. Qed.

(** The indices that the object beginning at particle [start] gets. *)
Definition got (start size : nat) : list Z :=
  if Z.of_nat start mod 2 ^ 32 + Z.of_nat size <? 2 ^ 31 then map (fun k => Z.of_nat start mod 2 ^ 32 + Z.of_nat k) (seq 0 size)
  else if Z.of_nat start mod 2 ^ 32 <? 2 ^ 31 then repeat 0 size
  else map (fun k => Z.of_nat start mod 2 ^ 32 - 2 ^ 32 + Z.of_nat k) (seq 0 size).
Lemma w32_mod z : w32 z = if z mod 2 ^ 32 <? 2 ^ 31 then z mod 2 ^ 32 else z mod 2 ^ 32 - 2 ^ 32.
Proof.
  rewrite <- (Z.add_0_l z) at 1. change 0 with (0 mod 2 ^ 32). unfold w32.
  replace ((0 mod 2 ^ 32 + z + 2 ^ 31) mod 2 ^ 32) with ((z mod 2 ^ 32 + 2 ^ 31) mod 2 ^ 32).
  2: { rewrite Zplus_mod_idemp_l. reflexivity. }
  pose proof (Z.mod_pos_bound z (2 ^ 32) ltac:(reflexivity)) as H. set (r := z mod 2 ^ 32) in *. clearbody r.
  destruct (Z.ltb_spec r (2 ^ 31)).
  - rewrite Z.mod_small; lia.
  - rewrite <- (Z_mod_plus_full _ (-1)). rewrite Z.mod_small; lia.
Qed.
Lemma row_got start size cols : Z.of_nat size < 2 ^ 31 -> (size <= cols)%nat ->
  firstn size (fill (repeat 0 cols) (w32 (Z.of_nat start)) (w32 (w32 (Z.of_nat start) + Z.of_nat size))) = got start size.
Proof.
  intros Hs Hc. unfold got. pose proof (Z.mod_pos_bound (Z.of_nat start) (2 ^ 32) ltac:(reflexivity)) as H.
  rewrite (w32_mod (Z.of_nat start)). set (r := Z.of_nat start mod 2 ^ 32) in *. clearbody r.
  destruct (Z.ltb_spec (r + Z.of_nat size) (2 ^ 31)) as [H1|H1].
  - rewrite (proj2 (Z.ltb_lt r (2 ^ 31))) by lia. rewrite w32_id by lia. apply fill_ok; rewrite ?repeat_length; lia.
  - destruct (Z.ltb_spec r (2 ^ 31)) as [H2|H2].
    + assert (E : w32 (r + Z.of_nat size) = r + Z.of_nat size - 2 ^ 32).
      { rewrite w32_mod, Z.mod_small by lia. rewrite (proj2 (Z.ltb_ge _ _)) by lia. reflexivity. }
      rewrite E. rewrite fill_none by lia. apply firstn_repeat. exact Hc.
    + rewrite (w32_id (r - 2 ^ 32 + Z.of_nat size)) by lia. apply fill_ok; rewrite ?repeat_length; lia.
Qed.

(** The tables of [hs] as the code receives them: C ints. *)
Definition ints (l : list nat) : list Z := map Z.of_nat l.
Definition nb_shs_of {A} (hs : list (halo A)) : list Z := ints (map (fun h => length (h_subs h)) hs).
Definition sh_len_of {A} (hs : list (halo A)) (rest : list nat) : list Z := ints (concat (map h_subs hs) ++ rest).
Definition fof_of {A} (hs : list (halo A)) : list Z := ints (map h_fof hs).

Lemma firstn_ints k l : firstn k (ints l) = ints (firstn k l).
Proof. unfold ints. apply firstn_map. Qed.
Lemma nth_ints k l : nth k (ints l) 0 = Z.of_nat (nth k l 0%nat).
Proof. unfold ints. change 0 with (Z.of_nat 0). apply map_nth. Qed.
Lemma list_sum_firstn_le l : forall k, (list_sum (firstn k l) <= list_sum l)%nat.
Proof. induction l as [|x l IH]; intros [|k]; cbn; try lia. specialize (IH k). unfold list_sum in IH. lia. Qed.

Lemma concat_nth (ls : list (list nat)) (rest : list nat) : forall p l x, nth_error ls p = Some (x :: l) ->
  nth (list_sum (firstn p (map (@length nat) ls))) (concat ls ++ rest) 0%nat = x.
Proof.
  induction ls as [|l0 ls IH]; intros p l x H; [destruct p; discriminate|].
  destruct p as [|p]; cbn [nth_error] in H.
  - injection H as ->. reflexivity.
  - cbn [map firstn concat]. change (list_sum (length l0 :: firstn p (map (@length nat) ls))) with (length l0 + list_sum (firstn p (map (@length nat) ls)))%nat.
    rewrite <- app_assoc, app_nth2_plus. exact (IH p l x H).
Qed.
Lemma with_start_seq {A} (hs : list (halo A)) : forall off d,
  with_start off hs = map (fun p => ((off + list_sum (firstn p (map h_fof hs)))%nat, nth p hs d)) (seq 0 (length hs)).
Proof.
  induction hs as [|h hs IH]; intros off d; [reflexivity|].
  cbn [with_start length seq map firstn nth list_sum]. f_equal; [f_equal; cbn; lia|].
  rewrite (IH (off + h_fof h)%nat d), <- seq_shift, map_map. apply map_ext. intros p. f_equal.
  cbn [map firstn]. change (list_sum (h_fof h :: firstn p (map h_fof hs))) with (h_fof h + list_sum (firstn p (map h_fof hs)))%nat. lia.
Qed.

Section Tables.
  Context {A : Type} (zero : A).
  Variables (hs : list (halo A)) (rest : list nat) (minp : Z).
  Hypothesis Hsub : Z.of_nat (list_sum (map (fun h => length (h_subs h)) hs)) < 2 ^ 31.
  Hypothesis Hne : hs <> [].

  Let d : halo A := mkHalo [] 0 zero.
  Lemma nb_at p : nth p (nb_shs_of hs) 0 = Z.of_nat (length (h_subs (nth p hs d))).
  Proof.
    unfold nb_shs_of. rewrite nth_ints. f_equal.
    change 0%nat with (length (h_subs d)). rewrite (map_nth (fun h => length (h_subs h))). reflexivity.
  Qed.
  Lemma first_sub p : (p < length hs)%nat -> h_subs (nth p hs d) <> [] ->
    at32 (sh_len_of hs rest) (sum32 (firstn p (nb_shs_of hs))) = Z.of_nat (central (nth p hs d)).
  Proof.
    intros Hp Hn. unfold nb_shs_of. rewrite firstn_ints, sum32_w. unfold ints at 1. rewrite of_nat_sum.
    pose proof (list_sum_firstn_le (map (fun h => length (h_subs h)) hs) p) as L.
    rewrite w32_id by lia. unfold at32. rewrite (proj2 (Z.ltb_ge _ 0)) by lia. rewrite Nat2Z.id.
    unfold sh_len_of. rewrite nth_ints. f_equal. unfold central.
    destruct (h_subs (nth p hs d)) as [|x l] eqn:E; [contradiction|]. cbn [hd].
    replace (map (fun h : halo A => length (h_subs h)) hs) with (map (@length nat) (map h_subs hs)) by (rewrite map_map; reflexivity).
    apply (concat_nth (map h_subs hs) rest p l x). rewrite nth_error_map. rewrite (nth_error_nth' hs d Hp). cbn. now rewrite E.
  Qed.
  Let passed p := (0 <? nth p (nb_shs_of hs) 0) && (minp <=? at32 (sh_len_of hs rest) (sum32 (firstn p (nb_shs_of hs)))).
  Lemma passed_keep p : (p < length hs)%nat -> passed p = keep minp (nth p hs d).
  Proof.
    intros Hp. unfold passed. rewrite nb_at. unfold keep.
    destruct (h_subs (nth p hs d)) as [|x l] eqn:E.
    - reflexivity.
    - rewrite first_sub by first [exact Hp | rewrite E; discriminate]. unfold central. rewrite E. cbn [hd].
      rewrite (proj2 (Z.ltb_lt 0 _)) by (cbn [length]; lia). reflexivity.
  Qed.
  Lemma kept_with_start : forall {B} (f : nat -> B) (g : nat * halo A -> B),
    (forall p, (p < length hs)%nat -> keep minp (nth p hs d) = true -> f p = g (list_sum (firstn p (map h_fof hs)), nth p hs d)) ->
    map f (filter passed (seq 0 (length hs))) = map g (filter (fun oh => keep minp (snd oh)) (with_start 0 hs)).
  Proof.
    intros B f g H. rewrite (with_start_seq hs 0 d).
    assert (K : forall p, In p (seq 0 (length hs)) -> (p < length hs)%nat) by (intros p Hp; apply in_seq in Hp; lia).
    induction (seq 0 (length hs)) as [|p l IH]; [reflexivity|]. cbn [map filter snd]. rewrite passed_keep by (apply K; now left).
    destruct (keep minp (nth p hs d)) eqn:E; cbn [map]; rewrite IH by (intros q Hq; apply K; now right); [|reflexivity].
    f_equal. apply H; [apply K; now left|exact E].
  Qed.
  Lemma max_ge l : forall a, a <= fold_left Z.max l a.
  Proof. induction l as [|x l IH]; intros a; cbn; [lia|]. specialize (IH (Z.max a x)). lia. Qed.
  Lemma max_in l x : In x l -> forall a, x <= fold_left Z.max l a.
  Proof.
    induction l as [|y l IH]; intros H a; [destruct H|]. cbn. destruct H as [->|H]; [|apply IH; exact H].
    pose proof (max_ge l (Z.max a x)). lia.
  Qed.

  (** What the 32-bit code returns for these tables. *)
  Lemma calcObjCat32_got : (forall h, In h hs -> Z.of_nat (central h) < 2 ^ 31) ->
    calcObjCat32 zero (nb_shs_of hs) (sh_len_of hs rest) (fof_of hs) (map h_r hs) minp =
    Some (let ks := filter (fun oh => keep minp (snd oh)) (with_start 0 hs) in
          (flat_map (fun oh => got (fst oh) (central (snd oh))) ks,
           map (fun oh => h_r (snd oh)) ks, ints (map (fun oh => central (snd oh)) ks))).
  Proof.
    intros Hc. unfold calcObjCat32. assert (L : length (nb_shs_of hs) = length hs) by (unfold nb_shs_of, ints; rewrite !map_length; reflexivity).
    rewrite L. destruct (length hs) as [|n] eqn:En; [destruct hs; [contradiction|discriminate]|]. rewrite <- En in *. clear En n.
    fold passed. cbv zeta.
    match goal with |- context [Z.to_nat (fold_left Z.max (map ?s ?l) 0)] => set (size := s); set (cols := fold_left Z.max (map size l) 0) end.
    assert (S : forall p, (p < length hs)%nat -> keep minp (nth p hs d) = true -> h_subs (nth p hs d) <> []).
    { intros p _ K E. unfold keep in K. rewrite E in K. discriminate. }
    assert (Z1 : forall p, (p < length hs)%nat -> keep minp (nth p hs d) = true -> size p = Z.of_nat (central (nth p hs d))).
    { intros p Hp K. unfold size. change ((0 <? nth p (nb_shs_of hs) 0) && (minp <=? at32 (sh_len_of hs rest) (sum32 (firstn p (nb_shs_of hs))))) with (passed p).
      rewrite passed_keep, K by exact Hp. apply first_sub; auto. }
    f_equal. f_equal; [f_equal|].
    - rewrite !flat_map_concat_map. f_equal. apply kept_with_start. intros p Hp K. cbn [fst snd].
      match goal with |- context [Z.to_nat (if ?c then ?a else 0)] => change (if c then a else 0) with (size p) end. rewrite Z1 by assumption. rewrite Nat2Z.id. unfold calcCSHIdxs32. rewrite first_sub by auto.
      pose proof (passed_keep p Hp) as P. rewrite K in P. unfold passed in P. apply andb_true_iff in P. destruct P as [P1 P2].
      rewrite P1. rewrite first_sub in P2 by auto. rewrite P2.
      unfold fof_of. rewrite firstn_ints, sum32_w. unfold ints. rewrite of_nat_sum. apply row_got.
      + apply Hc. apply nth_In. exact Hp.
      + assert (size p <= cols) by (apply max_in, in_map, in_seq; lia). rewrite Z1 in H by assumption. lia.
    - apply kept_with_start. intros p Hp K. cbn [snd]. rewrite <- (map_nth h_r). apply nth_indep. rewrite map_length. exact Hp.
    - unfold ints. rewrite map_map. apply kept_with_start. intros p Hp K. cbn [snd]. apply Z1; assumption.
  Qed.
End Tables.

Lemma got_length start size : length (got start size) = size.
Proof. unfold got. destruct (_ <? _); [|destruct (_ <? _)]; rewrite ?map_length, ?seq_length, ?repeat_length; reflexivity. Qed.
Lemma got_right start size : (1 <= size)%nat -> Z.of_nat size < 2 ^ 31 ->
  got start size = ints (seq start size) <-> Z.of_nat (start + size) < 2 ^ 31.
Proof.
  intros H1 H2. destruct size as [|n]; [lia|]. unfold got, ints. split.
  - destruct (Z.ltb_spec (Z.of_nat start mod 2 ^ 32 + Z.of_nat (S n)) (2 ^ 31)).
    + cbn [seq map]. intros E. injection E as E _. rewrite Z.add_0_r in E. lia.
    + destruct (Z.ltb_spec (Z.of_nat start mod 2 ^ 32) (2 ^ 31)); cbn [seq map repeat]; intros E; injection E as E _.
      * assert (start = 0)%nat by lia. subst start. rewrite Z.mod_small in * by lia. lia.
      * rewrite Z.add_0_r in E. pose proof (Z.mod_pos_bound (Z.of_nat start) (2 ^ 32) ltac:(reflexivity)). lia.
  - intros H. rewrite Z.mod_small by lia. rewrite (proj2 (Z.ltb_lt _ _)) by lia.
    clear. generalize (S n). intros m.
    assert (E : forall k, seq (k + start) m = map (fun j => (start + j)%nat) (seq k m)).
    { induction m as [|m IH]; intros k; [reflexivity|]. cbn [seq map]. f_equal; [lia|]. exact (IH (S k)). }
    change (seq start m) with (seq (0 + start) m). rewrite (E 0%nat), map_map. apply map_ext. intros j. lia.
Qed.

(** The tables consist of C ints: the sizes of the central subhalos, and the number of subhalos in the table. *)
Definition fits {A} (hs : list (halo A)) : Prop :=
  Z.of_nat (list_sum (map (fun h => length (h_subs h)) hs)) < 2 ^ 31 /\ (forall h, In h hs -> Z.of_nat (central h) < 2 ^ 31).

Lemma flat_map_eq {X Y} (f g : X -> list Y) l : (forall x, In x l -> length (f x) = length (g x)) ->
  flat_map f l = flat_map g l <-> (forall x, In x l -> f x = g x).
Proof.
  induction l as [|x l IH]; intros H; [split; [intros _ y []|reflexivity]|]. cbn [flat_map]. split.
  - intros E y Hy. assert (F : f x = g x /\ flat_map f l = flat_map g l).
    { apply app_eq_app in E. destruct E as (l2 & [[E1 E2]|[E1 E2]]); pose proof (H x (or_introl eq_refl)) as L; rewrite E1, app_length in L;
        (destruct l2; [rewrite app_nil_r in E1; cbn in E2; now subst|cbn in L; lia]). }
    destruct Hy as [<-|Hy]; [apply F|]. apply IH; [intros; apply H; now right|apply F|exact Hy].
  - intros E. rewrite (E x (or_introl eq_refl)). f_equal. apply IH; [intros; apply H; now right|intros; apply E; now right].
Qed.
Lemma flat_map_ints {X} (f : X -> list nat) l : flat_map (fun x => ints (f x)) l = ints (flat_map f l).
Proof. induction l as [|x l IH]; [reflexivity|]. cbn [flat_map]. rewrite IH. unfold ints. rewrite map_app. reflexivity. Qed.

(** The compiled code returns the kept halos with the radii and sizes of C19 whatever the number of particles, and
    the indices of C19 if and only if every kept central subhalo ends before particle 2^31. *)
Theorem C119_partial : forall (A : Type) (zero : A) (hs : list (halo A)) rest minp, hs <> [] -> fits hs -> 1 <= minp ->
  exists cat, calcObjCat32 zero (nb_shs_of hs) (sh_len_of hs rest) (fof_of hs) (map h_r hs) minp =
      Some (cat, snd (fst (wanted minp hs)), ints (snd (wanted minp hs))) /\
    length cat = length (fst (fst (wanted minp hs))) /\
    (cat = ints (fst (fst (wanted minp hs))) <->
     forall off h, In (off, h) (with_start 0 hs) -> keep minp h = true -> Z.of_nat (off + central h) < 2 ^ 31).
Proof.
  intros A zero hs rest minp Hne (Hsub & Hc) Hm. rewrite (calcObjCat32_got zero hs rest minp Hsub Hne Hc). cbv zeta.
  eexists. split; [reflexivity|]. unfold wanted. cbv zeta. cbn [fst snd].
  set (ks := filter (fun oh : nat * halo A => keep minp (snd oh)) (with_start 0 hs)).
  assert (W : forall off l oh, In oh (with_start off l) -> In (snd oh) (A := halo A) l).
  { intros off l. revert off. induction l as [|h l IH]; intros off oh Ho; [destruct Ho|]. destruct Ho as [<-|Ho]; [now left|right; exact (IH _ _ Ho)]. }
  assert (B : forall oh, In oh ks -> (1 <= central (snd oh))%nat /\ Z.of_nat (central (snd oh)) < 2 ^ 31).
  { intros oh Ho. apply filter_In in Ho. destruct Ho as [Ho K]. split; [|apply Hc; exact (W _ _ _ Ho)].
    unfold keep in K. unfold central. destruct (h_subs (snd oh)); [discriminate|]. cbn [hd]. apply Z.leb_le in K. lia. }
  split.
  - clear. induction ks as [|x l IH]; [reflexivity|]. cbn [flat_map]. rewrite !app_length, got_length, seq_length, IH. reflexivity.
  - rewrite <- flat_map_ints. rewrite flat_map_eq.
    + split.
      * intros E off h Ho K. assert (Hk : In (off, h) ks) by (apply filter_In; auto). destruct (B _ Hk) as [B1 B2].
        apply (proj1 (got_right off (central h) B1 B2)). exact (E _ Hk).
      * intros E [off h] Hk. destruct (B _ Hk) as [B1 B2]. apply filter_In in Hk. destruct Hk as [Hk K].
        apply (got_right off (central h) B1 B2). apply E; assumption.
    + intros oh Ho. rewrite got_length. unfold ints. rewrite map_length, seq_length. reflexivity.
Qed.
Print Assumptions C119_partial.

(** In particular: fewer than 2^31 particles in all FoF halos together, each central subhalo within its halo. Then the
    C ints return what every execution over unbounded integers (C19) returns. *)
Theorem C119_enough : forall (A : Type) (zero : A) (hs : list (halo A)) rest minp out, fits hs -> 1 <= minp ->
  (forall h, In h hs -> (central h <= h_fof h)%nat) -> Z.of_nat (list_sum (map h_fof hs)) < 2 ^ 31 ->
  calcObjCat A zero (map (fun h => length (h_subs h)) hs) (concat (map h_subs hs) ++ rest) (map h_fof hs) (map h_r hs) minp out ->
  calcObjCat32 zero (nb_shs_of hs) (sh_len_of hs rest) (fof_of hs) (map h_r hs) minp =
  option_map (fun o => (ints (fst (fst o)), snd (fst o), ints (snd o))) out.
Proof.
  intros A zero hs rest minp out Hf Hm Hcf Ht Hrun. apply C19_catalogue in Hrun. subst out.
  destruct hs as [|h0 hs0] eqn:E; [reflexivity|]. rewrite <- E in *. assert (Hne : hs <> []) by (rewrite E; discriminate). clear E.
  destruct (C119_partial A zero hs rest minp Hne Hf Hm) as (cat & -> & _ & H). cbn [option_map].
  replace cat with (ints (fst (fst (wanted minp hs)))); [reflexivity|]. symmetry. apply H. clear -Hcf Ht.
  assert (G : forall l off o h, (forall h, In h l -> (central h <= h_fof h)%nat) -> In (o, h) (with_start off l) -> (o + central (A := A) h <= off + list_sum (map h_fof l))%nat).
  { induction l as [|x l IH]; intros off o h Hl Hin; [destruct Hin|]. cbn [map]. change (list_sum (h_fof x :: map h_fof l)) with (h_fof x + list_sum (map h_fof l))%nat.
    destruct Hin as [Q|Hin].
    - injection Q as <- <-. pose proof (Hl x (or_introl eq_refl)). lia.
    - specialize (IH _ _ _ (fun h Hh => Hl h (or_intror Hh)) Hin). lia. }
  intros off h Hin _. specialize (G hs 0%nat off h Hcf Hin). lia.
Qed.
Print Assumptions C119_enough.

(** Three halos with one subhalo each in a box of 2^31 + 10 particles. The second object is made of copies of
    particle 0, a particle of the first object; the particles read for the third object belong to the first halo. *)
Theorem C119_refuted : let N := 2 ^ 31 + 10 in let nb := [1; 1; 1] in let len := [3; 2; 2] in let fof := [2 ^ 31 - 1; 5; 5] in
  exists cat, calcObjCat32 0 nb len fof [1; 2; 3] 2 = Some (cat, [1; 2; 3], len) /\
    map (picked N) cat = [0; 1; 2; 0; 0; 14; 15] /\
    (* the particles of the three central subhalos *)
    flat_map (fun p => map (fun k => fold_right Z.add 0 (firstn p fof) + Z.of_nat k) (seq 0 (Z.to_nat (nth p len 0)))) (seq 0 3) =
      [0; 1; 2; 2 ^ 31 - 1; 2 ^ 31; 2 ^ 31 + 4; 2 ^ 31 + 5].
Proof. cbv zeta. eexists. split; [vm_compute; reflexivity|]. split; reflexivity. Qed.
Print Assumptions C119_refuted.

(** The same over the tables of the specification: there are tables for which C19's catalogue is not returned. *)
Theorem C119_all_refuted : exists (hs : list (halo Z)), fits hs /\ hs <> [] /\
  calcObjCat32 0 (nb_shs_of hs) (sh_len_of hs []) (fof_of hs) (map h_r hs) 2 <>
  Some (ints (fst (fst (wanted 2 hs))), snd (fst (wanted 2 hs)), ints (snd (wanted 2 hs))).
Proof.
  destruct (Z_of_nat_complete (2 ^ 31 - 1)) as [K HK]; [discriminate|].
  exists [mkHalo [3%nat] K 1; mkHalo [2%nat] 5 2]. assert (Hne : [mkHalo [3%nat] K 1; mkHalo [2%nat] 5 2] <> []) by discriminate.
  assert (Hf : fits [mkHalo [3%nat] K 1; mkHalo [2%nat] 5 2]).
  { split; [reflexivity|]. intros h [<-|[<-|[]]]; reflexivity. }
  split; [exact Hf|]. split; [exact Hne|]. destruct (C119_partial Z 0 _ [] 2 Hne Hf ltac:(lia)) as (cat & -> & _ & H). intros E. injection E as E.
  pose proof (proj1 H E (0 + K)%nat (mkHalo [2%nat] 5 2) ltac:(cbn [with_start In]; tauto) eq_refl) as X. cbn [central hd h_subs] in X. lia.
Qed.
Print Assumptions C119_all_refuted.

(** The offsets cut the catalogue into its objects if and only if it has fewer than 2^31 entries. *)
Theorem C119_offsets : forall sizes : list nat,
  offsets32 (ints sizes) = ints (0%nat :: cumsum 0 sizes) <-> Z.of_nat (list_sum sizes) < 2 ^ 31.
Proof.
  intros sizes.
  assert (E : ints (0%nat :: cumsum 0 sizes) = map (fun k => Z.of_nat (list_sum (firstn k sizes))) (seq 0 (S (length sizes)))).
  { unfold ints. rewrite <- (map_map (fun k => list_sum (firstn k sizes)) Z.of_nat). f_equal. cbn [seq map firstn]. f_equal.
    rewrite <- seq_shift, map_map. assert (G : forall l a, cumsum a l = map (fun k => (a + list_sum (firstn (S k) l))%nat) (seq 0 (length l))).
    { induction l as [|x l IH]; intros a; [reflexivity|]. cbn [cumsum length seq map]. f_equal; [cbn; lia|].
      rewrite IH, <- seq_shift, map_map. apply map_ext. intros k.
      change (list_sum (firstn (S (S k)) (x :: l))) with (x + list_sum (firstn (S k) l))%nat. lia. }
    rewrite G. apply map_ext. intros k. reflexivity. }
  rewrite E. unfold offsets32. replace (length (ints sizes)) with (length sizes) by (unfold ints; rewrite map_length; reflexivity).
  assert (F : forall k, fold_right Z.add 0 (firstn k (ints sizes)) = Z.of_nat (list_sum (firstn k sizes))).
  { intros k. rewrite firstn_ints. apply of_nat_sum. }
  split.
  - intros Q. pose proof (f_equal (fun l => nth (length sizes) l 0) Q) as X. cbn beta in X.
    set (f := fun k => w32 (fold_right Z.add 0 (firstn k (ints sizes)))) in X.
    set (g := fun k => Z.of_nat (list_sum (firstn k sizes))) in X.
    assert (N : forall h : nat -> Z, nth (length sizes) (map h (seq 0 (S (length sizes)))) 0 = h (length sizes)).
    { intros h. rewrite (nth_indep _ 0 (h 0%nat)) by (rewrite map_length, seq_length; lia). rewrite map_nth, seq_nth by lia. reflexivity. }
    rewrite !N in X. unfold f, g in X. rewrite F, firstn_all in X. apply w32_fix in X. lia.
  - intros H. apply map_ext. intros k. rewrite F. apply w32_id. pose proof (list_sum_firstn_le sizes k). lia.
Qed.
Print Assumptions C119_offsets.

(** Two of three halos are kept. *)
Example C119_ex : let hs := [mkHalo [3; 1]%nat 6 10; mkHalo [] 4 11; mkHalo [2; 2]%nat 5 12]%Z in
  fits hs /\ Z.of_nat (list_sum (map h_fof hs)) < 2 ^ 31 /\ (forall h, In h hs -> (central h <= h_fof h)%nat) /\
  calcObjCat32 0 (nb_shs_of hs) (sh_len_of hs []) (fof_of hs) (map h_r hs) 2 = Some ([0; 1; 2; 10; 11], [10; 12], [3; 2]) /\
  offsets32 [3; 2] = [0; 3; 5].
Proof.
  cbv zeta. split; [split; [reflexivity|]; intros h [<-|[<-|[<-|[]]]]; reflexivity|]. split; [reflexivity|].
  split; [intros h [<-|[<-|[<-|[]]]]; cbn; lia|]. split; vm_compute; reflexivity.
Qed.
