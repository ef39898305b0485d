(** Small list lemmas missing from the 8.16 standard library. *)
From Coq Require Import List Arith Lia.
Import ListNotations.

Lemma Forall2_length {A B} (R : A -> B -> Prop) l m : Forall2 R l m -> length l = length m.
Proof. induction 1; simpl; auto. Qed.

Lemma Forall2_impl {A B} (R S : A -> B -> Prop) l m :
  (forall a b, R a b -> S a b) -> Forall2 R l m -> Forall2 S l m.
Proof. intros H; induction 1; constructor; auto. Qed.

Lemma map_eq_cons {A B} (f : A -> B) l b m : map f l = b :: m ->
  exists a t, l = a :: t /\ f a = b /\ map f t = m.
Proof. destruct l; simpl; intros [=]; eauto. Qed.

Lemma map_eq_app {A B} (f : A -> B) l m1 m2 : map f l = m1 ++ m2 ->
  exists l1 l2, l = l1 ++ l2 /\ map f l1 = m1 /\ map f l2 = m2.
Proof.
  revert l; induction m1 as [|b m1 IH]; simpl; intros l H.
  - exists [], l; auto.
  - apply map_eq_cons in H. destruct H as (a & t & -> & <- & H).
    destruct (IH _ H) as (l1 & l2 & -> & <- & <-). exists (a :: l1), l2; auto.
Qed.

Lemma NoDup_app_inv {A} (l m : list A) : NoDup (l ++ m) ->
  NoDup l /\ NoDup m /\ forall x, In x l -> In x m -> False.
Proof.
  induction l as [|a l IH]; simpl; intros H.
  - split; [constructor|split; auto].
  - inversion H; subst. destruct (IH H3) as (H4 & H5 & H6). rewrite in_app_iff in H2.
    split; [constructor; tauto|split; auto]. intros x [->|Hx] Hm; eauto.
Qed.

Lemma nth_error_combine_seq {X} (l : list X) p o :
  nth_error l p = Some o -> nth_error (combine (seq 0 (length l)) l) p = Some (p, o).
Proof.
  assert (G : forall n p, nth_error l p = Some o -> nth_error (combine (seq n (length l)) l) p = Some (n + p, o)).
  { induction l as [|x l IH]; intros n [|q] H; cbn in *; try discriminate.
    - injection H as ->. rewrite Nat.add_0_r. reflexivity.
    - rewrite IH by auto. do 2 f_equal. lia. }
  intros H. apply (G 0 p H).
Qed.

Lemma nth_error_combine2 {X Y} (l : list X) (m : list Y) k x y :
  nth_error l k = Some x -> nth_error m k = Some y -> nth_error (combine l m) k = Some (x, y).
Proof.
  revert m k. induction l as [|a l IH]; intros [|b m] [|k] H1 H2; cbn in *; try discriminate; try congruence.
  apply IH; auto.
Qed.
