(** C90: labels made by eTo10. *)
From Coq Require Import List ZArith Bool Arith Lia.
From Verif Require Import LabelModel.
Import ListNotations.
Open Scope Z_scope.

(** How a reader reads a label: [d.dd], [d.dd x 10^k] or [10^k], with or without a minus sign;
    the value is m 10^(k-2). *)
Definition sup_digit (c : Z) : option Z :=
  match find (fun d => nth (Z.to_nat d) [8304; 185; 178; 179; 8308; 8309; 8310; 8311; 8312; 8313] 0 =? c)
             [0; 1; 2; 3; 4; 5; 6; 7; 8; 9] with Some d => Some d | None => None end.
Fixpoint read_sup (acc : Z) (l : list Z) : option Z :=
  match l with
  | [] => Some acc
  | c :: l' => match sup_digit c with Some d => read_sup (10 * acc + d) l' | None => None end
  end.
Definition read_power (l : list Z) : option Z :=
  match l with
  | 49 :: 48 :: 8315 :: c :: e => match read_sup 0 (c :: e) with Some k => Some (- k) | None => None end
  | 49 :: 48 :: c :: e => read_sup 0 (c :: e)
  | _ => None
  end.
Definition dig (c : Z) : option Z := if (48 <=? c) && (c <=? 57) then Some (c - 48) else None.
Definition read_mant (l : list Z) : option Z :=
  match l with
  | [a; 46; b; c] => match dig a, dig b, dig c with Some x, Some y, Some z => Some (100 * x + 10 * y + z) | _, _, _ => None end
  | _ => None
  end.
Definition read_pos (l : list Z) : option (Z * Z) :=
  match read_mant l with
  | Some m => Some (m, 0)
  | None =>
      match read_power l with
      | Some k => Some (100, k)
      | None =>
          match read_mant (firstn 4 l), skipn 4 l with
          | Some m, 10240 :: 10005 :: 10240 :: p => match read_power p with Some k => Some (m, k) | None => None end
          | _, _ => None
          end
      end
  end.
Definition read_label (l : list Z) : option (Z * Z) :=
  match l with
  | 45 :: l' => match read_pos l' with Some (m, k) => Some (- m, k) | None => None end
  | _ => read_pos l
  end.

Definition bools := [true; false].
Definition range (a : Z) (n : nat) : list Z := map (fun i => a + Z.of_nat i) (seq 0 n).
Lemma in_range a n x : a <= x < a + Z.of_nat n -> In x (range a n).
Proof. intros H. apply in_map_iff. exists (Z.to_nat (x - a)). split; [lia|]. apply in_seq. lia. Qed.

Definition good (u n : bool) (a b c k : Z) : bool :=
  match eTo10 (fmt u n a b c k) with
  | LRet l => match read_label l with
              | Some (m, k') => (m =? (if n then -1 else 1) * (100 * a + 10 * b + c)) && (k' =? k)
              | None => false end
  | _ => false
  end.
Lemma all_good : forallb (fun u => forallb (fun n => forallb (fun a => forallb (fun b => forallb (fun c =>
   forallb (good u n a b c) (range (-19) 39)) (range 0 10)) (range 0 10)) (range 0 10)) bools) bools = true.
Proof. vm_compute. reflexivity. Qed.

(** * C90 *)
(** For exponents -19 to 19 the label denotes the number it was made from, in both spellings. *)
Theorem C90_partial : forall upper neg d1 d2 d3 k,
  0 <= d1 <= 9 -> 0 <= d2 <= 9 -> 0 <= d3 <= 9 -> -19 <= k <= 19 ->
  exists l, eTo10 (fmt upper neg d1 d2 d3 k) = LRet l /\
    read_label l = Some ((if neg then -1 else 1) * (100 * d1 + 10 * d2 + d3), k).
Proof.
  intros u n a b c k Ha Hb Hc Hk.
  assert (G : good u n a b c k = true).
  { pose proof all_good as G. rewrite forallb_forall in G. specialize (G u ltac:(destruct u; cbn; auto)). cbv beta in G.
    rewrite forallb_forall in G. specialize (G n ltac:(destruct n; cbn; auto)). cbv beta in G.
    rewrite forallb_forall in G. specialize (G a ltac:(apply in_range; lia)). cbv beta in G.
    rewrite forallb_forall in G. specialize (G b ltac:(apply in_range; lia)). cbv beta in G.
    rewrite forallb_forall in G. specialize (G c ltac:(apply in_range; lia)). cbv beta in G.
    rewrite forallb_forall in G. specialize (G k ltac:(apply in_range; lia)). exact G. }
  unfold good in G. destruct (eTo10 _) as [l| |]; try discriminate. exists l. split; [reflexivity|].
  destruct read_label as [[m k']|]; [|discriminate]. apply andb_prop in G. destruct G as (G1 & G2).
  apply Z.eqb_eq in G1, G2. congruence.
Qed.
Print Assumptions C90_partial.

(** 1.23E+05 is shown as 1.23 x 10^5, 1.00E-12 as 10^-12. *)
Example C90_example :
  eTo10 [49; 46; 50; 51; 69; 43; 48; 53] = LRet [49; 46; 50; 51; 10240; 10005; 10240; 49; 48; 8309] /\
  eTo10 [49; 46; 48; 48; 69; 45; 49; 50] = LRet [49; 48; 8315; 185; 178] /\
  fmt true false 1 2 3 5 = [49; 46; 50; 51; 69; 43; 48; 53].
Proof. repeat split. Qed.
(** What format writes: 1.00E+00 (a plus sign for exponent 0), -4.50e-07, 9.99E+123. *)
Example C90_format : fmt true false 1 0 0 0 = [49; 46; 48; 48; 69; 43; 48; 48] /\ fmt false true 4 5 0 (-7) = [45; 52; 46; 53; 48; 101; 45; 48; 55] /\
  fmt true false 9 9 9 123 = [57; 46; 57; 57; 69; 43; 49; 50; 51].
Proof. repeat split. Qed.
(** Exponents of one digit, which format never produces: "5E+0" and "5E+1" raise IndexError, "5E+2" and
    "5E*1" AssertionError. *)
Example C90_short : eTo10 [53; 69; 43; 48] = LIndex /\ eTo10 [53; 69; 43; 49] = LIndex /\ eTo10 [53; 69; 43; 50] = LAssert /\ eTo10 [53; 69; 42; 49] = LAssert.
Proof. repeat split. Qed.
(** Blanks in the exponent, "1E- 5" and "1E+ 5", raise AssertionError. *)
Example C90_blank : eTo10 [49; 69; 45; 32; 53] = LAssert /\ eTo10 [49; 69; 43; 32; 53] = LAssert.
Proof. split; reflexivity. Qed.

Lemma all_bad : forallb (fun u => forallb (fun a => forallb (fun b => forallb (fun c =>
   forallb (fun k => match eTo10 (fmt u false a b c k) with LAssert => true | _ => false end) (range 20 80 ++ range (-99) 80)) (range 0 10)) (range 0 10)) (range 0 10)) bools = true.
Proof. vm_compute. reflexivity. Qed.

(** Exponents from 20 to 99 of either sign end in an AssertionError, and 1.23E+100 is shown as
    1.23 x 10^10 followed by the digit 0. *)
Theorem C90_refuted :
  (forall upper d1 d2 d3 k, 0 <= d1 <= 9 -> 0 <= d2 <= 9 -> 0 <= d3 <= 9 -> 20 <= Z.abs k <= 99 ->
     eTo10 (fmt upper false d1 d2 d3 k) = LAssert) /\
  (exists l, eTo10 (fmt true false 1 2 3 100) = LRet (l ++ [digit 0]) /\ read_label l = Some (123, 10) /\ read_label (l ++ [digit 0]) = None).
Proof.
  split.
  - intros u a b c k Ha Hb Hc Hk.
    pose proof all_bad as G. rewrite forallb_forall in G. specialize (G u ltac:(destruct u; cbn; auto)). cbv beta in G.
    rewrite forallb_forall in G. specialize (G a ltac:(apply in_range; lia)). cbv beta in G.
    rewrite forallb_forall in G. specialize (G b ltac:(apply in_range; lia)). cbv beta in G.
    rewrite forallb_forall in G. specialize (G c ltac:(apply in_range; lia)). cbv beta in G.
    rewrite forallb_forall in G. specialize (G k). cbv beta in G. destruct (eTo10 _); auto; exfalso;
    (assert (F : false = true); [apply G; apply in_or_app; destruct (Z.le_gt_cases 0 k); [left|right]; apply in_range; lia|discriminate]).
  - exists [49; 46; 50; 51; 10240; 10005; 10240; 49; 48; 185; 8304]. repeat split.
Qed.
Print Assumptions C90_refuted.
