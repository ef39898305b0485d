(** Extended real numbers: C doubles and NumPy floats without rounding, overflow and signed
    zeros. Shared by the models of the numerical code. *)
From Coq Require Import List Reals Lra Bool.
Import ListNotations.
Open Scope R_scope.

Inductive xr := Fin (r : R) | PInf | MInf | NaN.

Definition xneg (a : xr) : xr :=
  match a with Fin r => Fin (- r) | PInf => MInf | MInf => PInf | NaN => NaN end.
Definition xadd (a b : xr) : xr :=
  match a, b with
  | Fin r, Fin s => Fin (r + s)
  | NaN, _ => NaN
  | _, NaN => NaN
  | PInf, MInf => NaN
  | MInf, PInf => NaN
  | PInf, _ => PInf
  | _, PInf => PInf
  | MInf, _ => MInf
  | _, MInf => MInf
  end.
Definition xsub (a b : xr) : xr := xadd a (xneg b).
(** Sign of a finite number. *)
Definition sgn (r : R) : comparison :=
  if Rlt_dec 0 r then Gt else if Rlt_dec r 0 then Lt else Eq.
(** Infinity with the sign of a product. *)
Definition inf_of (s t : comparison) : xr :=
  match s, t with
  | Eq, _ => NaN
  | _, Eq => NaN
  | Gt, Gt => PInf
  | Lt, Lt => PInf
  | _, _ => MInf
  end.
Definition xsgn (a : xr) : comparison :=
  match a with Fin r => sgn r | PInf => Gt | MInf => Lt | NaN => Eq end.
Definition xmul (a b : xr) : xr :=
  match a, b with
  | Fin r, Fin s => Fin (r * s)
  | NaN, _ => NaN
  | _, NaN => NaN
  | _, _ => inf_of (xsgn a) (xsgn b)
  end.
(** IEEE division; a zero divisor counts as +0. *)
Definition xdiv (a b : xr) : xr :=
  match a, b with
  | NaN, _ => NaN
  | _, NaN => NaN
  | Fin r, Fin s => if Req_EM_T s 0 then inf_of (sgn r) Gt else Fin (r / s)
  | Fin _, _ => Fin 0
  | _, Fin s => inf_of (xsgn a) (if Req_EM_T s 0 then Gt else sgn s)
  | _, _ => NaN
  end.
Definition xsqrt (a : xr) : xr :=
  match a with
  | Fin r => if Rlt_dec r 0 then NaN else Fin (sqrt r)
  | PInf => PInf
  | _ => NaN
  end.
Definition xsq (a : xr) : xr := xmul a a.
(** a < b; false if either is NaN. *)
Definition xltb (a b : xr) : bool :=
  match a, b with
  | Fin r, Fin s => if Rlt_dec r s then true else false
  | NaN, _ => false
  | _, NaN => false
  | MInf, MInf => false
  | MInf, _ => true
  | _, PInf => match a with PInf => false | _ => true end
  | _, _ => false
  end.
(** a <= b; false if either is NaN. *)
Definition xleb (a b : xr) : bool :=
  match a, b with
  | Fin r, Fin s => if Rle_dec r s then true else false
  | NaN, _ => false
  | _, NaN => false
  | MInf, _ => true
  | _, PInf => true
  | _, _ => false
  end.
(** a == b; false if either is NaN. *)
Definition xeqb (a b : xr) : bool :=
  match a, b with
  | Fin r, Fin s => if Req_EM_T r s then true else false
  | PInf, PInf => true
  | MInf, MInf => true
  | _, _ => false
  end.
Definition xisnan (a : xr) : bool := match a with NaN => true | _ => false end.
Definition xfinite (a : xr) : bool := match a with Fin _ => true | _ => false end.
Definition xsum (l : list xr) : xr := fold_left xadd l (Fin 0).

Lemma xsub_fin a b : xsub (Fin a) (Fin b) = Fin (a - b).
Proof. reflexivity. Qed.
Lemma xdiv_fin a b : b <> 0 -> xdiv (Fin a) (Fin b) = Fin (a / b).
Proof. intros H. simpl. destruct Req_EM_T; [contradiction|reflexivity]. Qed.
Lemma xsqrt_fin a : 0 <= a -> xsqrt (Fin a) = Fin (sqrt a).
Proof. intros H. simpl. destruct (Rlt_dec a 0); [lra|reflexivity]. Qed.
Lemma xltb_fin a b : xltb (Fin a) (Fin b) = true <-> a < b.
Proof. simpl. destruct (Rlt_dec a b); split; intros; try reflexivity; try discriminate; lra. Qed.
Lemma xltb_fin_false a b : xltb (Fin a) (Fin b) = false <-> b <= a.
Proof. simpl. destruct (Rlt_dec a b); split; intros; try reflexivity; try discriminate; lra. Qed.
Lemma sgn_0 : sgn 0 = Eq.
Proof. unfold sgn. destruct (Rlt_dec 0 0); [lra|reflexivity]. Qed.
Lemma sgn_pos r : 0 < r -> sgn r = Gt.
Proof. intros H. unfold sgn. destruct (Rlt_dec 0 r); [reflexivity|lra]. Qed.
Lemma xdiv_00 : xdiv (Fin 0) (Fin 0) = NaN.
Proof. simpl. destruct (Req_EM_T 0 0); [|lra]. rewrite sgn_0. reflexivity. Qed.
