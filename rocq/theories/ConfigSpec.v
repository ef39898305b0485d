(** Vocabulary of the unit properties, independent of the model's control flow. *)
From Coq Require Import List Reals String Bool ZArith.
From Verif Require Import ConfigModel.
Import ListNotations.
Local Open Scope R_scope.

(** The units a user may name, with their values for a given h: the documented table. *)
Inductive length_unit (h : R) : string -> R -> Prop :=
| LU_pc : length_unit h "pc" (3085678 * 10 ^ 12)
| LU_kpc : length_unit h "kpc" (3085678 * 10 ^ 15)
| LU_Mpc : length_unit h "Mpc" (3085678 * 10 ^ 18)
| LU_Gpc : length_unit h "Gpc" (3085678 * 10 ^ 21)
| LU_pch : length_unit h "pc/h" (3085678 * 10 ^ 12 / h)
| LU_kpch : length_unit h "kpc/h" (3085678 * 10 ^ 15 / h)
| LU_Mpch : length_unit h "Mpc/h" (3085678 * 10 ^ 18 / h)
| LU_Gpch : length_unit h "Gpc/h" (3085678 * 10 ^ 21 / h).
Inductive mass_unit (h : R) : string -> R -> Prop :=
| MU_M : mass_unit h "Msun" (1989 * 10 ^ 30)
| MU_EM : mass_unit h "E+10Msun" (1989 * 10 ^ 40)
| MU_Mh : mass_unit h "Msun/h" (1989 * 10 ^ 30 / h)
| MU_EMh : mass_unit h "E+10Msun/h" (1989 * 10 ^ 40 / h).
Inductive velocity_unit : string -> R -> Prop :=
| VU_kms : velocity_unit "km/s" (10 ^ 5).

(** [x] is the value a unit argument stands for. *)
Definition denotes (tab : string -> R -> Prop) (u : unit_arg) (x : R) : Prop :=
  match u with Name s => tab s x | Num y => x = y end.

(** All configured units can be divided by. *)
Definition usable (c : config) : Prop :=
  little_h c <> 0 /\ out_l c <> 0 /\ out_m c <> 0 /\ out_v c <> 0.

(** The input part of a configuration. *)
Definition same_in (c c' : config) : Prop :=
  in_l c = in_l c' /\ in_m c = in_m c' /\ in_v c = in_v c'.
Definition same_out (c c' : config) : Prop :=
  out_l c = out_l c' /\ out_m c = out_m c' /\ out_v c = out_v c'.

(** Configuration after the unit updates of a program. *)
Definition config_after (c : config) (h : list uop) : config :=
  fold_left (fun c o => match o with
                        | UpdIn l m v hh => fst (updateIn c l m v hh)
                        | UpdOut l m v hh => fst (updateOut c l m v hh)
                        | GetFoF _ _ _ => c end) h c.

(** Megaparsec per h, in centimetres: the internal length unit; [rescaled c raw] are the
    stored radii expressed in it when the stored unit is the configured input unit. *)
Definition rescaled (c : config) (raw : list R) : list R :=
  map (fun x => x * in_l c / (3085678 * 10 ^ 18 / little_h c)) raw.

(** A label is right for a unit: the name of a unit of that value if there is one,
    otherwise the quotient by a named unit together with the name of that unit. *)
Definition label_ok (tab : string -> R -> Prop) (out : R) (lab : label) : Prop :=
  ((exists s, tab s out) -> exists s, lab = LName s /\ tab s out) /\
  (~ (exists s, tab s out) -> exists s b, tab s b /\ b <> 0 /\ lab = LNumeric (out / b) s).

(** The memory readings of a program stay above the limit. *)
Definition enough (limit : Z) (o : uop) : Prop :=
  match o with GetFoF _ a1 a2 => (limit <= a1)%Z /\ (limit <= a2)%Z | _ => True end.
