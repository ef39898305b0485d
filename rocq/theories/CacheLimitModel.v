(** * When the limits of the caches take effect

    common/config.py lines 71-86, common/caching.py lines 254-304, and the way the two cached functions are
    decorated: gadget/read_fof.py lines 135-138 and gadget/gen_catalogues.pyx lines 92-95. *)
From Coq Require Import List ZArith Bool.
From Verif Require Import CacheModel.
Import ListNotations.

(** config.GBs in bytes (caching.py line 271; False and 0 are 0) and config.CACHE_MAXSIZE. *)
Record limits := mkLimits { lim_bytes : Z; lim_size : option Z }.

Section Limits.
  Variables A K V E : Type.
  Variable keq : forall x y : K, {x = y} + {x <> y}.
  Variable mk : A -> K.
  (** The decorated functions, numbered. *)
  Variable f : nat -> A -> V + E.
  Notation st := (state K V).

  (** [cl_inner i]: the attribute inner of function i, with the mode its memo was made with. *)
  Record cworld := mkCW { cl_lim : limits; cl_inner : nat -> option (mode * st) }.
  (** hasattr(function, "inner") is false before the first call; config.initialize, line 232, sets the limits. *)
  Definition cstart (l : limits) : cworld := mkCW l (fun _ => None).

  Inductive cop :=
  | SetGBs (bytes : Z)                    (* updateCachingMaxGBs, lines 71-77 *)
  | SetSize (n : option Z)                (* updateCachingMaxSize, lines 79-86 *)
  | Use (i : nat) (a : A) (av1 av2 : Z).  (* a call of function i *)

  Definition upd {B} (g : nat -> B) (i : nat) (b : B) : nat -> B := fun j => if Nat.eqb j i then b else g j.

  (** gen_catalogues.pyx lines 92-95: decorate at the first call, with the limits of that moment (caching.py
      line 272); call twice unless the first call raises. *)
  Definition use_fn (w : cworld) (i : nat) (a : A) (av1 av2 : Z) : option cworld :=
    let '(m, s) := match cl_inner w i with
                   | Some ms => ms
                   | None => (select_mode (lim_size (cl_lim w)) (lim_bytes (cl_lim w)), init K V)
                   end in
    match call A K V E keq mk (f i) m s a av1 with
    | None => None
    | Some (s1, _, inr _) => Some (mkCW (cl_lim w) (upd (cl_inner w) i (Some (m, s1))))
    | Some (s1, _, inl _) =>
      match call A K V E keq mk (f i) m s1 a av2 with
      | None => None
      | Some (s2, _, _) => Some (mkCW (cl_lim w) (upd (cl_inner w) i (Some (m, s2))))
      end
    end.
  Definition cstep (w : cworld) (o : cop) : option cworld :=
    match o with
    | SetGBs b => Some (mkCW (mkLimits b (lim_size (cl_lim w))) (cl_inner w))
    | SetSize n => Some (mkCW (mkLimits (lim_bytes (cl_lim w)) n) (cl_inner w))
    | Use i a av1 av2 => use_fn w i a av1 av2
    end.
  Fixpoint crun (h : list cop) (w : cworld) : option cworld :=
    match h with [] => Some w | o :: h => match cstep w o with Some w => crun h w | None => None end end.
End Limits.
Arguments SetGBs {A}. Arguments SetSize {A}. Arguments Use {A}.
