(** Model of the unit configuration: cosmic_profiles/common/config.py, of the memo in
    gadget/read_fof.py, and of the unit scaling of constructors and getters.
    Floating point numbers are real numbers: the np.float32 rounding of the conversion
    factors (config.py 159, 169, 179, 189, 199, 209) is not modelled. *)
From Coq Require Import List Reals String Bool ZArith.
From Verif Require Import CacheModel.
Import ListNotations.
Local Open Scope R_scope.

(** Python exceptions that can be raised here. *)
Inductive err := AssertionError | KeyError | ZeroDivisionError | ValueError.

(** The module-level variables of config.py, lines 45-69. GBs and CACHE_MAXSIZE (45-52)
    are not unit-related and are left out. *)
Record config := mkConfig {
  in_l : R; in_m : R; in_v : R; little_h : R; out_l : R; out_m : R; out_v : R }.

(** A Python dict literal: insertion ordered, keys distinct. *)
Definition pydict := list (string * R).

(** d[k], raising KeyError. *)
Fixpoint getitem (d : pydict) (k : string) : R + err :=
  match d with
  | [] => inr KeyError
  | (k', v) :: d' => if string_dec k k' then inl v else getitem d' k
  end.

(** k in d.keys(). *)
Definition has_key (d : pydict) (k : string) : bool :=
  existsb (fun e => if string_dec k (fst e) then true else false) d.

Definition kpc_cm : R := 3085678 * 10 ^ 15.  (* 3.085678e21, config.py line 12 *)
Definition msun_g : R := 1989 * 10 ^ 30.     (* 1.989e33, config.py line 13 *)

(** getAdmissibleLMV, config.py lines 10-15. Dividing by LittleH = 0 raises
    ZeroDivisionError. *)
Definition length_d (h : R) : pydict :=
  [("kpc"%string, kpc_cm); ("Mpc"%string, kpc_cm * 10 ^ 3); ("Gpc"%string, kpc_cm * 10 ^ 6);
   ("kpc/h"%string, kpc_cm / h); ("Mpc/h"%string, kpc_cm * 10 ^ 3 / h);
   ("Gpc/h"%string, kpc_cm * 10 ^ 6 / h); ("pc"%string, kpc_cm / 10 ^ 3);
   ("pc/h"%string, kpc_cm / 10 ^ 3 / h)].
(** config.py line 13. *)
Definition mass_d (h : R) : pydict :=
  [("Msun"%string, msun_g); ("E+10Msun"%string, msun_g * 10 ^ 10);
   ("Msun/h"%string, msun_g / h); ("E+10Msun/h"%string, msun_g * 10 ^ 10 / h)].
(** config.py line 14. *)
Definition velocity_d : pydict := [("km/s"%string, 10 ^ 5)].

(** config.py lines 10-15. *)
Definition admissible (h : R) : (pydict * pydict * pydict) + err :=
  if Req_EM_T h 0 then inr ZeroDivisionError
  else inl (length_d h, mass_d h, velocity_d).

(** getLMVInternal, config.py lines 17-19. *)
Definition internal (c : config) : (R * R * R) + err :=
  match admissible (little_h c) with
  | inr e => inr e
  | inl (ld, md, vd) =>
      match getitem ld "Mpc/h", getitem md "E+10Msun/h", getitem vd "km/s" with
      | inl l, inl m, inl v => inl (l, m, v)
      | _, _, _ => inr KeyError
      end
  end.

(** A unit argument: a name (str) or a number. *)
Inductive unit_arg := Name (s : string) | Num (x : R).

(** config.py lines 107-109 (and 110-115, 139-147): assert on the name, then look up. *)
Definition resolve (d : pydict) (u : unit_arg) : R + err :=
  match u with
  | Name s => if has_key d s then getitem d s else inr AssertionError
  | Num x => inl x
  end.

(** An assignment of little_h alone: config.py lines 104 and 136. *)
Definition set_h (c : config) (h : R) : config :=
  mkConfig (in_l c) (in_m c) (in_v c) h (out_l c) (out_m c) (out_v c).

(** updateInUnitSystem, config.py lines 88-118: the new global state and, if the call
    raised, the exception. The state is returned also in that case. *)
Definition updateIn (c : config) (l m v : unit_arg) (h : R) : config * option err :=
  let c1 := set_h c h in                                     (* line 104 *)
  match admissible (little_h c1) with                        (* line 106 *)
  | inr e => (c1, Some e)
  | inl (ld, md, vd) =>
      match resolve ld l with                                (* 107-109 *)
      | inr e => (c1, Some e)
      | inl l' =>
          match resolve md m with                            (* 110-112 *)
          | inr e => (c1, Some e)
          | inl m' =>
              match resolve vd v with                        (* 113-115 *)
              | inr e => (c1, Some e)
              | inl v' => (mkConfig l' m' v' (little_h c1)   (* 116-118 *)
                             (out_l c1) (out_m c1) (out_v c1), None)
              end
          end
      end
  end.

(** updateOutUnitSystem, config.py lines 120-150. *)
Definition updateOut (c : config) (l m v : unit_arg) (h : R) : config * option err :=
  let c1 := set_h c h in                                     (* line 136 *)
  match admissible (little_h c1) with
  | inr e => (c1, Some e)
  | inl (ld, md, vd) =>
      match resolve ld l with
      | inr e => (c1, Some e)
      | inl l' =>
          match resolve md m with
          | inr e => (c1, Some e)
          | inl m' =>
              match resolve vd v with
              | inr e => (c1, Some e)
              | inl v' => (mkConfig (in_l c1) (in_m c1) (in_v c1) (little_h c1)
                             l' m' v', None)
              end
          end
      end
  end.

(** Conversions of one array element. A zero out-unit raises ZeroDivisionError for
    Python floats. *)
Definition pydiv (x y : R) : R + err :=
  if Req_EM_T y 0 then inr ZeroDivisionError else inl (x / y).

(** factor * x, the last line of each conversion. *)
Definition scaled (f : R + err) (x : R) : R + err :=
  match f with inl q => inl (x * q) | inr e => inr e end.

(** The common part of lines 158-159, 168-169, ...: look up [k] in one of the three
    dictionaries and form the quotient. *)
Definition factor_to_out (sel : pydict * pydict * pydict -> pydict) (k : string)
    (c : config) (out : R) : R + err :=
  match admissible (little_h c) with
  | inr e => inr e
  | inl ds => match getitem (sel ds) k with
              | inr e => inr e
              | inl i => pydiv i out
              end
  end.
(** Lines 188-189, 198-199, 208-209. *)
Definition factor_from_in (sel : pydict * pydict * pydict -> pydict) (k : string)
    (c : config) (inn : R) : R + err :=
  match admissible (little_h c) with
  | inr e => inr e
  | inl ds => match getitem (sel ds) k with
              | inr e => inr e
              | inl i => pydiv inn i
              end
  end.
(** Unpacking of the tuple returned by getAdmissibleLMV (lines 158, 168, 178). *)
Definition sel_l (ds : pydict * pydict * pydict) := fst (fst ds).
Definition sel_m (ds : pydict * pydict * pydict) := snd (fst ds).
Definition sel_v (ds : pydict * pydict * pydict) := snd ds.

(** config.py lines 152-160. *)
Definition LengthInternalToOut (c : config) (x : R) : R + err :=
  scaled (factor_to_out sel_l "Mpc/h" c (out_l c)) x.
(** config.py lines 162-170: the key is spelled 'E+10M_sun/h'. *)
Definition MassInternalToOut (c : config) (x : R) : R + err :=
  scaled (factor_to_out sel_m "E+10M_sun/h" c (out_m c)) x.
(** config.py lines 172-180. *)
Definition VelInternalToOut (c : config) (x : R) : R + err :=
  scaled (factor_to_out sel_v "km/s" c (out_v c)) x.
(** config.py lines 182-190. *)
Definition LengthInToInternal (c : config) (x : R) : R + err :=
  scaled (factor_from_in sel_l "Mpc/h" c (in_l c)) x.
(** config.py lines 192-200. *)
Definition MassInToInternal (c : config) (x : R) : R + err :=
  scaled (factor_from_in sel_m "E+10M_sun/h" c (in_m c)) x.
(** config.py lines 202-210. *)
Definition VelInToInternal (c : config) (x : R) : R + err :=
  scaled (factor_from_in sel_v "km/s" c (in_v c)) x.

(** np.argmin of |values - x|: index of the first smallest element; config.py 219. *)
Fixpoint argmin (best : nat) (bestv : R) (i : nat) (l : list R) : nat :=
  match l with
  | [] => best
  | y :: l' => if Rlt_dec y bestv then argmin i y (S i) l' else argmin best bestv (S i) l'
  end.
Definition np_argmin (l : list R) : nat :=       (* numpy.argmin, config.py line 219 *)
  match l with [] => 0%nat | y :: l' => argmin 0 y 1 l' end.

(** A label: the name of a unit or the formatted quotient followed by a base unit
    ("{:.2e}kpc"); the decimal formatting itself is not modelled. *)
Inductive label := LName (s : string) | LNumeric (x : R) (base : string).

(** config.py lines 218-221 (222-225, 226-229): one of the three labels. *)
Definition one_label (d : pydict) (base : string) (out : R) : label + err :=
  if existsb (fun e => if Req_EM_T out (snd e) then true else false) d then
    match nth_error (map fst d) (np_argmin (map (fun e => Rabs (snd e - out)) d)) with
    | Some s => inl (LName s)
    | None => inr KeyError
    end
  else match getitem d base with
       | inl b => match pydiv out b with
                  | inl q => inl (LNumeric q base)
                  | inr e => inr e
                  end
       | inr e => inr e
       end.

(** LMVLabel, config.py lines 212-230. *)
Definition LMVLabel (c : config) : (label * label * label) + err :=
  match admissible (little_h c) with
  | inr e => inr e
  | inl (ld, md, vd) =>
      match one_label ld "kpc" (out_l c) with
      | inr e => inr e
      | inl l => match one_label md "Msun" (out_m c) with
                 | inr e => inr e
                 | inl m => match one_label vd "km/s" (out_v c) with
                            | inr e => inr e
                            | inl v => inl (l, m, v)
                            end
                 end
      end
  end.

(** Default configuration, config.py line 232. *)
Definition default : config :=
  mkConfig kpc_cm (msun_g * 10 ^ 10) (10 ^ 5) (6774 / 10 ^ 4)
           (kpc_cm * 10 ^ 3) msun_g (10 ^ 5).

(** ** Objects built from user data and their getters *)

(** DensShapeProfs.__init__, shape_profs_classes.pyx lines 509-514 (same in
    dens_profs_classes.pyx): positions, masses and radii are multiplied by in/internal. *)
Record obj := mkObj { o_xyz : list (list R); o_masses : list R; o_r200 : list R; o_lbox : R }.
Definition construct (c : config) (xyz : list (list R)) (masses r200 : list R) (lbox : R)
  : obj + err :=
  match internal c with
  | inr e => inr e
  | inl (li, mi, _) =>
      match pydiv (in_m c) mi, pydiv (in_l c) li with
      | inl fm, inl fl =>
          inl (mkObj (map (map (fun x => x * fl)) xyz) (map (fun x => x * fm) masses)
                     (map (fun x => x * fl) r200) (lbox * fl))
      | _, _ => inr ZeroDivisionError
      end
  end.

(** getR200, dens_profs_classes.pyx lines 60-69. *)
Definition getR200 (c : config) (o : obj) : list R + err :=
  match internal c with
  | inr e => inr e
  | inl (li, _, _) =>
      match pydiv li (out_l c) with
      | inl f => inl (map (fun x => x * f) (o_r200 o))
      | inr e => inr e
      end
  end.

(** getXYZMasses, dens_profs_classes.pyx lines 82-94. *)
Definition getXYZMasses (c : config) (o : obj) : (list (list R) * list R) + err :=
  match internal c with
  | inr e => inr e
  | inl (li, mi, _) =>
      match pydiv li (out_l c), pydiv mi (out_m c) with
      | inl fl, inl fm =>
          inl (map (map (fun x => x * fl)) (o_xyz o), map (fun x => x * fm) (o_masses o))
      | _, _ => inr ZeroDivisionError
      end
  end.

(** ** The group catalogue reader *)

(** A key of the memo: (HDF5_GROUP_DEST, RVIR_OR_R200, PART_TYPE), read_fof.py line 137. *)
Definition fofargs : Type := string * string * nat.
(** Decidable equality of keys: equality of the Python tuples. *)
Definition fofargs_dec (x y : fofargs) : {x = y} + {x <> y}.
Proof. repeat decide equality. Defined.

Section FoF.
  (** Contents of the group files: the radii as stored, for a directory, a radius type
      and a particle type; an error if there is no file or the type is unknown (lines
      50-53, 71-76). Files do not change while the program runs. *)
  Variable files : fofargs -> list R + err.

  (** inner, read_fof.py lines 45-134, the radii only: line 65-66, 72-74, 134. *)
  Definition fof_inner (c : config) (a : fofargs) : list R + err :=
    match files a with
    | inr e => inr e
    | inl raw =>
        match internal c with
        | inr e => inr e
        | inl (li, _, _) =>
            match pydiv (in_l c) li with
            | inr e => inr e
            | inl f => inl (map (fun x => x * f) raw)
            end
        end
    end.

  Notation cstate := (state fofargs (list R)).

  (** getFoFSHData, read_fof.py lines 135-138: two successive calls of the decorated
      function; the second result is returned, an exception in the first propagates.
      [None]: KeyError inside the decorator (impossible, C01). *)
  Definition getFoF (m : mode) (c : config) (s : cstate) (a : fofargs) (av1 av2 : Z)
    : option (cstate * (list R + err)) :=
    match call fofargs fofargs (list R) err fofargs_dec (fun a => a) (fof_inner c) m s a av1 with
    | None => None
    | Some (s1, _, inr e) => Some (s1, inr e)
    | Some (s1, _, inl _) =>
        match call fofargs fofargs (list R) err fofargs_dec (fun a => a) (fof_inner c)
                   m s1 a av2 with
        | None => None
        | Some (s2, _, o) => Some (s2, o)
        end
    end.

  (** Operations of a user program. *)
  Inductive uop :=
  | UpdIn (l m v : unit_arg) (h : R)
  | UpdOut (l m v : unit_arg) (h : R)
  | GetFoF (a : fofargs) (av1 av2 : Z).

  (** One operation: new configuration, new memo state, and what getFoFSHData returned. *)
  Definition ustep (m : mode) (cs : config * cstate) (o : uop)
    : option (config * cstate * option (list R + err)) :=
    let (c, s) := cs in
    match o with
    | UpdIn l ms v h => Some (fst (updateIn c l ms v h), s, None)
    | UpdOut l ms v h => Some (fst (updateOut c l ms v h), s, None)
    | GetFoF a av1 av2 =>
        match getFoF m c s a av1 av2 with
        | None => None
        | Some (s', o) => Some (c, s', Some o)
        end
    end.

  (** A whole program; the results of the getFoFSHData calls in order. *)
  Fixpoint urun (m : mode) (h : list uop) (cs : config * cstate)
    : option (config * cstate * list (list R + err)) :=
    match h with
    | [] => Some (fst cs, snd cs, [])
    | o :: h' =>
        match ustep m cs o with
        | None => None
        | Some (c, s, r) =>
            match urun m h' (c, s) with
            | None => None
            | Some (c', s', rs) =>
                Some (c', s', match r with Some x => x :: rs | None => rs end)
            end
        end
    end.
End FoF.
