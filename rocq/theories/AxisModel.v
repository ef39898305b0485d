(** Model of the label of the density axis: drawDensProfs, cosmic_profiles/dens_profs/dens_profs_tools.py
    lines 166-174 and 184. Strings are Python strings with ASCII characters. *)
From Coq Require Import Reals String Ascii Bool List.
From Verif Require Import ConfigModel.
Import ListNotations.
Local Open Scope string_scope.

(** old in s. *)
Fixpoint contains (old s : string) : bool :=
  prefix old s || match s with EmptyString => false | String _ s' => contains old s' end.
(** s.replace(old, new) for a non-empty old: occurrences from left to right that do not overlap.
    [skip] counts the characters of an occurrence that are still to be passed over. *)
Fixpoint replace_from (old new s : string) (skip : nat) : string :=
  match s with
  | EmptyString => ""
  | String c s' =>
      match skip with
      | S k => replace_from old new s' k
      | O => if prefix old s then new ++ replace_from old new s' (String.length old - 1) else String c (replace_from old new s' 0)
      end
  end.
Definition replace (old new s : string) : string := replace_from old new s 0.

Section Format.
(** '{:.2e}'.format, config.py lines 221 and 225. *)
Variable fmt : R -> string.
(** The strings that LMVLabel returns. *)
Definition text (l : label) : string := match l with LName s => s | LNumeric x base => fmt x ++ base end.

(** "({})".format(s) if "/h" in s else s, line 167. *)
Definition wrap (s : string) : string := if contains "/h" s then "(" ++ s ++ ")" else s.
(** "\mathrm{{ {} }}".format(key), line 170. *)
Definition upright (key : string) : string := "\mathrm{ " ++ key ++ " }".
(** The loop of lines 169-173: the first key that occurs. *)
Fixpoint first_key (keys : list string) (s : string) : string :=
  match keys with
  | [] => s
  | key :: keys' => let s' := replace key (upright key) s in if string_dec s' s then first_key keys' s else s'
  end.
(** Lines 167-174. *)
Definition render (keys : list string) (l_label m_label : string) : string :=
  replace "E+10" "10^{10}" (first_key keys (replace "sun" "_{\odot}" (wrap m_label ++ "/" ++ wrap l_label ++ "^3"))).
Definition dens_label (c : config) : string + err :=
  match LMVLabel c with
  | inr e => inr e
  | inl (l, m, _) =>
      match admissible (little_h c) with
      | inr e => inr e
      | inl (ld, _, _) => inl (render (map fst ld) (text l) (text m))
      end
  end.
End Format.
