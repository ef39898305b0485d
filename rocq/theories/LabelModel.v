(** Model of eTo10, cosmic_profiles/common/python_routines.py lines 14-167: the text of mass
    ranges in plot legends. Strings are lists of Unicode code points. *)
From Coq Require Import List ZArith Bool Arith.
Import ListNotations.
Open Scope Z_scope.

(** Code points used below. *)
Definition ch_e := 101. Definition ch_E := 69. Definition ch_plus := 43. Definition ch_minus := 45.
Definition ch_dot := 46. Definition digit (d : Z) : Z := 48 + d.
Definition blank := 10240. (** "⠀" *)
Definition times := 10005. (** "✕" *)
Definition supminus := 8315. (** "⁻" *)
(** The superscript digits as spelled in lines 40-104: "⁰" "¹" "²" "³"
    "⁴" ... "⁹". *)
Definition sup (d : Z) : Z :=
  if d =? 1 then 185 else if d =? 2 then 178 else if d =? 3 then 179 else 8304 + d.

(** AssertionError (lines 93, 106, 153) or IndexError (st_l[i+3] beyond the end). *)
Inductive lres := LRet (s : list Z) | LAssert | LIndex.

(** list.insert and item assignment. *)
Definition insert (i : nat) (x : Z) (l : list Z) : list Z := firstn i l ++ [x] ++ skipn i l.
Definition set (i : nat) (x : Z) (l : list Z) : list Z := firstn i l ++ [x] ++ skipn (S i) l.
(** Three insertions of lines 98-100 and 158-160. *)
Definition add_times (i : nat) (l : list Z) : list Z :=
  insert (i + 2) blank (insert (i + 1) times (insert i blank l)).
(** st.split("e", 1)[0], lines 33-37. *)
Fixpoint before (c : Z) (l : list Z) : list Z :=
  match l with [] => [] | x :: l' => if x =? c then [] else x :: before c l' end.

(** Lines 38-97, exponent signs "+": [a] and [b] are the two digits. The chain of comparisons
    is written as arithmetic on the digits. *)
Definition plus_case (i : nat) (a b : Z) (l : list Z) (drop : bool) : option (list Z * bool) :=
  let l := set (i + 1) (digit 0) (set i (digit 1) l) in
  let r := if (a =? digit 0) && (digit 1 <=? b) && (b <=? digit 9) then Some (set (i + 2) (sup (b - 48)) l, drop)
           else if (a =? digit 1) && (digit 0 <=? b) && (b <=? digit 9)
           then Some (set (i + 3) (sup (b - 48)) (set (i + 2) (sup 1) l), false)
           else None in
  match r with
  | None => None
  | Some (l, drop) => let l := add_times i l in Some (if drop then removelast l else l, drop)
  end.
(** Lines 105-160, exponent signs "-". *)
Definition minus_case (i : nat) (a b : Z) (l : list Z) : option (list Z) :=
  let l := set (i + 1) (digit 0) (set i (digit 1) l) in
  let r := if (a =? digit 0) && (digit 1 <=? b) && (b <=? digit 9) then Some (set (i + 3) (sup (b - 48)) l)
           else if (a =? digit 1) && (digit 0 <=? b) && (b <=? digit 9)
           then Some (set (i + 3) (sup 1) l ++ [sup (b - 48)])
           else None in
  match r with
  | None => None
  | Some l => Some (add_times i (set (i + 2) supminus l))
  end.

(** The while loop, lines 29-161; [st] is the string passed in. *)
Fixpoint loop (fuel : nat) (st : list Z) (i : nat) (l : list Z) (drop : bool) : lres :=
  match fuel with
  | O => LIndex
  | S fuel' =>
    match nth_error l i with
    | None => (** end of the loop, lines 162-164 *)
        match l with
        | c0 :: c1 :: c2 :: c3 :: _ =>
            if (c0 =? digit 1) && (c1 =? ch_dot) && (c2 =? digit 0) && (c3 =? digit 0) then LRet (skipn 7 l) else LRet l
        | c0 :: rest => (** the conjunction stops at the first false comparison; it fails on the
                            index only if all characters so far agree with "1.00" *)
            if list_eq_dec Z.eq_dec l (firstn (length l) [digit 1; ch_dot; digit 0; digit 0]) then LIndex else LRet l
        | [] => LIndex
        end
    | Some c =>
        if (c =? ch_e) || (c =? ch_E) then
          match nth_error l (i + 2) with
          | None => LIndex
          | Some a =>
              match nth_error l (i + 3) with
              | None => (** evaluated in line 32 if a = "0", in the chains if a = "1"; otherwise an assertion fails *)
                  let sign := nth (i + 1) l 0 in
                  if (a =? digit 0) || (a =? digit 1) && ((sign =? ch_plus) || (sign =? ch_minus)) then LIndex else LAssert
              | Some b =>
                  if (a =? digit 0) && (b =? digit 0) then LRet (before c st)
                  else match nth_error l (i + 1) with
                       | None => LIndex
                       | Some s =>
                           if s =? ch_plus then
                             match plus_case i a b l drop with
                             | None => LAssert
                             | Some (l, drop) => loop fuel' st (i + 1) l drop
                             end
                           else if s =? ch_minus then
                             match minus_case i a b l with
                             | None => LAssert
                             | Some l => loop fuel' st (i + 1) l drop
                             end
                           else LAssert
                       end
              end
          end
        else loop fuel' st (i + 1) l drop
    end
  end.
(** Each pass moves one character on; a pass adds at most four characters and removes an "e". *)
Definition eTo10 (st : list Z) : lres := loop (5 * length st + 2) st 0 st true.

(** '{:.2E}'.format(x) and '{:.2e}'.format(x) for x = sign (d1 + d2/10 + d3/100) 10^k: at least
    two exponent digits. *)
Definition digits (k : Z) : list Z :=
  if k <? 10 then [digit 0; digit k] else if k <? 100 then [digit (k / 10); digit (k mod 10)]
  else [digit (k / 100); digit (k / 10 mod 10); digit (k mod 10)].
Definition fmt (upper neg : bool) (d1 d2 d3 k : Z) : list Z :=
  (if neg then [ch_minus] else []) ++ [digit d1; ch_dot; digit d2; digit d3] ++
  [if upper then ch_E else ch_e; if k <? 0 then ch_minus else ch_plus] ++ digits (Z.abs k).
