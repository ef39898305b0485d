(** Model of the figures of plotShapeProfs: getShapeProfs of cosmic_profiles/shape_profs/shape_profs_tools.py
    (lines 105-234), up to the numbers handed to matplotlib. Colours, legends, axes (the vertical axis is cut to
    [0, 1]) and file names are left out (file names: NameModel.v). *)
From Coq Require Import List Reals Bool Arith.
From Verif Require Import XR StatModel FigModel.
Import ListNotations.
Open Scope R_scope.

(** What one figure shows: the line (lines 157, 168, 185, 201, 214, 227) and the two edges of the band. *)
Record panel := mkPanel { p_line : list xr; p_low : list xr; p_high : list xr }.
(** getMeanOrMedianAndError(y, "median_quantile") for one bin, cosmo_tools.py lines 203-206. The values of a bin are
    never NaN (lines 85 and 98); a bin with an infinite value is given as NaN. *)
Definition bin_stats (z : list xr) : xr * xr * xr :=
  match finite z with Some r => median_quantile r | None => (NaN, NaN, NaN) end.
Definition panel_of (y : list (list xr)) : panel :=
  mkPanel (map (fun z => fst (fst (bin_stats z))) y)
          (map (fun z => xsub (fst (fst (bin_stats z))) (snd (fst (bin_stats z)))) y)
          (map (fun z => xadd (fst (fst (bin_stats z))) (snd (bin_stats z))) y).
(** Lines 176-181: the triaxiality of each object at each radius; the arrays have two dimensions. *)
Definition T_rows (q s : list (list xr)) : list (list xr) :=
  map (fun qs => map (fun p => triaxiality (fst p) (snd p)) (combine (fst qs) (snd qs))) (combine q s).
(** The three figures of all objects and, per mass group, the three of the group. *)
Record shape_figs := mkSF { q_all : panel; s_all : panel; T_all : panel; q_grp : list panel; s_grp : list panel; T_grp : list panel }.
(** Lines 143-234. [masses] are obj_masses times MASS_UNIT; the centres do not enter. None: ZeroDivisionError of
    M_split for no bins, IndexError of obj_m_groups[0] in line 145 for no groups. Every group has objects, so the
    condition of lines 200, 213, 226 holds. *)
Definition getShapeProfs (ror r200 masses : list R) (args : list nat) (d q s : list (list xr)) (nb : nat) : option shape_figs :=
  match M_split tt masses [] None args nb with
  | None => None
  | Some sp =>
      match m_groups sp with
      | [] => None
      | _ =>
          let T := T_rows q s in
          let groups param := map (fun g => panel_of (getShapeMs_y d (idx_groups sp) g param ror r200)) (seq 0 (length (m_groups sp))) in
          Some (mkSF (panel_of (getShape_y d q ror r200)) (panel_of (getShape_y d s ror r200)) (panel_of (getShape_y d T ror r200))
                  (groups q) (groups s) (groups T))
      end
  end.
