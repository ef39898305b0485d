(** The label of the density axis: C112. *)
From Coq Require Import Reals Lra Lia String Ascii Bool List.
From Verif Require Import ConfigModel ConfigSpec ConfigUnits AxisModel.
Import ListNotations.
Local Open Scope string_scope.
Local Open Scope R_scope.

(** ** Specification: how a label is read *)
(** Everything that stands side by side is multiplied, an exponent belongs to what stands
    directly before it, a fraction bar in the open ends the numerator. *)
Inductive symbol (h : R) : string -> R -> Prop :=
| sy_pc : symbol h "\mathrm{ pc }" (3085678 * 10 ^ 12)
| sy_kpc : symbol h "\mathrm{ kpc }" (3085678 * 10 ^ 15)
| sy_Mpc : symbol h "\mathrm{ Mpc }" (3085678 * 10 ^ 18)
| sy_Gpc : symbol h "\mathrm{ Gpc }" (3085678 * 10 ^ 21)
| sy_Msun : symbol h "M_{\odot}" (1989 * 10 ^ 30).
Section Read.
Variable number : string -> R -> Prop.
Variable h : R.
(** A symbol, or a bracket that holds a symbol over h. *)
Inductive single : string -> R -> Prop :=
| si_symbol s v : symbol h s v -> single s v
| si_over s v : symbol h s v -> single ("(" ++ s ++ "/h)") (v / h)
| si_ten s v : symbol h s v -> single ("(10^{10}" ++ s ++ "/h)") (10 ^ 10 * v / h).
Inductive product : string -> R -> Prop :=
| pr_single s v : single s v -> product s v
| pr_ten s v : single s v -> product ("10^{10}" ++ s) (10 ^ 10 * v)
| pr_number n x s v : number n x -> single s v -> product (n ++ s) (x * v)
| pr_cube s v : single s v -> product (s ++ "^3") (v ^ 3)
| pr_number_cube n x s v : number n x -> single s v -> product (n ++ s ++ "^3") (x * v ^ 3).
Inductive reads : string -> R -> Prop :=
| re_over a b va vb : product a va -> product b vb -> reads (a ++ "/" ++ b) (va / vb).
End Read.

(** Formatted numbers have no letters but the e of the exponent. *)
Fixpoint plain (s : string) : Prop :=
  match s with EmptyString => True | String c s' => In c ["0"; "1"; "2"; "3"; "4"; "5"; "6"; "7"; "8"; "9"; "."; "e"; "+"; "-"]%char /\ plain s' end.

(** ** Proofs *)
Definition foreign (c : ascii) : Prop := ~ In c ["0"; "1"; "2"; "3"; "4"; "5"; "6"; "7"; "8"; "9"; "."; "e"; "+"; "-"]%char.
Lemma append_assoc (a b c : string) : ((a ++ b) ++ c = a ++ (b ++ c))%string.
Proof. induction a as [|x a IH]; cbn; [reflexivity|]. now rewrite IH. Qed.
Lemma append_inj (a b c : string) : (a ++ b = a ++ c -> b = c)%string.
Proof. induction a as [|x a IH]; cbn; [auto|]. intros E. injection E. exact IH. Qed.
Lemma prefix_foreign o old c s : foreign o -> In c ["0"; "1"; "2"; "3"; "4"; "5"; "6"; "7"; "8"; "9"; "."; "e"; "+"; "-"]%char -> prefix (String o old) (String c s) = false.
Proof. intros Ho Hc. cbn [prefix]. destruct (ascii_dec o c) as [->|]; [exfalso; exact (Ho Hc)|reflexivity]. Qed.
Lemma contains_plain o old a s : foreign o -> plain a -> contains (String o old) (a ++ s) = contains (String o old) s.
Proof.
  intros Ho. induction a as [|c a IH]; cbn [plain append]; [reflexivity|]. intros [Hc Ha]. cbn [contains].
  rewrite (prefix_foreign o old c _ Ho Hc). cbn [orb]. apply IH, Ha.
Qed.
Lemma replace_plain o old new a s : foreign o -> plain a -> replace (String o old) new (a ++ s) = (a ++ replace (String o old) new s)%string.
Proof.
  intros Ho. unfold replace. induction a as [|c a IH]; cbn [plain append]; [reflexivity|]. intros [Hc Ha]. cbn [replace_from].
  rewrite (prefix_foreign o old c _ Ho Hc). f_equal. apply IH, Ha.
Qed.
Definition foreign_key (key : string) : Prop := match key with EmptyString => False | String o _ => foreign o end.
Lemma first_key_plain keys a s : Forall foreign_key keys -> plain a -> first_key keys (a ++ s) = (a ++ first_key keys s)%string.
Proof.
  intros Hk Ha. induction Hk as [|key keys Hk Hks IH]; [reflexivity|]. cbn [first_key].
  destruct key as [|o old]; [contradiction|]. rewrite (replace_plain o old _ a s Hk Ha).
  set (s' := replace (String o old) (upright (String o old)) s). clearbody s'.
  destruct (string_dec (a ++ s') (a ++ s)) as [E|E]; destruct (string_dec s' s) as [F|F]; auto.
  - exfalso. apply F, (append_inj a), E.
  - exfalso. apply E. now rewrite F.
Qed.
Definition lkeys : list string := ["kpc"; "Mpc"; "Gpc"; "kpc/h"; "Mpc/h"; "Gpc/h"; "pc"; "pc/h"]%string.
Ltac alien := cbn; intros H; repeat (destruct H as [H|H]; [discriminate H|]); exact H.
Lemma lkeys_foreign : Forall foreign_key lkeys.
Proof. unfold lkeys. repeat constructor; unfold foreign_key, foreign; alien. Qed.
Lemma render_plain a l_label m_label : plain a -> contains "/h" m_label = false ->
  render lkeys l_label (a ++ m_label) = (a ++ render lkeys l_label m_label)%string.
Proof.
  intros Ha Hm. unfold render, wrap. rewrite contains_plain by (auto; unfold foreign; alien). rewrite Hm.
  rewrite append_assoc, replace_plain by (auto; unfold foreign; alien). rewrite first_key_plain by (auto using lkeys_foreign).
  rewrite replace_plain by (auto; unfold foreign; alien). reflexivity.
Qed.
Lemma length_name h s v : length_unit h s v -> In s lkeys.
Proof. intros H. destruct H; cbn; tauto. Qed.
(** The text for a named length: the mass, a bar and a cube. *)
Definition cube_text (s : string) : string := if contains "/h" s then "(\mathrm{ " ++ substring 0 (String.length s - 2) s ++ " }/h)" else "\mathrm{ " ++ s ++ " }".
Lemma cube_single h s v : length_unit h s v -> single h (cube_text s) v.
Proof.
  intros H. destruct H; cbv [cube_text contains prefix ascii_dec ascii_rec ascii_rect bool_dec bool_rec bool_rect sumbool_rec sumbool_rect orb append String.length Nat.sub substring];
    first [apply si_symbol; constructor | apply (si_over h "\mathrm{ pc }"); constructor | apply (si_over h "\mathrm{ kpc }"); constructor | apply (si_over h "\mathrm{ Mpc }"); constructor | apply (si_over h "\mathrm{ Gpc }"); constructor].
Qed.
Definition mass_text (s : string) : string :=
  if string_dec s "Msun" then "M_{\odot}" else if string_dec s "E+10Msun" then "10^{10}M_{\odot}" else if string_dec s "Msun/h" then "(M_{\odot}/h)" else "(10^{10}M_{\odot}/h)".
Lemma mass_product number h s v : h <> 0 -> mass_unit h s v -> product number h (mass_text s) v.
Proof.
  intros Hh H. destruct H; cbv [mass_text string_dec string_rec string_rect sumbool_rec sumbool_rect ascii_dec ascii_rec ascii_rect bool_dec bool_rec bool_rect].
  - apply pr_single, si_symbol. constructor.
  - replace (1989 * 10 ^ 40) with (10 ^ 10 * (1989 * 10 ^ 30)) by (replace (10 ^ 40) with (10 ^ 10 * 10 ^ 30) by (rewrite <- pow_add; reflexivity); ring).
    apply (pr_ten number h "M_{\odot}"), si_symbol. constructor.
  - apply pr_single, (si_over h "M_{\odot}"). constructor.
  - replace (1989 * 10 ^ 40 / h) with (10 ^ 10 * (1989 * 10 ^ 30) / h) by (replace (10 ^ 40) with (10 ^ 10 * 10 ^ 30) by (rewrite <- pow_add; reflexivity); field; exact Hh).
    apply pr_single, (si_ten h "M_{\odot}"). constructor.
Qed.
Lemma render_named h sl vl sm vm : length_unit h sl vl -> mass_unit h sm vm -> render lkeys sl sm = (mass_text sm ++ "/" ++ cube_text sl ++ "^3")%string.
Proof. intros Hl Hm. destruct Hl, Hm; vm_compute; reflexivity. Qed.
Lemma label_cases d tab base b out : agrees d tab -> d <> [] -> tab base b -> b <> 0 ->
  (exists s, one_label d base out = inl (LName s) /\ tab s out) \/ one_label d base out = inl (LNumeric (out / b) base).
Proof.
  intros Ag Hne Hb Hb0. destruct (existsb (fun e => if Req_EM_T out (snd e) then true else false) d) eqn:Hex.
  - left. destruct (one_label_ok d tab base b out Ag Hne Hb Hb0) as (lab & E & Hl & _). destruct Ag as [Hn Ha].
    apply existsb_exists in Hex. destruct Hex as ([s x] & Hin & Hx). cbn [snd] in Hx. destruct (Req_EM_T out x) as [->|]; [|discriminate].
    destruct Hl as (s' & -> & Hs); [exists s; apply Ha, Hin|]. exists s'. auto.
  - right. destruct Ag as [Hn Ha]. unfold one_label. rewrite Hex, (In_getitem d base b Hn) by (apply Ha; auto). rewrite pydiv_ok by auto. reflexivity.
Qed.
Lemma velocity_runs out : exists v, one_label velocity_d "km/s" out = inl v.
Proof. destruct (label_cases velocity_d velocity_unit "km/s" (10 ^ 5) out velocity_agrees) as [(s & E & _)|E]; try discriminate; try constructor; [apply Rgt_not_eq, pow_lt; lra|eexists; exact E|eexists; exact E]. Qed.
Lemma dens_label_eq fmt c l m : little_h c <> 0 -> one_label (length_d (little_h c)) "kpc" (out_l c) = inl l -> one_label (mass_d (little_h c)) "Msun" (out_m c) = inl m ->
  dens_label fmt c = inl (render lkeys (text fmt l) (text fmt m)).
Proof.
  intros Hh El Em. unfold dens_label, LMVLabel. rewrite admissible_ok by auto. rewrite El, Em.
  destruct (velocity_runs (out_v c)) as (v & ->). reflexivity.
Qed.
Lemma msun_nz : 1989 * 10 ^ 30 <> 0.
Proof. apply Rmult_integral_contrapositive_currified; [lra|apply pow_nonzero; lra]. Qed.
Lemma kpc_nz : 3085678 * 10 ^ 15 <> 0.
Proof. apply Rmult_integral_contrapositive_currified; [lra|apply pow_nonzero; lra]. Qed.

(** With an output length that has a name the label states the unit, whatever the unit of mass. *)
Theorem C112_partial : forall fmt c, little_h c <> 0 -> (forall x, plain (fmt x)) -> (exists s, length_unit (little_h c) s (out_l c)) ->
  exists t, dens_label fmt c = inl t /\ reads (fun n x => n = fmt x) (little_h c) t (out_m c / out_l c ^ 3).
Proof.
  intros fmt c Hh Hp Hl.
  destruct (one_label_ok (length_d (little_h c)) _ "kpc" _ (out_l c) (length_agrees _) ltac:(discriminate) (LU_kpc _) kpc_nz) as (l & El & Kl & _).
  destruct (Kl Hl) as (sl & -> & Sl). clear Kl Hl.
  destruct (label_cases (mass_d (little_h c)) _ "Msun" _ (out_m c) (mass_agrees _) ltac:(discriminate) (MU_M _) msun_nz) as [(sm & Em & Sm)|Em]; rewrite (dens_label_eq fmt c _ _ Hh El Em); eexists; (split; [reflexivity|]); cbn [text].
  - rewrite (render_named _ _ _ _ _ Sl Sm). apply re_over; [apply mass_product; assumption|apply pr_cube, cube_single, Sl].
  - rewrite render_plain by (auto; reflexivity). rewrite (render_named _ _ _ _ _ Sl (MU_M _)), <- append_assoc.
    apply re_over; [|apply pr_cube, cube_single, Sl].
    replace (out_m c) with (out_m c / (1989 * 10 ^ 30) * (1989 * 10 ^ 30)) at 2 by (field; apply msun_nz).
    apply pr_number; [reflexivity|apply si_symbol; constructor].
Qed.
Print Assumptions C112_partial.

(** The property fails for a length without a name: two kiloparsec. *)
Definition two_kpc : config := mkConfig 1 1 1 (7 / 10) (2 * (3085678 * 10 ^ 15)) (1989 * 10 ^ 30) 1.
Lemma two_kpc_unnamed s : ~ length_unit (7 / 10) s (2 * (3085678 * 10 ^ 15)).
Proof. intros H. inversion H as [E|E|E|E|E|E|E|E]; clear H; cbn [pow] in E; lra. Qed.
Lemma two_kpc_label fmt : fmt 2 = "2.00e+00"%string -> dens_label fmt two_kpc = inl "M_{\odot}/2.00e+00\mathrm{ kpc }^3"%string.
Proof.
  intros Ef. destruct (label_cases (length_d (7 / 10)) _ "kpc" _ (2 * (3085678 * 10 ^ 15)) (length_agrees _) ltac:(discriminate) (LU_kpc _) kpc_nz) as [(s & _ & S)|El]; [destruct (two_kpc_unnamed s S)|].
  destruct (one_label_ok (mass_d (7 / 10)) _ "Msun" _ (1989 * 10 ^ 30) (mass_agrees _) ltac:(discriminate) (MU_M _) msun_nz) as (m & Em & Km & _).
  destruct (Km (ex_intro _ _ (MU_M _))) as (sm & -> & Sm). assert (sm = "Msun"%string) as -> by (inversion Sm as [E|E|E|E]; auto; exfalso; cbn [pow] in E; lra).
  rewrite (dens_label_eq fmt two_kpc _ _ ltac:(cbn; lra) El Em). cbn [text].
  replace (2 * (3085678 * 10 ^ 15) / (3085678 * 10 ^ 15)) with 2 by (field; apply kpc_nz). rewrite Ef. vm_compute. reflexivity.
Qed.
Theorem C112_refuted : forall fmt, (forall x, plain (fmt x)) -> fmt 2 = "2.00e+00"%string ->
  ~ (forall c t v, 0 < little_h c -> 0 < out_l c -> 0 < out_m c -> dens_label fmt c = inl t -> reads (fun n x => n = fmt x) (little_h c) t v -> v = out_m c / out_l c ^ 3).
Proof.
  intros fmt _ Ef H. pose proof kpc_nz as K. pose proof msun_nz as M.
  assert (K0 : 0 < 3085678 * 10 ^ 15) by (apply Rmult_lt_0_compat; [lra|apply pow_lt; lra]). assert (M0 : 0 < 1989 * 10 ^ 30) by (apply Rmult_lt_0_compat; [lra|apply pow_lt; lra]).
  specialize (H two_kpc _ (1989 * 10 ^ 30 / (2 * (3085678 * 10 ^ 15) ^ 3)) ltac:(cbn; lra) ltac:(unfold two_kpc; cbn [out_l]; lra) ltac:(unfold two_kpc; cbn [out_m]; lra) (two_kpc_label fmt Ef)).
  assert (E : 1989 * 10 ^ 30 / (2 * (3085678 * 10 ^ 15) ^ 3) = out_m two_kpc / out_l two_kpc ^ 3).
  { apply H. apply (re_over _ _ "M_{\odot}" "2.00e+00\mathrm{ kpc }^3"); [apply pr_single, si_symbol; constructor|].
    change "2.00e+00\mathrm{ kpc }^3"%string with ("2.00e+00" ++ "\mathrm{ kpc }" ++ "^3")%string.
    apply pr_number_cube; [symmetry; exact Ef|apply si_symbol; constructor]. }
  clear H. unfold two_kpc in E; cbn [out_m out_l] in E. set (k := 3085678 * 10 ^ 15) in *. set (m := 1989 * 10 ^ 30) in *. clearbody k m.
  assert (Pk : 0 < k ^ 3) by (apply pow_lt; exact K0).
  assert (E' : m / (2 * k ^ 3) * (8 * k ^ 3) = m / (2 * k) ^ 3 * (8 * k ^ 3)) by (rewrite E; reflexivity).
  replace (m / (2 * k ^ 3) * (8 * k ^ 3)) with (4 * m) in E' by (field; lra). replace (m / (2 * k) ^ 3 * (8 * k ^ 3)) with m in E' by (field; lra). lra.
Qed.
Print Assumptions C112_refuted.

(** The default units: solar masses and megaparsec. *)
Example C112_ex : (exists s, length_unit (little_h default) s (out_l default)) /\ little_h default <> 0 /\
  (forall fmt, dens_label fmt (mkConfig 1 1 1 (7 / 10) (3085678 * 10 ^ 18 / (7 / 10)) (1989 * 10 ^ 30 / (7 / 10)) 1) = inl "(M_{\odot}/h)/(\mathrm{ Mpc }/h)^3"%string) /\ plain "1.50e-03".
Proof.
  split; [exists "Mpc"%string; replace (out_l default) with (3085678 * 10 ^ 18) by (unfold default, kpc_cm; cbn [out_l pow]; lra); constructor|].
  split; [unfold default; cbn [little_h]; lra|]. split; [|cbn; tauto].
  intros fmt. set (c := mkConfig _ _ _ _ _ _ _).
  destruct (one_label_ok (length_d (little_h c)) _ "kpc" _ (out_l c) (length_agrees _) ltac:(discriminate) (LU_kpc _) kpc_nz) as (l & El & Kl & _).
  destruct (Kl (ex_intro _ _ (LU_Mpch _))) as (sl & -> & Sl).
  destruct (one_label_ok (mass_d (little_h c)) _ "Msun" _ (out_m c) (mass_agrees _) ltac:(discriminate) (MU_M _) msun_nz) as (m & Em & Km & _).
  destruct (Km (ex_intro _ _ (MU_Mh _))) as (sm & -> & Sm).
  assert (Hh : little_h c <> 0) by (cbn; lra). rewrite (dens_label_eq fmt c _ _ Hh El Em). unfold c in Sl, Sm. cbn [little_h out_l out_m] in Sl, Sm.
  assert (sl = "Mpc/h"%string) as -> by (inversion Sl as [E|E|E|E|E|E|E|E]; auto; exfalso; cbn [pow] in E; lra).
  assert (sm = "Msun/h"%string) as -> by (inversion Sm as [E|E|E|E]; auto; exfalso; cbn [pow] in E; lra).
  vm_compute. reflexivity.
Qed.
