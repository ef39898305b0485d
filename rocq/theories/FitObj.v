(** C74: fits of noise-free profiles recover the parameters; C73: profiles with an empty bin. *)
From Coq Require Import Reals String Bool ZArith QArith Permutation Lra Lia List.
From Verif Require Import XR ConfigModel CatModel ParModel DensModel FitModel ProfProps FitProps.
Import ListNotations.
Close Scope Q_scope.
Local Open Scope string_scope.
Local Open Scope R_scope.

(** A minimiser whose results are best within the bounds. *)
Definition ole (a b : option xr) : Prop := match a, b with Some x, Some y => xleb x y = true | _, _ => False end.
Definition best (obj : list R -> option xr) (b : list (xr * xr)) (x : list xr) : Prop :=
  within x b /\ exists q, x = map Fin q /\ forall q', within (map Fin q') b -> ole (obj q) (obj q').
Definition optimal (minimize : minimiser) : Prop := forall mm obj x0 b x, minimize mm obj x0 b (Some x) -> best obj b x.

(** ** The objective on finite points *)
Definition rsum (l : list R) : R := fold_right Rplus 0 l.
Lemma rsum_nonneg l : (forall x, In x l -> 0 <= x) -> 0 <= rsum l.
Proof. induction l as [|x l IH]; intros H; [cbn; lra|]. change (0 <= x + rsum l). pose proof (H x ltac:(left; auto)). pose proof (IH ltac:(intros; apply H; right; auto)). lra. Qed.
Lemma rsum_zero l : (forall x, In x l -> 0 <= x) -> rsum l <= 0 -> forall x, In x l -> x = 0.
Proof.
  induction l as [|y l IH]; intros H Hs x Hx; [destruct Hx|]. change (y + rsum l <= 0) in Hs. pose proof (H y ltac:(left; auto)).
  assert (Hl : forall x, In x l -> 0 <= x) by (intros; apply H; right; auto). pose proof (rsum_nonneg l Hl).
  destruct Hx as [<-|Hx]; [lra|]. apply IH; auto. lra.
Qed.
Lemma xlog_pos x : 0 < x -> xlog (Fin x) = Fin (ln x).
Proof. intros. unfold xlog. destruct (Rlt_dec 0 x); [auto|lra]. Qed.
Definition misfit (y v : R -> R) (rs : list R) : list R := map (fun r => (ln (y r) - ln (v r)) * (ln (y r) - ln (v r)) / INR (length rs)) rs.
Lemma objective_fin m pars rs y v : (forall r, In r rs -> 0 < y r /\ 0 < v r /\ model_value m pars r = Some (v r)) ->
  toMinimize m (map (fun r => (r, Fin (y r))) rs) pars = Some (Fin (rsum (misfit y v rs))).
Proof.
  intros H. unfold toMinimize, misfit. rewrite map_length. destruct rs as [|r0 rs0]; [reflexivity|].
  assert (Hn : INR (length (r0 :: rs0)) <> 0) by (apply not_0_INR; discriminate). generalize dependent (r0 :: rs0). clear r0 rs0. intros rs H Hn.
  generalize dependent (INR (length rs)). intros n Hn.
  assert (G : forall l a, (forall r, In r l -> In r rs) ->
    fold_left (fun acc p => match acc, model_value m pars (fst p) with
      | Some s, Some v0 => Some (xadd s (xdiv (xsq (xsub (xlog (snd p)) (xlog (Fin v0)))) (Fin n))) | _, _ => None end)
      (map (fun r => (r, Fin (y r))) l) (Some (Fin a)) =
    Some (Fin (a + rsum (map (fun r => (ln (y r) - ln (v r)) * (ln (y r) - ln (v r)) / n) l)))).
  { induction l as [|r l IH]; intros a Hl; cbn [map fold_left fst snd rsum fold_right]; [f_equal; f_equal; lra|].
    destruct (H r (Hl r ltac:(left; auto))) as (Hy & Hv & ->). rewrite !xlog_pos by auto. rewrite xsub_fin. unfold xsq. cbn [xmul].
    rewrite xdiv_fin by auto. cbn [xadd]. rewrite IH by (intros; apply Hl; right; auto). f_equal. f_equal. unfold rsum. lra. }
  rewrite G by auto. f_equal. f_equal. lra.
Qed.
Lemma misfit_nonneg y v rs x : In x (misfit y v rs) -> 0 <= x.
Proof.
  intros H. unfold misfit in H. apply in_map_iff in H. destruct H as (r & <- & Hr).
  assert (0 < INR (length rs)) by (apply lt_0_INR; destruct rs; [destruct Hr|cbn; lia]).
  apply Rmult_le_pos; [apply Rle_0_sqr|]. apply Rlt_le, Rinv_0_lt_compat; auto.
Qed.
Lemma misfit_zero y v rs : (forall r, In r rs -> 0 < y r /\ 0 < v r) -> rsum (misfit y v rs) <= 0 -> forall r, In r rs -> v r = y r.
Proof.
  intros H Hs r Hr. pose proof (rsum_zero _ (misfit_nonneg y v rs) Hs) as Z.
  assert (E : (ln (y r) - ln (v r)) * (ln (y r) - ln (v r)) / INR (length rs) = 0) by (apply Z; unfold misfit; apply in_map_iff; eauto).
  assert (P : 0 < INR (length rs)) by (apply lt_0_INR; destruct rs; [destruct Hr|cbn; lia]).
  destruct (H r Hr) as (Hy & Hv). apply Rmult_integral in E. destruct E as [E|E]; [|pose proof (Rinv_0_lt_compat _ P); lra].
  apply Rmult_integral in E. apply ln_inv; auto. lra.
Qed.
Lemma misfit_self y rs : (forall r, In r rs -> True) -> rsum (misfit y y rs) = 0.
Proof.
  intros _. unfold misfit. generalize (INR (length rs)). intros n. induction rs as [|r rs IH]; cbn; auto. unfold rsum in IH. rewrite IH. unfold Rdiv. ring.
Qed.

(** ** Profiles without NaN *)
Definition mean (l : list R) : R := rsum l / INR (length l).
Lemma xsum_fin l : xsum (map Fin l) = Fin (rsum l).
Proof.
  unfold xsum. assert (G : forall l a, fold_left xadd (map Fin l) (Fin a) = Fin (a + rsum l)).
  { induction l0 as [|x l0 IH]; intros a; cbn [map fold_left rsum fold_right]; [f_equal; lra|]. cbn [xadd]. rewrite IH. f_equal. unfold rsum. lra. }
  rewrite G. f_equal. lra.
Qed.
Lemma average_fin l : l <> [] -> average (map Fin l) = Fin (mean l).
Proof.
  intros H. unfold average. rewrite xsum_fin, map_length, xdiv_fin; auto. apply not_0_INR. destruct l; [contradiction|discriminate].
Qed.
Lemma mean_pos l : l <> [] -> (forall x, In x l -> 0 < x) -> 0 < mean l.
Proof.
  intros H Hp. unfold mean. apply Rdiv_lt_0_compat; [|apply lt_0_INR; destruct l; [contradiction|cbn; lia]].
  destruct l as [|x l]; [contradiction|]. cbn. pose proof (Hp x ltac:(left; auto)).
  pose proof (rsum_nonneg l ltac:(intros; apply Rlt_le, Hp; right; auto)). unfold rsum in *. lra.
Qed.
Definition radii (RO : list R) (r200 : R) : list R := map (fun x => x * r200) RO.
Lemma kept_fin RO r200 y : kept RO (map (fun x => Fin (y (x * r200))) RO) r200 = map (fun r => (r, Fin (y r))) (radii RO r200).
Proof. unfold kept, radii. induction RO as [|x RO IH]; cbn; auto. f_equal. exact IH. Qed.
Lemma rescaled_fin rs y : rs <> [] -> (forall r, In r rs -> 0 < y r) ->
  rescaled_points (map (fun r => (r, Fin (y r))) rs) = map (fun r => (r, Fin (y r / mean (map y rs)))) rs /\
  average (map snd (map (fun r => (r, Fin (y r))) rs)) = Fin (mean (map y rs)) /\ 0 < mean (map y rs).
Proof.
  intros H Hp. assert (E : map snd (map (fun r => (r, Fin (y r))) rs) = map Fin (map y rs)) by (rewrite !map_map; reflexivity).
  assert (P : 0 < mean (map y rs)).
  { apply mean_pos; [destruct rs; [contradiction|discriminate]|]. intros x Hx. apply in_map_iff in Hx. destruct Hx as (r & <- & Hr); auto. }
  unfold rescaled_points. rewrite E, average_fin by (destruct rs; [contradiction|discriminate]). split; [|split]; auto.
  rewrite map_map. apply map_ext. intros r. cbn [fst snd]. f_equal. apply xdiv_fin. lra.
Qed.

(** ** Recovery, for any model that is linear in its amplitude and determined by the radii at hand *)
Section Recovery.
Variables (m : mdict) (h : list R -> R -> R) (rs : list R) (ok : list R -> Prop).
Hypothesis rs_ne : rs <> [].
Hypothesis model : forall rho q r, ok q -> model_value m (rho :: q) r = Some (rho * h q r).
Hypothesis h_pos : forall q r, ok q -> In r rs -> 0 < h q r.
Hypothesis ident : forall rho q rho' q', 0 < rho -> 0 < rho' -> ok q -> ok q' -> (forall r, In r rs -> rho * h q r = rho' * h q' r) -> rho = rho' /\ q = q'.
Hypothesis bounds_ok : forall rho q rho' q', ok q -> within (map Fin (rho :: q)) (bounds m) -> within (map Fin (rho' :: q')) (bounds m) -> 0 < rho' /\ ok q'.

Lemma recover rho q x : 0 < rho -> ok q -> let avg := mean (map (fun r => rho * h q r) rs) in
  within (map Fin (rho / avg :: q)) (bounds m) ->
  best (toMinimize m (rescaled_points (map (fun r => (r, Fin (rho * h q r))) rs))) (bounds m) x -> x = map Fin (rho / avg :: q).
Proof.
  intros Hrho Hq avg Hin (Hw & q1 & -> & Hb).
  assert (Hy : forall r, In r rs -> 0 < rho * h q r) by (intros; apply Rmult_lt_0_compat; auto).
  destruct (rescaled_fin rs (fun r => rho * h q r) rs_ne Hy) as (Er & _ & Pavg). fold avg in Er, Pavg. rewrite Er in Hb. clear Er.
  destruct q1 as [|rho1 q1]; [exfalso; pose proof (F2_length _ _ _ Hw) as L1; pose proof (F2_length _ _ _ Hin) as L2; cbn [map length] in L1, L2; congruence|].
  destruct (bounds_ok _ _ _ _ Hq Hin Hw) as (Pr1 & Ok1).
  assert (Y : forall r, In r rs -> 0 < rho * h q r / avg) by (intros; apply Rdiv_lt_0_compat; auto).
  specialize (Hb _ Hin).
  rewrite (objective_fin m (rho1 :: q1) rs (fun r => rho * h q r / avg) (fun r => rho1 * h q1 r)) in Hb.
  2:{ intros r Hr. repeat split; auto. apply Rmult_lt_0_compat; auto. }
  rewrite (objective_fin m (rho / avg :: q) rs (fun r => rho * h q r / avg) (fun r => rho / avg * h q r)) in Hb.
  2:{ intros r Hr. repeat split; auto. apply Rmult_lt_0_compat; auto. apply Rdiv_lt_0_compat; auto. }
  cbn [ole] in Hb. cbn [xleb] in Hb. destruct Rle_dec as [L|]; [|discriminate].
  assert (Ez : rsum (misfit (fun r => rho * h q r / avg) (fun r => rho / avg * h q r) rs) = 0).
  { rewrite <- (misfit_self (fun r => rho * h q r / avg) rs) by auto. f_equal. unfold misfit. apply map_ext. intros r.
    replace (rho / avg * h q r) with (rho * h q r / avg) by (field; lra). reflexivity. }
  rewrite Ez in L. assert (YV : forall r, In r rs -> 0 < rho * h q r / avg /\ 0 < rho1 * h q1 r) by (intros r Hr; split; [auto|apply Rmult_lt_0_compat; auto]).
  pose proof (misfit_zero (fun r => rho * h q r / avg) (fun r => rho1 * h q1 r) rs YV L) as E. cbn beta in E.
  assert (X : rho1 = rho / avg /\ q1 = q).
  { apply ident; auto; [apply Rdiv_lt_0_compat; auto|]. intros r Hr. rewrite (E r Hr). field. lra. }
  destruct X as (-> & ->). reflexivity.
Qed.
(* The true parameters are best, so that a best vector exists. *)
Lemma true_best rho q : 0 < rho -> ok q -> let avg := mean (map (fun r => rho * h q r) rs) in
  within (map Fin (rho / avg :: q)) (bounds m) ->
  best (toMinimize m (rescaled_points (map (fun r => (r, Fin (rho * h q r))) rs))) (bounds m) (map Fin (rho / avg :: q)).
Proof.
  intros Hrho Hq avg Hin. split; auto. eexists. split; [reflexivity|]. intros q1 Hw.
  assert (Hy : forall r, In r rs -> 0 < rho * h q r) by (intros; apply Rmult_lt_0_compat; auto).
  destruct (rescaled_fin rs (fun r => rho * h q r) rs_ne Hy) as (Er & _ & Pavg). fold avg in Er, Pavg. rewrite Er. clear Er.
  destruct q1 as [|rho1 q1]; [exfalso; pose proof (F2_length _ _ _ Hw) as L1; pose proof (F2_length _ _ _ Hin) as L2; cbn [map length] in L1, L2; congruence|].
  destruct (bounds_ok _ _ _ _ Hq Hin Hw) as (Pr1 & Ok1).
  assert (Y : forall r, In r rs -> 0 < rho * h q r / avg) by (intros; apply Rdiv_lt_0_compat; auto).
  rewrite (objective_fin m (rho1 :: q1) rs (fun r => rho * h q r / avg) (fun r => rho1 * h q1 r)).
  2:{ intros r Hr. repeat split; auto. apply Rmult_lt_0_compat; auto. }
  rewrite (objective_fin m (rho / avg :: q) rs (fun r => rho * h q r / avg) (fun r => rho / avg * h q r)).
  2:{ intros r Hr. repeat split; auto. apply Rmult_lt_0_compat; auto. apply Rdiv_lt_0_compat; auto. }
  assert (Ez : rsum (misfit (fun r => rho * h q r / avg) (fun r => rho / avg * h q r) rs) = 0).
  { rewrite <- (misfit_self (fun r => rho * h q r / avg) rs) by auto. f_equal. unfold misfit. apply map_ext. intros r.
    replace (rho / avg * h q r) with (rho * h q r / avg) by (field; lra). reflexivity. }
  rewrite Ez. apply xleb_fin. apply rsum_nonneg. apply misfit_nonneg.
Qed.
End Recovery.

Lemma recover_fit m h RO r200 (ok : list R -> Prop) minimize : RO <> [] ->
  (forall rho q r, ok q -> model_value m (rho :: q) r = Some (rho * h q r)) ->
  (forall q r, ok q -> In r (radii RO r200) -> 0 < h q r) ->
  (forall rho q rho' q', 0 < rho -> 0 < rho' -> ok q -> ok q' -> (forall r, In r (radii RO r200) -> rho * h q r = rho' * h q' r) -> rho = rho' /\ q = q') ->
  (forall rho q rho' q', ok q -> within (map Fin (rho :: q)) (bounds m) -> within (map Fin (rho' :: q')) (bounds m) -> 0 < rho' /\ ok q') ->
  optimal minimize -> forall rho q row nb, 0 < rho -> ok q ->
  within (map Fin (rho / mean (map (fun r => rho * h q r) (radii RO r200)) :: q)) (bounds m) ->
  fitDensProf minimize RO m (map (fun x => Fin (rho * h q (x * r200))) RO) r200 nb (row, nb) ->
  row = map Fin (rho :: q) \/ row = map (fun _ => NaN) (iguess m r200).
Proof.
  intros Hne Hmodel Hpos Hid Hbd Hopt rho q row nb Hrho Hq Hin F.
  assert (Hrs : radii RO r200 <> []) by (destruct RO; [contradiction|discriminate]).
  assert (Hy : forall r, In r (radii RO r200) -> 0 < rho * h q r) by (intros; apply Rmult_lt_0_compat; auto).
  assert (Ek : kept RO (map (fun x => Fin (rho * h q (x * r200))) RO) r200 = map (fun r => (r, Fin (rho * h q r))) (radii RO r200))
    by (apply (kept_fin RO r200 (fun r => rho * h q r))).
  destruct (rescaled_fin _ _ Hrs Hy) as (Er & Ea & Pa).
  inversion F as [md r2 n rho1 rest Hm E1 E2 E3|md r2 n Hm E1 E2 E3]; subst; [left|right; auto].
  apply Hopt in Hm. rewrite Ek in *.
  pose proof (recover m h (radii RO r200) ok Hrs Hmodel Hpos Hid Hbd rho q _ Hrho Hq Hin Hm) as E. cbn [map] in E. injection E as -> ->.
  cbn [map]. rewrite Ea. cbn [xmul]. f_equal. f_equal. field. lra.
Qed.

(** In-bounds parameters are positive. *)
Lemma within_cons v b l l' : within (v :: l) (b :: l') -> xleb (fst b) v = true /\ xleb v (snd b) = true /\ within l l'.
Proof. intros H. inversion H as [|? ? ? ? [A B] C]; subst. auto. Qed.
Lemma within_nil l : within l [] -> l = [].
Proof. intros H. inversion H; auto. Qed.
Lemma within_nil_l b l : ~ within [] (b :: l).
Proof. intros H. inversion H. Qed.
Lemma bound_lo m k lo v v' : 0 < lo -> 0 < v -> xleb (fst (bound m k lo)) (Fin v) = true -> xleb (Fin v) (snd (bound m k lo)) = true ->
  xleb (fst (bound m k lo)) (Fin v') = true -> xleb (Fin v') (snd (bound m k lo)) = true -> 0 < v'.
Proof.
  intros Hlo Hv. unfold bound. destruct (fixed m k) as [w|]; cbn [fst snd xleb]; repeat destruct Rle_dec; try discriminate; intros; lra.
Qed.
Lemma pow10_pos n : 0 < / 10 ^ n.
Proof. apply Rinv_0_lt_compat, pow_lt. lra. Qed.
Lemma lo_pos n v : xleb (Fin (/ 10 ^ n)) (Fin v) = true -> 0 < v.
Proof. cbn [xleb]. destruct Rle_dec; [|discriminate]. intros _. pose proof (pow10_pos n). lra. Qed.

Definition profile_is (m : mdict) (s : string) : Prop := lookup m "profile" = Some (MStr s).
(** Radii with at least n different values. *)
Definition distinct (n : nat) (rs : list R) : Prop := exists l, NoDup l /\ length l = n /\ forall r, In r l -> In r rs.
Lemma two_of rs : distinct 2 rs -> exists r1 r2, In r1 rs /\ In r2 rs /\ r1 < r2.
Proof.
  intros (l & N & L & H). destruct l as [|a [|b [|]]]; try discriminate L. inversion N as [|? ? N1 _]; subst.
  assert (a <> b) by (intros ->; apply N1; left; auto).
  pose proof (H a ltac:(cbn; auto)). pose proof (H b ltac:(cbn; auto)).
  destruct (Rtotal_order a b) as [T|[T|T]]; [exists a, b|contradiction|exists b, a]; auto.
Qed.
Lemma three_of rs : distinct 3 rs -> exists r1 r2 r3, In r1 rs /\ In r2 rs /\ In r3 rs /\ r1 < r2 /\ r2 < r3.
Proof.
  intros (l & N & L & H). destruct l as [|a [|b [|c [|]]]]; try discriminate L. inversion N as [|? ? N1 N']; subst. inversion N' as [|? ? N2 _]; subst.
  assert (a <> b) by (intros ->; apply N1; left; auto). assert (a <> c) by (intros ->; apply N1; right; left; auto). assert (b <> c) by (intros ->; apply N2; left; auto).
  pose proof (H a ltac:(cbn; auto)). pose proof (H b ltac:(cbn; auto)). pose proof (H c ltac:(cbn; auto)).
  destruct (Rtotal_order a b) as [T|[T|T]], (Rtotal_order a c) as [U|[U|U]], (Rtotal_order b c) as [V|[V|V]]; try contradiction; try lra;
    [exists a, b, c|exists a, c, b|exists c, a, b|exists b, a, c|exists b, c, a|exists c, b, a]; auto.
Qed.
(** What a fit returns when scipy raises ValueError. *)
Definition failed (row : list xr) : Prop := forall x, In x row -> x = NaN.
Lemma nan_failed (l : list R) : failed (map (fun _ => NaN) l).
Proof. intros x Hx. apply in_map_iff in Hx. destruct Hx as (? & <- & _). auto. Qed.

Definition cored_h (k : nat) (q : list R) (r : R) : R := match q with [s] => / (r / s * (1 + r / s) ^ S k) | _ => 0 end.
Definition cored_ok (q : list R) : Prop := exists s, q = [s] /\ 0 < s.
Lemma cored_facts k m RO r200 : (forall pars r, model_value m pars r = match pars with [rho; s] => Some (rho / (r / s * (1 + r / s) ^ S k)) | _ => None end) ->
  bounds m = [(Fin (/ 10 ^ 7), PInf); bound m "r_s" (/ 10 ^ 5)] -> 
  (forall x, In x RO -> 0 < x) -> 0 < r200 -> distinct 2 RO ->
  RO <> [] /\
  (forall rho q r, cored_ok q -> model_value m (rho :: q) r = Some (rho * cored_h k q r)) /\
  (forall q r, cored_ok q -> In r (radii RO r200) -> 0 < cored_h k q r) /\
  (forall rho q rho' q', 0 < rho -> 0 < rho' -> cored_ok q -> cored_ok q' -> (forall r, In r (radii RO r200) -> rho * cored_h k q r = rho' * cored_h k q' r) -> rho = rho' /\ q = q') /\
  (forall rho q rho' q', cored_ok q -> within (map Fin (rho :: q)) (bounds m) -> within (map Fin (rho' :: q')) (bounds m) -> 0 < rho' /\ cored_ok q').
Proof.
  intros Hm Hb HRO Hr Hd.
  assert (Hrad : forall r, In r (radii RO r200) -> 0 < r).
  { intros r Hi. unfold radii in Hi. apply in_map_iff in Hi. destruct Hi as (x & <- & Hx). apply Rmult_lt_0_compat; auto. }
  split; [|split; [|split; [|split]]].
  - destruct (two_of _ Hd) as (r1 & _ & H1 & _). destruct RO; [destruct H1|discriminate].
  - intros rho1 q r (s1 & -> & _). rewrite Hm. reflexivity.
  - intros q r (s1 & -> & Hs1) Hi. cbn [cored_h]. apply Rinv_0_lt_compat, nfw_den, ratio_pos; auto.
  - intros rho1 q1 rho2 q2 P1 P2 (s1 & -> & Ps1) (s2 & -> & Ps2) E.
    destruct (two_of _ Hd) as (x1 & x2 & I1 & I2 & L).
    assert (L1 : 0 < x1 * r200) by (apply Rmult_lt_0_compat; auto). assert (L2 : x1 * r200 < x2 * r200) by (apply Rmult_lt_compat_r; auto).
    assert (J : forall x, In x RO -> In (x * r200) (radii RO r200)) by (intros; unfold radii; apply in_map_iff; eauto).
    destruct (nfw_ident k rho1 rho2 s1 s2 _ _ P1 P2 Ps1 Ps2 L1 L2 (E _ (J _ I1)) (E _ (J _ I2))) as (E1 & E2). split; congruence.
  - intros rho1 q1 rho2 q2 (s1 & -> & Ps1) W1 W2. rewrite Hb in W1, W2. cbn [map] in W1, W2.
    apply within_cons in W1. destruct W1 as (A1 & _ & W1). apply within_cons in W1. destruct W1 as (B1 & C1 & _).
    apply within_cons in W2. destruct W2 as (A2 & _ & W2). destruct q2 as [|s2 q2]; [apply within_nil_l in W2; contradiction|].
    cbn [map] in W2. apply within_cons in W2. destruct W2 as (B2 & C2 & W2). destruct q2; [|apply within_nil in W2; discriminate].
    split; [eapply lo_pos; exact A2|]. exists s2. split; auto. eapply bound_lo; [| |exact B1|exact C1|exact B2|exact C2]; auto. apply pow10_pos.
Qed.
Lemma cored_fit k m RO r200 minimize rho s row nb : (forall pars r, model_value m pars r = match pars with [rho; s] => Some (rho / (r / s * (1 + r / s) ^ S k)) | _ => None end) ->
  bounds m = [(Fin (/ 10 ^ 7), PInf); bound m "r_s" (/ 10 ^ 5)] -> optimal minimize -> 
  (forall x, In x RO -> 0 < x) -> 0 < r200 -> distinct 2 RO -> 0 < rho -> 0 < s ->
  within [Fin (rho / mean (map (fun x => rho / (x * r200 / s * (1 + x * r200 / s) ^ S k)) RO)); Fin s] (bounds m) ->
  fitDensProf minimize RO m (map (fun x => Fin (rho / (x * r200 / s * (1 + x * r200 / s) ^ S k))) RO) r200 nb (row, nb) ->
  row = [Fin rho; Fin s] \/ failed row.
Proof.
  intros Hm Hb Hopt HRO Hr Hd Hrho Hs Hw F. destruct (cored_facts k m RO r200 Hm Hb HRO Hr Hd) as (H1 & H2 & H3 & H4 & H5).
  destruct (recover_fit m (cored_h k) RO r200 cored_ok minimize H1 H2 H3 H4 H5 Hopt rho [s] row nb Hrho ltac:(exists s; auto)) as [E|E]; auto.
  - unfold radii. rewrite map_map. exact Hw.
  - right. subst row. apply nan_failed.
Qed.
(* An exact NFW profile, sampled at two or more radii, is fitted by its own parameters. *)
Theorem C74_nfw : forall minimize m RO r200 rho s row nb, optimal minimize -> profile_is m "nfw" ->
  (forall x, In x RO -> 0 < x) -> 0 < r200 -> distinct 2 RO -> 0 < rho -> 0 < s ->
  within [Fin (rho / mean (map (fun x => getNFWProf (x * r200) rho s) RO)); Fin s] (bounds m) ->
  fitDensProf minimize RO m (map (fun x => Fin (getNFWProf (x * r200) rho s)) RO) r200 nb (row, nb) ->
  row = [Fin rho; Fin s] \/ failed row.
Proof.
  intros minimize m RO r200 rho s row nb Hopt Hp HRO Hr Hd Hrho Hs Hw F. apply (cored_fit 1 m RO r200 minimize rho s row nb); auto.
  - intros pars r. unfold model_value. unfold profile_is in Hp. rewrite Hp. destruct pars as [|? [|? [|? ?]]]; reflexivity.
  - unfold bounds. unfold profile_is in Hp. rewrite Hp. reflexivity.
Qed.
Print Assumptions C74_nfw.
Theorem C74_hernquist : forall minimize m RO r200 rho s row nb, optimal minimize -> profile_is m "hernquist" ->
  (forall x, In x RO -> 0 < x) -> 0 < r200 -> distinct 2 RO -> 0 < rho -> 0 < s ->
  within [Fin (rho / mean (map (fun x => getHernquistProf (x * r200) rho s) RO)); Fin s] (bounds m) ->
  fitDensProf minimize RO m (map (fun x => Fin (getHernquistProf (x * r200) rho s)) RO) r200 nb (row, nb) ->
  row = [Fin rho; Fin s] \/ failed row.
Proof.
  intros minimize m RO r200 rho s row nb Hopt Hp HRO Hr Hd Hrho Hs Hw F. apply (cored_fit 2 m RO r200 minimize rho s row nb); auto.
  - intros pars r. unfold model_value. unfold profile_is in Hp. rewrite Hp. destruct pars as [|? [|? [|? ?]]]; reflexivity.
  - unfold bounds. unfold profile_is in Hp. rewrite Hp. reflexivity.
Qed.
Print Assumptions C74_hernquist.
Theorem C74_einasto : forall minimize m RO r200 rho a s row nb, optimal minimize -> profile_is m "einasto" ->
  (forall x, In x RO -> 0 < x) -> 0 < r200 -> distinct 3 RO -> 0 < rho -> 0 < a -> 0 < s ->
  within [Fin (rho / mean (map (fun x => getEinastoProf (x * r200) rho a s) RO)); Fin a; Fin s] (bounds m) ->
  fitDensProf minimize RO m (map (fun x => Fin (getEinastoProf (x * r200) rho a s)) RO) r200 nb (row, nb) ->
  row = [Fin rho; Fin a; Fin s] \/ failed row.
Proof.
  intros minimize m RO r200 rho a s row nb Hopt Hp HRO Hr Hd Hrho Ha Hs Hw F.
  set (h := fun (q : list R) r => match q with [a; s] => exp (- 2 / a * (Rpower (r / s) a - 1)) | _ => 0 end).
  set (ok := fun q => exists a s, q = [a; s] /\ 0 < a /\ 0 < s).
  assert (Hb : bounds m = [(Fin (/ 10 ^ 7), PInf); bound m "alpha" (/ 10 ^ 10); bound m "r_s" (/ 10 ^ 5)]) by (unfold bounds; unfold profile_is in Hp; rewrite Hp; reflexivity).
  destruct (recover_fit m h RO r200 ok minimize) with (rho := rho) (q := [a; s]) (row := row) (nb := nb) as [E|E]; auto.
  - destruct (three_of _ Hd) as (r1 & _ & _ & H1 & _). destruct RO; [destruct H1|discriminate].
  - intros rho1 q r (a1 & s1 & -> & _). unfold model_value. unfold profile_is in Hp. rewrite Hp. reflexivity.
  - intros q r (a1 & s1 & -> & _) Hi. apply exp_pos.
  - intros rho1 q1 rho2 q2 P1 P2 (a1 & s1 & -> & Pa1 & Ps1) (a2 & s2 & -> & Pa2 & Ps2) E.
    destruct (three_of _ Hd) as (x1 & x2 & x3 & I1 & I2 & I3 & L1 & L2).
    assert (K1 : 0 < x1 * r200) by (apply Rmult_lt_0_compat; auto). assert (K2 : x1 * r200 < x2 * r200) by (apply Rmult_lt_compat_r; auto).
    assert (K3 : x2 * r200 < x3 * r200) by (apply Rmult_lt_compat_r; auto).
    assert (J : forall r, In r [x1 * r200; x2 * r200; x3 * r200] -> getEinastoProf r rho1 a1 s1 = getEinastoProf r rho2 a2 s2).
    { intros r Hi. apply E. unfold radii. apply in_map_iff. cbn in Hi. destruct Hi as [<-|[<-|[<-|[]]]]; eauto. }
    destruct (einasto_ident rho1 rho2 a1 a2 s1 s2 _ _ _ P1 P2 Pa1 Pa2 Ps1 Ps2 K1 K2 K3 J) as (E1 & E2 & E3). split; congruence.
  - intros rho1 q1 rho2 q2 (a1 & s1 & -> & Pa1 & Ps1) W1 W2. rewrite Hb in W1, W2. cbn [map] in W1, W2.
    apply within_cons in W1. destruct W1 as (A1 & _ & W1). apply within_cons in W1. destruct W1 as (B1 & C1 & W1).
    apply within_cons in W1. destruct W1 as (D1 & G1 & _).
    apply within_cons in W2. destruct W2 as (A2 & _ & W2). destruct q2 as [|a2 q2]; [apply within_nil_l in W2; contradiction|].
    cbn [map] in W2. apply within_cons in W2. destruct W2 as (B2 & C2 & W2). destruct q2 as [|s2 q2]; [apply within_nil_l in W2; contradiction|].
    cbn [map] in W2. apply within_cons in W2. destruct W2 as (D2 & G2 & W2). destruct q2; [|apply within_nil in W2; discriminate].
    split; [eapply lo_pos; exact A2|]. exists a2, s2. split; auto. split.
    + eapply bound_lo; [| |exact B1|exact C1|exact B2|exact C2]; auto. apply pow10_pos.
    + eapply bound_lo; [| |exact D1|exact G1|exact D2|exact G2]; auto. apply pow10_pos.
  - exists a, s. auto.
  - unfold radii. rewrite map_map. exact Hw.
  - right. subst row. apply nan_failed.
Qed.
Print Assumptions C74_einasto.

(** The best minimiser: any best vector, ValueError if there is none. *)
Definition perfect : minimiser := fun _ obj _ b r => match r with Some x => best obj b x | None => forall x, ~ best obj b x end.
Lemma perfect_optimal : optimal perfect.
Proof. intros mm obj x0 b x H. exact H. Qed.

(** ** Empty bins *)
(** Densities of which at least one is zero. *)
Definition empty_bin (y : list R) : Prop := (forall x, In x y -> 0 <= x) /\ In 0 y.
Lemma xlog_0 : xlog (Fin 0) = MInf.
Proof. unfold xlog. destruct (Rlt_dec 0 0); [lra|]. destruct (Req_EM_T 0 0); [auto|lra]. Qed.
Lemma objective_inf m pars (rs : list (R * R)) : (forall r, In r rs -> exists v, 0 < v /\ model_value m pars (fst r) = Some v) -> empty_bin (map snd rs) ->
  toMinimize m (map (fun r => (fst r, Fin (snd r))) rs) pars = Some PInf.
Proof.
  intros H (Hy & Hz). apply in_map_iff in Hz. destruct Hz as (r0 & E0 & Hr0).
  assert (Hy' : forall r, In r rs -> 0 <= snd r) by (intros r Hr; apply Hy; apply in_map; auto). clear Hy. rename Hy' into Hy. unfold toMinimize. rewrite map_length.
  assert (Hn : 0 < INR (length rs)) by (apply lt_0_INR; destruct rs; [destruct Hr0|cbn; lia]). generalize dependent (INR (length rs)). intros n Hn.
  set (F := fun acc (p : R * xr) => match acc, model_value m pars (fst p) with
      | Some s, Some v0 => Some (xadd s (xdiv (xsq (xsub (xlog (snd p)) (xlog (Fin v0)))) (Fin n))) | _, _ => None end).
  assert (T : forall r, In r rs -> exists v, model_value m pars (fst r) = Some v /\
     ((snd r = 0 /\ xdiv (xsq (xsub (xlog (Fin (snd r))) (xlog (Fin v)))) (Fin n) = PInf) \/
      exists t, xdiv (xsq (xsub (xlog (Fin (snd r))) (xlog (Fin v)))) (Fin n) = Fin t)).
  { intros r Hr. destruct (H r Hr) as (v & Hv & E). exists v. split; auto. rewrite (xlog_pos v) by auto. destruct (Req_EM_T (snd r) 0) as [Z|Z].
    - left. split; auto. rewrite Z, xlog_0. cbn. unfold xdiv, inf_of. cbn. destruct (Req_EM_T n 0); [lra|]. rewrite ?sgn_pos by auto. reflexivity.
    - right. rewrite xlog_pos by (pose proof (Hy r Hr); lra). rewrite xsub_fin. unfold xsq. cbn [xmul]. rewrite xdiv_fin by lra. eauto. }
  assert (St : forall a r v, model_value m pars (fst r) = Some v -> F (Some a) (fst r, Fin (snd r)) = Some (xadd a (xdiv (xsq (xsub (xlog (Fin (snd r))) (xlog (Fin v)))) (Fin n)))).
  { intros a r v Ev. unfold F. cbn [fst snd]. rewrite Ev. reflexivity. }
  assert (P : forall l, (forall r, In r l -> In r rs) -> fold_left F (map (fun r => (fst r, Fin (snd r))) l) (Some PInf) = Some PInf).
  { induction l as [|r l IH]; intros Hl; auto. cbn [map fold_left].
    destruct (T r (Hl r ltac:(left; auto))) as (v & Ev & [[_ Et]|(t & Et)]); rewrite (St _ _ _ Ev), Et; cbn [xadd]; apply IH; intros; apply Hl; right; auto. }
  assert (G : forall l a, (forall r, In r l -> In r rs) -> In r0 l -> fold_left F (map (fun r => (fst r, Fin (snd r))) l) (Some (Fin a)) = Some PInf).
  { induction l as [|r l IH]; intros a Hl Hi; [destruct Hi|]. cbn [map fold_left].
    assert (Hl' : forall r, In r l -> In r rs) by (intros; apply Hl; right; auto).
    destruct (T r (Hl r ltac:(left; auto))) as (v & Ev & [[Z Et]|(t & Et)]); rewrite (St _ _ _ Ev), Et.
    - cbn [xadd]. apply P; auto.
    - cbn [xadd]. destruct Hi as [->|Hi]; [|apply IH; auto]. exfalso. rewrite E0, xlog_0 in Et. destruct (H r0 Hr0) as (v' & Hv' & E').
      rewrite Ev in E'. assert (v = v') by congruence. subst v'. rewrite (xlog_pos v) in Et by auto. cbn in Et. unfold xdiv, inf_of in Et. cbn in Et. destruct (Req_EM_T n 0); [lra|]. rewrite ?sgn_pos in Et by auto. discriminate. }
  apply G; auto.
Qed.

Lemma positive_model m q r : checkDensFitMethod m = true -> (forall v, fixed m "r_s" = Some v -> 0 < v) -> 0 < r ->
  within (map Fin q) (bounds m) -> exists v, 0 < v /\ model_value m q r = Some v.
Proof.
  intros Hc Hf Hr Hw.
  assert (Hs : forall s lo, 0 < lo -> xleb (fst (bound m "r_s" lo)) (Fin s) = true -> xleb (Fin s) (snd (bound m "r_s" lo)) = true -> 0 < s).
  { intros s lo Hlo. unfold bound. destruct (fixed m "r_s") as [w|]; cbn [fst snd xleb].
    - specialize (Hf w eq_refl). repeat destruct Rle_dec; try discriminate; intros; lra.
    - destruct Rle_dec; try discriminate. intros; lra. }
  unfold bounds in Hw. unfold model_value. destruct (checked_profile m Hc) as [P|[P|[P|P]]]; rewrite P in *; cbn [is_str] in *;
    repeat (destruct string_dec in *; [try discriminate|try congruence]);
    repeat (destruct q as [|? q]; [try (apply within_nil_l in Hw; contradiction)|cbn [map] in Hw; first [apply within_nil in Hw; discriminate|apply within_cons in Hw; destruct Hw as (? & ? & Hw)]]).
  all: match goal with |- context [getEinastoProf ?r ?a ?b ?c] => assert (0 < a) by (eapply lo_pos; eassumption); assert (0 < c) by (eapply Hs; [|eassumption|eassumption]; apply pow10_pos)
    | |- context [getAlphaBetaGammaProf ?r ?a ?b ?c ?d ?e] => assert (0 < a) by (eapply lo_pos; eassumption); assert (0 < e) by (eapply Hs; [|eassumption|eassumption]; apply pow10_pos)
    | |- context [getNFWProf ?r ?a ?c] => assert (0 < a) by (eapply lo_pos; eassumption); assert (0 < c) by (eapply Hs; [|eassumption|eassumption]; apply pow10_pos)
    | |- context [getHernquistProf ?r ?a ?c] => assert (0 < a) by (eapply lo_pos; eassumption); assert (0 < c) by (eapply Hs; [|eassumption|eassumption]; apply pow10_pos) end.
  all: eexists; split; [|reflexivity].
  - apply (C44_positive r r0 r1 0 0 r2); auto.
  - apply (C44_positive r r0 r1 r2 r3 r4); auto.
  - apply (C44_positive r r0 0 0 0 r1); auto.
  - apply (C44_positive r r0 0 0 0 r1); auto.
Qed.
Lemma kept_list RO y r200 : length RO = length y ->
  kept RO (map Fin y) r200 = map (fun p => (fst p, Fin (snd p))) (combine (radii RO r200) y).
Proof.
  unfold kept, radii. revert y. induction RO as [|x RO IH]; intros [|z y] L; try discriminate L; auto. cbn. f_equal. apply IH. cbn in L. lia.
Qed.
Lemma combine_snd {A B} (l : list A) (l' : list B) : length l = length l' -> map snd (combine l l') = l'.
Proof. revert l'. induction l as [|x l IH]; intros [|z l'] L; try discriminate L; auto. cbn. f_equal. apply IH. cbn in L. lia. Qed.
Lemma mean_pos_ex y : (forall x, In x y -> 0 <= x) -> (exists x, In x y /\ 0 < x) -> 0 < mean y.
Proof.
  intros H (x & Hx & Px). unfold mean. apply Rdiv_lt_0_compat; [|apply lt_0_INR; destruct y; [destruct Hx|cbn; lia]].
  destruct (Rle_dec (rsum y) 0) as [L|L]; [|lra]. pose proof (rsum_zero y H L x Hx). lra.
Qed.

(* With an empty bin the objective is infinite for every vector of parameters within the bounds. *)
Theorem C73_objective : forall m RO r200 y q, checkDensFitMethod m = true -> (forall v, fixed m "r_s" = Some v -> 0 < v) ->
  (forall x, In x RO -> 0 < x) -> 0 < r200 -> length RO = length y -> empty_bin y -> (exists x, In x y /\ 0 < x) ->
  within (map Fin q) (bounds m) ->
  toMinimize m (rescaled_points (kept RO (map Fin y) r200)) q = Some PInf.
Proof.
  intros m RO r200 y q Hc Hf HRO Hr L He Hp Hw. rewrite kept_list by auto. pose proof (mean_pos_ex y (proj1 He) Hp) as Pm.
  assert (Lr : length (radii RO r200) = length y) by (unfold radii; rewrite map_length; auto).
  assert (E : rescaled_points (map (fun p => (fst p, Fin (snd p))) (combine (radii RO r200) y)) =
              map (fun p => (fst p, Fin (snd p))) (combine (radii RO r200) (map (fun x => x / mean y) y))).
  { assert (E0 : map snd (map (fun p : R * R => (fst p, Fin (snd p))) (combine (radii RO r200) y)) = map Fin y).
    { rewrite map_map. cbn [snd]. rewrite <- (combine_snd _ _ Lr) at 2. rewrite map_map. reflexivity. }
    unfold rescaled_points. rewrite E0. rewrite average_fin by (destruct y; [destruct Hp as (? & [] & _)|discriminate]). rewrite map_map. cbn [fst snd].
    generalize (mean y) Pm. intros k Pk. clear - Pk. generalize (radii RO r200). intros l. revert y. induction l as [|x l IH]; intros [|z y]; auto.
    cbn [combine map fst snd]. f_equal; [|apply IH]. f_equal. apply xdiv_fin. lra. }
  rewrite E. apply objective_inf.
  - intros [r x] Hi. apply in_combine_l in Hi. cbn [fst]. apply positive_model; auto. unfold radii in Hi. apply in_map_iff in Hi. destruct Hi as (z & <- & Hz). apply Rmult_lt_0_compat; auto.
  - rewrite combine_snd by (rewrite map_length; auto). split.
    + intros x Hx. apply in_map_iff in Hx. destruct Hx as (z & <- & Hz). apply Rmult_le_pos; [apply He; auto|]. apply Rlt_le, Rinv_0_lt_compat; auto.
    + apply in_map_iff. exists 0. split; [unfold Rdiv; ring|apply He].
Qed.
Print Assumptions C73_objective.
(* Hence every vector within the bounds is as good as any other, whatever the other bins hold. *)
Theorem C73_every_vector_best : forall m RO r200 y q, checkDensFitMethod m = true -> (forall v, fixed m "r_s" = Some v -> 0 < v) ->
  (forall x, In x RO -> 0 < x) -> 0 < r200 -> length RO = length y -> empty_bin y -> (exists x, In x y /\ 0 < x) ->
  within (map Fin q) (bounds m) ->
  best (toMinimize m (rescaled_points (kept RO (map Fin y) r200))) (bounds m) (map Fin q).
Proof.
  intros m RO r200 y q Hc Hf HRO Hr L He Hp Hw. split; auto. exists q. split; auto. intros q' Hw'.
  rewrite !C73_objective by auto. reflexivity.
Qed.
Print Assumptions C73_every_vector_best.
(** Two bins, one of them empty: all vectors within the bounds are equally good. *)
Example C73_example : let m := [("profile", MStr "nfw")] in within (map Fin [1; 1]) (bounds m) /\ within (map Fin [2; 3]) (bounds m) /\
  toMinimize m (rescaled_points (kept [1; 2] (map Fin [1; 0]) 1)) [1; 1] = Some PInf /\
  toMinimize m (rescaled_points (kept [1; 2] (map Fin [1; 0]) 1)) [2; 3] = Some PInf.
Proof.
  intros m. assert (W : forall x y, 1 <= x -> 1 <= y -> within (map Fin [x; y]) (bounds m)) by (intros; repeat constructor; apply xleb_fin; apply (small_bound 6) || apply (small_bound 4); lra).
  assert (H : forall x y, 1 <= x -> 1 <= y -> toMinimize m (rescaled_points (kept [1; 2] (map Fin [1; 0]) 1)) [x; y] = Some PInf).
  { intros x y Hx Hy. apply C73_objective; try reflexivity; try lra; auto.
    - intros v E. cbv in E. discriminate.
    - intros z Hz. cbn in Hz. intuition lra.
    - split; [intros z Hz; cbn in Hz; intuition lra|cbn; auto].
    - exists 1. cbn. split; auto; lra. }
  repeat split; (apply W || apply H); lra.
Qed.

(** An exact NFW profile at radii 1 and 2, and the same with an empty bin at radius 3. *)
Lemma nfw_1 : getNFWProf 1 4 1 = 1. Proof. unfold getNFWProf. lra. Qed.
Lemma nfw_2 : getNFWProf 2 4 1 = 2 / 9. Proof. unfold getNFWProf. lra. Qed.
Lemma within_nfw rho s : 1 / 10 <= rho -> 1 / 10 <= s -> within (map Fin [rho; s]) (bounds m_nfw).
Proof. intros. repeat constructor; apply xleb_fin; apply (small_bound 6) || apply (small_bound 4); lra. Qed.
Theorem C73_refuted : ~ (forall minimize m RO r200 rho s row nb zeros, optimal minimize -> profile_is m "nfw" ->
  (forall x, In x (RO ++ zeros)%list -> 0 < x) -> 0 < r200 -> distinct 2 RO -> 0 < rho -> 0 < s ->
  within [Fin (rho / mean (map (fun x => getNFWProf (x * r200) rho s) RO)); Fin s] (bounds m) ->
  fitDensProf minimize (RO ++ zeros)%list m (map (fun x => Fin (getNFWProf (x * r200) rho s)) RO ++ map (fun _ => Fin 0) zeros)%list r200 nb (row, nb) ->
  row = [Fin rho; Fin s] \/ failed row).
Proof.
  intros H.
  assert (F : exists a, fitDensProf perfect ([1; 2] ++ [3])%list m_nfw (map (fun x => Fin (getNFWProf (x * 1) 4 1)) [1; 2] ++ map (fun _ => Fin 0) [3])%list 1 0 (a :: [Fin 7], 0%nat)).
  { eexists. apply fit_found with (rho := Fin 1). cbn [perfect].
    change (map (fun x => Fin (getNFWProf (x * 1) 4 1)) [1; 2] ++ map (fun _ => Fin 0) [3])%list with (map Fin [getNFWProf (1 * 1) 4 1; getNFWProf (2 * 1) 4 1; 0]).
    change [Fin 1; Fin 7] with (map Fin [1; 7]). apply C73_every_vector_best; try reflexivity; try lra.
    - intros v E. cbv in E. discriminate.
    - intros x Hx. cbn in Hx. intuition lra.
    - rewrite !Rmult_1_r, nfw_1, nfw_2. split; [intros x Hx; cbn in Hx; intuition lra|cbn; auto].
    - rewrite !Rmult_1_r, nfw_1, nfw_2. exists 1. cbn. split; auto; lra.
    - apply within_nfw; lra. }
  destruct F as (a & F).
  apply (H perfect m_nfw [1; 2] 1 4 1 _ 0%nat [3]) in F; auto using perfect_optimal; try lra.
  - destruct F as [E|E]; [injection E; intros; lra|]. specialize (E (Fin 7) ltac:(cbn; auto)). discriminate.
  - reflexivity.
  - intros x Hx. cbn in Hx. intuition lra.
  - exists [1; 2]. repeat split; auto. repeat constructor; cbn; intuition lra.
  - change [Fin (4 / mean (map (fun x => getNFWProf (x * 1) 4 1) [1; 2])); Fin 1] with (map Fin [4 / mean (map (fun x => getNFWProf (x * 1) 4 1) [1; 2]); 1]).
    apply within_nfw; [|lra]. cbn [map]. rewrite !Rmult_1_r, nfw_1, nfw_2. unfold mean, rsum. cbn. lra.
Qed.
Print Assumptions C73_refuted.

(* The true parameters are a best vector: with a minimiser that fails only if there is none, the fit succeeds. *)
Theorem C74_found : forall m RO r200 rho s nb, profile_is m "nfw" ->
  (forall x, In x RO -> 0 < x) -> 0 < r200 -> distinct 2 RO -> 0 < rho -> 0 < s ->
  within [Fin (rho / mean (map (fun x => getNFWProf (x * r200) rho s) RO)); Fin s] (bounds m) ->
  fitDensProf perfect RO m (map (fun x => Fin (getNFWProf (x * r200) rho s)) RO) r200 nb ([Fin rho; Fin s], nb).
Proof.
  intros m RO r200 rho s nb Hp HRO Hr Hd Hrho Hs Hw. unfold profile_is in Hp.
  destruct (cored_facts 1 m RO r200) as (H1 & H2 & H3 & H4 & H5); auto.
  { intros pars r. unfold model_value. rewrite Hp. destruct pars as [|? [|? [|? ?]]]; reflexivity. }
  { unfold bounds. rewrite Hp. reflexivity. }
  assert (Hrs : radii RO r200 <> []) by (destruct RO; [contradiction|discriminate]).
  set (y := fun r => rho * cored_h 1 [s] r).
  assert (Ek : kept RO (map (fun x => Fin (getNFWProf (x * r200) rho s)) RO) r200 = map (fun r => (r, Fin (y r))) (radii RO r200))
    by (apply (kept_fin RO r200 y)).
  assert (Ok : cored_ok [s]) by (exists s; auto).
  assert (Hy : forall r, In r (radii RO r200) -> 0 < y r) by (intros; apply Rmult_lt_0_compat; auto).
  destruct (rescaled_fin _ y Hrs Hy) as (Er & Ea & Pa).
  assert (B : best (toMinimize m (rescaled_points (map (fun r => (r, Fin (y r))) (radii RO r200)))) (bounds m) (map Fin [rho / mean (map y (radii RO r200)); s])).
  { apply (true_best m (cored_h 1) (radii RO r200) cored_ok Hrs H2 H3 H5 rho [s] Hrho Ok). unfold radii. rewrite map_map. exact Hw. }
  assert (Hf : fitDensProf perfect RO m (map (fun x => Fin (getNFWProf (x * r200) rho s)) RO) r200 nb
     (xmul (Fin (rho / mean (map y (radii RO r200)))) (average (map snd (kept RO (map (fun x => Fin (getNFWProf (x * r200) rho s)) RO) r200))) :: [Fin s], nb)).
  { apply fit_found. unfold perfect. rewrite Ek. exact B. }
  rewrite Ek, Ea in Hf. cbn [xmul] in Hf. replace (rho / mean (map y (radii RO r200)) * mean (map y (radii RO r200))) with rho in Hf by (field; lra). exact Hf.
Qed.
Print Assumptions C74_found.
Example C74_example : optimal perfect /\ distinct 2 [1; 2] /\
  fitDensProf perfect [1; 2] m_nfw [Fin 1; Fin (2 / 9)] 1 0 ([Fin 4; Fin 1], 0%nat).
Proof.
  assert (D : distinct 2 [1; 2]) by (exists [1; 2]; repeat split; auto; repeat constructor; cbn; intuition lra).
  split; [exact perfect_optimal|]. split; auto.
  assert (F : fitDensProf perfect [1; 2] m_nfw (map (fun x => Fin (getNFWProf (x * 1) 4 1)) [1; 2]) 1 0 ([Fin 4; Fin 1], 0%nat)).
  { apply C74_found; try reflexivity; try lra; auto.
    - intros x Hx. cbn in Hx. intuition lra.
    - change [Fin (4 / mean (map (fun x => getNFWProf (x * 1) 4 1) [1; 2])); Fin 1] with (map Fin [4 / mean (map (fun x => getNFWProf (x * 1) 4 1) [1; 2]); 1]).
      apply within_nfw; [|lra]. cbn [map]. rewrite !Rmult_1_r, nfw_1, nfw_2. unfold mean, rsum. cbn. lra. }
  cbn [map] in F. rewrite !Rmult_1_r, nfw_1, nfw_2 in F. exact F.
Qed.
(** Einasto parameters within the default bounds. *)
Example C74_einasto_example : profile_is [("profile", MStr "einasto"); ("alpha", MNum (18 / 100))] "einasto" /\ distinct 3 [1; 2; 3] /\
  within (map Fin [1; 18 / 100; 1]) (bounds [("profile", MStr "einasto"); ("alpha", MNum (18 / 100))]).
Proof.
  split; [reflexivity|]. split; [exists [1; 2; 3]; repeat split; auto; repeat constructor; cbn; intuition lra|].
  repeat constructor; apply xleb_fin; try lra; apply (small_bound 6) || apply (small_bound 4); lra.
Qed.
