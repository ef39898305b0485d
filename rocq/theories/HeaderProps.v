(** * C126: the header of a snapshot *)
From Coq Require Import String Bool ZArith Reals Lra Lia List.
From Verif Require Import GadgetModel GadgetSpec GadgetProps GadgetReadProps HeaderModel HeaderSpec.
Import ListNotations.
Local Open Scope Z_scope.

Lemma app_nil_s s : (s ++ "")%string = s.
Proof. induction s; simpl; [reflexivity | now rewrite IHs]. Qed.
Lemma app_differs s a b : a <> b -> (s ++ a)%string <> (s ++ b)%string.
Proof. induction s; simpl; [trivial|]. intros H E. injection E as E. now apply IHs in H. Qed.
Lemma parse_start o h rest : head_ok h -> parse_header (start1 o h ++ rest) = GOk (as_read 1 o h) /\ parse_header (start2 o h ++ rest) = GOk (as_read 2 o h).
Proof. apply C58. Qed.
Lemma resolved fs w several s n : alone fs s (first_file w several s) -> fs (first_file w several s) = Some n -> (w <> AsHdf5 -> several = false -> ~ ends s "hdf5") ->
  fname_format (there fs) s = GOk (first_file w several s, match w with AsHdf5 => Hdf5 | _ => Binary end).
Proof.
  intros A F N. assert (G : forall x, In x [""; ".0"; ".hdf5"; ".0.hdf5"]%string -> (s ++ x)%string <> first_file w several s -> there fs (s ++ x) = false).
  { intros x Hx D. unfold there. rewrite (A (s ++ x)%string); [reflexivity | | exact D]. destruct Hx as [<-|Hx]; [left; symmetry; apply app_nil_s | right]. cbn in Hx |- *. intuition congruence. }
  assert (T : there fs (first_file w several s) = true) by (unfold there; now rewrite F).
  assert (D : forall x y, x <> y -> (s ++ x)%string <> (s ++ y)%string) by (intros; now apply app_differs).
  rewrite fname_find. unfold candidates, format_of. rewrite <- (app_nil_s s) at 1. cbn [find].
  destruct w as [o|o|], several; cbn [first_file] in *; unfold first_file in *;
    repeat match goal with |- context [there fs (s ++ ?x)%string] => first [rewrite T | rewrite (G x) by (try (cbn; tauto); apply D; discriminate)] end;
    try (now rewrite last4_dot0); try (rewrite last4_app by (simpl; lia); reflexivity);
    (rewrite !app_nil_s in *; destruct (String.eqb_spec (last4 s) "hdf5") as [E|_]; [apply last4_ends in E; exfalso; apply N in E; [exact E | discriminate | reflexivity] | reflexivity]).
Qed.

(** One snapshot, in whichever of the three formats, byte orders and namings it is stored: the same numbers. *)
Theorem C126_numbers fs w several s h n : head_ok h -> alone fs s (first_file w several s) -> fs (first_file w several s) = Some n -> holds w h n ->
  (w <> AsHdf5 -> several = false -> ~ ends s "hdf5") ->
  exists r, get_header fs s = HOk r /\ same_numbers h r /\ s_format r = format_shown w /\ s_Hubble r = hubble_rate (omega_m h) (omega_l h) (redshift h).
Proof.
  intros K A F H N. unfold get_header. rewrite (resolved fs w several s n A F N). cbn [lift hbind].
  destruct w as [o|o|]; destruct n as [|bs|a bs]; cbn [holds] in H; try contradiction.
  - destruct H as (rest & ->). unfold open_bytes. rewrite F. cbn [gbind]. rewrite (proj1 (parse_start o h rest K)). cbn [lift hbind]. eexists. split; [reflexivity|]. repeat split.
  - destruct H as (rest & ->). unfold open_bytes. rewrite F. cbn [gbind]. rewrite (proj2 (parse_start o h rest K)). cbn [lift hbind]. eexists. split; [reflexivity|]. repeat split.
  - rewrite F. destruct H as ((H1 & H2 & H3 & H4 & H5 & H6 & H7 & H8 & H9 & H10 & H11) & _). unfold head_hdf5, key. rewrite H1, H2, H3, H4, H5, H6, H7, H8, H9, H10, H11. cbn [hbind]. eexists. split; [reflexivity|]. repeat split.
Qed.
Print Assumptions C126_numbers.

(** Failures: nothing there; a folder; an HDF5 file whose name does not end in hdf5, which ends the
    interpreter; another file whose name does; an HDF5 file without one of the attributes. *)
Theorem C126_failures fs s :
  ((forall c, In c [s; s ++ ".0"; s ++ ".hdf5"; s ++ ".0.hdf5"]%string -> fs c = None) -> get_header fs s = HErr (Gadget GException)) /\
  (fs s = Some Folder -> get_header fs s = HErr (Gadget GOSError)) /\
  (forall a rest, fs s = Some (H5 a (h5_signature ++ rest)) -> ~ ends s "hdf5" -> get_header fs s = HErr (Gadget (SysExit IncorrectFormat))) /\
  (forall bs, fs s = Some (Plain bs) -> ends s "hdf5" -> get_header fs s = HErr (Gadget GOSError)) /\
  (forall a bs k, fs s = Some (H5 a bs) -> ends s "hdf5" ->
    In k ["Time"; "Redshift"; "BoxSize"; "NumFilesPerSnapshot"; "Omega0"; "OmegaLambda"; "HubbleParam"; "Flag_Cooling"]%string /\ number a k = None \/
    In k ["MassTable"; "NumPart_ThisFile"; "NumPart_Total"]%string /\ array a k = None -> get_header fs s = HErr KeyError).
Proof.
  assert (L : ends s "hdf5" -> String.eqb (last4 s) "hdf5" = true) by (intros E; apply String.eqb_eq, last4_ends, E).
  split; [|split; [|split; [|split]]].
  - intros H. unfold get_header. assert (T : forall c, In c (candidates s) -> there fs c = false) by (intros c Hc; unfold there; now rewrite (H c Hc)).
    pose proof (C61 (there fs) s) as P. destruct (fname_format (there fs) s) as [[name f]|e]; [|destruct P as (-> & _); reflexivity].
    destruct P as (b & a & E & X & _). rewrite T in X; [discriminate|]. rewrite E. apply in_or_app. right. now left.
  - intros F. assert (T : there fs s = true) by (unfold there; now rewrite F). unfold get_header, fname_format. rewrite T. destruct (String.eqb (last4 s) "hdf5"); cbn [lift hbind].
    + now rewrite F.
    + unfold open_bytes. rewrite F. reflexivity.
  - intros a rest F N. assert (T : there fs s = true) by (unfold there; now rewrite F). unfold get_header, fname_format. rewrite T. destruct (String.eqb_spec (last4 s) "hdf5") as [E|_]; [now apply last4_ends in E|]. cbn [lift hbind].
    unfold open_bytes. rewrite F. cbn [gbind]. unfold h5_signature. cbn [app]. rewrite C58_reject; [reflexivity | repeat constructor; unfold byte_ok; lia |].
    intros o v V E. destruct o; destruct V as [-> | ->]; vm_compute in E; discriminate.
  - intros bs F E. assert (T : there fs s = true) by (unfold there; now rewrite F). unfold get_header, fname_format. rewrite T, (L E). cbn [lift hbind]. now rewrite F.
  - intros a bs k F E M. assert (T : there fs s = true) by (unfold there; now rewrite F). unfold get_header, fname_format. rewrite T, (L E). cbn [lift hbind]. rewrite F. unfold head_hdf5, key.
    cbn [In] in M.
    repeat match goal with |- context [match ?t ?k with Some _ => _ | None => _ end] => destruct (t k) eqn:?; cbn [hbind]; [|reflexivity] end.
    exfalso. destruct M as [(M & X)|(M & X)]; intuition (subst k; congruence).
Qed.
Print Assumptions C126_failures.

(** The numbers behind the patterns are those of IEEE 754: sign, exponent and mantissa. *)
Theorem C126_values s e m : (s = 0 \/ s = 1) -> 0 <= e < 2048 -> 0 <= m < 2 ^ 52 ->
  let w := s * 2 ^ 63 + e * 2 ^ 52 + m in let sign := if s =? 1 then (-1)%R else 1%R in let fraction := (IZR m / 2 ^ 52)%R in
  f64_value w = (if e =? 2047 then None else if e =? 0 then Some (sign * fraction / 2 ^ 1022)%R else Some (sign * (1 + fraction) * powerRZ 2 (e - 1023))%R).
Proof.
  intros S E M w sign fraction.
  assert (W0 : w = (s * 2048 + e) * 2 ^ 52 + m) by (unfold w; change (2 ^ 63) with (2048 * 2 ^ 52); ring).
  assert (W1 : w mod 2 ^ 52 = m) by (rewrite W0, Z.add_comm, Z.mod_add by (apply Z.pow_nonzero; lia); now apply Z.mod_small).
  assert (W2 : w / 2 ^ 52 = s * 2048 + e) by (rewrite W0, Z.div_add_l by (apply Z.pow_nonzero; lia); rewrite Z.div_small by exact M; ring).
  assert (W3 : (w / 2 ^ 52) mod 2048 = e) by (rewrite W2, Z.add_comm, Z.mod_add by lia; now apply Z.mod_small).
  assert (W4 : w / 2 ^ 63 = s) by (change (2 ^ 63) with (2 ^ 52 * 2048); rewrite <- Z.div_div, W2 by (try apply Z.pow_nonzero; lia); rewrite Z.div_add_l by lia; rewrite Z.div_small by exact E; ring).
  assert (P : forall n, (2 ^ n <> 0)%R) by (intros; apply pow_nonzero; lra).
  unfold f64_value. cbv zeta. rewrite W3, W1, W4. destruct (e =? 2047); [reflexivity|]. destruct (Z.eqb_spec e 0) as [->|N].
  - assert (Q : (powerRZ 2 (-1074) = / 2 ^ 52 / 2 ^ 1022)%R). { change (powerRZ 2 (-1074)) with (/ 2 ^ (52 + 1022))%R. rewrite pow_add. field; split; apply P. }
    rewrite Q. unfold sign, fraction. destruct (s =? 1); f_equal; field; split; apply P.
  - assert (Q : (powerRZ 2 (e - 1075) = powerRZ 2 (e - 1023) / 2 ^ 52)%R). { replace (e - 1075) with ((e - 1023) + (-52)) by ring. rewrite powerRZ_add by lra. reflexivity. }
    rewrite Q, plus_IZR. change (2 ^ 52) with (2 ^ Z.of_nat 52). rewrite <- (pow_IZR 2 52). unfold sign, fraction. destruct (s =? 1); f_equal; field; apply P.
Qed.
Print Assumptions C126_values.

(** The expansion rate shown is the one of a flat universe. *)
Theorem C126_rate m l z wm wl wz H : f64_value wm = Some m -> f64_value wl = Some l -> f64_value wz = Some z -> hubble_rate wm wl wz = Some H ->
  (0 <= H)%R /\ (is_rate m l z H <-> (m + l = 1 \/ z = -1)%R).
Proof.
  intros Hm Hl Hz E. unfold hubble_rate in E. rewrite Hm, Hl, Hz in E. cbv zeta in E. destruct (Rlt_dec (m * (1 + z) ^ 3 + l) 0) as [|P]; [discriminate|]. assert (EH : H = (100 * sqrt (m * (1 + z) ^ 3 + l))%R) by congruence. subst H. clear E. apply Rnot_lt_le in P.
  pose proof (sqrt_pos (m * (1 + z) ^ 3 + l)) as S. assert (S100 : (0 <= 100 * sqrt (m * (1 + z) ^ 3 + l))%R) by (apply Rmult_le_pos; [lra | exact S]). split; [exact S100|].
  assert (Q : ((100 * sqrt (m * (1 + z) ^ 3 + l)) ^ 2 = 10000 * (m * (1 + z) ^ 3 + l))%R) by (rewrite Rpow_mult_distr, <- (Rsqr_pow2 (sqrt _)), Rsqr_sqrt by exact P; lra).
  unfold is_rate, friedmann. rewrite Q. split.
  - intros (_ & E). assert (Z : ((1 - m - l) * ((1 + z) * (1 + z)) = 0)%R) by (replace ((1 + z) ^ 2)%R with ((1 + z) * (1 + z))%R in E by ring; lra).
    apply Rmult_integral in Z as [Z|Z]; [left; lra|]. apply Rmult_integral in Z as [Z|Z]; right; lra.
  - intros Z. split; [exact S100|]. assert (E : ((1 - m - l) * (1 + z) ^ 2 = 0)%R) by (destruct Z as [Z | ->]; [replace (1 - m - l)%R with 0%R by lra; ring | ring]). lra.
Qed.
Print Assumptions C126_rate.
(** A negative sum under the root gives no number. *)
Theorem C126_no_rate m l z wm wl wz : f64_value wm = Some m -> f64_value wl = Some l -> f64_value wz = Some z ->
  (hubble_rate wm wl wz = None <-> (m * (1 + z) ^ 3 + l < 0)%R).
Proof. intros Hm Hl Hz. unfold hubble_rate. rewrite Hm, Hl, Hz. cbv zeta. destruct (Rlt_dec (m * (1 + z) ^ 3 + l) 0); split; intros; try reflexivity; try assumption; try discriminate; contradiction. Qed.
Print Assumptions C126_no_rate.

(** A header: omega_m = 0.25, omega_l = 0.75, redshift 1, box of 20. *)
Definition quarter : Z := 4598175219545276416.
Definition three_quarters : Z := 4604930618986332160.
Definition one : Z := 4607182418800017408.
Definition twenty : Z := 4626322717216342016.
Definition head126 (wl : Z) : head := mkHead [0; 5; 0; 0; 2; 0] [0; one; 0; 0; 0; 0] one one 0 0 [0; 50; 0; 0; 20; 0] 1 10 twenty quarter wl three_quarters (repeat 0 96).
Lemma head126_ok wl : uint64 wl -> head_ok (head126 wl).
Proof. unfold head_ok, int32, uint32, uint64. intros W. repeat split; try reflexivity; try (cbn; unfold quarter, three_quarters, one, twenty; lia); try exact (proj1 W); try exact (proj2 W); repeat constructor; try (cbn; unfold one; lia). Qed.
Lemma value_quarter : f64_value quarter = Some (1 / 4)%R.
Proof.
  unfold f64_value. change ((quarter / 2 ^ 52) mod 2048) with 1021. change (quarter mod 2 ^ 52) with 0. change (quarter / 2 ^ 63) with 0. cbv zeta. cbn [Z.eqb Pos.eqb]. f_equal.
  change (0 + 2 ^ 52) with (2 ^ Z.of_nat 52). rewrite <- (pow_IZR 2 52). change (1021 - 1075) with (-54). cbn [powerRZ]. change (Pos.to_nat 54) with (2 + 52)%nat. rewrite pow_add. field; apply pow_nonzero; lra.
Qed.
Lemma value_three_quarters : f64_value three_quarters = Some (3 / 4)%R.
Proof.
  unfold f64_value. change ((three_quarters / 2 ^ 52) mod 2048) with 1022. change (three_quarters mod 2 ^ 52) with (2 ^ 51). change (three_quarters / 2 ^ 63) with 0. cbv zeta. cbn [Z.eqb Pos.eqb]. f_equal.
  change (2 ^ 51 + 2 ^ 52) with (3 * 2 ^ Z.of_nat 51). rewrite mult_IZR, <- (pow_IZR 2 51). change (1022 - 1075) with (-53). cbn [powerRZ]. change (Pos.to_nat 53) with (2 + 51)%nat. rewrite pow_add. field; apply pow_nonzero; lra.
Qed.
Lemma value_one : f64_value one = Some 1%R.
Proof.
  unfold f64_value. change ((one / 2 ^ 52) mod 2048) with 1023. change (one mod 2 ^ 52) with 0. change (one / 2 ^ 63) with 0. cbv zeta. cbn [Z.eqb Pos.eqb]. f_equal.
  change (0 + 2 ^ 52) with (2 ^ Z.of_nat 52). rewrite <- (pow_IZR 2 52). change (1023 - 1075) with (-52). cbn [powerRZ]. change (Pos.to_nat 52) with 52%nat. field; apply pow_nonzero; lra.
Qed.
Example C126_values_ex : f64_value (1 * 2 ^ 63 + 1022 * 2 ^ 52 + 2 ^ 51) = Some (-1 * (1 + IZR (2 ^ 51) / 2 ^ 52) * powerRZ 2 (-1))%R.
Proof. apply (C126_values 1 1022 (2 ^ 51)); [now right | lia | split; [lia | reflexivity]]. Qed.
(** The folder of the documentation, snapdir_035, with the files of the snapshot in it. *)
Definition snap_dir (w : way) (n : node) : string -> option node :=
  fun s => if String.eqb s "snapdir_035" then Some Folder else if String.eqb s (first_file w true "snapdir_035/snap_035") then Some n else None.
(** The property fails: the folder, as in the documentation of density profiles, gives no header although
    the files are in it and their names do; and with curvature the rate shown is not the expansion rate. *)
Theorem C126_refuted :
  (exists fs h n, head_ok h /\ holds (Format1 LE) h n /\ fs "snapdir_035/snap_035.0"%string = Some n /\
    (exists r, get_header fs "snapdir_035/snap_035" = HOk r /\ same_numbers h r) /\ get_header fs "snapdir_035" = HErr (Gadget GOSError)) /\
  (exists fs h r m l z H, head_ok h /\ get_header fs "snap" = HOk r /\ f64_value (s_omega_m r) = Some m /\ f64_value (s_omega_l r) = Some l /\
    f64_value (s_redshift r) = Some z /\ s_Hubble r = Some H /\ ~ is_rate m l z H).
Proof.
  assert (K : head_ok (head126 three_quarters)) by (apply head126_ok; unfold uint64, three_quarters; lia). assert (K2 : head_ok (head126 quarter)) by (apply head126_ok; unfold uint64, quarter; lia). split.
  - exists (snap_dir (Format1 LE) (Plain (start1 LE (head126 three_quarters) ++ []))), (head126 three_quarters), (Plain (start1 LE (head126 three_quarters) ++ [])).
    assert (H : holds (Format1 LE) (head126 three_quarters) (Plain (start1 LE (head126 three_quarters) ++ []))) by (exists []; reflexivity).
    split; [exact K|]. split; [exact H|]. split; [reflexivity|]. split; [|apply C126_failures; reflexivity].
    edestruct (C126_numbers (snap_dir (Format1 LE) (Plain (start1 LE (head126 three_quarters) ++ []))) (Format1 LE) true "snapdir_035/snap_035" _ (Plain (start1 LE (head126 three_quarters) ++ [])) K) as (r & E & S & _); [| reflexivity | exact H | discriminate | exists r; split; assumption].
    intros c Hc D. unfold snap_dir. destruct Hc as [<-|[<-|[<-|[<-|[]]]]]; try reflexivity. now contradiction D.
  - set (fs := fun s : string => if String.eqb s "snap" then Some (Plain (start1 LE (head126 quarter) ++ [])) else None).
    edestruct (C126_numbers fs (Format1 LE) false "snap" _ (Plain (start1 LE (head126 quarter) ++ [])) K2) as (r & E & S & _ & Hr); [| reflexivity | exists []; reflexivity | intros _ _ (p & Hp); apply (f_equal last4) in Hp; rewrite last4_app in Hp by (simpl; lia); discriminate |].
    { intros c Hc D. destruct Hc as [<-|[<-|[<-|[<-|[]]]]]; try reflexivity. now contradiction D. }
    destruct S as (S1 & S2 & S3 & S4 & S5 & S6 & _).
    assert (R : exists H, hubble_rate quarter quarter one = Some H) by (unfold hubble_rate; rewrite value_quarter, value_one; cbv zeta; destruct (Rlt_dec (1 / 4 * (1 + 1) ^ 3 + 1 / 4) 0); [lra | eexists; reflexivity]). destruct R as (H & R).
    exists fs, (head126 quarter), r, (1 / 4)%R, (1 / 4)%R, 1%R, H. split; [exact K2|]. split; [exact E|]. rewrite S2, S5, S6, Hr. cbn [omega_m omega_l redshift head126].
    split; [exact value_quarter|]. split; [exact value_quarter|]. split; [exact value_one|]. split; [exact R|]. rewrite (proj2 (C126_rate _ _ _ _ _ _ _ value_quarter value_quarter value_one R)). lra.
Qed.
Print Assumptions C126_refuted.

(** The example of the documentation in HDF5 files: all numbers, and the rate 100 sqrt(2.75) at redshift 1. *)
Definition attrs126 : attributes :=
  let h := head126 three_quarters in
  mkAttr (fun k => if String.eqb k "Time" then Some (time h) else if String.eqb k "Redshift" then Some (redshift h) else if String.eqb k "BoxSize" then Some (boxsize h)
                   else if String.eqb k "NumFilesPerSnapshot" then Some (filenum h) else if String.eqb k "Omega0" then Some (omega_m h) else if String.eqb k "OmegaLambda" then Some (omega_l h)
                   else if String.eqb k "HubbleParam" then Some (hubble h) else if String.eqb k "Flag_Cooling" then Some (cooling h) else None)
         (fun k => if String.eqb k "MassTable" then Some (massarr h) else if String.eqb k "NumPart_ThisFile" then Some (npart h) else if String.eqb k "NumPart_Total" then Some (nall h) else None).
Example C126_example : exists r H, get_header (snap_dir AsHdf5 (H5 attrs126 h5_signature)) "snapdir_035/snap_035" = HOk r /\ s_boxsize r = twenty /\ s_nall r = [0; 50; 0; 0; 20; 0] /\ s_format r = None /\
  s_Hubble r = Some H /\ (H ^ 2 = 27500)%R /\ is_rate (1 / 4) (3 / 4) 1 H.
Proof.
  assert (K : head_ok (head126 three_quarters)) by (apply head126_ok; unfold uint64, three_quarters; lia).
  edestruct (C126_numbers (snap_dir AsHdf5 (H5 attrs126 h5_signature)) AsHdf5 true "snapdir_035/snap_035" _ (H5 attrs126 h5_signature) K) as (r & E & S & F & Hr); [| reflexivity | | |].
  - intros c Hc D. unfold snap_dir. destruct Hc as [<-|[<-|[<-|[<-|[]]]]]; try reflexivity. now contradiction D.
  - split; [repeat split | exists []; reflexivity].
  - intros D. now contradiction D.
  - destruct S as (S1 & S2 & S3 & S4 & S5 & S6 & S7 & S8 & S9 & S10 & _).
    assert (R : exists H, hubble_rate quarter three_quarters one = Some H /\ (H ^ 2 = 27500)%R).
    { unfold hubble_rate. rewrite value_quarter, value_three_quarters, value_one. cbv zeta. destruct (Rlt_dec (1 / 4 * (1 + 1) ^ 3 + 3 / 4) 0); [lra|]. eexists. split; [reflexivity|].
      rewrite Rpow_mult_distr, <- (Rsqr_pow2 (sqrt _)), Rsqr_sqrt by lra. lra. }
    destruct R as (H & R & Q). exists r, H. rewrite S3, S10, F, Hr. repeat split; try exact E; try exact R; try exact Q; try reflexivity; apply (C126_rate _ _ _ _ _ _ _ value_quarter value_three_quarters value_one R); left; lra.
Qed.
