(** * Theorems about readgadget.py and the IDs of readsnap.py *)
From Coq Require Import String Bool Arith ZArith Lia List.
From Verif Require Import GadgetModel GadgetSpec GadgetProps GadgetBlocks GadgetReadModel.
Import ListNotations.
Local Open Scope nat_scope.

(** ** C61: resolving names *)
Definition candidates (s : string) : list string := [s; s ++ ".0"; s ++ ".hdf5"; s ++ ".0.hdf5"]%string.
Definition ends (s suffix : string) : Prop := exists p, s = (p ++ suffix)%string.
Lemma sapp_assoc a b c : ((a ++ b) ++ c)%string = (a ++ (b ++ c))%string.
Proof. induction a; simpl; [reflexivity | now rewrite IHa]. Qed.
Lemma slength_app a b : String.length (a ++ b) = String.length a + String.length b.
Proof. induction a; simpl; lia. Qed.
Lemma substring_all s : substring 0 (String.length s) s = s.
Proof. induction s; simpl; [reflexivity | now rewrite IHs]. Qed.
Lemma substring_long s n : String.length s <= n -> substring 0 n s = s.
Proof. revert n; induction s; intros n H; simpl in *; [now destruct n|]. destruct n; [lia|]. simpl. rewrite IHs by lia. reflexivity. Qed.
Lemma substring_skip p s n : substring (String.length p) n (p ++ s) = substring 0 n s.
Proof. induction p; simpl; [reflexivity | exact IHp]. Qed.
Lemma substring_split s : forall k n, k <= String.length s -> String.length s - k <= n -> (substring 0 k s ++ substring k n s)%string = s.
Proof.
  induction s as [|c s IH]; intros k n K M; [simpl in K; destruct k; [|lia]; now destruct n|]. destruct k as [|k]; [change (substring 0 0 (String c s)) with EmptyString; cbn [String.append]; apply substring_long; lia|].
  cbn [substring String.append]. f_equal. apply IH; simpl in *; lia.
Qed.
Lemma last4_app p s : 4 <= String.length s -> last4 (p ++ s) = last4 s.
Proof.
  intros H. unfold last4. rewrite slength_app. assert (E : exists a b, s = (a ++ b)%string /\ String.length b = 4).
  { clear p. revert H. induction s as [|c s IH]; simpl; intros H; [lia|]. destruct (Nat.eq_dec (String.length s) 3); [exists EmptyString, (String c s); simpl; split; [reflexivity | lia]|].
    destruct IH as (a & b & -> & L); [lia|]. exists (String c a), b. split; [reflexivity | exact L]. }
  destruct E as (a & b & -> & L). rewrite slength_app, L. rewrite <- sapp_assoc. replace (String.length p + (String.length a + 4) - 4) with (String.length (p ++ a)) by (rewrite slength_app; lia). rewrite substring_skip.
  replace (String.length a + 4 - 4) with (String.length a) by lia. rewrite substring_skip. now rewrite !substring_long by lia.
Qed.
Lemma last4_ends s : last4 s = "hdf5"%string <-> ends s "hdf5".
Proof.
  split.
  - intros H. destruct (le_lt_dec 4 (String.length s)) as [L|L].
    + unfold last4 in H. exists (substring 0 (String.length s - 4) s). rewrite <- H. symmetry. apply substring_split; lia.
    + unfold last4 in H. replace (String.length s - 4) with 0 in H by lia. rewrite substring_all in H. subst s. simpl in L. lia.
  - intros (p & ->). now rewrite last4_app.
Qed.
Definition format_of (name : string) : fformat := if String.eqb (last4 name) "hdf5" then Hdf5 else Binary.
Lemma last4_dot0 s : String.eqb (last4 (s ++ ".0")) "hdf5" = false.
Proof.
  apply String.eqb_neq. rewrite last4_ends. intros (p & H). assert (L : forall a b x y, (a ++ String x EmptyString = b ++ String y EmptyString)%string -> x = y).
  { induction a; intros b x y E; destruct b as [|? b]; simpl in E; [congruence | destruct b; discriminate | destruct a0; discriminate |]. injection E as _ E. eapply IHa, E. }
  change (s ++ ".0")%string with (s ++ ("." ++ "0"))%string in H. change (p ++ "hdf5")%string with (p ++ ("hdf" ++ "5"))%string in H. rewrite <- !sapp_assoc in H. apply L in H. discriminate.
Qed.
Lemma fname_find ex s : fname_format ex s = match find ex (candidates s) with Some name => GOk (name, format_of name) | None => GErr GException end.
Proof.
  unfold fname_format, candidates, format_of. cbn [find]. destruct (ex s); [now destruct (String.eqb (last4 s) "hdf5")|]. destruct (ex (s ++ ".0")%string); [now rewrite last4_dot0|].
  destruct (ex (s ++ ".hdf5")%string); [rewrite last4_app by (simpl; lia); reflexivity|]. destruct (ex (s ++ ".0.hdf5")%string); [rewrite last4_app by (simpl; lia); reflexivity|]. reflexivity.
Qed.
Theorem C61 ex s : match fname_format ex s with
  | GOk (name, fmt) => exists before after, candidates s = before ++ name :: after /\ ex name = true /\ (forall c, In c before -> ex c = false) /\ (fmt = Hdf5 <-> ends name "hdf5")
  | GErr e => e = GException /\ forall c, In c (candidates s) -> ex c = false
  end.
Proof.
  rewrite fname_find. destruct (find ex (candidates s)) as [name|] eqn:E.
  - assert (G : forall l, find ex l = Some name -> exists before after, l = before ++ name :: after /\ ex name = true /\ forall c, In c before -> ex c = false).
    { induction l as [|x l IH]; [discriminate|]. cbn [find]. destruct (ex x) eqn:EX; [intros [= ->]; exists [], l; split; [reflexivity | split; [exact EX | intros c []]]|]. intros H. destruct (IH H) as (b & a & -> & H1 & H2). exists (x :: b), a. split; [reflexivity|]. split; [exact H1|]. intros c [<-|Hc]; [exact EX | now apply H2]. }
    destruct (G _ E) as (b & a & E1 & E2 & E3). exists b, a. split; [exact E1|]. split; [exact E2|]. split; [exact E3|]. rewrite <- last4_ends. unfold format_of. destruct (String.eqb_spec (last4 name) "hdf5"); split; intros; try assumption; try reflexivity; try discriminate; contradiction.
  - split; [reflexivity|]. intros c Hc. now apply (find_none ex (candidates s)).
Qed.
Example C61_ex : fname_format (fun s => String.eqb s "snap.hdf5" || String.eqb s "snap.0.hdf5") "snap" = GOk ("snap.hdf5"%string, Hdf5) /\ fname_format (fun s => String.eqb s "snap.0") "snap" = GOk ("snap.0"%string, Binary).
Proof. split; reflexivity. Qed.
Print Assumptions C61.
(** Resolving again changes nothing. *)
Lemma fname_again ex s name fmt : fname_format ex s = GOk (name, fmt) -> fname_format ex name = GOk (name, fmt).
Proof.
  rewrite !fname_find. destruct (find ex (candidates s)) as [n|] eqn:E; [|discriminate]. intros [= <- <-]. apply find_some in E. unfold candidates at 1. cbn [find]. now rewrite (proj2 E).
Qed.

(** ** C59: identifiers *)
Section Ids.
  Variables (fs : string -> option (list Z)) (sqrt_mul : Z -> Z -> Z) (o : order).
  Lemma ids_all g0 gs filename parttype dtf : (-1 <= parttype <= 5)%Z -> (forall j, j < 6 -> fzero (nth j (massarr (g_head g0)) 0%Z) = negb (fpos (nth j (massarr (g_head g0)) 0%Z))) ->
    Forall (file_ok o dtf everything 4) (g0 :: gs) -> stored fs (file_bytes o dtf everything) filename (g0 :: gs) -> dtf = u32 /\ (exists j, j < 6 /\ g_cont g0 j <> []) \/ dtf = u64 ->
    read_block fs sqrt_mul filename "ID  " parttype 0 0 = GOk (map (fun x => Some (store u32 dtf x)) (concat (map (fun j => concat (map (fun g => g_cont g j) (g0 :: gs))) (species "ID  " everything parttype)))).
  Proof.
    intros H1 H2 H3 H4 H5. rewrite (C60_partial fs sqrt_mul o "ID  " parttype 0 0 4 everything u32 dtf filename g0 gs); trivial.
    - f_equal. transitivity (map (fun x => Some (scaled sqrt_mul "ID  " (g_head g0) x)) (map (store u32 dtf) (concat (map (fun j => concat (map (fun g => g_cont g j) (g0 :: gs))) (species "ID  " everything parttype))))); [|now rewrite map_map].
      f_equal. rewrite concat_map, map_map. f_equal. apply map_ext. intros j. rewrite concat_map, map_map. reflexivity.
    - intros L. right. assert (P : Z.to_nat parttype < 6) by lia. revert P. generalize (Z.to_nat parttype). intros p P. do 6 (destruct p as [|p]; [reflexivity|]). lia.
    - destruct H5 as [[-> H5]| ->]; [left; split; [reflexivity | intros _; exact H5] | right; split; reflexivity].
  Qed.
End Ids.

Lemma store_small dtf x : dtf = u32 \/ dtf = u64 -> item_ok dtf x -> Forall (fun w => (w < 2 ^ 32)%Z) x -> store u32 dtf x = x.
Proof.
  intros [->| ->] [_ H] HS; [reflexivity|]. unfold store. change (Nat.ltb (d_width u32) (d_width u64)) with true. cbv iota. rewrite <- (map_id x) at 2. apply map_ext_in. intros w Hw. rewrite Forall_forall in H, HS. change (256 ^ Z.of_nat (d_width u32))%Z with (2 ^ 32)%Z. apply Z.mod_small. split; [apply H | apply HS]; exact Hw.
Qed.
(** Read back unchanged if below 2^32, whichever the width in the file. *)
Theorem C59_partial fs sqrt_mul o g0 gs filename parttype dtf : (-1 <= parttype <= 5)%Z -> (forall j, j < 6 -> fzero (nth j (massarr (g_head g0)) 0%Z) = negb (fpos (nth j (massarr (g_head g0)) 0%Z))) ->
  Forall (file_ok o dtf everything 4) (g0 :: gs) -> stored fs (file_bytes o dtf everything) filename (g0 :: gs) -> dtf = u32 /\ (exists j, j < 6 /\ g_cont g0 j <> []) \/ dtf = u64 ->
  (forall g j x, In g (g0 :: gs) -> In x (g_cont g j) -> Forall (fun w => (w < 2 ^ 32)%Z) x) ->
  read_block fs sqrt_mul filename "ID  " parttype 0 0 = GOk (map Some (concat (map (fun j => concat (map (fun g => g_cont g j) (g0 :: gs))) (species "ID  " everything parttype)))).
Proof.
  intros H1 H2 H3 H4 H5 H6. rewrite (ids_all fs sqrt_mul o g0 gs filename parttype dtf H1 H2 H3 H4 H5). f_equal. apply map_ext_in. intros x Hx. f_equal. apply in_concat in Hx. destruct Hx as (l & Hl & Hx). apply in_map_iff in Hl. destruct Hl as (j & <- & _). apply in_concat in Hx. destruct Hx as (l & Hl & Hx). apply in_map_iff in Hl. destruct Hl as (g & <- & Hg).
  apply store_small; [destruct H5 as [[-> _]| ->]; [now left | now right] | | now apply (H6 g j)]. rewrite Forall_forall in H3. destruct (H3 g Hg) as (_ & _ & _ & _ & _ & HI). specialize (HI j). rewrite Forall_forall in HI. now apply HI.
Qed.
Print Assumptions C59_partial.
(** Otherwise reduced modulo 2^32. *)
Theorem C59_mod fs sqrt_mul o g0 gs filename parttype : (-1 <= parttype <= 5)%Z -> (forall j, j < 6 -> fzero (nth j (massarr (g_head g0)) 0%Z) = negb (fpos (nth j (massarr (g_head g0)) 0%Z))) ->
  Forall (file_ok o u64 everything 4) (g0 :: gs) -> stored fs (file_bytes o u64 everything) filename (g0 :: gs) ->
  read_block fs sqrt_mul filename "ID  " parttype 0 0 = GOk (map (fun x => Some (map (fun w => (w mod 2 ^ 32)%Z) x)) (concat (map (fun j => concat (map (fun g => g_cont g j) (g0 :: gs))) (species "ID  " everything parttype)))).
Proof. intros H1 H2 H3 H4. now rewrite (ids_all fs sqrt_mul o g0 gs filename parttype u64 H1 H2 H3 H4 (or_intror eq_refl)). Qed.
Print Assumptions C59_mod.
Definition exI := ex_file [0; 2; 0; 0; 0; 0]%Z 1 [] [[4294967301]; [7]]%Z [].
Lemma exI_ok o : file_ok o u64 everything 4 exI.
Proof. destruct o; exfile. Qed.
Theorem C59_refuted : exists fs g0, file_ok LE u64 everything 4 g0 /\ stored fs (file_bytes LE u64 everything) "snap" [g0] /\ g_cont g0 1 = [[2 ^ 32 + 5]; [7]]%Z /\
  read_block fs (fun _ x => x) "snap" "ID  " 1 0 0 = GOk [Some [5%Z]; Some [7%Z]].
Proof.
  exists (one (file_bytes LE u64 everything) exI), exI. split; [apply exI_ok|]. split; [left; split; [reflexivity | split; [reflexivity | vm_compute; discriminate]]|]. split; [reflexivity|]. vm_compute. reflexivity.
Qed.
Print Assumptions C59_refuted.
Definition exJ := ex_file [0; 2; 0; 0; 0; 0]%Z 1 [] [[4294967295]; [7]]%Z [].
Lemma exJ_ok o : file_ok o u64 everything 4 exJ.
Proof. destruct o; exfile. Qed.
Example C59_ex : read_block (one (file_bytes BE u64 everything) exJ) (fun _ x => x) "snap" "ID  " 1 0 0 = GOk (map Some [[4294967295]; [7]]%Z).
Proof.
  rewrite (C59_partial _ _ BE exJ [] "snap" 1 u64); [reflexivity | lia | six | constructor; [apply exJ_ok | constructor] | left; split; [reflexivity | split; [reflexivity | vm_compute; discriminate]] | now right |].
  intros g j x [<-|[]] Hx. cbn in Hx. do 2 (destruct j as [|j]; [cbn in Hx; intuition (subst; repeat constructor)|]). destruct j as [|[|[|j]]]; cbn in Hx; destruct Hx.
Qed.
