(** Reading blocks of snapshots: C59, C60. *)
From Coq Require Import Lia String Bool ZArith List.
From Verif Require Import GadgetModel GadgetSpec GadgetProps.
Import ListNotations.
Local Open Scope nat_scope.

(** ** Items *)
Definition item_ok (dt : dtype) (x : item) : Prop := length x = d_words dt /\ Forall (fun w => (0 <= w < 256 ^ Z.of_nat (d_width dt))%Z) x.
Definition item_bytes (o : order) (dt : dtype) (x : item) : list Z := concat (map (bytes_of o (d_width dt)) x).
Definition items_bytes (o : order) (dt : dtype) (xs : list item) : list Z := concat (map (item_bytes o dt) xs).
Lemma item_bytes_length o dt x : item_ok dt x -> length (item_bytes o dt x) = itemsize dt.
Proof.
  intros [L _]. unfold itemsize. rewrite <- L. clear L. unfold item_bytes. induction x as [|w x IH]; [reflexivity|]. simpl. rewrite app_length, bytes_of_length, IH. lia.
Qed.
Lemma items_bytes_length o dt xs : Forall (item_ok dt) xs -> length (items_bytes o dt xs) = length xs * itemsize dt.
Proof. unfold items_bytes. induction 1 as [|x xs Hx H IH]; [reflexivity|]. simpl. rewrite app_length, item_bytes_length by exact Hx. lia. Qed.
Lemma words_item o dt : forall x bs pre post pos, Forall (fun w => (0 <= w < 256 ^ Z.of_nat (d_width dt))%Z) x -> bs = pre ++ concat (map (bytes_of o (d_width dt)) x) ++ post -> pos = length pre ->
  map (swp (is_be o) (d_width dt)) (words_at bs pos (d_width dt) (length x)) = x /\ length (words_at bs pos (d_width dt) (length x)) = length x.
Proof.
  induction x as [|w x IH]; intros bs pre post pos HF Eb Ep; [split; reflexivity|]. inversion HF as [|? ? Hw HF']; subst x0 l. cbn [length words_at]. cbn [map concat] in Eb. rewrite <- app_assoc in Eb.
  rewrite (word_at_bytes bs pos (d_width dt) o w pre (concat (map (bytes_of o (d_width dt)) x) ++ post) Eb Ep).
  destruct (IH bs (pre ++ bytes_of o (d_width dt) w) post (pos + d_width dt) HF') as [I1 I2]; [now rewrite <- app_assoc | rewrite app_length, bytes_of_length; lia|].
  cbn [map length]. rewrite I1, I2. split; [f_equal; now apply swp_bytes | reflexivity].
Qed.
Lemma items_at_spec o dt : forall xs bs pre post pos, Forall (item_ok dt) xs -> bs = pre ++ items_bytes o dt xs ++ post -> pos = length pre -> items_at bs pos (is_be o) dt (length xs) = xs.
Proof.
  induction xs as [|x xs IH]; intros bs pre post pos HF Eb Ep; [reflexivity|]. inversion HF as [|? ? Hx HF']; subst x0 l. cbn [length items_at]. cbv zeta. destruct Hx as [L HB] eqn:EHx. clear EHx.
  unfold items_bytes in Eb. cbn [map concat] in Eb. rewrite <- app_assoc in Eb. destruct (words_item o dt x bs pre (concat (map (item_bytes o dt) xs) ++ post) pos HB Eb Ep) as [W1 W2].
  rewrite <- L, W2, Nat.eqb_refl, W1. f_equal. apply (IH bs (pre ++ item_bytes o dt x) post); [exact HF' | now rewrite <- app_assoc|]. rewrite app_length, item_bytes_length by (split; assumption). lia.
Qed.
Lemma items_sub o dt xs bs pre post a c : Forall (item_ok dt) xs -> bs = pre ++ items_bytes o dt xs ++ post -> a + c <= length xs ->
  items_at bs (length pre + a * itemsize dt) (is_be o) dt c = firstn c (skipn a xs).
Proof.
  intros HF Eb Hac. assert (Hc : length (firstn c (skipn a xs)) = c) by (rewrite firstn_length, skipn_length; lia). rewrite <- Hc at 1.
  assert (Ex : xs = firstn a xs ++ firstn c (skipn a xs) ++ skipn c (skipn a xs)) by (now rewrite !firstn_skipn).
  assert (HA : Forall (item_ok dt) (firstn a xs) /\ Forall (item_ok dt) (firstn c (skipn a xs))).
  { rewrite Ex in HF. apply Forall_app in HF. destruct HF as [F1 F2]. apply Forall_app in F2. split; [exact F1 | apply F2]. }
  apply (items_at_spec o dt _ bs (pre ++ items_bytes o dt (firstn a xs)) (items_bytes o dt (skipn c (skipn a xs)) ++ post)); [apply HA | | rewrite app_length, items_bytes_length by apply HA; rewrite firstn_length; f_equal; f_equal; lia].
  rewrite Eb. rewrite Ex at 1. unfold items_bytes. rewrite !map_app, !concat_app, <- !app_assoc. reflexivity.
Qed.

(** ** Species *)
Definition chosen {A} (flags : list bool) (cont : nat -> list A) : list A := concat (map (fun j => if nth j flags false then cont j else []) (seq 0 6)).
Lemma offsets_S flags n j : offsets flags n (S j) = offsets flags n j + (if nth j flags false then n j else 0).
Proof.
  unfold offsets. rewrite seq_S, fold_right_app. cbn [fold_right plus]. generalize (if nth j flags false then n j else 0). intros m. rewrite Nat.add_0_r.
  induction (seq 0 j) as [|i l IH]; cbn [fold_right]; [lia | rewrite IH; lia].
Qed.
Lemma concat_prefix {A} (g : nat -> list A) flags n j : (forall i, length (g i) = if nth i flags false then n i else 0) -> length (concat (map g (seq 0 j))) = offsets flags n j.
Proof. intros H. induction j as [|j IH]; [reflexivity|]. rewrite offsets_S, seq_S, map_app, concat_app, app_length, IH. simpl. rewrite app_nil_r, H. lia. Qed.
Lemma split6 {A} (g : nat -> list A) j k : j < k -> concat (map g (seq 0 k)) = concat (map g (seq 0 j)) ++ g j ++ concat (map g (seq (S j) (k - S j))).
Proof. intros H. replace k with (j + S (k - S j)) at 1 by lia. rewrite seq_app, map_app, concat_app. reflexivity. Qed.
Lemma chosen_length {A} flags (cont : nat -> list A) : length (chosen flags cont) = offsets flags (fun j => length (cont j)) 6.
Proof. apply concat_prefix. intros i. now destruct (nth i flags false). Qed.
Lemma chosen_slice {A} flags (cont : nat -> list A) j : j < 6 -> nth j flags false = true -> firstn (length (cont j)) (skipn (offsets flags (fun j => length (cont j)) j) (chosen flags cont)) = cont j /\ offsets flags (fun j => length (cont j)) j + length (cont j) <= length (chosen flags cont).
Proof.
  intros Hj F. unfold chosen. set (g := fun j => if nth j flags false then cont j else []). assert (HL : forall i, length (g i) = if nth i flags false then length (cont i) else 0) by (intros i; unfold g; now destruct (nth i flags false)).
  rewrite (split6 g j 6 Hj). assert (E : g j = cont j) by (unfold g; now rewrite F). rewrite E. rewrite <- (concat_prefix g flags _ j HL). split; [now apply firstn_skipn_app | rewrite !app_length; lia].
Qed.

(** ** Filling the array *)
Lemma assign_mid (A S B : list cell) d n vals : length vals = n -> d + n <= length S -> assign (A ++ S ++ B) (length A + d) n vals = GOk (A ++ (firstn d S ++ map Some vals ++ skipn (d + n) S) ++ B).
Proof.
  intros L H. unfold assign. rewrite !app_length. replace (Nat.min (length A + d) (length A + (length S + length B))) with (length A + d) by lia. replace (Nat.min (length A + d + n) (length A + (length S + length B))) with (length A + (d + n)) by lia.
  replace (length A + (d + n) - (length A + d)) with n by lia. rewrite L, Nat.eqb_refl. f_equal. rewrite firstn_app_2, skipn_app, skipn_all2 by lia. replace (length A + (d + n) - length A) with (d + n) by lia. simpl.
  rewrite firstn_app, skipn_app. replace (d - length S) with 0 by lia. replace (d + n - length S) with 0 by lia. simpl. rewrite app_nil_r. now rewrite <- !app_assoc.
Qed.
Definition whole (seg : nat -> list cell) : list cell := concat (map seg (seq 0 6)).
Definition upd (seg : nat -> list cell) (j : nat) (s : list cell) : nat -> list cell := fun i => if Nat.eqb i j then s else seg i.
Definition lens (seg : nat -> list cell) (j : nat) : nat := length (concat (map seg (seq 0 j))).
Lemma whole_upd seg j s : j < 6 -> whole (upd seg j s) = concat (map seg (seq 0 j)) ++ s ++ concat (map seg (seq (S j) (6 - S j))).
Proof.
  intros Hj. unfold whole. rewrite (split6 _ j 6 Hj). unfold upd at 2. rewrite Nat.eqb_refl. f_equal; [|f_equal]; f_equal; apply map_ext_in; intros i Hi; apply in_seq in Hi; unfold upd; destruct (Nat.eqb_spec i j); trivial; lia.
Qed.
Lemma lens_upd seg j s i : length s = length (seg j) -> lens (upd seg j s) i = lens seg i.
Proof.
  intros H. unfold lens. induction i as [|i IH]; [reflexivity|]. rewrite !seq_S, !map_app, !concat_app, !app_length, IH. f_equal. simpl. rewrite !app_nil_r. unfold upd. destruct (Nat.eqb_spec i j) as [->|]; [exact H | reflexivity].
Qed.
Lemma assign_seg seg j d n vals : j < 6 -> length vals = n -> d + n <= length (seg j) ->
  assign (whole seg) (lens seg j + d) n vals = GOk (whole (upd seg j (firstn d (seg j) ++ map Some vals ++ skipn (d + n) (seg j)))).
Proof. intros Hj L H. rewrite whole_upd by exact Hj. unfold whole, lens. rewrite (split6 seg j 6 Hj). now apply assign_mid. Qed.
Lemma seg_upd_length (s : list cell) d n vals : length vals = n -> d + n <= length s -> length (firstn d s ++ map Some vals ++ skipn (d + n) s) = length s.
Proof. intros L H. rewrite !app_length, map_length, firstn_length, skipn_length. lia. Qed.
(** [vals j]: what the pass over one file stores for species j. *)
Lemma fill_spec actual mass massarr parttype npart conv curdat cur_off (vals : nat -> list item) (d : nat -> nat) : forall js seg off, NoDup js -> Forall (fun j => j < 6) js ->
  (forall j, In j js -> nth j actual false = true -> length (vals j) = num npart j /\ d j + num npart j <= length (seg j) /\ off j = lens seg j + d j /\
     vals j = if mass && fpos (nth j massarr 0%Z) then repeat [nth j massarr 0%Z] (num npart j) else if (0 <=? parttype)%Z then map conv curdat else map conv (firstn (num npart j) (skipn (cur_off j) curdat))) ->
  exists seg' off', fill js actual mass massarr parttype npart conv curdat cur_off (whole seg) off = GOk (whole seg', off') /\
    (forall j, seg' j = if existsb (Nat.eqb j) js && nth j actual false then firstn (d j) (seg j) ++ map Some (vals j) ++ skipn (d j + num npart j) (seg j) else seg j) /\
    (forall j, off' j = if existsb (Nat.eqb j) js && nth j actual false then off j + num npart j else off j).
Proof.
  induction js as [|j js IH]; intros seg off HN HF H.
  - exists seg, off. split; [reflexivity|]. split; intros j; reflexivity.
  - inversion HN as [|? ? Hnj HN']; subst. inversion HF as [|? ? Hj HF']; subst. cbn [fill]. assert (NI : existsb (Nat.eqb j) js = false).
    { destruct (existsb (Nat.eqb j) js) eqn:E; [|reflexivity]. apply existsb_exists in E. destruct E as (i & Hi & Ei). apply Nat.eqb_eq in Ei. subst i. contradiction. }
    destruct (nth j actual false) eqn:EA.
    + destruct (H j (or_introl eq_refl) EA) as (L & HD & HO & HV). set (s := firstn (d j) (seg j) ++ map Some (vals j) ++ skipn (d j + num npart j) (seg j)).
      assert (EAs : (if mass && fpos (nth j massarr 0%Z) then assign (whole seg) (off j) (num npart j) (repeat [nth j massarr 0%Z] (Nat.min (off j + num npart j) (length (whole seg)) - Nat.min (off j) (length (whole seg))))
               else if (0 <=? parttype)%Z then assign (whole seg) (off j) (num npart j) (map conv curdat) else assign (whole seg) (off j) (num npart j) (map conv (firstn (num npart j) (skipn (cur_off j) curdat)))) = GOk (whole (upd seg j s))).
      { unfold s. rewrite <- (assign_seg seg j (d j) (num npart j) (vals j) Hj L HD), <- HO, HV. destruct (mass && fpos (nth j massarr 0%Z)); [|destruct (0 <=? parttype)%Z; reflexivity]. f_equal. f_equal.
        unfold whole. rewrite (split6 seg j 6 Hj), !app_length. rewrite HO. unfold lens. lia. }
      cbv zeta. rewrite EAs. cbn [gbind]. assert (Ls : length s = length (seg j)) by now apply seg_upd_length.
      destruct (IH (upd seg j s) (fun i => if Nat.eqb i j then off i + num npart j else off i) HN' HF') as (seg' & off' & E & E1 & E2).
      { intros i Hi Ai. destruct (H i (or_intror Hi) Ai) as (L' & HD' & HO' & HV'). assert (Hne : i <> j) by (intros ->; contradiction). unfold upd at 1. destruct (Nat.eqb_spec i j); [contradiction|]. rewrite lens_upd by exact Ls. repeat split; assumption. }
      exists seg', off'. split; [exact E|]. split; intros i; [rewrite E1 | rewrite E2]; cbn [existsb]; unfold upd; destruct (Nat.eqb_spec i j) as [->|Hne]; cbn [orb]; trivial; rewrite NI, EA; reflexivity.
    + destruct (IH seg off HN' HF') as (seg' & off' & E & E1 & E2); [intros i Hi; apply H; now right|]. exists seg', off'. split; [exact E|].
      split; intros i; [rewrite E1 | rewrite E2]; cbn [existsb]; destruct (Nat.eqb_spec i j) as [->|Hne]; cbn [orb]; trivial; rewrite NI, EA; reflexivity.
Qed.

(** ** Snapshots *)
(** A file: header, the records between it and the block, the entries of the block by species, what follows. *)
Record gfile := mkFile { g_head : head; g_before : list (list Z); g_cont : nat -> list item; g_rest : list Z }.
Definition payload (o : order) (dt : dtype) (flags : list bool) (g : gfile) : list Z := items_bytes o dt (chosen flags (g_cont g)).
Definition file_bytes (o : order) (dt : dtype) (flags : list bool) (g : gfile) : list Z :=
  frecords o (head_bytes o (g_head g) :: g_before g ++ [payload o dt flags g]) ++ g_rest g.
Definition file_ok (o : order) (dt : dtype) (flags : list bool) (number : Z) (g : gfile) : Prop :=
  head_ok (g_head g) /\ Forall fits (g_before g) /\ fits (payload o dt flags g) /\ Z.of_nat (length (g_before g) + 2) = number /\
  (forall j, j < 6 -> nth j (npart (g_head g)) 0%Z = Z.of_nat (length (g_cont g j))) /\ (forall j, Forall (item_ok dt) (g_cont g j)).
Lemma file_header o dt flags number g : file_ok o dt flags number g -> parse_header (file_bytes o dt flags g) = GOk (as_read 1 o (g_head g)).
Proof.
  intros (H & _). unfold file_bytes. change (frecords o (head_bytes o (g_head g) :: g_before g ++ [payload o dt flags g])) with (start1 o (g_head g) ++ frecords o (g_before g ++ [payload o dt flags g])). rewrite <- app_assoc. now apply C58.
Qed.
Lemma file_block o dt flags number g block : file_ok o dt flags number g -> exists pre post,
  find_block (file_bytes o dt flags g) 1 (is_be o) block number = GOk (length pre, Z.of_nat (length (payload o dt flags g))) /\ file_bytes o dt flags g = pre ++ payload o dt flags g ++ post.
Proof.
  intros (H & HB & HP & <- & _). set (ps := head_bytes o (g_head g) :: g_before g). set (p := payload o dt flags g).
  assert (HF : Forall fits (ps ++ [p])).
  { apply Forall_app. split; [constructor; [unfold fits; rewrite head_bytes_length by exact H; reflexivity | exact HB] | now constructor]. }
  destruct (C56_found o block ps p (g_rest g) HF) as (off & E & Eo & _). exists (frecords o ps ++ marker o p), (marker o p ++ g_rest g).
  replace (Z.of_nat (length (g_before g) + 2)) with (Z.of_nat (length ps) + 1)%Z by (unfold ps; simpl length; lia).
  split; [|unfold file_bytes; change (head_bytes o (g_head g) :: g_before g ++ [payload o dt flags g]) with (ps ++ [p]); rewrite frecords_snoc; unfold frecord; now rewrite <- !app_assoc].
  unfold file_bytes. change (head_bytes o (g_head g) :: g_before g ++ [payload o dt flags g]) with (ps ++ [p]). rewrite E, Eo, app_length, marker_length. reflexivity.
Qed.
Lemma num_cont o dt flags number g j : file_ok o dt flags number g -> j < 6 -> num (npart (g_head g)) j = length (g_cont g j).
Proof. intros (_ & _ & _ & _ & H & _) Hj. unfold num. now rewrite (H j Hj), Nat2Z.id. Qed.
Lemma offsets_ext flags n m j : (forall i, i < j -> n i = m i) -> offsets flags n j = offsets flags m j.
Proof. induction j as [|j IH]; intros H; [reflexivity|]. rewrite !offsets_S. rewrite IH by (intros; apply H; lia). now rewrite H by lia. Qed.

(** What ends up in the array for species j of a file: the entries in the file, or the mass of the header. *)
Definition val (mass : bool) (massarr : list Z) (dt0 dt : dtype) (g : gfile) (j : nat) : list item :=
  if mass && fpos (nth j massarr 0%Z) then repeat [nth j massarr 0%Z] (length (g_cont g j)) else map (store dt0 dt) (g_cont g j).
Lemma val_length mass massarr dt0 dt g j : length (val mass massarr dt0 dt g j) = length (g_cont g j).
Proof. unfold val. destruct (mass && _); [apply repeat_length | apply map_length]. Qed.
Section Reading.
  Variables (fs : string -> option (list Z)) (o : order) (block : string) (number parttype : Z) (flags actual : list bool) (massarr : list Z) (dt0 dtf : dtype).
  Let mass := String.eqb block "MASS".
  (** Which species are wanted, and where they come from. *)
  Definition wanted_ok : Prop :=
    ((0 <= parttype <= 5)%Z /\ actual = only [Z.to_nat parttype] /\ nth (Z.to_nat parttype) flags false = true /\ mass && fpos (nth (Z.to_nat parttype) massarr 0%Z) = false) \/
    ((parttype < 0)%Z /\ forall j, j < 6 -> nth j actual false = true -> mass && fpos (nth j massarr 0%Z) = true \/ nth j flags false = true).
  Lemma only_one p j : p < 6 -> nth j (only [p]) false = Nat.eqb j p.
  Proof.
    intros Hp. unfold only. destruct (le_lt_dec 6 j) as [L|L].
    - rewrite nth_overflow by (rewrite map_length, seq_length; lia). symmetry. apply Nat.eqb_neq. lia.
    - do 6 (destruct j as [|j]; [do 6 (destruct p as [|p]; [reflexivity|]); lia|]). lia.
  Qed.
  (** One pass of the loop over files. *)
  Lemma pass (single : bool) filename filenum k ks curfilename np dt g (seg : nat -> list cell) off (d : nat -> nat) : wanted_ok -> file_ok o dtf flags number g ->
    let cur := if negb single && (1 <? filenum)%Z then (filename ++ "." ++ str_of_nat k)%string else curfilename in
    fs cur = Some (file_bytes o dtf flags g) -> (k = 0 -> np = npart (g_head g)) ->
    (if Nat.eqb k 0 && String.eqb block "ID  " && (Z.of_nat (length (payload o dtf flags g)) =? Z.of_nat (itemsize dt * offsets flags (fun j => length (g_cont g j)) 6 * 2))%Z then u64 else dt) = dtf ->
    (forall j, j < 6 -> nth j actual false = true -> d j + length (g_cont g j) <= length (seg j) /\ off j = lens seg j + d j) ->
    exists seg' off',
      files fs (k :: ks) filename single filenum 1 (is_be o) block number parttype flags actual massarr dt0 curfilename np dt (whole seg) off =
        (if single then GOk (whole seg') else files fs ks filename single filenum 1 (is_be o) block number parttype flags actual massarr dt0 cur (npart (g_head g)) dtf (whole seg') off') /\
      (forall j, j < 6 -> seg' j = if nth j actual false then firstn (d j) (seg j) ++ map Some (val mass massarr dt0 dtf g j) ++ skipn (d j + length (g_cont g j)) (seg j) else seg j) /\
      (forall j, j < 6 -> off' j = if nth j actual false then off j + length (g_cont g j) else off j).
  Proof.
    intros HW HG cur Hfs Hnp Hdt HS. cbn [files]. fold cur.
    assert (ENP : (if Nat.ltb 0 k then gbind (snapshot_header fs cur) (fun h => GOk (h_npart h)) else GOk np) = GOk (npart (g_head g))).
    { destruct k as [|k]; [simpl; now rewrite Hnp|]. simpl. unfold snapshot_header. rewrite Hfs, (file_header _ _ _ _ _ HG). reflexivity. }
    rewrite ENP. cbn [gbind]. cbv zeta.
    assert (ECO : forall j, j <= 6 -> offsets flags (num (npart (g_head g))) j = offsets flags (fun j => length (g_cont g j)) j) by (intros j Hj; apply offsets_ext; intros i Hi; apply (num_cont _ _ _ _ _ _ HG); lia).
    unfold find_block_in. rewrite Hfs. destruct (file_block o dtf flags number g block HG) as (pre & post & EF & EB). rewrite EF. cbn [gbind]. rewrite ECO by lia. rewrite Hdt.
    assert (LP : length (payload o dtf flags g) = itemsize dtf * offsets flags (fun j => length (g_cont g j)) 6).
    { unfold payload. rewrite items_bytes_length, chosen_length; [lia|]. unfold chosen. apply Forall_concat. apply Forall_forall. intros l Hl. apply in_map_iff in Hl. destruct Hl as (j & <- & _). destruct (nth j flags false); [apply HG | constructor]. }
    rewrite LP, Z.eqb_refl. cbn [negb].
    assert (HAll : Forall (item_ok dtf) (chosen flags (g_cont g))).
    { unfold chosen. apply Forall_concat. apply Forall_forall. intros l Hl. apply in_map_iff in Hl. destruct Hl as (j & <- & _). destruct (nth j flags false); [apply HG | constructor]. }
    set (curdat := items_at _ _ _ _ _).
    assert (HV : forall j, j < 6 -> nth j actual false = true -> val mass massarr dt0 dtf g j = (if mass && fpos (nth j massarr 0%Z) then repeat [nth j massarr 0%Z] (num (npart (g_head g)) j)
       else if (0 <=? parttype)%Z then map (store dt0 dtf) curdat else map (store dt0 dtf) (firstn (num (npart (g_head g)) j) (skipn (offsets flags (num (npart (g_head g))) j) curdat)))).
    { intros j Hj Hact. unfold val. rewrite (num_cont _ _ _ _ _ j HG Hj). destruct HW as [(HP & EA & EFl & EM)|(HP & HQ)].
      - assert (Ej : j = Z.to_nat parttype) by (rewrite EA, only_one in Hact by lia; now apply Nat.eqb_eq). rewrite <- Ej in *. rewrite EM. destruct (Z.leb_spec 0 parttype); [|lia]. f_equal. unfold curdat. destruct (Z.leb_spec 0 parttype); [|lia].
        rewrite <- Ej. rewrite (ECO j) by lia. rewrite (num_cont _ _ _ _ _ j HG Hj). destruct (chosen_slice flags (g_cont g) j Hj EFl) as [CS1 CS2]. rewrite (items_sub o dtf (chosen flags (g_cont g)) _ pre post _ _ HAll EB CS2). now rewrite CS1.
      - destruct (mass && fpos (nth j massarr 0%Z)) eqn:EM; [reflexivity|]. destruct (HQ j Hj Hact) as [HQ'|HQ']; [congruence|]. destruct (Z.leb_spec 0 parttype); [lia|]. f_equal. unfold curdat. destruct (Z.leb_spec 0 parttype); [lia|].
        assert (LC : 0 + offsets flags (fun j => length (g_cont g j)) 6 <= length (chosen flags (g_cont g))) by (rewrite chosen_length; lia).
        rewrite (items_sub o dtf (chosen flags (g_cont g)) _ pre post _ _ HAll EB LC). cbn [skipn]. rewrite <- chosen_length, firstn_all. rewrite (ECO j) by lia. symmetry. now apply chosen_slice. }
    destruct (fill_spec actual mass massarr parttype (npart (g_head g)) (store dt0 dtf) curdat (offsets flags (num (npart (g_head g)))) (val mass massarr dt0 dtf g) d (seq 0 6) seg off (seq_NoDup 6 0)) as (seg' & off' & E & E1 & E2).
    { apply Forall_forall. intros j Hj. apply in_seq in Hj. lia. }
    { intros j Hj Hact. apply in_seq in Hj. assert (Hj6 : j < 6) by lia. destruct (HS j Hj6 Hact) as [S1 S2]. rewrite (num_cont _ _ _ _ _ j HG Hj6). rewrite val_length. split; [reflexivity|]. split; [exact S1|]. split; [exact S2|]. rewrite <- (num_cont _ _ _ _ _ j HG Hj6). now apply HV. }
    exists seg', off'. fold mass. rewrite E. cbn [gbind]. split; [reflexivity|].
    assert (EX : forall j, j < 6 -> existsb (Nat.eqb j) (seq 0 6) = true) by (intros j Hj; apply existsb_exists; exists j; split; [apply in_seq; lia | apply Nat.eqb_refl]).
    split; intros j Hj; [rewrite E1 | rewrite E2]; rewrite EX by exact Hj; cbn [andb]; now rewrite (num_cont _ _ _ _ _ j HG Hj).
  Qed.
  Definition vals (gs : list gfile) (j : nat) : list item := concat (map (fun g => val mass massarr dt0 dtf g j) gs).
  Definition remaining (gs : list gfile) (j : nat) : nat := fold_right (fun g s => length (g_cont g j) + s) 0 gs.
  Definition state (done : nat -> list item) (gs : list gfile) (j : nat) : list cell := if nth j actual false then map Some (done j) ++ repeat None (remaining gs j) else [].
  Lemma whole_ext s1 s2 : (forall j, j < 6 -> s1 j = s2 j) -> whole s1 = whole s2.
  Proof. intros H. unfold whole. f_equal. apply map_ext_in. intros j Hj. apply in_seq in Hj. apply H. lia. Qed.
  Lemma lens_ext s1 s2 j : j <= 6 -> (forall j, j < 6 -> s1 j = s2 j) -> lens s1 j = lens s2 j.
  Proof. intros Hj H. unfold lens. f_equal. f_equal. apply map_ext_in. intros i Hi. apply in_seq in Hi. apply H. lia. Qed.
  (** The state after a file. *)
  Lemma state_step done g gs seg' : (forall j, j < 6 -> seg' j = if nth j actual false then firstn (length (done j)) (state done (g :: gs) j) ++ map Some (val mass massarr dt0 dtf g j) ++ skipn (length (done j) + length (g_cont g j)) (state done (g :: gs) j) else state done (g :: gs) j) ->
    forall j, j < 6 -> seg' j = state (fun j => done j ++ val mass massarr dt0 dtf g j) gs j.
  Proof.
    intros H j Hj. rewrite (H j Hj). unfold state. destruct (nth j actual false); [|reflexivity]. rewrite firstn_app, map_length, Nat.sub_diag. rewrite <- (map_length Some (done j)), firstn_all. cbn [firstn]. rewrite app_nil_r, map_app, <- !app_assoc. f_equal. f_equal.
    rewrite skipn_app, skipn_all2 by lia. cbn [app]. rewrite map_length. replace (length (done j) + length (g_cont g j) - length (done j)) with (length (g_cont g j)) by lia. cbn [remaining fold_right]. rewrite repeat_app.
    rewrite skipn_app, repeat_length, Nat.sub_diag, skipn_all2 by (rewrite repeat_length; lia). reflexivity.
  Qed.
  Lemma state_length done g gs j : nth j actual false = true -> length (state done (g :: gs) j) = length (done j) + (length (g_cont g j) + remaining gs j).
  Proof. intros H. unfold state. rewrite H, app_length, map_length, repeat_length. reflexivity. Qed.
  (** The files after the first. *)
  Lemma later_files filename filenum : wanted_ok -> (1 < filenum)%Z -> forall gs k done off curfilename np, 0 < k -> Forall (file_ok o dtf flags number) gs ->
    (forall t g, nth_error gs t = Some g -> fs (filename ++ "." ++ str_of_nat (k + t))%string = Some (file_bytes o dtf flags g)) ->
    (forall j, j < 6 -> nth j actual false = true -> off j = lens (state done gs) j + length (done j)) ->
    files fs (seq k (length gs)) filename false filenum 1 (is_be o) block number parttype flags actual massarr dt0 curfilename np dtf (whole (state done gs)) off =
      GOk (whole (fun j => if nth j actual false then map Some (done j ++ vals gs j) else [])).
  Proof.
    intros HW HF. induction gs as [|g gs IH]; intros k done off curfilename np Hk HG Hfs Hoff.
    - cbn [length seq files]. f_equal. apply whole_ext. intros j _. unfold state, vals. simpl. now rewrite !app_nil_r.
    - inversion HG as [|? ? HG1 HG2]; subst. cbn [length seq].
      destruct (pass false filename filenum k (seq (S k) (length gs)) curfilename np dtf g (state done (g :: gs)) off (fun j => length (done j)) HW HG1) as (seg' & off' & E & E1 & E2).
      + cbn [negb andb]. destruct (Z.ltb_spec 1 filenum); [|lia]. specialize (Hfs 0 g eq_refl). now rewrite Nat.add_0_r in Hfs.
      + lia.
      + destruct k; [lia | reflexivity].
      + intros j Hj Ha. rewrite state_length by exact Ha. split; [lia | now apply Hoff].
      + rewrite E. pose proof (state_step done g gs seg' E1) as E1'. rewrite (whole_ext _ _ E1').
        rewrite (IH (S k) (fun j => done j ++ val mass massarr dt0 dtf g j) off'); [|lia | exact HG2 | intros t g' Ht; specialize (Hfs (S t) g' Ht); now rewrite Nat.add_succ_r in Hfs |].
        * f_equal. apply whole_ext. intros j _. unfold vals. cbn [map concat]. now rewrite app_assoc.
        * intros j Hj Ha. rewrite E2, Ha by exact Hj. rewrite (Hoff j Hj Ha). rewrite app_length, val_length. rewrite <- (lens_ext seg' _ j ltac:(lia) E1'). replace (lens seg' j) with (lens (state done (g :: gs)) j); [lia|].
          unfold lens. assert (G : forall m, m <= 6 -> length (concat (map (state done (g :: gs)) (seq 0 m))) = length (concat (map seg' (seq 0 m)))); [|apply G; lia]. clear - E1'. induction m as [|m IHm]; intros Hm; [reflexivity|].
          rewrite !seq_S, !map_app, !concat_app, !app_length, IHm by lia. f_equal. cbn [map concat]. rewrite !app_nil_r. rewrite E1' by lia. unfold state. cbn [Nat.add]. destruct (nth m actual false); [|reflexivity].
          rewrite !app_length, !map_length, !repeat_length, app_length, val_length. unfold remaining. cbn [fold_right]. lia.
  Qed.
End Reading.

(** ** C60: the block of a snapshot, assembled by species *)
(** The species wanted. *)
Definition species (block : string) (flags : list bool) (parttype : Z) : list nat :=
  if (0 <=? parttype)%Z then [Z.to_nat parttype] else filter (fun j => String.eqb block "MASS" || nth j flags false) (seq 0 6).
(** Where the files are: in one file, or in numbered files of which the first tells how many there are and the totals. *)
Definition stored (fs : string -> option (list Z)) (bytes : gfile -> list Z) (filename : string) (gs : list gfile) : Prop :=
  match gs with
  | [] => False
  | g :: rest =>
    (rest = [] /\ fs filename = Some (bytes g) /\ (1 <= filenum (g_head g))%Z) \/
    (fs filename = None /\ filenum (g_head g) = Z.of_nat (length gs) /\ (forall t g, nth_error gs t = Some g -> fs (filename ++ "." ++ str_of_nat t)%string = Some (bytes g)) /\
     forall j, j < 6 -> nth j (nall (g_head g)) 0%Z = Z.of_nat (list_sum (map (fun g => length (g_cont g j)) gs)))
  end.
Lemma remaining_sum gs j : remaining gs j = list_sum (map (fun g => length (g_cont g j)) gs).
Proof. induction gs as [|g gs IH]; [reflexivity|]. cbn [map]. cbn. unfold remaining in IH. now rewrite IH. Qed.
Lemma lens_state actual n seg j : (forall i, i < j -> length (seg i) = if nth i actual false then n i else 0) -> lens seg j = offsets actual n j.
Proof.
  unfold lens. induction j as [|j IH]; intros H; [reflexivity|]. rewrite seq_S, map_app, concat_app, app_length, IH by (intros i Hi; apply H; lia). rewrite offsets_S. cbn [map concat]. rewrite app_nil_r. f_equal. apply (H j). lia.
Qed.
Lemma whole_none actual n : repeat None (offsets actual n 6) = whole (fun j => if nth j actual false then repeat None (n j) else []).
Proof.
  unfold whole. assert (G : forall k, repeat (@None item) (offsets actual n k) = concat (map (fun j => if nth j actual false then repeat None (n j) else []) (seq 0 k))); [|apply G].
  induction k as [|k IH]; [reflexivity|]. rewrite offsets_S, repeat_app, IH, seq_S, map_app, concat_app. cbn [map concat]. rewrite app_nil_r. f_equal. cbn [Nat.add]. now destruct (nth k actual false).
Qed.
Lemma whole_filter actual (f : nat -> list item) : whole (fun j => if nth j actual false then map Some (f j) else []) = map Some (concat (map f (filter (fun j => nth j actual false) (seq 0 6)))).
Proof.
  unfold whole. generalize (seq 0 6). intros l. induction l as [|j l IH]; [reflexivity|]. cbn [map concat filter]. rewrite IH. destruct (nth j actual false); [|reflexivity]. cbn [map concat]. now rewrite map_app.
Qed.
Section Whole.
  Variables (fs : string -> option (list Z)) (sqrt_mul : Z -> Z -> Z) (o : order) (block : string) (parttype blockadd blocksub number : Z) (flags : list bool) (dt0 dtf : dtype).
  (** The scaling of velocities by the square root of the scale factor. *)
  Definition scaled (h : head) (x : item) : item := if String.eqb block "VEL " && negb (fzero (redshift h)) then map (sqrt_mul (time h)) x else x.
  Lemma scaled_map h xs : (if String.eqb block "VEL " && negb (fzero (redshift h)) then map (option_map (map (sqrt_mul (time h)))) (map Some xs) else map Some xs) = map (fun x => Some (scaled h x)) xs.
  Proof. unfold scaled. destruct (_ && _); [|reflexivity]. rewrite map_map. reflexivity. Qed.
  Theorem C60_partial filename g0 gs : describe block (massarr (g_head g0)) blockadd blocksub = Some (flags, dt0, number) ->
    (-1 <= parttype <= 5)%Z -> ((0 <= parttype)%Z -> block = "MASS"%string \/ nth (Z.to_nat parttype) flags false = true) ->
    (forall j, j < 6 -> fzero (nth j (massarr (g_head g0)) 0%Z) = negb (fpos (nth j (massarr (g_head g0)) 0%Z))) ->
    Forall (file_ok o dtf flags number) (g0 :: gs) -> stored fs (file_bytes o dtf flags) filename (g0 :: gs) ->
    dtf = dt0 /\ (block = "ID  "%string -> exists j, j < 6 /\ g_cont g0 j <> []) \/ dtf = u64 /\ block = "ID  "%string ->
    read_block fs sqrt_mul filename block parttype blockadd blocksub =
      GOk (map (fun x => Some (scaled (g_head g0) x)) (concat (map (fun j => concat (map (fun g => val (String.eqb block "MASS") (massarr (g_head g0)) dt0 dtf g j) (g0 :: gs))) (species block flags parttype)))).
  Proof.
    intros HD HP HPf' HM HG HS HT. inversion HG as [|? ? HG0 HGs]; subst.
    assert (HPf : (0 <= parttype)%Z -> String.eqb block "MASS" && fpos (nth (Z.to_nat parttype) (massarr (g_head g0)) 0%Z) = false -> nth (Z.to_nat parttype) flags false = true).
    { intros L EM. destruct (HPf' L) as [->|E]; [|exact E]. change (Some (map fzero (massarr (g_head g0)), f64, 5%Z) = Some (flags, dt0, number)) in HD. injection HD as <- _ _. change (fpos (nth (Z.to_nat parttype) (massarr (g_head g0)) 0%Z) = false) in EM.
      rewrite (nth_indep _ false (fzero 0%Z)) by (rewrite map_length; destruct HG0 as ((_ & HL & _) & _); lia). rewrite map_nth, HM, EM by lia. reflexivity. }
    set (actual := if (0 <=? parttype)%Z then only [Z.to_nat parttype] else if String.eqb block "MASS" then everything else flags).
    assert (EW : forall f : nat -> list item, whole (fun j => if nth j actual false then map Some (f j) else []) = map Some (concat (map f (species block flags parttype)))).
    { intros f. rewrite whole_filter. f_equal. f_equal. f_equal. unfold species, actual. destruct (Z.leb_spec 0 parttype).
      - assert (Hp : Z.to_nat parttype < 6) by lia. revert Hp. generalize (Z.to_nat parttype) as p. clear. intros p Hp. do 6 (destruct p as [|p]; [reflexivity|]). lia.
      - destruct (String.eqb block "MASS"); [reflexivity|]. reflexivity. }
    assert (HW : wanted_ok block parttype flags actual (massarr (g_head g0)) \/ String.eqb block "MASS" && (0 <=? parttype)%Z && fpos (nth (Z.to_nat parttype) (massarr (g_head g0)) 0%Z) = true).
    { unfold wanted_ok, actual. destruct (Z.leb_spec 0 parttype) as [L|L].
      - destruct (String.eqb block "MASS" && fpos (nth (Z.to_nat parttype) (massarr (g_head g0)) 0%Z)) eqn:EM; [right; now rewrite andb_true_r|]. left. left. split; [lia|]. split; [reflexivity|]. split; [now apply HPf | reflexivity].
      - left. right. split; [exact L|]. intros j Hj Ha. destruct (String.eqb_spec block "MASS") as [->|]; [|right; exact Ha]. cbn [andb]. cbn in HD. injection HD as <- _ _. destruct (fpos (nth j (massarr (g_head g0)) 0%Z)) eqn:EP; [now left|]. right.
        rewrite (nth_indep _ false (fzero 0%Z)) by (rewrite map_length; destruct HG0 as ((_ & HL & _) & _); lia). rewrite map_nth, (HM j Hj), EP. reflexivity. }
    unfold read_block. destruct (Z.leb_spec (-1) parttype); [|lia]. destruct (Z.leb_spec parttype 5); [|lia]. cbn [andb negb].
    assert (HDT : (if Nat.eqb 0 0 && String.eqb block "ID  " && (Z.of_nat (length (payload o dtf flags g0)) =? Z.of_nat (itemsize dt0 * offsets flags (fun j => length (g_cont g0 j)) 6 * 2))%Z then u64 else dt0) = dtf).
    { assert (LP : length (payload o dtf flags g0) = itemsize dtf * offsets flags (fun j => length (g_cont g0 j)) 6).
      { unfold payload. rewrite items_bytes_length, chosen_length; [lia|]. unfold chosen. apply Forall_concat. apply Forall_forall. intros l Hl. apply in_map_iff in Hl. destruct Hl as (j & <- & _). destruct (nth j flags false); [apply HG0 | constructor]. }
      rewrite LP. cbn [Nat.eqb andb]. destruct (String.eqb_spec block "ID  ") as [->|NB]; cbn [andb].
      - change (Some (everything, u32, 4%Z) = Some (flags, dt0, number)) in HD. injection HD as <- <- <-. destruct HT as [[-> HN]|[-> _]].
        + destruct (HN eq_refl) as (j & Hj & NE). change (itemsize u32) with 4. destruct (Z.eqb_spec (Z.of_nat (4 * offsets everything (fun j => length (g_cont g0 j)) 6)) (Z.of_nat (4 * offsets everything (fun j => length (g_cont g0 j)) 6 * 2))) as [Eq|]; [exfalso|reflexivity].
          assert (Z0 : offsets everything (fun j => length (g_cont g0 j)) 6 = 0) by lia. rewrite <- chosen_length in Z0. assert (EJ : nth j everything false = true) by (do 6 (destruct j as [|j]; [reflexivity|]); lia).
          destruct (chosen_slice everything (g_cont g0) j Hj EJ) as [_ L]. apply NE. apply length_zero_iff_nil. lia.
        + change (itemsize u32) with 4. change (itemsize u64) with 8. rewrite (proj2 (Z.eqb_eq _ _)) by lia. reflexivity.
      - destruct HT as [[-> _]|[_ E]]; [reflexivity | contradiction]. }
    destruct HS as [(-> & Hfs & HN)|(Hfs & HN & Hfiles & Hall)].
    - (* one file *)
      rewrite Hfs. unfold snapshot_header at 1. rewrite Hfs, (file_header _ _ _ _ _ HG0). cbn [gbind]. cbn [h_massarr as_read h_npart h_filenum h_format h_swap h_redshift h_time]. rewrite HD.
      destruct HW as [HW|EM].
      + assert (ENM : String.eqb block "MASS" && (0 <=? parttype)%Z && fpos (nth (Z.to_nat parttype) (massarr (g_head g0)) 0%Z) = false).
        { destruct HW as [(? & _ & _ & EM)|(L & _)]; [|destruct (Z.leb_spec 0 parttype); [lia|]; now rewrite andb_false_r]. destruct (Z.leb_spec 0 parttype); [|lia]. now rewrite andb_true_r. }
        rewrite ENM. assert (ENF : (0 <=? parttype)%Z && negb (nth (Z.to_nat parttype) flags false) = false) by (destruct (Z.leb_spec 0 parttype) as [L|]; [rewrite andb_true_r in ENM; now rewrite (HPf L ENM) | reflexivity]). rewrite ENF. fold actual. cbv zeta.
        rewrite whole_none. destruct (Z.to_nat (filenum (g_head g0))) as [|F] eqn:EF; [lia|]. cbn [seq].
        destruct (pass fs o block number parttype flags actual (massarr (g_head g0)) dt0 dtf true filename (filenum (g_head g0)) 0 (seq 1 F) filename (npart (g_head g0)) dt0 g0
          (fun j => if nth j actual false then repeat None (num (npart (g_head g0)) j) else []) (offsets actual (num (npart (g_head g0)))) (fun _ => 0) HW HG0) as (seg' & off' & E & E1 & _); [exact Hfs | reflexivity | exact HDT | |].
        { intros j Hj Ha. rewrite Ha, repeat_length, (num_cont _ _ _ _ _ j HG0 Hj). split; [lia|]. rewrite Nat.add_0_r. symmetry. apply lens_state. intros i _. destruct (nth i actual false); [apply repeat_length | reflexivity]. }
        rewrite E. cbn [gbind]. rewrite (whole_ext seg' (fun j => if nth j actual false then map Some (val (String.eqb block "MASS") (massarr (g_head g0)) dt0 dtf g0 j) else [])).
        * rewrite EW, scaled_map. cbn [map concat]. do 3 f_equal. apply map_ext. intros j. now rewrite app_nil_r.
        * intros j Hj. rewrite (E1 j Hj). destruct (nth j actual false); [|reflexivity]. cbn [firstn app Nat.add]. rewrite skipn_all2, app_nil_r by (rewrite repeat_length, (num_cont _ _ _ _ _ j HG0 Hj); lia). reflexivity.
      + rewrite EM. apply andb_prop in EM. destruct EM as [EM EM3]. apply andb_prop in EM. destruct EM as [EM1 EM2]. unfold species. rewrite EM2. cbn [map concat]. unfold val. rewrite EM1, EM3. cbn [andb]. rewrite !app_nil_r. unfold scaled. apply String.eqb_eq in EM1. rewrite EM1. cbn [String.eqb Ascii.eqb Bool.eqb andb].
        rewrite (num_cont _ _ _ _ _ _ HG0) by lia. generalize (length (g_cont g0 (Z.to_nat parttype))) as n. intros n. induction n as [|n IH]; [reflexivity|]. cbn [repeat map]. f_equal. injection IH as <-. reflexivity.
    - rewrite Hfs. assert (E0 := Hfiles 0 g0 eq_refl). change (filename ++ "." ++ str_of_nat 0)%string with (filename ++ ".0")%string in E0. rewrite E0. unfold snapshot_header at 1. rewrite E0, (file_header _ _ _ _ _ HG0). cbn [gbind]. cbn [h_massarr as_read h_nall h_npart h_filenum h_format h_swap h_redshift h_time]. rewrite HD.
      assert (HC : forall j, j < 6 -> num (nall (g_head g0)) j = remaining (g0 :: gs) j) by (intros j Hj; unfold num; rewrite (Hall j Hj), Nat2Z.id; symmetry; apply remaining_sum).
      destruct HW as [HW|EM].
      + assert (ENM : String.eqb block "MASS" && (0 <=? parttype)%Z && fpos (nth (Z.to_nat parttype) (massarr (g_head g0)) 0%Z) = false).
        { destruct HW as [(? & _ & _ & EM)|(L & _)]; [|destruct (Z.leb_spec 0 parttype); [lia|]; now rewrite andb_false_r]. destruct (Z.leb_spec 0 parttype); [|lia]. now rewrite andb_true_r. }
        rewrite ENM. assert (ENF : (0 <=? parttype)%Z && negb (nth (Z.to_nat parttype) flags false) = false) by (destruct (Z.leb_spec 0 parttype) as [L|]; [rewrite andb_true_r in ENM; now rewrite (HPf L ENM) | reflexivity]). rewrite ENF. fold actual. cbv zeta.
        rewrite (offsets_ext actual _ _ 6 HC), whole_none. rewrite HN, Nat2Z.id. cbn [length seq].
        set (st := fun j => if nth j actual false then repeat (@None item) (remaining (g0 :: gs) j) else []).
        assert (EST : forall j, j < 6 -> st j = state actual (fun _ => []) (g0 :: gs) j) by reflexivity.
        set (filenum' := Z.of_nat (S (length gs))).
        destruct (pass fs o block number parttype flags actual (massarr (g_head g0)) dt0 dtf false filename filenum' 0 (seq 1 (length gs)) (filename ++ ".0")%string (npart (g_head g0)) dt0 g0 st (offsets actual (num (nall (g_head g0)))) (fun _ => 0) HW HG0) as (seg' & off' & E & E1 & E2).
        { cbn [negb andb]. destruct (1 <? filenum')%Z; exact E0. }
        { reflexivity. }
        { exact HDT. }
        { intros j Hj Ha. unfold st at 1. rewrite Ha, repeat_length. cbn [remaining fold_right]. split; [lia|]. rewrite Nat.add_0_r. rewrite (offsets_ext actual _ (remaining (g0 :: gs)) j) by (intros i Hi; apply HC; lia). symmetry. apply lens_state. intros i _. unfold st. destruct (nth i actual false); [apply repeat_length | reflexivity]. }
        match goal with |- context [whole ?f] => change (whole f) with (whole st) end.
        rewrite E. pose proof (state_step block actual (massarr (g_head g0)) dt0 dtf (fun _ => []) g0 gs seg' E1) as E1'. rewrite (whole_ext _ _ E1').
        assert (Eoff : forall j, j < 6 -> nth j actual false = true -> off' j = lens (state actual (fun j => [] ++ val (String.eqb block "MASS") (massarr (g_head g0)) dt0 dtf g0 j) gs) j + length ([] ++ val (String.eqb block "MASS") (massarr (g_head g0)) dt0 dtf g0 j)).
        { intros j Hj Ha. rewrite E2, Ha by exact Hj. cbn [app]. rewrite val_length. f_equal. rewrite (offsets_ext actual _ (remaining (g0 :: gs)) j) by (intros i Hi; apply HC; lia). symmetry. apply lens_state. intros i _. unfold state. destruct (nth i actual false); [|reflexivity]. rewrite app_length, map_length, val_length, repeat_length. reflexivity. }
        assert (ER : files fs (seq 1 (length gs)) filename false filenum' 1 (is_be o) block number parttype flags actual (massarr (g_head g0)) dt0 (if negb false && (1 <? filenum')%Z then (filename ++ "." ++ str_of_nat 0)%string else (filename ++ ".0")%string) (npart (g_head g0)) dtf
           (whole (state actual (fun j => [] ++ val (String.eqb block "MASS") (massarr (g_head g0)) dt0 dtf g0 j) gs)) off' = GOk (whole (fun j => if nth j actual false then map Some (vals block (massarr (g_head g0)) dt0 dtf (g0 :: gs) j) else []))).
        { destruct gs as [|g1 gs'].
          - cbn [length seq files]. f_equal. apply whole_ext. intros j Hj. unfold state, vals. cbn [map concat remaining fold_right repeat app]. now rewrite !app_nil_r.
          - rewrite (later_files fs o block number parttype flags actual (massarr (g_head g0)) dt0 dtf filename filenum' HW ltac:(unfold filenum'; cbn [length]; lia) (g1 :: gs') 1 _ off' _ _ ltac:(lia) HGs ltac:(intros t g Ht; apply (Hfiles (S t) g Ht)) Eoff). reflexivity. }
        rewrite ER. cbn [gbind]. rewrite EW, scaled_map. reflexivity.
      + rewrite EM. apply andb_prop in EM. destruct EM as [EM EM3]. apply andb_prop in EM. destruct EM as [EM1 EM2]. unfold species. rewrite EM2. cbn [map concat]. rewrite app_nil_r. unfold val. rewrite EM1, EM3. cbn [andb]. rewrite HC by lia.
        assert (ES : forall x, scaled (g_head g0) x = x) by (intros x; unfold scaled; apply String.eqb_eq in EM1; rewrite EM1; reflexivity).
        change (repeat [nth (Z.to_nat parttype) (massarr (g_head g0)) 0%Z] (length (g_cont g0 (Z.to_nat parttype))) ++ concat (map (fun g => repeat [nth (Z.to_nat parttype) (massarr (g_head g0)) 0%Z] (length (g_cont g (Z.to_nat parttype)))) gs))
          with (concat (map (fun g => repeat [nth (Z.to_nat parttype) (massarr (g_head g0)) 0%Z] (length (g_cont g (Z.to_nat parttype)))) (g0 :: gs))).
        generalize (g0 :: gs). intros l. f_equal. induction l as [|g l IH]; [reflexivity|]. cbn [remaining fold_right map concat]. rewrite repeat_app, map_app. f_equal; [|exact IH].
        generalize (length (g_cont g (Z.to_nat parttype))) as n. clear - ES. induction n as [|n IH]; [reflexivity|]. cbn [repeat map]. rewrite ES. now f_equal.
  Qed.
End Whole.
Print Assumptions C60_partial.
(** Which record a block is in. The order of the records of a snapshot with cooling and star formation
    (the header is the first), the species each holds and the words per particle; [extra] are the four
    further records of moving-mesh codes, announced with blockadd = 4. *)
Local Open Scope string_scope.
Definition layout_ok (extra : list (string * list nat * nat)) (blockadd : Z) : Prop :=
  forall k name ts words,
    nth_error ([("POS ", seq 0 6, 3); ("VEL ", seq 0 6, 3); ("ID  ", seq 0 6, 1); ("MASS", seq 0 6, 1); ("U   ", [0], 1); ("RHO ", [0], 1)] ++ extra ++
      [("NE  ", [0], 1); ("NH  ", [0], 1); ("HSML", [0], 1); ("SFR ", [0], 1); ("AGE ", [4], 1); ("Z   ", [0; 4], 1); ("BHMA", [5], 1); ("BHMD", [5], 1)])%list k = Some (name, ts, words) ->
    forall massarr, exists flags dt, describe name massarr blockadd 0 = Some (flags, dt, Z.of_nat (k + 2)) /\ d_words dt = words /\
      (name <> "MASS" -> length flags = 6 /\ forall j, nth j flags false = true <-> In j ts) /\
      (name = "MASS" -> flags = map fzero massarr) /\ d_width dt = (if String.eqb name "ID  " then 4 else 8).
Theorem C60_layout : layout_ok [] 0 /\ layout_ok [("VOL ", [0], 1); ("CMCE", [0], 3); ("AREA", [0], 1); ("NFAC", [0], 1)] 4.
Proof.
  split; intros k name ts words; cbn [app];
  do 19 (destruct k as [|k]; [cbn [nth_error]; try discriminate; intros [= <- <- <-] massarr; eexists; eexists; (split; [reflexivity|]); (split; [reflexivity|]);
    (split; [first [solve [intros H; now contradiction H] |
        intros _; split; [reflexivity|]; intros j; do 6 (destruct j as [|j]; [cbn; split; intros H; (reflexivity || discriminate || tauto || lia)|]);
        cbn; destruct j; (split; [discriminate | lia])] | split; [intros H; try discriminate; reflexivity | reflexivity]])|]);
  cbn [nth_error]; destruct k; discriminate.
Qed.
Print Assumptions C60_layout.
Example C60_layout_ex : exists flags dt, describe "Z   " (repeat 0%Z 6) 4 0 = Some (flags, dt, 17%Z) /\ flags = [true; false; false; false; true; false].
Proof. eexists. eexists. split; reflexivity. Qed.
Local Close Scope string_scope.

(** A snapshot in two files with gas, dark matter and stars. *)
Definition ex_head (np na : list Z) (F : Z) : head := mkHead np (repeat 0%Z 6) 4607182418800017408 0 0 0 na 0 F 0 0 0 0 (repeat 0%Z 96).
Definition ex_cont (gas dm st : list item) (j : nat) : list item := match j with 0 => gas | 1 => dm | 4 => st | _ => [] end.
Definition ex_file (na : list Z) (F : Z) (gas dm st : list item) : gfile :=
  let n := length gas + length dm + length st in
  mkFile (ex_head [Z.of_nat (length gas); Z.of_nat (length dm); 0; 0; Z.of_nat (length st); 0]%Z na F) [repeat 1%Z (24 * n); repeat 2%Z (24 * n)] (ex_cont gas dm st) [9; 9]%Z.
Definition two (bytes : gfile -> list Z) (g0 g1 : gfile) (name : string) : option (list Z) :=
  if String.eqb name "snap.0" then Some (bytes g0) else if String.eqb name "snap.1" then Some (bytes g1) else None.
Definition one (bytes : gfile -> list Z) (g0 : gfile) (name : string) : option (list Z) := if String.eqb name "snap" then Some (bytes g0) else None.
Definition exA := ex_file [1; 3; 0; 0; 1; 0]%Z 2 [[11]]%Z [[21]; [22]]%Z [].
Definition exB := ex_file [1; 3; 0; 0; 1; 0]%Z 2 [] [[23]]%Z [[41]]%Z.
Lemma ex_cont_ok dt gas dm st j : Forall (item_ok dt) (gas ++ dm ++ st) -> Forall (item_ok dt) (ex_cont gas dm st j).
Proof. rewrite !Forall_app. intros (A & B & C). unfold ex_cont. do 5 (destruct j as [|j]; [first [assumption | constructor]|]). constructor. Qed.
Lemma ex_ok o dt na F gas dm st : Forall (item_ok dt) (gas ++ dm ++ st) -> head_ok (g_head (ex_file na F gas dm st)) -> Forall fits (g_before (ex_file na F gas dm st)) -> fits (payload o dt everything (ex_file na F gas dm st)) -> file_ok o dt everything 4 (ex_file na F gas dm st).
Proof.
  intros H1 H2 H3 H4. split; [exact H2|]. split; [exact H3|]. split; [exact H4|]. split; [reflexivity|]. split; [|intros j; now apply ex_cont_ok]. intros j Hj. do 6 (destruct j as [|j]; [reflexivity|]). lia.
Qed.
Ltac head_tac := unfold head_ok; cbn; repeat match goal with |- _ /\ _ => split end; try reflexivity; repeat constructor; vm_compute; try reflexivity; try (intros; discriminate).
Ltac exfile := apply ex_ok; [repeat constructor; vm_compute; try reflexivity; intros; discriminate | head_tac | repeat constructor | reflexivity].
Lemma exA_ok o : file_ok o u32 everything 4 exA.
Proof. destruct o; exfile. Qed.
Lemma exB_ok o : file_ok o u32 everything 4 exB.
Proof. destruct o; exfile. Qed.
Lemma two_stored bytes g0 g1 : filenum (g_head g0) = 2%Z -> (forall j, j < 6 -> nth j (nall (g_head g0)) 0%Z = Z.of_nat (list_sum (map (fun g => length (g_cont g j)) [g0; g1]))) -> stored (two bytes g0 g1) bytes "snap" [g0; g1].
Proof. intros H1 H2. right. split; [reflexivity|]. split; [exact H1|]. split; [|exact H2]. intros [|[|t]] g; [intros [= <-]; reflexivity | intros [= <-]; reflexivity | destruct t; discriminate]. Qed.
Ltac six := let j := fresh "j" in let H := fresh "H" in intros j H; do 6 (destruct j as [|j]; [reflexivity|]); lia.
Example C60_ex : read_block (two (file_bytes BE u32 everything) exA exB) (fun _ x => x) "snap" "ID  " (-1) 0 0 = GOk (map Some [[11]; [21]; [22]; [23]; [41]]%Z) /\
  read_block (two (file_bytes BE u32 everything) exA exB) (fun _ x => x) "snap" "ID  " 1 0 0 = GOk (map Some [[21]; [22]; [23]]%Z).
Proof.
  assert (S : stored (two (file_bytes BE u32 everything) exA exB) (file_bytes BE u32 everything) "snap" [exA; exB]) by (apply two_stored; [reflexivity | six]).
  split; (erewrite (C60_partial _ _ BE "ID  " _ _ _ 4 everything u32 u32 _ exA [exB]);
    [vm_compute; reflexivity | reflexivity | lia | intros _; right; reflexivity | six | constructor; [apply exA_ok | constructor; [apply exB_ok | constructor]] | exact S | left; split; [reflexivity | intros _; exists 0; split; [lia | discriminate]]]).
Qed.
(** The first file has no particles and the IDs have 32 bits: 0 bytes are twice 0 bytes. *)
Definition exE := ex_file [0; 1; 0; 0; 0; 0]%Z 2 [] [] [].
Definition exF := ex_file [0; 1; 0; 0; 0; 0]%Z 2 [] [[23]]%Z [].
Theorem C60_refuted : exists fs g0 g1, Forall (file_ok LE u32 everything 4) [g0; g1] /\ stored fs (file_bytes LE u32 everything) "snap" [g0; g1] /\
  describe "ID  " (massarr (g_head g0)) 0 0 = Some (everything, u32, 4%Z) /\ g_cont g1 1 = [[23]]%Z /\ read_block fs (fun _ x => x) "snap" "ID  " 1 0 0 = GErr (SysExit WrongBlocksize).
Proof.
  exists (two (file_bytes LE u32 everything) exE exF), exE, exF. split; [constructor; [|constructor; [|constructor]]; exfile|]. split; [apply two_stored; [reflexivity | six]|]. split; [reflexivity|]. split; [reflexivity|]. vm_compute. reflexivity.
Qed.
Print Assumptions C60_refuted.
(** Without a single mass of its own, no particle has a mass block; all masses at once cannot be read. *)
Definition exM : gfile := mkFile (mkHead [0; 2; 0; 0; 0; 0]%Z [0; 4607182418800017408; 0; 0; 0; 0]%Z 4607182418800017408 0 0 0 [0; 2; 0; 0; 0; 0]%Z 0 1 0 0 0 0 (repeat 0%Z 96))
  [repeat 1%Z 48; repeat 2%Z 48] (fun j => match j with 1 => [[7]; [8]]%Z | _ => [] end) [].
Theorem C60_masses_refuted : exists fs g0, file_ok LE u32 everything 4 g0 /\ stored fs (file_bytes LE u32 everything) "snap" [g0] /\ Forall (fun x => x = [0; 4607182418800017408; 0; 0; 0; 0]%Z) [massarr (g_head g0)] /\
  read_block fs (fun _ x => x) "snap" "MASS" 1 0 0 = GOk (repeat (Some [4607182418800017408%Z]) 2) /\ read_block fs (fun _ x => x) "snap" "MASS" (-1) 0 0 = GErr (SysExit BlockNotFound) .
Proof.
  exists (one (file_bytes LE u32 everything) exM), exM. split.
  { split; [head_tac|]. split; [repeat constructor|]. split; [reflexivity|]. split; [reflexivity|]. split; [six|]. intros j. do 2 (destruct j as [|j]; [repeat constructor; vm_compute; intros; discriminate|]). constructor. }
  split; [left; split; [reflexivity|]; split; [reflexivity | vm_compute; discriminate]|]. split; [repeat constructor|]. split; vm_compute; reflexivity.
Qed.
Print Assumptions C60_masses_refuted.
(** What storing a part leaves in the array: inside the slice the values, or the only value everywhere;
    outside what was there. Other lengths raise ValueError. *)
Theorem C60_slices data off n vals : (off + n <= List.length data)%nat ->
  (List.length vals <> n -> List.length vals <> 1%nat -> assign data off n vals = GErr GValueError) /\
  forall d, assign data off n vals = GOk d -> List.length d = List.length data /\ forall k,
    ((k < off \/ off + n <= k)%nat -> nth_error d k = nth_error data k) /\
    ((k < n)%nat -> nth_error d (off + k) = Some (Some (if Nat.eqb (List.length vals) n then nth k vals [] else nth 0 vals []))).
Proof.
  intros H. unfold assign. rewrite !Nat.min_l by lia. replace (off + n - off)%nat with n by lia.
  assert (G : forall v : list cell, List.length v = n -> let d := (firstn off data ++ v ++ skipn (off + n) data)%list in List.length d = List.length data /\
    forall k, ((k < off \/ off + n <= k)%nat -> nth_error d k = nth_error data k) /\ ((k < n)%nat -> nth_error d (off + k) = nth_error v k)).
  { intros v L d. unfold d. assert (LF : List.length (firstn off data) = off) by (rewrite firstn_length; lia).
    split; [rewrite !app_length, LF, skipn_length; lia|]. intros k. split.
    - intros [K|K]; [rewrite nth_error_app1 by lia; transitivity (nth_error (firstn off data ++ skipn off data) k); [now rewrite nth_error_app1 by lia | now rewrite firstn_skipn]|].
      rewrite nth_error_app2, nth_error_app2 by lia. transitivity (nth_error (firstn (off + n) data ++ skipn (off + n) data) k); [|now rewrite firstn_skipn].
      rewrite (nth_error_app2 (firstn (off + n) data)) by (rewrite firstn_length; lia). f_equal. rewrite LF, (firstn_length (off + n)). lia.
    - intros K. rewrite nth_error_app2, nth_error_app1 by lia. f_equal. lia. }
  destruct (Nat.eqb_spec (List.length vals) n) as [E|E].
  - split; [intros; lia|]. intros d [= <-]. destruct (G (map Some vals)) as [G1 G2]; [now rewrite map_length|]. split; [exact G1|]. intros k. split; [apply G2|].
    intros K. etransitivity; [exact (proj2 (G2 k) K)|]. rewrite nth_error_map, (nth_error_nth' vals []) by lia. reflexivity.
  - destruct vals as [|x [|y vals]]; [split; [reflexivity | discriminate]| |split; [reflexivity | discriminate]]. split; [simpl; lia|]. intros d [= <-].
    destruct (G (repeat (Some x) n)) as [G1 G2]; [apply repeat_length|]. split; [exact G1|]. intros k. split; [apply G2|].
    intros K. etransitivity; [exact (proj2 (G2 k) K)|]. rewrite (nth_error_nth' _ (Some x)) by now rewrite repeat_length. f_equal. apply nth_repeat.
Qed.
Print Assumptions C60_slices.
Example C60_slices_ex : assign (repeat None 4) 1 2 [[7%Z]] = GOk [None; Some [7%Z]; Some [7%Z]; None] /\ assign (repeat None 3) 1 2 [[7%Z]; [8%Z]] = GOk [None; Some [7%Z]; Some [8%Z]].
Proof. split; reflexivity. Qed.
