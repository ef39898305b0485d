(** * readgadget.read_block: assembly of HDF5 and binary snapshots *)
From Coq Require Import String Bool Arith ZArith Lia List.
From Verif Require Import GadgetModel GadgetSpec GadgetProps GadgetBlocks GadgetReadModel GadgetReadProps.
Import ListNotations.
Local Open Scope nat_scope.

(** The entries a file holds for a species: its dataset, or for masses the value of the header. *)
Definition has (w : nat) (f : hfile) (block : string) (pt : nat) (rows : list item) : Prop :=
  length rows = num (f_npart f) pt /\
  (w = 3 /\ f_data f pt block = Some (Rows rows) \/
   w = 1 /\ (exists xs, f_data f pt block = Some (Flat xs) /\ rows = map (fun x => [x]) xs) \/
   w = 1 /\ f_data f pt block = None /\ fzero (nth pt (f_massarr f) 0%Z) = false /\ rows = repeat [nth pt (f_massarr f) 0%Z] (num (f_npart f) pt)).
Lemma splice_mid (done : list item) (z : cell) n m rows : length rows = n -> splice (map Some done ++ repeat z (n + m)) (length done) (map Some rows) = map Some (done ++ rows) ++ repeat z m.
Proof.
  intros L. unfold splice. rewrite map_length, L. rewrite firstn_app, map_length, Nat.sub_diag, <- (map_length Some done), firstn_all. cbn [firstn]. rewrite app_nil_r, map_app, <- !app_assoc. f_equal. f_equal.
  rewrite skipn_app, skipn_all2 by lia. cbn [app]. replace (length (map Some done) + n - length (map Some done)) with n by lia. rewrite repeat_app, skipn_app, repeat_length, Nat.sub_diag, skipn_all2 by (rewrite repeat_length; lia). reflexivity.
Qed.
Lemma clip_mid (done : list item) (z : cell) n m : clip (map Some done ++ repeat z (n + m)) (length done) n = n.
Proof. unfold clip. rewrite app_length, map_length, repeat_length. lia. Qed.
Lemma put_rows (done : list item) (z : cell) n m (r : list item) : length r = n -> put 3 (map Some done ++ repeat z (n + m)) (length done) n (Rows r) = GOk (map Some (done ++ r) ++ repeat z m).
Proof. intros L. cbv beta iota zeta delta [put]. rewrite clip_mid, L, Nat.eqb_refl. f_equal. now apply splice_mid. Qed.
Lemma put_flat (done : list item) (z : cell) n m (r : list Z) : length r = n -> put 1 (map Some done ++ repeat z (n + m)) (length done) n (Flat r) = GOk (map Some (done ++ map (fun x => [x]) r) ++ repeat z m).
Proof.
  intros L. cbv beta iota zeta delta [put]. rewrite clip_mid, L, Nat.eqb_refl. f_equal. replace (map (fun x => Some [x]) r) with (map Some (map (fun x => [x]) r)) by now rewrite map_map. apply (splice_mid done z n m (map (fun x => [x]) r)). now rewrite map_length.
Qed.
Section Assembly.
  Variables (bin : string -> option (list Z)) (h5 : string -> option hfile) (div : string -> Z -> Z) (sqrt_mul : Z -> Z -> Z).
  Definition out (block : string) (f : hfile) (x : Z) : Z := if String.eqb block "VEL " then sqrt_mul (f_time f) (div block x) else div block x.
  Lemma put_file w f block pt rows done z m : columns block = Some w -> has w f block pt rows ->
    exists a, read_hdf5 div sqrt_mul f block pt = GOk a /\ put w (map Some done ++ repeat z (num (f_npart f) pt + m)) (length done) (num (f_npart f) pt) a = GOk (map Some (done ++ map (map (out block f)) rows) ++ repeat z m).
  Proof.
    intros HC (L & H). unfold read_hdf5. assert (V1 : w = 1 -> String.eqb block "VEL " = false).
    { intros ->. unfold columns in HC. destruct (String.eqb_spec block "VEL ") as [->|]; [discriminate | reflexivity]. }
    destruct H as [(-> & ->)|[(-> & xs & -> & ->)|(-> & -> & Hz & ->)]].
    - cbn [gbind]. eexists. split; [reflexivity|]. assert (E : (if String.eqb block "VEL " then fmap (sqrt_mul (f_time f)) (fmap (div block) (Rows rows)) else fmap (div block) (Rows rows)) = Rows (map (map (out block f)) rows)).
      { unfold out. destruct (String.eqb block "VEL "); [|reflexivity]. cbn [fmap]. rewrite map_map. f_equal. apply map_ext. intros r. now rewrite map_map. }
      rewrite E. apply put_rows. rewrite <- L. apply map_length.
    - rewrite (V1 eq_refl). cbn [gbind fmap]. eexists. split; [reflexivity|]. rewrite map_length in L. rewrite put_flat by (now rewrite map_length). do 4 f_equal. rewrite !map_map. unfold out. now rewrite (V1 eq_refl).
    - rewrite Hz, (V1 eq_refl). cbn [gbind]. eexists. split; [reflexivity|]. rewrite put_flat by apply repeat_length. do 4 f_equal. unfold out. rewrite (V1 eq_refl). clear. induction (num (f_npart f) pt) as [|n IH]; [reflexivity|]. cbn [repeat map]. now rewrite IH.
  Qed.
  (** A name of an HDF5 file is taken as it is. *)
  Lemma resolves name f : h5 name = Some f -> ends name "hdf5" -> fname_format (is_file bin h5) name = GOk (name, Hdf5).
  Proof.
    intros H E. rewrite fname_find. unfold candidates. cbn [find]. unfold is_file at 1. rewrite H. replace (match bin name with Some _ => true | None => true end) with true by now destruct (bin name). unfold format_of. apply last4_ends in E. now rewrite E.
  Qed.
  Lemma header_h5 s name f : fname_format (is_file bin h5) s = GOk (name, Hdf5) -> h5 name = Some f -> header_of bin h5 s = GOk (inr f).
  Proof. intros H E. unfold header_of. rewrite H. cbn [gbind]. unfold h5_open. now rewrite E. Qed.
  Lemma read_field_h5 s name f block w pt : fname_format (is_file bin h5) s = GOk (name, Hdf5) -> h5 name = Some f -> columns block = Some w -> forall a, read_hdf5 div sqrt_mul f block pt = GOk a -> read_field bin h5 div sqrt_mul s block pt = GOk (inl a).
  Proof. intros H E HC a HR. unfold read_field. rewrite H. cbn [gbind]. rewrite (header_h5 name name f (fname_again _ _ _ _ H) E), HC. cbn [gbind]. unfold h5_open. rewrite E. cbn [gbind]. now rewrite HR. Qed.
  Definition total (fl : list hfile) (pt : nat) : nat := list_sum (map (fun f => num (f_npart f) pt) fl).
  Variables (rows : hfile -> nat -> list item) (snapshot block : string) (w : nat).
  Hypothesis HC : columns block = Some w.
  Definition part (fl : list hfile) (pt : nat) : list item := concat (map (fun f => map (map (out block f)) (rows f pt)) fl).
  Lemma files_h5 z m pt : forall fl k done, (forall t f, nth_error fl t = Some f -> h5 (snapshot ++ "." ++ str_of_nat (k + t) ++ ".hdf5")%string = Some f) -> (forall f, In f fl -> has w f block pt (rows f pt)) ->
    over_files bin h5 div sqrt_mul (seq k (length fl)) snapshot block w pt (map Some done ++ repeat z (total fl pt + m)) (length done) = GOk (map Some (done ++ part fl pt) ++ repeat z m, length done + total fl pt).
  Proof.
    induction fl as [|f fl IH]; intros k done HF HR; [cbn; rewrite Nat.add_0_r, app_nil_r; reflexivity|]. cbn [length seq over_files].
    assert (Hf := HF 0 f eq_refl). rewrite Nat.add_0_r in Hf. set (name := (snapshot ++ "." ++ str_of_nat k ++ ".hdf5")%string) in *.
    assert (EN : ends name "hdf5") by (exists (snapshot ++ "." ++ str_of_nat k ++ ".")%string; unfold name; rewrite !sapp_assoc; reflexivity).
    pose proof (resolves name f Hf EN) as RN. rewrite (header_h5 name name f RN Hf). cbn [gbind npart_of].
    assert (ET : total (f :: fl) pt + m = num (f_npart f) pt + (total fl pt + m)) by (unfold total; simpl; lia). rewrite ET.
    destruct (put_file w f block pt (rows f pt) done z (total fl pt + m) HC (HR f (or_introl eq_refl))) as (a & E1 & E2). rewrite (read_field_h5 name name f block w pt RN Hf HC a E1). cbn [gbind put_any]. rewrite E2. cbn [gbind].
    assert (EL : length done + num (f_npart f) pt = length (done ++ map (map (out block f)) (rows f pt))) by (rewrite app_length, map_length; f_equal; symmetry; apply (HR f (or_introl eq_refl))). rewrite EL.
    rewrite IH; [|intros t g Ht; specialize (HF (S t) g Ht); now rewrite Nat.add_succ_r in HF | intros g Hg; apply HR; now right]. f_equal. rewrite <- EL. unfold part. cbn [map concat]. rewrite app_assoc. f_equal. change (total (f :: fl) pt) with (num (f_npart f) pt + total fl pt). lia.
  Qed.
  (** Where the files are: one file, or several numbered files. *)
  Definition stored5 (f0 : hfile) (fl : list hfile) : Prop :=
    (f_filenum f0 = 1%Z /\ fl = [f0]) \/
    (f_filenum f0 = Z.of_nat (length fl) /\ length fl <> 1 /\ forall t f, nth_error fl t = Some f -> h5 (snapshot ++ "." ++ str_of_nat t ++ ".hdf5")%string = Some f).
  Lemma types_h5 z name f0 fl : fname_format (is_file bin h5) snapshot = GOk (name, Hdf5) -> h5 name = Some f0 -> stored5 f0 fl -> forall pts done m,
    (forall pt, In pt pts -> num (f_nall f0) pt = total fl pt /\ forall f, In f fl -> has w f block pt (rows f pt)) ->
    over_types bin h5 div sqrt_mul pts snapshot block w Hdf5 (f_nall f0) (f_filenum f0) (map Some done ++ repeat z (list_sum (map (num (f_nall f0)) pts) + m)) (length done) =
      GOk (map Some (done ++ concat (map (part fl) pts)) ++ repeat z m, length done + list_sum (map (num (f_nall f0)) pts)).
  Proof.
    intros HN H0 HS. induction pts as [|pt pts IH]; intros done m HP; [cbn; rewrite Nat.add_0_r, app_nil_r; reflexivity|]. cbn [over_types].
    destruct (HP pt (or_introl eq_refl)) as [HT HR]. set (rest := list_sum (map (num (f_nall f0)) pts)).
    change (list_sum (map (num (f_nall f0)) (pt :: pts))) with (num (f_nall f0) pt + rest). rewrite <- Nat.add_assoc.
    assert (EL : length (done ++ part fl pt) = length done + num (f_nall f0) pt).
    { rewrite app_length, HT. f_equal. unfold part, total. clear - HR. induction fl as [|f fl IH]; [reflexivity|]. change (list_sum (map (fun f => num (f_npart f) pt) (f :: fl))) with (num (f_npart f) pt + list_sum (map (fun f => num (f_npart f) pt) fl)). cbn [map concat]. rewrite app_length, map_length. f_equal; [apply (HR f (or_introl eq_refl)) | apply IH; intros g Hg; apply HR; now right]. }
    assert (ES : (if (f_filenum f0 =? 1)%Z then gbind (read_field bin h5 div sqrt_mul snapshot block pt) (fun a => gbind (put_any w (map Some done ++ repeat z (num (f_nall f0) pt + (rest + m))) (length done) (num (f_nall f0) pt) a) (fun data => GOk (data, length done + num (f_nall f0) pt)))
                  else over_files bin h5 div sqrt_mul (seq 0 (Z.to_nat (f_filenum f0))) snapshot block w pt (map Some done ++ repeat z (num (f_nall f0) pt + (rest + m))) (length done)) = GOk (map Some (done ++ part fl pt) ++ repeat z (rest + m), length done + num (f_nall f0) pt)).
    { destruct HS as [(E1 & ->)|(E1 & NE & HF)].
      - rewrite E1, Z.eqb_refl. assert (HT' : num (f_nall f0) pt = num (f_npart f0) pt) by (rewrite HT; unfold total; simpl; lia). rewrite HT'. destruct (put_file w f0 block pt (rows f0 pt) done z (rest + m) HC (HR f0 (or_introl eq_refl))) as (a & A1 & A2).
        rewrite (read_field_h5 snapshot name f0 block w pt HN H0 HC a A1). cbn [gbind put_any]. rewrite A2. cbn [gbind]. unfold part. cbn [map concat]. now rewrite app_nil_r.
      - rewrite E1. destruct (Z.eqb_spec (Z.of_nat (length fl)) 1); [lia|]. rewrite Nat2Z.id, HT. apply files_h5; [intros t f Ht; apply (HF t f Ht) | exact HR]. }
    rewrite ES. cbn [gbind]. rewrite <- EL. rewrite IH by (intros q Hq; apply HP; now right). f_equal. rewrite EL. unfold rest. cbn [map concat]. rewrite app_assoc. f_equal. lia.
  Qed.
  Theorem C60_hdf5 name f0 fl pts : fname_format (is_file bin h5) snapshot = GOk (name, Hdf5) -> h5 name = Some f0 -> stored5 f0 fl ->
    (forall pt, In pt pts -> num (f_nall f0) pt = total fl pt /\ forall f, In f fl -> has w f block pt (rows f pt)) ->
    (block = "ID  "%string -> exists pt rest ids, pts = pt :: rest /\ has w f0 block pt ids) ->
    read bin h5 div sqrt_mul snapshot block pts = GOk (map Some (concat (map (part fl) pts))).
  Proof.
    intros HN H0 HS HP HI. unfold read. rewrite HN. cbn [gbind]. rewrite (header_h5 name name f0 (fname_again _ _ _ _ HN) H0). cbn [gbind nall_of filenum_of]. cbv zeta. rewrite HC.
    assert (EI : (if String.eqb block "ID  " then match pts with [] => GErr GIndexError | pt :: _ => gbind (read_field bin h5 div sqrt_mul name block pt) (fun _ => GOk tt) end else GOk tt) = GOk tt).
    { destruct (String.eqb_spec block "ID  ") as [EB|]; [|reflexivity]. destruct (HI EB) as (pt & rest & ids & -> & HH). destruct (put_file w f0 block pt ids [] None 0 HC HH) as (a & A & _). now rewrite (read_field_h5 name name f0 block w pt (fname_again _ _ _ _ HN) H0 HC a A). }
    rewrite EI. cbn [gbind]. set (n := list_sum (map (num (f_nall f0)) pts)). pose proof (types_h5 (Some (repeat 0%Z w)) name f0 fl HN H0 HS pts [] 0 HP) as E. fold n in E. rewrite Nat.add_0_r in E. cbn [map app length repeat Nat.add] in E. rewrite app_nil_r in E. match goal with |- context [over_types _ _ _ _ _ _ _ _ _ _ _ ?d _] => change d with (@repeat (option item) (@Some (list Z) (repeat 0%Z w)) n) end. unfold cell in *. rewrite E. cbn [gbind]. now rewrite Nat.eqb_refl.
  Qed.
End Assembly.
Print Assumptions C60_hdf5.

(** Binary snapshots through readgadget. *)
Section BinaryAssembly.
  Variables (bin : string -> option (list Z)) (h5 : string -> option hfile) (div : string -> Z -> Z) (sqrt_mul : Z -> Z -> Z) (snapshot block : string).
  Lemma put_cells_mid (done : list item) (z : cell) n m (r : list item) : length r = n -> put_cells (map Some done ++ repeat z (n + m)) (length done) n (map Some r) = GOk (map Some (done ++ r) ++ repeat z m).
  Proof. intros L. cbv beta iota zeta delta [put_cells]. rewrite clip_mid, map_length, L, Nat.eqb_refl. f_equal. now apply splice_mid. Qed.
  Lemma types_bin w nall filenum z (part : nat -> list item) : forall pts done m, (forall pt, In pt pts -> read_block bin sqrt_mul snapshot block (Z.of_nat pt) 0 0 = GOk (map Some (part pt)) /\ length (part pt) = num nall pt) ->
    over_types bin h5 div sqrt_mul pts snapshot block w Binary nall filenum (map Some done ++ repeat z (list_sum (map (num nall) pts) + m)) (length done) =
      GOk (map Some (done ++ concat (map (fun pt => map (map (div block)) (part pt)) pts)) ++ repeat z m, length done + list_sum (map (num nall) pts)).
  Proof.
    induction pts as [|pt pts IH]; intros done m HP; [cbn; rewrite Nat.add_0_r, app_nil_r; reflexivity|]. cbn [over_types]. destruct (HP pt (or_introl eq_refl)) as [E L]. rewrite E. cbn [gbind].
    change (list_sum (map (num nall) (pt :: pts))) with (num nall pt + list_sum (map (num nall) pts)). rewrite <- Nat.add_assoc.
    replace (map (option_map (map (div block))) (map Some (part pt))) with (map Some (map (map (div block)) (part pt))) by (rewrite !map_map; reflexivity).
    assert (L' : length (map (map (div block)) (part pt)) = num nall pt) by (rewrite <- L; apply map_length).
    pose proof (put_cells_mid done z (num nall pt) (list_sum (map (num nall) pts) + m) (map (map (div block)) (part pt)) L') as EP.
    match goal with |- context [put_cells ?a ?b ?c ?d] => replace (put_cells a b c d) with (GOk (A := list cell) (map Some (done ++ map (map (div block)) (part pt)) ++ repeat z (list_sum (map (num nall) pts) + m))) by (symmetry; exact EP) end. cbn [gbind].
    replace (length done + num nall pt) with (length (done ++ map (map (div block)) (part pt))) by (rewrite app_length; f_equal; exact L'). rewrite IH by (intros q Hq; apply HP; now right). f_equal. cbn [map concat]. rewrite app_assoc. f_equal. rewrite app_length. rewrite <- Nat.add_assoc. f_equal. f_equal. exact L'.
  Qed.
  Variables (o : order) (number : Z) (flags : list bool) (dt0 dtf : dtype).
  (** Entries of a species over the files, in the units of the package. *)
  Definition bpart (g0 : gfile) (gs : list gfile) (pt : nat) : list item :=
    map (fun x => map (div block) (scaled sqrt_mul block (g_head g0) x)) (concat (map (fun g => val (String.eqb block "MASS") (massarr (g_head g0)) dt0 dtf g pt) (g0 :: gs))).
  Theorem C60_binary name w g0 gs pts : fname_format (is_file bin h5) snapshot = GOk (name, Binary) -> bin name = Some (file_bytes o dtf flags g0) -> columns block = Some w ->
    describe block (massarr (g_head g0)) 0 0 = Some (flags, dt0, number) -> (block = "ID  "%string -> pts <> []) ->
    (forall pt, In pt pts -> pt < 6 /\ (block = "MASS"%string \/ nth pt flags false = true) /\ num (nall (g_head g0)) pt = list_sum (map (fun g => length (g_cont g pt)) (g0 :: gs))) ->
    (forall j, j < 6 -> fzero (nth j (massarr (g_head g0)) 0%Z) = negb (fpos (nth j (massarr (g_head g0)) 0%Z))) ->
    Forall (file_ok o dtf flags number) (g0 :: gs) -> stored bin (file_bytes o dtf flags) snapshot (g0 :: gs) ->
    dtf = dt0 /\ (block = "ID  "%string -> exists j, j < 6 /\ g_cont g0 j <> []) \/ dtf = u64 /\ block = "ID  "%string ->
    read bin h5 div sqrt_mul snapshot block pts = GOk (map Some (concat (map (bpart g0 gs) pts))).
  Proof.
    intros HN H0 HC HD HI HP HM HG HS HT. assert (HG0 : file_ok o dtf flags number g0) by now inversion HG.
    unfold read. rewrite HN. cbn [gbind]. assert (HH : header_of bin h5 name = GOk (inl (as_read 1 o (g_head g0)))).
    { unfold header_of. rewrite (fname_again _ _ _ _ HN). cbn [gbind]. unfold snapshot_header. rewrite H0, (file_header _ _ _ _ _ HG0). reflexivity. }
    rewrite HH. cbn [gbind]. cbv zeta. rewrite HC. cbn [nall_of filenum_of].
    assert (EI : (if String.eqb block "ID  " then match pts with [] => GErr GIndexError | pt :: _ => gbind (read_field bin h5 div sqrt_mul name block pt) (fun _ => GOk tt) end else GOk tt) = GOk tt).
    { destruct (String.eqb_spec block "ID  ") as [EB|]; [|reflexivity]. destruct pts as [|pt pts]; [now destruct (HI EB)|]. unfold read_field. rewrite (fname_again _ _ _ _ HN). cbn [gbind]. rewrite HH. cbn [gbind]. rewrite HC. destruct (HP pt (or_introl eq_refl)) as (P1 & P2 & _).
      rewrite (C60_partial bin sqrt_mul o block (Z.of_nat pt) 0 0 number flags dt0 dtf name g0 [] HD); [reflexivity | lia | intros _; now rewrite Nat2Z.id | exact HM | now constructor | | exact HT].
      left. split; [reflexivity|]. split; [exact H0|]. destruct HS as [(_ & _ & ?)|(_ & -> & _)]; [assumption|]. cbn [length]. lia. }
    rewrite EI. cbn [gbind]. set (part := fun pt => map (scaled sqrt_mul block (g_head g0)) (concat (map (fun g => val (String.eqb block "MASS") (massarr (g_head g0)) dt0 dtf g pt) (g0 :: gs)))).
    assert (HP' : forall pt, In pt pts -> read_block bin sqrt_mul snapshot block (Z.of_nat pt) 0 0 = GOk (map Some (part pt)) /\ length (part pt) = num (nall (g_head g0)) pt).
    { intros pt Hpt. destruct (HP pt Hpt) as (P1 & P2 & P3). split.
      - rewrite (C60_partial bin sqrt_mul o block (Z.of_nat pt) 0 0 number flags dt0 dtf snapshot g0 gs HD); [|lia | intros _; now rewrite Nat2Z.id | exact HM | exact HG | exact HS | exact HT]. unfold species. destruct (Z.leb_spec 0 (Z.of_nat pt)); [|lia]. rewrite Nat2Z.id. cbn [map concat]. rewrite app_nil_r. unfold part. now rewrite map_map.
      - unfold part. rewrite map_length, P3. generalize (g0 :: gs) as l. intros l. induction l as [|g l IH]; [reflexivity|]. cbn [map concat]. rewrite app_length, val_length, IH. reflexivity. }
    cbn [h_nall as_read h_filenum]. set (n := list_sum (map (num (nall (g_head g0))) pts)).
    pose proof (types_bin w (nall (g_head g0)) (filenum (g_head g0)) (Some (repeat 0%Z w)) part pts [] 0 HP') as E. fold n in E. rewrite Nat.add_0_r in E. cbn [map app length repeat Nat.add] in E. rewrite app_nil_r in E.
    match goal with |- context [over_types _ _ _ _ _ _ _ _ _ _ _ ?d _] => change d with (@repeat (option item) (@Some (list Z) (repeat 0%Z w)) n) end. unfold cell in *. rewrite E. cbn [gbind]. rewrite Nat.eqb_refl. do 3 f_equal. apply map_ext. intros pt. unfold bpart, part. now rewrite map_map.
  Qed.
End BinaryAssembly.
Print Assumptions C60_binary.
(** What storing the data of one file leaves in the array. *)
Lemma splice_at data off xs : (off + length xs <= length data)%nat -> length (splice data off xs) = length data /\
  forall k, ((k < off \/ off + length xs <= k)%nat -> nth_error (splice data off xs) k = nth_error data k) /\ ((k < length xs)%nat -> nth_error (splice data off xs) (off + k) = nth_error xs k).
Proof.
  intros H. unfold splice. assert (LF : length (firstn off data) = off) by (rewrite firstn_length; lia).
  split; [rewrite !app_length, LF, skipn_length; lia|]. intros k. split.
  - intros [K|K]; [rewrite nth_error_app1 by lia; transitivity (nth_error (firstn off data ++ skipn off data) k); [now rewrite nth_error_app1 by lia | now rewrite firstn_skipn]|].
    rewrite nth_error_app2, nth_error_app2 by lia. transitivity (nth_error (firstn (off + length xs) data ++ skipn (off + length xs) data) k); [|now rewrite firstn_skipn].
    rewrite (nth_error_app2 (firstn (off + length xs) data)) by (rewrite firstn_length; lia). f_equal. rewrite LF, (firstn_length (off + length xs)). lia.
  - intros K. rewrite nth_error_app2, nth_error_app1 by lia. f_equal. lia.
Qed.
(** The entry that lands in cell k of n: the k-th if there are n, the only one if there is one; three
    plain numbers make one row, and one number fills it. *)
Inductive lands (w n : nat) : field -> nat -> item -> Prop :=
| lands_row rows k : w = 3%nat -> length rows = n -> lands w n (Rows rows) k (nth k rows [])
| lands_rows r k : w = 3%nat -> n <> 1%nat -> lands w n (Rows [r]) k r
| lands_three x y z k : w = 3%nat -> lands w n (Flat [x; y; z]) k [x; y; z]
| lands_one x k : w = 3%nat -> lands w n (Flat [x]) k [x; x; x]
| lands_number xs k : w <> 3%nat -> length xs = n -> lands w n (Flat xs) k [nth k xs 0%Z]
| lands_numbers x k : w <> 3%nat -> n <> 1%nat -> lands w n (Flat [x]) k [x].
Theorem C60_hdf5_slices w data off n f : (off + n <= length data)%nat ->
  ((forall k x, ~ lands w n f k x) -> put w data off n f = GErr GValueError) /\
  ((exists k x, lands w n f k x) -> exists d, put w data off n f = GOk d /\ length d = length data /\ forall k,
    ((k < off \/ off + n <= k)%nat -> nth_error d k = nth_error data k) /\
    ((k < n)%nat -> exists x, lands w n f k x /\ nth_error d (off + k) = Some (Some x))).
Proof.
  intros H. assert (EC : clip data off n = n) by (unfold clip; rewrite !Nat.min_l by lia; lia).
  assert (G : forall (xs : list cell) g, length xs = n -> (forall k, (k < n)%nat -> exists x, g k x /\ nth_error xs k = Some (Some x)) ->
    length (splice data off xs) = length data /\ forall k, ((k < off \/ off + n <= k)%nat -> nth_error (splice data off xs) k = nth_error data k) /\
      ((k < n)%nat -> exists x, g k x /\ nth_error (splice data off xs) (off + k) = Some (Some x))).
  { intros xs g L Hx. destruct (splice_at data off xs) as [S1 S2]; [lia|]. split; [exact S1|]. intros k. rewrite <- L at 1. split; [apply S2|].
    intros K. destruct (Hx k K) as (x & X1 & X2). exists x. split; [exact X1|]. rewrite (proj2 (S2 k)) by lia. exact X2. }
  assert (RP : forall (x : item) (g : nat -> item -> Prop), (forall k, g k x) -> forall k, (k < n)%nat -> exists y, g k y /\ nth_error (repeat (Some x) n) k = Some (Some y)).
  { intros x g Hg k K. exists x. split; [apply Hg|]. rewrite (nth_error_nth' _ (Some x)) by now rewrite repeat_length. f_equal. apply nth_repeat. }
  assert (D3 : w = 3%nat \/ w <> 3%nat) by lia. destruct f as [xs|rows], D3 as [W|W].
  - subst w. unfold put. rewrite EC. destruct xs as [|x [|y [|z [|u xs]]]]; cbn [length Nat.eqb nth repeat].
    1, 3, 5: split; [reflexivity | intros (k & v & L); inversion L; subst; try congruence; discriminate].
    + split; [intros N; exfalso; apply (N 0%nat [x; x; x]); now constructor|]. intros _. eexists. split; [reflexivity|]. apply G; [apply repeat_length|]. apply RP. intros. now constructor.
    + split; [intros N; exfalso; apply (N 0%nat [x; y; z]); now constructor|]. intros _. eexists. split; [reflexivity|]. apply G; [apply repeat_length|]. apply RP. intros. now constructor.
  - assert (E : put w data off n (Flat xs) = if Nat.eqb (length xs) n then GOk (splice data off (map (fun x => Some [x]) xs)) else if Nat.eqb (length xs) 1 then GOk (splice data off (repeat (Some [nth 0 xs 0%Z]) n)) else GErr GValueError).
    { unfold put. rewrite EC. destruct w as [|[|[|[|w]]]]; try reflexivity. congruence. }
    rewrite E. clear E. destruct (Nat.eqb_spec (length xs) n) as [L|L].
    + split; [intros N; exfalso; apply (N 0%nat [nth 0 xs 0%Z]); now constructor|]. intros _. eexists. split; [reflexivity|]. apply G; [now rewrite map_length|].
      intros k K. exists [nth k xs 0%Z]. split; [now constructor|]. rewrite nth_error_map, (nth_error_nth' xs 0%Z) by lia. reflexivity.
    + destruct (Nat.eqb_spec (length xs) 1) as [L1|L1].
      * destruct xs as [|x [|? ?]]; try discriminate. split; [intros N; exfalso; apply (N 0%nat [x]); constructor; auto; simpl in L; lia|]. intros _. eexists. split; [reflexivity|]. apply G; [apply repeat_length|].
        apply RP. intros. constructor; auto; simpl in L; lia.
      * split; [reflexivity|]. intros (k & v & LL). inversion LL; subst; simpl in *; try congruence; lia.
  - subst w. unfold put. rewrite EC. destruct (Nat.eqb_spec (length rows) n) as [L|L].
    + split; [intros N; exfalso; apply (N 0%nat (nth 0 rows [])); now constructor|]. intros _. eexists. split; [reflexivity|]. apply G; [now rewrite map_length|].
      intros k K. exists (nth k rows []). split; [now constructor|]. rewrite nth_error_map, (nth_error_nth' rows []) by lia. reflexivity.
    + destruct (Nat.eqb_spec (length rows) 1) as [L1|L1].
      * destruct rows as [|x [|? ?]]; try discriminate. split; [intros N; exfalso; apply (N 0%nat x); constructor; auto; simpl in L; lia|]. intros _. eexists. split; [reflexivity|]. apply G; [apply repeat_length|].
        apply RP. intros. constructor; auto; simpl in L; lia.
      * split; [reflexivity|]. intros (k & v & LL). inversion LL; subst; simpl in *; congruence.
  - assert (E : put w data off n (Rows rows) = GErr GValueError) by (unfold put; destruct w as [|[|[|[|w]]]]; try reflexivity; congruence).
    rewrite E. split; [reflexivity|]. intros (k & v & LL). inversion LL; subst; congruence.
Qed.
Print Assumptions C60_hdf5_slices.
(** The same for the cells read from a binary file. *)
Theorem C60_binary_slices data off n xs : (off + n <= length data)%nat ->
  (length xs <> n -> length xs <> 1%nat -> put_cells data off n xs = GErr GValueError) /\
  forall d, put_cells data off n xs = GOk d -> length d = length data /\ forall k,
    ((k < off \/ off + n <= k)%nat -> nth_error d k = nth_error data k) /\
    ((k < n)%nat -> nth_error d (off + k) = nth_error xs (if Nat.eqb (length xs) n then k else 0%nat)).
Proof.
  intros H. assert (EC : clip data off n = n) by (unfold clip; rewrite !Nat.min_l by lia; lia). unfold put_cells. rewrite EC.
  destruct (Nat.eqb_spec (length xs) n) as [L|L].
  - split; [congruence|]. intros d [= <-]. destruct (splice_at data off xs) as [S1 S2]; [lia|]. split; [exact S1|]. intros k. specialize (S2 k). rewrite L in S2. exact S2.
  - destruct (Nat.eqb_spec (length xs) 1) as [L1|L1]; [|split; [reflexivity | discriminate]]. split; [congruence|]. intros d [= <-].
    destruct xs as [|x [|? ?]]; try discriminate. destruct (splice_at data off (repeat (nth 0 [x] None) n)) as [S1 S2]; [rewrite repeat_length; lia|]. rewrite repeat_length in S2. split; [exact S1|].
    intros k. split; [apply S2|]. intros K. rewrite (proj2 (S2 k)) by auto. rewrite (nth_error_nth' _ x) by now rewrite repeat_length. cbn [nth_error nth]. f_equal. apply nth_repeat.
Qed.
Print Assumptions C60_binary_slices.
(** Slices that reach past the end of the array, as with header counts that contradict each other, are cut
    there: what was said of n cells holds of those that exist. *)
Theorem C60_past_end w data off n f xs :
  put w data off n f = put w data off (Nat.min n (length data - off)) f /\
  put_cells data off n xs = put_cells data off (Nat.min n (length data - off)) xs.
Proof.
  assert (E : clip data off (Nat.min n (length data - off)) = clip data off n) by (unfold clip; lia).
  unfold put, put_cells. rewrite E. split; reflexivity.
Qed.
Print Assumptions C60_past_end.
Example C60_slices_examples : put 3 (repeat None 4) 1 2 (Flat [7%Z]) = GOk [None; Some [7; 7; 7]; Some [7; 7; 7]; None]%Z /\ put_cells (repeat None 3) 1 2 [Some [7%Z]] = GOk [None; Some [7%Z]; Some [7%Z]] /\
  put_cells (repeat None 3) 1 5 [Some [7%Z]; Some [8%Z]] = GOk [None; Some [7%Z]; Some [8%Z]].
Proof. repeat split; reflexivity. Qed.

(** ** Examples *)
Example C60_binary_ex : read (two (file_bytes BE u32 everything) exA exB) (fun _ => None) (fun _ x => x) (fun _ x => x) "snap" "ID  " [4; 1]%nat = GOk (map Some [[41]; [21]; [22]; [23]]%Z).
Proof.
  rewrite (C60_binary _ _ (fun _ x => x) (fun _ x => x) "snap" "ID  " BE 4 everything u32 u32 "snap.0" 1 exA [exB] [4; 1]); [reflexivity | reflexivity | reflexivity | reflexivity | reflexivity | discriminate | | six | constructor; [apply exA_ok | constructor; [apply exB_ok | constructor]] | apply two_stored; [reflexivity | six] |].
  - intros pt [<-|[<-|[]]]; (split; [lia | split; [right; reflexivity | reflexivity]]).
  - left. split; [reflexivity|]. intros _. exists 0. split; [lia | discriminate].
Qed.
(** Two HDF5 files; in the first, species 1 has the mass of the header, species 4 its own masses. *)
Definition h_one : Z := 4607182418800017408.
Definition hA : hfile := mkHfile [0; 2; 0; 0; 1; 0]%Z [0; 3; 0; 0; 2; 0]%Z 2 [0; h_one; 0; 0; 0; 0]%Z h_one (fun pt b => if (Nat.eqb pt 4 && String.eqb b "MASS")%bool then Some (Flat [5]%Z) else if (Nat.eqb pt 1 && String.eqb b "POS ")%bool then Some (Rows [[1; 2; 3]; [4; 5; 6]]%Z) else None).
Definition hB : hfile := mkHfile [0; 1; 0; 0; 1; 0]%Z [0; 3; 0; 0; 2; 0]%Z 2 [0; h_one; 0; 0; 0; 0]%Z h_one (fun pt b => if (Nat.eqb pt 4 && String.eqb b "MASS")%bool then Some (Flat [6]%Z) else if (Nat.eqb pt 1 && String.eqb b "POS ")%bool then Some (Rows [[7; 8; 9]]%Z) else None).
Definition h5two (a b : hfile) (name : string) : option hfile := if String.eqb name "snap.0.hdf5" then Some a else if String.eqb name "snap.1.hdf5" then Some b else None.
Definition ex_rows (block : string) (f : hfile) (pt : nat) : list item :=
  match f_data f pt block with Some (Rows r) => r | Some (Flat xs) => map (fun x => [x]) xs | None => repeat [nth pt (f_massarr f) 0%Z] (num (f_npart f) pt) end.
Example C60_hdf5_ex : read (fun _ => None) (h5two hA hB) (fun _ x => x) (fun _ x => x) "snap" "MASS" [1; 4]%nat = GOk (map Some [[h_one]; [h_one]; [h_one]; [5]; [6]]%Z) /\
  read (fun _ => None) (h5two hA hB) (fun _ x => x) (fun _ x => x) "snap" "POS " [1]%nat = GOk (map Some [[1; 2; 3]; [4; 5; 6]; [7; 8; 9]]%Z).
Proof.
  assert (S : stored5 (h5two hA hB) "snap" hA [hA; hB]) by (right; split; [reflexivity | split; [discriminate | intros [|[|t]] f; [intros [= <-]; reflexivity | intros [= <-]; reflexivity | destruct t; discriminate]]]).
  split.
  - rewrite (C60_hdf5 (fun _ => None) (h5two hA hB) (fun _ x => x) (fun _ x => x) (ex_rows "MASS") "snap" "MASS" 1 eq_refl "snap.0.hdf5" hA [hA; hB] [1; 4]); [reflexivity | reflexivity | reflexivity | exact S | | discriminate].
    intros pt [<-|[<-|[]]]; (split; [reflexivity|]); intros f [<-|[<-|[]]]; (split; [reflexivity|]); right; first [left; split; [reflexivity|]; eexists; split; reflexivity | right; repeat split; reflexivity].
  - rewrite (C60_hdf5 (fun _ => None) (h5two hA hB) (fun _ x => x) (fun _ x => x) (ex_rows "POS ") "snap" "POS " 3 eq_refl "snap.0.hdf5" hA [hA; hB] [1]); [reflexivity | reflexivity | reflexivity | exact S | | discriminate].
    intros pt [<-|[]]; (split; [reflexivity|]); intros f [<-|[<-|[]]]; (split; [reflexivity|]); left; split; reflexivity.
Qed.

(** ** C85: files in which a species does not occur *)
(** Such a file has no dataset for the species. Its first file holds the particles of the snapshot, its second none. *)
Definition h_none (table : list Z) : hfile := mkHfile [0; 0; 0; 0; 0; 0]%Z [0; 2; 0; 0; 0; 0]%Z 2 table h_one (fun _ _ => None).
Definition hP (table : list Z) : hfile := mkHfile [0; 2; 0; 0; 0; 0]%Z [0; 2; 0; 0; 0; 0]%Z 2 table h_one (fun pt b => if (Nat.eqb pt 1 && String.eqb b "POS ")%bool then Some (Rows [[1; 2; 3]; [4; 5; 6]]%Z) else if (Nat.eqb pt 1 && String.eqb b "MASS")%bool then Some (Flat [7; 8]%Z) else None).
Theorem C85_refuted : read (fun _ => None) (h5two (hP [0; h_one; 0; 0; 0; 0]%Z) (h_none [0; h_one; 0; 0; 0; 0]%Z)) (fun _ x => x) (fun _ x => x) "snap" "POS " [1]%nat = GErr GValueError /\
  read (fun _ => None) (h5two (hP [0; 0; 0; 0; 0; 0]%Z) (h_none [0; 0; 0; 0; 0; 0]%Z)) (fun _ x => x) (fun _ x => x) "snap" "POS " [1]%nat = GErr GException /\
  read (fun _ => None) (h5two (hP [0; 0; 0; 0; 0; 0]%Z) (h_none [0; 0; 0; 0; 0; 0]%Z)) (fun _ x => x) (fun _ x => x) "snap" "MASS" [1]%nat = GErr GException.
Proof. repeat split; reflexivity. Qed.
Print Assumptions C85_refuted.
(** The masses can be read if the header has a mass for the species. *)
Theorem C85_partial bin h5 div sqrt_mul rows snapshot name f0 fl pt : fname_format (is_file bin h5) snapshot = GOk (name, Hdf5) -> h5 name = Some f0 -> stored5 h5 snapshot f0 fl -> num (f_nall f0) pt = total fl pt ->
  (forall f, In f fl -> num (f_npart f) pt = 0 /\ f_data f pt "MASS" = None /\ fzero (nth pt (f_massarr f) 0%Z) = false /\ rows f pt = [] \/ exists xs, f_data f pt "MASS" = Some (Flat xs) /\ length xs = num (f_npart f) pt /\ rows f pt = map (fun x => [x]) xs) ->
  read bin h5 div sqrt_mul snapshot "MASS" [pt] = GOk (map Some (part div sqrt_mul rows "MASS" fl pt)).
Proof.
  intros HN H0 HS HT HF. rewrite (C60_hdf5 bin h5 div sqrt_mul rows snapshot "MASS" 1 eq_refl name f0 fl [pt] HN H0 HS); [cbn [map concat]; now rewrite app_nil_r | | discriminate].
  intros q [<-|[]]. split; [exact HT|]. intros f Hf. destruct (HF f Hf) as [(N0 & D & Z0 & R)|(xs & D & L & R)].
  - unfold has. rewrite R, N0. split; [reflexivity|]. right. right. repeat split; assumption.
  - unfold has. rewrite R. split; [now rewrite map_length|]. right. left. split; [reflexivity|]. exists xs. split; [exact D | reflexivity].
Qed.
Example C85_ex : read (fun _ => None) (h5two (hP [0; h_one; 0; 0; 0; 0]%Z) (h_none [0; h_one; 0; 0; 0; 0]%Z)) (fun _ x => x) (fun _ x => x) "snap" "MASS" [1]%nat = GOk (map Some [[7]; [8]]%Z).
Proof.
  rewrite (C85_partial _ _ _ _ (ex_rows "MASS") "snap" "snap.0.hdf5" (hP [0; h_one; 0; 0; 0; 0]%Z) [hP [0; h_one; 0; 0; 0; 0]%Z; h_none [0; h_one; 0; 0; 0; 0]%Z] 1); [reflexivity | reflexivity | reflexivity | | reflexivity |].
  - right. split; [reflexivity | split; [discriminate | intros [|[|t]] f; [intros [= <-]; reflexivity | intros [= <-]; reflexivity | destruct t; discriminate]]].
  - intros f [<-|[<-|[]]]; [right; exists [7; 8]%Z; repeat split; reflexivity | left; repeat split; reflexivity].
Qed.
Print Assumptions C85_partial.

(** ** C86: positions that are not in the file *)
Definition hQ : hfile := mkHfile [0; 3; 0; 0; 0; 0]%Z [0; 3; 0; 0; 0; 0]%Z 1 [0; h_one; 0; 0; 0; 0]%Z h_one (fun _ _ => None).
(** Three particles without coordinates: all are put at (m, m, m). *)
Theorem C86_refuted : exists h5 f, h5 "snap.hdf5"%string = Some f /\ f_data f 1 "POS " = None /\ read (fun _ => None) h5 (fun _ x => x) (fun _ x => x) "snap" "POS " [1]%nat = GOk (repeat (Some [h_one; h_one; h_one]) 3).
Proof. exists (fun s => if String.eqb s "snap.hdf5" then Some hQ else None), hQ. repeat split; reflexivity. Qed.
Print Assumptions C86_refuted.
(** One particle: the same. *)
Definition hQ1 : hfile := mkHfile [0; 1; 0; 0; 0; 0]%Z [0; 1; 0; 0; 0; 0]%Z 1 [0; h_one; 0; 0; 0; 0]%Z h_one (fun _ _ => None).
Theorem C86_single_refuted : exists h5 f, h5 "snap.hdf5"%string = Some f /\ f_data f 1 "VEL " = None /\ read (fun _ => None) h5 (fun _ x => x) (fun _ x => x) "snap" "VEL " [1]%nat = GOk [Some [h_one; h_one; h_one]].
Proof. exists (fun s => if String.eqb s "snap.hdf5" then Some hQ1 else None), hQ1. repeat split; reflexivity. Qed.
Print Assumptions C86_single_refuted.
(** Any other number of particles is refused. *)
Theorem C86_partial bin h5 div sqrt_mul snapshot name f pt block : fname_format (is_file bin h5) snapshot = GOk (name, Hdf5) -> h5 name = Some f -> f_filenum f = 1%Z -> block = "POS "%string \/ block = "VEL "%string ->
  f_data f pt block = None -> num (f_npart f) pt <> 1 -> num (f_npart f) pt <> 3 -> exists e, read bin h5 div sqrt_mul snapshot block [pt] = GErr e /\ (e = GException \/ e = GValueError).
Proof.
  intros HN H0 HF HB HD N1 N3. unfold read. rewrite HN. cbn [gbind]. rewrite (header_h5 bin h5 name name f (fname_again _ _ _ _ HN) H0). cbn [gbind]. cbv zeta.
  assert (HC : columns block = Some 3) by (destruct HB; subst block; reflexivity). rewrite HC. assert (HI : String.eqb block "ID  " = false) by (destruct HB; subst block; reflexivity). rewrite HI. cbn [gbind over_types filenum_of]. rewrite HF. cbn [Z.eqb Pos.eqb].
  destruct (fzero (nth pt (f_massarr f) 0%Z)) eqn:EZ.
  - exists GException. split; [|now left]. unfold read_field. rewrite HN. cbn [gbind]. rewrite (header_h5 bin h5 name name f (fname_again _ _ _ _ HN) H0). cbn [gbind]. rewrite HC. unfold h5_open. rewrite H0. cbn [gbind]. unfold read_hdf5. rewrite HD, EZ. reflexivity.
  - exists GValueError. split; [|now right]. set (a := if String.eqb block "VEL " then Flat (map (sqrt_mul (f_time f)) (repeat (div block (nth pt (f_massarr f) 0%Z)) (num (f_npart f) pt))) else Flat (repeat (div block (nth pt (f_massarr f) 0%Z)) (num (f_npart f) pt))).
    assert (ER : read_hdf5 div sqrt_mul f block pt = GOk a) by (unfold read_hdf5; rewrite HD, EZ; reflexivity). rewrite (read_field_h5 bin h5 div sqrt_mul snapshot name f block 3 pt HN H0 HC a ER). cbn [gbind put_any].
    assert (EA : exists xs, a = Flat xs /\ length xs = num (f_npart f) pt) by (unfold a; destruct (String.eqb block "VEL "); eexists; (split; [reflexivity|]); rewrite ?map_length, repeat_length; reflexivity). destruct EA as (xs & -> & L).
    cbv beta iota zeta delta [put]. rewrite L. destruct (Nat.eqb_spec (num (f_npart f) pt) 3); [contradiction|]. destruct (Nat.eqb_spec (num (f_npart f) pt) 1); [contradiction|]. reflexivity.
Qed.
Definition hR : hfile := mkHfile [0; 4; 0; 0; 0; 0]%Z [0; 4; 0; 0; 0; 0]%Z 1 [0; h_one; 0; 0; 0; 0]%Z h_one (fun _ _ => None).
Example C86_ex : exists e, read (fun _ => None) (fun s => if String.eqb s "snap.hdf5" then Some hR else None) (fun _ x => x) (fun _ x => x) "snap" "POS " [1]%nat = GErr e /\ (e = GException \/ e = GValueError).
Proof. apply (C86_partial _ _ _ _ "snap" "snap.hdf5" hR 1 "POS "); try reflexivity; try discriminate. now left. Qed.
Print Assumptions C86_partial.

(** ** C88: totals that do not match the files *)
(** HDF5: particles missing from the files are noticed. *)
Theorem C88_partial bin h5 div sqrt_mul rows snapshot name block w f0 fl pt : columns block = Some w -> block <> "ID  "%string -> fname_format (is_file bin h5) snapshot = GOk (name, Hdf5) -> h5 name = Some f0 ->
  f_filenum f0 = Z.of_nat (length fl) -> length fl <> 1 -> (forall t f, nth_error fl t = Some f -> h5 (snapshot ++ "." ++ str_of_nat t ++ ".hdf5")%string = Some f) ->
  (forall f, In f fl -> has w f block pt (rows f pt)) -> total fl pt < num (f_nall f0) pt ->
  read bin h5 div sqrt_mul snapshot block [pt] = GErr GException.
Proof.
  intros HC HB HN H0 HF NE HFs HR HT. unfold read. rewrite HN. cbn [gbind]. rewrite (header_h5 bin h5 name name f0 (fname_again _ _ _ _ HN) H0). cbn [gbind]. cbv zeta. rewrite HC. destruct (String.eqb_spec block "ID  "); [contradiction|]. cbn [gbind over_types filenum_of nall_of]. rewrite HF.
  destruct (Z.eqb_spec (Z.of_nat (length fl)) 1); [lia|]. rewrite Nat2Z.id. cbn [map list_sum fold_right]. rewrite Nat.add_0_r.
  pose proof (files_h5 bin h5 div sqrt_mul rows snapshot block w HC (Some (repeat 0%Z w)) (num (f_nall f0) pt - total fl pt) pt fl 0 [] ltac:(intros t f Ht; apply (HFs t f Ht)) HR) as E.
  replace (total fl pt + (num (f_nall f0) pt - total fl pt)) with (num (f_nall f0) pt) in E by lia. cbn [map app length Nat.add] in E.
  match goal with |- context [over_files _ _ _ _ _ _ _ _ _ ?d _] => change d with (@repeat (option item) (@Some (list Z) (repeat 0%Z w)) (num (f_nall f0) pt)) end. unfold cell in *. rewrite E. cbn [gbind]. destruct (Nat.eqb_spec (total fl pt) (num (f_nall f0) pt)); [lia | reflexivity].
Qed.
Print Assumptions C88_partial.
Definition hS : hfile := mkHfile [0; 2; 0; 0; 0; 0]%Z [0; 9; 0; 0; 0; 0]%Z 2 (repeat 0%Z 6) h_one (fun _ _ => Some (Rows [[1; 2; 3]; [4; 5; 6]]%Z)).
Example C88_ex : read (fun _ => None) (h5two hS hS) (fun _ x => x) (fun _ x => x) "snap" "POS " [1]%nat = GErr GException.
Proof.
  apply (C88_partial _ _ _ _ (ex_rows "POS ") "snap" "snap.0.hdf5" "POS " 3 hS [hS; hS] 1); try reflexivity; try discriminate.
  - intros [|[|t]] f; [intros [= <-]; reflexivity | intros [= <-]; reflexivity | destruct t; discriminate].
  - intros f [<-|[<-|[]]]; (split; [reflexivity | left; split; reflexivity]).
  - vm_compute. lia.
Qed.
(** Binary: they are not, and memory that was never written is returned. *)
Definition exU := ex_file [0; 3; 0; 0; 0; 0]%Z 2 [] [[21]]%Z [].
Definition exV := ex_file [0; 3; 0; 0; 0; 0]%Z 2 [] [[22]]%Z [].
Theorem C88_refuted : exists bin g0 g1, Forall (file_ok LE u32 everything 4) [g0; g1] /\ bin "snap.0"%string = Some (file_bytes LE u32 everything g0) /\ bin "snap.1"%string = Some (file_bytes LE u32 everything g1) /\ filenum (g_head g0) = 2%Z /\
  nth 1 (nall (g_head g0)) 0%Z = 3%Z /\ length (g_cont g0 1) + length (g_cont g1 1) = 2 /\ read bin (fun _ => None) (fun _ x => x) (fun _ x => x) "snap" "ID  " [1]%nat = GOk [Some [21%Z]; Some [22%Z]; None].
Proof.
  exists (two (file_bytes LE u32 everything) exU exV), exU, exV. split; [constructor; [|constructor; [|constructor]]; exfile|]. repeat split; vm_compute; reflexivity.
Qed.
Print Assumptions C88_refuted.

(** ** C87: IDs in HDF5 files *)
Lemma r53_small x : (0 <= x <= 2 ^ 53)%Z -> r53 x = x.
Proof.
  intros H. unfold r53. destruct (Z.eq_dec x (2 ^ 53)) as [->|]; [reflexivity|]. destruct (Z.eq_dec x 0) as [->|]; [reflexivity|].
  assert (L : (Z.log2 x < 53)%Z) by (apply Z.log2_lt_pow2; lia). destruct (Z.leb_spec (Z.log2 x - 52) 0); [reflexivity | lia].
Qed.
Theorem C87_partial bin h5 sqrt_mul rows snapshot name f0 fl pt : fname_format (is_file bin h5) snapshot = GOk (name, Hdf5) -> h5 name = Some f0 -> stored5 h5 snapshot f0 fl -> In f0 fl ->
  num (f_nall f0) pt = total fl pt -> (forall f, In f fl -> exists ids, f_data f pt "ID  " = Some (Flat ids) /\ length ids = num (f_npart f) pt /\ rows f pt = map (fun x => [x]) ids /\ Forall (fun x => (0 <= x <= 2 ^ 53)%Z) ids) ->
  read bin h5 (fun _ => r53) sqrt_mul snapshot "ID  " [pt] = GOk (map Some (concat (map (fun f => rows f pt) fl))).
Proof.
  intros HN H0 HS HI HT HF. assert (HH : forall f, In f fl -> has 1 f "ID  " pt (rows f pt)).
  { intros f Hf. destruct (HF f Hf) as (ids & D & L & R & _). split; [rewrite R; now rewrite map_length|]. right. left. split; [reflexivity|]. exists ids. split; assumption. }
  rewrite (C60_hdf5 bin h5 (fun _ => r53) sqrt_mul rows snapshot "ID  " 1 eq_refl name f0 fl [pt] HN H0 HS).
  - cbn [map concat]. rewrite app_nil_r. do 2 f_equal. unfold part. f_equal. apply map_ext_in. intros f Hf. destruct (HF f Hf) as (ids & _ & _ & -> & HB). rewrite map_map. apply map_ext_in. intros x Hx. cbn [map]. f_equal. unfold out. cbn [String.eqb Ascii.eqb Bool.eqb]. apply r53_small. rewrite Forall_forall in HB. now apply HB.
  - intros q [<-|[]]. split; [exact HT | exact HH].
  - intros _. exists pt, [], (rows f0 pt). split; [reflexivity | now apply HH].
Qed.
Print Assumptions C87_partial.
Definition hI (a b : Z) : hfile := mkHfile [0; 2; 0; 0; 0; 0]%Z [0; 2; 0; 0; 0; 0]%Z 1 (repeat 0%Z 6) h_one (fun _ _ => Some (Flat [a; b])).
Example C87_ex : read (fun _ => None) (fun s => if String.eqb s "snap.hdf5" then Some (hI 5 (2 ^ 53)) else None) (fun _ => r53) (fun _ x => x) "snap" "ID  " [1]%nat = GOk [Some [5]%Z; Some [2 ^ 53]%Z].
Proof.
  rewrite (C87_partial _ _ _ (ex_rows "ID  ") "snap" "snap.hdf5" (hI 5 (2 ^ 53)) [hI 5 (2 ^ 53)] 1); [reflexivity | reflexivity | reflexivity | left; split; reflexivity | now left | reflexivity |].
  intros f [<-|[]]. exists [5; 2 ^ 53]%Z. repeat split; try reflexivity. repeat constructor; vm_compute; intros; discriminate.
Qed.
(** Two particles are given the same ID. *)
Theorem C87_refuted : exists h5 f a b, h5 "snap.hdf5"%string = Some f /\ f_data f 1 "ID  " = Some (Flat [a; b]) /\ (0 <= a < b)%Z /\ (b < 2 ^ 64)%Z /\
  read (fun _ => None) h5 (fun _ => r53) (fun _ x => x) "snap" "ID  " [1]%nat = GOk [Some [a]; Some [a]].
Proof. exists (fun s => if String.eqb s "snap.hdf5" then Some (hI (2 ^ 53) (2 ^ 53 + 1)) else None), (hI (2 ^ 53) (2 ^ 53 + 1)), (2 ^ 53)%Z, (2 ^ 53 + 1)%Z. repeat split; vm_compute; try reflexivity; discriminate. Qed.
Print Assumptions C87_refuted.
