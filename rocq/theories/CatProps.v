(** Properties C16-C22 and C67. *)
From Coq Require Import List ZArith QArith Bool Permutation Lia.
From Verif Require Import ParModel CatModel CatSpec CatProofs CatPar CatMpi.
Import ListNotations.

(** ** C16 *)

(** Full property: accepted iff legal. It fails: lists are truncated before the check. *)
Theorem C16_selection_refuted :
  ~ (forall s n, (exists used, select s n = inl used) <-> legal (entries s) n).
Proof.
  intros H. destruct (proj1 (H (SelList [(7 # 10)%Q]) 3%Z)) as (_ & Hi & _).
  - exists [0%Q]. reflexivity.
  - inversion Hi as [|x l [z Hz] _]; subst. unfold Qeq, inject_Z in Hz. simpl in Hz. lia.
Qed.
Print Assumptions C16_selection_refuted.

(** Missing: lists with fractional entries. Arrays and lists of integers are accepted iff
    legal, the indices used are then the ones given, and everything else is a ValueError. *)
Theorem C16_selection_partial : forall s n,
  (match s with SelArray _ => True | SelList l => Forall is_int l end) ->
  ((exists used, select s n = inl used) <-> legal (entries s) n) /\
  (forall used, select s n = inl used -> Forall2 Qeq (entries s) used) /\
  (forall e, select s n = inr e -> e = CValueError).
Proof.
  intros s n Hs.
  set (arr := match s with SelList l => map (fun x => inject_Z (trunc x)) l | SelArray l => l end).
  assert (Ha : Forall2 Qeq (entries s) arr).
  { unfold arr. destruct s as [l|l]; simpl in *.
    - apply trunc_list_eq; auto.
    - clear. induction l; constructor; auto. reflexivity. }
  assert (Hiff : isValidSelection arr n = inl true <-> legal (entries s) n).
  { rewrite isValidSelection_ok. split; apply legal_ext; auto. apply Forall2_sym_Qeq; auto. }
  assert (Hsel : select s n = match isValidSelection arr n with inl _ => inl arr | inr e => inr e end)
    by reflexivity.
  rewrite Hsel. destruct (isValidSelection_total arr n) as [E|E]; rewrite E.
  - rewrite E in Hiff. split; [split|split].
    + intros _. apply Hiff. reflexivity.
    + intros _. eauto.
    + intros used [= <-]. exact Ha.
    + discriminate.
  - rewrite E in Hiff. split; [split|split].
    + intros [used Hu]. discriminate.
    + intros Hl. apply Hiff in Hl. discriminate.
    + discriminate.
    + congruence.
Qed.
Print Assumptions C16_selection_partial.

Example C16_example :
  select (SelArray [2%Q; 0%Q]) 3 = inl [2%Q; 0%Q] /\
  select (SelArray [2%Q; (1 # 2)%Q]) 3 = inr CValueError /\
  select (SelArray [2%Q; 2%Q]) 3 = inr CValueError /\
  select (SelArray [3%Q]) 3 = inr CValueError.
Proof. repeat split. Qed.

(** ** C17 *)

(** Selecting the objects [sel] gives exactly their particles, in selection order. *)
Theorem C17_subset : forall (X : Type) (objs : list (list X)) (sel : list nat) (chosen : list (list X)),
  Forall2 (fun p o => nth_error objs p = Some o) sel chosen ->
  getSubSetIdxCat (concat objs) (map (@length X) objs) sel = Some (concat chosen).
Proof. exact @getSubSet_ok. Qed.
Print Assumptions C17_subset.

(** An object number beyond the catalogue is an error, never a wrong list. *)
Theorem C17_out_of_range : forall (X : Type) (idx_cat : list X) sizes sel p,
  In p sel -> (length sizes <= p)%nat -> getSubSetIdxCat idx_cat sizes sel = None.
Proof. exact @getSubSet_bad. Qed.
Print Assumptions C17_out_of_range.

Example C17_example :
  getSubSetIdxCat [1; 2; 3; 4; 5; 6]%nat [2; 0; 1; 3]%nat [3; 0]%nat = Some [4; 5; 6; 1; 2]%nat.
Proof. reflexivity. Qed.

(** ** C18 *)

(** The constructor keeps the large objects: indices, radii and sizes stay aligned. *)
Theorem C18_constructor : forall (A : Type) (scale : A -> A) arg (r : list A) minp,
  objects_of arg <> [] -> length r = length (objects_of arg) ->
  let kept := large minp (objects_of arg) r in
  construct_cat scale arg r minp =
  Some (concat (map fst kept), map (fun or => scale (snd or)) kept,
        map (fun or => length (fst or)) kept).
Proof. intros A scale arg r minp H1 H2. apply construct_ok; auto. Qed.
Print Assumptions C18_constructor.

(** Object k of the built catalogue, taken by its number, is the k-th large object. *)
Theorem C18_object_k : forall (A : Type) (scale : A -> A) arg (r : list A) minp cat rs sizes,
  objects_of arg <> [] -> length r = length (objects_of arg) ->
  construct_cat scale arg r minp = Some (cat, rs, sizes) ->
  forall k o x, nth_error (large minp (objects_of arg) r) k = Some (o, x) ->
    getSubSetIdxCat cat sizes [k] = Some o /\
    nth_error sizes k = Some (length o) /\ nth_error rs k = Some (scale x).
Proof.
  intros A scale arg r minp cat rs sizes H1 H2 HC k o x Hk.
  rewrite (C18_constructor A scale arg r minp H1 H2) in HC. injection HC as <- <- <-.
  rewrite !nth_error_map, Hk. repeat split.
  rewrite <- (map_map fst (@length nat)).
  rewrite (getSubSet_ok (map fst (large minp (objects_of arg) r)) [k] [o]).
  - simpl. rewrite app_nil_r. reflexivity.
  - constructor; [|constructor]. rewrite nth_error_map, Hk. reflexivity.
Qed.
Print Assumptions C18_object_k.

Example C18_example :
  construct_cat (fun x : nat => (10 * x)%nat) (Nested [[7; 8]; [9]; [3; 4; 5]]%nat) [1; 2; 3]%nat 2 =
    Some ([7; 8; 3; 4; 5], [10; 30], [2; 3])%nat /\
  construct_cat (fun x : nat => x) (Flat [7; 8]%nat) [1]%nat 2 = Some ([7; 8], [1], [2])%nat.
Proof. split; reflexivity. Qed.

(** ** C19, C20 *)

(** For group tables written halo by halo (subhalo sizes of all halos one after the other,
    possibly followed by further subhalos), every execution of calcObjCat under any thread
    schedule returns the kept halos; an empty table is an error. *)
Theorem C19_catalogue : forall (A : Type) (zero : A) (hs : list (halo A)) (rest : list nat) minp out,
  calcObjCat A zero (map (fun h => length (h_subs h)) hs) (concat (map h_subs hs) ++ rest)
             (map h_fof hs) (map h_r hs) minp out <->
  out = match hs with [] => None | _ => Some (wanted minp hs) end.
Proof.
  intros A zero hs rest minp out. split.
  - apply (calcObjCat_wanted A zero hs rest minp).
  - intros ->.
    destruct (calcObjCat_exists A zero (map (fun h => length (h_subs h)) hs)
                (concat (map h_subs hs) ++ rest) (map h_fof hs) (map h_r hs) minp) as [out H].
    pose proof (calcObjCat_wanted A zero hs rest minp out H) as E. rewrite <- E. exact H.
Qed.
Print Assumptions C19_catalogue.

(** Any two executions agree. *)
Theorem C20_schedule_independent : forall (A : Type) (zero : A) (hs : list (halo A)) rest minp out1 out2,
  let run := calcObjCat A zero (map (fun h => length (h_subs h)) hs) (concat (map h_subs hs) ++ rest)
                        (map h_fof hs) (map h_r hs) minp in
  run out1 -> run out2 -> out1 = out2.
Proof.
  intros A zero hs rest minp out1 out2 run H1 H2. unfold run in *.
  apply C19_catalogue in H1. apply C19_catalogue in H2. congruence.
Qed.
Print Assumptions C20_schedule_independent.

(** Two halos are kept, one has no subhalo, one is too small. *)
Example C19_example :
  wanted 3 [mkHalo [3; 1] 6 10; mkHalo [] 4 11; mkHalo [2; 2] 5 12; mkHalo [4] 4 13]%nat =
  ([0; 1; 2; 15; 16; 17; 18], [10; 13], [3; 4])%nat.
Proof. reflexivity. Qed.
(** These halos have runs, and all of them return that catalogue. *)
Example C20_example : forall out,
  calcObjCat nat 0%nat [2; 0; 2; 1]%nat [3; 1; 2; 2; 4; 9]%nat [6; 4; 5; 4]%nat [10; 11; 12; 13]%nat 3 out <->
  out = Some ([0; 1; 2; 15; 16; 17; 18], [10; 13], [3; 4])%nat.
Proof. exact (C19_catalogue nat 0%nat [mkHalo [3; 1] 6 10; mkHalo [] 4 11; mkHalo [2; 2] 5 12; mkHalo [4] 4 13]%nat [9]%nat 3). Qed.

(** ** C21 *)
Theorem C21_every_file_once : forall n size, (1 <= size)%nat -> (1 <= n)%nat ->
  concat (map (my_files n size) (seq 0 size)) = seq 0 n.
Proof. intros n size Hs Hn. rewrite <- flat_map_concat_map. apply ranges_all; auto. Qed.
Print Assumptions C21_every_file_once.

Example C21_example : map (my_files 7 3) (seq 0 3) = [[0; 1]; [2; 3]; [4; 5; 6]]%nat /\
  map (my_files 2 4) (seq 0 4) = [[0]; [1]; []; []]%nat.
Proof. split; reflexivity. Qed.

(** ** C22 *)

(** [garbage] is the uninitialised receive buffer, allocated with the total length. *)
Theorem C22_collected : forall (X : Type) (files : list (list X)) limit size garbage,
  (1 <= size)%nat -> files <> [] -> length garbage = length (concat files) ->
  collected X files limit size garbage = concat files.
Proof.
  intros X files limit size garbage Hs Hf Hg. unfold collected.
  rewrite gatherv_ok; auto; [apply bcast_ok|]. rewrite counts_sum; auto.
Qed.
Print Assumptions C22_collected.

Example C22_example :
  collected nat [[1; 2; 3]; []; [4; 5]; [6; 7]; [8]]%nat 3 2 (repeat 0 8)%nat = [1; 2; 3; 4; 5; 6; 7; 8]%nat /\
  pieces 3 8 = 3%nat.
Proof. split; reflexivity. Qed.

(** ** C67 *)

(** The number of a group file is the digit run before ".hdf5". *)
Theorem C67_file_number : forall pre ds, ds <> [] -> Forall (fun d => (d <= 9)%nat) ds ->
  (pre <> [] -> isdigit (last pre 0%nat) = false) ->
  file_number (pre ++ chars ds ++ dot_hdf5) = Some (decimal ds).
Proof. exact file_number_ok. Qed.
Print Assumptions C67_file_number.

(** Whatever order glob returns the files in, whatever sorting permutation argsort picks
    and however many ranks there are: with distinct numbers the collected table is the
    concatenation of the files' tables in ascending number order. *)
Theorem C67_order_independent : forall (F X : Type) (number : F -> Z) (table : F -> list X)
    globbed canon sorted limit size garbage,
  (forall x y, In x globbed -> In y globbed -> number x = number y -> x = y) ->
  Permutation canon globbed -> ascending number canon ->
  sorted_files number globbed sorted -> globbed <> [] -> (1 <= size)%nat ->
  length garbage = length (concat (map table canon)) ->
  collected X (map table sorted) limit size garbage = concat (map table canon).
Proof.
  intros F X number table g canon sorted limit size garbage Hinj HP Hasc Hs Hne Hsz Hg.
  destruct (sorted_files_spec number g sorted Hs) as [HP2 Hasc2].
  assert (sorted = canon) as ->.
  { apply (sorted_unique number); auto.
    - intros x y Hx Hy. apply Hinj; eapply Permutation_in; eauto.
    - etransitivity; [exact HP2|symmetry; exact HP]. }
  apply C22_collected; auto.
  intros E. apply map_eq_nil in E. subst. apply Permutation_nil in HP. auto.
Qed.
Print Assumptions C67_order_independent.

(** "a.10.hdf5" sorts after "a.9.hdf5". *)
Example C67_example :
  let a := [97; 46]%nat ++ chars [1; 0]%nat ++ dot_hdf5 in
  let b := [97; 46]%nat ++ chars [9]%nat ++ dot_hdf5 in
  file_number a = Some 10%Z /\ file_number b = Some 9%Z /\
  sorted_files (fun f => match file_number f with Some z => z | None => 0%Z end) [a; b] [b; a].
Proof.
  repeat split. exists [1; 0]%nat. split; [|reflexivity]. split; [apply perm_swap|].
  intros i j Hij. simpl in Hij. assert (i = 0 /\ j = 1)%nat as [-> ->] by lia. simpl. unfold file_number; simpl. lia.
Qed.
