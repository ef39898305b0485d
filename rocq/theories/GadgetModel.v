(** Model of the Gadget snapshot readers: cosmic_profiles/gadget/readsnap.py (binary formats 1 and 2)
    and cosmic_profiles/gadget/readgadget.py. Files are lists of bytes (Z in [0, 256)); the machine is
    little-endian, as NumPy's native types on x86 and ARM. Floating point numbers in binary files are
    their 64-bit patterns. *)
From Coq Require DecimalString.
From Coq Require Import String Bool ZArith List.
Import ListNotations.
Local Open Scope Z_scope.

(** ** Exceptions. sys.exit() with the message printed before it *)
Inductive gmsg := FileNotFound | IncorrectFormat | BlockNotFound | SomethingWrong | WrongParttype | UnknownBlock | NoDataForType | WrongBlocksize.
Inductive gerr := SysExit (m : gmsg) | GIndexError | GValueError | GUnboundLocalError | GException | GOSError | OutOfFuel.
Inductive gres (A : Type) := GOk (a : A) | GErr (e : gerr).
Arguments GOk {A}. Arguments GErr {A}.
Definition gbind {A B} (x : gres A) (f : A -> gres B) : gres B := match x with GOk a => f a | GErr e => GErr e end.

(** ** Words *)
Definition byte_ok (b : Z) : Prop := 0 <= b < 256.
(** Value of a native (little-endian) unsigned word, and its bytes. *)
Fixpoint le (l : list Z) : Z := match l with [] => 0 | b :: l => b + 256 * le l end.
Fixpoint to_le (k : nat) (v : Z) : list Z := match k with O => [] | S k => v mod 256 :: to_le k (v / 256) end.
(** ndarray.byteswap of a word of k bytes. *)
Definition byteswap (k : nat) (v : Z) : Z := le (rev (to_le k v)).
(** int32 from the unsigned value. *)
Definition s32 (v : Z) : Z := if v <? 2 ^ 31 then v else v - 2 ^ 32.
(** np.fromfile(f, dtype, count=1)[0] at position [pos], a word of k bytes. *)
Definition word_at (bs : list Z) (pos k : nat) : gres Z :=
  let w := firstn k (skipn pos bs) in if Nat.eqb (length w) k then GOk (le w) else GErr GIndexError.
(** np.fromfile(f, dtype, count=c): c words, fewer at the end of the file. *)
Fixpoint words_at (bs : list Z) (pos k c : nat) : list Z :=
  match c with
  | O => []
  | S c => match word_at bs pos k with GOk w => w :: words_at bs (pos + k) k c | GErr _ => [] end
  end.
(** if swap: x.byteswap(). *)
Definition swp (swap : bool) (k : nat) (v : Z) : Z := if swap then byteswap k v else v.
(** 64-bit patterns: x == 0 and x > 0. *)
Definition fzero (w : Z) : bool := (w =? 0) || (w =? 2 ^ 63).
Definition fpos (w : Z) : bool := (0 <? w) && (w <=? 2047 * 2 ^ 52).

(** ** snapshot_header, lines 34-101 *)
Record header := mkHeader {
  h_format : Z; h_swap : bool; h_npart : list Z; h_massarr : list Z; h_time : Z; h_redshift : Z; h_sfr : Z; h_feedback : Z;
  h_nall : list Z; h_cooling : Z; h_filenum : Z; h_boxsize : Z; h_omega_m : Z; h_omega_l : Z; h_hubble : Z }.
(** Lines 47-64. *)
Definition detect (w : Z) : gres (Z * bool) :=
  if s32 w =? 8 then GOk (2, false)
  else if s32 w =? 256 then GOk (1, false)
  else let w' := byteswap 4 w in
       if s32 w' =? 8 then GOk (2, true)
       else if s32 w' =? 256 then GOk (1, true)
       else GErr (SysExit IncorrectFormat).
(** Lines 46-101. A short read of an array (lines 72, 73, 78) leaves too few bytes for the scalar after
    it, which raises IndexError. *)
Definition parse_header (bs : list Z) : gres header :=
  gbind (word_at bs 0 4) (fun w => gbind (detect w) (fun d =>
  let (format, swap) := d in
  let p := if format =? 2 then 20%nat else 4%nat in
  let i32 o := gbind (word_at bs (p + o) 4) (fun w => GOk (s32 (swp swap 4 w))) in
  let f64 o := gbind (word_at bs (p + o) 8) (fun w => GOk (swp swap 8 w)) in
  let npart := map (fun w => s32 (swp swap 4 w)) (words_at bs p 4 6) in
  let massarr := map (swp swap 8) (words_at bs (p + 24) 8 6) in
  gbind (f64 72%nat) (fun time => gbind (f64 80%nat) (fun redshift => gbind (i32 88%nat) (fun sfr => gbind (i32 92%nat) (fun feedback =>
  let nall := map (swp swap 4) (words_at bs (p + 96) 4 6) in
  gbind (i32 120%nat) (fun cooling => gbind (i32 124%nat) (fun filenum => gbind (f64 128%nat) (fun boxsize =>
  gbind (f64 136%nat) (fun omega_m => gbind (f64 144%nat) (fun omega_l => gbind (f64 152%nat) (fun hubble =>
  GOk (mkHeader format swap npart massarr time redshift sfr feedback nall cooling filenum boxsize omega_m omega_l hubble))))))))))))).

(** ** find_block, lines 105-164, only_list_blocks=False, on the bytes of the file *)
(** Line 121, block == curblock: a str and the bytes read from a file opened with 'rb' are never equal
    in Python 3. *)
Definition str_eq_bytes (block : string) (curblock : list Z) : bool := false.
(** Lines 117-156, with the position of the file and curblock_num. *)
Fixpoint find_loop (fuel : nat) (bs : list Z) (format : Z) (swap : bool) (block : string) (block_num : Z) (pos : nat) (cur : Z) : gres (nat * Z) :=
  match fuel with
  | O => GErr OutOfFuel
  | S fuel =>
    if Nat.ltb pos (length bs) then
      let pos1 := if format =? 2 then (pos + 16)%nat else pos in
      let found := if format =? 2 then str_eq_bytes block (firstn 4 (skipn (pos + 4) bs)) else cur =? block_num in
      gbind (word_at bs pos1 4) (fun w =>
      let size := swp swap 4 w in
      if found then GOk ((pos1 + 4)%nat, size)
      else
        let pos2 := (pos1 + 4 + Z.to_nat size)%nat in
        gbind (word_at bs pos2 4) (fun w2 =>
        if size =? swp swap 4 w2 then find_loop fuel bs format swap block block_num (pos2 + 4) (cur + 1)
        else GErr (SysExit SomethingWrong)))
    else GErr (SysExit BlockNotFound)
  end.
(** Every pass reads 8 bytes or ends the loop: S (length bs) passes suffice (C56_fuel). *)
Definition find_block (bs : list Z) (format : Z) (swap : bool) (block : string) (block_num : Z) : gres (nat * Z) :=
  find_loop (S (length bs)) bs format swap block block_num 0 1.

(** ** read_block, lines 169-388 *)
(** Data types: words per item and bytes per word. *)
Record dtype := mkDt { d_words : nat; d_width : nat }.
Definition itemsize (dt : dtype) : nat := (d_words dt * d_width dt)%nat.
Definition f64 := mkDt 1 8. Definition f64x3 := mkDt 3 8. Definition u32 := mkDt 1 4. Definition u64 := mkDt 1 8. Definition i64 := mkDt 1 8.
Definition item := list Z.
Definition only (ts : list nat) : list bool := map (fun j => existsb (Nat.eqb j) ts) (seq 0 6).
Definition everything : list bool := only (seq 0 6).
(** Lines 218-301: data_for_type, dt, block_num. *)
Definition describe (block : string) (massarr : list Z) (blockadd blocksub : Z) : option (list bool * dtype * Z) :=
  let eq := String.eqb block in
  if eq "POS "%string then Some (everything, f64x3, 2)
  else if eq "VEL "%string then Some (everything, f64x3, 3)
  else if eq "ID  "%string then Some (everything, u32, 4)
  else if eq "ACCE"%string then Some (everything, f64x3, 5)
  else if eq "MASS"%string then Some (map fzero massarr, f64, 5)
  else if eq "U   "%string then Some (only [0%nat], f64, 6 - blocksub)
  else if eq "RHO "%string then Some (only [0%nat], f64, 7 - blocksub)
  else if eq "VOL "%string then Some (only [0%nat], f64, 8 - blocksub)
  else if eq "CMCE"%string then Some (only [0%nat], f64x3, 9 - blocksub)
  else if eq "AREA"%string then Some (only [0%nat], f64, 10 - blocksub)
  else if eq "NFAC"%string then Some (only [0%nat], i64, 11 - blocksub)
  else if eq "NE  "%string then Some (only [0%nat], f64, 8 + blockadd - blocksub)
  else if eq "NH  "%string then Some (only [0%nat], f64, 9 + blockadd - blocksub)
  else if eq "HSML"%string then Some (only [0%nat], f64, 10 + blockadd - blocksub)
  else if eq "SFR "%string then Some (only [0%nat], f64, 11 + blockadd - blocksub)
  else if eq "MHI "%string then Some (only [0%nat], f64, 12 + blockadd - blocksub)
  else if eq "TEMP"%string then Some (only [0%nat], f64, 13 + blockadd - blocksub)
  else if eq "AGE "%string then Some (only [4%nat], f64, 12 + blockadd - blocksub)
  else if eq "Z   "%string then Some (only [0%nat; 4%nat], f64, 13 + blockadd - blocksub)
  else if eq "BHMA"%string then Some (only [5%nat], f64, 14 + blockadd - blocksub)
  else if eq "BHMD"%string then Some (only [5%nat], f64, 15 + blockadd - blocksub)
  else None.
(** Lines 364-367: items of type dt from position pos on, fewer at the end of the file. *)
Fixpoint items_at (bs : list Z) (pos : nat) (swap : bool) (dt : dtype) (c : nat) : list item :=
  match c with
  | O => []
  | S c => let ws := words_at bs pos (d_width dt) (d_words dt) in
           if Nat.eqb (length ws) (d_words dt) then map (swp swap (d_width dt)) ws :: items_at bs (pos + itemsize dt) swap dt c else []
  end.
(** Storing an item of type dt in an array of type dt0: uint64 into uint32 keeps the low 32 bits. *)
Definition store (dt0 dt : dtype) (x : item) : item := if Nat.ltb (d_width dt0) (d_width dt) then map (fun w => w mod 256 ^ Z.of_nat (d_width dt0)) x else x.
(** data[off:off+n] = vals, where None is memory np.empty did not initialise. The slice is clipped to the
    array; a single value is broadcast. *)
Definition cell := option item.
Definition assign (data : list cell) (off n : nat) (vals : list item) : gres (list cell) :=
  let lo := Nat.min off (length data) in let hi := Nat.min (off + n) (length data) in
  if Nat.eqb (length vals) (hi - lo) then GOk (firstn lo data ++ map Some vals ++ skipn hi data)
  else match vals with
       | [x] => GOk (firstn lo data ++ repeat (Some x) (hi - lo) ++ skipn hi data)
       | _ => GErr GValueError
       end.
(** Numbers of particles are not negative (line 365 would read the rest of the file). *)
Definition num (l : list Z) (j : nat) : nat := Z.to_nat (nth j l 0).
(** Lines 314-322 and 338-343: running sums over the species flagged. *)
Definition offsets (flags : list bool) (n : nat -> nat) : nat -> nat :=
  fun j => fold_right (fun i s => ((if nth i flags false then n i else 0) + s)%nat) 0%nat (seq 0 j).
Definition str_of_nat (i : nat) : string := DecimalString.NilZero.string_of_uint (Nat.to_uint i).
Section Snapshot.
  (** The regular files and their contents. *)
  Variable fs : string -> option (list Z).
  (** Lines 37-43 and 46. *)
  Definition snapshot_header (filename : string) : gres header :=
    match fs filename with
    | Some bs => parse_header bs
    | None => match fs (filename ++ ".0")%string with Some bs => parse_header bs | None => GErr (SysExit FileNotFound) end
    end.
  (** Lines 106-110. *)
  Definition find_block_in (filename : string) (format : Z) (swap : bool) (block : string) (block_num : Z) : gres (nat * Z) :=
    match fs filename with Some bs => find_block bs format swap block block_num | None => GErr (SysExit FileNotFound) end.
  (** math.sqrt(time) * x on bit patterns, line 386. *)
  Variable sqrt_mul : Z -> Z -> Z.
  (** Lines 369-378 for species js; curdat has been read, so is the offset of the species in it. *)
  Fixpoint fill (js : list nat) (actual : list bool) (mass : bool) (massarr : list Z) (parttype : Z) (npart : list Z) (conv : item -> item) (curdat : list item) (cur_off : nat -> nat)
    (data : list cell) (off : nat -> nat) : gres (list cell * (nat -> nat)) :=
    match js with
    | [] => GOk (data, off)
    | j :: js =>
      if nth j actual false then
        let n := num npart j in
        gbind (if mass && fpos (nth j massarr 0) then assign data (off j) n (repeat [nth j massarr 0] (Nat.min (off j + n) (length data) - Nat.min (off j) (length data)))
               else if 0 <=? parttype then assign data (off j) n (map conv curdat)
               else assign data (off j) n (map conv (firstn n (skipn (cur_off j) curdat)))) (fun data =>
        fill js actual mass massarr parttype npart conv curdat cur_off data (fun i => if Nat.eqb i j then (off i + n)%nat else off i))
      else fill js actual mass massarr parttype npart conv curdat cur_off data off
    end.
  (** Lines 328-382. [dt0] is the type of the array, [dt] that of the file, fixed at i = 0. *)
  Fixpoint files (is : list nat) (filename : string) (single : bool) (filenum format : Z) (swap : bool) (block : string) (block_num parttype : Z) (flags actual : list bool) (massarr : list Z) (dt0 : dtype)
    (curfilename : string) (npart : list Z) (dt : dtype) (data : list cell) (off : nat -> nat) : gres (list cell) :=
    match is with
    | [] => GOk data
    | i :: is =>
      let curfilename := if negb single && (1 <? filenum) then (filename ++ "." ++ str_of_nat i)%string else curfilename in
      gbind (if Nat.ltb 0 i then gbind (snapshot_header curfilename) (fun h => GOk (h_npart h)) else GOk npart) (fun npart =>
      let cur_off := offsets flags (num npart) in
      let curpartnum := cur_off 6%nat in
      let actual_cur := if 0 <=? parttype then num npart (Z.to_nat parttype) else curpartnum in
      let add := if 0 <=? parttype then cur_off (Z.to_nat parttype) else 0%nat in
      gbind (find_block_in curfilename format swap block block_num) (fun r =>
      let (offset, blocksize) := r in
      let dt := if Nat.eqb i 0 && String.eqb block "ID  " && (blocksize =? Z.of_nat (itemsize dt * curpartnum * 2)) then u64 else dt in
      if negb (Z.of_nat (itemsize dt * curpartnum) =? blocksize) then GErr (SysExit WrongBlocksize)
      else
        let curdat := match fs curfilename with Some bs => items_at bs (offset + add * itemsize dt) swap dt actual_cur | None => [] end in
        gbind (fill (seq 0 6) actual (String.eqb block "MASS") massarr parttype npart (store dt0 dt) curdat cur_off data off) (fun s =>
        let (data, off) := s in
        if single then GOk data
        else files is filename single filenum format swap block block_num parttype flags actual massarr dt0 curfilename npart dt data off)))
    end.
  (** physical_velocities=True and nall not given, as in every call of the package. arepo and no_masses
      are given by blockadd (0, 1, 4) and blocksub (0, 1). *)
  Definition read_block (filename block : string) (parttype blockadd blocksub : Z) : gres (list cell) :=
    if negb ((-1 <=? parttype) && (parttype <=? 5)) then GErr (SysExit WrongParttype)
    else
      match (match fs filename with Some _ => Some (filename, true) | None => match fs (filename ++ ".0")%string with Some _ => Some ((filename ++ ".0")%string, false) | None => None end end) with
      | None => GErr GUnboundLocalError
      | Some (curfilename, single) =>
        gbind (snapshot_header curfilename) (fun head =>
        let massarr := h_massarr head in
        let count := if single then num (h_npart head) else num (h_nall head) in
        match describe block massarr blockadd blocksub with
        | None => GErr (SysExit UnknownBlock)
        | Some (flags, dt, block_num) =>
          if String.eqb block "MASS" && (0 <=? parttype) && fpos (nth (Z.to_nat parttype) massarr 0) then
            GOk (repeat (Some [nth (Z.to_nat parttype) massarr 0]) (count (Z.to_nat parttype)))
          else if (0 <=? parttype) && negb (nth (Z.to_nat parttype) flags false) then GErr (SysExit NoDataForType)
          else
            let actual := if 0 <=? parttype then only [Z.to_nat parttype] else if String.eqb block "MASS" then everything else flags in
            let off := offsets actual count in
            gbind (files (seq 0 (Z.to_nat (h_filenum head))) filename single (h_filenum head) (h_format head) (h_swap head) block block_num parttype flags actual massarr dt
                     curfilename (h_npart head) dt (repeat None (off 6%nat)) off) (fun data =>
            GOk (if String.eqb block "VEL " && negb (fzero (h_redshift head)) then map (option_map (map (sqrt_mul (h_time head)))) data else data))
        end)
      end.
End Snapshot.

(** ** fname_format, readgadget.py lines 16-30; os.path.exists is arbitrary *)
Inductive fformat := Hdf5 | Binary.
(** s[-4:]. *)
Definition last4 (s : string) : string := substring (String.length s - 4) (String.length s) s.
Definition fname_format (exists_ : string -> bool) (snapshot : string) : gres (string * fformat) :=
  if exists_ snapshot then
    if String.eqb (last4 snapshot) "hdf5" then GOk (snapshot, Hdf5) else GOk (snapshot, Binary)
  else if exists_ (snapshot ++ ".0")%string then GOk ((snapshot ++ ".0")%string, Binary)
  else if exists_ (snapshot ++ ".hdf5")%string then GOk ((snapshot ++ ".hdf5")%string, Hdf5)
  else if exists_ (snapshot ++ ".0.hdf5")%string then GOk ((snapshot ++ ".0.hdf5")%string, Hdf5)
  else GErr GException.
