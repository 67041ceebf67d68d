(* Property theorems C01, C02, C03 and the refuted claim C51. *)
From Verif Require Import Base BaseProofs IoModel IoSpec IoProofs.

(* C01: rows start:stop:step of a stack of files are the rows with those numbers
   of the concatenation of the files. *)
Theorem C01_stack_read : forall (A : Type) (files : list (list A)) start stop step,
  files <> [] -> 0 <= start <= stop -> stop <= zlen (concat files) -> 1 <= step ->
  exists out, stack_read files start stop step = Ok out /\
              rows_at (concat files) (py_range start stop step) out.
Proof. intros A files start stop step Hne. exact (stack_reads_slices files Hne start stop step). Qed.
Print Assumptions C01_stack_read.

Example C01_stack_read_ex :
  stack_read [[10; 11; 12]; []; [13]; [14; 15; 16; 17]] 1 7 2 = Ok [11; 13; 15].
Proof. reflexivity. Qed.

(* C01: rows beyond the end of the stack are refused, not invented. *)
Theorem C01_stack_past_end : forall (A : Type) (files : list (list A)) start stop step,
  start <= stop -> zlen (concat files) < stop ->
  exists e, stack_read files start stop step = Err e.
Proof. exact @stack_read_past_end. Qed.
Print Assumptions C01_stack_past_end.

Example C01_stack_past_end_ex : zlen (concat [[1; 2]; [3]]) < 4 /\ stack_read [[1; 2]; [3]] 0 4 1 = Err IndexError.
Proof. split; [reflexivity|reflexivity]. Qed.

(* C01: Python slicing f[a:b:s] of a stack agrees with slicing the concatenated
   rows for every slice with positive step whose normalised start is not past
   its normalised stop. *)
Theorem C01_stack_getitem_slice : forall (A : Type) (files : list (list A)) start stop step a b s,
  files <> [] ->
  slice_indices start stop step (zlen (concat files)) = Ok (a, b, s) -> 0 < s -> a <= b ->
  exists out,
    getitem_rows (stack_read files) (zlen (concat files)) (RSlice start stop step) = Ok out /\
    py_slice (concat files) start stop step = Ok out.
Proof. intros A files start stop step a b s Hne. exact (getitem_slice_ok (concat files) (stack_read files) start stop step a b s (stack_reads_slices files Hne)). Qed.
Print Assumptions C01_stack_getitem_slice.

Example C01_stack_getitem_slice_ex :
  slice_indices (Some (-5)) None (Some 3) (zlen (concat [[1; 2; 3]; [4; 5; 6]])) = Ok (1, 6, 3) /\
  getitem_rows (stack_read [[1; 2; 3]; [4; 5; 6]]) 6 (RSlice (Some (-5)) None (Some 3)) = Ok [2; 5].
Proof. split; reflexivity. Qed.

(* C51: not every Python slice works: a negative
   step is not supported by a stack ... *)
Theorem C51_negative_step_refuted :
  exists (files : list (list Z)),
    files <> [] /\ py_slice (concat files) None None (Some (-1)) = Ok [3; 2; 1] /\
    getitem_rows (stack_read files) (zlen (concat files)) (RSlice None None (Some (-1)))
      <> Ok [3; 2; 1].
Proof. exists [[1; 2]; [3]]. repeat split; vm_compute; discriminate. Qed.
Print Assumptions C51_negative_step_refuted.

(* ... and an empty slice with start past stop raises instead of being empty. *)
Theorem C51_reversed_bounds_refuted :
  exists (files : list (list Z)) a b,
    files <> [] /\ py_slice (concat files) (Some a) (Some b) None = Ok [] /\
    exists e, getitem_rows (stack_read files) (zlen (concat files)) (RSlice (Some a) (Some b) None) = Err e.
Proof. exists [[1; 2]; [3]], 2, 1. repeat split; try discriminate. eexists; vm_compute; reflexivity. Qed.
Print Assumptions C51_reversed_bounds_refuted.

(* C02: a boolean mask selects exactly the masked rows, in order. *)
Theorem C02_mask : forall (A : Type) (rows : list A) read m,
  reads_slices rows read -> zlen m = zlen rows -> In true m ->
  getitem_rows read (zlen rows) (RMask m) = Ok (masked rows m).
Proof. exact @getitem_mask_ok. Qed.
Print Assumptions C02_mask.

(* the hypothesis on the reader is met by a stack of files *)
Theorem C02_stack_is_reader : forall (A : Type) (files : list (list A)),
  files <> [] -> reads_slices (concat files) (stack_read files).
Proof. exact @stack_reads_slices. Qed.
Print Assumptions C02_stack_is_reader.

(* ... and by each column of a flat binary file *)
Theorem C02_binary_is_reader : forall (B : Type) (header : list B) size itemsizes table c col,
  well_formed size itemsizes table -> nth_error table c = Some col ->
  reads_slices col (fun a b s =>
    match binary_read (layout header table) (zlen header) size itemsizes [c] a b s with
    | Ok [x] => Ok x | Ok _ => Err OutOfContract | Err e => Err e end).
Proof. exact @binary_reads_slices. Qed.
Print Assumptions C02_binary_is_reader.

Example C02_mask_ex :
  getitem_rows (stack_read [[1; 2]; [3; 4; 5]]) 5 (RMask [false; true; true; false; true]) = Ok [2; 3; 5].
Proof. reflexivity. Qed.

(* C51: a mask that selects nothing raises instead of returning no rows. *)
Theorem C51_empty_mask_raises_partial : forall (A : Type) (rows : list A) (read : Z -> Z -> Z -> res (list A)) m,
  ~ In true m -> getitem_rows read (zlen rows) (RMask m) = Err ValueError.
Proof. exact @getitem_mask_none. Qed.
Print Assumptions C51_empty_mask_raises_partial.

Theorem C51_empty_mask_refuted :
  exists (files : list (list Z)) m, files <> [] /\ zlen m = zlen (concat files) /\
    masked (concat files) m = [] /\
    getitem_rows (stack_read files) (zlen (concat files)) (RMask m) = Err ValueError.
Proof. exists [[1; 2]], [false; false]. repeat split; discriminate. Qed.
Print Assumptions C51_empty_mask_refuted.

(* C02: a list of row numbers returns those rows in the listed order with repetitions. *)
Theorem C02_ints : forall (A : Type) (rows : list A) read l,
  reads_slices rows read -> l <> [] -> Forall (fun i => - zlen rows <= i < zlen rows) l ->
  exists out, getitem_rows read (zlen rows) (RInts l) = Ok out /\
              rows_at rows (map (from_end (zlen rows)) l) out.
Proof. exact @getitem_ints_ok. Qed.
Print Assumptions C02_ints.

Example C02_ints_ex :
  getitem_rows (stack_read [[10; 20]; [30; 40; 50]]) 5 (RInts [3; 4; 4; 0; 1; 2; -1]) =
  Ok [40; 50; 50; 10; 20; 30; 50].
Proof. reflexivity. Qed.

(* C02: an integer picks one row; negative integers count from the end. *)
Theorem C02_int : forall (A : Type) (rows : list A) read i,
  reads_slices rows read -> - zlen rows <= i < zlen rows ->
  exists x, getitem_rows read (zlen rows) (RInt i) = Ok [x] /\
            nth_error rows (Z.to_nat (from_end (zlen rows) i)) = Some x.
Proof. exact @getitem_int_ok. Qed.
Print Assumptions C02_int.

(* C02: slices with positive step *)
Theorem C02_slice : forall (A : Type) (rows : list A) read start stop step a b s,
  reads_slices rows read ->
  slice_indices start stop step (zlen rows) = Ok (a, b, s) -> 0 < s -> a <= b ->
  exists out, getitem_rows read (zlen rows) (RSlice start stop step) = Ok out /\
              py_slice rows start stop step = Ok out.
Proof. exact @getitem_slice_ok. Qed.
Print Assumptions C02_slice.

(* C03: reading columns of a flat binary file returns the rows of those columns. *)
Theorem C03_binary_read : forall (B : Type) (header : list B) size itemsizes table columns start stop step,
  well_formed size itemsizes table -> Forall (fun c => (c < length table)%nat) columns ->
  0 <= start <= stop -> stop <= size -> 1 <= step ->
  binary_read (layout header table) (zlen header) size itemsizes columns start stop step
  = Ok (map (fun c => select (nth c table []) (py_range start stop step)) columns).
Proof. exact @binary_read_ok. Qed.
Print Assumptions C03_binary_read.

Example C03_binary_read_ex :
  let table := [[[1]; [2]; [3]]; [[11; 12]; [21; 22]; [31; 32]]] in
  well_formed 3 [1; 2] table /\
  binary_read (layout [99; 98] table) 2 3 [1; 2] [1%nat; 0%nat] 0 3 2 =
    Ok [[[11; 12]; [31; 32]]; [[1]; [3]]].
Proof. split; [|reflexivity]. repeat constructor; lia. Qed.

(* C03: the number of rows inferred from the length of the file is exact ... *)
Theorem C03_getsize : forall (B : Type) (header : list B) size itemsizes table,
  well_formed size itemsizes table -> table <> [] ->
  getsize (zlen (layout header table)) (zlen header) (zsum itemsizes) = Ok size.
Proof. exact @getsize_layout. Qed.
Print Assumptions C03_getsize.

(* ... and any accepted length is accounted for to the byte. *)
Theorem C03_getsize_exact : forall bytesize header_size rowsize n,
  getsize bytesize header_size rowsize = Ok n -> bytesize = header_size + n * rowsize.
Proof. exact getsize_exact. Qed.
Print Assumptions C03_getsize_exact.

Example C03_getsize_ex : getsize 26 2 8 = Ok 3 /\ getsize 27 2 8 = Err ValueError.
Proof. split; reflexivity. Qed.

(* C03: the offset used for a column is where that column starts in the file. *)
Theorem C03_offset_is_column_start : forall (B : Type) (header : list B) size itemsizes table c,
  well_formed size itemsizes table -> (c < length table)%nat ->
  default_byte_offset size itemsizes (zlen header) c = column_start header table c.
Proof. intros B header size itemsizes table c H. exact (default_byte_offset_spec size itemsizes table H (zlen header) c). Qed.
Print Assumptions C03_offset_is_column_start.

(* C03: no two columns share a byte: an earlier column ends before a later one starts. *)
Theorem C03_columns_disjoint : forall size itemsizes off c1 c2 k,
  0 <= size -> Forall (fun k => 0 <= k) itemsizes ->
  (c1 < c2)%nat -> nth_error itemsizes c1 = Some k -> (c2 <= length itemsizes)%nat ->
  default_byte_offset size itemsizes off c1 + size * k <= default_byte_offset size itemsizes off c2.
Proof. exact default_offset_mono. Qed.
Print Assumptions C03_columns_disjoint.

(* C51: an integer index past the end of a column is not refused: it returns bytes of the
   next column (no bounds check in FileType.__getitem__ or BinaryFile.read). *)
Theorem C51_binary_out_of_range_refuted :
  exists (table : list (list (list Z))) itemsizes size i x,
    well_formed size itemsizes table /\ i >= size /\
    getitem_rows (fun a b s => match binary_read (layout [] table) 0 size itemsizes [0%nat] a b s with
                               | Ok [x] => Ok x | Ok _ => Err OutOfContract | Err e => Err e end)
                 size (RInt i) = Ok [x].
Proof.
  exists [[[1]; [2]]; [[3]; [4]]], [1; 1], 2, 2, [3].
  split; [repeat constructor; lia|]. split; [lia|]. reflexivity.
Qed.
Print Assumptions C51_binary_out_of_range_refuted.

(* C51: an empty slice with start past stop raises ValueError (negative dimension). *)
Theorem C51_binary_reversed_bounds_refuted :
  exists (table : list (list (list Z))) itemsizes size a b,
    well_formed size itemsizes table /\ 0 <= b < a /\ a <= size /\
    py_slice (nth 0 table []) (Some a) (Some b) None = Ok [] /\
    binary_read (layout [] table) 0 size itemsizes [0%nat] a b 1 = Err ValueError.
Proof.
  exists [[[1]; [2]]], [1], 2, 2, 1.
  split; [repeat constructor; lia|]. repeat split; lia.
Qed.
Print Assumptions C51_binary_reversed_bounds_refuted.
