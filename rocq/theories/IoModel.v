(* Model of the row arithmetic of nbodykit/io: stacks of files, flat binary
   files and array-like indexing of files. *)
From Verif Require Import Base.

(* ------------------------------------------------------------------ *)
(* io/tools.py                                                          *)

(* get_slice_size, io/tools.py:3-23: divmod(stop-start, step), rounded up.
   Python's divmod is floored division, like Coq's Z.div / Z.modulo. *)
Definition get_slice_size (start stop step : Z) : res Z :=
  if step =? 0 then Err ZeroDivisionError
  else
    let n := (stop - start) / step in
    let r := (stop - start) mod step in
    Ok (if r =? 0 then n else n + 1).

(* io/tools.py:48 and 77: numpy.insert(numpy.cumsum(sizes), 0, 0) *)
Definition cumsizes (sizes : list Z) : list Z := 0 :: cumsum sizes.

(* global_to_local_slice, io/tools.py:25-52.  numpy raises IndexError for a
   file number past the end. *)
Definition global_to_local_slice (sizes : list Z) (start stop : Z) (fnum : nat)
  : res (Z * Z) :=
  match nth_error (cumsizes sizes) fnum, nth_error sizes fnum with
  | Some start_size, Some n =>
      Ok (Z.max (start - start_size) 0, Z.min (stop - start_size) n)
  | _, _ => Err IndexError
  end.

(* get_file_slice, io/tools.py:54-81: list(range(fnums[0], fnums[1]+1)) with
   fnums = searchsorted(cumsizes[1:], [start, stop]) *)
Definition get_file_slice (sizes : list Z) (start stop : Z) : list nat :=
  let c := tl (cumsizes sizes) in
  let lo := searchsorted c start in
  let hi := searchsorted c stop in
  seq lo (hi + 1 - lo).

(* ------------------------------------------------------------------ *)
(* io/stack.py                                                          *)

(* the contract of <member file>.read(columns, a, b, step=1): the rows a..b for
   0 <= a <= b <= size.  Outside that the member's behaviour is not specified
   (io/base.py:21-42); the model then reports OutOfContract. *)
Definition file_read {A} (rows : list A) (a b : Z) : res (list A) :=
  if (0 <=? a) && (a <=? b) && (b <=? zlen rows) then Ok (sub rows a b)
  else Err OutOfContract.

(* FileStack.read, io/stack.py:98-108.  `files` are the rows of the member
   files; `sizes` (line 50) are their lengths.  If the loop runs zero times the
   logging statement in line 107 refers to an unbound `sl`. *)
Definition stack_read {A} (files : list (list A)) (start stop step : Z) : res (list A) :=
  let sizes := map zlen files in
  let fnums := get_file_slice sizes start stop in
  let! parts := rall (map (fun fnum =>
      let! sl := global_to_local_slice sizes start stop fnum in
      match nth_error files fnum with
      | Some f => file_read f (fst sl) (snd sl)
      | None => Err IndexError
      end) fnums) in
  match fnums with
  | [] => Err UnboundLocalError
  | _ => py_slice (concat parts) None None (Some step)
  end.

(* ------------------------------------------------------------------ *)
(* io/binary.py                                                         *)

(* getsize, io/binary.py:7-40 *)
Definition getsize (bytesize header_size rowsize : Z) : res Z :=
  if rowsize =? 0 then Err ZeroDivisionError
  else if (bytesize - header_size) mod rowsize =? 0
       then Ok ((bytesize - header_size) / rowsize) else Err ValueError.

(* _default_byte_offset, io/binary.py:102-118.  Columns are identified with
   their position in the dtype; `itemsizes` are the itemsizes in dtype order. *)
Fixpoint default_byte_offset (size : Z) (itemsizes : list Z) (offset : Z) (col : nat) : Z :=
  match col, itemsizes with
  | S c, k :: ks => default_byte_offset size ks (offset + size * k) c
  | _, _ => offset
  end.

(* numpy.fromfile(ff, count=count, dtype) with the file positioned at byte pos:
   up to `count` whole items (all remaining ones for a negative count). *)
Definition fromfile {B} (bytes : list B) (pos itemsize count : Z) : list (list B) :=
  let avail := Z.max 0 ((zlen bytes - pos) / itemsize) in
  let n := if count <? 0 then avail else Z.min count avail in
  map (fun i => sub bytes (pos + i * itemsize) (pos + (i + 1) * itemsize)) (py_range 0 n 1).

(* numpy assignment x[:] = y of one-dimensional arrays, len x = n *)
Definition assign_all {A} (n : Z) (y : list A) : res (list A) :=
  if zlen y =? n then Ok y
  else match y with
       | [v] => Ok (repeat v (Z.to_nat n))   (* broadcasting of length 1 *)
       | _ => Err ValueError
       end.

(* one pass of the loop of BinaryFile.read, io/binary.py:149-154 *)
Definition binary_read_col {B} (bytes : list B) (offset itemsize start stop step n : Z)
  : res (list (list B)) :=
  if offset <? 0 then Err OSError
  else if offset + start * itemsize <? 0 then Err OSError  (* seek before the start *)
  else
    let! y := py_slice (fromfile bytes (offset + start * itemsize) itemsize (stop - start))
                       None None (Some step) in
    assign_all n y.

(* BinaryFile.read, io/binary.py:120-156, for a file without explicit offsets.
   The result is one list of items per requested column. *)
Definition binary_read {B} (bytes : list B) (header_size size : Z) (itemsizes : list Z)
           (columns : list nat) (start stop step : Z) : res (list (list (list B))) :=
  let! n := get_slice_size start stop step in
  if n <? 0 then Err ValueError     (* numpy.empty of a negative size *)
  else rall (map (fun c =>
         match nth_error itemsizes c with
         | Some k => binary_read_col bytes (default_byte_offset size itemsizes header_size c)
                                     k start stop step n
         | None => Err KeyError
         end) columns).

(* ------------------------------------------------------------------ *)
(* io/base.py: array-like indexing                                      *)

(* itertools.groupby: maximal runs of equal keys *)
Fixpoint groupby {A} (key : A -> Z) (l : list A) : list (Z * list A) :=
  match l with
  | [] => []
  | x :: l => match groupby key l with
              | (k, g) :: r => if key x =? k then (k, x :: g) :: r
                               else (key x, [x]) :: (k, g) :: r
              | [] => [(key x, [x])]
              end
  end.

Definition zbool (b : bool) : Z := if b then 1 else 0.

(* find_slice_chunks, io/base.py:412-422, boolean index.  The loop over
   enumerate(vals) with N[i-1], N[i] is a recursion carrying the running sum. *)
Fixpoint mask_chunks (low : Z) (runs : list (Z * list bool)) : list (Z * Z) :=
  match runs with
  | [] => []
  | (v, g) :: r =>
      let high := low + zlen g in
      if v =? 1 then (low, high) :: mask_chunks high r else mask_chunks high r
  end.

(* zip of an empty list cannot be unpacked into `vals, N` (line 413) *)
Definition find_slice_chunks_bool (index : list bool) : res (list (Z * Z)) :=
  match groupby zbool index with
  | [] => Err ValueError
  | runs => Ok (mask_chunks 0 runs)
  end.

(* enumerate *)
Definition enumerate {A} (l : list A) : list (Z * A) :=
  combine (map Z.of_nat (seq 0 (length l))) l.

(* find_slice_chunks, io/base.py:424-431, integer index *)
Definition find_slice_chunks_int (index : list Z) : list (Z * Z) :=
  map (fun kg : Z * list (Z * Z) =>
         let xx := map snd (snd kg) in
         (hd 0 xx, last xx 0 + 1))
      (groupby (fun x : Z * Z => fst x - snd x) (enumerate index)).

Inductive row_index :=
| RInt (i : Z)                                (* f[i] *)
| RSlice (start stop step : option Z)         (* f[start:stop:step] *)
| RMask (m : list bool)                       (* f[boolean array] *)
| RInts (l : list Z).                         (* f[integer array] (dtype int64) *)

(* FileType.__getitem__, io/base.py:222-249: the row part.  `read` is
   memown.read restricted to the columns of the view; size is self.size. *)
Definition getitem_rows {A} (read : Z -> Z -> Z -> res (list A)) (size : Z) (s : row_index)
  : res (list A) :=
  match s with
  | RInt i =>
      let i' := if i <? 0 then i + size else i in read i' (i' + 1) 1
  | RSlice a b st =>
      let! x := slice_indices a b st size in
      let '(start, stop, step) := x in read start stop step
  | RMask m =>
      let! ch := find_slice_chunks_bool m in
      match ch with
      | [] => Err ValueError        (* numpy.concatenate of an empty list *)
      | _ => let! parts := rall (map (fun c => read (fst c) (snd c) 1) ch) in Ok (concat parts)
      end
  | RInts l =>
      let l' := map (fun i => if i <? 0 then i + size else i) l in
      match find_slice_chunks_int l' with
      | [] => Err ValueError
      | ch => let! parts := rall (map (fun c => read (fst c) (snd c) 1) ch) in Ok (concat parts)
      end
  end.
