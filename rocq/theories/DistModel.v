(* Model of the operations of nbodykit/base/catalog.py that move rows between
   ranks: gslice (1013-1076), sort (1100-1164, _sort_data 1219-1287) and Index
   (1190-1202).  A distributed catalog is the list of the ranks' lists of rows; a
   row holds the values of all columns, so that columns stay aligned by
   construction where the code applies the same index, gather, scatter or sort
   permutation to every column. *)
From Verif Require Import Base RanksModel.
Local Open Scope Z_scope.

(* numpy.zeros(n, bool); index[positions] = True; 1044-1046 *)
Definition set_true (n : nat) (pos : list Z) : list bool :=
  map (fun i => existsb (Z.eqb (Z.of_nat i)) pos) (seq 0 n).
(* rows[mask] *)
Definition masked {A} (rows : list A) (m : list bool) : list A := map fst (filter snd (combine rows m)).

(* the initialised content of a receive buffer *)
Definition filled {A} (l : list (option A)) : res (list A) :=
  rall (map (fun x => match x with Some a => Ok a | None => Err OutOfContract end) l).

(* gslice, 1042-1076.  A zero step raises on rank 0. *)
Definition gslice {A} (start stop step : option Z) (redistribute : bool) (parts : list (list A))
  : res (list (list A)) :=
  let csize := zsum (map zlen parts) in
  let! x := slice_indices start stop step csize in
  let '(a, b, s) := x in
  let index := set_true (Z.to_nat csize) (py_range a b s) in
  let! local := scatter_array 0 (length parts) index (Some (map zlen parts)) in    (* 1052-1053 *)
  let subset := map (fun pm => masked (fst pm) (snd pm)) (combine parts local) in    (* 1056 *)
  if negb redistribute then Ok subset else
  let! g := gather_array (Some O) (map (fun p => (0, p)) subset) in                  (* 1070 *)
  let! all := filled g in
  scatter_array 0 (length parts) all None.                                           (* 1071 *)

(* Index, 1190-1202: offset = sum of the sizes of the lower ranks *)
Definition index_column (sizes : list Z) : list (list Z) :=
  map (fun r => let offset := zsum (firstn r sizes) in
                py_range offset (offset + nth r sizes 0) 1) (seq 0 (length sizes)).

(* ---- sort ---- *)
Inductive dtype := DInt | DF4 | DF8 | DOther.

(* A column value is an integer, or the bit pattern of a float (0 <= bits < 2^32 or 2^64).
   numpy.frombuffer(..., 'i4' / 'i8') reads the pattern as a signed number (1271, 1276);
   `*= -1` on an i8 array wraps. *)
Definition signed (bits width : Z) : Z := if bits <? 2 ^ (width - 1) then bits else bits - 2 ^ width.
Definition wrap64 (x : Z) : Z := signed (x mod 2 ^ 64) 64.
Definition sortkey (dt : dtype) (reverse : bool) (x : Z) : res Z :=
  match dt with
  | DInt => Ok x                                                       (* reverse is not used *)
  | DF4 => Ok (if reverse then wrap64 (- signed x 32) else signed x 32)
  | DF8 => Ok (if reverse then wrap64 (- signed x 64) else signed x 64)
  | DOther => Err ValueError                                           (* 1281-1283 *)
  end.

Section Sort.
Variable R : Type.                                    (* a row *)
Variable field : nat -> R -> Z.                       (* column name -> value *)
Variable cols : list (nat * dtype).                   (* the columns of the catalog *)
(* mpsort.sort(data, orderby): the rows of all ranks, ordered by an integer key *)
Variable mpsort : (R -> Z) -> list (list R) -> list (list R).

Definition dtype_of (n : nat) : option dtype :=
  match find (fun c => Nat.eqb n (fst c)) cols with Some c => Some (snd c) | None => None end.

(* one pass of the loop, 1262-1287 *)
Definition sort_pass (reverse : bool) (col : nat) (parts : list (list R)) : res (list (list R)) :=
  match dtype_of col with
  | None => Err ValueError
  | Some DOther => Err ValueError
  | Some dt => Ok (mpsort (fun r => match sortkey dt reverse (field col r) with Ok k => k | Err _ => 0 end) parts)
  end.
Fixpoint sort_passes (reverse : bool) (rankby : list nat) (parts : list (list R)) : res (list (list R)) :=
  match rankby with
  | [] => Ok parts
  | col :: rest => let! p := sort_pass reverse col parts in sort_passes reverse rest p
  end.

Fixpoint distinct (l : list nat) : bool :=
  match l with [] => true | x :: l => negb (existsb (Nat.eqb x) l) && distinct l end.

(* sort, 1120-1164: the names of the returned columns, and the rows *)
Definition sort (keys : list nat) (reverse : bool) (usecols : option (list nat)) (parts : list (list R))
  : res (list nat * list (list R)) :=
  let known n := match dtype_of n with Some _ => true | None => false end in
  if negb (distinct keys) then Err ValueError                          (* 1126-1127 *)
  else if negb (forallb known keys) then Err ValueError                (* 1130-1132 *)
  else
    let use := match usecols with Some u => u | None => map fst cols end in
    if negb (forallb known use) then Err ValueError                    (* 1140-1142 *)
    else let! out := sort_passes reverse (rev keys) parts in           (* 1145 *)
         Ok (nodup Nat.eq_dec use, out).
End Sort.
