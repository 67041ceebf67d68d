(* What a user expects of file reading, stated without the model's helpers. *)
From Verif Require Import Base.

(* `out` lists exactly the rows with numbers idx, in that order; every number
   is that of an existing row *)
Definition rows_at {A} (rows : list A) (idx : list Z) (out : list A) : Prop :=
  Forall2 (fun i x => 0 <= i /\ nth_error rows (Z.to_nat i) = Some x) idx out.

(* the rows where the mask is True, in file order *)
Definition masked {A} (rows : list A) (mask : list bool) : list A :=
  map fst (filter snd (combine rows mask)).

(* negative row numbers count from the end *)
Definition from_end (n i : Z) : Z := if i <? 0 then i + n else i.

(* a reader that returns rows start:stop:step of `rows` on its whole contract *)
Definition reads_slices {A} (rows : list A) (read : Z -> Z -> Z -> res (list A)) : Prop :=
  forall a b s, 0 <= a <= b -> b <= zlen rows -> 1 <= s ->
    exists out, read a b s = Ok out /\ rows_at rows (py_range a b s) out.

(* A column-major binary file: a header, then for each column all its rows.
   A table is a list of columns, a column a list of rows, a row a byte string. *)
Definition layout {B} (header : list B) (table : list (list (list B))) : list B :=
  header ++ concat (map (@concat B) table).

(* all columns have `size` rows; column c has rows of itemsize_c >= 1 bytes *)
Definition well_formed {B} (size : Z) (itemsizes : list Z) (table : list (list (list B))) : Prop :=
  Forall2 (fun k col => 1 <= k /\ zlen col = size /\ Forall (fun row => zlen row = k) col)
          itemsizes table.

(* byte positions of column c in the file: after the header and all rows of the columns before *)
Definition column_start {B} (header : list B) (table : list (list (list B))) (c : nat) : Z :=
  zlen header + zlen (concat (map (@concat B) (firstn c table))).
