(* Model of CatalogSourceBase.save (nbodykit/base/catalog.py 562-703), of io/bigfile.py (48-90), of ArrayCatalog.__init__
   (source/catalog/array.py 36-66) and of SubVolumesCatalog (source/catalog/subvolumes.py 24-63).

   A distributed column is a list over ranks of a list over dask chunks of rows.  The file is the list of its blocks.
   External: bigfile (blocks of a fixed size, write at an offset, attributes), dask.array.store (writes every chunk of the
   array at its place in the region, in any order), the JSON codec (C26), GridND.decompose. *)
From Verif Require Import Base.
From Coq Require Import String.
From Verif Require Import RanksModel.
Local Open Scope nat_scope.
Local Notation length := List.length.

Definition sumn (l : list nat) : nat := fold_right Nat.add 0 l.

(* ---- writing a column ---- *)
Section Column.
Context {V : Type}.
(* bb.write(start, value): within the block *)
Definition block_write (b : list V) (start : nat) (v : list V) : res (list V) :=
  if start + length v <=? length b then Ok (firstn start b ++ v ++ skipn (start + length v) b)%list else Err OSError.
(* _ColumnWrapper.__setitem__ (626-636): sl[0].indices(bb.size) clips the start *)
Definition wrapper_set (b : list V) (sl : nat * nat) (v : list V) : res (list V) := block_write b (Nat.min (fst sl) (length b)) v.
(* dask store with regions: chunk k of the array goes to the part of the region it covers *)
Fixpoint chunk_slices (start : nat) (chunks : list (list V)) : list (nat * nat * list V) :=
  match chunks with [] => [] | c :: cs => ((start, start + length c), c) :: chunk_slices (start + length c) cs end.
(* 648: offset = sum(allgather(len(array))[:rank]) *)
Definition offset (parts : list (list (list V))) (rank : nat) : nat := sumn (firstn rank (map (fun chunks => sumn (map (@length V) chunks)) parts)).
Definition rank_writes (parts : list (list (list V))) (rank : nat) : list (nat * nat * list V) :=
  chunk_slices (offset parts rank) (nth rank parts []).
Definition all_writes (parts : list (list (list V))) : list (nat * nat * list V) := flat_map (rank_writes parts) (seq 0 (length parts)).
Fixpoint apply_writes (b : list V) (ws : list (nat * nat * list V)) : res (list V) :=
  match ws with [] => Ok b | (sl, v) :: ws => let! b := wrapper_set b sl v in apply_writes b ws end.
(* 647-655: the block has the global size; its first contents are whatever bigfile creates *)
Definition total (parts : list (list (list V))) : nat := sumn (map (fun chunks => sumn (map (@length V) chunks)) parts).
End Column.

(* ---- save ---- *)
Section Save.
Context {V : Type}.
Record column := { c_name : string; c_default : bool; c_parts : list (list (list V)) }.
Definition block : Type := string * list V.
Definition get_col (cat : list column) (name : string) : res column :=
  match find (fun c => String.eqb (c_name c) name) cat with Some c => Ok c | None => Err KeyError end.
(* fill: the contents of new blocks; schedule: the order in which the chunks of a column are written *)
Definition save_column (fill : nat -> list V) (schedule : string -> list (nat * nat * list V) -> list (nat * nat * list V)) (c : column) (dataset : string) : res block :=
  let! b := apply_writes (fill (total (c_parts c))) (schedule (c_name c) (all_writes (c_parts c))) in Ok (dataset, b).
Fixpoint zipr {A B} (l : list A) (m : list B) : list (A * B) := match l, m with a :: l, b :: m => (a, b) :: zipr l m | _, _ => [] end.
Definition save fill schedule (cat : list column) (columns : option (list string)) (datasets : option (list string)) (header : option string) : res (list block) :=
  let columns := match columns with None => map c_name cat | Some l => l end in                         (* 593 *)
  let! cols := rall (map (get_col cat) columns) in
  let cols := filter (fun c => negb (c_default c)) cols in                                              (* 594 *)
  let datasets := match datasets with None => map c_name cols | Some d => d end in                      (* 597-604 *)
  if negb (Nat.eqb (length datasets) (length cols)) then Err ValueError else                             (* 606-607 *)
  let! blocks := rall (map (fun cd => save_column fill schedule (fst cd) (snd cd)) (zipr cols datasets)) in
  (* 671-676: open or create the header; it has no rows of its own *)
  match header with
  | None => Ok blocks
  | Some h => Ok (if existsb (fun b => String.eqb (fst b) h) blocks then blocks else blocks ++ [(h, [])])%list
  end.

(* ---- BigFile.__init__ (48-90), header=Automatic, exclude=None, dataset './' ---- *)
Definition find_headers (blocks : list block) : list string :=
  filter (fun h => existsb (fun b => String.eqb (fst b) h) blocks) ["Header"; "header"; "."]%string.
(* fnmatch with a pattern without wildcards is equality *)
Definition open_columns (blocks : list block) : list block :=
  filter (fun b => negb (existsb (String.eqb (fst b)) (find_headers blocks))) blocks.
(* the rows of the column on the ranks of the reader: source/catalog/file.py 52-54 *)
Definition read_column (blocks : list block) (name : string) (nranks : nat) : option (list (list V)) :=
  option_map (fun b => catalog_rows (snd b) (load_file (zlen (snd b)) nranks)) (find (fun b => String.eqb (fst b) name) (open_columns blocks)).
End Save.
Arguments column : clear implicits.

(* ---- attributes: save 678-688 and BigFile 76-87 ---- *)
(* the value of an attribute: a string, an array of numbers, a number, or anything else *)
Inductive attr (J : Type) := AStr (s : string) | AArr (l : list Z) | ANum (x : Z) | AObj (j : J).
Arguments AStr {J}. Arguments AArr {J}. Arguments ANum {J}. Arguments AObj {J}.
(* what bigfile stores *)
Inductive stored := SStr (s : string) | SArr (l : list Z).
Definition json_prefix : string := "json://".
Definition save_attr {J} (dumps : J -> option string) (a : attr J) : res stored :=
  match a with
  | AStr s => Ok (SStr s)
  | AArr l => Ok (SArr l)
  | ANum x => Ok (SArr [x])
  | AObj j => match dumps j with Some s => Ok (SStr (json_prefix ++ s)) | None => Err ValueError end
  end.
Definition load_attr {J} (loads : string -> res (attr J)) (a : stored) : res (attr J) :=
  match a with
  | SStr s => if String.prefix json_prefix s then loads (substring 7 (String.length s - 7) s) else Ok (AStr s)
  | SArr l => Ok (AArr l)
  end.

(* ---- attributes of columns: ColumnAccessor.__new__ (37-46), __getitem__ (363-391), save 657-660 ---- *)
(* an accessor is a new object at every access, with empty attrs *)
Record accessor := { ac_col : string; ac_attrs : list (string * Z) }.
Definition getitem (col : string) : accessor := {| ac_col := col; ac_attrs := [] |}.
Definition set_attr (a : accessor) (k : string) (v : Z) : accessor := {| ac_col := ac_col a; ac_attrs := (k, v) :: ac_attrs a |}.
(* make_column (213-214) keeps the array; __getitem__ wraps it in a new accessor *)
Definition setitem_getitem (col : string) (value : accessor) : accessor := getitem col.
Definition saved_attrs (col : string) : list (string * Z) := ac_attrs (getitem col).

(* ---- ArrayCatalog.__init__: the data of every rank as column name, dtype, length; keys sorted and equal in number ---- *)
Section Array.
Context {D : Type}.
Variable deq : D -> D -> bool.
Definition adata := list (string * D * nat).
Definition dtype_of (d : adata) : list (string * D) := map fst d.
Definition dtype_eqb (a b : list (string * D)) : bool :=
  Nat.eqb (length a) (length b) && forallb (fun p => String.eqb (fst (fst p)) (fst (snd p)) && deq (snd (fst p)) (snd (snd p))) (combine a b).
(* what one rank does before the allreduce of CatalogSource.__init__ *)
Definition array_local (datas : list adata) (rank : nat) : res nat :=
  let d := nth rank datas [] in
  if Nat.eqb rank 0 && existsb (fun dt => negb (dtype_eqb (dtype_of dt) (dtype_of d))) datas then Err ValueError else      (* 48-51 *)
  match d with
  | [] => Err IndexError                                                                                   (* 54: keys[0] *)
  | (_, _, n) :: _ => if forallb (fun c => Nat.eqb (snd c) n) d then Ok n else Err ValueError               (* 56-58 *)
  end.
(* base/catalog.py 941: allreduce(size); a rank which raised never joins *)
Definition ArrayCatalog (datas : list adata) : list (res nat) :=
  let locals := map (array_local datas) (seq 0 (length datas)) in
  if forallb is_ok locals then locals else map (fun r => match r with Ok _ => Err Deadlock | e => e end) locals.
End Array.

(* ---- SubVolumesCatalog (24-63): the source is its columns per rank, the position among them ---- *)
Section Sub.
Context {V : Type}.
Variable decompose : V -> nat.     (* the rank whose subvolume holds a position *)
(* layout.exchange: what rank r receives, in the order of the sending ranks *)
Definition exchange (layout : list (list nat)) (data : list (list V)) (r : nat) : list V :=
  flat_map (fun ld => flat_map (fun td => if Nat.eqb (fst td) r then [snd td] else []) (combine (fst ld) (snd ld))) (combine layout data).
Definition lookup (cols : list (string * list (list V))) (name : string) : res (list (list V)) :=
  match find (fun c => String.eqb (fst c) name) cols with Some c => Ok (snd c) | None => Err KeyError end.
Record subvolumes := { sv_size : list nat; sv_cols : list (string * list (list V)) }.
Definition SubVolumes (position : string) (cols : list (string * list (list V))) (columns : option (list string)) : res subvolumes :=
  let! positions := lookup cols position in
  let layout := map (map decompose) positions in                                                            (* 45 *)
  let ranks := seq 0 (length positions) in
  let columns := match columns with None => map fst cols | Some l => l end in                                (* 53 *)
  let! frozen := rall (map (fun name => let! data := lookup cols name in Ok (name, map (exchange layout data) ranks)) columns) in   (* 55-57 *)
  Ok {| sv_size := map (fun r => length (filter (Nat.eqb r) (List.concat layout))) ranks; sv_cols := frozen |}.  (* 47: recvlength *)
End Sub.
