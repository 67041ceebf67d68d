(* Model of the columns of text files: io/csv.py verify_data (159-209), CSVFile.__init__ (254-327) and read (329-368) with
   the types of columns; the cutting of files into blocks is in CsvModel.

   External: pandas.read_csv cuts a line into fields and classifies them (`fields`); without types a column is of integers
   when all of its fields are, of text when one is, else of floats; with an integer type every field has to be an integer,
   with a float type a number or nothing (ValueError otherwise).  A line with too few fields has nothing in the last ones. *)
From Coq Require Import Ascii.
From Verif Require Import Base Num IoModel CsvModel.
From Coq Require Import String.
Local Open Scope nat_scope.
Local Notation length := List.length.
Local Notation concat := List.concat.

Inductive tok := TInt (z : Z) | TFlt (q : Qc) | TText | TMiss.
Inductive ty := I8 | F8 | F4 | Obj.
Inductive cell := VInt (z : Z) | VF8 (q : option Qc) | VF4 (q : option Qc) | VObj (t : tok).
Definition ty_eq_dec (a b : ty) : {a = b} + {a <> b}. Proof. decide equality. Defined.

Definition is_text (t : tok) : bool := match t with TText => true | _ => false end.
Definition is_miss (t : tok) : bool := match t with TMiss => true | _ => false end.
Definition is_int (t : tok) : bool := match t with TInt _ => true | _ => false end.
(* the type pandas finds for a column *)
Definition infer (col : list tok) : ty := if existsb is_text col then Obj else if forallb is_int col then I8 else F8.
Definition conv (t : ty) (x : tok) : res cell :=
  match t, x with
  | I8, TInt z => Ok (VInt z)
  | F8, TInt z => Ok (VF8 (Some (zq z))) | F8, TFlt q => Ok (VF8 (Some q)) | F8, TMiss => Ok (VF8 None)
  | F4, TInt z => Ok (VF4 (Some (zq z))) | F4, TFlt q => Ok (VF4 (Some q)) | F4, TMiss => Ok (VF4 None)
  | Obj, _ => Ok (VObj x)
  | _, _ => Err ValueError
  end.
Fixpoint position (k : string) (l : list string) : option nat :=
  match l with [] => None | x :: l => if String.eqb x k then Some 0 else option_map S (position k l) end.
Definition memS (k : string) (l : list string) : bool := existsb (String.eqb k) l.
Fixpoint repeated (l : list string) : bool := match l with [] => false | x :: r => memS x r || repeated r end.
Definition look {X} (d : list (string * X)) (k : string) : option X := option_map snd (find (fun e => String.eqb (fst e) k) d).

(* the argument dtype: one type for all columns, or a dictionary *)
Inductive given := All (t : ty) | Dict (d : list (string * ty)).
(* the keywords: those that are refused, then usecols, engine='c' or not, nrows (when given) and the ones of CsvModel *)
Record config := { g_index_col : bool; g_comment : bool; g_header : bool; g_skiprows_list : bool; g_skipfooter : bool;
                   g_usecols : option (list string); g_c : bool; g_nrows : option (option Z); g_skip_blank : bool; g_skiprows : nat }.

Section Cty.
Variable fields : bytes -> list tok.
Definition field_of (names : list string) (line : bytes) (name : string) : tok :=
  match position name names with Some j => nth j (fields line) TMiss | None => TMiss end.

(* verify_data: all errors become ValueError *)
Definition verify_rows (c : config) : option Z := match g_nrows c with None => Some 10%Z | Some n => n end.
Definition verify_data (file : bytes) (names : list string) (c : config) : res (list (string * ty)) :=
  let rows := read_csv (g_skip_blank c) (g_skiprows c) (verify_rows c) file in
  match rows with
  | [] => Err ValueError
  | first :: _ =>
      if negb (length (fields first) =? length names) then Err ValueError else
      if repeated names then Err ValueError else
      let used := match g_usecols c with None => names | Some u => u end in
      if negb (forallb (fun n => memS n names) used) then Err ValueError else
      let col n := map (fun r => field_of names r n) rows in
      if existsb (fun n => existsb is_miss (col n)) used then Err ValueError else
      if existsb (fun n => existsb is_text (col n)) used then Err ValueError else
      Ok (map (fun n => (n, infer (col n))) used)
  end.

Record csvfile := { v_file : bytes; v_bs : nat; v_names : list string; v_dtype : list (string * ty); v_config : config; v_size : Z }.
(* __init__, 254-327 *)
Definition open (file : bytes) (names : list string) (bs : nat) (dtype : given) (c : config) : res csvfile :=
  if g_index_col c then Err ValueError else if g_comment c then Err ValueError else if g_header c then Err ValueError else
  if g_skiprows_list c then Err ValueError else if g_skipfooter c then Err ValueError else
  let used := match g_usecols c with None => names | Some u => u end in
  let! inferred := verify_data file names c in
  let d := match dtype with All t => map (fun n => (n, t)) used | Dict d => d end in
  let! types := rall (map (fun n => match look d n with
                                    | Some t => Ok (n, t)
                                    | None => match look inferred n with Some t => Ok (n, t) | None => Err ValueError end
                                    end) used) in
  if repeated used then Err ValueError else                                                  (* numpy.dtype *)
  let nrows := match g_nrows c with None => None | Some n => n end in
  let! size := csv_size file bs (g_skip_blank c) (g_skiprows c) nrows in
  Ok {| v_file := file; v_bs := bs; v_names := names; v_dtype := types; v_config := c; v_size := size |}.

(* a block as a table: the types and the rows; with the engine 'c' the types are those of the file, otherwise found again *)
Definition table (v : csvfile) (rows : list bytes) : res (list (string * ty) * list (list cell)) :=
  let types := if g_c (v_config v) then v_dtype v
               else map (fun nt => (fst nt, infer (map (fun r => field_of (v_names v) r (fst nt)) rows))) (v_dtype v) in
  let! cells := rall (map (fun r => rall (map (fun nt => conv (snd nt) (field_of (v_names v) r (fst nt))) types)) rows) in
  Ok (types, cells).
(* data[columns] *)
Definition pick (types : list (string * ty)) (columns : list string) (row : list cell) : res (list cell) :=
  rall (map (fun n => match position n (map fst types) with
                      | Some j => match nth_error row j with Some x => Ok x | None => Err KeyError end
                      | None => Err KeyError
                      end) columns).
Definition ty_eqb (a b : ty) : bool := if ty_eq_dec a b then true else false.
Fixpoint types_eqb (a b : list (string * ty)) : bool :=
  match a, b with [], [] => true | (n, t) :: a, (m, u) :: b => String.eqb n m && ty_eqb t u && types_eqb a b | _, _ => false end.
Definition same_types (l : list (list (string * ty))) : bool := match l with [] => true | t :: l => forallb (types_eqb t) l end.
(* read, 329-368; blocks with different types (other engines) are outside the model *)
Definition read (v : csvfile) (columns : list string) (start stop step : Z) : res (list (list cell)) :=
  let c := v_config v in let nrows := match g_nrows c with None => None | Some n => n end in
  let! ps := make_partitions (v_file v) (v_bs v) (g_skip_blank c) (g_skiprows c) nrows in
  let sizes := snd ps in
  let! parts := rall (map (fun fnum =>
      let! sl := global_to_local_slice sizes start stop fnum in
      match nth_error (fst ps) fnum with
      | Some p => let! t := table v (part_value (v_file v) (v_bs v) (g_skip_blank c) p) in
                  if negb (forallb (fun n => memS n (map fst (fst t))) columns) then Err KeyError else
                  let! rows := py_slice (snd t) (Some (fst sl)) (Some (snd sl)) None in
                  let! picked := rall (map (pick (fst t) columns) rows) in
                  Ok (fst t, picked)
      | None => Err IndexError
      end) (get_file_slice sizes start stop)) in
  if negb (same_types (map fst parts)) then Err OutOfContract else
  py_slice (concat (map snd parts)) None None (Some step).
End Cty.
