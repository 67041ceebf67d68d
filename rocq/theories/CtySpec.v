(* What the columns of text files are meant to be. *)
From Coq Require Import Ascii.
From Verif Require Import Base Num CsvModel CsvSpec CtyModel.
From Coq Require Import String.
Local Open Scope nat_scope.
Local Notation length := List.length.

(* the value of a field in a column of a type; nothing is nan among floats *)
Inductive denotes : ty -> tok -> cell -> Prop :=
| den_int z : denotes I8 (TInt z) (VInt z)
| den_f8_int z : denotes F8 (TInt z) (VF8 (Some (zq z)))
| den_f8 q : denotes F8 (TFlt q) (VF8 (Some q))
| den_f8_nan : denotes F8 TMiss (VF8 None)
| den_f4_int z : denotes F4 (TInt z) (VF4 (Some (zq z)))
| den_f4 q : denotes F4 (TFlt q) (VF4 (Some q))
| den_f4_nan : denotes F4 TMiss (VF4 None).
Definition number (t : tok) : Prop := match t with TInt _ | TFlt _ => True | _ => False end.
Definition integer (t : tok) : Prop := match t with TInt _ => True | _ => False end.
(* x is the field of a line in the column of a name *)
Definition field (fields : bytes -> list tok) (names : list string) (line : bytes) (name : string) (x : tok) : Prop :=
  exists j, nth_error names j = Some name /\ x = nth j (fields line) TMiss.
Definition used (names : list string) (c : config) : list string := match g_usecols c with None => names | Some u => u end.
Definition refused (c : config) : Prop := g_index_col c = true \/ g_comment c = true \/ g_header c = true \/ g_skiprows_list c = true \/ g_skipfooter c = true.
(* the first rows, that are looked at when the file is opened *)
Definition first_rows (ls : list bytes) (tail : bytes) (c : config) : list bytes :=
  let rows := wanted (g_skip_blank c) (g_skiprows c) (all_lines ls tail) in
  match g_nrows c with None => firstn 10 rows | Some None => rows | Some (Some n) => firstn (Z.to_nat n) rows end.
(* the rows of the file *)
Definition all_rows (ls : list bytes) (tail : bytes) (c : config) : list bytes :=
  let rows := wanted (g_skip_blank c) (g_skiprows c) (all_lines ls tail) in
  match g_nrows c with Some (Some n) => firstn (Z.to_nat n) rows | _ => rows end.
(* the files and limits that C27 is about *)
Definition readable (ls : list bytes) (tail : bytes) (bs : nat) (c : config) : Prop :=
  Forall no_newline ls /\ no_newline tail /\ 1 <= bs /\ all_lines ls tail <> [] /\ regular ls tail bs (g_skip_blank c) (g_skiprows c) /\
  match g_nrows c with Some (Some n) => (0 <= n)%Z /\ clear_limit ls tail bs (g_skip_blank c) (g_skiprows c) (Z.to_nat n) | _ => True end.
(* the type asked for by the argument dtype, and the type of a column when it is not *)
Definition asked (d : given) (n : string) (t : ty) : Prop := match d with All t' => t = t' | Dict d => In (n, t) d end.
Definition type_of (fields : bytes -> list tok) (names : list string) (d : given) (rows : list bytes) (n : string) (t : ty) : Prop :=
  asked d n t \/ (forall t', ~ asked d n t') /\
   ((forall r x, In r rows -> field fields names r n x -> integer x) /\ t = I8 \/ (exists r x, In r rows /\ field fields names r n x /\ ~ integer x) /\ t = F8).
