(* Columns of HDF files. *)
From Verif Require Import Base HdfModel.
Local Open Scope nat_scope.

Section Spec.
Context {A : Type}.
(* the column at an absolute path: a data set, or a field of one *)
Inductive column_at (ff : h5 (A := A)) : path -> nat -> list A -> Prop :=
| plain_at p ty rows : In (p, Plain ty rows) (dsets ff) -> column_at ff p ty rows
| field_at p fs rows k f ty xs : In (p, Struct fs rows) (dsets ff) -> nth_error fs k = Some (f, ty) ->
    Forall2 (fun row x => nth_error row k = Some x) rows xs -> column_at ff (p ++ [f]) ty xs.
(* a file: data sets contain no others; fields have different names, rows a value for each *)
Definition good_file (ff : h5 (A := A)) : Prop :=
  NoDup (map fst (dsets ff)) /\
  (forall p q d e, In (p, d) (dsets ff) -> In (p ++ q, e) (dsets ff) -> q = []) /\
  (forall p fs rows, In (p, Struct fs rows) (dsets ff) -> fs <> [] /\ NoDup (map fst fs) /\ Forall (fun row => length row = length fs) rows).
(* all data sets below the root have n rows, and there are some *)
Definition sized (ff : h5 (A := A)) (root : path) (n : nat) : Prop :=
  (exists q d, In (root ++ q, d) (dsets ff)) /\ forall q d, In (root ++ q, d) (dsets ff) -> dlen d = n.
Definition rows_of (rows : list A) (start stop step : Z) (out : list A) : Prop := Forall2 (fun i x => nth_error rows (Z.to_nat i) = Some x) (py_range start stop step) out.
End Spec.
