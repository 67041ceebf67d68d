(* Property theorems C11 (catalog as a column map), C12 (slices), C48 (copies are
   independent) and the refuted claims C58-C60. *)
From Verif Require Import Base BaseProofs CatModel CatSpec CatProofs CatHist.
From Coq Require Import Sorted.
Local Open Scope nat_scope.

Definition start {A} (bd : list (nat * A)) (l : list (op A)) : heap A := exec A bd (empty A) l.

(* C11: assigning a value of the right length: the name reads as that value through
   the catalog and all its views; nothing else changes *)
Theorem C11_assign : forall (A : Type) bd (l : list (op A)) r n v, let h := start bd l in
  valid A h r -> length (expand A (size A h r) v) = size A h r ->
  exists h', setitem A h r n v = Ok h' /\
    (forall x m, valid A h x ->
       (same_data A h r x /\ m = n -> get A h' x m = Ok (expand A (size A h r) v, false)) /\
       (~ (same_data A h r x /\ m = n) -> get A h' x m = get A h x m)) /\
    (forall x, valid A h x -> size A h' x = size A h x /\ attrs A h' x = attrs A h x).
Proof. exact (fun A => @assign_ok A). Qed.
Print Assumptions C11_assign.

(* a catalog of 2 rows with hard column 1 and default 2, a view of it, and another catalog *)
Definition demo : list (op Z) :=
  [ONew Z 2 [(1, [10; 11]%Z)] [(2, 1%Z)]; OView Z 0; ONew Z 2 [] []; OSet Z 1 5 (Array Z [7; 8]%Z); OAttr Z 0 0 3%Z].
Example C11_assign_ex :
  let h := start [] demo in
  valid Z h 0 /\ size Z h 0 = 2 /\ get Z h 0 5 = Ok ([7; 8]%Z, false) /\ get Z h 1 5 = Ok ([7; 8]%Z, false) /\
  get Z h 2 5 = Err KeyError /\ same_data Z h 1 0 /\
  (exists h', setitem Z h 0 5 (Scalar Z 9%Z) = Ok h' /\ get Z h' 1 5 = Ok ([9; 9]%Z, false)).
Proof.
  cbv zeta. repeat split; try reflexivity.
  - eexists; reflexivity.
  - exists 0. split; [eapply ro_base; [reflexivity|reflexivity|]|]; eapply ro_here; reflexivity.
  - eexists; split; reflexivity.
Qed.

(* C11: a value of the wrong length is refused *)
Theorem C11_assign_refused : forall (A : Type) bd (l : list (op A)) r n v, let h := start bd l in
  valid A h r -> length (expand A (size A h r) v) <> size A h r -> setitem A h r n v = Err AssertionError.
Proof. exact (fun A => @assign_refused A). Qed.
Print Assumptions C11_assign_refused.
Example C11_assign_refused_ex : setitem Z (start [] demo) 1 5 (Array Z [1]%Z) = Err AssertionError.
Proof. reflexivity. Qed.

(* C11: the last assignment decides what is read, whatever else happened since: other
   names written, other catalogs written, views, copies, slices, attributes, refused operations *)
Theorem C11_last_write : forall (A : Type) bd (l1 : list (op A)) r n v l2, let h := start bd l1 in
  valid A h r -> length (expand A (size A h r) v) = size A h r ->
  Forall (fun o => writes_column A n o = false \/ exists s, target A o = Some s /\ valid A h s /\ ~ same_data A h s r) l2 ->
  get A (start bd (l1 ++ OSet A r n v :: l2)) r n = Ok (expand A (size A h r) v, false).
Proof. exact (fun A => @history A). Qed.
Print Assumptions C11_last_write.
Example C11_last_write_ex :
  let l2 := [OSet Z 1 6 (Scalar Z 0%Z); OSet Z 2 5 (Scalar Z 3%Z); OSlice Z 0 (ISlice None None (Some (-1)%Z)); ODel Z 1 6] in
  let h := start [] demo in
  Forall (fun o => writes_column Z 5 o = false \/ exists s, target Z o = Some s /\ valid Z h s /\ ~ same_data Z h s 0) l2 /\
  get Z (start [] (demo ++ OSet Z 0 5 (Array Z [4; 5]%Z) :: l2)) 0 5 = Ok ([4; 5]%Z, false) /\
  get Z (start [] (demo ++ OSet Z 0 5 (Array Z [4; 5]%Z) :: l2)) 3 5 = Ok ([5; 4]%Z, false).
Proof.
  cbv zeta. split; [|split; reflexivity].
  apply Forall_cons; [left; reflexivity|]. apply Forall_cons; [|repeat (apply Forall_cons; [left; reflexivity|]); constructor].
  right. exists 2. split; [reflexivity|]. split; [eexists; reflexivity|].
  rewrite same_data_owner; [vm_compute; discriminate|apply reach_wf|eexists; reflexivity|eexists; reflexivity].
Qed.

(* C11: a new catalog shows the stored columns of its class, then the defaults *)
Theorem C11_created : forall (A : Type) bd (l : list (op A)) sz hard dflt r h',
  new A (start bd l) sz hard dflt = Ok (r, h') ->
  size A h' r = sz /\ forall n, get A h' r n =
    match aget hard n, aget dflt n with
    | Some v, _ => Ok (v, false) | None, Some c => Ok (repeat c sz, true) | None, None => Err KeyError
    end.
Proof. exact (fun A => @created A). Qed.
Print Assumptions C11_created.
Example C11_created_ex : exists r h', new Z (start [] demo) 3 [(4, [1; 2; 3]%Z)] [(4, 0%Z); (6, 5%Z)] = Ok (r, h') /\
  get Z h' r 4 = Ok ([1; 2; 3]%Z, false) /\ get Z h' r 6 = Ok ([5; 5; 5]%Z, true) /\ get Z h' r 7 = Err KeyError.
Proof. do 2 eexists. repeat split. Qed.

(* C11: an assigned column that is not a hard column can be deleted; the default beneath
   it, or nothing, appears; everything else is unchanged *)
Theorem C11_delete : forall (A : Type) bd (l : list (op A)) r n, let h := start bd l in valid A h r ->
  (exists v, get A h r n = Ok (v, false)) -> ~ In n (hardcolumns A h r) ->
  exists h', delitem A h r n = Ok h' /\
    (forall x, valid A h x -> same_data A h r x ->
       get A h' x n = match default_of A h r n with Some c => Ok (repeat c (size A h r), true) | None => Err KeyError end) /\
    (forall x m, valid A h x -> ~ (same_data A h r x /\ m = n) -> get A h' x m = get A h x m) /\
    (forall x, valid A h x -> size A h' x = size A h x /\ attrs A h' x = attrs A h x).
Proof. exact (fun A => @delete_ok A). Qed.
Print Assumptions C11_delete.
Example C11_delete_ex :
  let h := start [] (demo ++ [OSet Z 0 2 (Array Z [3; 4]%Z)]) in
  get Z h 1 2 = Ok ([3; 4]%Z, false) /\ hardcolumns Z h 1 = [1] /\ default_of Z h 1 2 = Some 1%Z /\
  (exists h', delitem Z h 1 2 = Ok h' /\ get Z h' 0 2 = Ok ([1; 1]%Z, true) /\ get Z h' 0 5 = Ok ([7; 8]%Z, false)).
Proof. cbv zeta. repeat split. eexists. repeat split. Qed.

(* C11: hard columns, default columns and missing names cannot be deleted *)
Theorem C11_delete_refused : forall (A : Type) bd (l : list (op A)) r n, let h := start bd l in valid A h r ->
  In n (hardcolumns A h r) \/ ~ (exists v, get A h r n = Ok (v, false)) -> delitem A h r n = Err ValueError.
Proof. exact (fun A => @delete_refused A). Qed.
Print Assumptions C11_delete_refused.
Example C11_delete_refused_ex :
  let h := start [] demo in
  delitem Z h 0 1 = Err ValueError /\ delitem Z h 0 2 = Err ValueError /\ delitem Z h 0 77 = Err ValueError /\
  In 1 (hardcolumns Z h 0) /\ get Z h 0 2 = Ok ([1; 1]%Z, true).
Proof. cbv zeta. repeat split. left. reflexivity. Qed.

(* C11: columns lists exactly the names that can be read, once each, in order *)
Theorem C11_columns : forall (A : Type) bd (l : list (op A)) r, let h := start bd l in valid A h r ->
  StronglySorted lt (columns A h r) /\ forall n, In n (columns A h r) <-> is_ok (get A h r n) = true.
Proof. exact (fun A => @columns_exact A). Qed.
Print Assumptions C11_columns.
Example C11_columns_ex : columns Z (start [] demo) 1 = [1; 2; 5].
Proof. reflexivity. Qed.

(* C11: a view is another name of the same columns *)
Theorem C11_view : forall (A : Type) bd (l : list (op A)) r r' h', view A (start bd l) r = Ok (r', h') ->
  same_data A h' r r' /\ same_view A (start bd l) h' r /\ (forall n, get A h' r' n = get A (start bd l) r n).
Proof. exact (fun A => @view_aliases A). Qed.
Print Assumptions C11_view.
Example C11_view_ex : exists h', view Z (start [] demo) 1 = Ok (3, h') /\ get Z h' 3 5 = Ok ([7; 8]%Z, false).
Proof. eexists. split; reflexivity. Qed.

(* C12: a slice, mask or list of rows: every column is indexed by the same index, its
   length is the size of the result; default columns are constants of the new size;
   the parent is unchanged *)
Theorem C12_slice : forall (A : Type) bd (l : list (op A)) r i r' h', let h := start bd l in
  valid A h r -> i <> IEllipsis -> slice A h r i = Ok (r', h') ->
  columns A h' r' = columns A h r /\
  (forall n, match get A h r n with
             | Ok (v, false) => exists v', numpy_index i v = Ok v' /\ length v' = size A h' r' /\ get A h' r' n = Ok (v', false)
             | Ok (v, true) => exists c, v = repeat c (size A h r) /\ get A h' r' n = Ok (repeat c (size A h' r'), true)
             | Err e => get A h' r' n = Err e
             end) /\
  (exists u, numpy_index i (repeat tt (size A h r)) = Ok u /\ length u = size A h' r') /\
  (forall x, valid A h x -> same_view A h h' x /\ attrs A h' x = attrs A h x).
Proof. exact (fun A => @slice_rows A). Qed.
Print Assumptions C12_slice.
Example C12_slice_ex :
  let l := [ONew Z 5 [(1, [10; 11; 12; 13; 14]%Z)] [(2, 1%Z)]] in
  let o i := match slice Z (start [] l) 0 i with
             | Ok (r, h) => Some (size Z h r, get Z h r 1, get Z h r 2) | Err _ => None end in
  o (ISlice None None (Some (-2)%Z)) = Some (3, Ok ([14; 12; 10]%Z, false), Ok ([1; 1; 1]%Z, true)) /\
  o (IMask [true; false; false; true; false]) = Some (2, Ok ([10; 13]%Z, false), Ok ([1; 1]%Z, true)) /\
  o (IInts [-1; 0; 0]%Z) = Some (3, Ok ([14; 10; 10]%Z, false), Ok ([1; 1; 1]%Z, true)).
Proof. repeat split. Qed.

(* C12: indexing a catalog is refused exactly when indexing its columns is *)
Theorem C12_slice_defined : forall (A : Type) bd (l : list (op A)) r i, let h := start bd l in
  valid A h r -> forall (B : Type) (col : list B), length col = size A h r ->
  (forall e, slice A h r i = Err e -> numpy_index i col = Err e) /\
  (forall x, slice A h r i = Ok x -> exists c, numpy_index i col = Ok c).
Proof. exact (fun A => @slice_defined A). Qed.
Print Assumptions C12_slice_defined.
Example C12_slice_defined_ex :
  slice Z (start [] demo) 0 (IInts [2]%Z) = Err IndexError /\ slice Z (start [] demo) 0 (IMask [true]) = Err KeyError /\
  slice Z (start [] demo) 0 (ISlice None None (Some 0%Z)) = Err ValueError.
Proof. repeat split. Qed.

(* C12: a list of column names keeps these columns; apart from them only the defaults of
   CatalogSource remain *)
Theorem C12_select_columns : forall (A : Type) bd (l : list (op A)) r names, let h := start bd l in
  valid A h r -> names <> [] -> (forall n, In n names -> In n (columns A h r)) ->
  exists r' h', select_columns A bd h r names = Ok (r', h') /\
    size A h' r' = size A h r /\ attrs A h' r' = attrs A h r /\
    (forall n, In n names -> exists v b, get A h r n = Ok (v, b) /\ get A h' r' n = Ok (v, false)) /\
    (forall n, ~ In n names -> get A h' r' n = match aget bd n with Some c => Ok (repeat c (size A h r), true) | None => Err KeyError end) /\
    (forall x, valid A h x -> same_view A h h' x /\ attrs A h' x = attrs A h x).
Proof. exact (fun A => @select_ok A). Qed.
Print Assumptions C12_select_columns.
Example C12_select_columns_ex : exists r' h', select_columns Z [(3, 0%Z)] (start [(3, 0%Z)] demo) 0 [5; 2] = Ok (r', h') /\
  columns Z h' r' = [2; 3; 5] /\ get Z h' r' 1 = Err KeyError /\ attrs Z h' r' = [(0, 3%Z)].
Proof. do 2 eexists. repeat split. Qed.

Theorem C12_select_missing : forall (A : Type) bd (l : list (op A)) r names n,
  In n names -> ~ In n (columns A (start bd l) r) -> select_columns A bd (start bd l) r names = Err KeyError.
Proof. exact (fun A => @select_missing A). Qed.
Print Assumptions C12_select_missing.
Example C12_select_missing_ex : ~ In 9 (columns Z (start [] demo) 0).
Proof. cbv. intuition discriminate. Qed.

(* C48: a copy has the same columns, size and attributes *)
Theorem C48_copy_same : forall (A : Type) bd (l : list (op A)) r r' h', copy A (start bd l) r = Ok (r', h') ->
  let h := start bd l in
  columns A h' r' = columns A h r /\ size A h' r' = size A h r /\ attrs A h' r' = attrs A h r /\
  forall n, get A h' r' n = match get A h r n with Ok (v, _) => Ok (v, false) | Err e => Err e end.
Proof. exact (fun A => @copy_same A). Qed.
Print Assumptions C48_copy_same.
Example C48_copy_same_ex : exists r' h', copy Z (start [] demo) 0 = Ok (r', h') /\ columns Z h' r' = [1; 2; 5] /\
  attrs Z h' r' = [(0, 3%Z)].
Proof. do 2 eexists. repeat split. Qed.

(* C48: after making a copy, a column selection or a slice: any program that works only
   with the new catalog and what it derives from it leaves everything made before
   unchanged, and any program that never mentions the new catalog leaves it unchanged;
   for copies and column selections this includes the attributes *)
Theorem C48_independent : forall (A : Type) bd (l : list (op A)) o r' h' prog, let h := start bd l in
  (is_copy o \/ is_slice o) -> step A bd h o = Ok (r', h') ->
  (Forall (fun p => forall s, uses A p = Some s -> ~ valid A h s) prog ->
     forall x, valid A h x -> same_view A h (exec A bd h' prog) x /\ (is_copy o -> attrs A (exec A bd h' prog) x = attrs A h x)) /\
  (Forall (fun p => uses A p <> Some r') prog ->
     same_view A h' (exec A bd h' prog) r' /\ (is_copy o -> attrs A (exec A bd h' prog) r' = attrs A h' r')).
Proof. exact (fun A => @isolation A). Qed.
Print Assumptions C48_independent.
Example C48_independent_ex : exists h', step Z [] (start [] demo) (OCopy Z 0) = Ok (3, h') /\
  let prog := [OView Z 3; OSet Z 4 5 (Scalar Z 0%Z); OAttr Z 4 0 9%Z; ODel Z 3 5; OSlice Z 3 (IInts [0%Z]); OAttr Z 5 0 1%Z] in
  Forall (fun p => forall s, uses Z p = Some s -> ~ valid Z (start [] demo) s) prog /\
  attrs Z (exec Z [] h' prog) 3 = [(0, 1%Z)] /\ attrs Z (exec Z [] h' prog) 0 = [(0, 3%Z)] /\
  get Z (exec Z [] h' prog) 3 5 = Err KeyError /\ get Z (exec Z [] h' prog) 0 5 = Ok ([7; 8]%Z, false).
Proof.
  eexists. split; [reflexivity|]. cbv zeta. split; [|repeat split].
  repeat (apply Forall_cons; [intros s E; injection E as <-; intros [o E]; vm_compute in E; discriminate|]). constructor.
Qed.

(* C58: slices do share the attributes with their parent *)
Theorem C58_slice_attrs_refuted : exists (l : list (op Z)) i r' h' h'',
  slice Z (start [] l) 0 i = Ok (r', h') /\ set_attr Z h' r' 0 9%Z = Ok h'' /\
  attrs Z h' 0 = [(0, 3%Z)] /\ attrs Z h'' 0 = [(0, 9%Z)].
Proof. exists demo, (IMask [true; false]). do 3 eexists. repeat split. Qed.
Print Assumptions C58_slice_attrs_refuted.

(* C59: copy() of a catalog whose attrs were never looked at fails *)
Theorem C59_copy_refuted : exists (l : list (op Z)) r, valid Z (start [] l) r /\ copy Z (start [] l) r = Err AttributeError.
Proof. exists [ONew Z 2 [(1, [10; 11]%Z)] []], 0. split; [eexists; reflexivity|reflexivity]. Qed.
Print Assumptions C59_copy_refuted.

(* C60: an assigned column that covers a hard column cannot be deleted *)
Theorem C60_uncover_hard_refuted : exists (l : list (op Z)) r n,
  get Z (start [] l) r n = Ok ([1; 1]%Z, false) /\ In n (hardcolumns Z (start [] l) r) /\
  delitem Z (start [] l) r n = Err ValueError.
Proof.
  exists [ONew Z 2 [(1, [10; 11]%Z)] []; OSet Z 0 1 (Scalar Z 1%Z)], 0, 1. repeat split. left. reflexivity.
Qed.
Print Assumptions C60_uncover_hard_refuted.
