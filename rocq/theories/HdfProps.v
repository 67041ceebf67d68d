(* Property theorem C256 and the refuted claims C257, C258. *)
From Verif Require Import Base IoModel HdfModel HdfSpec HdfProofs HdfOpen.
Local Open Scope nat_scope.

(* C256: a HDF file below a group or a structured data set has exactly the columns that are not
   excluded, one name for each, and reading returns the rows of those columns *)
Theorem C256_hdf_columns : forall (A : Type) (dflt : A) (ff : h5 (A := A)) root excluded header f0 n,
  good_file ff -> (exists q d, In (root ++ q, d) (dsets ff)) -> (forall ty rows, ~ In (root, Plain ty rows) (dsets ff)) ->
  (forall p ty rows, column_at ff (root ++ p) ty rows -> excluded (root ++ p) = false -> length rows = n) ->
  (exists p ty rows, column_at ff (root ++ p) ty rows /\ excluded (root ++ p) = false) ->
  exists h, hdf_open ff root excluded header f0 = Ok h /\ h_size h = n /\ NoDup (map fst (h_dtype h)) /\
    (forall c ty, In (c, ty) (h_dtype h) -> exists p rows, column_at ff (h_root h ++ c) ty rows /\ length rows = n /\ h_root h ++ c = root ++ p /\ excluded (root ++ p) = false) /\
    (forall p ty rows, column_at ff (root ++ p) ty rows -> excluded (root ++ p) = false -> exists c, In (c, ty) (h_dtype h) /\ h_root h ++ c = root ++ p) /\
    (h_root h = root \/ exists fs rows, In (h_root h, Struct fs rows) (dsets ff) /\ forall c, In c (map fst (h_dtype h)) -> exists f, c = [f]) /\
    forall cols start stop step, NoDup cols -> (forall c, In c cols -> In c (map fst (h_dtype h))) -> (0 <= start <= stop)%Z -> (stop <= Z.of_nat n)%Z -> (1 <= step)%Z ->
      exists outs, hdf_read dflt ff h cols start stop step = Ok outs /\ Forall2 (fun c out => forall ty rows, column_at ff (h_root h ++ c) ty rows -> rows_of rows start stop step out) cols outs.
Proof. intros A dflt ff root excluded header f0 n. exact (hdf_ok dflt ff root excluded header f0 n). Qed.
Print Assumptions C256_hdf_columns.

(* a group (1) with a data set (2) and a structured data set (3), and another data set (9) of other length *)
Definition ex_file : h5 (A := nat) :=
  {| dsets := [([1; 2], Plain 7 [10; 11; 12; 13]); ([1; 3], Struct [(4, 7); (5, 8)] [[20; 30]; [21; 31]; [22; 32]; [23; 33]]); ([9], Plain 7 [1])];
     dattrs := fun p => match p with [1; 3] => [(6, 42%Z)] | _ => [] end |}.
Lemma ex_file_good : good_file ex_file.
Proof.
  split; [|split].
  - repeat constructor; cbn; intuition discriminate.
  - intros p q d e H1 H2. cbn in H1, H2. destruct H1 as [H1|[H1|[H1|[]]]]; injection H1 as <- <-; destruct H2 as [H2|[H2|[H2|[]]]]; injection H2; intros; subst; try discriminate; try reflexivity.
  - intros p fs rows H. cbn in H. destruct H as [H|[H|[H|[]]]]; try discriminate. injection H as <- <- <-. split; [discriminate|]. split; [repeat constructor; cbn; intuition discriminate|repeat constructor].
Qed.
Example C256_hdf_columns_ex : good_file ex_file /\
  (exists h, hdf_open ex_file [1] (fun _ => false) [] 0 = Ok h /\ map fst (h_dtype h) = [[2]; [3; 4]; [3; 5]] /\ h_size h = 4 /\
     hdf_read 0 ex_file h [[3; 5]; [2]] 1 4 2 = Ok [[31; 33]; [11; 13]]) /\
  (exists h, hdf_open ex_file [1] (fun p => path_eqb p [1; 2]) [] 0 = Ok h /\ h_root h = [1; 3] /\ map fst (h_dtype h) = [[4]; [5]] /\ hdf_read 0 ex_file h [[5]] 0 2 1 = Ok [[30; 31]]).
Proof.
  split; [exact ex_file_good|]. split.
  - eexists. split; [reflexivity|]. split; [reflexivity|]. split; [reflexivity|]. reflexivity.
  - eexists. split; [reflexivity|]. split; [reflexivity|]. split; [reflexivity|]. reflexivity.
Qed.

(* C256: columns of different lengths are refused, as is a root that is not in the file *)
Theorem C256_refused : forall (A : Type) (ff : h5 (A := A)) root excluded header f0, good_file ff ->
  ((forall q d, ~ In (root ++ q, d) (dsets ff)) -> hdf_open ff root excluded header f0 = Err ValueError) /\
  ((exists q d, In (root ++ q, d) (dsets ff)) -> (exists p ty rows p' ty' rows', column_at ff (root ++ p) ty rows /\ excluded (root ++ p) = false /\ column_at ff (root ++ p') ty' rows' /\ excluded (root ++ p') = false /\ length rows <> length rows') ->
     hdf_open ff root excluded header f0 = Err ValueError).
Proof. intros A ff root excluded header f0 GF. exact (open_refused ff GF root excluded header f0). Qed.
Print Assumptions C256_refused.
Example C256_refused_ex : hdf_open ex_file [4] (fun _ => false) [] 0 = Err ValueError /\ hdf_open ex_file [] (fun _ => false) [] 0 = Err ValueError.
Proof. split; reflexivity. Qed.

(* C257: a data set without fields given as the data set cannot be read *)
Theorem C257_plain_dataset_refuted : exists (ff : h5 (A := nat)) root rows h, good_file ff /\ In (root, Plain 7 rows) (dsets ff) /\ 0 < length rows /\ hdf_open ff root (fun _ => false) [] 0 = Ok h /\
  h_size h = length rows /\ h_dtype h <> [] /\ forall c, In c (map fst (h_dtype h)) -> hdf_read 0 ff h [c] 0 (Z.of_nat (length rows)) 1 = Err ValueError.
Proof.
  exists ex_file, [1; 2], [10; 11; 12; 13]. eexists. split; [exact ex_file_good|]. split; [left; reflexivity|]. split; [cbn; lia|]. split; [reflexivity|]. split; [reflexivity|]. split; [discriminate|]. intros c [<-|[]]. reflexivity.
Qed.
Print Assumptions C257_plain_dataset_refuted.

(* C258: the attributes of the header are lost when all columns are fields of one data set *)
Theorem C258_header_refuted : exists (ff : h5 (A := nat)) root header k val h, good_file ff /\ In (k, val) header /\ hdf_open ff root (fun _ => false) header 0 = Ok h /\ aget [k] (h_attrs h) = None.
Proof. exists ex_file, [1; 3], [(8, 5%Z)], 8, 5%Z. eexists. split; [exact ex_file_good|]. split; [left; reflexivity|]. split; reflexivity. Qed.
Print Assumptions C258_header_refuted.
