(* Property theorems C13 (gslice), C14 (sort), C64 (Index) and the refuted claims C61-C63, C65. *)
From Verif Require Import Base BaseProofs RanksModel RanksSpec RanksProofs DistModel DistSpec DistProofs.
From Coq Require Import Sorted Permutation.
Local Open Scope Z_scope.

(* C13: with redistribute the result is the Python slice of the global rows, spread evenly *)
Theorem C13_gslice_even : forall (A : Type) (parts : list (list A)) start stop step rows,
  (1 <= length parts)%nat -> (forall s, step = Some s -> 0 < s) ->
  py_slice (global parts) start stop step = Ok rows ->
  exists out, gslice start stop step true parts = Ok out /\ global out = rows /\
    length out = length parts /\ balanced (map zlen out).
Proof. exact @gslice_even. Qed.
Print Assumptions C13_gslice_even.
Example C13_gslice_even_ex :
  let parts := [[10; 11; 12]; []; [13; 14]] in
  py_slice (global parts) (Some (-4)) None (Some 1) = Ok [11; 12; 13; 14] /\
  gslice (Some (-4)) None (Some 1) true parts = Ok [[11; 12]; [13]; [14]].
Proof. split; reflexivity. Qed.

(* C13: without redistribute every rank keeps those of its own rows that are in the slice *)
Theorem C13_gslice_local : forall (A : Type) (parts : list (list A)) start stop step rows,
  (1 <= length parts)%nat -> (forall s, step = Some s -> 0 < s) ->
  py_slice (global parts) start stop step = Ok rows ->
  exists out ms, gslice start stop step false parts = Ok out /\ global out = rows /\
    map zlen ms = map zlen parts /\ out = map (fun pm => masked (fst pm) (snd pm)) (combine parts ms).
Proof. exact @gslice_local. Qed.
Print Assumptions C13_gslice_local.
Example C13_gslice_local_ex :
  let parts := [[10; 11; 12]; []; [13; 14]] in
  gslice (Some 1) (Some 100) (Some 2) false parts = Ok [[11]; []; [13]] /\ py_slice (global parts) (Some 1) (Some 100) (Some 2) = Ok [11; 13].
Proof. split; reflexivity. Qed.

(* C13: a negative step selects the right rows, in ascending order *)
Theorem C13_gslice_negative : forall (A : Type) (parts : list (list A)) start stop s rows redistribute,
  (1 <= length parts)%nat -> s < 0 ->
  py_slice (global parts) start stop (Some s) = Ok rows ->
  exists out, gslice start stop (Some s) redistribute parts = Ok out /\ global out = rev rows.
Proof. exact @gslice_negative. Qed.
Print Assumptions C13_gslice_negative.
Theorem C13_gslice_zero : forall (A : Type) (parts : list (list A)) start stop redistribute,
  gslice start stop (Some 0) redistribute parts = Err ValueError /\ py_slice (global parts) start stop (Some 0) = Err ValueError.
Proof. exact @gslice_zero. Qed.
Print Assumptions C13_gslice_zero.

(* C61: gslice with a negative step does not reverse *)
Theorem C61_reversed_refuted : exists (parts : list (list Z)) rows,
  py_slice (global parts) None None (Some (-1)) = Ok rows /\
  forall out, gslice None None (Some (-1)) true parts = Ok out -> global out <> rows.
Proof. exists [[1; 2]; [3]], [3; 2; 1]. split; [reflexivity|]. intros out H. vm_compute in H. injection H as <-. discriminate. Qed.
Print Assumptions C61_reversed_refuted.

(* C14: a stable lexicographic sort of all rows; every rank keeps its number of rows *)
Theorem C14_sort : forall (R : Type) (field : nat -> R -> Z) cols mp keys reverse usecols parts,
  mpsort_contract mp ->
  NoDup keys -> (forall n, In n keys -> exists dt, dtype_of cols n = Some dt /\ dt <> DOther) ->
  (forall u n, usecols = Some u -> In n u -> In n (map fst cols)) ->
  all_plain field cols reverse keys (global parts) ->
  exists names out, DistModel.sort R field cols mp keys reverse usecols parts = Ok (names, out) /\
    (forall n, In n names <-> In n (match usecols with Some u => u | None => map fst cols end)) /\
    map (@length R) out = map (@length R) parts /\
    Permutation (global out) (global parts) /\
    StronglySorted (lex (if reverse then Z.ge else Z.le) (map (value_of field cols) keys)) (global out) /\
    (forall v, filter (tied (map (value_of field cols) keys) v) (global out) =
               filter (tied (map (value_of field cols) keys) v) (global parts)).
Proof. exact sort_ok. Qed.
Print Assumptions C14_sort.

(* rows of two columns: an integer and a float64 bit pattern *)
Definition row2 (n : nat) (r : Z * Z) : Z := match n with O => fst r | _ => snd r end.
Definition cols2 : list (nat * dtype) := [(O, DInt); (1%nat, DF8)].
Definition f8_1 : Z := 1023 * 2 ^ 52.        (* 1.0 *)
Definition f8_2 : Z := 1024 * 2 ^ 52.        (* 2.0 *)
Definition f8_neg (x : Z) : Z := x + 2 ^ 63.
Example C14_sort_ex :
  mpsort_contract (@ref_sort (Z * Z)) /\
  all_plain row2 cols2 false [O; 1%nat] (global [[(2, f8_1); (1, f8_2)]; [(1, f8_1)]]) /\
  DistModel.sort _ row2 cols2 ref_sort [O; 1%nat] false None [[(2, f8_1); (1, f8_2)]; [(1, f8_1)]]
    = Ok ([O; 1%nat], [[(1, f8_1); (1, f8_2)]; [(2, f8_1)]]) /\
  all_plain row2 cols2 true [1%nat] (global [[(2, f8_1); (1, f8_2)]; [(1, f8_1)]]) /\
  DistModel.sort _ row2 cols2 ref_sort [1%nat] true None [[(2, f8_1); (1, f8_2)]; [(1, f8_1)]]
    = Ok ([O; 1%nat], [[(1, f8_2); (2, f8_1)]; [(1, f8_1)]]).
Proof.
  split; [apply ref_sort_contract|]. split; [|split; [vm_compute; reflexivity|split; [|vm_compute; reflexivity]]].
  - intros n r Hn Hr. cbn in Hn, Hr. intuition subst; cbn [row2]; eexists; split; try reflexivity; cbn; unfold f8_1, f8_2; try reflexivity; lia.
  - intros n r Hn Hr. cbn in Hn, Hr. intuition subst; cbn [row2]; eexists; split; try reflexivity; cbn; unfold f8_1, f8_2; try reflexivity; lia.
Qed.

(* C14: repeated keys, unknown keys or columns, and keys of other types are refused *)
Theorem C14_refused : forall (R : Type) (field : nat -> R -> Z) cols mp keys reverse usecols parts,
  ~ NoDup keys \/ (exists n, In n keys /\ ~ In n (map fst cols)) \/
  (exists u n, usecols = Some u /\ In n u /\ ~ In n (map fst cols)) ->
  DistModel.sort R field cols mp keys reverse usecols parts = Err ValueError.
Proof. exact sort_refused. Qed.
Print Assumptions C14_refused.
Theorem C14_refused_type : forall (R : Type) (field : nat -> R -> Z) cols mp keys reverse usecols parts n,
  In n keys -> dtype_of cols n = Some DOther ->
  DistModel.sort R field cols mp keys reverse usecols parts = Err ValueError.
Proof. exact sort_other. Qed.
Print Assumptions C14_refused_type.
Example C14_refused_ex :
  DistModel.sort _ row2 cols2 ref_sort [O; O] false None [[(2, 1)]] = Err ValueError /\
  DistModel.sort _ row2 cols2 ref_sort [7%nat] false None [[(2, 1)]] = Err ValueError /\
  DistModel.sort _ row2 cols2 ref_sort [O] false (Some [7%nat]) [[(2, 1)]] = Err ValueError /\
  DistModel.sort _ row2 [(O, DOther)] ref_sort [O] false None [[(2, 1)]] = Err ValueError.
Proof. repeat split. Qed.

(* C62: reverse is ignored for integer columns, whatever the sorter *)
Theorem C62_reverse_int_refuted : exists (field : nat -> Z -> Z) cols parts, forall mp, mpsort_contract mp ->
  exists names out, DistModel.sort Z field cols mp [O] true None parts = Ok (names, out) /\
    ~ StronglySorted (lex Z.ge [field O]) (global out).
Proof. exact reverse_int. Qed.
Print Assumptions C62_reverse_int_refuted.

(* C63: two negative floats come out in descending order, whatever the sorter *)
Theorem C63_negative_floats_refuted : exists (field : nat -> Z -> Z) cols parts, dtype_of cols O = Some DF8 /\
  forall mp, mpsort_contract mp ->
  exists names out, DistModel.sort Z field cols mp [O] false None parts = Ok (names, out) /\
    ~ StronglySorted (lex Z.le [value_of field cols O]) (global out).
Proof. exact negative_floats. Qed.
Print Assumptions C63_negative_floats_refuted.

(* C64: the Index column numbers the rows 0 .. csize-1 in rank order *)
Theorem C64_index : forall sizes, Forall (fun n => 0 <= n) sizes ->
  map zlen (index_column sizes) = sizes /\
  length (global (index_column sizes)) = Z.to_nat (zsum sizes) /\
  forall i, 0 <= i < zsum sizes -> nth_error (global (index_column sizes)) (Z.to_nat i) = Some i.
Proof. exact index_ok. Qed.
Print Assumptions C64_index.
Example C64_index_ex : index_column [2; 0; 3] = [[0; 1]; []; [2; 3; 4]].
Proof. reflexivity. Qed.

(* C65: the sorted rows are not spread evenly *)
Theorem C65_even_refuted : exists (field : nat -> Z -> Z) cols parts, forall mp, mpsort_contract mp ->
  exists names out, DistModel.sort Z field cols mp [O] false None parts = Ok (names, out) /\ ~ balanced (map zlen out).
Proof. exact sort_uneven. Qed.
Print Assumptions C65_even_refuted.
