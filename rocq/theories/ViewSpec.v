(* What a user expects of views of files. *)
From Verif Require Import Base IoModel IoSpec ViewModel.
Local Open Scope nat_scope.

Section Spec.
Context {A : Type}.
(* a file: columns with their entries *)
Definition table := list (fld * list (list A)).
Definition names (tab : table) : list nat := map (fun fc => f_name (fst fc)) tab.
Definition good_table (tab : table) (n : nat) : Prop :=
  NoDup (names tab) /\ forall f cells, In (f, cells) tab -> length cells = n /\ Forall (fun cell => length cell = fold_right Nat.mul 1 (f_sub f)) cells.
(* the entry of column c in row i *)
Definition entry (tab : table) (c : nat) (i : Z) (cell : list A) : Prop :=
  exists f cells, In (f, cells) tab /\ f_name f = c /\ (0 <= i)%Z /\ nth_error cells (Z.to_nat i) = Some cell.
Definition has_type (tab : table) (c : nat) (base : nat) (sub : list nat) : Prop := exists f cells, In (f, cells) tab /\ f_name f = c /\ f_base f = base /\ f_sub f = sub.
(* the reading of rows start:stop:step of some columns *)
Definition reads_table (tab : table) (n : nat) (read : list nat -> Z -> Z -> Z -> res (list (list (list A)))) : Prop :=
  forall ks, ks <> [] -> NoDup ks -> incl ks (names tab) -> forall a b s, (0 <= a <= b)%Z -> (b <= Z.of_nat n)%Z -> (1 <= s)%Z ->
    exists out, read ks a b s = Ok out /\ Forall2 (fun i row => Forall2 (fun c cell => entry tab c i cell) ks row) (py_range a b s) out.
(* the rows selected by an index *)
Inductive selects (n : nat) : row_index -> list Z -> Prop :=
| sel_int i : (- Z.of_nat n <= i < Z.of_nat n)%Z -> selects n (RInt i) [from_end (Z.of_nat n) i]
| sel_slice a b st x y z : slice_indices a b st (Z.of_nat n) = Ok (x, y, z) -> (0 < z)%Z -> (x <= y)%Z -> selects n (RSlice a b st) (py_range x y z)
| sel_mask m : length m = n -> In true m -> selects n (RMask m) (masked (map Z.of_nat (seq 0 n)) m)
| sel_ints l : l <> [] -> Forall (fun i => (- Z.of_nat n <= i < Z.of_nat n)%Z) l -> selects n (RInts l) (map (from_end (Z.of_nat n)) l).
(* a series of selections of columns *)
Fixpoint chain (cs : list nat) (css : list (list nat)) : Prop :=
  match css with [] => cs <> [] | ds :: css => ds <> [] /\ NoDup ds /\ incl ds cs /\ chain ds css end.
Fixpoint select_all (v : view) (css : list (list nat)) : res view :=
  match css with [] => Ok v | cs :: css => let! w := select_cols v cs in select_all w css end.
(* the view of a file after some selections *)
Definition view_of (tab : table) (n : nat) (css : list (list nat)) (cs : list nat) (v : view) : Prop :=
  chain (names tab) css /\ select_all (whole (map fst tab) n) css = Ok v /\ cs = last css (names tab).
End Spec.
