(* Distributed arrays: C19, C20, C82, C83, C86. *)
From Verif Require Import Base Num RanksSpec DaModel DaSpec DaProofs DaMore FofCmSpec DaCounts.
From Coq Require Import Sorted.
Local Open Scope Z_scope.

(* C19: the label of an item is the number of distinct smaller values of all ranks *)
Theorem C19_unique_labels : forall parts, globally_sorted parts -> global parts <> [] ->
  unique_labels parts = Ok (map (map (distinct_below (global parts))) parts).
Proof. exact unique_labels_ok. Qed.
Print Assumptions C19_unique_labels.
Example C19_unique_labels_ex :
  globally_sorted [[3; 5; 5]; []; [5]; [5; 9]; [9]] /\
  unique_labels [[3; 5; 5]; []; [5]; [5; 9]; [9]] = Ok [[0; 1; 1]; []; [1]; [1; 2]; [2]].
Proof. split; [repeat constructor; lia|reflexivity]. Qed.
(* C19: labels are equal exactly for equal values, follow their order and have no gaps *)
Theorem C19_meaning : forall l x y, In x l -> In y l ->
  (distinct_below l x = distinct_below l y <-> x = y) /\
  (distinct_below l x < distinct_below l y <-> x < y) /\
  (forall b, 0 <= b <= distinct_below l x -> exists z, In z l /\ distinct_below l z = b).
Proof.
  intros l x y Hx Hy. split; [|split].
  - split; [now apply db_inj|now intros ->].
  - split; [|now apply db_mono]. intros H. destruct (Z.lt_ge_cases x y) as [L|L]; [exact L|]. pose proof (db_le l y x L). lia.
  - intros b Hb. now apply (db_dense l x).
Qed.
Print Assumptions C19_meaning.
Example C19_meaning_ex : In 5 [3; 5; 5; 9] /\ distinct_below [3; 5; 5; 9] 5 = 1 /\ distinct_below [3; 5; 5; 9] 9 = 2.
Proof. split; [right; left; reflexivity|split; reflexivity]. Qed.

(* C20: every rank gets the totals, over all ranks, of the labels it holds *)
Theorem C20_shared : forall (W : Type) (zero : W) add parts ws, (forall x, add x zero = x) -> (forall x y, add x y = add y x) -> (forall x y z, add x (add y z) = add (add x y) z) ->
  globally_sorted parts -> (forall x, In x (global parts) -> 0 <= x) -> map (@length Z) parts = map (@length W) ws -> global parts <> [] ->
  (forall x v, In x (global parts) -> 0 <= v <= x -> In v (global parts)) ->
  exists out, bincount zero add true parts ws = Ok out /\ length out = length parts /\
  forall r local, nth_error parts r = Some local ->
    (local = [] -> nth_error out r = Some []) /\
    (forall x0 x1, hd_error local = Some x0 -> last_error local = Some x1 ->
       nth_error out r = Some (counted zero add (combine (global parts) (global ws)) x0 (x1 + 1))).
Proof. exact @shared_dense. Qed.
Print Assumptions C20_shared.
(* C20: with gaps between the labels the first bins may belong to labels of no item *)
Theorem C20_shared_gaps : forall (W : Type) (zero : W) add, (forall x, add x zero = x) -> (forall x y, add x y = add y x) -> (forall x y z, add x (add y z) = add (add x y) z) ->
  forall parts ws, globally_sorted parts -> (forall x, In x (global parts) -> 0 <= x) -> map (@length Z) parts = map (@length W) ws -> global parts <> [] ->
  exists out, bincount zero add true parts ws = Ok out /\ length out = length parts /\
  forall r local, nth_error parts r = Some local ->
    (local = [] -> nth_error out r = Some []) /\
    (forall x0 x1, hd_error local = Some x0 -> last_error local = Some x1 -> exists o, 0 <= o <= x0 /\ (forall v, o <= v < x0 -> ~ In v (global parts)) /\
       nth_error out r = Some (counted zero add (combine (global parts) (global ws)) o (x1 + 1))).
Proof. exact @shared_counts. Qed.
Print Assumptions C20_shared_gaps.
(* C20: with shared_edges=False the ranks together give every label once, in order *)
Theorem C20_unshared : forall (W : Type) (zero : W) add, (forall x, add x zero = x) -> (forall x y, add x y = add y x) -> (forall x y z, add x (add y z) = add (add x y) z) ->
  forall parts ws, globally_sorted parts -> (forall x, In x (global parts) -> 0 <= x) -> map (@length Z) parts = map (@length W) ws -> global parts <> [] ->
  forall m, greatest (global parts) m ->
  exists out, bincount zero add false parts ws = Ok out /\ global out = counted zero add (combine (global parts) (global ws)) 0 (m + 1).
Proof. exact @unshared_counts. Qed.
Print Assumptions C20_unshared.
Example C20_ex :
  let parts := [[0; 1; 1]; []; [1]; [1; 2]; [2]] in let ws := [[1; 10; 20]; []; [30]; [40; 5]; [6]] in
  globally_sorted parts /\ map (@length Z) parts = map (@length Z) ws /\ greatest (global parts) 2 /\
  bincount 0 Z.add true parts ws = Ok [[1; 100]; []; [100]; [100; 11]; [11]] /\
  bincount 0 Z.add false parts ws = Ok [[1; 100]; []; []; [11]; []] /\
  counted 0 Z.add (combine (global parts) (global ws)) 0 3 = [1; 100; 11].
Proof.
  split; [repeat constructor; lia|]. split; [reflexivity|]. split; [split; [cbn; tauto|cbn; intros; lia]|]. split; [reflexivity|split; reflexivity].
Qed.
Example C20_weights_ex :
  match bincount 0%Qc Qcplus true [[0; 0]; [0; 1]] [[Q2Qc (1 # 2); Q2Qc (1 # 3)]; [Q2Qc (1 # 6); Q2Qc (1 # 7)]] with
  | Ok out => map (map this) out = [[1]; [1; 1 # 7]]%Q
  | Err _ => False
  end.
Proof. vm_compute. reflexivity. Qed.

(* C82: concatenation keeps the global order of the items and has the wanted local sizes *)
Theorem C82_concat : forall (A : Type) (mp : list Z -> (Z * A -> Z) -> list (list (Z * A)) -> list (list (Z * A))) size args sizes,
  mpsort_out_contract mp -> (forall arg, In arg args -> length arg = size) -> concat (map global args) <> [] ->
  (forall s, sizes = Some s -> Forall (fun n => 0 <= n) s /\ zsum s = zlen (concat (map global args))) ->
  exists out, da_concat mp size sizes args = Ok out /\ global out = concat (map global args) /\
    map (@zlen A) out = match sizes with Some s => s | None => map (fun r => zsum (map (fun arg => zlen (nth r arg [])) args)) (seq 0 size) end.
Proof. exact @da_concat_ok. Qed.
Print Assumptions C82_concat.
Example C82_concat_ex : mpsort_out_contract (@ref_sort_out (Z * Z)) /\
  da_concat ref_sort_out 2 None [[[7]; [3; 5]]; [[8; 9]; []]] = Ok [[7; 3; 5]; [8; 9]] /\
  da_concat ref_sort_out 2 (Some [1; 4]) [[[7]; [3; 5]]; [[8; 9]; []]] = Ok [[7]; [3; 5; 8; 9]].
Proof. split; [apply ref_sort_out_contract|split; reflexivity]. Qed.

(* C83: cempty spreads n items evenly *)
Theorem C83_cempty : forall n size, 0 <= n -> (0 < size)%nat ->
  zsum (cempty_lens n size) = n /\ Forall (fun m => n / Z.of_nat size <= m <= n / Z.of_nat size + 1) (cempty_lens n size).
Proof. exact cempty_ok. Qed.
Print Assumptions C83_cempty.
Example C83_cempty_ex : cempty_lens 11 4 = [2; 3; 3; 3] /\ cempty_lens 2 3 = [0; 1; 1].
Proof. split; reflexivity. Qed.

(* C86: a distributed array without items cannot be made *)
Theorem C86_empty_array_refuted : exists parts : list (list Z), parts <> [] /\ global parts = [] /\ da_init parts = Err StopIteration.
Proof. exists [[]; []]. split; [discriminate|split; reflexivity]. Qed.
Print Assumptions C86_empty_array_refuted.
