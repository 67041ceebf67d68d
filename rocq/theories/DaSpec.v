(* Counting and ranking in one global list. *)
From Verif Require Import Base RanksSpec.
From Coq Require Import Sorted Permutation.
Local Open Scope Z_scope.

Definition globally_sorted (parts : list (list Z)) : Prop := StronglySorted Z.le (global parts).
(* the number of distinct values of l below x *)
Definition distinct_below (l : list Z) (x : Z) : Z := zlen (nodup Z.eq_dec (filter (fun y => y <? x) l)).
(* how often v occurs *)
Definition count (v : Z) (l : list Z) : Z := zlen (filter (fun x => x =? v) l).
(* the total of the weights of the items with value v *)
Definition total {W} (zero : W) (add : W -> W -> W) (v : Z) (xw : list (Z * W)) : W :=
  fold_right add zero (map snd (filter (fun p => fst p =? v) xw)).
Definition counted {W} (zero : W) (add : W -> W -> W) (all : list (Z * W)) (from to : Z) : list W :=
  map (fun i => total zero add (from + Z.of_nat i) all) (seq 0 (Z.to_nat (to - from))).

(* sorting into given local sizes by distinct keys *)
Definition mpsort_out_contract {R} (mp : list Z -> (R -> Z) -> list (list R) -> list (list R)) : Prop :=
  forall sizes key parts, Forall (fun n => 0 <= n) sizes -> zsum sizes = zlen (global parts) ->
    map zlen (mp sizes key parts) = sizes /\
    Permutation (global (mp sizes key parts)) (global parts) /\
    StronglySorted (fun a b => key a <= key b) (global (mp sizes key parts)).
