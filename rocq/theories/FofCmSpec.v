(* Means over the members of a group. *)
From Verif Require Import Base Num RanksSpec.
Local Open Scope Z_scope.

(* the values of the particles with label h *)
Definition of_label {V} (h : Z) (labels : list Z) (values : list V) : list V :=
  map snd (filter (fun p => fst p =? h) (combine labels values)).
Definition mean (l : list Qc) : Qc := (qsum l / zq (zlen l))%Qc.
(* equal up to a multiple of L *)
Definition same_mod (L x y : Qc) : Prop := exists k, y = (x + zq k * L)%Qc.
(* y are the positions x, moved by whole boxes so that they lie within half a box *)
Definition unwrapped (L : Qc) (x y : list Qc) : Prop :=
  Forall2 (same_mod L) x y /\ forall a b, In a y -> In b y -> (a - b < L * Q2Qc (1 # 2))%Qc.
(* the greatest values of the group *)
Definition is_peak (h : Z) (labels : list Z) (density : list Qc) (i : nat) : Prop :=
  nth_error labels i = Some h /\ exists v, nth_error density i = Some v /\ forall w, In w (of_label h labels density) -> (w <= v)%Qc.
(* labels of a non-empty set of ranks, each with particles *)
Definition proper (labels : list (list Z)) : Prop :=
  labels <> [] /\ Forall (fun l => l <> []) labels /\ forall x, In x (global labels) -> 0 <= x.
Definition greatest (l : list Z) (m : Z) : Prop := In m l /\ forall x, In x l -> x <= m.
