(* What saved results are meant to hold. *)
From Verif Require Import Base Num SerModel.
From Coq Require Import String.
Local Open Scope nat_scope.
Local Notation length := List.length.

(* c: the midpoints between the numbers of e *)
Definition midpoints (e c : list Qc) : Prop :=
  length e = S (length c) /\ forall i a b x, nth_error e i = Some a -> nth_error e (S i) = Some b -> nth_error c i = Some x -> (x + x = a + b)%Qc.
(* a statistic with these dimensions and bins, centred, nothing to sum, and data of any kind *)
Definition binned {V A} (dims : list string) (edges : list (list Qc)) (s : stat V A) : Prop :=
  s_dims s = dims /\ length edges = length dims /\ s_edges s = map Arr edges /\ Forall2 midpoints edges (s_coords s) /\ s_shape s = map (@length Qc) (s_coords s) /\ s_sum s = [] /\ s_attrs s = [].
(* the same bins, values and meta-data *)
Definition same_content {V A} (s t : stat V A) : Prop :=
  s_dims s = s_dims t /\ s_edges s = s_edges t /\ s_coords s = s_coords t /\ s_shape s = s_shape t /\ s_cols s = s_cols t /\ s_attrs s = s_attrs t.
