(* What a size-ordered labelling of groups and the connected components are. *)
From Verif Require Import Base RanksSpec DaSpec.
From Coq Require Import Sorted Permutation Relations.
Local Open Scope Z_scope.

(* numpy.argsort without a promise about ties *)
Definition argsort_contract (argsort : list Z -> list nat) : Prop :=
  forall l, Permutation (argsort l) (seq 0 (length l)) /\ StronglySorted (fun i j => nth i l 0 <= nth j l 0) (argsort l).

(* ids and labels of all particles, in the same order: groups of more than thresh
   members have the labels 1, 2, ... by decreasing size, the others the label 0 *)
Record labelled (thresh : Z) (ids labels : list Z) : Prop := {
  l_length : length labels = length ids;
  l_small : forall i, (i < length ids)%nat -> nth i labels 0 = 0 <-> count (nth i ids 0) ids <= thresh;
  l_same : forall i j, (i < length ids)%nat -> (j < length ids)%nat -> nth i labels 0 <> 0 -> nth j labels 0 <> 0 ->
    (nth i labels 0 = nth j labels 0 <-> nth i ids 0 = nth j ids 0);
  l_dense : forall i k, (i < length ids)%nat -> 1 <= k <= nth i labels 0 -> In k labels;
  l_nonneg : forall i, (i < length ids)%nat -> 0 <= nth i labels 0;
  l_order : forall i j, (i < length ids)%nat -> (j < length ids)%nat -> 0 < nth i labels 0 < nth j labels 0 ->
    count (nth j ids 0) ids <= count (nth i ids 0) ids
}.

(* two particles with copies in the same local group of some rank *)
Definition joined (layout : list (list nat)) (labels : list (list Z)) (p q : nat) : Prop :=
  exists r l c j k, nth_error layout r = Some l /\ nth_error labels r = Some c /\ nth_error l j = Some p /\ nth_error l k = Some q /\
    (exists x, nth_error c j = Some x /\ nth_error c k = Some x).
Definition component (layout : list (list nat)) (labels : list (list Z)) : nat -> nat -> Prop := clos_refl_sym_trans nat (joined layout labels).

(* layout: particles 0..n-1, each received by some rank; labels: one label per received
   particle, counting from 0 without gaps on each rank *)
Record fof_input (n : nat) (layout : list (list nat)) (labels : list (list Z)) : Prop := {
  fi_covers : forall p, (p < n)%nat -> exists l, In l layout /\ In p l;
  fi_range : forall l p, In l layout -> In p l -> (p < n)%nat;
  fi_aligned : map (@length nat) layout = map (@length Z) labels;
  fi_dense : forall c x y, In c labels -> In x c -> 0 <= y <= x -> In y c;
  fi_nonneg : forall c x, In c labels -> In x c -> 0 <= x
}.

(* the id of a particle is the smallest particle of its component *)
Definition least_of (n : nat) (layout : list (list nat)) (labels : list (list Z)) (ids : list Z) : Prop :=
  length ids = n /\ forall p, (p < n)%nat -> exists q, nth_error ids p = Some (Z.of_nat q) /\ (q < n)%nat /\ component layout labels p q /\
    forall s, (s < n)%nat -> component layout labels p s -> (q <= s)%nat.

(* the friends-of-friends groups of a link relation; a layout is wide enough when
   linked particles meet on some rank, and local labels are right when they are the
   groups among the particles of the rank *)
Definition friends (linked : nat -> nat -> Prop) : nat -> nat -> Prop := clos_refl_sym_trans nat linked.
Definition meet (layout : list (list nat)) (linked : nat -> nat -> Prop) : Prop :=
  forall p q, linked p q -> exists l, In l layout /\ In p l /\ In q l.
Definition local_groups (layout : list (list nat)) (labels : list (list Z)) (linked : nat -> nat -> Prop) : Prop :=
  forall r l c j k p q, nth_error layout r = Some l -> nth_error labels r = Some c -> nth_error l j = Some p -> nth_error l k = Some q ->
    (nth j c 0 = nth k c 0 <-> clos_refl_sym_trans nat (fun a b => (linked a b \/ a = b) /\ In a l /\ In b l) p q).

(* the size of the group of p among the particles 0..n-1 *)
Definition group_size (n : nat) (linked : nat -> nat -> Prop) (p : nat) (k : Z) : Prop :=
  exists l, NoDup l /\ (forall q, In q l <-> (q < n)%nat /\ friends linked p q) /\ zlen l = k.
(* labels of the particles: 0 for groups of at most thresh members, 1, 2, ... by
   decreasing size for the others *)
Record fof_labels (n : nat) (linked : nat -> nat -> Prop) (thresh : Z) (labels : list Z) : Prop := {
  fl_length : length labels = n;
  fl_size : forall p, (p < n)%nat -> exists k, group_size n linked p k;
  fl_small : forall p k, (p < n)%nat -> group_size n linked p k -> nth p labels 0 = 0 <-> k <= thresh;
  fl_friends : forall p q, (p < n)%nat -> (q < n)%nat -> friends linked p q -> nth p labels 0 = nth q labels 0;
  fl_same : forall p q, (p < n)%nat -> (q < n)%nat -> nth p labels 0 <> 0 -> nth p labels 0 = nth q labels 0 -> friends linked p q;
  fl_dense : forall p k, (p < n)%nat -> 1 <= k <= nth p labels 0 -> In k labels;
  fl_nonneg : forall p, (p < n)%nat -> 0 <= nth p labels 0;
  fl_order : forall p q a b, (p < n)%nat -> (q < n)%nat -> 0 < nth p labels 0 < nth q labels 0 -> group_size n linked p a -> group_size n linked q b -> b <= a
}.
