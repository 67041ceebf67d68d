(* What users expect of distributed arrays, stated without the model's helpers. *)
From Verif Require Import Base.

(* the meaning of a distributed array: its rank-order concatenation *)
Definition global {A} (parts : list (list A)) : list A := concat parts.

(* items held by the ranks before rank r *)
Definition before {A} (parts : list (list A)) (r : nat) : list A := concat (firstn r parts).

(* last n items of a list *)
Definition lastn {A} (n : Z) (l : list A) : list A := skipn (length l - Z.to_nat n) l.

(* sizes that differ by at most one *)
Definition balanced (sizes : list Z) : Prop :=
  forall a b, In a sizes -> In b sizes -> Z.abs (a - b) <= 1.

(* a sampler whose first m values do not depend on how many more are drawn, and
   which yields one value per argument *)
Definition prefix_stable {A B} (sampler : Z -> list A -> list B) : Prop :=
  (forall seed args, length (sampler seed args) = length args) /\
  (forall seed args m, sampler seed (firstn m args) = firstn m (sampler seed args)).

(* serial reference: cut the global argument list into consecutive chunks and
   draw chunk number i with the i-th seed *)
Fixpoint serial_draw {A B} (sampler : Z -> list A -> list B) (chunksize : nat)
         (seeds : list Z) (args : list A) : list B :=
  match seeds with
  | [] => []
  | s :: ss => sampler s (firstn chunksize args) ++ serial_draw sampler chunksize ss (skipn chunksize args)
  end.

(* the smallest / largest element of a list, None for the empty list *)
Definition smallest (l : list Z) (m : option Z) : Prop :=
  match m with None => l = [] | Some x => In x l /\ forall y, In y l -> x <= y end.
Definition largest (l : list Z) (m : option Z) : Prop :=
  match m with None => l = [] | Some x => In x l /\ forall y, In y l -> y <= x end.
