(* Scott's rule for the width of bins. *)
From Verif Require Import Base.
From Coq Require Import Reals.
Local Open Scope R_scope.

Fixpoint sum (l : list R) : R := match l with [] => 0 | x :: l => x + sum l end.
Definition count (l : list R) : R := INR (length l).
Definition mean (l : list R) : R := sum l / count l.
Definition variance (l : list R) : R := sum (map (fun z => (z - mean l) * (z - mean l)) l) / count l.

(* h^3 = sigma^3 24 sqrt(pi) / n *)
Definition scott (l : list R) (h : R) : Prop := 0 <= h /\ h ^ 3 * count l = 24 * sqrt PI * sqrt (variance l) ^ 3.

(* every rank has objects *)
Definition filled (ranks : list (list R)) : Prop := ranks <> [] /\ forall d, In d ranks -> d <> [].
Definition all_same (l : list R) : Prop := forall x y, In x l -> In y l -> x = y.
