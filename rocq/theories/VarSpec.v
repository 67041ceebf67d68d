(* Variables of binned statistics. *)
From Verif Require Import Base Num BinModel BinSpec.
Local Open Scope nat_scope.
(* variable y, of an integer type or not, with the values f *)
Definition has_var (s : stat) (y : nat) (int : bool) (f : list nat -> val) : Prop :=
  exists k, nth_error (vars s) k = Some (y, int) /\ forall idx, nth k (cell (data s) idx) None = f idx.
Definition names (s : stat) : list nat := map fst (vars s).
(* the mask marks the cells at which some variable is not finite *)
Definition exact (s : stat) : Prop := forall idx, cell (mask s) idx = true <-> exists k, k < length (vars s) /\ nth k (cell (data s) idx) None = None.
Definition same_grid (s t : stat) : Prop := dims t = dims s /\ edges t = edges s /\ coords t = coords s /\ attrs t = attrs s /\ fts t = fts s /\ shape (data t) = shape (data s).
