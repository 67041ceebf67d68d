(* What saving and reading a catalog, or moving it into subvolumes, is meant to do. *)
From Verif Require Import Base.
From Coq Require Import String Permutation.
From Verif Require Import SaveModel.
Local Open Scope nat_scope.
Local Notation length := List.length.

(* all rows of a distributed column in global order *)
Definition rows {V} (parts : list (list (list V))) : list V := List.concat (map (@List.concat V) parts).
(* the names under which BigFile looks for a header *)
Definition header_name (s : string) : Prop := s = "Header"%string \/ s = "header"%string \/ s = "."%string.

(* all rows as pairs of rank and place *)
Definition places (sizes : list nat) : list (nat * nat) := flat_map (fun rn => map (pair (fst rn)) (seq 0 (snd rn))) (combine (seq 0 (length sizes)) sizes).
Definition value_at {V} (data : list (list V)) (p : nat * nat) : option V :=
  match nth_error data (fst p) with Some l => nth_error l (snd p) | None => None end.
(* the rows of the ranks came from the listed places *)
Definition comes_from {V} (data new : list (list V)) (origin : list (list (nat * nat))) : Prop :=
  Forall2 (fun l o => map Some l = map (value_at data) o) new origin.

(* equal up to a number in an array of length one *)
Definition same_attr {J} (a b : attr J) : Prop := match a with ANum x => b = AArr [x] | _ => b = a end.
