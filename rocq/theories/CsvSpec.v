From Coq Require Import Ascii.
From Verif Require Import Base IoSpec CsvModel.
Local Open Scope nat_scope.

(* a text file: lines ended by newlines, and what follows the last newline *)
Definition text (ls : list bytes) (tail : bytes) : bytes := flat_map (fun l => l ++ [nl]) ls ++ tail.
Definition all_lines (ls : list bytes) (tail : bytes) : list bytes := ls ++ match tail with [] => [] | _ => [tail] end.
Definition no_newline (l : bytes) : Prop := ~ In nl l.
(* the byte at which line k begins *)
Definition start_of (ls : list bytes) (k : nat) : nat := length (flat_map (fun l => l ++ [nl]) (firstn k ls)).
(* blocks of bs bytes: the number of the block that line k falls into *)
Definition block_of (ls : list bytes) (bs k : nat) : nat := (start_of ls k - 1) / bs.
(* the rows wanted *)
Definition wanted (skip_blank : bool) (skip : nat) (lines : list bytes) : list bytes :=
  filter (fun l => negb (skip_blank && blank l)) (skipn skip lines).

(* What make_partitions relies on, for a file of at least one line.  Line k is
   the first one of its block when [boundary k]. *)
Definition boundary (ls : list bytes) (tail : bytes) (bs k : nat) : Prop :=
  0 < k /\ k < length (all_lines ls tail) /\ block_of ls bs (k - 1) <> block_of ls bs k.
Record regular (ls : list bytes) (tail : bytes) (bs : nat) (skip_blank : bool) (skip : nat) : Prop := {
  (* a line begins in the last block *)
  reg_last : block_of ls bs (length (all_lines ls tail) - 1) = (length (text ls tail) - 1) / bs;
  (* there are as many lines as are skipped *)
  reg_skip : skip <= length (all_lines ls tail);
  (* blank lines, if they are skipped: empty, one at a time, not at the
     beginning of a block, not among the skipped rows *)
  reg_blank : skip_blank = true -> forall k l, nth_error (all_lines ls tail) k = Some l -> blank l = true ->
    l = [] /\ skip <= k /\ ~ boundary ls tail bs k /\ (2 <= k -> nth_error (all_lines ls tail) (k - 1) <> Some [])
}.
(* a row limit that is not reached at the end of a block, nor just before an
   unterminated last line *)
Definition clear_limit (ls : list bytes) (tail : bytes) (bs : nat) (skip_blank : bool) (skip : nat) (n : nat) : Prop :=
  0 < n /\
  (forall k, boundary ls tail bs k -> n <> length (wanted skip_blank skip (firstn k (all_lines ls tail)))) /\
  (tail <> [] -> n + 1 <> length (wanted skip_blank skip (all_lines ls tail))).
