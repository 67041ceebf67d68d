(* What a stable lexicographic sort of distributed rows is, and the values that
   float bit patterns stand for. *)
From Verif Require Import Base RanksSpec DistModel.
From Coq Require Import Sorted Permutation.
Local Open Scope Z_scope.

(* the contract of mpsort.sort: the rank-order concatenation becomes a stable
   ascending sort by the key; every rank keeps its number of rows *)
Definition mpsort_contract {R} (mp : (R -> Z) -> list (list R) -> list (list R)) : Prop :=
  forall key parts,
    map (@length R) (mp key parts) = map (@length R) parts /\
    Permutation (global (mp key parts)) (global parts) /\
    StronglySorted (fun a b => key a <= key b) (global (mp key parts)) /\
    forall k, filter (fun r => key r =? k) (global (mp key parts)) = filter (fun r => key r =? k) (global parts).

(* order by the first value, ties by the second, and so on *)
Fixpoint lex {R} (le : Z -> Z -> Prop) (fs : list (R -> Z)) (a b : R) : Prop :=
  match fs with
  | [] => True
  | f :: fs => (f a <> f b /\ le (f a) (f b)) \/ (f a = f b /\ lex le fs a b)
  end.
Definition tied {R} (fs : list (R -> Z)) (v : list Z) (r : R) : bool :=
  if list_eq_dec Z.eq_dec (map (fun f => f r) fs) v then true else false.

(* IEEE bit patterns: sign, exponent of eb bits, fraction of fb bits.  The value times
   2^(bias - 1 + fb) is an integer.  NaN patterns have no value. *)
Definition magnitude (fb : Z) (m : Z) : Z :=
  let e := m / 2 ^ fb in let f := m mod 2 ^ fb in
  if e =? 0 then f else (2 ^ fb + f) * 2 ^ (e - 1).
Definition float_value (fb width : Z) (bits : Z) : Z :=
  if bits <? 2 ^ (width - 1) then magnitude fb bits else - magnitude fb (bits - 2 ^ (width - 1)).

Definition value (dt : dtype) (x : Z) : Z :=
  match dt with DF4 => float_value 23 32 x | DF8 => float_value 52 64 x | _ => x end.

(* values for which the key is faithful: any integer, floats without the sign bit *)
Definition plain (dt : dtype) (reverse : bool) (x : Z) : Prop :=
  match dt with
  | DInt => reverse = false
  | DF4 => 0 <= x < 2 ^ 31
  | DF8 => 0 <= x < 2 ^ 63
  | DOther => False
  end.

(* the value of column n in a row, and: all key values of these rows are plain *)
Definition value_of {R} (field : nat -> R -> Z) (cols : list (nat * dtype)) (n : nat) (r : R) : Z :=
  match dtype_of cols n with Some dt => value dt (field n r) | None => 0 end.
Definition all_plain {R} (field : nat -> R -> Z) (cols : list (nat * dtype)) (reverse : bool) (keys : list nat) (rows : list R) : Prop :=
  forall n r, In n keys -> In r rows -> exists dt, dtype_of cols n = Some dt /\ plain dt reverse (field n r).
