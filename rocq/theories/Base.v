(* Shared vocabulary: exceptions as values, Python ranges and slices, selection
   of rows by index.  Nothing here is specific to nbodykit. *)
From Coq Require Export List ZArith Lia Bool Arith.
From Coq Require Export ZifyBool ZifyNat.
Export ListNotations.
Ltac Zify.zify_post_hook ::= Z.div_mod_to_equations.

Open Scope Z_scope.

(* Python exceptions that the modelled code can raise. *)
Inductive exn :=
| IndexError | ValueError | TypeError | KeyError | NameError | AttributeError
| UnboundLocalError | StopIteration | OSError | ZeroDivisionError | RuntimeError | AssertionError
| OutOfContract   (* an external routine is called outside its contract *)
| Deadlock        (* the ranks do not all enter the same collective *)
| OutOfFuel.      (* model artefact; excluded by the theorems *)

Inductive res (A : Type) := Ok (a : A) | Err (e : exn).
Arguments Ok {A} a.
Arguments Err {A} e.

Definition rbind {A B} (x : res A) (f : A -> res B) : res B :=
  match x with Ok a => f a | Err e => Err e end.
Notation "'let!' x := e 'in' f" := (rbind e (fun x => f))
  (at level 200, x pattern, e at level 200, f at level 200, right associativity).

Definition is_ok {A} (x : res A) : bool := match x with Ok _ => true | Err _ => false end.

(* run a list of computations left to right, stop at the first exception *)
Fixpoint rall {A} (l : list (res A)) : res (list A) :=
  match l with
  | [] => Ok []
  | x :: l => let! a := x in let! r := rall l in Ok (a :: r)
  end.

(* length of a list in Z *)
Definition zlen {A} (l : list A) : Z := Z.of_nat (length l).

(* number of elements of Python's range(a, b, s); s = 0 is rejected by Python *)
Definition range_len (a b s : Z) : Z :=
  if 0 <? s then (if a <? b then (b - a - 1) / s + 1 else 0)
  else if s <? 0 then (if b <? a then (a - b - 1) / (- s) + 1 else 0)
  else 0.

(* Python's range(a, b, s) as a list *)
Definition py_range (a b s : Z) : list Z :=
  map (fun i => a + Z.of_nat i * s) (seq 0 (Z.to_nat (range_len a b s))).

(* l[i] for an index already known to be non-negative; out of range gives None *)
Definition znth {A} (l : list A) (i : Z) : option A :=
  if i <? 0 then None else nth_error l (Z.to_nat i).

(* the rows of l with the given indices, in the given order.
   Indices out of range select nothing; every use below proves them in range. *)
Definition select {A} (l : list A) (idx : list Z) : list A :=
  flat_map (fun i => match znth l i with Some x => [x] | None => [] end) idx.

(* Python's slice(start, stop, step).indices(n)  (CPython PySlice_AdjustIndices);
   None = argument absent.  step = 0 is a ValueError. *)
Definition clip_start (n lower upper : Z) (dflt : Z) (x : option Z) : Z :=
  match x with
  | None => dflt
  | Some v => if v <? 0 then Z.max (v + n) lower else Z.min v upper
  end.

Definition slice_indices (start stop step : option Z) (n : Z) : res (Z * Z * Z) :=
  let s := match step with None => 1 | Some v => v end in
  if s =? 0 then Err ValueError
  else if 0 <? s then Ok (clip_start n 0 n 0 start, clip_start n 0 n n stop, s)
  else Ok (clip_start n (-1) (n - 1) (n - 1) start, clip_start n (-1) (n - 1) (-1) stop, s).

(* l[start:stop:step] for a Python list or one-dimensional numpy array *)
Definition py_slice {A} (l : list A) (start stop step : option Z) : res (list A) :=
  let! i := slice_indices start stop step (zlen l) in
  let '(a, b, s) := i in Ok (select l (py_range a b s)).

(* numpy's x[::step] for step >= 1: every step-th element from the first *)
Fixpoint every_from {A} (skip step : nat) (l : list A) : list A :=
  match l with
  | [] => []
  | x :: l => match skip with
              | O => x :: every_from (step - 1) step l
              | S k => every_from k step l
              end
  end.
Definition every {A} (step : nat) (l : list A) : list A := every_from 0 step l.

(* contiguous rows a..b of a list *)
Definition sub {A} (l : list A) (a b : Z) : list A :=
  firstn (Z.to_nat (b - a)) (skipn (Z.to_nat a) l).

Definition zsum (l : list Z) : Z := fold_right Z.add 0 l.
Definition nsum (l : list nat) : nat := fold_right Nat.add 0%nat l.

(* running sums: cumsum_from a [x;y;z] = [a+x; a+x+y; a+x+y+z] *)
Fixpoint cumsum_from (a : Z) (l : list Z) : list Z :=
  match l with [] => [] | x :: l => (a + x) :: cumsum_from (a + x) l end.
Definition cumsum := cumsum_from 0.

(* numpy.searchsorted(l, x, side='left') on a sorted array: number of leading
   entries that are < x; side='right': number of leading entries <= x. *)
Fixpoint searchsorted (l : list Z) (x : Z) : nat :=
  match l with [] => 0%nat | y :: l => if y <? x then S (searchsorted l x) else 0%nat end.
Fixpoint searchsorted_right (l : list Z) (x : Z) : nat :=
  match l with [] => 0%nat | y :: l => if y <=? x then S (searchsorted_right l x) else 0%nat end.
