(* What the names are supposed to mean. *)
From Coq Require Import Ascii Sorting.Sorted.
From Verif Require Import Base NamesModel.
Local Open Scope nat_scope.

Definition noslash (s : str) : Prop := ~ In slash s.

(* the full name of a column of a species *)
Definition qualified (s c : str) : str := s ++ slash :: c.

(* the array stored by an assignment *)
Definition stored {A} (size : nat) (v : value A) : list A :=
  match v with Scalar a => repeat a size | Array l => l end.

(* reachable: built by the constructor and any operations *)
Definition reachable {A} (m : multi A) : Prop :=
  exists names cats m0 ops, multi_init names cats = Ok m0 /\ m = mexec m0 ops.

(* does an operation name this column? *)
Definition op_names {A} (o : mop A) : str := match o with MSet c _ => c | MDel c => c end.

(* order of strings: first difference, or proper prefix *)
Inductive str_lt : str -> str -> Prop :=
| Lt_pre : forall p c s, str_lt p (p ++ c :: s)
| Lt_diff : forall p a b s t, nat_of_ascii a < nat_of_ascii b -> str_lt (p ++ a :: s) (p ++ b :: t).

(* the components of a path; a path lies in a group when the components of the
   group begin its components *)
Definition path := list str.
Definition good_name (w : str) : Prop := w <> [] /\ noslash w.
Fixpoint render (p : path) : str :=
  match p with
  | [] => []
  | [w] => w
  | w :: p => w ++ slash :: render p
  end.
Definition within (g p : path) : Prop := exists rest, p = g ++ rest.
(* no component of a path merely begins like the last component of g *)
Definition no_lookalike (g p : path) : Prop :=
  forall pre x y rest, g = pre ++ [x] -> p = pre ++ y :: rest -> starts x y = true -> x = y.

(* The path an excluded name (n slashes, then e) refers to: the name itself if
   the file has it, otherwise the name below the root. *)
Definition target (infile : str -> bool) (root : path) (n : nat) (e : path) : path :=
  if infile (repeat slash n ++ render e) then e else root ++ e.
Definition excluded_path (infile : str -> bool) (root : path) (ex : list (nat * path)) (header : option path) (g : path) : Prop :=
  (exists n e, In (n, e) ex /\ g = target infile root n e) \/ header = Some g.
