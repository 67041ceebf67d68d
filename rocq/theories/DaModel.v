(* Model of nbodykit/utils.py: LinearTopology (775-855) and DistributedArray
   (534-762).  A distributed array of dimension one is the list of the local arrays of
   all ranks, in rank order; a function below gives the results of all ranks.  Values
   are integers; dtypes and trailing dimensions are not modelled (all local arrays have
   the same). *)
From Verif Require Import Base.
Local Open Scope Z_scope.

Definition last_error {A} (l : list A) : option A := hd_error (rev l).

(* heads, tails; None is EmptyRank.  785-812 *)
Definition heads {A} (parts : list (list A)) : list (option A) := map (@hd_error A) parts.
Definition tails {A} (parts : list (list A)) : list (option A) := map last_error parts.
(* the loops of prev and next: the first entry that is not EmptyRank *)
Fixpoint first_some {A} (l : list (option A)) : option A :=
  match l with [] => None | Some x :: _ => Some x | None :: l => first_some l end.
Definition prev {A} (parts : list (list A)) (r : nat) : option A := first_some (rev (firstn r (tails parts))).   (* 829-833 *)
Definition next {A} (parts : list (list A)) (r : nat) : option A := first_some (skipn (S r) (heads parts)).      (* 850-854 *)

(* __init__, 574-587: _find_dtype raises when no rank has an item (559) *)
Definition is_empty {A} (l : list A) : bool := match l with [] => true | _ => false end.
Definition da_init {A} (parts : list (list A)) : res (list (list A)) :=
  if forallb is_empty parts then Err StopIteration else Ok parts.

(* cempty, 590-601: the local length on rank r of size *)
Definition cempty_len (n : Z) (size r : nat) : Z := n * (Z.of_nat r + 1) / Z.of_nat size - n * Z.of_nat r / Z.of_nat size.
Definition cempty_lens (n : Z) (size : nat) : list Z := map (cempty_len n size) (seq 0 size).

(* numpy.unique: the sorted distinct values; return_inverse: the index of each item *)
Fixpoint unique_insert (x : Z) (l : list Z) : list Z :=
  match l with
  | [] => [x]
  | y :: m => if x <? y then x :: l else if x =? y then l else y :: unique_insert x m
  end.
Definition np_unique (l : list Z) : list Z := fold_right unique_insert [] l.
Definition unique_inverse (l : list Z) : list Z := map (fun x => Z.of_nat (searchsorted (np_unique l) x)) l.

Definition opt_eqb (a : option Z) (b : Z) : bool := match a with Some x => x =? b | None => false end.

(* Nunique of one rank, 675-684 *)
Definition n_unique (next : option Z) (local : list Z) : Z :=
  match last_error local with
  | None => 0
  | Some x => if opt_eqb next x then zlen (np_unique local) - 1 else zlen (np_unique local)
  end.
Definition n_uniques (parts : list (list Z)) : list Z :=
  map (fun r => n_unique (next parts r) (nth r parts [])) (seq 0 (length parts)).
(* unique_labels, 664-687 *)
Definition unique_labels (parts : list (list Z)) : res (list (list Z)) :=
  let ns := n_uniques parts in
  da_init (map (fun r => map (fun x => x + zsum (firstn r ns)) (unique_inverse (nth r parts []))) (seq 0 (length parts))).

(* ---- bincount; W is the type of the counts ---- *)
Section Bincount.
Context {W : Type}.
Variable zero : W.
Variable add : W -> W -> W.

Definition wsum (l : list W) : W := fold_right add zero l.
Definition zmax (l : list Z) : Z := fold_right Z.max (-1) l.

(* numpy.bincount(l, w): refuses negative values and weights of another length *)
Definition np_bincount (l : list Z) (w : list W) : res (list W) :=
  if negb (Nat.eqb (length l) (length w)) then Err ValueError
  else if existsb (fun x => x <? 0) l then Err ValueError
  else Ok (map (fun b => wsum (map snd (filter (fun xw => fst xw =? Z.of_nat b) (combine l w))))
               (seq 0 (Z.to_nat (zmax l + 1)))).

(* 722-731: the value of the first bin of a rank *)
Definition bin_offset (prev : option Z) (local : list Z) : Z :=
  match prev with
  | None => 0
  | Some p => match local with
              | [] => p
              | x :: _ => if p =? x then p else p + 1
              end
  end.

(* local=True, 735-738.  When one rank raises, the others wait in the next collective:
   the model reports the exception. *)
Definition bincount_local (parts : list (list Z)) (ws : list (list W)) : res (list (list W)) :=
  rall (map (fun r => let local := nth r parts [] in
                      let offset := bin_offset (prev parts r) local in
                      np_bincount (map (fun x => x - offset) local) (nth r ws []))
            (seq 0 (length parts))).

Definition add_first (x : W) (l : list W) : list W := match l with [] => [] | y :: m => add y x :: m end.
Fixpoint add_last (x : W) (l : list W) : list W :=
  match l with [] => [] | [y] => [add y x] | y :: m => y :: add_last x m end.

(* the loop over lower ranks, 748-751: i = rank - 1, ..., 0 *)
Fixpoint add_lower (x0 : Z) (tl : list (option Z * option W)) (n : list W) : list W * bool :=
  match tl with
  | [] => (n, false)
  | (t, c) :: tl =>
    if opt_eqb t x0 then
      match c with
      | Some c => let '(n', _) := add_lower x0 tl (add_first c n) in (n', true)
      | None => add_lower x0 tl n
      end
    else add_lower x0 tl n
  end.
(* the loop over higher ranks, 753-755 *)
Fixpoint add_higher (x1 : Z) (hd : list (option Z * option W)) (n : list W) : list W :=
  match hd with
  | [] => n
  | (h, c) :: hd =>
    if opt_eqb h x1 then match c with Some c => add_higher x1 hd (add_last c n) | None => add_higher x1 hd n end
    else add_higher x1 hd n
  end.

(* bincount, 719-762 *)
Definition bincount (shared_edges : bool) (parts : list (list Z)) (ws : list (list W)) : res (list (list W)) :=
  let! ns := bincount_local parts ws in
  let! ns := da_init ns in
  let tl := combine (tails parts) (tails ns) in
  let hd := combine (heads parts) (heads ns) in
  da_init
    (map (fun r =>
       let n := nth r ns [] in
       match hd_error (nth r parts []), last_error (nth r parts []) with
       | Some x0, Some x1 =>
           let '(n, anyshared) := add_lower x0 (rev (firstn r tl)) n in
           let n := add_higher x1 (skipn (S r) hd) n in
           if negb shared_edges && anyshared then skipn 1 n else n
       | _, _ => n
       end) (seq 0 (length parts))).
End Bincount.

(* ---- concat, 604-638 ---- *)
Section Concat.
Context {A : Type}.
(* mpsort.sort(inp, orderby='index', out=out): local sizes of out, key, rows *)
Variable mpsort_out : list Z -> (Z * A -> Z) -> list (list (Z * A)) -> list (list (Z * A)).

(* coffset of rank r, 587 *)
Definition coffset (parts : list (list A)) (r : nat) : Z := zsum (map zlen (firstn r parts)).
Definition csize (parts : list (list A)) : Z := zsum (map zlen parts).

(* the rows of rank r, with their global position in the result; go is the sum of the
   global lengths of the arrays before, 627-633 *)
Fixpoint concat_rows (args : list (list (list A))) (go : Z) (r : nat) : list (Z * A) :=
  match args with
  | [] => []
  | arg :: args =>
      combine (map (fun i => go + coffset arg r + Z.of_nat i) (seq 0 (length (nth r arg [])))) (nth r arg [])
      ++ concat_rows args (go + csize arg) r
  end.
Definition da_concat (size : nat) (localsize : option (list Z)) (args : list (list (list A))) : res (list (list A)) :=
  let inp := map (concat_rows args 0) (seq 0 size) in
  let sizes := match localsize with Some s => s | None => map zlen inp end in
  da_init (map (map snd) (mpsort_out sizes fst inp)).                               (* 634-635 *)
End Concat.
