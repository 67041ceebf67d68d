(* Model of replacesorted (nbodykit/algorithms/fof.py:609-644) with its argument out; arrays of whole numbers,
   one-dimensional. *)
From Verif Require Import Base.
Local Open Scope nat_scope.

(* out[found] = b[ind[found]], 642-643: elements of out where found, from b *)
Fixpoint assign (s b arr : list Z) (ind : list nat) (out : list Z) : res (list Z) :=
  match arr, ind, out with
  | x :: arr, i :: ind, o :: out =>
      let! v := (if (nth i s 0 =? x)%Z then match nth_error b i with Some v => Ok v | None => Err IndexError end else Ok o) in
      let! r := assign s b arr ind out in Ok (v :: r)
  | _, _, _ => Ok []
  end.
(* 634-644; the array returned, which is out if given *)
Definition replacesorted (arr s b : list Z) (out : option (list Z)) : res (list Z) :=
  let o := match out with None => arr | Some o => o end in
  match s with
  | [] => Ok o
  | _ =>
      let ind := map (fun x => Nat.min (searchsorted s x) (length s - 1)) arr in
      if Nat.eqb (length o) (length arr) then assign s b arr ind o else Err IndexError
  end.
