(* Model of fftpower.py: _find_unique_edges (732-769) and the bins in k of FFTPower.run.
   Numbers are reals. *)
From Coq Require Import Reals List Bool.
From Verif Require Import Base.
Import ListNotations.
Local Open Scope R_scope.

Definition rltb (x y : R) : bool := if Rlt_dec x y then true else false.
(* numpy.int64: the fraction is dropped *)
Definition int64 (x : R) : Z := if rltb x 0 then (- Int_part (- x))%Z else Int_part x.
(* numpy.unique(keys, return_index=True): in the order of the keys, the first element with each *)
Fixpoint put (k : Z) (x : R) (l : list (Z * R)) : list (Z * R) :=
  match l with
  | [] => [(k, x)]
  | (k', y) :: r => if (k <? k')%Z then (k, x) :: l else if (k =? k')%Z then l else (k', y) :: put k x r
  end.
Definition unique_by (key : R -> Z) (l : list R) : list R := map snd (fold_left (fun acc x => put (key x) x acc) l []).
(* 745-751 *)
Definition find_unique_local (fx2 : list R) (binning : R) : list R := unique_by (fun f => int64 (f / binning + 5 / 10)) fx2.
Definition rmin (l : list R) : R := match l with [] => 0 | x :: l => fold_left Rmin l x end.
Definition diff (l : list R) : list R := map (fun ab => snd ab - fst ab) (combine l (tl l)).
(* the squares of the coordinates of the cells on each rank; x0, xmax as in the code *)
Definition find_unique_edges (ranks : list (list R)) (x0 : list R) (xmax : R) : res (list R * list R) :=
  let binning := (rmin x0 * (5 / 100)) ^ 2 in
  let fx := concat (map (fun fx2 => filter (fun f => rltb f xmax) (map sqrt (find_unique_local fx2 binning))) ranks) in
  let fx := find_unique_local fx (rmin x0 * (1 / 100000)) in
  let width := diff fx in
  match width with
  | [] => Err IndexError                                 (* fx[-1], width[-1] *)
  | _ =>
      let edges := (hd 0 fx :: map (fun fw => fst fw - snd fw * (5 / 10)) (combine (tl fx) width)) ++ [last fx 0 + last width 0 * (5 / 10)] in
      Ok (0 :: tl edges, fx)
  end%list.
(* numpy.arange(start, stop, step): ceil((stop - start) / step) numbers *)
Definition arange (start stop step : R) : list R := map (fun i => start + INR i * step) (seq 0 (Z.to_nat (- Int_part (- ((stop - start) / step))))).
(* FFTPower.__init__, 220-221 and run, 283-292; the numbers of cells and lengths of the box *)
Definition k_edges (N L : list R) (ranks : list (list R)) (dk : option R) (kmin : R) (kmax : option R) : res (list R * option (list R)) :=
  let dk := match dk with Some d => d | None => 2 * PI / rmin L end in
  let kmax := match kmax with Some k => k | None => PI * rmin N / fold_left Rmax L 0 + dk / 2 end in
  if rltb 0 dk then Ok (arange kmin kmax dk, None)
  else let! ec := find_unique_edges ranks (map (fun l => 2 * PI / l) L) kmax in Ok (fst ec, Some (snd ec)).
