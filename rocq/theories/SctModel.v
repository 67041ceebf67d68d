(* Model of the automatic bins of RedshiftHistogram: scotts_bin_width
   (nbodykit/algorithms/zhist.py:237-253), over the reals.

   The redshifts of every rank are a list; data.max() of an empty array is a ValueError.  0/0 is
   nan, and max(1, nan) is 1. *)
From Verif Require Import Base.
From Coq Require Import Reals.
Local Open Scope R_scope.

Definition total (l : list R) : R := fold_right Rplus 0 l.
Definition extreme (f : R -> R -> R) (l : list R) : res R :=
  match l with [] => Err ValueError | x :: l => Ok (fold_left f l x) end.
(* comm.allreduce(data.max(), op=MPI.MAX) *)
Definition reduce_extreme (f : R -> R -> R) (ranks : list (list R)) : res R :=
  let! locals := rall (map (extreme f) ranks) in extreme f locals.
(* numpy.ceil *)
Definition ceil (x : R) : Z := (- Int_part (- x))%Z.

Definition scotts_bin_width (ranks : list (list R)) : res (R * list R) :=
  let csum := total (map total ranks) in                                              (* 238 *)
  let csize := INR (list_sum (map (@length R) ranks)) in                              (* 239 *)
  let cmean := csum / csize in                                                        (* 240 *)
  let rsum := total (map (fun data => total (map (fun z => Rabs (z - cmean) ^ 2) data)) ranks) in   (* 243 *)
  let sigma := sqrt (rsum / csize) in                                                 (* 244 *)
  let dx := sigma * Rpower (24 * sqrt PI / csize) (1 / 3) in                          (* 246 *)
  let! maxval := reduce_extreme Rmax ranks in                                         (* 247 *)
  let! minval := reduce_extreme Rmin ranks in                                         (* 248 *)
  let Nbins := if Req_EM_T dx 0 then 1%Z else Z.max 1 (ceil ((maxval - minval) / dx)) in   (* 250-251 *)
  Ok (dx, map (fun i => minval + dx * INR i) (seq 0 (Z.to_nat (Nbins + 1)))).         (* 252 *)
