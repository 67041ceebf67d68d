(* Model of the compensation of the window of interpolation (nbodykit/source/mesh/catalog.py 419-600).

   A value of the field is a complex number, given by its parts; w the circular frequencies of its mode.
   Numbers are reals; x ** 0.5 is the square root. *)
From Coq Require Import Reals List Bool String.
From Verif Require Import Base.
Import ListNotations.
Local Open Scope R_scope.

Definition cplx : Type := R * R.
(* v / r *)
Definition cdiv (v : cplx) (r : R) : cplx := (fst v / r, snd v / r).
Definition reqb (x y : R) : bool := if Req_EM_T x y then true else false.
(* numpy.sinc *)
Definition np_sinc (x : R) : R := if reqb x 0 then 1 else sin (PI * x) / (PI * x).

(* for i in range(3): v = v / tmp(w[i]) *)
Definition loop (tmp : R -> R) (w : nat -> R) (v : cplx) : cplx := fold_left (fun v i => cdiv v (tmp (w i))) [0; 1; 2]%nat v.

(* 454-475, 477-498, 500-522 *)
Definition CompensateTSC : (nat -> R) -> cplx -> cplx := loop (fun wi => np_sinc (5 / 10 * wi / PI) ^ 3).
Definition CompensatePCS : (nat -> R) -> cplx -> cplx := loop (fun wi => np_sinc (5 / 10 * wi / PI) ^ 4).
Definition CompensateCIC : (nat -> R) -> cplx -> cplx := loop (fun wi => if reqb wi 0 then 1 else np_sinc (5 / 10 * wi / PI) ^ 2).
(* 524-546, 548-572, 574-595 *)
Definition CompensateTSCShotnoise : (nat -> R) -> cplx -> cplx := loop (fun wi => let s := sin (5 / 10 * wi) ^ 2 in sqrt (1 - s + 2 / 15 * s ^ 2)).
Definition CompensatePCSShotnoise : (nat -> R) -> cplx -> cplx := loop (fun wi => let s := sin (5 / 10 * wi) ^ 2 in sqrt (1 - 4 / 3 * s + 2 / 5 * s ^ 2 - 4 / 315 * s ^ 3)).
Definition CompensateCICShotnoise : (nat -> R) -> cplx -> cplx := loop (fun wi => sqrt (1 - 2 / 3 * sin (5 / 10 * wi) ^ 2)).

(* get_compensation, 419-452: one action on the complex field with circular frequencies *)
Definition get_compensation (interlaced : bool) (resampler : string) : res ((nat -> R) -> cplx -> cplx) :=
  let d := if interlaced then [("cic", CompensateCIC); ("tsc", CompensateTSC); ("pcs", CompensatePCS)]%string
           else [("cic", CompensateCICShotnoise); ("tsc", CompensateTSCShotnoise); ("pcs", CompensatePCSShotnoise)]%string in
  match find (fun e => String.eqb (fst e) resampler) d with Some (_, f) => Ok f | None => Err ValueError end.
