(* Analytic random counts: C36, C99. *)
From Coq Require Import List Reals Lra.
From Verif Require Import RandModel RandProofs.
Import ListNotations.
Local Open Scope R_scope.

Theorem C36_shells : forall edges L lo hi, spans edges lo hi -> 0 <= lo -> 0 < volume L ->
  Forall (fun f => 0 <= f) (fill_1d edges L) /\ rsum (fill_1d edges L) = (4 / 3 * PI * hi ^ 3 - 4 / 3 * PI * lo ^ 3) / volume L.
Proof. exact fill_1d_ok. Qed.
Print Assumptions C36_shells.
Theorem C36_wedges : forall edges mus L lo hi, spans edges lo hi -> 0 <= lo -> spans mus 0 1 -> 0 < volume L ->
  Forall (Forall (fun f => 0 <= f)) (fill_2d edges mus L) /\ map rsum (fill_2d edges mus L) = fill_1d edges L.
Proof. exact fill_2d_ok. Qed.
Print Assumptions C36_wedges.
Theorem C36_rings : forall rps pis L lo hi plo phi, spans rps lo hi -> 0 <= lo -> spans pis plo phi -> 0 < volume L ->
  Forall (Forall (fun f => 0 <= f)) (fill_proj rps pis L) /\
  rsum (map rsum (fill_proj rps pis L)) = (PI * hi ^ 2 - PI * lo ^ 2) * (2 * phi - 2 * plo) / volume L.
Proof. exact fill_proj_ok. Qed.
Print Assumptions C36_rings.
Example C36_shells_ex : spans [1; 2; 5] 1 5 /\ spans [0; 1 / 2; 1] 0 1 /\ spans [0; 10; 20] 0 20 /\ 0 < volume (100, 100, 50).
Proof. unfold spans, volume. cbn [rising hd last]. repeat split; try lra; discriminate. Qed.
(* C99: the angular factors are not those of spherical caps, and nan beyond 60 degrees *)
Theorem C99_angular_refuted : exists lo hi, 0 <= lo /\ lo <= hi /\ hi <= 90 /\
  ((exists f, fill_angular [lo; hi] = [Some f] /\ f <> cap_fraction hi - cap_fraction lo) /\ exists hi', hi <= hi' /\ hi' <= 90 /\ fill_angular [lo; hi'] = [None]).
Proof.
  destruct angular_wrong as [[A B] C]. exists 0, 60. repeat split; try lra.
  - exists (1 / 2). split; [exact A|]. rewrite B. lra.
  - exists 90. repeat split; try lra. exact C.
Qed.
Print Assumptions C99_angular_refuted.
