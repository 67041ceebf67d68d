(* The addition theorem of the spherical harmonics; that of the complex ones is [addition] in ThreeSpec.v. *)
From Verif Require Import Base.
From Coq Require Import Reals.
From Verif Require Import RandModel ThreeModel ThreeSpec.
Local Open Scope R_scope.

(* m from -l to l *)
Definition orders (l : nat) : list Z := map (fun k => (Z.of_nat k - Z.of_nat l)%Z) (seq 0 (2 * l + 1)).
Definition real_addition (Y : nat -> Z -> point -> R) (l : nat) : Prop :=
  forall a b, unit3 a -> unit3 b -> 4 * PI * rsum (map (fun m => Y l m a * Y l m b) (orders l)) = INR (2 * l + 1) * rlegendre l (dot3 a b).
