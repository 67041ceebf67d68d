From Coq Require Import Reals List Bool String Lra Lia.
From Coquelicot Require Import Coquelicot.
From Verif Require Import Base CmpModel CmpSpec.
Import ListNotations.
Local Open Scope R_scope.

(* ---- polynomials ---- *)
Ltac poly_int F := unfold F; match goal with |- is_RInt ?f ?a ?b (minus ?x ?y) => idtac | |- is_RInt ?f ?a ?b (?x - ?y) => change (x - y) with (minus x y) end;
  match goal with |- is_RInt ?f ?a ?b (minus ?x ?y) => 
    let X := eval pattern b in x in match X with ?g _ => apply (is_RInt_derive g f a b) end end;
  intros u _; [auto_derive; [exact I|field]|apply (@ex_derive_continuous R_AbsRing R_NormedModule); auto_derive; exact I].
Definition F_cic (c0 s0 c1 s1 u : R) : R := ((1) / 1 * u ^ 1 + (-1) / 1 * u ^ 2 + (1) / 3 * u ^ 3) * (c0 * c0 + s0 * s0)
  + ((1) / 1 * u ^ 2 + (-2) / 3 * u ^ 3) * (c0 * c1 + s0 * s1)
  + ((1) / 3 * u ^ 3) * (c1 * c1 + s1 * s1).
Lemma F_cic_ok c0 s0 c1 s1 a b : is_RInt (fun u => (((1) / 1 * u ^ 0 + (-1) / 1 * u ^ 1) * c0 + ((1) / 1 * u ^ 1) * c1) ^ 2 + (((1) / 1 * u ^ 0 + (-1) / 1 * u ^ 1) * s0 + ((1) / 1 * u ^ 1) * s1) ^ 2) a b (F_cic c0 s0 c1 s1 b - F_cic c0 s0 c1 s1 a).
Proof. poly_int F_cic. Qed.
Definition F_tsc_a (cm sm c0 s0 c1 s1 u : R) : R := ((1) / 64 * u ^ 1 + (-1) / 16 * u ^ 2 + (1) / 8 * u ^ 3 + (-1) / 8 * u ^ 4 + (1) / 20 * u ^ 5) * (cm * cm + sm * sm)
  + ((3) / 16 * u ^ 1 + (-3) / 8 * u ^ 2 + (1) / 6 * u ^ 3 + (1) / 4 * u ^ 4 + (-1) / 5 * u ^ 5) * (cm * c0 + sm * s0)
  + ((1) / 32 * u ^ 1 + (-1) / 12 * u ^ 3 + (1) / 10 * u ^ 5) * (cm * c1 + sm * s1)
  + ((9) / 16 * u ^ 1 + (-1) / 2 * u ^ 3 + (1) / 5 * u ^ 5) * (c0 * c0 + s0 * s0)
  + ((3) / 16 * u ^ 1 + (3) / 8 * u ^ 2 + (1) / 6 * u ^ 3 + (-1) / 4 * u ^ 4 + (-1) / 5 * u ^ 5) * (c0 * c1 + s0 * s1)
  + ((1) / 64 * u ^ 1 + (1) / 16 * u ^ 2 + (1) / 8 * u ^ 3 + (1) / 8 * u ^ 4 + (1) / 20 * u ^ 5) * (c1 * c1 + s1 * s1).
Lemma F_tsc_a_ok cm sm c0 s0 c1 s1 a b : is_RInt (fun u => (((1) / 8 * u ^ 0 + (-1) / 2 * u ^ 1 + (1) / 2 * u ^ 2) * cm + ((3) / 4 * u ^ 0 + (-1) / 1 * u ^ 2) * c0 + ((1) / 8 * u ^ 0 + (1) / 2 * u ^ 1 + (1) / 2 * u ^ 2) * c1) ^ 2 + (((1) / 8 * u ^ 0 + (-1) / 2 * u ^ 1 + (1) / 2 * u ^ 2) * sm + ((3) / 4 * u ^ 0 + (-1) / 1 * u ^ 2) * s0 + ((1) / 8 * u ^ 0 + (1) / 2 * u ^ 1 + (1) / 2 * u ^ 2) * s1) ^ 2) a b (F_tsc_a cm sm c0 s0 c1 s1 b - F_tsc_a cm sm c0 s0 c1 s1 a).
Proof. poly_int F_tsc_a. Qed.
Definition F_tsc_b (c0 s0 c1 s1 c2 s2 u : R) : R := ((81) / 64 * u ^ 1 + (-27) / 16 * u ^ 2 + (9) / 8 * u ^ 3 + (-3) / 8 * u ^ 4 + (1) / 20 * u ^ 5) * (c0 * c0 + s0 * s0)
  + ((-9) / 16 * u ^ 1 + (21) / 8 * u ^ 2 + (-17) / 6 * u ^ 3 + (5) / 4 * u ^ 4 + (-1) / 5 * u ^ 5) * (c0 * c1 + s0 * s1)
  + ((9) / 32 * u ^ 1 + (-3) / 4 * u ^ 2 + (11) / 12 * u ^ 3 + (-1) / 2 * u ^ 4 + (1) / 10 * u ^ 5) * (c0 * c2 + s0 * s2)
  + ((1) / 16 * u ^ 1 + (-1) / 2 * u ^ 2 + (3) / 2 * u ^ 3 + (-1) / 1 * u ^ 4 + (1) / 5 * u ^ 5) * (c1 * c1 + s1 * s1)
  + ((-1) / 16 * u ^ 1 + (3) / 8 * u ^ 2 + (-5) / 6 * u ^ 3 + (3) / 4 * u ^ 4 + (-1) / 5 * u ^ 5) * (c1 * c2 + s1 * s2)
  + ((1) / 64 * u ^ 1 + (-1) / 16 * u ^ 2 + (1) / 8 * u ^ 3 + (-1) / 8 * u ^ 4 + (1) / 20 * u ^ 5) * (c2 * c2 + s2 * s2).
Lemma F_tsc_b_ok c0 s0 c1 s1 c2 s2 a b : is_RInt (fun u => (((9) / 8 * u ^ 0 + (-3) / 2 * u ^ 1 + (1) / 2 * u ^ 2) * c0 + ((-1) / 4 * u ^ 0 + (2) / 1 * u ^ 1 + (-1) / 1 * u ^ 2) * c1 + ((1) / 8 * u ^ 0 + (-1) / 2 * u ^ 1 + (1) / 2 * u ^ 2) * c2) ^ 2 + (((9) / 8 * u ^ 0 + (-3) / 2 * u ^ 1 + (1) / 2 * u ^ 2) * s0 + ((-1) / 4 * u ^ 0 + (2) / 1 * u ^ 1 + (-1) / 1 * u ^ 2) * s1 + ((1) / 8 * u ^ 0 + (-1) / 2 * u ^ 1 + (1) / 2 * u ^ 2) * s2) ^ 2) a b (F_tsc_b c0 s0 c1 s1 c2 s2 b - F_tsc_b c0 s0 c1 s1 c2 s2 a).
Proof. poly_int F_tsc_b. Qed.
Definition F_pcs (cm sm c0 s0 c1 s1 c2 s2 u : R) : R := ((1) / 36 * u ^ 1 + (-1) / 12 * u ^ 2 + (5) / 36 * u ^ 3 + (-5) / 36 * u ^ 4 + (1) / 12 * u ^ 5 + (-1) / 36 * u ^ 6 + (1) / 252 * u ^ 7) * (cm * cm + sm * sm)
  + ((2) / 9 * u ^ 1 + (-1) / 3 * u ^ 2 + (1) / 9 * u ^ 3 + (17) / 72 * u ^ 4 + (-3) / 10 * u ^ 5 + (5) / 36 * u ^ 6 + (-1) / 42 * u ^ 7) * (cm * c0 + sm * s0)
  + ((1) / 18 * u ^ 1 + (-1) / 18 * u ^ 3 + (-1) / 18 * u ^ 4 + (1) / 6 * u ^ 5 + (-1) / 9 * u ^ 6 + (1) / 42 * u ^ 7) * (cm * c1 + sm * s1)
  + ((1) / 72 * u ^ 4 + (-1) / 30 * u ^ 5 + (1) / 36 * u ^ 6 + (-1) / 126 * u ^ 7) * (cm * c2 + sm * s2)
  + ((4) / 9 * u ^ 1 + (-4) / 9 * u ^ 3 + (1) / 6 * u ^ 4 + (1) / 5 * u ^ 5 + (-1) / 6 * u ^ 6 + (1) / 28 * u ^ 7) * (c0 * c0 + s0 * s0)
  + ((2) / 9 * u ^ 1 + (1) / 3 * u ^ 2 + (1) / 9 * u ^ 3 + (-3) / 8 * u ^ 4 + (-1) / 10 * u ^ 5 + (1) / 4 * u ^ 6 + (-1) / 14 * u ^ 7) * (c0 * c1 + s0 * s1)
  + ((1) / 18 * u ^ 4 + (-1) / 18 * u ^ 6 + (1) / 42 * u ^ 7) * (c0 * c2 + s0 * s2)
  + ((1) / 36 * u ^ 1 + (1) / 12 * u ^ 2 + (5) / 36 * u ^ 3 + (1) / 12 * u ^ 4 + (-1) / 20 * u ^ 5 + (-1) / 12 * u ^ 6 + (1) / 28 * u ^ 7) * (c1 * c1 + s1 * s1)
  + ((1) / 72 * u ^ 4 + (1) / 30 * u ^ 5 + (1) / 36 * u ^ 6 + (-1) / 42 * u ^ 7) * (c1 * c2 + s1 * s2)
  + ((1) / 252 * u ^ 7) * (c2 * c2 + s2 * s2).
Lemma F_pcs_ok cm sm c0 s0 c1 s1 c2 s2 a b : is_RInt (fun u => (((1) / 6 * u ^ 0 + (-1) / 2 * u ^ 1 + (1) / 2 * u ^ 2 + (-1) / 6 * u ^ 3) * cm + ((2) / 3 * u ^ 0 + (-1) / 1 * u ^ 2 + (1) / 2 * u ^ 3) * c0 + ((1) / 6 * u ^ 0 + (1) / 2 * u ^ 1 + (1) / 2 * u ^ 2 + (-1) / 2 * u ^ 3) * c1 + ((1) / 6 * u ^ 3) * c2) ^ 2 + (((1) / 6 * u ^ 0 + (-1) / 2 * u ^ 1 + (1) / 2 * u ^ 2 + (-1) / 6 * u ^ 3) * sm + ((2) / 3 * u ^ 0 + (-1) / 1 * u ^ 2 + (1) / 2 * u ^ 3) * s0 + ((1) / 6 * u ^ 0 + (1) / 2 * u ^ 1 + (1) / 2 * u ^ 2 + (-1) / 2 * u ^ 3) * s1 + ((1) / 6 * u ^ 3) * s2) ^ 2) a b (F_pcs cm sm c0 s0 c1 s1 c2 s2 b - F_pcs cm sm c0 s0 c1 s1 c2 s2 a).
Proof. poly_int F_pcs. Qed.
