(* The recursions for Legendre polynomials in the models give the orthogonal polynomials. *)
From Verif Require Import Base Num.
From Coq Require Import Reals Lra Lia QArith Qcanon Qreals.
From Coquelicot Require Import Coquelicot.
From Verif Require Import YlmModel YlmProofs ThreeSpec YlmMain PowModel TpcfModel.
Local Open Scope R_scope.

(* real polynomials, one of each degree, with value 1 at 1, orthogonal on [-1, 1] *)
Definition orthogonal_polynomials (P : nat -> list R) : Prop :=
  (forall l, length (P l) = S l) /\ (forall l, peval (P l) 1 = 1) /\
  (forall l m, is_RInt (fun x => peval (P l) x * peval (P m) x) (-1) 1 (if Nat.eqb l m then 2 / INR (2 * l + 1) else 0)).
Definition real_of (q : Qc) : R := Q2R (this q).

(* ---- derivatives ---- *)
Lemma dmul (f g : R -> R) (x a b : R) : is_derive f x a -> is_derive g x b -> is_derive (fun x => f x * g x) x (a * g x + f x * b).
Proof. intros F G. apply (is_derive_mult f g x a b F G). intros u v. apply Rmult_comm. Qed.
Lemma dsub (f g : R -> R) (x a b : R) : is_derive f x a -> is_derive g x b -> is_derive (fun x => f x - g x) x (a - b).
Proof. intros F G. exact (is_derive_minus f g x a b F G). Qed.
Lemma dadd (f g : R -> R) (x a b : R) : is_derive f x a -> is_derive g x b -> is_derive (fun x => f x + g x) x (a + b).
Proof. intros F G. exact (is_derive_plus f g x a b F G). Qed.
Lemma dcon (c x : R) : is_derive (fun _ : R => c) x 0.
Proof. apply (@is_derive_const R_AbsRing R_NormedModule). Qed.
Lemma did (x : R) : is_derive (fun x : R => x) x 1.
Proof. apply (@is_derive_id R_AbsRing). Qed.
Lemma deq (f : R -> R) (x a b : R) : is_derive f x a -> a = b -> is_derive f x b.
Proof. intros F <-. exact F. Qed.
Lemma peval_derive p : forall x, is_derive (peval p) x (peval (pderiv p) x).
Proof.
  induction p as [|c p IH]; intros x; cbn [peval pderiv].
  - apply dcon.
  - rewrite peval_padd. cbn [peval]. eapply deq; [apply dadd; [apply dcon|apply dmul; [apply did|apply IH]]|cbv beta; ring].
Qed.
Notation P l := (peval (lpoly l)).
Notation P1 l := (peval (pderiv (lpoly l))).
Notation P2 l := (peval (pderiv (pderiv (lpoly l)))).
Lemma legendre_ode l x : (1 - x * x) * P2 l x - 2 * x * P1 l x + INR l * (INR l + 1) * P l x = 0.
Proof.
  destruct l as [|n].
  - cbn. ring.
  - destruct (ladder x n) as [A B]. pose proof (A 0%nat) as A0. pose proof (A 1%nat) as A1. pose proof (B 0%nat) as B0. pose proof (B 1%nat) as B1.
    clear A B. unfold dlegendre in *. cbv beta iota delta [Nat.iter nat_rect] in A0, A1, B0, B1. rewrite ?S_INR in *. cbn [INR] in *.
    replace ((1 - x * x) * P2 (S n) x) with (P2 (S n) x - x * (x * P2 (S n) x)) by ring.
    replace (P2 (S n) x - x * (x * P2 (S n) x)) with ((INR n + 1 + 1) * P1 n x + x * P2 n x - x * (x * P2 (S n) x)) by lra.
    replace (x * P2 (S n) x) with (P2 n x + (INR n + 1 - 1) * P1 (S n) x) by lra.
    replace (P1 n x) with (x * P1 (S n) x - (INR n + 1 - 0) * P (S n) x) by lra. ring.
Qed.
Lemma orthogonal l m : l <> m -> is_RInt (fun x => P l x * P m x) (-1) 1 0.
Proof.
  intros D.
  assert (N : INR m * (INR m + 1) - INR l * (INR l + 1) <> 0).
  { replace (INR m * (INR m + 1) - INR l * (INR l + 1)) with ((INR m - INR l) * (INR m + INR l + 1)) by ring. apply Rmult_integral_contrapositive_currified.
    - intros E. apply D. apply INR_eq. lra.
    - pose proof (pos_INR m). pose proof (pos_INR l). lra. }
  set (F := fun x => (1 - x * x) * (P m x * P1 l x - P l x * P1 m x)).
  assert (I : is_RInt (fun x => (INR m * (INR m + 1) - INR l * (INR l + 1)) * (P l x * P m x)) (-1) 1 (minus (F 1) (F (-1)))).
  { apply (is_RInt_derive F).
    - intros x _. unfold F. eapply deq.
      + apply dmul; [apply dsub; [apply dcon|apply dmul; apply did]|apply dsub; apply dmul; apply peval_derive].
      + pose proof (legendre_ode l x) as E. pose proof (legendre_ode m x) as E'.
        cbv beta. transitivity (P m x * ((1 - x * x) * P2 l x - 2 * x * P1 l x) - P l x * ((1 - x * x) * P2 m x - 2 * x * P1 m x)); [ring|].
        replace ((1 - x * x) * P2 l x - 2 * x * P1 l x) with (- (INR l * (INR l + 1) * P l x)) by lra.
        replace ((1 - x * x) * P2 m x - 2 * x * P1 m x) with (- (INR m * (INR m + 1) * P m x)) by lra. ring.
    - intros x _. apply (@ex_derive_continuous R_AbsRing R_NormedModule). eexists. apply dmul; [apply dcon|apply dmul; apply peval_derive]. }
  assert (Z : minus (F 1) (F (-1)) = 0) by (unfold F, minus, plus, opp; cbn; ring).
  rewrite Z in I. apply (@is_RInt_scal R_NormedModule _ _ _ (/ (INR m * (INR m + 1) - INR l * (INR l + 1)))) in I.
  evar_last; [eapply is_RInt_ext; [|exact I]|].
  - intros x _. unfold scal, mult; cbn. unfold mult; cbn. field. exact N.
  - unfold scal; cbn. unfold mult; cbn. ring.
Qed.
(* ---- norms ---- *)
Local Ltac inr := match goal with |- @eq _ ?a ?b => change (@eq R a b) end.
Lemma bonnet0 n x : (INR n + 2) * P (S (S n)) x = (2 * INR n + 3) * (x * P (S n) x) - (INR n + 1) * P n x.
Proof. pose proof (bonnet x n 0) as B. unfold dlegendre in B. cbv beta iota delta [Nat.iter nat_rect] in B. cbn [pred INR] in B. rewrite B. ring. Qed.
Lemma cont2 l m x : continuous (fun x => P l x * P m x) x.
Proof.
  apply (@ex_derive_continuous R_AbsRing R_NormedModule). eexists. apply dmul; apply peval_derive.
Qed.
Lemma integrable l m : exists v, is_RInt (fun x => P l x * P m x) (-1) 1 v.
Proof. apply (@ex_RInt_continuous R_CompleteNormedModule). intros x _. apply cont2. Qed.
Lemma mixed n (v : R) : is_RInt (fun x => P n x * P n x) (-1) 1 v -> is_RInt (fun x => x * P (S n) x * P n x) (-1) 1 ((INR n + 1) / (2 * INR n + 3) * v).
Proof.
  intros I. pose proof (pos_INR n). pose proof (orthogonal (S (S n)) n ltac:(lia)) as O.
  apply (@is_RInt_scal R_NormedModule _ _ _ ((INR n + 2) / (2 * INR n + 3))) in O. apply (@is_RInt_scal R_NormedModule _ _ _ ((INR n + 1) / (2 * INR n + 3))) in I.
  pose proof (is_RInt_plus _ _ _ _ _ _ O I) as SS. evar_last; [eapply is_RInt_ext; [|exact SS]|].
  - intros x _. unfold plus, scal, mult; cbn. unfold mult; cbn. pose proof (bonnet0 n x) as B.
    transitivity (/ (2 * INR n + 3) * ((INR n + 2) * P (S (S n)) x + (INR n + 1) * P n x) * P n x); [field; lra|]. rewrite B. field. lra.
  - unfold plus, scal; cbn. unfold mult; cbn. ring.
Qed.
Lemma mixed' n (v : R) : is_RInt (fun x => x * P (S n) x * P n x) (-1) 1 v -> is_RInt (fun x => P (S n) x * P (S n) x) (-1) 1 ((2 * INR n + 1) / (INR n + 1) * v).
Proof.
  intros I. destruct n as [|k].
  - evar_last; [eapply is_RInt_ext; [|exact I]|]; [intros x _; cbn; inr; ring|cbn [INR]; inr; field].
  - pose proof (pos_INR k). pose proof (orthogonal k (S (S k)) ltac:(lia)) as O. rewrite S_INR.
    apply (@is_RInt_scal R_NormedModule _ _ _ ((INR k + 1) / (INR k + 2))) in O. apply (@is_RInt_scal R_NormedModule _ _ _ ((2 * INR k + 3) / (INR k + 2))) in I.
    pose proof (is_RInt_minus _ _ _ _ _ _ I O) as SS. evar_last; [eapply is_RInt_ext; [|exact SS]|].
    + intros x _. unfold minus, plus, opp, scal, mult; cbn -[lpoly peval]. unfold mult; cbn -[lpoly peval]. pose proof (bonnet0 k x) as B.
      transitivity (/ (INR k + 2) * ((2 * INR k + 3) * (x * P (S k) x) - (INR k + 1) * P k x) * P (S (S k)) x); [field; lra|]. rewrite <- B. field. lra.
    + unfold minus, plus, opp, scal; cbn -[INR]. unfold mult; cbn -[INR]. field. lra.
Qed.
Lemma norm_legendre n : is_RInt (fun x => P n x * P n x) (-1) 1 (2 / INR (2 * n + 1)).
Proof.
  induction n as [|n IH].
  - evar_last; [eapply is_RInt_ext; [|apply (@is_RInt_const R_NormedModule)]|].
    + intros x _. instantiate (1 := 1). cbn. ring.
    + unfold scal; cbn. unfold mult; cbn. lra.
  - apply mixed, mixed' in IH. replace (2 / INR (2 * S n + 1)) with ((2 * INR n + 1) / (INR n + 1) * ((INR n + 1) / (2 * INR n + 3) * (2 / INR (2 * n + 1)))); [exact IH|].
    rewrite !plus_INR, !mult_INR, !S_INR. cbn [INR]. pose proof (pos_INR n). field. lra.
Qed.
Lemma padd_length : forall p q, length (padd p q) = Nat.max (length p) (length q).
Proof. induction p as [|a p IH]; intros [|b q]; cbn; auto. Qed.
Lemma lpoly_length : forall l, length (lpoly l) = S l /\ length (lpoly (S l)) = S (S l).
Proof.
  induction l as [|l [A B]]; [split; reflexivity|]. split; [exact B|]. rewrite lpoly_SS. unfold pscale. rewrite map_length, padd_length, !map_length. cbn [length]. rewrite A, B. lia.
Qed.
Lemma lpoly_one : forall l, P l 1 = 1 /\ P (S l) 1 = 1.
Proof.
  induction l as [|l [A B]]; [cbn; split; ring|]. split; [exact B|]. pose proof (bonnet0 l 1) as E. rewrite A, B in E. pose proof (pos_INR l). apply (Rmult_eq_reg_l (INR l + 2)); lra.
Qed.
Lemma lpoly_orthogonal : orthogonal_polynomials lpoly.
Proof.
  split; [intros l; apply lpoly_length|]. split; [intros l; apply lpoly_one|]. intros l m. destruct (Nat.eqb_spec l m) as [->|D]; [apply norm_legendre|apply orthogonal; exact D].
Qed.

(* ---- the recursions of the models ---- *)
Lemma rlegendre_lpoly : forall l x, rlegendre l x = P l x /\ rlegendre (S l) x = P (S l) x.
Proof.
  induction l as [|l IH]; intros x; [unfold rlegendre; cbn; split; ring|]. destruct (IH x) as [A B]. split; [exact B|].
  pose proof (rlegendre_SS l x) as E. pose proof (bonnet0 l x) as F. rewrite A, B in E. pose proof (pos_INR l). apply (Rmult_eq_reg_l (INR l + 2)); lra.
Qed.
Lemma real_red q : real_of (Q2Qc q) = Q2R q.
Proof. unfold real_of. apply Qeq_eqR. apply Qred_correct. Qed.
Lemma real_plus a b : real_of (a + b)%Qc = real_of a + real_of b.
Proof. unfold Qcplus. rewrite real_red. apply Q2R_plus. Qed.
Lemma real_opp a : real_of (- a)%Qc = - real_of a.
Proof. unfold Qcopp. rewrite real_red. apply Q2R_opp. Qed.
Lemma real_minus a b : real_of (a - b)%Qc = real_of a - real_of b.
Proof. unfold Qcminus. rewrite real_plus, real_opp. reflexivity. Qed.
Lemma real_mult a b : real_of (a * b)%Qc = real_of a * real_of b.
Proof. unfold Qcmult. rewrite real_red. apply Q2R_mult. Qed.
Lemma real_zq z : real_of (zq z) = IZR z.
Proof. unfold zq. rewrite real_red. unfold Q2R, inject_Z. cbn. lra. Qed.
Lemma real_div a z : z <> 0%Z -> real_of (a / zq z)%Qc = real_of a / IZR z.
Proof.
  intros N. assert (zq z <> 0%Qc). { intros E. apply N. apply eq_IZR. rewrite <- real_zq, E. unfold real_of, Q2R. cbn. lra. }
  assert (IZR z <> 0) by (apply not_0_IZR; exact N).
  apply (Rmult_eq_reg_r (IZR z)); [|assumption]. rewrite <- (real_zq z) at 1. rewrite <- real_mult, Qcmult_comm, Qcmult_div_r by assumption. field. assumption.
Qed.
Lemma pow_legendre2 : forall l x, real_of (fst (PowModel.legendre2 l x)) = P l (real_of x) /\ real_of (snd (PowModel.legendre2 l x)) = P (S l) (real_of x).
Proof.
  induction l as [|l IH]; intros x.
  - cbn [PowModel.legendre2 fst snd]. split; [|cbn; ring]. cbn. unfold real_of, Q2R. cbn. lra.
  - destruct (IH x) as [A B]. cbn [PowModel.legendre2]. destruct (PowModel.legendre2 l x) as [p q]. cbn [fst snd] in *. split; [exact B|].
    unfold nq. rewrite real_div by lia. rewrite real_minus, !real_mult, !real_zq, A, B. rewrite <- !INR_IZR_INZ, !plus_INR, mult_INR. cbn [INR].
    pose proof (bonnet0 l (real_of x)) as E. pose proof (pos_INR l). apply (Rmult_eq_reg_l (INR l + 2)); [|lra]. rewrite E. field. lra.
Qed.
Lemma tpcf_legendre2 : forall l x, real_of (fst (TpcfModel.legendre2 l x)) = P l (real_of x) /\ real_of (snd (TpcfModel.legendre2 l x)) = P (S l) (real_of x).
Proof.
  induction l as [|l IH]; intros x.
  - cbn [TpcfModel.legendre2 fst snd]. split; [|cbn; ring]. cbn. unfold real_of, Q2R. cbn. lra.
  - destruct (IH x) as [A B]. cbn [TpcfModel.legendre2]. destruct (TpcfModel.legendre2 l x) as [p q]. cbn [fst snd] in *. split; [exact B|].
    rewrite real_div by lia. rewrite real_minus, !real_mult, !real_zq, A, B. rewrite !plus_IZR, mult_IZR, <- !INR_IZR_INZ.
    pose proof (bonnet0 l (real_of x)) as E. pose proof (pos_INR l). apply (Rmult_eq_reg_l (INR l + 2)); [|lra]. rewrite E. field. lra.
Qed.

(* The Legendre polynomials of C30 are those orthogonal polynomials ... *)
Theorem C30_legendre : exists L, orthogonal_polynomials L /\ forall l x, real_of (PowModel.legendre l x) = peval (L l) (real_of x).
Proof. exists lpoly. split; [exact lpoly_orthogonal|]. intros l x. apply pow_legendre2. Qed.
Print Assumptions C30_legendre.
Example C30_legendre_ex : PowModel.legendre 2 (Q2Qc (1 # 2)) = Q2Qc (-1 # 8) /\ PowModel.legendre 4 (Q2Qc (1 # 2)) = Q2Qc (-37 # 128).
Proof. split; apply Qc_is_canon; reflexivity. Qed.
(* ... as are those of to_poles ... *)
Theorem C191_legendre : exists L, orthogonal_polynomials L /\ forall l x, real_of (TpcfModel.legendre l x) = peval (L l) (real_of x).
Proof. exists lpoly. split; [exact lpoly_orthogonal|]. intros l x. apply tpcf_legendre2. Qed.
Print Assumptions C191_legendre.
Example C191_legendre_ex : TpcfModel.legendre 3 (Q2Qc (1 # 2)) = Q2Qc (-7 # 16).
Proof. apply Qc_is_canon; reflexivity. Qed.
(* ... and those of the addition theorem, and of the spherical harmonics. *)
Theorem C152_legendre : exists L, orthogonal_polynomials L /\ (forall l x, rlegendre l x = peval (L l) x) /\ (forall l x, dlegendre l 0 x = peval (L l) x).
Proof. exists lpoly. split; [exact lpoly_orthogonal|]. split; [intros l x; apply rlegendre_lpoly|reflexivity]. Qed.
Print Assumptions C152_legendre.
Example C152_legendre_ex : rlegendre 3 (1 / 2) = - (7 / 16).
Proof. unfold rlegendre. cbn [rleg2 fst Nat.mul Nat.add INR]. field. Qed.
