(* Exact rational numbers in place of floating point, and finite sums. *)
From Verif Require Import Base.
From Coq Require Export QArith Qcanon.
From Coq Require Import Lqa.
From Coq Require Import Permutation.
Local Open Scope Qc_scope.

Definition qsum (l : list Qc) : Qc := fold_right Qcplus 0 l.
Definition zq (z : Z) : Qc := Q2Qc (inject_Z z).
Definition nq (n : nat) : Qc := zq (Z.of_nat n).

Lemma qsum_nil : qsum [] = 0.
Proof. reflexivity. Qed.
Lemma qsum_cons x l : qsum (x :: l) = x + qsum l.
Proof. reflexivity. Qed.
Lemma qsum_app l l' : qsum (l ++ l') = qsum l + qsum l'.
Proof. induction l as [|x l IH]; cbn [app]; [rewrite qsum_nil; ring|]. rewrite !qsum_cons, IH. ring. Qed.
Lemma qsum_perm l l' : Permutation l l' -> qsum l = qsum l'.
Proof. induction 1; rewrite ?qsum_cons; try congruence. ring. Qed.
Lemma qsum_concat ll : qsum (concat ll) = qsum (map qsum ll).
Proof. induction ll as [|l ll IH]; [reflexivity|]. cbn [concat map]. rewrite qsum_app, qsum_cons, IH. reflexivity. Qed.
Lemma qsum_map_add {A} (f g : A -> Qc) l : qsum (map (fun x => f x + g x) l) = qsum (map f l) + qsum (map g l).
Proof. induction l as [|x l IH]; cbn [map]; [reflexivity|]. rewrite !qsum_cons, IH. ring. Qed.
Lemma qsum_map_scale {A} c (f : A -> Qc) l : qsum (map (fun x => c * f x) l) = c * qsum (map f l).
Proof. induction l as [|x l IH]; cbn [map]; [rewrite qsum_nil; ring|]. rewrite !qsum_cons, IH. ring. Qed.
Lemma qsum_map_ext {A} (f g : A -> Qc) l : (forall x, In x l -> f x = g x) -> qsum (map f l) = qsum (map g l).
Proof. intros H. f_equal. apply map_ext_in, H. Qed.
Lemma qsum_map_zero {A} (l : list A) : qsum (map (fun _ => 0) l) = 0.
Proof. induction l as [|x l IH]; cbn [map]; [reflexivity|]. rewrite qsum_cons, IH. ring. Qed.
Lemma qsum_swap {A B} (f : A -> B -> Qc) la lb :
  qsum (map (fun a => qsum (map (f a) lb)) la) = qsum (map (fun b => qsum (map (fun a => f a b) la)) lb).
Proof.
  induction la as [|a la IH]; cbn [map]; [symmetry; apply qsum_map_zero|].
  rewrite qsum_cons, IH, <- qsum_map_add. apply qsum_map_ext. intros b _. rewrite qsum_cons. reflexivity.
Qed.
Lemma qsum_repeat c n : qsum (repeat c n) = nq n * c.
Proof.
  induction n as [|n IH]; [change (nq 0) with 0; change (qsum (repeat c 0)) with 0; ring|]. cbn [repeat]. rewrite qsum_cons, IH. unfold nq, zq.
  replace (Q2Qc (inject_Z (Z.of_nat (S n)))) with (1 + Q2Qc (inject_Z (Z.of_nat n))); [ring|].
  apply Qc_is_canon. cbn [this]. unfold Qcplus. cbn [this Q2Qc]. rewrite !Qred_correct. rewrite Nat2Z.inj_succ.
  unfold Z.succ. rewrite inject_Z_plus. change (inject_Z 1) with (1%Q). ring.
Qed.
Lemma zq_add a b : zq (a + b) = zq a + zq b.
Proof. apply Qc_is_canon. unfold zq, Qcplus. cbn [this Q2Qc]. rewrite !Qred_correct. rewrite inject_Z_plus. reflexivity. Qed.
Lemma zq_mul a b : zq (a * b) = zq a * zq b.
Proof. apply Qc_is_canon. unfold zq, Qcmult. cbn [this Q2Qc]. rewrite !Qred_correct. rewrite inject_Z_mult. reflexivity. Qed.
Lemma zq_opp a : zq (- a) = - zq a.
Proof. apply Qc_is_canon. unfold zq, Qcopp. cbn [this Q2Qc]. rewrite !Qred_correct. rewrite inject_Z_opp. reflexivity. Qed.
Lemma zq_inj a b : zq a = zq b -> a = b.
Proof.
  intros H. assert (this (zq a) == this (zq b))%Q as E by (rewrite H; reflexivity).
  unfold zq in E. cbn [this Q2Qc] in E. rewrite !Qred_correct in E. unfold Qeq in E. cbn in E. lia.
Qed.
Lemma zq_0 : zq 0 = 0. Proof. reflexivity. Qed.
Lemma zq_1 : zq 1 = 1. Proof. reflexivity. Qed.
Lemma zq_le a b : (a <= b)%Z <-> zq a <= zq b.
Proof.
  unfold Qcle, zq. cbn [this Q2Qc]. rewrite !Qred_correct. unfold Qle. cbn. lia.
Qed.
Lemma zq_lt a b : (a < b)%Z <-> zq a < zq b.
Proof.
  unfold Qclt, zq. cbn [this Q2Qc]. rewrite !Qred_correct. unfold Qlt. cbn. lia.
Qed.

(* Qc goals by linear arithmetic over Q *)
Lemma qc_eq_q (x y : Qc) : x = y -> (this x == this y)%Q.
Proof. intros ->. reflexivity. Qed.
Ltac qc_hyps := repeat match goal with
  | H : @eq Qc _ _ |- _ => apply qc_eq_q in H
  | H : @Logic.not (@eq Qc _ _) |- _ => clear H
  end.
Ltac qc_lra := try apply Qc_is_canon; qc_hyps; unfold Qclt, Qcle, Qcminus, Qcplus, Qcopp, Qcmult, Q2Qc in *; cbn [this] in *; rewrite ?Qred_correct in *; lra.
