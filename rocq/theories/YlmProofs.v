From Verif Require Import Base.
From Coq Require Import Reals Factorial Lra Lia.
From Verif Require Import RandModel RandProofs ThreeModel ThreeSpec ThreeProofs YlmModel.
Local Open Scope R_scope.

(* ---- polynomials ---- *)
Lemma padd_nil p : padd p [] = p.
Proof. destruct p; reflexivity. Qed.
Lemma padd_comm : forall p q, padd p q = padd q p.
Proof. induction p as [|a p IH]; destruct q as [|b q]; cbn; try reflexivity. rewrite IH. f_equal. ring. Qed.
Lemma padd_assoc : forall p q r, padd p (padd q r) = padd (padd p q) r.
Proof. induction p as [|a p IH]; destruct q as [|b q]; destruct r as [|c r]; cbn; try reflexivity. rewrite IH. f_equal. ring. Qed.
Lemma padd_swap p q r s : padd (padd p q) (padd r s) = padd (padd p r) (padd q s).
Proof. rewrite <- !padd_assoc. f_equal. rewrite !padd_assoc, (padd_comm q r). reflexivity. Qed.
Lemma peval_padd x : forall p q, peval (padd p q) x = peval p x + peval q x.
Proof. induction p as [|a p IH]; destruct q as [|b q]; cbn [padd peval]; try ring. rewrite IH. ring. Qed.
Lemma peval_pscale c x : forall p, peval (pscale c p) x = c * peval p x.
Proof. induction p as [|a p IH]; unfold pscale in *; cbn [map peval]; [ring|]. rewrite IH. ring. Qed.
Lemma pscale_padd c : forall p q, pscale c (padd p q) = padd (pscale c p) (pscale c q).
Proof. unfold pscale. induction p as [|a p IH]; destruct q as [|b q]; cbn; try reflexivity. rewrite IH. f_equal. ring. Qed.
Lemma pderiv_padd : forall p q, pderiv (padd p q) = padd (pderiv p) (pderiv q).
Proof.
  induction p as [|a p IH]; destruct q as [|b q]; cbn [padd pderiv]; try reflexivity; [rewrite padd_nil; reflexivity|].
  rewrite IH, padd_swap. f_equal. cbn. f_equal. ring.
Qed.
Lemma pderiv_pscale c : forall p, pderiv (pscale c p) = pscale c (pderiv p).
Proof.
  induction p as [|a p IH]; [reflexivity|]. change (pscale c (a :: p)) with (c * a :: pscale c p). cbn [pderiv]. rewrite IH, pscale_padd. f_equal.
  unfold pscale. cbn [map]. f_equal. ring.
Qed.
Definition jet (p : list R) (m : nat) (x : R) : R := peval (Nat.iter m pderiv p) x.
Lemma iter_in (m : nat) (p : list R) : Nat.iter (S m) pderiv p = Nat.iter m pderiv (pderiv p).
Proof. induction m as [|m IH]; [reflexivity|]. change (Nat.iter (S (S m)) pderiv p) with (pderiv (Nat.iter (S m) pderiv p)). rewrite IH. reflexivity. Qed.
Lemma jet_S p m x : jet p (S m) x = jet (pderiv p) m x.
Proof. unfold jet. rewrite iter_in. reflexivity. Qed.
Lemma jet_padd m x : forall p q, jet (padd p q) m x = jet p m x + jet q m x.
Proof. induction m as [|m IH]; intros p q; [apply peval_padd|]. rewrite !jet_S, pderiv_padd. apply IH. Qed.
Lemma jet_pscale c m x : forall p, jet (pscale c p) m x = c * jet p m x.
Proof. induction m as [|m IH]; intros p; [apply peval_pscale|]. rewrite !jet_S, pderiv_pscale. apply IH. Qed.
Lemma jet_shift m x : forall p, jet (0 :: p) m x = x * jet p m x + INR m * jet p (pred m) x.
Proof.
  induction m as [|m IH]; intros p.
  - unfold jet. cbn. ring.
  - rewrite jet_S. cbn [pderiv]. rewrite jet_padd, IH, S_INR. cbn [pred]. rewrite jet_S. destruct m as [|m]; [cbn [INR]; unfold jet; cbn; ring|].
    cbn [pred]. rewrite (jet_S p m). ring.
Qed.

(* ---- derivatives of Legendre polynomials ---- *)
Notation Pi := dlegendre.
Lemma lpoly2_snd l : snd (lpoly2 l) = lpoly (S l).
Proof. unfold lpoly. cbn [lpoly2]. destruct (lpoly2 l) as [p q]. reflexivity. Qed.
Lemma lpoly_SS l : lpoly (S (S l)) = pscale (/ INR (l + 2)) (padd (pscale (INR (2 * l + 3)) (0 :: lpoly (S l))) (pscale (- INR (l + 1)) (lpoly l))).
Proof. rewrite <- (lpoly2_snd l). unfold lpoly. cbn [lpoly2]. destruct (lpoly2 l) as [p q]. reflexivity. Qed.
Section Fixed.
Variable z : R.
Lemma bonnet l m : (INR l + 2) * Pi (S (S l)) m z = (2 * INR l + 3) * (z * Pi (S l) m z + INR m * Pi (S l) (pred m) z) - (INR l + 1) * Pi l m z.
Proof.
  unfold dlegendre. fold (jet (lpoly (S (S l))) m z) (jet (lpoly (S l)) m z) (jet (lpoly (S l)) (pred m) z) (jet (lpoly l) m z).
  rewrite lpoly_SS, jet_pscale, jet_padd, !jet_pscale, jet_shift. rewrite !plus_INR, mult_INR. cbn [INR]. field. pose proof (pos_INR l). lra.
Qed.
Lemma jet_nil m : jet [] m z = 0.
Proof. induction m as [|m IH]; [reflexivity|]. rewrite jet_S. exact IH. Qed.
Lemma pi00 : Pi 0 0 z = 1. Proof. unfold dlegendre. cbn. ring. Qed.
Lemma pi10 : Pi 1 0 z = z. Proof. unfold dlegendre. cbn. ring. Qed.
Lemma pi11 : Pi 1 1 z = 1. Proof. unfold dlegendre. cbn. ring. Qed.
Lemma jet_zeros m : forall p, Forall (fun c => c = 0) p -> jet p m z = 0.
Proof.
  induction m as [|m IH]; intros p F.
  - unfold jet. cbn. induction F as [|c p E F IH']; cbn; [reflexivity|]. rewrite IH', E. ring.
  - rewrite jet_S. apply IH. clear IH. induction F as [|c p E F IH']; cbn [pderiv]; [constructor|].
    assert (G : forall a b : list R, Forall (fun c => c = 0) a -> Forall (fun c => c = 0) b -> Forall (fun c => c = 0) (padd a b)).
    { intros a b A. revert b. induction A as [|u a U A IA]; intros b B; [exact B|]. destruct B as [|v b V B]; cbn; [constructor; assumption|]. constructor; [rewrite U, V; ring|apply IA; exact B]. }
    apply G; [exact F|]. constructor; [reflexivity|exact IH'].
Qed.
Lemma pi0S m : Pi 0 (S m) z = 0.
Proof. unfold dlegendre. fold (jet (lpoly 0) (S m) z). rewrite jet_S. apply jet_zeros. cbn. repeat constructor. Qed.
Lemma pi1SS m : Pi 1 (S (S m)) z = 0.
Proof. unfold dlegendre. fold (jet (lpoly 1) (S (S m)) z). rewrite !jet_S. apply jet_zeros. cbn. repeat constructor; ring. Qed.
Lemma pi_high : forall l m, (l < m)%nat -> Pi l m z = 0.
Proof.
  assert (G : forall l, (forall m, (l < m)%nat -> Pi l m z = 0) /\ (forall m, (S l < m)%nat -> Pi (S l) m z = 0)).
  { induction l as [|l [IH1 IH2]].
    - split; intros m H; [destruct m; [lia|apply pi0S]|destruct m as [|[|m]]; [lia|lia|apply pi1SS]].
    - split; [exact IH2|]. intros m H. pose proof (bonnet l m) as B. rewrite (IH2 m), (IH2 (pred m)), (IH1 m) in B by lia.
      pose proof (pos_INR l). apply (Rmult_eq_reg_l (INR l + 2)); [lra|lra]. }
  intros l. apply (G l).
Qed.
(* x P_n' - P_(n-1)' = n P_n and P_(n+1)' - x P_n' = (n + 1) P_n, differentiated m times *)
Lemma ladder : forall n, (forall m, Pi (S n) (S m) z - z * Pi n (S m) z = (INR n + 1 + INR m) * Pi n m z)
                      /\ (forall m, z * Pi (S n) (S m) z - Pi n (S m) z = (INR n + 1 - INR m) * Pi (S n) m z).
Proof.
  induction n as [|n [D3 D1]].
  - split; intros [|m]; rewrite ?pi00, ?pi10, ?pi11, ?pi0S, ?pi1SS; cbn [INR]; try ring. destruct m; [rewrite pi11; cbn [INR]; ring|rewrite pi1SS; ring].
  - assert (D3' : forall m, Pi (S (S n)) (S m) z - z * Pi (S n) (S m) z = (INR (S n) + 1 + INR m) * Pi (S n) m z).
    { intros m. pose proof (bonnet n (S m)) as B. cbn [pred] in B. rewrite !S_INR in *. specialize (D1 m). pose proof (pos_INR n).
      apply (Rmult_eq_reg_l (INR n + 2)); [|lra]. rewrite Rmult_minus_distr_l, B. replace (Pi n (S m) z) with (z * Pi (S n) (S m) z - (INR n + 1 - INR m) * Pi (S n) m z) by lra. ring. }
    split; [exact D3'|]. intros m. rewrite !S_INR.
    assert (Bn : (1 - z * z) * Pi (S n) (S m) z = (INR n + 1 + INR m) * Pi n m z - (INR n + 1 - INR m) * z * Pi (S n) m z).
    { specialize (D3 m). specialize (D1 m). replace ((1 - z * z) * Pi (S n) (S m) z) with (Pi (S n) (S m) z - z * (z * Pi (S n) (S m) z)) by ring.
      replace (z * Pi (S n) (S m) z) with (Pi n (S m) z + (INR n + 1 - INR m) * Pi (S n) m z) by lra.
      replace (Pi (S n) (S m) z) with (z * Pi n (S m) z + (INR n + 1 + INR m) * Pi n m z) by lra. ring. }
    assert (Cn : (INR n + 2 - INR m) * Pi (S (S n)) m z = (2 * INR n + 3) * z * Pi (S n) m z - (INR n + 1 + INR m) * Pi n m z).
    { pose proof (bonnet n m) as B. destruct m as [|m]; [cbn [INR pred] in *; lra|]. cbn [pred] in B. rewrite S_INR in *.
      pose proof (D3' m) as E3. pose proof (D1 m) as E1. rewrite ?S_INR in E3.
      assert (A : Pi (S (S n)) (S m) z - Pi n (S m) z = (2 * INR n + 3) * Pi (S n) m z) by lra.
      replace ((INR n + 2 - (INR m + 1)) * Pi (S (S n)) (S m) z) with ((INR n + 2) * Pi (S (S n)) (S m) z - (INR m + 1) * Pi (S (S n)) (S m) z) by ring.
      rewrite B. replace (Pi (S (S n)) (S m) z) with (Pi n (S m) z + (2 * INR n + 3) * Pi (S n) m z) by lra. ring. }
    specialize (D3' m). rewrite S_INR in D3'.
    replace (z * Pi (S (S n)) (S m) z) with (z * (z * Pi (S n) (S m) z) + (INR n + 1 + 1 + INR m) * z * Pi (S n) m z) by (replace (Pi (S (S n)) (S m) z) with (z * Pi (S n) (S m) z + (INR n + 1 + 1 + INR m) * Pi (S n) m z) by lra; ring).
    replace (z * (z * Pi (S n) (S m) z)) with (Pi (S n) (S m) z - (1 - z * z) * Pi (S n) (S m) z) by ring. rewrite Bn. lra.
Qed.
(* everything about l = S n by P_(l-1)^(m) and P_(l+1)^(m) *)
Lemma by_z n m : (2 * INR n + 3) * (z * Pi (S n) m z) = (INR n + 2 - INR m) * Pi (S (S n)) m z + (INR n + 1 + INR m) * Pi n m z.
Proof.
  pose proof (bonnet n m) as B. destruct m as [|m]; [cbn [INR pred] in *; lra|]. cbn [pred] in B. rewrite S_INR in *.
  destruct (ladder n) as [_ D1]. destruct (ladder (S n)) as [D3 _]. specialize (D1 m). specialize (D3 m). rewrite S_INR in D3.
  assert (A : Pi (S (S n)) (S m) z - Pi n (S m) z = (2 * INR n + 3) * Pi (S n) m z) by lra.
  replace ((2 * INR n + 3) * (z * Pi (S n) (S m) z)) with ((INR n + 2) * Pi (S (S n)) (S m) z - (INR m + 1) * ((2 * INR n + 3) * Pi (S n) m z) + (INR n + 1) * Pi n (S m) z) by lra.
  rewrite <- A. ring.
Qed.
Lemma by_lower n m : (2 * INR n + 3) * Pi (S n) m z = Pi (S (S n)) (S m) z - Pi n (S m) z.
Proof. destruct (ladder n) as [_ D1]. destruct (ladder (S n)) as [D3 _]. specialize (D1 m). specialize (D3 m). rewrite S_INR in D3. lra. Qed.
Lemma by_upper n m : (2 * INR n + 3) * ((1 - z * z) * Pi (S n) (S m) z) = (INR n + 1 + INR m) * (INR n + 2 + INR m) * Pi n m z - (INR n + 1 - INR m) * (INR n + 2 - INR m) * Pi (S (S n)) m z.
Proof.
  destruct (ladder n) as [D3 D1]. specialize (D3 m). specialize (D1 m). pose proof (by_z n m) as Z.
  assert (Bn : (1 - z * z) * Pi (S n) (S m) z = (INR n + 1 + INR m) * Pi n m z - (INR n + 1 - INR m) * (z * Pi (S n) m z)).
  { replace ((1 - z * z) * Pi (S n) (S m) z) with (Pi (S n) (S m) z - z * (z * Pi (S n) (S m) z)) by ring.
    replace (z * Pi (S n) (S m) z) with (Pi n (S m) z + (INR n + 1 - INR m) * Pi (S n) m z) by lra.
    replace (Pi (S n) (S m) z) with (z * Pi n (S m) z + (INR n + 1 + INR m) * Pi n m z) by lra. ring. }
  rewrite Bn, Rmult_minus_distr_l. replace ((2 * INR n + 3) * ((INR n + 1 - INR m) * (z * Pi (S n) m z))) with ((INR n + 1 - INR m) * ((2 * INR n + 3) * (z * Pi (S n) m z))) by ring.
  rewrite Z. ring.
Qed.
End Fixed.
