(* Growth functions: main lemmas. *)
From Verif Require Import Base ThreeModel ThreeProofs GrowModel GrowProofs.
From Coq Require Import Reals Lra.
From Coquelicot Require Import Coquelicot.
Local Open Scope R_scope.

(* ---- the derivative of efunc ---- *)
Lemma matter_derive m l k a : 0 < a -> 0 < m / a ^ 3 + k / a ^ 2 + l -> is_derive (efunc (matter m l k)) a (efunc_prime (matter m l k) a).
Proof.
  intros Pa Pe. cbn [efunc efunc_prime matter].
  assert (N : sqrt (m / a ^ 3 + k / a ^ 2 + l) <> 0) by (apply Rgt_not_eq, sqrt_lt_R0, Pe).
  replace (/ 2 / sqrt (m / a ^ 3 + k / a ^ 2 + l) * (-3 * m / a ^ 4 + -2 * k / a ^ 3))
    with ((- (m * (3 * a ^ 2)) / (a ^ 3) ^ 2 + - (k * (2 * a)) / (a ^ 2) ^ 2) * / (2 * sqrt (m / a ^ 3 + k / a ^ 2 + l)))
    by (generalize dependent (sqrt (m / a ^ 3 + k / a ^ 2 + l)); intros s N; field; split; [lra|exact N]).
  apply (is_derive_comp sqrt (fun a => m / a ^ 3 + k / a ^ 2 + l) a).
  - apply is_derive_Reals, derivable_pt_lim_sqrt, Pe.
  - auto_derive; [repeat split; apply Rgt_not_eq; repeat apply Rmult_lt_0_compat; lra|]. field. lra.
Qed.
Lemma matter_flat m k a : 0 < a -> efunc (matter m (lambda_of m None k) k) 1 = 1 /\
  (0 < m / a ^ 3 + k / a ^ 2 + (1 - k - m) -> let e := efunc (matter m (1 - k - m) k) a in Om (matter m (1 - k - m) k) a + k / a ^ 2 / e ^ 2 + (1 - k - m) / e ^ 2 = 1).
Proof.
  intros Pa. split.
  - cbn [efunc matter lambda_of]. replace (m / 1 ^ 3 + k / 1 ^ 2 + (1 - k - m)) with 1 by field. apply sqrt_1.
  - intros P. cbn [efunc Om matter]. cbn zeta. rewrite pow2_sqrt by lra. set (s := m / a ^ 3 + k / a ^ 2 + (1 - k - m)) in *.
    replace (m / a ^ 3 / s + k / a ^ 2 / s + (1 - k - m) / s) with (s / s) by (unfold s at 1; unfold Rdiv; ring). apply Rinv_r. lra.
Qed.

(* ---- derivatives against a from those against log a ---- *)
Lemma derive_ln (F : R -> R) a d : 0 < a -> is_derive F (ln a) d -> is_derive (fun x => F (ln x)) a (d / a).
Proof.
  intros P H. unfold Rdiv. rewrite Rmult_comm. apply (is_derive_comp F ln a d (/ a) H). apply is_derive_Reals, derivable_pt_lim_ln, P.
Qed.
Lemma derive_gp (F : R -> R) a d n : 0 < a -> is_derive F (ln a) d -> is_derive (fun x => F (ln x) / n) a (d / n / a).
Proof.
  intros P H. replace (d / n / a) with (/ n * (d / a)) by (unfold Rdiv; ring).
  apply (is_derive_ext (fun x => / n * F (ln x))); [intros t; apply Rmult_comm|]. apply is_derive_scal, derive_ln; assumption.
Qed.
Lemma derive_gf (F e : R -> R) a d de n : 0 < a -> is_derive F (ln a) d -> is_derive e a de ->
  is_derive (fun x => F (ln x) / n * x ^ 2 * e x) a (1 / a * (d / n * a ^ 2 * e a + F (ln a) / n * (a ^ 2 * (de * a) + 2 * a ^ 2 * e a))).
Proof.
  intros P H He. pose proof (derive_gp F a d n P H) as A.
  assert (B : is_derive (fun x : R => x ^ 2) a (2 * a)) by (auto_derive; [exact I|ring]).
  pose proof (is_derive_mult (fun x => F (ln x) / n) (fun x => x ^ 2) a _ _ A B Rmult_comm) as C.
  pose proof (is_derive_mult (fun x => F (ln x) / n * x ^ 2) e a _ _ C He Rmult_comm) as D.
  change (plus (mult (plus (mult (d / n / a) (a ^ 2)) (mult (F (ln a) / n) (2 * a))) (e a)) (mult (F (ln a) / n * a ^ 2) de))
    with ((d / n / a * a ^ 2 + F (ln a) / n * (2 * a)) * e a + F (ln a) / n * a ^ 2 * de) in D.
  replace (1 / a * (d / n * a ^ 2 * e a + F (ln a) / n * (a ^ 2 * (de * a) + 2 * a ^ 2 * e a)))
    with ((d / n / a * a ^ 2 + F (ln a) / n * (2 * a)) * e a + F (ln a) / n * a ^ 2 * de); [exact D|].
  unfold Rdiv. generalize (/ n). intros m. field. lra.
Qed.

(* ---- the growth functions at the times asked for ---- *)
Lemma growth_ok b odeint initial al an Y G Y2 G2 lo hi :
  0 < an -> (forall a, In a al -> 0 < a) ->
  solved (times (Some al) an) (initial (hd 0 (times (Some al) an))) (odeint (ode b) (initial (hd 0 (times (Some al) an))) (times (Some al) an)) Y G Y2 G2 lo hi ->
  grows b Y G Y2 G2 lo hi -> Y (ln an) <> 0 -> Y2 (ln an) <> 0 ->
  let g := Perturbation b odeint initial (Some al) an in
  let d a := Y (ln a) / Y (ln an) in let e a := Y2 (ln a) / Y2 (ln an) in
  Gp g an = 1 /\ Gp2 g an = 1 /\
  forall a, a = an \/ In a al -> D1 g a 0 = d a /\ D2 g a 0 = e a /\
    is_derive d a (gp g a) /\ is_derive e a (gp2 g a) /\ f1 g a = a * gp g a / d a /\ f2 g a = a * gp2 g a / e a /\
    (is_derive (efunc b) a (efunc_prime b a) ->
      is_derive (fun x => G (ln x) / Y (ln an) * x ^ 2 * efunc b x) a (gf b g a) /\ is_derive (fun x => G2 (ln x) / Y2 (ln an) * x ^ 2 * efunc b x) a (gf2 b g a) /\
      Gf b g a = G (ln a) / Y (ln an) * a ^ 2 * efunc b a /\ Gf2 b g a = G2 (ln a) / Y2 (ln an) * a ^ 2 * efunc b a).
Proof.
  intros Pn Pa S Gr N1 N2. cbn zeta. destruct (times_some al an Pn Pa) as [St It].
  assert (V : forall a, a = an \/ In a al -> 0 < a) by (intros a [->|I]; [exact Pn|exact (Pa a I)]).
  pose proof (fun a H => D1_node b odeint _ _ an Y G Y2 G2 lo hi a S (It an (or_introl eq_refl)) St (It a H)) as ND. cbn zeta in ND.
  unfold Perturbation. set (g := solve b odeint (initial (hd 0 (times (Some al) an))) (times (Some al) an) an) in *.
  split; [|split].
  - unfold Gp. rewrite (proj1 (proj1 (ND an (or_introl eq_refl)))). apply Rinv_r, N1.
  - unfold Gp2. rewrite (proj1 (proj2 (ND an (or_introl eq_refl)))). apply Rinv_r, N2.
  - intros a H. destruct (ND a H) as [(A0 & A1 & A2) (B0 & B1 & B2)]. pose proof (V a H) as P. pose proof (proj1 S _ (It a H)) as T.
    pose proof (gr_Y _ _ _ _ _ _ _ Gr _ T) as DY. pose proof (gr_G _ _ _ _ _ _ _ Gr _ T) as DG.
    pose proof (gr_Y2 _ _ _ _ _ _ _ Gr _ T) as DY2. pose proof (gr_G2 _ _ _ _ _ _ _ Gr _ T) as DG2.
    split; [exact A0|]. split; [exact B0|]. unfold gp, gp2, f1, f2, gf, gf2, Gf, Gf2, E, dE. rewrite A0, A1, A2, B0, B1, B2.
    split; [apply derive_gp; assumption|]. split; [apply derive_gp; assumption|].
    split; [f_equal; field; split; [exact N1|lra]|]. split; [f_equal; field; split; [exact N2|lra]|].
    intros De. split; [exact (derive_gf G (efunc b) a _ _ _ P DG De)|]. split; [exact (derive_gf G2 (efunc b) a _ _ _ P DG2 De)|]. split; reflexivity.
Qed.

(* ---- Einstein - de Sitter ---- *)
Lemma const_of (f : R -> R) lo hi : (forall t, lo < t < hi -> is_derive f t 0) -> forall s t, lo < s < hi -> lo < t < hi -> f s = f t.
Proof.
  intros H. assert (L : forall s t, lo < s < hi -> lo < t < hi -> s < t -> f s = f t).
  { intros s t Hs Ht L. refine (eq_is_derive f s t _ L). intros u [A B]. apply H. lra. }
  intros s t Hs Ht. destruct (Rtotal_order s t) as [A|[->|A]]; [exact (L s t Hs Ht A)|reflexivity|symmetry; exact (L t s Ht Hs A)].
Qed.
Lemma eds_linear (y g : R -> R) lo hi c t0 : lo < t0 < hi ->
  (forall t, lo < t < hi -> is_derive y t (g t)) -> (forall t, lo < t < hi -> is_derive g t (3 / 2 * y t - / 2 * g t)) -> y t0 = c * exp t0 -> g t0 = c * exp t0 ->
  forall t, lo < t < hi -> y t = c * exp t /\ g t = c * exp t.
Proof.
  intros T0 Dy Dg Y0 G0.
  assert (A : forall t, lo < t < hi -> g t = y t).
  { intros t T. set (u := fun t => (g t - y t) * exp (3 / 2 * t)).
    assert (Z : u t = u t0).
    { apply (const_of u lo hi); [|exact T|exact T0]. intros s Ts. unfold u.
      pose proof (is_derive_minus g y s _ _ (Dg s Ts) (Dy s Ts)) as D1. assert (D2 : is_derive (fun t : R => exp (3 / 2 * t)) s (3 / 2 * exp (3 / 2 * s))) by (auto_derive; [exact I|ring]).
      pose proof (is_derive_mult _ _ s _ _ D1 D2 Rmult_comm) as D.
      change (is_derive (fun t : R => (g t - y t) * exp (3 / 2 * t)) s ((3 / 2 * y s - / 2 * g s - g s) * exp (3 / 2 * s) + (g s - y s) * (3 / 2 * exp (3 / 2 * s)))) in D.
      replace 0 with ((3 / 2 * y s - / 2 * g s - g s) * exp (3 / 2 * s) + (g s - y s) * (3 / 2 * exp (3 / 2 * s))); [exact D|]. field. }
    unfold u in Z. rewrite G0, Y0 in Z. pose proof (exp_pos (3 / 2 * t)). apply Rmult_eq_reg_r with (exp (3 / 2 * t)); lra. }
  assert (B : forall t, lo < t < hi -> y t = c * exp t).
  { intros t T. set (w := fun t => y t * exp (- t)).
    assert (Z : w t = w t0).
    { apply (const_of w lo hi); [|exact T|exact T0]. intros s Ts. unfold w.
      assert (D2 : is_derive (fun t : R => exp (- t)) s (- exp (- s))) by (auto_derive; [exact I|ring]).
      pose proof (is_derive_mult _ _ s _ _ (Dy s Ts) D2 Rmult_comm) as D.
      change (is_derive (fun t : R => y t * exp (- t)) s (g s * exp (- s) + y s * - exp (- s))) in D.
      replace 0 with (g s * exp (- s) + y s * - exp (- s)); [exact D|]. rewrite (A s Ts). ring. }
    unfold w in Z. rewrite Y0 in Z. replace (c * exp t0 * exp (- t0)) with c in Z by (rewrite Rmult_assoc, <- exp_plus, Rplus_opp_r, exp_0; ring).
    rewrite <- Z, Rmult_assoc, <- exp_plus, Rplus_opp_l, exp_0. ring. }
  intros t T. split; [exact (B t T)|rewrite (A t T); exact (B t T)].
Qed.
Lemma eds_background a : 0 < a -> let b := matter 1 (lambda_of 1 None 0) 0 in Om b a = 1 /\ a * efunc_prime b a / efunc b a = - (3 / 2) /\ 0 < efunc b a.
Proof.
  intros P. cbn [matter lambda_of efunc efunc_prime Om]. cbn zeta.
  replace (1 / a ^ 3 + 0 / a ^ 2 + (1 - 0 - 1)) with (/ a ^ 3) by (field; lra).
  assert (Q : 0 < / a ^ 3) by (apply Rinv_0_lt_compat, pow_lt, P). pose proof (sqrt_lt_R0 _ Q) as N.
  split; [|split; [|exact N]].
  - rewrite pow2_sqrt by lra. unfold Rdiv. rewrite Rmult_1_l. apply Rinv_r. lra.
  - pose proof (sqrt_sqrt (/ a ^ 3) ltac:(lra)) as X. set (s := sqrt (/ a ^ 3)) in *.
    replace (a * (/ 2 / s * (-3 * 1 / a ^ 4 + -2 * 0 / a ^ 3)) / s) with (- (3 / 2) * / a ^ 3 / (s * s)) by (field; split; lra).
    rewrite X. field. lra.
Qed.
Lemma eds_ok odeint al an Y G Y2 G2 lo hi : 0 < an -> (forall a, In a al -> 0 < a) ->
  let b := matter 1 (lambda_of 1 None 0) 0 in
  solved (times (Some al) an) (matter_initial (hd 0 (times (Some al) an))) (odeint (ode b) (matter_initial (hd 0 (times (Some al) an))) (times (Some al) an)) Y G Y2 G2 lo hi ->
  grows b Y G Y2 G2 lo hi ->
  let g := Perturbation b odeint matter_initial (Some al) an in
  forall a, a = an \/ In a al -> Gp g a = a / an /\ f1 g a = 1 /\ Gp2 g a = (a / an) ^ 2 /\ f2 g a = 2.
Proof.
  intros Pn Pa. cbn zeta. intros S Gr. set (b := matter 1 (lambda_of 1 None 0) 0) in *. set (ts := times (Some al) an) in *.
  destruct (times_some al an Pn Pa) as [St It]. fold ts in St, It.
  assert (V : forall a, a = an \/ In a al -> 0 < a) by (intros a [->|I]; [exact Pn|exact (Pa a I)]).
  assert (H0 : In (hd 0 ts) ts). { pose proof (It an (or_introl eq_refl)) as I. destruct ts; [destruct I|left; reflexivity]. }
  pose proof (proj1 S _ H0) as T0. pose proof (proj1 (proj2 S)) as I0. unfold matter_initial in I0. injection I0 as Y0 G0 Y20 G20.
  assert (BG : forall t, Om b (exp t) = 1 /\ exp t * efunc_prime b (exp t) / efunc b (exp t) = - (3 / 2)).
  { intros t. destruct (eds_background (exp t) (exp_pos t)) as (A & B & _). split; assumption. }
  pose proof (eds_linear Y G lo hi 1 (hd 0 ts) T0 (gr_Y _ _ _ _ _ _ _ Gr)) as L1.
  assert (X1 : forall t, lo < t < hi -> Y t = exp t /\ G t = exp t).
  { intros t T. destruct (L1) with (t := t) as [A B]; [|rewrite Y0; ring|rewrite G0; ring|exact T|rewrite A, B; split; ring].
    intros s Ts. pose proof (gr_G _ _ _ _ _ _ _ Gr s Ts) as D. rewrite (proj1 (BG s)), (proj2 (BG s)) in D.
    replace (3 / 2 * Y s - / 2 * G s) with (3 / 2 * 1 * Y s - (2 + - (3 / 2)) * G s) by field. exact D. }
  assert (X2 : forall t, lo < t < hi -> Y2 t = - (3 / 7) * exp t ^ 2 /\ G2 t = - (6 / 7) * exp t ^ 2).
  { assert (DE : forall c s, is_derive (fun t => c * exp t ^ 2) s (2 * c * exp s ^ 2)) by (intros c s; auto_derive; [exact I|ring]).
    intros t T. destruct (eds_linear (fun t => Y2 t - - (3 / 7) * exp t ^ 2) (fun t => G2 t - - (6 / 7) * exp t ^ 2) lo hi 0 (hd 0 ts) T0) with (t := t) as [A B]; [| | | |exact T|].
    - intros s Ts. pose proof (is_derive_minus _ _ s _ _ (gr_Y2 _ _ _ _ _ _ _ Gr s Ts) (DE (- (3 / 7)) s)) as D.
      change (is_derive (fun t : R => Y2 t - - (3 / 7) * exp t ^ 2) s (G2 s - 2 * - (3 / 7) * exp s ^ 2)) in D.
      replace (G2 s - - (6 / 7) * exp s ^ 2) with (G2 s - 2 * - (3 / 7) * exp s ^ 2) by field. exact D.
    - intros s Ts. pose proof (gr_G2 _ _ _ _ _ _ _ Gr s Ts) as D0. rewrite (proj1 (BG s)), (proj2 (BG s)), (proj1 (X1 s Ts)) in D0.
      pose proof (is_derive_minus _ _ s _ _ D0 (DE (- (6 / 7)) s)) as D.
      change (is_derive (fun t : R => G2 t - - (6 / 7) * exp t ^ 2) s (3 / 2 * 1 * (Y2 s - exp s ^ 2) - (2 + - (3 / 2)) * G2 s - 2 * - (6 / 7) * exp s ^ 2)) in D.
      replace (3 / 2 * (Y2 s - - (3 / 7) * exp s ^ 2) - / 2 * (G2 s - - (6 / 7) * exp s ^ 2))
        with (3 / 2 * 1 * (Y2 s - exp s ^ 2) - (2 + - (3 / 2)) * G2 s - 2 * - (6 / 7) * exp s ^ 2) by field. exact D.
    - rewrite Y20. field.
    - rewrite G20. field.
    - split; lra. }
  intros a H. pose proof (V a H) as P. pose proof (proj1 S _ (It a H)) as T. pose proof (proj1 S _ (It an (or_introl eq_refl))) as Tn.
  pose proof (D1_node b odeint _ ts an Y G Y2 G2 lo hi a S (It an (or_introl eq_refl)) St (It a H)) as [(A0 & A1 & _) (B0 & B1 & _)].
  unfold Gp, Gp2, f1, f2, Perturbation. fold ts. rewrite A0, A1, B0, B1, (proj1 (X1 _ T)), (proj2 (X1 _ T)), (proj1 (X1 _ Tn)), (proj1 (X2 _ T)), (proj2 (X2 _ T)), (proj1 (X2 _ Tn)).
  rewrite !exp_ln by assumption. repeat split; field; lra.
Qed.

(* ---- LinearNbody ---- *)
Lemma func_zero n k t q p : n_c_b n = 0 -> n_c_ncdm n <= 0 -> let a := exp t in let z := 1 / a - 1 in let e := n_efunc n z in
  func n k t (q, q, q) (p, p, p) = Ok ((p / a ^ 2 * (1 / e), p / a ^ 2 * (1 / e), p / a ^ 2 * (1 / e)),
    let dp := - (-(3 / 2) * e ^ 2 * a ^ 2 * n_cdm n z * q + -(3 / 2) * e ^ 2 * a ^ 2 * n_b n z * q + -(3 / 2) * e ^ 2 * a ^ 2 * n_ncdm n z * q) * (1 / e) in (dp, dp, dp)).
Proof.
  intros A B. cbn zeta. unfold func, J. rewrite A, rltb_f by exact B. cbn [rbind dot]. f_equal. apply f_equal2; [reflexivity|].
  apply f_equal2; [apply f_equal2|]; unfold Rdiv; ring.
Qed.
Lemma nbody_together n k t q p : n_c_b n = 0 -> n_c_ncdm n <= 0 -> exists dq dp, func n k t (q, q, q) (p, p, p) = Ok ((dq, dq, dq), (dp, dp, dp)).
Proof. intros A B. do 2 eexists. exact (func_zero n k t q p A B). Qed.
Lemma derive_exp2 (F e : R -> R) t d de : is_derive F t d -> is_derive e (exp t) de ->
  is_derive (fun s => F s * exp s ^ 2 * e (exp s)) t (exp t ^ 2 * (d * e (exp t) + F t * (2 * e (exp t) + exp t * de))).
Proof.
  intros H He. assert (B : is_derive (fun s : R => exp s ^ 2) t (2 * exp t ^ 2)) by (auto_derive; [exact I|ring]).
  assert (C : is_derive (fun s => e (exp s)) t (exp t * de)) by (apply (is_derive_comp e exp t de (exp t) He); apply is_derive_Reals, derivable_pt_lim_exp).
  pose proof (is_derive_mult F (fun s => exp s ^ 2) t _ _ H B Rmult_comm) as D1.
  pose proof (is_derive_mult _ _ t _ _ D1 C Rmult_comm) as D.
  change (is_derive (fun s : R => F s * exp s ^ 2 * e (exp s)) t ((d * exp t ^ 2 + F t * (2 * exp t ^ 2)) * e (exp t) + F t * exp t ^ 2 * (exp t * de))) in D.
  replace (exp t ^ 2 * (d * e (exp t) + F t * (2 * e (exp t) + exp t * de)))
    with ((d * exp t ^ 2 + F t * (2 * exp t ^ 2)) * e (exp t) + F t * exp t ^ 2 * (exp t * de)) by ring. exact D.
Qed.
Lemma nbody_growth n k de Y G Y2 G2 lo hi : n_c_b n = 0 -> n_c_ncdm n <= 0 ->
  let b := radiation (n_efunc n) de (n_b n) (n_cdm n) in
  (forall t, lo < t < hi -> n_ncdm n (1 / exp t - 1) = 0 /\ efunc b (exp t) <> 0 /\ is_derive (efunc b) (exp t) (efunc_prime b (exp t))) ->
  grows b Y G Y2 G2 lo hi ->
  let p t := G t * exp t ^ 2 * efunc b (exp t) in
  forall t, lo < t < hi -> exists dq dp, func n k t (Y t, Y t, Y t) (p t, p t, p t) = Ok ((dq, dq, dq), (dp, dp, dp)) /\ is_derive Y t dq /\ is_derive p t dp.
Proof.
  intros A B. cbn zeta. intros H Gr t T. destruct (H t T) as (N & Z & De). do 2 eexists. split; [exact (func_zero n k t _ _ A B)|].
  cbn [radiation efunc efunc_prime] in *. set (z := 1 / exp t - 1) in *. set (e := n_efunc n z) in *. pose proof (exp_pos t) as P.
  pose proof (gr_Y _ _ _ _ _ _ _ Gr t T) as DY. pose proof (gr_G _ _ _ _ _ _ _ Gr t T) as DG. cbn [radiation efunc efunc_prime Om] in DG. fold z in DG. fold e in DG.
  split.
  - replace (G t * exp t ^ 2 * e / exp t ^ 2 * (1 / e)) with (G t); [exact DY|]. field. split; [exact Z|lra].
  - pose proof (derive_exp2 G (fun a => n_efunc n (1 / a - 1)) t _ _ DG De) as D. cbn beta in D. fold z in D. fold e in D.
    match type of D with is_derive _ _ ?v => match goal with |- is_derive _ _ ?w => replace w with v; [exact D|] end end. rewrite N. field. exact Z.
Qed.
Lemma nbody_solution n k t q p dq dp de : n_c_b n = 0 -> n_c_ncdm n <= 0 ->
  let e a := n_efunc n (1 / a - 1) in let z := 1 / exp t - 1 in
  is_derive e (exp t) de -> (forall s, e (exp s) <> 0) ->
  (forall s, exists b, func n k s (q s, q s, q s) (p s, p s, p s) = Ok ((Derive q s, Derive q s, Derive q s), b) /\ ex_derive q s) ->
  func n k t (q t, q t, q t) (p t, p t, p t) = Ok ((dq, dq, dq), (dp, dp, dp)) -> is_derive p t dp ->
  is_derive (Derive q) t (3 / 2 * (n_cdm n z + n_b n z + n_ncdm n z) * q t - (2 + exp t * de / e (exp t)) * Derive q t).
Proof.
  intros A B. cbn zeta. intros De Z H F Dp. pose proof (exp_pos t) as P.
  assert (Q : forall s, Derive q s = p s / exp s ^ 2 * (1 / n_efunc n (1 / exp s - 1))).
  { intros s. destruct (H s) as (b & Fs & _). rewrite (func_zero n k s _ _ A B) in Fs. injection Fs as Fs _ _ _. symmetry. exact Fs. }
  rewrite (func_zero n k t _ _ A B) in F. injection F as _ _ _ F _ _.
  apply (is_derive_ext (fun s => p s / exp s ^ 2 * (1 / n_efunc n (1 / exp s - 1)))); [intros s; symmetry; apply Q|].
  rewrite (Q t). set (z := 1 / exp t - 1) in *. set (e := n_efunc n z) in *. specialize (Z t) as Zt. fold z in Zt. fold e in Zt.
  assert (C : is_derive (fun s => n_efunc n (1 / exp s - 1)) t (exp t * de)).
  { apply (is_derive_comp (fun a => n_efunc n (1 / a - 1)) exp t de (exp t) De). apply is_derive_Reals, derivable_pt_lim_exp. }
  assert (V : is_derive (fun s => exp s ^ 2 * n_efunc n (1 / exp s - 1)) t (2 * exp t ^ 2 * e + exp t ^ 2 * (exp t * de))).
  { assert (B2 : is_derive (fun s : R => exp s ^ 2) t (2 * exp t ^ 2)) by (auto_derive; [exact I|ring]). exact (is_derive_mult _ _ t _ _ B2 C Rmult_comm). }
  assert (NV : exp t ^ 2 * n_efunc n (1 / exp t - 1) <> 0) by (apply Rmult_integral_contrapositive_currified; [apply pow_nonzero; lra|exact Zt]).
  pose proof (is_derive_div p _ t _ _ Dp V NV) as D.
  apply (is_derive_ext (fun s => p s / (exp s ^ 2 * n_efunc n (1 / exp s - 1)))).
  - intros s. specialize (Z s). pose proof (exp_pos s). change (@eq R (p s / (exp s ^ 2 * n_efunc n (1 / exp s - 1))) (p s / exp s ^ 2 * (1 / n_efunc n (1 / exp s - 1)))). field. split; [exact Z|lra].
  - cbn beta in D. change (n_efunc n (1 / exp t - 1)) with e in D. rewrite <- F in D. match type of D with is_derive _ _ ?v => match goal with |- is_derive _ _ ?w => replace w with v; [exact D|] end end. change (n_efunc n (1 / exp t - 1)) with e. field. split; [exact Zt|lra].
Qed.
Lemma nbody_pressure n k t q p : 0 < n_efunc n (1 / exp t - 1) -> 0 < n_c_b n -> k <> 0 -> n_c_ncdm n <= 0 ->
  exists dq c b m, func n k t q p = Ok (dq, (c, b, m)) /\ m = c /\ (0 < snd (fst q) -> b < c) /\ (snd (fst q) < 0 -> c < b) /\ (snd (fst q) = 0 -> b = c).
Proof.
  intros He A Hk B. destruct q as [[q0 q1] q2]. destruct p as [[p0 p1] p2]. unfold func, J. rewrite rltb_f by exact B. cbn [rbind dot fst snd]. set (z := 1 / exp t - 1) in *. set (e := n_efunc n z) in *.
  do 4 eexists. split; [reflexivity|]. set (g := -(3 / 2) * e ^ 2 * exp t ^ 2). set (w := n_c_b n ^ 2 * k ^ 2 / 100 ^ 2).
  assert (W : 0 < w * (1 / e)).
  { apply Rmult_lt_0_compat; [|apply Rmult_lt_0_compat; [lra|apply Rinv_0_lt_compat, He]]. unfold w, Rdiv. apply Rmult_lt_0_compat; [|apply Rinv_0_lt_compat, pow_lt; lra].
    apply Rmult_lt_0_compat; [apply pow_lt, A|]. destruct (Rdichotomy _ _ Hk); nra. }
  assert (X : - (g * n_cdm n z * q0 + (g * n_b n z + w) * q1 + g * n_ncdm n z * q2) * (1 / e) = - (g * n_cdm n z * q0 + g * n_b n z * q1 + g * n_ncdm n z * q2) * (1 / e) - w * (1 / e) * q1) by ring.
  split; [unfold Rdiv; ring|]. rewrite X. repeat split; intros; [| |subst; ring]; nra.
Qed.
