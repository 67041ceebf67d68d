(* C364, C365 *)
From Verif Require Import Base BaseProofs ThreeModel GrowModel RadModel.
From Coq Require Import Reals Lra.
Local Open Scope R_scope.

(* components of a state *)
Definition s1 (y : state) : R := let '(a, _, _, _) := y in a.
Definition s2 (y : state) : R := let '(_, a, _, _) := y in a.
Definition s3 (y : state) : R := let '(_, _, a, _) := y in a.
Definition s4 (y : state) : R := let '(_, _, _, a) := y in a.

(* a universe of radiation with little matter: E = e (1+z)^2, Omega_b = cb/(1+z), Omega_cdm = cc/(1+z) *)
Definition early (e cb cc : R) : background :=
  radiation (fun z => e * (1 + z) ^ 2) (fun z => -2 * e * (1 + z) ^ 3) (fun z => cb / (1 + z)) (fun z => cc / (1 + z)).

Lemma a_H_pos : 0 < a_H.
Proof. unfold a_H. apply Rdiv_lt_0_compat; [lra|apply pow_lt; lra]. Qed.
Lemma early_Om e cb cc a : 0 < a -> Om (early e cb cc) a = (cb + cc) * a.
Proof. intros H. cbn. field. lra. Qed.
Lemma early_Hfac e cb cc a : 0 < e -> 0 < a -> Hfac (early e cb cc) a = 0.
Proof. intros He H. unfold Hfac, dE, E. cbn. field. lra. Qed.
Lemma D1i_lin t : ln (exp t / a_H) = t - ln a_H.
Proof.
  pose proof a_H_pos. pose proof (exp_pos t). unfold Rdiv. rewrite ln_mult by (try apply Rinv_0_lt_compat; assumption). rewrite ln_exp, ln_Rinv by assumption. ring.
Qed.
Lemma dlin c t : derivable_pt_lim (fun t => t - c) t 1.
Proof. replace 1 with (1 - 0) by ring. apply (derivable_pt_lim_minus id (fct_cte c)); [apply derivable_pt_lim_id|apply derivable_pt_lim_const]. Qed.
(* derivative of k e^t p(t - c) for a polynomial of degree two *)
Lemma dquad k c u v t : derivable_pt_lim (fun t => k * (exp t * ((t - c) * (t - c) + u * (t - c) + v))) t (k * (exp t * ((t - c) * (t - c) + (u + 2) * (t - c) + (u + v)))).
Proof.
  replace (k * (exp t * ((t - c) * (t - c) + (u + 2) * (t - c) + (u + v)))) with (k * (exp t * ((t - c) * (t - c) + u * (t - c) + v) + exp t * ((1 * (t - c) + (t - c) * 1) + u * 1 + 0))) by ring.
  apply (derivable_pt_lim_scal (fun t => exp t * ((t - c) * (t - c) + u * (t - c) + v))).
  apply (derivable_pt_lim_mult exp (fun t => (t - c) * (t - c) + u * (t - c) + v)); [apply derivable_pt_lim_exp|].
  apply (derivable_pt_lim_plus (fun t => (t - c) * (t - c) + u * (t - c)) (fct_cte v)); [|apply derivable_pt_lim_const].
  apply (derivable_pt_lim_plus (fun t => (t - c) * (t - c)) (fun t => u * (t - c))).
  - apply (derivable_pt_lim_mult (fun t => t - c) (fun t => t - c)); apply dlin.
  - apply (derivable_pt_lim_scal (fun t => t - c)), dlin.
Qed.
Lemma dext f g t l : (forall x, f x = g x) -> derivable_pt_lim f t l -> derivable_pt_lim g t l.
Proof. intros H D eps He. destruct (D eps He) as (d & Hd). exists d. intros h H0 H1. rewrite <- !H. apply Hd; assumption. Qed.

(* ---- C364: the initial condition follows the growth equations deep in radiation ---- *)
Theorem C364_initial : forall e cb cc t, 0 < e ->
  let b := early e cb cc in let y := radiation_initial b in let rhs := ode b (y t) t in let om := Om b (exp t) in
  derivable_pt_lim (fun t => s1 (y t)) t (s1 rhs) /\
  derivable_pt_lim (fun t => s2 (y t)) t (s2 rhs - 3 / 2 * om * s1 (y t)) /\
  derivable_pt_lim (fun t => s3 (y t)) t (s3 rhs) /\
  derivable_pt_lim (fun t => s4 (y t)) t (s4 rhs - 3 / 2 * om * s3 (y t)).
Proof.
  intros e cb cc t He b y rhs om. pose proof (exp_pos t) as P.
  assert (Y : forall t, y t = (t - ln a_H, 1, - (3 / 2) * ((cb + cc) * exp t) * ((t - ln a_H) ^ 2 - 4 * (t - ln a_H) + 6), - (3 / 2) * ((cb + cc) * exp t) * ((t - ln a_H) ^ 2 - 2 * (t - ln a_H) + 2))).
  { intros u. unfold y, radiation_initial. rewrite D1i_lin. unfold b. rewrite early_Om by apply exp_pos. reflexivity. }
  assert (OM : om = (cb + cc) * exp t) by (apply early_Om; exact P).
  assert (RH : rhs = (1, 3 / 2 * om * s1 (y t), s4 (y t), 3 / 2 * om * s3 (y t) - 3 / 2 * om * s1 (y t) ^ 2)).
  { unfold rhs. rewrite (Y t). unfold ode. assert (HF : Hfac b (exp t) = 0) by (apply early_Hfac; assumption). rewrite HF. fold om. cbn [s1 s3 s4]. assert (Q : forall a b c d a' b' c' d' : R, a = a' -> b = b' -> c = c' -> d = d' -> (a, b, c, d) = (a', b', c', d')) by (intros; congruence). apply Q; ring. }
  rewrite RH. set (c := ln a_H) in *. cbn [s1 s2 s3 s4]. split; [|split; [|split]].
  - apply (dext (fun t => t - c)); [intros x; rewrite Y; reflexivity|apply dlin].
  - apply (dext (fct_cte 1)); [intros x; rewrite Y; reflexivity|]. replace (3 / 2 * om * s1 (y t) - 3 / 2 * om * s1 (y t)) with 0 by ring. apply derivable_pt_lim_const.
  - apply (dext (fun t => (- (3 / 2) * (cb + cc)) * (exp t * ((t - c) * (t - c) + (-4) * (t - c) + 6)))); [intros x; rewrite Y; cbn [s3]; ring|].
    replace (s4 (y t)) with ((- (3 / 2) * (cb + cc)) * (exp t * ((t - c) * (t - c) + (-4 + 2) * (t - c) + (-4 + 6)))) by (rewrite Y; cbn [s4]; ring). apply dquad.
  - apply (dext (fun t => (- (3 / 2) * (cb + cc)) * (exp t * ((t - c) * (t - c) + (-2) * (t - c) + 2)))); [intros x; rewrite Y; cbn [s4]; ring|].
    replace (3 / 2 * om * s3 (y t) - 3 / 2 * om * s1 (y t) ^ 2 - 3 / 2 * om * s3 (y t)) with ((- (3 / 2) * (cb + cc)) * (exp t * ((t - c) * (t - c) + (-2 + 2) * (t - c) + (-2 + 2)))) by (rewrite OM, Y; cbn [s1]; ring). apply dquad.
Qed.
Print Assumptions C364_initial.
Example C364_ex : exists t, let b := early 1 1 1 in 0 < Om b (exp t) < 1 /\ s1 (radiation_initial b t) = 1 /\ s3 (radiation_initial b t) <> 0.
Proof.
  exists (1 + ln a_H). cbv zeta. pose proof a_H_pos as P. assert (EQ : exp (1 + ln a_H) = exp 1 * a_H) by (rewrite exp_plus, exp_ln by exact P; reflexivity).
  assert (EB : 0 < exp 1 * a_H) by (apply Rmult_lt_0_compat; [apply exp_pos|exact P]).
  rewrite early_Om by apply exp_pos. rewrite EQ. split.
  - split; [lra|]. pose proof exp_le_3. unfold a_H in *. assert (exp 1 * (522281250 / 10 ^ 13) <= 3 * (522281250 / 10 ^ 13)) by (apply Rmult_le_compat_r; lra). lra.
  - unfold radiation_initial. rewrite early_Om by apply exp_pos. rewrite D1i_lin. replace (1 + ln a_H - ln a_H) with 1 by ring. cbn [s1 s3]. split; [reflexivity|]. rewrite EQ. lra.
Qed.

(* ---- C365: growth factors are positive ---- *)
Definition starts (odeint : (state -> R -> state) -> state -> list R -> list state) : Prop :=
  forall f y0 l, l <> [] -> exists rest, odeint f y0 l = y0 :: rest /\ length (y0 :: rest) = length l.
(* D1 as it comes from the solver at a_normalize *)
Definition raw (b : background) (odeint : (state -> R -> state) -> state -> list R -> list state) (lna : list R) (an : R) : R :=
  s1 (nth (fst (argmin (ln an) lna)) (odeint (ode b) (radiation_initial b (hd 0 lna)) lna) (0, 0, 0, 0)).
Lemma argmin_lt x l : l <> [] -> (fst (argmin x l) < length l)%nat.
Proof.
  induction l as [|y l IH]; [congruence|]. intros _. cbn [argmin]. destruct l as [|z l]; [cbn; lia|]. destruct (argmin x (z :: l)) as [i m] eqn:E. specialize (IH ltac:(discriminate)). cbn [fst] in IH. destruct (rleb (Rabs (y - x)) m); cbn [fst length] in *; lia.
Qed.
Lemma first_value b odeint t0 t1 l an : starts odeint -> t0 < t1 ->
  let lna := t0 :: t1 :: l in raw b odeint lna an <> 0 ->
  Gp (solve b odeint (radiation_initial b (hd 0 lna)) lna an) (exp t0) = s1 (radiation_initial b t0) / raw b odeint lna an.
Proof.
  intros S L lna N. unfold Gp, D1, solve. cbn [g_lna g_D1]. unfold raw in *. change (hd 0 lna) with t0 in *. destruct (S (ode b) (radiation_initial b t0) lna ltac:(discriminate)) as (rest & E & LE). rewrite E in N |- *.
  rewrite ln_exp. set (ind := fst (argmin (ln an) lna)) in *.
  assert (I : (ind < length (combine (radiation_initial b t0 :: rest) lna))%nat) by (rewrite combine_length; pose proof (argmin_lt (ln an) lna ltac:(discriminate)) as AL; fold ind in AL; cbn [length] in *; lia).
  set (h := fun x : state * R => fst (let '(yi, t) := x in let '(D1, F1, D2, F2) := yi in let '(_, F1p, _, F2p) := ode b yi t in ((D1, F1, F1p), (D2, F2, F2p)))).
  assert (MM : forall l, map fst (map (fun p => let '(yi, t) := p in let '(D1, F1, D2, F2) := yi in let '(_, F1p, _, F2p) := ode b yi t in ((D1, F1, F1p), (D2, F2, F2p))) l) = map h l) by (intros; rewrite map_map; reflexivity). rewrite !MM.
  assert (HH : forall yi t, order 0 (h (yi, t)) = s1 yi) by (intros [[[d1 f1'] d2] f2'] u; reflexivity).
  assert (NV : order 0 (nth ind (map h (combine (radiation_initial b t0 :: rest) lna)) (0, 0, 0)) = s1 (nth ind (radiation_initial b t0 :: rest) (0, 0, 0, 0))).
  { rewrite (nth_indep _ (0, 0, 0) (h ((0, 0, 0, 0), 0))) by (rewrite map_length; exact I). rewrite map_nth. rewrite combine_nth by exact LE. apply HH. }
  rewrite NV. set (nv := s1 (nth ind (radiation_initial b t0 :: rest) (0, 0, 0, 0))) in *. rewrite map_map. unfold lna at 1.
  destruct rest as [|y1 rest]; [discriminate LE|]. unfold lna. cbn [combine map]. unfold np_interp.
  assert (F0 : rltb t0 t0 = false) by (unfold rltb; destruct (Rlt_dec t0 t0); [lra|reflexivity]). rewrite F0. cbn [interp_from].
  assert (F1 : rltb t0 t1 = true) by (unfold rltb; destruct (Rlt_dec t0 t1); [reflexivity|contradiction]). rewrite F1.
  assert (SC : forall c r, order 0 (scale c r) = order 0 r / c) by (intros c [[? ?] ?]; reflexivity). rewrite !SC, !HH. replace (t0 - t0) with 0 by ring. rewrite Rmult_0_l, Rplus_0_r. reflexivity.
Qed.
Theorem C365_start : forall b odeint t0 t1 l an, starts odeint -> t0 < t1 -> exp t0 < a_H ->
  0 < raw b odeint (t0 :: t1 :: l) an ->
  Gp (solve b odeint (radiation_initial b t0) (t0 :: t1 :: l) an) (exp t0) < 0.
Proof.
  intros b odeint t0 t1 l an S L H P. pose proof (first_value b odeint t0 t1 l an S L) as F. cbv zeta in F. cbn [hd] in F. rewrite F by lra.
  assert (Q : s1 (radiation_initial b t0) < 0). { unfold radiation_initial. cbn [s1]. rewrite D1i_lin. rewrite <- (ln_exp t0) at 1. assert (ln (exp t0) < ln a_H) by (apply ln_increasing; [apply exp_pos|exact H]). lra. }
  unfold Rdiv. rewrite <- (Rmult_0_l (/ raw b odeint (t0 :: t1 :: l) an)). apply Rmult_lt_compat_r; [apply Rinv_0_lt_compat; exact P|exact Q].
Qed.
Print Assumptions C365_start.
Theorem C365_positive_refuted : exists al a, 0 < a /\ forall c_efunc c_efunc_prime Omega_b Omega_cdm odeint,
  starts odeint -> let b := radiation c_efunc c_efunc_prime Omega_b Omega_cdm in
  0 < raw b odeint (times (Some al) 1) 1 ->
  Gp (RadiationDominated c_efunc c_efunc_prime Omega_b Omega_cdm odeint (Some al) 1) a < 0.
Proof.
  exists [1], (/ 10 ^ 7). assert (P7 : 0 < / 10 ^ 7) by (apply Rinv_0_lt_compat, pow_lt; lra). split; [exact P7|].
  intros c_efunc c_efunc_prime Omega_b Omega_cdm odeint S b P. unfold RadiationDominated, Perturbation. fold b.
  assert (T : times (Some [1]) 1 = [ln (/ 10 ^ 7); ln 1]).
  { unfold times. cbn [existsb]. assert (R1 : reqb 1 1 = true) by (unfold reqb; destruct (Req_EM_T 1 1); congruence). rewrite R1. cbn [orb]. cbn [sort fold_right insert hd].
    assert (R2 : rltb (/ 10 ^ 7) 1 = true) by (unfold rltb; destruct (Rlt_dec (/ 10 ^ 7) 1) as [_|N]; [reflexivity|exfalso; apply N; lra]). rewrite R2. reflexivity. }
  rewrite T in *. cbn [hd]. replace (/ 10 ^ 7) with (exp (ln (/ 10 ^ 7))) at 3 by (apply exp_ln; exact P7). apply C365_start; [exact S|apply ln_increasing; [exact P7|lra]|rewrite exp_ln by exact P7; unfold a_H; lra|exact P].
Qed.
Print Assumptions C365_positive_refuted.
(* a solver that starts where it should and comes out positive *)
Example C365_ex : starts (fun _ y0 l => y0 :: repeat (1, 1, 1, 1) (length l - 1)) /\
  0 < raw (early 1 1 1) (fun _ y0 l => y0 :: repeat (1, 1, 1, 1) (length l - 1)) [ln (/ 10 ^ 7); ln 1] 1.
Proof.
  split; [intros f y0 l N; eexists; split; [reflexivity|]; cbn; rewrite repeat_length; destruct l; [congruence|cbn; lia]|].
  unfold raw. cbn [argmin]. assert (H : rleb (Rabs (ln (/ 10 ^ 7) - ln 1)) (Rabs (ln 1 - ln 1)) = false).
  { unfold rleb. destruct (Rle_dec _ _) as [L|_]; [|reflexivity]. exfalso. rewrite ln_1, !Rminus_0_r, Rabs_R0 in L.
    assert (ln (/ 10 ^ 7) < 0) by (rewrite <- ln_1; apply ln_increasing; lra). rewrite Rabs_left in L by assumption. lra. }
  rewrite H. cbn. lra.
Qed.
