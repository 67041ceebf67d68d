From Verif Require Import Base.
From Coq Require Import Reals Factorial Lra Lia.
From Verif Require Import RandModel RandProofs ThreeModel ThreeSpec ThreeProofs YlmModel YlmSpec YlmProofs.
Local Open Scope R_scope.

(* ---- ratios of factorials ---- *)
Lemma fact_pos n : 0 < INR (fact n).
Proof. apply INR_fact_lt_0. Qed.
Lemma fact_S' n : INR (fact (S n)) = (INR n + 1) * INR (fact n).
Proof. change (fact (S n)) with (S n * fact n)%nat. rewrite mult_INR, S_INR. reflexivity. Qed.
Lemma ratio_pos l m : 0 < fact_ratio l m.
Proof. apply Rdiv_lt_0_compat; apply fact_pos. Qed.
Lemma ratio_up l m : (S m <= l)%nat -> fact_ratio l m = fact_ratio l (S m) * (INR l + 1 + INR m) * (INR l - INR m).
Proof.
  intros H. unfold fact_ratio. replace (l - m)%nat with (S (l - S m)) by lia. replace (l + S m)%nat with (S (l + m)) by lia.
  rewrite !fact_S', minus_INR, plus_INR, S_INR by lia. pose proof (fact_pos (l - S m)). pose proof (fact_pos (l + m)). pose proof (pos_INR l). pose proof (pos_INR m). field. lra.
Qed.
Lemma ratio_next l m : (m <= l)%nat -> fact_ratio (S l) m * (INR l + 1 + INR m) = fact_ratio l m * (INR l + 1 - INR m).
Proof.
  intros H. unfold fact_ratio. replace (S l - m)%nat with (S (l - m)) by lia. replace (S l + m)%nat with (S (l + m)) by lia.
  rewrite !fact_S', minus_INR, plus_INR by lia. pose proof (fact_pos (l - m)). pose proof (fact_pos (l + m)). pose proof (pos_INR l). pose proof (pos_INR m). field. lra.
Qed.
Lemma ratio_0 l : fact_ratio l 0 = 1.
Proof. unfold fact_ratio. rewrite Nat.sub_0_r, Nat.add_0_r. apply Rinv_r. pose proof (fact_pos l). lra. Qed.

(* ---- sums over m ---- *)
Lemma seq1_S N : seq 1 (S N) = seq 1 N ++ [S N].
Proof. rewrite seq_S. reflexivity. Qed.
Lemma rsum_last f N : rsum (map f (seq 1 (S N))) = rsum (map f (seq 1 N)) + f (S N).
Proof. rewrite seq1_S, map_app, rsum_app. cbn [map rsum]. ring. Qed.
Lemma shift (g T : nat -> R) r : forall N,
  rsum (map (fun m => g m * (T (S m) + r * T (pred m))) (seq 1 N)) =
  rsum (map (fun m => (g (pred m) + r * g (S m)) * T m) (seq 1 N)) - g O * T 1%nat + r * g 1%nat * T O + g N * T (S N) - r * g (S N) * T N.
Proof.
  induction N as [|N IH]; [cbn [seq map rsum]; ring|]. rewrite !rsum_last, IH. cbn [pred]. ring.
Qed.

Section Pair.
Variables z z' u v : R.
Hypothesis UV : u * u + v * v = (1 - z * z) * (1 - z' * z').
Definition T (m : nat) : R := fst (expand_trig m u v).
Lemma T_rec m : 2 * u * T (S m) = T (S (S m)) + (1 - z * z) * (1 - z' * z') * T m.
Proof using UV. rewrite <- UV. unfold T. cbn [expand_trig]. destruct (expand_trig m u v) as [a b]. cbn [fst]. ring. Qed.
Definition g (l m : nat) : R := fact_ratio l m * dlegendre l m z * dlegendre l m z'.
Lemma g_high l m : (l < m)%nat -> g l m = 0.
Proof using. intros H. unfold g. rewrite pi_high by exact H. ring. Qed.
Lemma K0 l : (INR l + 2) * g (S (S l)) 0 = (2 * INR l + 3) * (z * z' * g (S l) 0 + (1 - z * z) * (1 - z' * z') * g (S l) 1) - (INR l + 1) * g l 0.
Proof using.
  unfold g. rewrite !ratio_0. pose proof (ratio_up (S l) 0 ltac:(lia)) as R. rewrite ratio_0, S_INR in R. cbn [INR] in R.
  pose proof (by_z z l 0) as A. pose proof (by_z z' l 0) as A'. pose proof (by_upper z l 0) as B. pose proof (by_upper z' l 0) as B'. cbn [INR] in *. pose proof (pos_INR l) as L.
  assert (E : fact_ratio (S l) 1 = 1 / ((INR l + 1) * (INR l + 2))) by (apply (Rmult_eq_reg_r ((INR l + 1) * (INR l + 2))); [field_simplify; [lra|lra]|apply Rmult_integral_contrapositive; lra]).
  set (p := dlegendre l 0 z) in *. set (p' := dlegendre l 0 z') in *. set (q := dlegendre (S (S l)) 0 z) in *. set (q' := dlegendre (S (S l)) 0 z') in *.
  assert (A1 : z * dlegendre (S l) 0 z = ((INR l + 2) * q + (INR l + 1) * p) / (2 * INR l + 3)) by (apply (Rmult_eq_reg_l (2 * INR l + 3)); [rewrite A; field; lra|lra]).
  assert (A1' : z' * dlegendre (S l) 0 z' = ((INR l + 2) * q' + (INR l + 1) * p') / (2 * INR l + 3)) by (apply (Rmult_eq_reg_l (2 * INR l + 3)); [rewrite A'; field; lra|lra]).
  assert (B1 : (1 - z * z) * dlegendre (S l) 1 z = ((INR l + 1) * (INR l + 2) * (p - q)) / (2 * INR l + 3)) by (apply (Rmult_eq_reg_l (2 * INR l + 3)); [rewrite B; field; lra|lra]).
  assert (B1' : (1 - z' * z') * dlegendre (S l) 1 z' = ((INR l + 1) * (INR l + 2) * (p' - q')) / (2 * INR l + 3)) by (apply (Rmult_eq_reg_l (2 * INR l + 3)); [rewrite B'; field; lra|lra]).
  transitivity ((2 * INR l + 3) * ((z * dlegendre (S l) 0 z) * (z' * dlegendre (S l) 0 z') + fact_ratio (S l) 1 * ((1 - z * z) * dlegendre (S l) 1 z) * ((1 - z' * z') * dlegendre (S l) 1 z')) - (INR l + 1) * (p * p')); [|ring].
  rewrite A1, A1', B1, B1', E. field. lra.
Qed.
Lemma Km l m : (1 <= m)%nat -> (INR l + 2) * (2 * g (S (S l)) m) = (2 * INR l + 3) * (2 * (z * z' * g (S l) m) + g (S l) (pred m) + (1 - z * z) * (1 - z' * z') * g (S l) (S m)) - (INR l + 1) * (2 * g l m).
Proof using.
  intros Hm. destruct m as [|m]; [lia|]. cbn [pred]. pose proof (pos_INR l) as L. pose proof (pos_INR m) as M.
  pose proof (by_z z l (S m)) as A. pose proof (by_z z' l (S m)) as A'. pose proof (by_upper z l (S m)) as B. pose proof (by_upper z' l (S m)) as B'. pose proof (by_lower z l m) as C. pose proof (by_lower z' l m) as C'.
  rewrite !S_INR in *. set (d := 2 * INR l + 3) in *. assert (D : d <> 0) by (unfold d; lra).
  destruct (Nat.le_gt_cases (S m) l) as [H|H]; [|destruct (Nat.eq_dec m l) as [->|N1]; [|destruct (Nat.eq_dec m (S l)) as [->|N2]]].
  - unfold g. pose proof (ratio_up (S l) m ltac:(lia)) as R1. pose proof (ratio_up (S l) (S m) ltac:(lia)) as R2. pose proof (ratio_next (S l) (S m) ltac:(lia)) as R3. pose proof (ratio_next l (S m) ltac:(lia)) as R4.
    rewrite !S_INR in *. assert (ML : INR m + 1 <= INR l) by (apply le_INR in H; rewrite S_INR in H; exact H).
    set (F := fact_ratio (S l) (S m)) in *.
    set (p := dlegendre l (S m) z) in *. set (p' := dlegendre l (S m) z') in *. set (q := dlegendre (S (S l)) (S m) z) in *. set (q' := dlegendre (S (S l)) (S m) z') in *.
    assert (F2 : fact_ratio (S l) (S (S m)) = F / ((INR l + 3 + INR m) * (INR l - INR m))) by (apply (Rmult_eq_reg_r ((INR l + 3 + INR m) * (INR l - INR m))); [rewrite R2; field; lra|apply Rmult_integral_contrapositive; lra]).
    assert (F3 : fact_ratio (S (S l)) (S m) = F * (INR l + 1 - INR m) / (INR l + 3 + INR m)) by (apply (Rmult_eq_reg_r (INR l + 3 + INR m)); [transitivity (fact_ratio (S (S l)) (S m) * (INR l + 1 + 1 + (INR m + 1))); [ring|rewrite R3; field; lra]|lra]).
    assert (F4 : fact_ratio l (S m) = F * (INR l + 2 + INR m) / (INR l - INR m)) by (apply (Rmult_eq_reg_r (INR l - INR m)); [transitivity (fact_ratio l (S m) * (INR l + 1 - (INR m + 1))); [ring|rewrite <- R4; field; lra]|lra]).
    assert (A1 : z * dlegendre (S l) (S m) z = ((INR l + 2 - (INR m + 1)) * q + (INR l + 1 + (INR m + 1)) * p) / d) by (apply (Rmult_eq_reg_l d); [rewrite A; field; exact D|exact D]).
    assert (A1' : z' * dlegendre (S l) (S m) z' = ((INR l + 2 - (INR m + 1)) * q' + (INR l + 1 + (INR m + 1)) * p') / d) by (apply (Rmult_eq_reg_l d); [rewrite A'; field; exact D|exact D]).
    assert (C1 : dlegendre (S l) m z = (q - p) / d) by (apply (Rmult_eq_reg_l d); [rewrite C; field; exact D|exact D]).
    assert (C1' : dlegendre (S l) m z' = (q' - p') / d) by (apply (Rmult_eq_reg_l d); [rewrite C'; field; exact D|exact D]).
    assert (B1 : (1 - z * z) * dlegendre (S l) (S (S m)) z = ((INR l + 2 + INR m) * (INR l + 3 + INR m) * p - (INR l - INR m) * (INR l + 1 - INR m) * q) / d) by (apply (Rmult_eq_reg_l d); [rewrite B; field; exact D|exact D]).
    assert (B1' : (1 - z' * z') * dlegendre (S l) (S (S m)) z' = ((INR l + 2 + INR m) * (INR l + 3 + INR m) * p' - (INR l - INR m) * (INR l + 1 - INR m) * q') / d) by (apply (Rmult_eq_reg_l d); [rewrite B'; field; exact D|exact D]).
    transitivity (d * (2 * F * (z * dlegendre (S l) (S m) z) * (z' * dlegendre (S l) (S m) z') + fact_ratio (S l) m * dlegendre (S l) m z * dlegendre (S l) m z' + fact_ratio (S l) (S (S m)) * ((1 - z * z) * dlegendre (S l) (S (S m)) z) * ((1 - z' * z') * dlegendre (S l) (S (S m)) z')) - (INR l + 1) * (2 * (fact_ratio l (S m) * p * p'))); [|ring].
    rewrite A1, A1', B1, B1', C1, C1', F2, F3, F4, R1. clearbody F p p' q q'. unfold d. field. lra.
  - rewrite (g_high l (S l)), (g_high (S l) (S (S l))) by lia. unfold g. rewrite (pi_high z l (S l)) in * by lia. rewrite (pi_high z' l (S l)) in * by lia.
    pose proof (ratio_up (S l) l ltac:(lia)) as R1. pose proof (ratio_next (S l) (S l) ltac:(lia)) as R3. rewrite !S_INR in *. set (F := fact_ratio (S l) (S l)) in *.
    set (q := dlegendre (S (S l)) (S l) z) in *. set (q' := dlegendre (S (S l)) (S l) z') in *.
    assert (F3 : fact_ratio (S (S l)) (S l) = F / d) by (apply (Rmult_eq_reg_r d); [transitivity (fact_ratio (S (S l)) (S l) * (INR l + 1 + 1 + (INR l + 1))); [unfold d; ring|rewrite R3; field; exact D]|exact D]).
    assert (A1 : z * dlegendre (S l) (S l) z = q / d) by (apply (Rmult_eq_reg_l d); [rewrite A; field; exact D|exact D]).
    assert (A1' : z' * dlegendre (S l) (S l) z' = q' / d) by (apply (Rmult_eq_reg_l d); [rewrite A'; field; exact D|exact D]).
    assert (C1 : dlegendre (S l) l z = q / d) by (apply (Rmult_eq_reg_l d); [rewrite C; field; exact D|exact D]).
    assert (C1' : dlegendre (S l) l z' = q' / d) by (apply (Rmult_eq_reg_l d); [rewrite C'; field; exact D|exact D]).
    transitivity (d * (2 * F * (z * dlegendre (S l) (S l) z) * (z' * dlegendre (S l) (S l) z') + fact_ratio (S l) l * dlegendre (S l) l z * dlegendre (S l) l z')); [|ring].
    rewrite A1, A1', C1, C1', F3, R1. clearbody F q q'. unfold d. field. lra.
  - rewrite (g_high l (S (S l))), (g_high (S l) (S (S l))), (g_high (S l) (S (S (S l)))) by lia. unfold g. rewrite (pi_high z l (S (S l))) in * by lia. rewrite (pi_high z' l (S (S l))) in * by lia.
    pose proof (ratio_next (S l) (S l) ltac:(lia)) as R3. pose proof (ratio_up (S (S l)) (S l) ltac:(lia)) as R1. rewrite !S_INR in *. set (F := fact_ratio (S l) (S l)) in *.
    set (q := dlegendre (S (S l)) (S (S l)) z) in *. set (q' := dlegendre (S (S l)) (S (S l)) z') in *.
    assert (F3 : fact_ratio (S (S l)) (S (S l)) = F / (d * (2 * INR l + 4))).
    { apply (Rmult_eq_reg_r (d * (2 * INR l + 4))); [|apply Rmult_integral_contrapositive; lra]. transitivity (fact_ratio (S (S l)) (S l) * d); [rewrite R1; unfold d; ring|].
      transitivity (fact_ratio (S (S l)) (S l) * (INR l + 1 + 1 + (INR l + 1))); [unfold d; ring|]. rewrite R3. field. lra. }
    assert (C1 : dlegendre (S l) (S l) z = q / d) by (apply (Rmult_eq_reg_l d); [rewrite C; field; exact D|exact D]).
    assert (C1' : dlegendre (S l) (S l) z' = q' / d) by (apply (Rmult_eq_reg_l d); [rewrite C'; field; exact D|exact D]).
    rewrite C1, C1', F3. clearbody F q q'. unfold d. field. lra.
  - rewrite !g_high by lia. ring.
Qed.
Definition total (l N : nat) : R := g l 0 + rsum (map (fun m => 2 * g l m * T m) (seq 1 N)).
Lemma total_rec l N : (S (S l) <= N)%nat -> (INR l + 2) * total (S (S l)) N = (2 * INR l + 3) * (z * z' + u) * total (S l) N - (INR l + 1) * total l N.
Proof using UV.
  intros H. unfold total. pose proof (shift (g (S l)) T ((1 - z * z) * (1 - z' * z')) N) as SH. rewrite (g_high (S l) N), (g_high (S l) (S N)) in SH by lia.
  assert (U : u * rsum (map (fun m => 2 * g (S l) m * T m) (seq 1 N)) = rsum (map (fun m => g (S l) m * (T (S m) + (1 - z * z) * (1 - z' * z') * T (pred m))) (seq 1 N))).
  { rewrite <- rsum_scl. apply rsum_ext'. intros m I. apply in_seq in I. destruct m as [|m]; [lia|]. cbn [pred]. rewrite <- T_rec. ring. }
  rewrite SH in U. replace (T 1) with u in U by (unfold T; cbn; ring). replace (T 0) with 1 in U by reflexivity.
  assert (E : (INR l + 2) * rsum (map (fun m => 2 * g (S (S l)) m * T m) (seq 1 N)) =
    (2 * INR l + 3) * (z * z' * rsum (map (fun m => 2 * g (S l) m * T m) (seq 1 N)) + rsum (map (fun m => (g (S l) (pred m) + (1 - z * z) * (1 - z' * z') * g (S l) (S m)) * T m) (seq 1 N))) - (INR l + 1) * rsum (map (fun m => 2 * g l m * T m) (seq 1 N))).
  { rewrite <- !rsum_scl, <- rsum_plus, <- rsum_scl. unfold Rminus. rewrite <- Ropp_mult_distr_l_reverse || idtac. 
    match goal with |- _ = ?a + - ?b => replace (- b) with ((-1) * b) by ring end. rewrite <- rsum_scl, <- rsum_plus. apply rsum_ext'. intros m I. apply in_seq in I.
    pose proof (Km l m ltac:(lia)) as K. transitivity ((INR l + 2) * (2 * g (S (S l)) m) * T m); [ring|]. rewrite K. ring. }
  pose proof (K0 l) as K. clear SH H. clear UV.
  set (S0 := rsum (map (fun m => 2 * g l m * T m) (seq 1 N))) in *. set (S1 := rsum (map (fun m => 2 * g (S l) m * T m) (seq 1 N))) in *. set (S2 := rsum (map (fun m => 2 * g (S (S l)) m * T m) (seq 1 N))) in *.
  set (W := rsum (map (fun m => (g (S l) (pred m) + (1 - z * z) * (1 - z' * z') * g (S l) (S m)) * T m) (seq 1 N))) in *. clearbody S0 S1 S2 W.
  rewrite Rmult_plus_distr_l, E, K.
  transitivity ((2 * INR l + 3) * (z * z' * g (S l) 0 + u * g (S l) 0 + z * z' * S1 + u * S1) - (INR l + 1) * (g l 0 + S0)); [rewrite U; ring|ring].
Qed.
Lemma rleg2_snd l x : snd (rleg2 l x) = rlegendre (S l) x.
Proof using. unfold rlegendre. cbn [rleg2]. destruct (rleg2 l x) as [p q]. reflexivity. Qed.
Lemma rlegendre_SS l x : (INR l + 2) * rlegendre (S (S l)) x = (2 * INR l + 3) * x * rlegendre (S l) x - (INR l + 1) * rlegendre l x.
Proof using.
  rewrite <- (rleg2_snd l). unfold rlegendre. cbn [rleg2]. destruct (rleg2 l x) as [p q]. cbn [fst snd]. rewrite !plus_INR, mult_INR. cbn [INR]. field. pose proof (pos_INR l). lra.
Qed.
Lemma total_legendre : forall l N, (l <= N)%nat -> total l N = rlegendre l (z * z' + u).
Proof using UV.
  assert (G : forall l, (forall N, (l <= N)%nat -> total l N = rlegendre l (z * z' + u)) /\ (forall N, (S l <= N)%nat -> total (S l) N = rlegendre (S l) (z * z' + u))).
  { induction l as [|l [I0 I1]].
    - split; intros N H; unfold total.
      + rewrite rsum_zero by (intros m I; apply in_seq in I; rewrite g_high by lia; ring). unfold g. rewrite ratio_0, !pi00. unfold rlegendre. cbn. ring.
      + destruct N as [|N]; [lia|]. cbn [seq map rsum]. rewrite rsum_zero by (intros m I; apply in_seq in I; rewrite g_high by lia; ring).
        unfold g. rewrite ratio_0, !pi10, !pi11. unfold fact_ratio, T, rlegendre. cbn. field.
    - split; [exact I1|]. intros N H. pose proof (total_rec l N H) as E. rewrite I0, I1 in E by lia. rewrite <- rlegendre_SS in E. pose proof (pos_INR l). apply (Rmult_eq_reg_l (INR l + 2)); [exact E|lra]. }
  intros l. apply (G l).
Qed.
End Pair.

(* ---- the trigonometric factors ---- *)
Lemma trig_scale k c s : forall m, expand_trig m (k * c) (k * s) = (k ^ m * fst (expand_trig m c s), k ^ m * snd (expand_trig m c s)).
Proof. induction m as [|m IH]; cbn [expand_trig pow fst snd]; [f_equal; ring|]. rewrite IH. destruct (expand_trig m c s) as [a b]. cbn [fst snd]. f_equal; ring. Qed.
Lemma trig_prod x y x' y' : forall m,
  fst (expand_trig m x y) * fst (expand_trig m x' y') + snd (expand_trig m x y) * snd (expand_trig m x' y') = fst (expand_trig m (x * x' + y * y') (y * x' - x * y')) /\
  snd (expand_trig m x y) * fst (expand_trig m x' y') - fst (expand_trig m x y) * snd (expand_trig m x' y') = snd (expand_trig m (x * x' + y * y') (y * x' - x * y')).
Proof.
  induction m as [|m [A B]]; cbn [expand_trig fst snd]; [split; ring|]. destruct (expand_trig m x y) as [a b], (expand_trig m x' y') as [a' b'], (expand_trig m (x * x' + y * y') (y * x' - x * y')) as [c d].
  cbn [fst snd] in *. rewrite <- A, <- B. split; ring.
Qed.
Lemma over_root x y : sqrt (x * x + y * y) * (x / sqrt (x * x + y * y)) = x /\ sqrt (x * x + y * y) * (y / sqrt (x * x + y * y)) = y.
Proof.
  destruct (Req_dec (sqrt (x * x + y * y)) 0) as [E|E]; [|split; field; exact E].
  rewrite E. assert (x * x + y * y = 0) by (apply sqrt_eq_0; [nra|exact E]). assert (x = 0) by nra. assert (y = 0) by nra. subst. split; ring.
Qed.
(* sin(theta)^m times the trigonometric factor is a power of x + i y *)
Lemma assoc_trig l m x y z : x * x + y * y + z * z = 1 ->
  assoc_legendre l m z * fst (expand_trig m (cos_phi x y) (sin_phi x y)) = (-1) ^ m * dlegendre l m z * fst (expand_trig m x y) /\
  assoc_legendre l m z * snd (expand_trig m (cos_phi x y) (sin_phi x y)) = (-1) ^ m * dlegendre l m z * snd (expand_trig m x y).
Proof.
  intros U. unfold assoc_legendre, cos_phi, sin_phi. replace (1 - z * z) with (x * x + y * y) by lra.
  destruct (over_root x y) as [X Y]. pose proof (trig_scale (sqrt (x * x + y * y)) (x / sqrt (x * x + y * y)) (y / sqrt (x * x + y * y)) m) as E. rewrite X, Y in E. rewrite E. cbn [fst snd]. split; ring.
Qed.
Lemma sign2 m : (-1) ^ m * (-1) ^ m = 1.
Proof. rewrite <- Rpow_mult_distr. replace (-1 * -1) with 1 by ring. apply pow1. Qed.
Lemma unit_uv x y z x' y' z' : x * x + y * y + z * z = 1 -> x' * x' + y' * y' + z' * z' = 1 ->
  (x * x' + y * y') * (x * x' + y * y') + (y * x' - x * y') * (y * x' - x * y') = (1 - z * z) * (1 - z' * z').
Proof. intros U U'. replace (1 - z * z) with (x * x + y * y) by lra. replace (1 - z' * z') with (x' * x' + y' * y') by lra. ring. Qed.

Lemma cache_addition l : addition cache_Ylm l.
Proof.
  intros [[x y] z] [[x' y'] z'] U U'. unfold unit3, dot3 in *. pose proof PI_RGT_0 as P.
  pose proof (total_legendre z z' (x * x' + y * y') (y * x' - x * y') (unit_uv _ _ _ _ _ _ U U') l l (le_n l)) as E.
  replace (x * x' + y * y' + z * z') with (z * z' + (x * x' + y * y')) by ring. rewrite <- E. unfold total.
  assert (Q : forall m, re_prod (cache_Ylm l m (x, y, z)) (cache_Ylm l m (x', y', z')) = INR (2 * l + 1) / (4 * PI) * (g z z' l m * T (x * x' + y * y') (y * x' - x * y') m)).
  { intros m. unfold cache_Ylm, re_prod. cbn [fst snd]. destruct (assoc_trig l m x y z U) as [A B]. destruct (assoc_trig l m x' y' z' U') as [A' B']. rewrite A, A', B, B'.
    set (w := sqrt _). assert (W : w * w = INR (2 * l + 1) / (4 * PI) * fact_ratio l m).
    { apply sqrt_sqrt. apply Rmult_le_pos; [apply Rlt_le, Rdiv_lt_0_compat; [apply lt_0_INR; lia|lra]|apply Rlt_le, ratio_pos]. }
    transitivity ((w * w) * ((-1) ^ m * (-1) ^ m) * (dlegendre l m z * dlegendre l m z') * (fst (expand_trig m x y) * fst (expand_trig m x' y') + snd (expand_trig m x y) * snd (expand_trig m x' y'))); [ring|].
    rewrite W, sign2, (proj1 (trig_prod x y x' y' m)). unfold g, T. ring. }
  rewrite Rmult_plus_distr_l. f_equal.
  - pose proof (Q O) as Q0. unfold re_prod in Q0. replace (snd (cache_Ylm l 0 (x, y, z))) with 0 in Q0 by (unfold cache_Ylm; cbn; ring). rewrite Rmult_0_l, Rplus_0_r in Q0. rewrite Q0. unfold T. cbn. ring.
  - rewrite <- rsum_scl. rewrite <- rsum_scl. apply rsum_ext'. intros m _. rewrite Q. ring.
Qed.

Lemma orders_sum f : forall l, rsum (map f (orders l)) = f 0%Z + rsum (map (fun m => f (Z.of_nat m) + f (- Z.of_nat m)%Z) (seq 1 l)).
Proof.
  induction l as [|l IH]; [unfold orders; cbn; ring|]. rewrite rsum_last. cbv beta. rewrite <- Rplus_assoc, <- IH. unfold orders. rewrite !map_map.
  replace (2 * S l + 1)%nat with (S (S (2 * l + 1))) by lia. rewrite seq_S. cbn [seq]. rewrite map_app, rsum_app, <- seq_shift. cbn [map rsum]. rewrite map_map.
  replace (Z.of_nat 0 - Z.of_nat (S l))%Z with (- Z.of_nat (S l))%Z by lia. replace (Z.of_nat (0 + S (2 * l + 1)) - Z.of_nat (S l))%Z with (Z.of_nat (S l)) by lia.
  rewrite (rsum_ext' (fun k => f (Z.of_nat (S k) - Z.of_nat (S l))%Z) (fun k => f (Z.of_nat k - Z.of_nat l)%Z)) by (intros k _; f_equal; lia). ring.
Qed.
Lemma real_addition_all l : real_addition real_Ylm l.
Proof.
  intros [[x y] z] [[x' y'] z'] U U'. unfold unit3, dot3 in *. pose proof PI_RGT_0 as P.
  pose proof (total_legendre z z' (x * x' + y * y') (y * x' - x * y') (unit_uv _ _ _ _ _ _ U U') l l (le_n l)) as E.
  replace (x * x' + y * y' + z * z') with (z * z' + (x * x' + y * y')) by ring. rewrite <- E. unfold total. rewrite orders_sum.
  assert (Q : forall m, (1 <= m)%nat -> real_Ylm l (Z.of_nat m) (x, y, z) * real_Ylm l (Z.of_nat m) (x', y', z') + real_Ylm l (- Z.of_nat m) (x, y, z) * real_Ylm l (- Z.of_nat m) (x', y', z') = INR (2 * l + 1) / (4 * PI) * (2 * g z z' l m * T (x * x' + y * y') (y * x' - x * y') m)).
  { intros m Hm. unfold real_Ylm. cbn zeta. replace (Z.abs_nat (- Z.of_nat m)) with m by lia. replace (Z.abs_nat (Z.of_nat m)) with m by lia.
    replace (Z.of_nat m =? 0)%Z with false by (symmetry; apply Z.eqb_neq; lia). replace (- Z.of_nat m =? 0)%Z with false by (symmetry; apply Z.eqb_neq; lia).
    replace (Z.of_nat m <? 0)%Z with false by (symmetry; apply Z.ltb_ge; lia). replace (0 <? Z.of_nat m)%Z with true by (symmetry; apply Z.ltb_lt; lia). replace (- Z.of_nat m <? 0)%Z with true by (symmetry; apply Z.ltb_lt; lia).
    rewrite !(Rmult_assoc ((-1) ^ m)). destruct (assoc_trig l m x y z U) as [A B]. destruct (assoc_trig l m x' y' z' U') as [A' B']. rewrite A, A', B, B'.
    set (w := sqrt _). assert (W : w * w = 2 * INR (2 * l + 1) / (4 * PI) * fact_ratio l m).
    { apply sqrt_sqrt. apply Rmult_le_pos; [apply Rlt_le, Rdiv_lt_0_compat; [apply Rmult_lt_0_compat; [lra|apply lt_0_INR; lia]|lra]|apply Rlt_le, ratio_pos]. }
    transitivity ((w * w) * (((-1) ^ m * (-1) ^ m) * ((-1) ^ m * (-1) ^ m)) * (dlegendre l m z * dlegendre l m z') * (fst (expand_trig m x y) * fst (expand_trig m x' y') + snd (expand_trig m x y) * snd (expand_trig m x' y'))); [ring|].
    rewrite W, sign2, (proj1 (trig_prod x y x' y' m)). unfold g, T. field. lra. }
  rewrite Rmult_plus_distr_l, Rmult_plus_distr_l. f_equal.
  - unfold real_Ylm. cbn. set (w := sqrt _). assert (W : w * w = INR (l + (l + 0) + 1) / (4 * PI)) by (apply sqrt_sqrt, Rlt_le, Rdiv_lt_0_compat; [apply lt_0_INR; lia|lra]).
    unfold assoc_legendre. cbn [pow]. unfold g. rewrite ratio_0. transitivity (4 * PI * (w * w) * (dlegendre l 0 z * dlegendre l 0 z')); [ring|]. rewrite W. field. lra.
  - rewrite (rsum_ext' _ _ _ (fun m I => Q m (proj1 (proj1 (in_seq l 1 m) I)))). rewrite rsum_scl. field. lra.
Qed.
