(* Bounds for the transfer functions of LinModel at large scales. *)
From Verif Require Import Base ThreeModel LinModel.
From Coq Require Import Reals Lra Psatz String.
From Verif Require MockMore.
Local Open Scope R_scope.

(* ---- generic ---- *)
Lemma Rpower_pos x y : 0 < Rpower x y. Proof. apply exp_pos. Qed.
Lemma ln_mono x y : 0 < x -> x <= y -> ln x <= ln y.
Proof. intros X [H|H]; [left; apply ln_increasing; assumption|right; congruence]. Qed.
Lemma ln_e_ge x : 0 <= x -> 1 <= ln (exp 1 + x).
Proof. intros X. rewrite <- (ln_exp 1) at 1. apply ln_mono; [apply exp_pos|lra]. Qed.
Lemma ln_2e_ge x : 0 <= x -> 1 <= ln (2 * exp 1 + x).
Proof. intros X. rewrite <- (ln_exp 1) at 1. assert (P := exp_pos 1). apply ln_mono; lra. Qed.
Lemma pow2_pos x : 0 <= x ^ 2. Proof. nra. Qed.
Lemma pow4_pos x : 0 <= x ^ 4. Proof. replace (x ^ 4) with ((x ^ 2) ^ 2) by ring. apply pow2_pos. Qed.
(* a / (a + b q^2) with a >= 1 and 0 <= b <= B *)
Lemma ratio_bound a b B q : 1 <= a -> 0 <= b <= B -> 1 - B * q ^ 2 <= a / (a + b * q ^ 2) <= 1 /\ 0 < a / (a + b * q ^ 2).
Proof.
  intros A [B1 B2]. assert (Q := pow2_pos q). set (Q2 := q ^ 2) in *. assert (P : 0 <= b * Q2) by (apply Rmult_le_pos; assumption).
  assert (D : 0 < a + b * Q2) by lra. assert (M : b * Q2 <= B * Q2) by (apply Rmult_le_compat_r; assumption).
  assert (E : a / (a + b * Q2) = 1 - b * Q2 / (a + b * Q2)) by (field; lra).
  assert (U : 0 <= b * Q2 / (a + b * Q2)). { apply Rmult_le_pos; [exact P|left; apply Rinv_0_lt_compat, D]. }
  assert (V : b * Q2 / (a + b * Q2) <= b * Q2).
  { apply (Rmult_le_reg_r (a + b * Q2)); [exact D|]. unfold Rdiv. rewrite Rmult_assoc, Rinv_l by lra. nra. }
  split; [lra|]. apply Rdiv_lt_0_compat; lra.
Qed.
Lemma sinc_bound x : 0 < x -> Rabs (sin x / x - 1) <= x ^ 2 / 6 /\ Rabs (sin x / x) <= 1.
Proof.
  intros X. assert (A := MockMore.sin_le x (Rlt_le _ _ X)). assert (B := MockMore.sin_ge3 x (Rlt_le _ _ X)). assert (C := MockMore.sin_ge x (Rlt_le _ _ X)).
  assert (I : 0 < / x) by (apply Rinv_0_lt_compat, X). assert (E : x * / x = 1) by (apply Rinv_r; lra).
  split; apply Rabs_le; unfold Rdiv; split.
  - replace (- (x ^ 2 * / 6)) with ((x - x * x * x / 6) * / x - 1) by (field; lra). apply Rplus_le_compat_r, Rmult_le_compat_r; lra.
  - assert (sin x * / x <= x * / x) by (apply Rmult_le_compat_r; lra). assert (Q := pow2_pos x). lra.
  - replace (- (1)) with (- x * / x) by (field; lra). apply Rmult_le_compat_r; lra.
  - rewrite <- E. apply Rmult_le_compat_r; lra.
Qed.
Lemma cubic_fraction b v : 0 < b -> 0 < v -> 0 <= 1 / (1 + (b / v) ^ 3) <= (v / b) ^ 2.
Proof.
  intros B V. set (w := v / b). assert (W : 0 < w) by (apply Rdiv_lt_0_compat; assumption).
  replace (b / v) with (/ w) by (unfold w; field; lra). assert (P : 0 < w ^ 3) by (apply pow_lt, W).
  replace (1 / (1 + (/ w) ^ 3)) with (w ^ 3 / (1 + w ^ 3)) by (field; repeat split; try lra; nra).
  split. { left. apply Rdiv_lt_0_compat; lra. }
  apply (Rmult_le_reg_r (1 + w ^ 3)); [lra|]. unfold Rdiv. rewrite Rmult_assoc, Rinv_l, Rmult_1_r by lra.
  (* w^2 (1 + w^3) - w^3 = w^2 (1 - w + w^3) *)
  replace (w ^ 3) with (w ^ 2 * w) by ring. assert (0 <= 1 - w + w ^ 2 * w). { destruct (Rle_dec w 1); nra. } assert (Q := pow2_pos w). nra.
Qed.
Lemma Rpower_le1 x y : 1 <= x -> y <= 0 -> Rpower x y <= 1.
Proof.
  intros X Y. unfold Rpower. rewrite <- exp_0. assert (L : 0 <= ln x) by (rewrite <- ln_1; apply ln_mono; lra).
  assert (M : y * ln x <= 0) by nra. destruct M as [M|M]; [left; apply exp_increasing, M|rewrite M; right; reflexivity].
Qed.

(* ---- Eisenstein and Hu ---- *)
Definition physical (c : params) : Prop := 0 < c_h c /\ 0 < c_Ob c < c_Om c /\ 0 < c_Tcmb c.
Record eh_good (p : eh) : Prop := { g_keq : 0 < k_eq p; g_s : 0 < sound_horizon p; g_ac : 0 < alpha_c p; g_bc : 0 < beta_c p; g_node : 0 < beta_node p; g_bb : 0 < beta_b p; g_f : 0 < f_baryon p < 1 }.
Lemma sqrt_lt0 x : 0 < x -> 0 < sqrt x. Proof. apply sqrt_lt_R0. Qed.
Lemma eh_is_good c : physical c -> eh_good (eh_setup c).
Proof.
  intros (H & [Ob Om] & T).
  assert (P1 : 0 < c_Ob c * c_h c ^ 2) by (apply Rmult_lt_0_compat; [|apply pow_lt]; lra).
  assert (P2 : 0 < c_Om c * c_h c ^ 2) by (apply Rmult_lt_0_compat; [|apply pow_lt]; lra).
  assert (F : 0 < c_Ob c / c_Om c < 1).
  { split; [apply Rdiv_lt_0_compat; lra|]. apply (Rmult_lt_reg_r (c_Om c)); [lra|]. unfold Rdiv. rewrite Rmult_assoc, Rinv_l; lra. }
  assert (Th : 0 < c_Tcmb c / (27 / 10)) by lra.
  unfold eh_setup. set (W := c_Om c * c_h c ^ 2) in *. set (B := c_Ob c * c_h c ^ 2) in *. set (f := c_Ob c / c_Om c) in *. set (th := c_Tcmb c / (27 / 10)) in *.
  assert (I4 : 0 < / th ^ 4) by (apply Rinv_0_lt_compat, pow_lt, Th). assert (I2 : 0 < / th ^ 2) by (apply Rinv_0_lt_compat, pow_lt, Th).
  set (zeq := 25000 * W * / th ^ 4). assert (Zeq : 0 < zeq) by (unfold zeq; apply Rmult_lt_0_compat; lra).
  set (keq := 746 / 10000 * W * / th ^ 2). assert (Keq : 0 < keq) by (unfold keq; apply Rmult_lt_0_compat; lra).
  set (b1 := 313 / 1000 * Rpower W (- (419 / 1000)) * (1 + 607 / 1000 * Rpower W (674 / 1000))).
  assert (B1 : 0 < b1). { unfold b1. assert (A1 := Rpower_pos W (- (419 / 1000))). assert (A2 := Rpower_pos W (674 / 1000)). apply Rmult_lt_0_compat; lra. }
  set (b2 := 238 / 1000 * Rpower W (223 / 1000)).
  set (zd := 1291 * Rpower W (251 / 1000) / (1 + 659 / 1000 * Rpower W (828 / 1000)) * (1 + b1 * Rpower B b2)).
  assert (Zd : 0 < zd).
  { unfold zd. assert (A1 := Rpower_pos W (251 / 1000)). assert (A2 := Rpower_pos W (828 / 1000)). assert (A3 := Rpower_pos B b2).
    apply Rmult_lt_0_compat; [apply Rdiv_lt_0_compat; lra|]. assert (0 < b1 * Rpower B b2) by (apply Rmult_lt_0_compat; assumption). lra. }
  set (rd := 315 / 10 * B * / th ^ 4 * (1000 / (1 + zd))).
  assert (Rd : 0 < rd). { unfold rd. apply Rmult_lt_0_compat; [apply Rmult_lt_0_compat; lra|apply Rdiv_lt_0_compat; lra]. }
  set (re := 315 / 10 * B * / th ^ 4 * (1000 / zeq)).
  assert (Re : 0 < re). { unfold re. apply Rmult_lt_0_compat; [apply Rmult_lt_0_compat; lra|apply Rdiv_lt_0_compat; lra]. }
  assert (Sh : 0 < 2 / (3 * keq) * sqrt (6 / re) * ln ((sqrt (1 + rd) + sqrt (rd + re)) / (1 + sqrt re))).
  { apply Rmult_lt_0_compat; [apply Rmult_lt_0_compat; [apply Rdiv_lt_0_compat; lra|apply sqrt_lt0, Rdiv_lt_0_compat; lra]|].
    rewrite <- ln_1. apply ln_increasing; [lra|]. assert (S0 := sqrt_lt0 re Re).
    assert (S1 : 1 < sqrt (1 + rd)) by (rewrite <- sqrt_1 at 1; apply sqrt_lt_1; lra). assert (S2 : sqrt re < sqrt (rd + re)) by (apply sqrt_lt_1; lra).
    apply (Rmult_lt_reg_r (1 + sqrt re)); [lra|]. unfold Rdiv. rewrite Rmult_assoc, Rinv_l; lra. }
  constructor; cbn [k_eq sound_horizon alpha_c beta_c beta_node beta_b f_baryon].
  - exact Keq.
  - exact Sh.
  - apply Rmult_lt_0_compat; apply Rpower_pos.
  - apply Rdiv_lt_0_compat; [lra|]. match goal with |- 0 < 1 + ?u * ?v - 1 => assert (0 < u * v); [|lra] end.
    apply Rmult_lt_0_compat; [|apply Rpower_pos]. apply Rdiv_lt_0_compat; [lra|]. assert (A := Rpower_pos (458 * W) (- (708 / 1000))). lra.
  - assert (A := Rpower_pos W (435 / 1000)). lra.
  - assert (0 < (3 - 2 * f) * sqrt ((172 / 10 * W) ^ 2 + 1)). { apply Rmult_lt_0_compat; [lra|apply sqrt_lt0]. assert (Q := pow2_pos (172 / 10 * W)). lra. } lra.
  - exact F.
Qed.
(* the constant of the bound *)
Definition eh_C (c : params) : R :=
  let p := eh_setup c in let A := c_h c / (1341 / 100 * k_eq p) in let s := c_h c * sound_horizon p in
  (142 / 10 + 386 + 142 / 10 / alpha_c p + 386) * A ^ 2 + (s / (52 / 10)) ^ 2 + Rabs (alpha_b p) * (s / beta_b p) ^ 2 + s ^ 2 / 6.
Lemma C_range q : 0 < 386 / (1 + 699 / 10 * Rpower q (108 / 100)) <= 386.
Proof.
  assert (P := Rpower_pos q (108 / 100)). split; [apply Rdiv_lt_0_compat; lra|].
  apply (Rmult_le_reg_r (1 + 699 / 10 * Rpower q (108 / 100))); [lra|]. unfold Rdiv. rewrite Rmult_assoc, Rinv_l by lra. lra.
Qed.
Lemma inv1_range x : 0 <= x -> 0 < 1 / (1 + x) <= 1.
Proof. intros X. split; [apply Rdiv_lt_0_compat; lra|]. apply (Rmult_le_reg_r (1 + x)); [lra|]. unfold Rdiv. rewrite Rmult_assoc, Rinv_l by lra. lra. Qed.
Lemma mix_bound t a b B C : 0 <= t <= 1 -> 1 - B <= a <= 1 -> 1 - C <= b <= 1 -> 0 <= B -> 0 <= C -> Rabs (t * a + (1 - t) * b - 1) <= B + C.
Proof. intros. apply Rabs_le. split; nra. Qed.
Lemma eh_bound c k : physical c -> 0 < k -> Rabs (eh_T c k - 1) <= eh_C c * k ^ 2.
Proof.
  intros Ph K. destruct (eh_is_good c Ph) as [Keq Sh Ac Bc No Bb F]. destruct Ph as (H & _). unfold eh_T, eh_C. set (p := eh_setup c) in *.
  set (q := k * c_h c / (1341 / 100 * k_eq p)). set (ks := k * c_h c * sound_horizon p). set (f := f_baryon p) in *.
  assert (Kh : 0 < k * c_h c) by (apply Rmult_lt_0_compat; assumption). assert (Q : 0 < q) by (apply Rdiv_lt_0_compat; lra). assert (Ks : 0 < ks) by (apply Rmult_lt_0_compat; assumption).
  set (G := 386 / (1 + 699 / 10 * Rpower q (108 / 100))). assert (GG : 0 < G <= 386) by apply C_range.
  assert (Da : 0 < 142 / 10 / alpha_c p) by (apply Rdiv_lt_0_compat; lra).
  assert (L1 := ln_e_ge (18 / 10 * beta_c p * q)). assert (L2 := ln_e_ge (18 / 10 * q)).
  assert (H0 : 0 <= 18 / 10 * beta_c p * q) by (apply Rmult_le_pos; lra). specialize (L1 H0). specialize (L2 ltac:(lra)).
  set (a1 := ln (exp 1 + 18 / 10 * beta_c p * q)) in *. set (a2 := ln (exp 1 + 18 / 10 * q)) in *.
  destruct (ratio_bound a1 (142 / 10 + G) (142 / 10 + 386) q L1 ltac:(lra)) as [R1 R1']. destruct (ratio_bound a1 (142 / 10 / alpha_c p + G) (142 / 10 / alpha_c p + 386) q L1 ltac:(lra)) as [R2 R2'].
  destruct (ratio_bound a2 (142 / 10 + G) (142 / 10 + 386) q L2 ltac:(lra)) as [R3 R3'].
  set (f1 := a1 / (a1 + (142 / 10 + G) * q ^ 2)) in *. set (f2 := a1 / (a1 + (142 / 10 / alpha_c p + G) * q ^ 2)) in *. set (f3 := a2 / (a2 + (142 / 10 + G) * q ^ 2)) in *.
  assert (Q2 := pow2_pos q). set (Qq := q ^ 2) in *.
  (* cold dark matter *)
  assert (T1 := inv1_range ((ks / (54 / 10)) ^ 4) (pow4_pos _)). set (t := 1 / (1 + (ks / (54 / 10)) ^ 4)) in *.
  assert (M1 : 0 <= (142 / 10 + 386) * Qq) by nra. assert (M2 : 0 <= (142 / 10 / alpha_c p + 386) * Qq) by (apply Rmult_le_pos; lra).
  assert (TC := mix_bound t f1 f2 _ _ ltac:(lra) R1 R2 M1 M2). set (Tc := t * f1 + (1 - t) * f2) in *.
  (* baryons *)
  assert (U := inv1_range ((ks / (52 / 10)) ^ 2) (pow2_pos _)). assert (U2 := pow2_pos (ks / (52 / 10))). set (u := (ks / (52 / 10)) ^ 2) in *.
  assert (Tb1 : Rabs (f3 / (1 + u) - 1) <= (142 / 10 + 386) * Qq + u).
  { assert (V : 1 - u <= 1 / (1 + u)). { apply (Rmult_le_reg_r (1 + u)); [lra|]. unfold Rdiv. rewrite Rmult_assoc, Rinv_l by lra. nra. }
    replace (f3 / (1 + u)) with (f3 * (1 / (1 + u))) by (field; lra). set (g := 1 / (1 + u)) in *.
    assert (0 <= f3 * (g - (1 - u))) by (apply Rmult_le_pos; lra). assert (0 <= (1 - f3) * u) by (apply Rmult_le_pos; lra). assert (0 <= f3 * (1 - g)) by (apply Rmult_le_pos; lra).
    apply Rabs_le. split; lra. }
  set (x := k * c_h c * (sound_horizon p * Rpower (1 + (beta_node p / ks) ^ 3) (- (1 / 3)))).
  assert (X : 0 < x <= ks).
  { replace x with (ks * Rpower (1 + (beta_node p / ks) ^ 3) (- (1 / 3))) by (unfold x, ks; ring). clearbody ks. assert (A1 := Rpower_pos (1 + (beta_node p / ks) ^ 3) (- (1 / 3))).
    assert (A2 : Rpower (1 + (beta_node p / ks) ^ 3) (- (1 / 3)) <= 1).
    { apply Rpower_le1; [|lra]. assert (0 < (beta_node p / ks) ^ 3) by (apply pow_lt, Rdiv_lt_0_compat; assumption). lra. }
    set (w := Rpower (1 + (beta_node p / ks) ^ 3) (- (1 / 3))) in *. split; [apply Rmult_lt_0_compat; assumption|]. nra. }
  destruct (sinc_bound x (proj1 X)) as [S1 S2]. set (sc := sin x / x) in *.
  assert (X2 : x ^ 2 <= ks ^ 2) by (apply pow_incr; lra).
  set (e := exp (- Rpower (k * c_h c / k_silk p) (14 / 10))).
  assert (Ee : 0 < e <= 1). { split; [apply exp_pos|]. unfold e. rewrite <- exp_0. left. apply exp_increasing. assert (A := Rpower_pos (k * c_h c / k_silk p) (14 / 10)). lra. }
  destruct (cubic_fraction (beta_b p) ks Bb Ks) as [V1 V2].
  assert (Tb2 : Rabs (alpha_b p / (1 + (beta_b p / ks) ^ 3) * e) <= Rabs (alpha_b p) * (ks / beta_b p) ^ 2).
  { replace (alpha_b p / (1 + (beta_b p / ks) ^ 3) * e) with (alpha_b p * (1 / (1 + (beta_b p / ks) ^ 3) * e)) by (unfold Rdiv; ring).
    rewrite Rabs_mult. apply Rmult_le_compat_l; [apply Rabs_pos|]. rewrite Rabs_pos_eq by (apply Rmult_le_pos; lra). nra. }
  set (tb1 := f3 / (1 + u)) in *. set (tb2 := alpha_b p / (1 + (beta_b p / ks) ^ 3) * e) in *.
  assert (TB : Rabs (sc * (tb1 + tb2) - 1) <= (142 / 10 + 386) * Qq + u + Rabs (alpha_b p) * (ks / beta_b p) ^ 2 + ks ^ 2 / 6).
  { replace (sc * (tb1 + tb2) - 1) with (sc * (tb1 - 1) + sc * tb2 + (sc - 1)) by ring.
    eapply Rle_trans; [apply Rabs_triang|]. eapply Rle_trans; [apply Rplus_le_compat_r, Rabs_triang|]. rewrite 2 Rabs_mult.
    assert (A1 := Rabs_pos (tb1 - 1)). assert (A2 := Rabs_pos tb2). assert (A3 := Rabs_pos sc).
    assert (Rabs sc * Rabs (tb1 - 1) <= Rabs (tb1 - 1)) by nra. assert (Rabs sc * Rabs tb2 <= Rabs tb2) by nra. lra. }
  replace (f * (sc * (tb1 + tb2)) + (1 - f) * Tc - 1) with (f * (sc * (tb1 + tb2) - 1) + (1 - f) * (Tc - 1)) by ring.
  eapply Rle_trans; [apply Rabs_triang|]. rewrite 2 Rabs_mult, (Rabs_pos_eq f), (Rabs_pos_eq (1 - f)) by lra.
  assert (EQ : ((142 / 10 + 386 + 142 / 10 / alpha_c p + 386) * (c_h c / (1341 / 100 * k_eq p)) ^ 2 + (c_h c * sound_horizon p / (52 / 10)) ^ 2 + Rabs (alpha_b p) * (c_h c * sound_horizon p / beta_b p) ^ 2 + (c_h c * sound_horizon p) ^ 2 / 6) * k ^ 2
    = (142 / 10 + 386) * Qq + (142 / 10 / alpha_c p + 386) * Qq + u + Rabs (alpha_b p) * (ks / beta_b p) ^ 2 + ks ^ 2 / 6).
  { unfold Qq, u, ks, q. field. lra. }
  rewrite EQ. assert (W1 : 0 <= Rabs (alpha_b p) * (ks / beta_b p) ^ 2) by (apply Rmult_le_pos; [apply Rabs_pos|apply pow2_pos]). assert (W2 := pow2_pos ks).
  set (Y1 := Rabs (sc * (tb1 + tb2) - 1)) in *. set (Y2 := Rabs (Tc - 1)) in *.
  assert (f * Y1 <= f * ((142 / 10 + 386) * Qq + (142 / 10 / alpha_c p + 386) * Qq + u + Rabs (alpha_b p) * (ks / beta_b p) ^ 2 + ks ^ 2 / 6)) by (apply Rmult_le_compat_l; lra).
  assert ((1 - f) * Y2 <= (1 - f) * ((142 / 10 + 386) * Qq + (142 / 10 / alpha_c p + 386) * Qq + u + Rabs (alpha_b p) * (ks / beta_b p) ^ 2 + ks ^ 2 / 6)) by (apply Rmult_le_compat_l; lra).
  lra.
Qed.

(* ---- without wiggles ---- *)
Definition nw_C (c : params) : R :=
  let keq := 746 / 10000 * (c_Om c * c_h c ^ 2) * / (c_Tcmb c / (27 / 10)) ^ 2 in
  (142 / 10 + 731) * ((1 + / nw_alpha c) * (c_h c / (1341 / 100 * keq))) ^ 2.
Lemma nw_bound c k : physical c -> 0 < nw_alpha c -> 0 < k -> 1 - nw_C c * k ^ 2 <= nw_T c k <= 1 /\ 0 < nw_T c k.
Proof.
  intros (H & [Ob Om] & T) Al K. unfold nw_T, nw_C.
  assert (P2 : 0 < c_Om c * c_h c ^ 2) by (apply Rmult_lt_0_compat; [|apply pow_lt]; lra). set (W := c_Om c * c_h c ^ 2) in *.
  assert (I2 : 0 < / (c_Tcmb c / (27 / 10)) ^ 2) by (apply Rinv_0_lt_compat, pow_lt; lra). set (i2 := / (c_Tcmb c / (27 / 10)) ^ 2) in *.
  set (keq := 746 / 10000 * W * i2). assert (Keq : 0 < keq) by (unfold keq; apply Rmult_lt_0_compat; lra).
  set (q := k * c_h c / (1341 / 100 * keq)). assert (Q : 0 < q) by (apply Rdiv_lt_0_compat; [apply Rmult_lt_0_compat; assumption|lra]).
  set (al := nw_alpha c) in *. set (ks := k * c_h c * nw_horizon c / c_h c).
  assert (W4 := inv1_range ((43 / 100 * ks) ^ 4) (pow4_pos _)).
  replace ((1 - al) / (1 + (43 / 100 * ks) ^ 4)) with ((1 - al) * (1 / (1 + (43 / 100 * ks) ^ 4))) by (unfold Rdiv; ring).
  set (t := 1 / (1 + (43 / 100 * ks) ^ 4)) in *. set (g := al + (1 - al) * t).
  assert (Gp : 0 < g). { unfold g. nra. }
  assert (Gb : / g <= 1 + / al).
  { assert (Ia : 0 < / al) by (apply Rinv_0_lt_compat, Al). assert (E : al * / al = 1) by (apply Rinv_r; lra).
    apply (Rmult_le_reg_r g); [exact Gp|]. rewrite Rinv_l by lra. unfold g. 
    replace ((1 + / al) * (al + (1 - al) * t)) with (al + (1 - al) * t + al * / al + (1 - al) * t * / al) by ring. rewrite E.
    replace ((1 - al) * t * / al) with (t * / al - t * (al * / al)) by ring. rewrite E. assert (0 < t * / al) by (apply Rmult_lt_0_compat; lra).
    destruct (Rle_dec al 1); nra. }
  replace (q * W / (W * g)) with (q * / g) by (field; lra).
  assert (Ig : 0 < / g) by (apply Rinv_0_lt_compat, Gp). set (qe := q * / g). assert (Qe : 0 < qe) by (apply Rmult_lt_0_compat; assumption).
  assert (L := ln_2e_ge (18 / 10 * qe) ltac:(lra)).
  assert (C0 : 0 <= 142 / 10 + 731 / (1 + 625 / 10 * qe) <= 142 / 10 + 731).
  { assert (A := inv1_range (625 / 10 * qe) ltac:(lra)). replace (731 / (1 + 625 / 10 * qe)) with (731 * (1 / (1 + 625 / 10 * qe))) by (unfold Rdiv; ring). lra. }
  destruct (ratio_bound _ _ _ qe L C0) as [R1 R2]. split; [split; [|apply R1]|exact R2].
  eapply Rle_trans; [|apply R1]. apply Rplus_le_compat_l, Ropp_le_contravar. rewrite Rmult_assoc. apply Rmult_le_compat_l; [lra|].
  rewrite <- Rpow_mult_distr. apply pow_incr. split; [lra|]. unfold qe. replace ((1 + / al) * (c_h c / (1341 / 100 * keq)) * k) with (q * (1 + / al)) by (unfold q; field; lra).
  apply Rmult_le_compat_l; lra.
Qed.
