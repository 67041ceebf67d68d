(* Displacements of the reconstruction. *)
From Verif Require Import Base.
From Coq Require Import Reals Lra.
From Verif Require Import RandModel RandProofs ThreeModel ThreeProofs SkyModel ConvModel MockModel MockSpec MockProofs MockMean DftModel DftSpec DftProofs DftMain RecModel.
Local Open Scope R_scope.

(* ---- generic ---- *)
Lemma r2c_inverse_at N C m : is_mode N m -> C (opposite N m) = conj (C m) -> r2c N (inverse N C) m = C m.
Proof.
  intros M O. unfold inverse. rewrite r2c_c2r by exact M.
  assert (E1 : restore N C m = C m). { unfold restore. destruct (stored N m); [reflexivity|]. change (minus N m) with (opposite N m). rewrite O. unfold conj. cbn [fst snd]. rewrite Ropp_involutive. destruct (C m); reflexivity. }
  assert (E2 : restore N C (opposite N m) = conj (C m)). { unfold restore. destruct (stored N (opposite N m)); [exact O|]. change (minus N (opposite N m)) with (opposite N (opposite N m)). rewrite (opposite_twice N m M). reflexivity. }
  rewrite E1, E2. unfold half_of, conj. cbn [fst snd]. destruct (C m) as [a b]. cbn [fst snd]. f_equal; field.
Qed.
Lemma inverse_mean N C : mesh_size N -> grid_mean N (inverse N C) = fst (C (0, 0, 0)%nat).
Proof. intros Z. unfold inverse. rewrite mean_c2r by (apply zero_is; exact Z). unfold restore. replace (stored N (0, 0, 0)%nat) with true by (destruct N as [[n0 n1] n2]; reflexivity). reflexivity. Qed.
Lemma inverse_ext N F G x : (forall m, is_mode N m -> F m = G m) -> inverse N F x = inverse N G x.
Proof. intros H. apply c2r_ext. intros m M. unfold restore. destruct (stored N m); [apply H; exact M|]. change (minus N m) with (opposite N m). rewrite (H _ (opposite_mode N m M)). reflexivity. Qed.
Definition negp (k : point) : point := let '(a, b, c) := k in (- a, - b, - c).
Lemma kvec_opposite N L m : is_mode N m -> below_nyquist N m -> kvec N L (opposite N m) = negp (kvec N L m).
Proof. destruct N as [[n0 n1] n2], L as [[l0 l1] l2], m as [[i j] k]. intros (A & B & C) (D & E & F). unfold kvec, opposite, negp, kaxis. rewrite !opp_freq, !opp_IZR by assumption. unfold Rdiv. f_equal; [f_equal|]; ring. Qed.
Lemma norm2_neg k : norm2 (negp k) = norm2 k.
Proof. destruct k as [[a b] c]. unfold norm2, negp. ring. Qed.

Section Gain.
Variables (N : mode) (L los : point) (bias f radius : R).
Notation safe := safe2.
Definition gain (d : nat) (k : point) : R := comp3 d k / safe k * (/ frac los bias f k * exp (- (/ 2) * safe k * (radius * radius))).
Lemma kernel_gain d k v : kernel los bias f radius d k v = cmul (0, 1) (cscale (gain d k) v).
Proof. unfold kernel, gain, cmul, cscale. cbn [fst snd]. f_equal; ring. Qed.
Lemma gain_neg d k : gain d (negp k) = - gain d k.
Proof.
  unfold gain. assert (S2 : safe (negp k) = safe k) by (unfold safe2; rewrite norm2_neg; reflexivity).
  assert (F2 : frac los bias f (negp k) = frac los bias f k). { unfold frac, mu_of. rewrite S2. destruct k as [[a b] c], los as [[x y] z]. unfold dot3, negp. unfold Rdiv. ring. }
  rewrite S2, F2. assert (C : comp3 d (negp k) = - comp3 d k) by (destruct k as [[a b] c]; destruct d as [|[|d]]; reflexivity). rewrite C. unfold Rdiv. ring.
Qed.
Lemma gain_zero d : gain d (0, 0, 0) = 0.
Proof. unfold gain. replace (comp3 d (0, 0, 0)) with 0 by (destruct d as [|[|d]]; reflexivity). unfold Rdiv. ring. Qed.
End Gain.

Lemma displacement_mode N L los b f r delta d m : is_mode N m -> below_nyquist N m ->
  r2c N (displacement N L los b f r delta d) m = cmul (0, 1) (cscale (gain los b f r d (kvec N L m)) (r2c N delta m)).
Proof.
  intros M B. unfold displacement. rewrite r2c_inverse_at; [apply kernel_gain|exact M|].
  rewrite !kernel_gain, (kvec_opposite N L m M B), gain_neg, (r2c_hermitian N delta m M). unfold cmul, cscale, conj. cbn [fst snd]. f_equal; ring.
Qed.
Lemma safe_pos k : k <> (0, 0, 0) -> safe2 k = norm2 k /\ 0 < norm2 k.
Proof.
  intros H. destruct k as [[a b] c]. assert (P : 0 <= norm2 (a, b, c)) by (unfold norm2; nra). assert (Z : norm2 (a, b, c) <> 0). { intros E. apply norm2_zero in E. destruct E as (-> & -> & ->). apply H. reflexivity. }
  split; [|lra]. unfold safe2. destruct (ceq0 (norm2 (a, b, c))) eqn:E; [apply ceq0_iff in E; contradiction|reflexivity].
Qed.

(* C279: the displacement solves the linear continuity equation in redshift space *)
Definition unit3 (n : point) : Prop := let '(x, y, z) := n in x * x + y * y + z * z = 1.
(* (a, b, c) . (u, v, w) for complex u, v, w *)
Definition cdot (p : point) (u v w : comp) : comp := let '(a, b, c) := p in cadd (cscale a u) (cadd (cscale b v) (cscale c w)).
Definition inner (p q : point) : R := let '(a, b, c) := p in let '(x, y, z) := q in a * x + b * y + c * z.
Theorem C279_continuity : forall N L los bias f radius delta m k, positive3 L -> unit3 los -> 0 < bias -> 0 <= f ->
  is_mode N m -> below_nyquist N m -> m <> (0, 0, 0)%nat -> wavevector N L m k ->
  let s d := r2c N (displacement N L los bias f radius delta d) m in
  (* - b div s - f n . grad (n . s) = delta smoothed by a Gaussian *)
  cmul (0, -1) (cadd (cscale bias (cdot k (s 0%nat) (s 1%nat) (s 2%nat))) (cscale (f * inner k los) (cdot los (s 0%nat) (s 1%nat) (s 2%nat))))
    = cscale (exp (- (inner k k * (radius * radius) / 2))) (r2c N delta m) /\
  (* curl s = 0 *)
  (forall i j, cscale (axis i k) (s j) = cscale (axis j k) (s i)).
Proof.
  intros N L los b f r delta m k P U B F M Y Z W s. assert (K := wave_kvec N L m k M W). assert (Ks : k <> (0, 0, 0)). { intros E. apply Z. apply (kvec0 N L m P M). congruence. }
  assert (S1 : forall d, s d = cmul (0, 1) (cscale (gain los b f r d k) (r2c N delta m))). { intros d. unfold s. rewrite K. apply displacement_mode; assumption. }
  destruct (safe_pos k Ks) as (S2 & S3). split.
  - rewrite !S1. unfold gain, frac, mu_of. rewrite S2. set (v := r2c N delta m).
    assert (Q : sqrt (norm2 k) * sqrt (norm2 k) = norm2 k) by (apply sqrt_sqrt; lra). assert (Q0 : 0 < sqrt (norm2 k)) by (apply sqrt_lt_R0; exact S3).
    set (E := exp (- (/ 2) * norm2 k * (r * r))). assert (EE : exp (- (inner k k * (r * r) / 2)) = E). { unfold E. f_equal. destruct k as [[a b'] c]. unfold inner, norm2. field. }
    rewrite EE. set (q := sqrt (norm2 k)) in *.
    assert (FR : b * (1 + f / b * (dot3 k los / q * (dot3 k los / q))) = (b * norm2 k + f * (dot3 k los * dot3 k los)) / norm2 k). { rewrite <- Q. field. lra. }
    rewrite FR. assert (DP : 0 < b * norm2 k + f * (dot3 k los * dot3 k los)). { assert (0 < b * norm2 k) by (apply Rmult_lt_0_compat; assumption). assert (0 <= f * (dot3 k los * dot3 k los)) by (apply Rmult_le_pos; [exact F|apply Rle_0_sqr]). lra. }
    destruct k as [[k0 k1] k2], los as [[n0 n1] n2]. cbn [comp3]. unfold inner, cdot, cadd, cmul, cscale. cbn [fst snd]. cbn [dot3 norm2] in *.
    set (D := b * (k0 * k0 + k1 * k1 + k2 * k2) + f * ((k0 * n0 + k1 * n1 + k2 * n2) * (k0 * n0 + k1 * n1 + k2 * n2))) in *.
    set (g := / D * E). 
    assert (G : forall kd, kd / (k0 * k0 + k1 * k1 + k2 * k2) * (/ (D / (k0 * k0 + k1 * k1 + k2 * k2)) * E) = kd * g) by (intros kd; unfold g; field; lra).
    rewrite !G. assert (DG : D * g = E) by (unfold g; field; lra). f_equal.
    + transitivity (D * g * fst v); [unfold D; ring|rewrite DG; reflexivity].
    + transitivity (D * g * snd v); [unfold D; ring|rewrite DG; reflexivity].
  - intros i j. rewrite !S1. unfold gain, comp3, axis, cmul, cscale. cbn [fst snd]. f_equal; unfold Rdiv; ring.
Qed.
Print Assumptions C279_continuity.
Theorem C279_mean : forall N L los bias f radius delta d, mesh_size N -> grid_mean N (displacement N L los bias f radius delta d) = 0.
Proof.
  intros N L los b f r delta d Z. unfold displacement. rewrite inverse_mean by exact Z. rewrite kernel_gain.
  assert (K : kvec N L (0, 0, 0)%nat = (0, 0, 0)). { destruct N as [[n0 n1] n2], L as [[l0 l1] l2]. destruct Z as (A & B & C). unfold kvec, kaxis, freq. rewrite !Nat.mul_0_r. assert (E : forall n, (0 < n)%nat -> (0 <? n)%nat = true) by (intros; apply Nat.ltb_lt; assumption). rewrite !E by assumption. cbn [Z.of_nat]. unfold Rdiv. rewrite Rmult_0_r, !Rmult_0_l. reflexivity. }
  rewrite K, gain_zero. unfold cmul, cscale. cbn [fst snd]. ring.
Qed.
Print Assumptions C279_mean.
(* no mode, not even the one without a wavelength, is divided by zero: the three divisors are positive *)
Theorem C279_divisors : forall los bias f k, 0 < bias -> 0 <= f -> 0 < safe2 k /\ 0 < sqrt (safe2 k) /\ 0 < frac los bias f k.
Proof.
  intros los bias f k B F. assert (P : 0 < safe2 k).
  { unfold safe2. destruct (ceq0 (norm2 k)) eqn:E; [lra|]. assert (H : norm2 k <> 0) by (intros Z; apply ceq0_iff in Z; congruence).
    assert (0 <= norm2 k) by (destruct k as [[a b] c]; unfold norm2; nra). lra. }
  split; [exact P|]. split; [apply sqrt_lt_R0; exact P|]. unfold frac. apply Rmult_lt_0_compat; [exact B|].
  assert (0 <= f / bias) by (apply Rmult_le_pos; [exact F|apply Rlt_le, Rinv_0_lt_compat; exact B]).
  assert (0 <= f / bias * (mu_of los k * mu_of los k)) by (apply Rmult_le_pos; [assumption|apply Rle_0_sqr]). lra.
Qed.
Print Assumptions C279_divisors.
Example C279_case : positive3 (2, 3, 5) /\ unit3 (3 / 5, 0, 4 / 5) /\ is_mode (4, 5, 6)%nat (1, 4, 2)%nat /\ below_nyquist (4, 5, 6)%nat (1, 4, 2)%nat
  /\ wavevector (4, 5, 6)%nat (2, 3, 5) (1, 4, 2)%nat (2 * PI * 1 / 2, 2 * PI * -1 / 3, 2 * PI * 2 / 5).
Proof.
  split; [cbn; lra|]. split; [unfold unit3; lra|]. split; [cbn; lia|]. split; [cbn; lia|]. exists 1%Z, (-1)%Z, 2%Z.
  split; [split; [exists 0%Z|]; cbn; lia|]. split; [split; [exists (-1)%Z|]; cbn; lia|]. split; [split; [exists 0%Z|]; cbn; lia|]. reflexivity.
Qed.

(* C280: for an overdensity A cos(kx + phi) the displacement is - A W k / (k^2 (b + f mu^2)) sin(kx + phi) *)
Theorem C280_plane_wave : forall N L los bias f radius c A phi m k d x, positive3 L -> unit3 los -> 0 < bias -> 0 <= f ->
  is_mode N m -> below_nyquist N m -> m <> (0, 0, 0)%nat -> wavevector N L m k -> is_mode N x ->
  displacement N L los bias f radius (fun x => c + A * cos (phi + angle N m x)) d x =
    - (A * exp (- (inner k k * (radius * radius) / 2)) * axis d k / (bias * inner k k + f * (inner k los * inner k los))) * sin (phi + angle N m x).
Proof.
  intros N L los b f r c A phi m k d x P U B F M Y Z W X. assert (K := wave_kvec N L m k M W). assert (Ks : k <> (0, 0, 0)). { intros E. apply Z. apply (kvec0 N L m P M). congruence. }
  destruct (safe_pos k Ks) as (S2 & S3). set (g := gain los b f r d k).
  assert (G : g = exp (- (inner k k * (r * r) / 2)) * axis d k / (b * inner k k + f * (inner k los * inner k los))).
  { unfold g, gain, frac, mu_of. rewrite S2. assert (Q : sqrt (norm2 k) * sqrt (norm2 k) = norm2 k) by (apply sqrt_sqrt; lra). assert (Q0 : 0 < sqrt (norm2 k)) by (apply sqrt_lt_R0; exact S3).
    assert (I : inner k k = norm2 k) by (destruct k as [[a b'] e]; reflexivity). assert (J : inner k los = dot3 k los) by (destruct k as [[a b'] e], los as [[u v] w]; reflexivity). rewrite I, J.
    replace (- / 2 * norm2 k * (r * r)) with (- (norm2 k * (r * r) / 2)) by field. assert (A0 : comp3 d k = axis d k) by (destruct k as [[a b'] e]; destruct d as [|[|d']]; reflexivity). rewrite A0.
    assert (FR : b * (1 + f / b * (dot3 k los / sqrt (norm2 k) * (dot3 k los / sqrt (norm2 k)))) = (b * norm2 k + f * (dot3 k los * dot3 k los)) / norm2 k). { set (q := sqrt (norm2 k)) in *. rewrite <- Q. field. lra. }
    rewrite FR. assert (DP : 0 < b * norm2 k + f * (dot3 k los * dot3 k los)). { assert (0 < b * norm2 k) by (apply Rmult_lt_0_compat; assumption). assert (0 <= f * (dot3 k los * dot3 k los)) by (apply Rmult_le_pos; [exact F|apply Rle_0_sqr]). lra. }
    field. lra. }
  transitivity (inverse N (r2c N (wav N m (A * g) (phi + PI / 2))) x).
  - unfold displacement. apply inverse_ext. intros q Q. rewrite kernel_gain. destruct (is_zero q) eqn:ZQ.
    + apply is_zero_iff in ZQ. subst q. rewrite (proj2 (kvec0 N L (0, 0, 0)%nat P Q) eq_refl), gain_zero, r2c_wav by assumption.
      assert (N1 : eqm m (0, 0, 0)%nat = false) by (apply not_true_iff_false; rewrite eqm_iff; exact Z). assert (N2 : eqm m (opposite N (0, 0, 0)%nat) = false).
      { apply not_true_iff_false. rewrite eqm_iff. intros E. apply Z. apply is_zero_iff. rewrite E, (opposite_zero N _ Q). reflexivity. }
      rewrite N1, N2. unfold cmul, cscale, cadd. cbn [fst snd]. f_equal; ring.
    + assert (QZ : q <> (0, 0, 0)%nat) by (intros E; apply is_zero_iff in E; congruence).
      assert (RC : r2c N (fun x => c + A * cos (phi + angle N m x)) q = r2c N (wav N m A phi) q).
      { transitivity (r2c N (fun x => 1 * wav N m A phi x + c) q); [apply r2c_ext; intros y _; unfold wav; ring|]. rewrite (r2c_offset N _ 1 c q Q QZ). unfold cscale. destruct (r2c N (wav N m A phi) q). cbn [fst snd]. f_equal; ring. }
      rewrite RC, !r2c_wav by assumption. assert (CS : cos (phi + PI / 2) = - sin phi) by (rewrite cos_plus, cos_PI2, sin_PI2; ring). assert (SS : sin (phi + PI / 2) = cos phi) by (rewrite sin_plus, cos_PI2, sin_PI2; ring). rewrite CS, SS.
      destruct (eqm m q) eqn:E1.
      * apply eqm_iff in E1. subst q. rewrite <- K. fold g. destruct (eqm m (opposite N m)) eqn:E2.
        -- apply eqm_iff in E2. assert (G0 : g = 0). { assert (T := gain_neg los b f r d k). rewrite K, <- (kvec_opposite N L m M Y), <- E2, <- K in T. fold g in T. lra. } rewrite G0. unfold cmul, cscale, cadd. cbn [fst snd]. f_equal; field.
        -- unfold cmul, cscale, cadd. cbn [fst snd]. f_equal; field.
      * destruct (eqm m (opposite N q)) eqn:E2; [|unfold cmul, cscale, cadd; cbn [fst snd]; f_equal; ring]. apply eqm_iff in E2.
        assert (K2 : q = opposite N m) by (rewrite E2, opposite_twice by exact Q; reflexivity). rewrite K2, (kvec_opposite N L m M Y), gain_neg, <- K. fold g. unfold cmul, cscale, cadd. cbn [fst snd]. f_equal; field.
  - rewrite inverse_r2c by exact X. unfold wav. replace (phi + PI / 2 + angle N m x) with ((phi + angle N m x) + PI / 2) by ring. rewrite cos_plus, cos_PI2, sin_PI2, G. unfold Rdiv. ring.
Qed.
Print Assumptions C280_plane_wave.
(* a quarter of a wave beyond the maximum the displacement points back to it *)
Example C280_case : displacement (1, 1, 4)%nat (1, 1, 2 * PI) (0, 0, 1) 1 1 0 (fun x => 1 + 1 * cos (0 + angle (1, 1, 4)%nat (0, 0, 1)%nat x)) 2 (0, 0, 1)%nat = - (1 / 2).
Proof.
  assert (P := PI_RGT_0). rewrite (C280_plane_wave (1, 1, 4)%nat (1, 1, 2 * PI) (0, 0, 1) 1 1 0 1 1 0 (0, 0, 1)%nat (0, 0, 1) 2 (0, 0, 1)%nat).
  - cbn [axis inner]. replace (- ((0 * 0 + 0 * 0 + 1 * 1) * (0 * 0) / 2)) with 0 by field. rewrite exp_0. replace (0 + angle (1, 1, 4)%nat (0, 0, 1)%nat (0, 0, 1)%nat) with (PI / 2); [rewrite sin_PI2; field|]. unfold angle. cbn. field.
  - cbn. lra.
  - unfold unit3. lra.
  - lra.
  - lra.
  - cbn. lia.
  - cbn. lia.
  - congruence.
  - exists 0%Z, 0%Z, 1%Z. split; [split; [exists 0%Z|]; cbn; lia|]. split; [split; [exists 0%Z|]; cbn; lia|]. split; [split; [exists 0%Z|]; cbn; lia|]. f_equal; [f_equal|]; field; lra.
  - cbn. lia.
Qed.
