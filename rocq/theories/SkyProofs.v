(* Lemmas about the model of transform.py. *)
From Verif Require Import Base.
From Coq Require Import Reals Lra Lia.
From Verif Require Import RandModel ThreeModel ThreeProofs SkyModel SkySpec.
Local Open Scope R_scope.

Ltac rlt a b := let H := fresh "H" in destruct (rltb a b) eqn:H; [apply rltb_iff in H|apply Bool.not_true_iff_false in H; rewrite rltb_iff in H].
Lemma sqr_pos x : x <> 0 -> 0 < x * x. Proof. intros H. destruct (Rdichotomy _ _ H); nra. Qed.
Lemma hypot_pos x y : 0 <= hypot x y. Proof. apply sqrt_pos. Qed.
Lemma hypot_sqr x y : hypot x y * hypot x y = x * x + y * y. Proof. apply sqrt_sqrt. nra. Qed.
Lemma hypot_axis y : hypot 0 y = Rabs y.
Proof. unfold hypot. replace (0 * 0 + y * y) with (Rsqr y) by (unfold Rsqr; ring). apply sqrt_Rsqr_abs. Qed.
Lemma hypot_scale x y : x <> 0 -> hypot x y = Rabs x * sqrt (1 + (y / x)²).
Proof.
  intros N. unfold hypot. rewrite <- sqrt_Rsqr_abs. rewrite <- sqrt_mult; [|apply Rle_0_sqr|pose proof (Rle_0_sqr (y / x)); lra].
  f_equal. unfold Rsqr. field. exact N.
Qed.
(* polar coordinates *)
Lemma arctan2_ok x y : hypot x y * cos (arctan2 y x) = x /\ hypot x y * sin (arctan2 y x) = y /\ - PI < arctan2 y x <= PI.
Proof.
  pose proof PI_RGT_0 as P. pose proof (atan_bound (y / x)) as B. unfold arctan2.
  assert (Q : 0 < sqrt (1 + (y / x)²)) by (apply sqrt_lt_R0; pose proof (Rle_0_sqr (y / x)); lra).
  rlt 0 x.
  { rewrite hypot_scale, Rabs_pos_eq, cos_atan, sin_atan by lra. split; [field; lra|]. split; [field; lra|lra]. }
  rlt x 0.
  { rewrite hypot_scale, Rabs_left by lra.
    assert (S : y / x <= 0 /\ 0 <= atan (y / x) + PI /\ 0 <= y \/ 0 < y / x /\ y < 0).
    { destruct (Rle_lt_dec 0 y) as [Y|Y]; [left|right].
      - split; [|split; [lra|exact Y]]. unfold Rdiv. pose proof (Rinv_lt_0_compat x H0). nra.
      - split; [|exact Y]. unfold Rdiv. pose proof (Rinv_lt_0_compat x H0). nra. }
    destruct (rleb 0 y) eqn:Y; [apply rleb_iff in Y|apply Bool.not_true_iff_false in Y; rewrite rleb_iff in Y].
    - rewrite neg_cos, neg_sin, cos_atan, sin_atan. split; [field; lra|]. split; [field; lra|].
      split; [lra|]. destruct S as [(S & _)|[_ S]]; [|lra]. destruct (Req_dec (y / x) 0) as [Z|Z]; [rewrite Z, atan_0; lra|]. pose proof (atan_increasing (y / x) 0 ltac:(lra)) as I. rewrite atan_0 in I. lra.
    - replace (atan (y / x) - PI) with (- (PI - atan (y / x))) by ring. rewrite cos_neg, sin_neg, Rtrigo_facts.cos_pi_minus, Rtrigo_facts.sin_pi_minus, cos_atan, sin_atan.
      split; [field; lra|]. split; [field; lra|]. destruct S as [(_ & _ & S)|[S _]]; [lra|]. pose proof (atan_increasing 0 (y / x) S) as I. rewrite atan_0 in I. lra. }
  assert (x = 0) by lra. subst x. rewrite hypot_axis.
  rlt 0 y; [rewrite Rabs_pos_eq, cos_PI2, sin_PI2 by lra; repeat split; lra|].
  rlt y 0; [rewrite Rabs_left, cos_neg, sin_neg, cos_PI2, sin_PI2 by lra; repeat split; lra|].
  assert (y = 0) by lra. subst y. rewrite Rabs_R0. repeat split; lra.
Qed.
Lemma arctan2_half z s : 0 <= s -> - PI / 2 <= arctan2 z s <= PI / 2.
Proof.
  intros S. pose proof PI_RGT_0 as P. unfold arctan2. pose proof (atan_bound (z / s)) as B. rlt 0 s; [lra|]. rlt s 0; [lra|]. rlt 0 z; [lra|]. rlt z 0; lra.
Qed.

Lemma fmod_ok x m : 0 < m -> 0 <= fmod x m < m /\ exists k, x = fmod x m + m * IZR k.
Proof.
  intros M. destruct (base_Int_part (x / m)) as [A B]. unfold fmod. split; [|exists (Int_part (x / m)); ring].
  assert (E : x = m * (x / m)) by (field; lra). split; [|]; rewrite E at 1; nra.
Qed.
Lemma trig_period a k : cos (a + 2 * PI * IZR k) = cos a /\ sin (a + 2 * PI * IZR k) = sin a.
Proof.
  assert (N : forall (n : nat) b, cos (b + 2 * PI * INR n) = cos b /\ sin (b + 2 * PI * INR n) = sin b).
  { intros n b. split; [rewrite <- (cos_period b n)|rewrite <- (sin_period b n)]; f_equal; ring. }
  destruct (Z_le_gt_dec 0 k) as [K|K].
  - destruct (IZN k K) as [n ->]. rewrite <- INR_IZR_INZ. apply N.
  - destruct (IZN (- k) ltac:(lia)) as [n E]. assert (E' : IZR k = - INR n) by (rewrite INR_IZR_INZ, <- E, opp_IZR; ring). rewrite E'.
    destruct (N n (a + 2 * PI * - INR n)) as [C S]. rewrite <- C, <- S. split; f_equal; ring.
Qed.
Lemma angle_unique a b : 0 <= a < 2 * PI -> 0 <= b < 2 * PI -> cos a = cos b -> sin a = sin b -> a = b.
Proof.
  intros A B C S. assert (E : cos (a - b) = 1) by (rewrite cos_minus, C, S; pose proof (sin2_cos2 b) as Q; unfold Rsqr in Q; lra).
  assert (D : forall u, 0 <= u < 2 * PI -> cos u = 1 -> u = 0).
  { intros u U Cu. destruct (Req_dec u 0) as [|N]; [assumption|exfalso]. assert (SG : 0 < sin (u / 2)) by (apply sin_gt_0; lra).
    pose proof (cos_2a_sin (u / 2)) as Q. replace (2 * (u / 2)) with u in Q by field. nra. }
  destruct (Rle_lt_dec b a) as [L|L].
  - assert (a - b = 0) by (apply D; [lra|exact E]). lra.
  - assert (b - a = 0) by (apply D; [lra|rewrite <- E, <- cos_neg; f_equal; ring]). lra.
Qed.

Lemma degree_pos : 0 < degree. Proof. unfold degree. pose proof PI_RGT_0. lra. Qed.
Lemma rad2deg_degree t : rad2deg t * degree = t.
Proof. unfold rad2deg, degree. pose proof PI_RGT_0. field. lra. Qed.
Lemma degree_360 : 360 * degree = 2 * PI. Proof. unfold degree. field. Qed.
Lemma degree_90 : 90 * degree = PI / 2. Proof. unfold degree. field. Qed.

Lemma equatorial_ok p o : let '(ra, dec) := equatorial p o in 0 <= ra < 360 /\ -90 <= dec <= 90 /\ p = toward o (separation p o) ra dec.
Proof.
  destruct p as [[p0 p1] p2], o as [[o0 o1] o2]. unfold equatorial. cbn [minus3]. set (x := p0 - o0). set (y := p1 - o1). set (z := p2 - o2).
  pose proof degree_pos as DP. pose proof degree_90 as D90. pose proof degree_360 as D360.
  destruct (arctan2_ok x y) as (C & S & R). destruct (arctan2_ok (hypot x y) z) as (C' & S' & _). pose proof (arctan2_half z (hypot x y) (hypot_pos x y)) as B.
  destruct (fmod_ok (rad2deg (arctan2 y x) - 360) 360 ltac:(lra)) as [F [k K]]. set (ra := fmod _ _) in *. set (dec := rad2deg (arctan2 z (hypot x y))).
  assert (Dd : dec * degree = arctan2 z (hypot x y)) by apply rad2deg_degree.
  split; [exact F|]. split; [split; nra|].
  assert (T : ra * degree = arctan2 y x + 2 * PI * IZR (- (k + 1))).
  { assert (ra = rad2deg (arctan2 y x) - 360 - 360 * IZR k) by lra. rewrite H. rewrite opp_IZR, plus_IZR. transitivity (rad2deg (arctan2 y x) * degree + (360 * degree) * - (IZR k + 1)); [ring|]. rewrite rad2deg_degree, degree_360. reflexivity. }
  assert (SEP : separation (p0, p1, p2) (o0, o1, o2) = hypot (hypot x y) z).
  { unfold separation. unfold hypot at 1. rewrite hypot_sqr. f_equal. }
  unfold toward. rewrite SEP, T, Dd. destruct (trig_period (arctan2 y x) (- (k + 1))) as [-> ->]. rewrite C', C, S, S'. unfold x, y, z. f_equal; [f_equal|]; ring.
Qed.
Lemma toward_separation o r ra dec : 0 <= r -> separation (toward o r ra dec) o = r.
Proof.
  intros H. destruct o as [[a b] c]. unfold toward, separation. set (C := cos (dec * degree)). set (s := sin (dec * degree)). set (c' := cos (ra * degree)). set (s' := sin (ra * degree)).
  pose proof (sin2_cos2 (dec * degree)) as A. pose proof (sin2_cos2 (ra * degree)) as B. fold C s in A. fold c' s' in B. unfold Rsqr in A, B.
  replace (_ + _ + _) with (r * r * (C * C * (s' * s' + c' * c') + s * s)) by ring. rewrite B. replace (C * C * 1 + s * s) with 1 by lra. rewrite Rmult_1_r. apply sqrt_square, H.
Qed.
(* equatorial coordinates are unique away from the poles *)
Lemma toward_unique o r ra dec ra' dec' : 0 < r -> -90 < dec < 90 -> -90 <= dec' <= 90 -> 0 <= ra < 360 -> 0 <= ra' < 360 ->
  toward o r ra dec = toward o r ra' dec' -> ra = ra' /\ dec = dec'.
Proof.
  intros H D D' A A' E. pose proof degree_pos as DP. pose proof degree_90 as D90. pose proof degree_360 as D360. destruct o as [[a b] c]. unfold toward in E. injection E as E1 E2 E3.
  assert (CP : 0 < cos (dec * degree)) by (apply cos_gt_0; nra).
  assert (S : sin (dec * degree) = sin (dec' * degree)) by (apply (Rmult_eq_reg_l r); lra).
  assert (DE : dec * degree = dec' * degree) by (apply sin_inj; try nra; exact S).
  assert (dec = dec') by (apply (Rmult_eq_reg_r degree); lra). subst dec'. split; [|reflexivity].
  assert (RC : r * cos (dec * degree) <> 0) by (apply Rmult_integral_contrapositive; split; lra).
  apply (Rmult_eq_reg_r degree); [|lra]. apply angle_unique; [nra|nra| |]; apply (Rmult_eq_reg_l (r * cos (dec * degree))); lra.
Qed.
Lemma equatorial_toward o r ra dec : 0 < r -> -90 < dec < 90 -> 0 <= ra < 360 -> equatorial (toward o r ra dec) o = (ra, dec).
Proof.
  intros H D A. pose proof (equatorial_ok (toward o r ra dec) o) as Q. destruct (equatorial (toward o r ra dec) o) as [ra' dec']. destruct Q as (A' & D' & E). rewrite toward_separation in E by lra.
  destruct (toward_unique o r ra dec ra' dec' H D D' A A' E) as [-> ->]. reflexivity.
Qed.
