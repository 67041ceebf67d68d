From Verif Require Import Base.
From Coq Require Import Reals Lra.
From Verif Require Import RandModel RandProofs ThreeModel ThreeProofs SkyModel ConvModel MockModel MockSpec MockProofs MockMean DftModel DftSpec DftProofs DftMain.
Local Open Scope R_scope.
Local Notation length := List.length.

Definition turn3 (N m : mode) : R := let '(n0, n1, n2) := N in let '(i, j, k) := m in IZR (freq n0 i) / INR n0 + IZR (freq n1 j) / INR n1 + IZR (freq n2 k) / INR n2.
Lemma kh_turn N L m : positive3 L -> mesh_size N -> kh N L m = 2 * PI * turn3 N m.
Proof.
  destruct N as [[n0 n1] n2], L as [[l0 l1] l2], m as [[i j] k]. intros (A & B & C) (D & E & F). unfold kh, turn3, kaxis.
  assert (0 < INR n0) by (apply lt_0_INR; lia). assert (0 < INR n1) by (apply lt_0_INR; lia). assert (0 < INR n2) by (apply lt_0_INR; lia). field. repeat split; lra.
Qed.
Lemma turn3_opposite N m : is_mode N m -> below_nyquist N m -> turn3 N (opposite N m) = - turn3 N m.
Proof. destruct N as [[n0 n1] n2], m as [[i j] k]. intros (A & B & C) (D & E & F). unfold turn3, opposite. rewrite !opp_freq by assumption. rewrite !opp_IZR. unfold Rdiv. ring. Qed.
Lemma kh_opposite N L m : positive3 L -> is_mode N m -> below_nyquist N m -> kh N L (opposite N m) = - kh N L m.
Proof. intros P M B. assert (Z := mode_size N m M). rewrite !kh_turn, turn3_opposite by assumption. ring. Qed.
Lemma combine2_opposite N L f g m : positive3 L -> is_mode N m -> below_nyquist N m -> combine2 N L (r2c N f) (r2c N g) (opposite N m) = conj (combine2 N L (r2c N f) (r2c N g) m).
Proof.
  intros P M B. unfold combine2. rewrite !(r2c_hermitian N _ m M), (kh_opposite N L m P M B). replace (/ 2 * - kh N L m) with (- (/ 2 * kh N L m)) by ring. rewrite cos_neg, sin_neg.
  unfold cadd, cmul, cscale, conj. cbn [fst snd]. f_equal; ring.
Qed.
Lemma r2c_interlace N L f g m : positive3 L -> is_mode N m -> below_nyquist N m -> r2c N (interlace N L f g) m = combine2 N L (r2c N f) (r2c N g) m.
Proof.
  intros P M B. unfold interlace, inverse. rewrite r2c_c2r by exact M. assert (O := combine2_opposite N L f g m P M B). set (C := combine2 N L (r2c N f) (r2c N g)) in *.
  assert (E1 : restore N C m = C m). { unfold restore. destruct (stored N m); [reflexivity|]. change (minus N m) with (opposite N m). rewrite O. unfold conj. cbn [fst snd]. rewrite Ropp_involutive. destruct (C m); reflexivity. }
  assert (E2 : restore N C (opposite N m) = conj (C m)). { unfold restore. destruct (stored N (opposite N m)); [exact O|]. change (minus N (opposite N m)) with (opposite N (opposite N m)). rewrite (opposite_twice N m M). reflexivity. }
  rewrite E1, E2. unfold half_of, conj. cbn [fst snd]. destruct (C m) as [a b]. cbn [fst snd]. f_equal; field.
Qed.
(* waves *)
Lemma wave_image N m q s : is_mode N m -> image N m q s -> forall x, same (wave N q (at_cell x)) (angle N m x) /\ wave N q (at_half x) = wave N q (at_cell x) - PI * turn3 N m - PI * IZR (order s).
Proof.
  destruct N as [[n0 n1] n2], m as [[i j] k], q as [[q0 q1] q2], s as [[s0 s1] s2]. intros (A & B & C) (f0 & f1 & f2 & F0 & F1 & F2 & -> & -> & ->) [[a b] c].
  rewrite (frequency_freq n0 i f0 A F0), (frequency_freq n1 j f1 B F1), (frequency_freq n2 k f2 C F2).
  assert (0 < INR n0) by (apply lt_0_INR; lia). assert (0 < INR n1) by (apply lt_0_INR; lia). assert (0 < INR n2) by (apply lt_0_INR; lia). unfold wave, at_cell, at_half, angle, turn3, order. split.
  - assert (G : forall n i a s, (0 < n)%nat -> (i < n)%nat -> turns (IZR (freq n i + Z.of_nat n * s) * INR a / INR n) (INR (i * a) / INR n)).
    { intros n i' a' s' P Q. rewrite !INR_IZR_INZ with (n := a'), (INR_IZR_INZ (i' * a')), <- mult_IZR. apply turns_div; [exact P|]. rewrite Nat2Z.inj_mul.
      destruct (freq_frequency n i' Q) as ((u & ->) & _). exists ((u + s') * Z.of_nat a')%Z. ring. }
    apply same_three; apply G; lia.
  - rewrite !plus_IZR, !mult_IZR, <- !INR_IZR_INZ. field. repeat split; lra.
Qed.
Definition sign (z : Z) : R := if Z.even z then 1 else - 1.
Lemma half_turns u z : cos (u - PI * IZR z) = sign z * cos u /\ sin (u - PI * IZR z) = sign z * sin u.
Proof.
  unfold sign. destruct (Z.even z) eqn:E.
  - apply Z.even_spec in E. destruct E as (h & ->). assert (K : same (u - PI * IZR (2 * h)) u) by (exists (- h)%Z; rewrite mult_IZR, opp_IZR; ring). rewrite (same_cos _ _ K), (same_sin _ _ K). split; ring.
  - assert (O : Z.odd z = true) by (rewrite <- Z.negb_even, E; reflexivity). apply Z.odd_spec in O. destruct O as (h & ->).
    assert (K : same (u - PI * IZR (2 * h + 1)) (u + PI)) by (exists (- h - 1)%Z; rewrite minus_IZR, plus_IZR, mult_IZR, opp_IZR; ring). rewrite (same_cos _ _ K), (same_sin _ _ K), neg_cos, neg_sin. split; ring.
Qed.
Lemma even_sign z : 1 + sign z = if Z.even z then 2 else 0.
Proof. unfold sign. destruct (Z.even z); lra. Qed.
Section Image.
Variables (N : mode) (L : point) (m : mode) (q s : Z * Z * Z) (A phi : R).
Hypothesis HL : positive3 L.
Hypothesis HM : is_mode N m.
Hypothesis HI : image N m q s.
Let f := fun x => A * cos (wave N q (at_cell x) + phi).
Let g := fun x => A * cos (wave N q (at_half x) + phi).
Lemma f_wav x : f x = wav N m A phi x.
Proof. unfold f, wav. f_equal. apply same_cos. rewrite Rplus_comm. apply same_plus; [apply same_refl|]. apply (wave_image N m q s HM HI x). Qed.
Lemma g_wav x : g x = wav N m A (phi - / 2 * kh N L m - PI * IZR (order s)) x.
Proof.
  unfold g, wav. f_equal. apply same_cos. destruct (wave_image N m q s HM HI x) as (K & ->). rewrite (kh_turn N L m HL (mode_size N m HM)).
  replace (wave N q (at_cell x) - PI * turn3 N m - PI * IZR (order s) + phi) with ((phi - / 2 * (2 * PI * turn3 N m) - PI * IZR (order s)) + wave N q (at_cell x)) by field.
  apply same_plus; [apply same_refl|exact K].
Qed.
Lemma combine2_image k : is_mode N k -> below_nyquist N m -> combine2 N L (r2c N f) (r2c N g) k = cscale (/ 2 * (1 + sign (order s))) (r2c N f k).
Proof.
  intros K B. unfold combine2. rewrite (r2c_ext N f (wav N m A phi) k (fun x _ => f_wav x)), (r2c_ext N g _ k (fun x _ => g_wav x)), !r2c_wav by assumption.
  destruct (half_turns (phi - / 2 * kh N L m) (order s)) as (-> & ->). set (sg := sign (order s)). set (h := / 2 * kh N L m) in *.
  destruct (eqm m k) eqn:E1.
  - apply eqm_iff in E1. subst k. fold h. assert (U : (cos (phi - h) * cos h - sin (phi - h) * sin h = cos phi) /\ (cos (phi - h) * sin h + sin (phi - h) * cos h = sin phi)).
    { split; [rewrite <- cos_plus|rewrite Rplus_comm, <- sin_plus]; f_equal; ring. }
    destruct (eqm m (opposite N m)) eqn:E2.
    + apply eqm_iff in E2. assert (H0 : h = 0). { unfold h. assert (T := kh_opposite N L m HL HM B). rewrite <- E2 in T. lra. }
      rewrite H0, Rminus_0_r, cos_0, sin_0. unfold cadd, cmul, cscale. cbn [fst snd]. f_equal; field.
    + destruct U as (U1 & U2). unfold cadd, cmul, cscale. cbn [fst snd]. f_equal; [transitivity (/ 2 * (A / 2 * cos phi) + / 2 * sg * (A / 2) * (cos (phi - h) * cos h - sin (phi - h) * sin h)); [field|rewrite U1; field]|
        transitivity (/ 2 * (A / 2 * sin phi) + / 2 * sg * (A / 2) * (cos (phi - h) * sin h + sin (phi - h) * cos h)); [field|rewrite U2; field]].
  - destruct (eqm m (opposite N k)) eqn:E2; [|unfold cadd, cmul, cscale; cbn [fst snd]; f_equal; ring].
    apply eqm_iff in E2. assert (K2 : k = opposite N m) by (rewrite E2, opposite_twice by exact K; reflexivity).
    assert (H0 : / 2 * kh N L k = - h) by (rewrite K2, (kh_opposite N L m HL HM B); unfold h; ring). rewrite H0, cos_neg, sin_neg.
    assert (U : (cos (phi - h) * cos h - sin (phi - h) * sin h = cos phi) /\ (cos (phi - h) * sin h + sin (phi - h) * cos h = sin phi)).
    { split; [rewrite <- cos_plus|rewrite Rplus_comm, <- sin_plus]; f_equal; ring. }
    destruct U as (U1 & U2). unfold cadd, cmul, cscale. cbn [fst snd]. f_equal; [transitivity (/ 2 * (A / 2 * cos phi) + / 2 * sg * (A / 2) * (cos (phi - h) * cos h - sin (phi - h) * sin h)); [field|rewrite U1; field]|
        transitivity (- (/ 2 * (A / 2 * sin phi) + / 2 * sg * (A / 2) * (cos (phi - h) * sin h + sin (phi - h) * cos h))); [field|rewrite U2; field]].
Qed.
Lemma interlace_image x : is_mode N x -> below_nyquist N m -> interlace N L f g x = if Z.even (order s) then f x else 0.
Proof.
  intros X B. unfold interlace, inverse. rewrite (c2r_ext N _ (fun k => cscale (/ 2 * (1 + sign (order s))) (r2c N f k))).
  - transitivity (/ 2 * (1 + sign (order s)) * c2r N (r2c N f) x).
    + unfold c2r. rewrite <- rsum_scl. apply rsum_ext'. intros k _. unfold cscale. cbn [fst snd]. ring.
    + rewrite c2r_r2c by exact X. rewrite even_sign. destruct (Z.even (order s)); field.
  - intros k K. unfold restore. destruct (stored N k); [apply combine2_image; assumption|]. change (minus N k) with (opposite N k). rewrite (combine2_image _ (opposite_mode N k K) B), (r2c_hermitian N f k K).
    unfold cscale, conj. cbn [fst snd]. f_equal; ring.
Qed.
End Image.
Lemma turn3_zero N : mesh_size N -> turn3 N (0, 0, 0)%nat = 0.
Proof. destruct N as [[n0 n1] n2]. intros (A & B & C). unfold turn3, freq. rewrite !Nat.mul_0_r. assert (E : forall n, (0 < n)%nat -> (0 <? n)%nat = true) by (intros; apply Nat.ltb_lt; assumption). rewrite !E by assumption. cbn. unfold Rdiv. ring. Qed.
Lemma interlace_mean N L f g : positive3 L -> mesh_size N -> average N (interlace N L f g) = / 2 * (average N f + average N g).
Proof.
  intros P Z. unfold interlace, inverse, average. rewrite mean_c2r by (apply zero_is; exact Z). unfold restore. replace (stored N (0, 0, 0)%nat) with true by (destruct N as [[n0 n1] n2]; reflexivity).
  unfold combine2. rewrite (kh_turn N L _ P Z), (turn3_zero N Z), Rmult_0_r, Rmult_0_r, cos_0, sin_0, !r2c_zero. unfold cadd, cmul, cscale. cbn [fst snd]. unfold average. ring.
Qed.
Lemma interlace_modes N L f g m q : positive3 L -> is_mode N m -> below_nyquist N m -> image N m q (0, 0, 0)%Z ->
  r2c N (interlace N L f g) m = (/ 2 * average N (fun x => f x * cos (wave N q (at_cell x)) + g x * cos (wave N q (at_half x))), - (/ 2 * average N (fun x => f x * sin (wave N q (at_cell x)) + g x * sin (wave N q (at_half x))))).
Proof.
  intros P M B I. assert (Z := mode_size N m M). assert (Q := ncell_pos N Z). rewrite r2c_interlace by assumption. unfold combine2. set (h := / 2 * kh N L m). unfold average, grid_mean. rewrite <- ncell_len.
  assert (W := wave_image N m q _ M I). assert (T : PI * turn3 N m = h) by (unfold h; rewrite (kh_turn N L m P Z); field). cbn [order] in W.
  rewrite (rsum_ext' (fun x => f x * cos (wave N q (at_cell x)) + g x * cos (wave N q (at_half x))) (fun x => f x * cos (angle N m x) + (cos h * (g x * cos (angle N m x)) + sin h * (g x * sin (angle N m x))))).
  2:{ intros x _. destruct (W x) as (W1 & W2). rewrite W2, T. replace (wave N q (at_cell x) - h - PI * IZR (0 + 0 + 0)) with (wave N q (at_cell x) - h) by (cbn; ring). rewrite cos_minus, (same_cos _ _ W1), (same_sin _ _ W1). ring. }
  rewrite (rsum_ext' (fun x => f x * sin (wave N q (at_cell x)) + g x * sin (wave N q (at_half x))) (fun x => f x * sin (angle N m x) + (cos h * (g x * sin (angle N m x)) + - sin h * (g x * cos (angle N m x))))).
  2:{ intros x _. destruct (W x) as (W1 & W2). rewrite W2, T. replace (wave N q (at_cell x) - h - PI * IZR (0 + 0 + 0)) with (wave N q (at_cell x) - h) by (cbn; ring). rewrite sin_minus, (same_cos _ _ W1), (same_sin _ _ W1). ring. }
  rewrite !rsum_plus, !rsum_scl. unfold r2c, cadd, cmul, cscale. cbn [fst snd]. f_equal; field; lra.
Qed.
