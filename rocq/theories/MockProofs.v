From Verif Require Import Base.
From Coq Require Import Reals Lra Permutation.
From Verif Require Import RandModel RandProofs ThreeModel ThreeProofs SkyModel SkyProofs ConvModel MockModel MockSpec.
Local Open Scope R_scope.
Local Notation length := List.length.

Lemma ceq0_iff x : ceq0 x = true <-> x = 0.
Proof. unfold ceq0. destruct (Req_EM_T x 0); split; congruence. Qed.
Lemma norm2_zero a b c : norm2 (a, b, c) = 0 <-> a = 0 /\ b = 0 /\ c = 0.
Proof. cbn [norm2]. split; [|intros (-> & -> & ->); ring]. intros H. assert (A := Rle_0_sqr a). assert (B := Rle_0_sqr b). assert (C := Rle_0_sqr c). unfold Rsqr in *.
  split; [|split]; apply Rsqr_0_uniq; unfold Rsqr; lra. Qed.
Lemma frequency_freq n i f : (i < n)%nat -> frequency n i f -> f = freq n i.
Proof.
  intros H [[q E] B]. unfold freq. destruct (Nat.ltb_spec (2 * i) n); subst f.
  - assert (q = 0%Z) by nia. lia.
  - assert (q = (-1)%Z) by nia. lia.
Qed.
Lemma freq_frequency n i : (i < n)%nat -> frequency n i (freq n i).
Proof. intros H. unfold frequency, freq. destruct (Nat.ltb_spec (2 * i) n); (split; [|lia]); [exists 0%Z; lia|exists (-1)%Z; lia]. Qed.
Lemma wave_kvec N L m k : is_mode N m -> wavevector N L m k -> k = kvec N L m.
Proof. destruct N as [[n0 n1] n2], L as [[l0 l1] l2], m as [[i j] l]. cbn. intros (A & B & C) (f0 & f1 & f2 & F0 & F1 & F2 & ->).
  rewrite (frequency_freq n0 i f0), (frequency_freq n1 j f1), (frequency_freq n2 l f2) by assumption. reflexivity. Qed.
Lemma kvec_wave N L m : is_mode N m -> wavevector N L m (kvec N L m).
Proof. destruct N as [[n0 n1] n2], L as [[l0 l1] l2], m as [[i j] l]. cbn. intros (A & B & C).
  exists (freq n0 i), (freq n1 j), (freq n2 l). split; [|split; [|split]]; auto using freq_frequency. Qed.
Lemma freq0 n i : (i < n)%nat -> (freq n i = 0%Z <-> i = 0%nat).
Proof. intros H. unfold freq. destruct (Nat.ltb_spec (2 * i) n); lia. Qed.
Lemma kaxis0 n L i : 0 < L -> (i < n)%nat -> (kaxis n L i = 0 <-> i = 0%nat).
Proof.
  intros HL H. unfold kaxis. rewrite <- (freq0 n i H). split; [|intros ->; unfold Rdiv; ring].
  intros E. apply eq_IZR. assert (P := PI_RGT_0). assert (T : 2 * PI * IZR (freq n i) = 0) by (apply Rmult_eq_reg_r with (/ L); [rewrite Rmult_0_l; exact E|apply Rinv_neq_0_compat; lra]).
  apply Rmult_integral in T. destruct T; lra.
Qed.
Lemma kvec0 N L m : positive3 L -> is_mode N m -> (kvec N L m = (0, 0, 0) <-> m = (0, 0, 0)%nat).
Proof. destruct N as [[n0 n1] n2], L as [[l0 l1] l2], m as [[i j] l]. cbn. intros (A & B & C) (D & E & F). rewrite !pair_equal_spec, !kaxis0 by assumption. tauto. Qed.
Lemma zero_mode N L m : positive3 L -> is_mode N m -> (zero_idx N L m = true <-> m = (0, 0, 0)%nat).
Proof. intros HL H. rewrite <- (kvec0 N L m HL H). unfold zero_idx, k2. rewrite ceq0_iff. destruct (kvec N L m) as [[a b] c]. rewrite norm2_zero, !pair_equal_spec. tauto. Qed.
Lemma nonzero_mode N L m : positive3 L -> is_mode N m -> m <> (0, 0, 0)%nat -> zero_idx N L m = false.
Proof. intros HL H D. apply Bool.not_true_iff_false. rewrite (zero_mode N L m HL H). exact D. Qed.
Lemma box_volume_pos L : positive3 L -> 0 < box_volume L.
Proof. destruct L as [[a b] c]. cbn. intros (A & B & C). apply Rmult_lt_0_compat; [apply Rmult_lt_0_compat|]; assumption. Qed.
Lemma norm_volume L : norm L = / box_volume L.
Proof. destruct L as [[a b] c]. unfold norm, volume, box_volume, Rdiv. ring. Qed.
Lemma size3_norm2 k : size3 k = sqrt (norm2 k).
Proof. destruct k as [[a b] c]. reflexivity. Qed.
Lemma cabs2_scale c z : cabs2 (cscale c z) = c * c * cabs2 z.
Proof. unfold cabs2, cscale; cbn [fst snd]. ring. Qed.

Lemma delta_power N L P white inv m k :
  positive3 L -> is_mode N m -> m <> (0, 0, 0)%nat -> wavevector N L m k -> 0 <= P (size3 k) ->
  box_volume L * cabs2 (delta N L P white inv m) = P (size3 k) * cabs2 (white m).
Proof.
  intros HL H D W HP. apply (wave_kvec N L m k H) in W. subst k. unfold delta, k2_safe. rewrite (nonzero_mode N L m HL H D). unfold k2.
  rewrite cabs2_scale, <- size3_norm2, norm_volume. assert (V := box_volume_pos L HL).
  assert (NV : 0 <= P (size3 (kvec N L m)) * / box_volume L) by (apply Rmult_le_pos; [exact HP|left; apply Rinv_0_lt_compat; exact V]).
  rewrite (sqrt_sqrt _ NV). assert (S2 : cabs2 (seeded white inv m) = cabs2 (white m)).
  { unfold seeded. destruct inv; [|reflexivity]. rewrite cabs2_scale. ring. }
  rewrite S2. field. lra.
Qed.
Lemma delta_zero N L P white inv m : zero_idx N L m = true -> delta N L P white inv m = (0, 0).
Proof. intros Z. unfold delta. rewrite Z. reflexivity. Qed.
Lemma zero_at N L : positive3 L -> is_mode N (0, 0, 0)%nat -> zero_idx N L (0, 0, 0)%nat = true.
Proof. intros HL H. apply zero_mode; auto. Qed.

Lemma kcomp_axis N L i m : kcomp N L i m = axis i (kvec N L m).
Proof. unfold kcomp, axis. destruct (kvec N L m) as [[a b] c]. reflexivity. Qed.
Lemma disp_divergence N L P white inv m k : positive3 L -> is_mode N m -> wavevector N L m k ->
  csum (map (fun i => cmul (0, axis i k) (disp N L P white inv i m)) [0; 1; 2]%nat) = cscale (-1) (delta N L P white inv m).
Proof.
  intros HL H W. apply (wave_kvec N L m k H) in W. subst k. unfold disp. destruct (zero_idx N L m) eqn:Z.
  - rewrite (delta_zero N L P white inv m Z). unfold csum, cmul, cscale; cbn [map fst snd rsum]. f_equal; ring.
  - cbn [map]. rewrite !kcomp_axis. unfold k2_safe. rewrite Z. unfold zero_idx, k2 in *. apply Bool.not_true_iff_false in Z. rewrite ceq0_iff in Z.
    destruct (delta N L P white inv m) as [a b]. destruct (kvec N L m) as [[x y] z]. cbn [norm2] in *.
    unfold csum, cmul, cscale, axis; cbn [map fst snd rsum]. f_equal; field; exact Z.
Qed.
Lemma disp_curl N L P white inv m k i j : is_mode N m -> wavevector N L m k ->
  cscale (axis i k) (disp N L P white inv j m) = cscale (axis j k) (disp N L P white inv i m).
Proof.
  intros H W. apply (wave_kvec N L m k H) in W. subst k. unfold disp. destruct (zero_idx N L m) eqn:Z; [unfold cscale; cbn [fst snd]; f_equal; ring|].
  rewrite !kcomp_axis. unfold cscale, cmul; cbn [fst snd]. f_equal; unfold Rdiv; ring.
Qed.
Lemma inverted_delta N L P white m : delta N L P white true m = cscale (-1) (delta N L P white false m).
Proof. unfold delta, seeded. destruct (zero_idx N L m); unfold cscale; cbn [fst snd]; f_equal; ring. Qed.
Lemma inverted_disp N L P white i m : disp N L P white true i m = cscale (-1) (disp N L P white false i m).
Proof. unfold disp. destruct (zero_idx N L m); [unfold cscale; cbn [fst snd]; f_equal; ring|]. rewrite inverted_delta. unfold cscale, cmul; cbn [fst snd]. f_equal; ring. Qed.

(* the opposite mode *)
Lemma opp_lt n i : (i < n)%nat -> ((n - i) mod n < n)%nat.
Proof. intros H. apply Nat.mod_upper_bound. lia. Qed.
Lemma opp_freq n i : (i < n)%nat -> (2 * i)%nat <> n -> freq n ((n - i) mod n) = (- freq n i)%Z.
Proof.
  intros H Y. destruct (Nat.eq_dec i 0) as [->|D].
  - rewrite Nat.sub_0_r, Nat.mod_same by lia. unfold freq. destruct (Nat.ltb_spec (2 * 0) n); lia.
  - rewrite Nat.mod_small by lia. unfold freq. destruct (Nat.ltb_spec (2 * i) n), (Nat.ltb_spec (2 * (n - i)) n); lia.
Qed.
Lemma opp_freq_sq n i : (i < n)%nat -> (freq n ((n - i) mod n) * freq n ((n - i) mod n) = freq n i * freq n i)%Z.
Proof.
  intros H. destruct (Nat.eq_dec (2 * i) n) as [E|D].
  - assert (i <> 0)%nat by lia. rewrite Nat.mod_small by lia. replace (n - i)%nat with i by lia. reflexivity.
  - rewrite (opp_freq n i H D). ring.
Qed.
Lemma opposite_mode N m : is_mode N m -> is_mode N (opposite N m).
Proof. destruct N as [[n0 n1] n2], m as [[i j] k]. cbn. intros (A & B & C). auto using opp_lt. Qed.
Lemma kaxis_sq n L i : kaxis n L i * kaxis n L i = (2 * PI / L) * (2 * PI / L) * IZR (freq n i * freq n i).
Proof. unfold kaxis. rewrite mult_IZR. unfold Rdiv. ring. Qed.
Lemma k2_opposite N L m : is_mode N m -> k2 N L (opposite N m) = k2 N L m.
Proof. destruct N as [[n0 n1] n2], L as [[l0 l1] l2], m as [[i j] k]. cbn [is_mode opposite]. intros (A & B & C). unfold k2, kvec, norm2. rewrite !kaxis_sq, !opp_freq_sq by assumption. reflexivity. Qed.
Lemma delta_hermitian N L P white inv : hermitian N white -> hermitian N (delta N L P white inv).
Proof.
  intros W m H. unfold delta, k2_safe, zero_idx. rewrite (k2_opposite N L m H). fold (zero_idx N L m). destruct (zero_idx N L m); [cbn [fst snd]; f_equal; ring|].
  unfold seeded. destruct inv; rewrite (W m H); unfold cscale; cbn [fst snd]; f_equal; ring.
Qed.
Lemma kcomp_opposite N L i m : is_mode N m -> below_nyquist N m -> kcomp N L i (opposite N m) = - kcomp N L i m.
Proof.
  destruct N as [[n0 n1] n2], L as [[l0 l1] l2], m as [[a b] c]. cbn [is_mode opposite below_nyquist]. intros (A & B & C) (A' & B' & C'). unfold kcomp, kvec, kaxis.
  rewrite !opp_freq by assumption. rewrite !opp_IZR. destruct i as [|[|i]]; unfold Rdiv; ring.
Qed.
Lemma disp_hermitian N L P white inv i m : hermitian N white -> is_mode N m -> below_nyquist N m ->
  disp N L P white inv i (opposite N m) = (fst (disp N L P white inv i m), - snd (disp N L P white inv i m)).
Proof.
  intros W H Y. unfold disp. unfold zero_idx at 1. unfold k2_safe. unfold zero_idx at 1. rewrite (k2_opposite N L m H). fold (zero_idx N L m). destruct (zero_idx N L m) eqn:Z; [cbn [fst snd]; f_equal; ring|].
  rewrite (kcomp_opposite N L i m H Y), (delta_hermitian N L P white inv W m H). unfold cmul, cscale; cbn [fst snd]. f_equal; unfold Rdiv; ring.
Qed.
