(* Gaussian and lognormal fields, mesh filters. *)
From Verif Require Import Base.
From Coq Require Import Reals Lra.
From Verif Require Import RandModel RandProofs ThreeModel ThreeProofs SkyModel SkyProofs ConvModel MockModel MockSpec MockProofs MockMean MockMore.
Local Open Scope R_scope.
Local Notation length := List.length.

(* an example: a cubic mesh of 4^3 cells in a box of 2 pi *)
Definition exN : mode := (4, 4, 4)%nat.
Definition exL : point := (2 * PI, 2 * PI, 2 * PI).
Lemma exL_pos : positive3 exL.
Proof. assert (P := PI_RGT_0). cbn. lra. Qed.
Lemma exk : wavevector exN exL (1, 0, 3)%nat (1, 0, -1).
Proof.
  cbn. exists 1%Z, 0%Z, (-1)%Z. unfold frequency. split; [|split; [|split]]; try (split; [|lia]); [exists 0%Z|exists 0%Z|exists (-1)%Z|]; try lia.
  assert (P := PI_RGT_0). f_equal; [f_equal|]; field; lra.
Qed.

(* C178: the power of every mode is the linear power at its wave number times the power of the white noise *)
Theorem C178_spectrum : forall N L P white inverted compute d ds, positive3 L ->
  gaussian_complex_fields N L P white inverted true compute = Ok (d, ds) ->
  (forall m k, is_mode N m -> m <> (0, 0, 0)%nat -> wavevector N L m k -> 0 <= P (size3 k) ->
    box_volume L * cabs2 (d m) = P (size3 k) * cabs2 (white m))
  /\ (is_mode N (0, 0, 0)%nat -> d (0, 0, 0)%nat = (0, 0)).
Proof. intros N L P white inv compute d ds HL E. inversion E; subst. split; [intros; apply delta_power; assumption|intros; apply delta_zero, zero_at; assumption]. Qed.
Print Assumptions C178_spectrum.
Example C178_spectrum_ex : positive3 exL /\ is_mode exN (1, 0, 3)%nat /\ wavevector exN exL (1, 0, 3)%nat (1, 0, -1) /\ size3 (1, 0, -1) = sqrt 2 /\
  forall white, box_volume exL * cabs2 (delta exN exL (fun k => k * k) white false (1, 0, 3)%nat) = 2 * cabs2 (white (1, 0, 3)%nat).
Proof.
  split; [apply exL_pos|]. split; [cbn; lia|]. split; [apply exk|]. assert (S2 : size3 (1, 0, -1) = sqrt 2) by (unfold size3; f_equal; ring). split; [exact S2|].
  intros white. rewrite (delta_power exN exL _ white false (1, 0, 3)%nat (1, 0, -1) exL_pos ltac:(cbn; lia) ltac:(congruence) exk); rewrite S2, sqrt_sqrt; lra.
Qed.

(* C179: the displacement field is the potential flow with minus the overdensity as divergence *)
Theorem C179_displacement : forall N L P white inverted d psi, positive3 L ->
  gaussian_complex_fields N L P white inverted true true = Ok (d, Some psi) ->
  forall m k, is_mode N m -> wavevector N L m k ->
  csum (map (fun i => cmul (0, axis i k) (psi i m)) [0; 1; 2]%nat) = cscale (-1) (d m)
  /\ (forall i j, cscale (axis i k) (psi j m) = cscale (axis j k) (psi i m))
  /\ (m = (0, 0, 0)%nat -> forall i, psi i m = (0, 0)).
Proof.
  intros N L P white inv d psi HL E m k Hm W. inversion E; subst. split; [apply disp_divergence; assumption|]. split; [intros; apply disp_curl; assumption|].
  intros -> i. unfold disp. rewrite (zero_at N L HL Hm). reflexivity.
Qed.
Print Assumptions C179_displacement.
Example C179_displacement_ex : disp exN exL (fun _ => box_volume exL) (fun _ => (1, 0)) false 0 (1, 0, 3)%nat = (0, 1 / 2).
Proof.
  assert (Z : zero_idx exN exL (1, 0, 3)%nat = false) by (apply nonzero_mode; [apply exL_pos|cbn; lia|congruence]).
  assert (K := wave_kvec exN exL (1, 0, 3)%nat _ ltac:(cbn; lia) exk).
  assert (V : 0 < box_volume exL) by (apply box_volume_pos, exL_pos).
  unfold disp, delta, k2_safe, kcomp, k2. rewrite Z, <- K, norm_volume. rewrite Rinv_r by lra. rewrite sqrt_1. unfold seeded, cmul, cscale, norm2; cbn [fst snd]. f_equal; field.
Qed.

(* C180: both fields are transforms of real fields away from the Nyquist frequency, and change sign when the phase is inverted *)
Theorem C180_real : forall N L P white inverted d psi, hermitian N white ->
  gaussian_complex_fields N L P white inverted true true = Ok (d, Some psi) ->
  hermitian N d /\
  forall m i, is_mode N m -> below_nyquist N m -> psi i (opposite N m) = (fst (psi i m), - snd (psi i m)).
Proof. intros N L P white inv d psi HW E. inversion E; subst. split; [apply delta_hermitian, HW|intros; apply disp_hermitian; assumption]. Qed.
Print Assumptions C180_real.
Theorem C180_inverted : forall N L P white compute d ds d' ds',
  gaussian_complex_fields N L P white false true compute = Ok (d, ds) -> gaussian_complex_fields N L P white true true compute = Ok (d', ds') ->
  forall m, d' m = cscale (-1) (d m)
  /\ forall i, match ds, ds' with Some psi, Some psi' => psi' i m = cscale (-1) (psi i m) /\ compute = true | None, None => compute = false | _, _ => False end.
Proof. intros N L P white compute d ds d' ds' E E' m. inversion E; inversion E'; subst. split; [apply inverted_delta|]. intros i. destruct compute; [split; [apply inverted_disp|reflexivity]|reflexivity]. Qed.
Print Assumptions C180_inverted.
Definition ex_white (m : mode) : comp := let '(i, _, k) := m in if ((i =? 1) && (k =? 3))%nat then (1, 1) else if ((i =? 3) && (k =? 1))%nat then (1, -1) else (1, 0).
Example C180_real_ex : hermitian exN ex_white /\ is_mode exN (1, 0, 3)%nat /\ below_nyquist exN (1, 0, 3)%nat /\ opposite exN (1, 0, 3)%nat = (3, 0, 1)%nat /\
  ex_white (1, 0, 3)%nat = (1, 1).
Proof.
  split; [|cbn; repeat split; try lia; reflexivity]. intros [[i j] k] (A & B & C).
  destruct i as [|[|[|[|i]]]]; try (exfalso; clear -A; lia); destruct k as [|[|[|[|k]]]]; try (exfalso; clear -C; lia); cbn; f_equal; ring.
Qed.
Example C180_inverted_ex : delta exN exL (fun _ => box_volume exL) ex_white true (1, 0, 3)%nat = (-1, -1).
Proof.
  assert (Z : zero_idx exN exL (1, 0, 3)%nat = false) by (apply nonzero_mode; [apply exL_pos|cbn; lia|congruence]).
  assert (V : 0 < box_volume exL) by (apply box_volume_pos, exL_pos).
  unfold delta. rewrite Z, norm_volume, Rinv_r, sqrt_1 by lra. unfold seeded, cscale, ex_white; cbn [fst snd Nat.eqb andb]. f_equal; ring.
Qed.

(* C181: at the Nyquist frequency the displacement is lost: a field with a fluctuation there and no displacement anywhere *)
Definition nyq_N : mode := (1, 1, 2)%nat.
Lemma nyq_zero : zero_idx nyq_N exL (0, 0, 0)%nat = true /\ zero_idx nyq_N exL (0, 0, 1)%nat = false.
Proof. split; [apply zero_at|apply nonzero_mode]; try apply exL_pos; try (cbn; lia). congruence. Qed.
Theorem C181_nyquist_refuted : exists N L P white d psi, positive3 L /\ hermitian N white /\ (forall k, 0 < P k) /\
  gaussian_complex_fields N L P white false true true = Ok (d, Some psi) /\
  ~ (forall m i, is_mode N m -> psi i (opposite N m) = (fst (psi i m), - snd (psi i m))) /\
  (exists x, is_mode N x /\ c2r N d x <> 0) /\ (forall x i, is_mode N x -> c2r N (psi i) x = 0).
Proof.
  assert (V : 0 < box_volume exL) by (apply box_volume_pos, exL_pos). destruct nyq_zero as [Z0 Z1]. assert (P := PI_RGT_0).
  exists nyq_N, exL, (fun _ => box_volume exL), (fun _ => (1, 0)). eexists; eexists. split; [apply exL_pos|]. split; [intros m _; cbn; f_equal; ring|].
  split; [intros _; exact V|]. split; [reflexivity|].
  assert (D1 : delta nyq_N exL (fun _ => box_volume exL) (fun _ => (1, 0)) false (0, 0, 1)%nat = (1, 0)).
  { unfold delta. rewrite Z1, norm_volume, Rinv_r, sqrt_1 by lra. unfold seeded, cscale; cbn [fst snd]. f_equal; ring. }
  assert (K : kvec nyq_N exL (0, 0, 1)%nat = (0, 0, -1)).
  { unfold kvec, nyq_N, exL, kaxis, freq. cbn [Nat.ltb Nat.leb Nat.mul Nat.add Z.of_nat Z.sub Z.add Z.opp Pos.of_succ_nat Pos.succ Z.pos_sub Pos.pred_double]. f_equal; [f_equal|]; field; lra. }
  assert (E1 : forall i, disp nyq_N exL (fun _ => box_volume exL) (fun _ => (1, 0)) false i (0, 0, 1)%nat = (0, axis i (0, 0, -1))).
  { intros i. unfold disp. rewrite Z1, D1, kcomp_axis, K. unfold k2_safe. rewrite Z1. unfold k2. rewrite K. unfold cmul, cscale, norm2; cbn [fst snd]. f_equal; field. }
  split; [|split].
  - intros H. specialize (H (0, 0, 1)%nat 2%nat ltac:(cbn; lia)). replace (opposite nyq_N (0, 0, 1)%nat) with (0, 0, 1)%nat in H by reflexivity.
    rewrite E1 in H. cbn [fst snd axis] in H. inversion H. lra.
  - exists (0, 0, 0)%nat. split; [cbn; lia|]. unfold c2r. replace (cells nyq_N) with [(0, 0, 0); (0, 0, 1)]%nat by reflexivity. cbn [map rsum].
    rewrite D1, (delta_zero _ _ _ _ _ _ Z0). unfold angle, nyq_N. cbn [Nat.mul Nat.add INR fst snd]. replace (2 * PI * (0 / 1 + 0 / 1 + 0 / (1 + 1))) with 0 by field. rewrite cos_0, sin_0. lra.
  - intros [[a b] c] i (A & B & C). unfold c2r. replace (cells nyq_N) with [(0, 0, 0); (0, 0, 1)]%nat by reflexivity. cbn [map rsum]. rewrite E1.
    unfold disp at 1 2. rewrite Z0. cbn [fst snd].
    assert (S0 : sin (angle nyq_N (0, 0, 1)%nat (a, b, c)) = 0); [|rewrite S0; ring]. unfold angle, nyq_N.
    destruct c as [|[|c]]; [| |exfalso; clear -C; lia]; cbn [Nat.mul Nat.add INR].
    + replace (2 * PI * (0 / 1 + 0 / 1 + 0 / (1 + 1))) with 0 by field. apply sin_0.
    + replace (2 * PI * (0 / 1 + 0 / 1 + 1 / (1 + 1))) with PI by field. apply sin_PI.
Qed.
Print Assumptions C181_nyquist_refuted.

(* C182: the field of LinearMesh is 1 + delta, of mean one; a seed that is not an integer is refused *)
Theorem C182_linear : forall N L P white inverted, positive3 L -> is_mode N (0, 0, 0)%nat ->
  LinearMesh N L P white inverted false = Err ValueError /\
  exists F d, LinearMesh N L P white inverted true = Ok F /\ gaussian_complex_fields N L P white inverted true false = Ok (d, None) /\
    grid_mean N (c2r N F) = 1 /\ grid_mean N (c2r N d) = 0 /\ forall x, c2r N F x = 1 + c2r N d x.
Proof.
  intros N L P white inv HL H. split; [reflexivity|]. eexists; eexists. split; [reflexivity|]. split; [reflexivity|].
  split; [apply linear_mean; assumption|]. split; [|intros; apply linear_cell; assumption]. rewrite mean_c2r by exact H. rewrite (delta_zero _ _ _ _ _ _ (zero_at N L HL H)). reflexivity.
Qed.
Print Assumptions C182_linear.
Example C182_linear_ex : positive3 exL /\ is_mode nyq_N (0, 0, 0)%nat /\ c2r nyq_N (linear_complex nyq_N exL (fun _ => box_volume exL) (fun _ => (1, 0)) false) (0, 0, 1)%nat = 0.
Proof.
  split; [apply exL_pos|]. split; [cbn; lia|]. assert (V : 0 < box_volume exL) by (apply box_volume_pos, exL_pos). destruct nyq_zero as [Z0 Z1].
  unfold c2r. replace (cells nyq_N) with [(0, 0, 0); (0, 0, 1)]%nat by reflexivity. cbn [map rsum]. rewrite !linear_zero, Z0, Z1. unfold delta. rewrite Z1, norm_volume, Rinv_r, sqrt_1 by lra.
  unfold seeded, cscale, angle, nyq_N; cbn [fst snd Nat.mul Nat.add INR]. replace (2 * PI * (0 / 1 + 0 / 1 + 0 / (1 + 1))) with 0 by field. replace (2 * PI * (0 / 1 + 0 / 1 + 1 / (1 + 1))) with PI by field.
  rewrite cos_0, cos_PI, sin_0, sin_PI. ring.
Qed.

(* C183: the lognormal transform is positive, of mean one, keeps the order of the densities and does not depend on the ranks *)
Theorem C183_lognormal : forall bias ranks, List.concat ranks <> [] ->
  map (@length R) (lognormal_transform bias ranks) = map (@length R) ranks /\
  rsum (List.concat (lognormal_transform bias ranks)) / INR (length (List.concat ranks)) = 1 /\
  (forall i j d e, nth_error (List.concat ranks) i = Some d -> nth_error (List.concat ranks) j = Some e ->
     exists u v, nth_error (List.concat (lognormal_transform bias ranks)) i = Some u /\ nth_error (List.concat (lognormal_transform bias ranks)) j = Some v /\
       0 < u /\ v = u * exp (bias * (e - d))) /\
  (forall ranks', List.concat ranks' = List.concat ranks -> List.concat (lognormal_transform bias ranks') = List.concat (lognormal_transform bias ranks)).
Proof.
  intros b ranks N. split; [apply lognormal_shape|]. split; [rewrite lognormal_sum by exact N; apply Rinv_r, Rgt_not_eq, len_pos, N|]. split.
  - intros i j d e D E. destruct (lognormal_ok b ranks i d D) as (c & C & H1 & Ec). destruct (lognormal_ok b ranks j e E) as (c' & C' & H2 & Ec').
    rewrite <- Ec in Ec'. subst c'. clear Ec. eexists; eexists. split; [exact H1|]. split; [exact H2|]. split; [apply Rdiv_lt_0_compat; [apply exp_pos|exact C]|].
    replace (b * e) with (b * d + b * (e - d)) by ring. rewrite exp_plus. field. lra.
  - intros ranks' E. rewrite !lognormal_flat, E. reflexivity.
Qed.
Print Assumptions C183_lognormal.
(* the expected number of objects is nbar times the volume, whatever the density and the bias *)
Theorem C183_expected : forall bias h nbar ranks, List.concat ranks <> [] ->
  rsum (List.concat (cellmean bias h nbar ranks)) = nbar * (h * INR (length (List.concat ranks))).
Proof. exact cellmean_sum. Qed.
Print Assumptions C183_expected.
Example C183_lognormal_ex : lognormal_transform 1 [[0]; []; [ln 3]] = [[1 / 2]; []; [3 / 2]].
Proof. unfold lognormal_transform, cmean_ranks. cbn [map List.concat app length rsum INR]. rewrite Rmult_0_r, exp_0, Rmult_1_l, exp_ln by lra. do 2 f_equal; [field|]. do 3 f_equal. field. Qed.
Example C183_expected_ex : rsum (List.concat (cellmean 2 5 10 [[0]; []; [ln 3]])) = 100.
Proof. rewrite cellmean_sum by discriminate. cbn [List.concat app length INR]. ring. Qed.

(* C184: particles of LogNormalCatalog end up in the box, displaced by the field up to a period; VelocityOffset is the displacement
   along the line of sight that the velocity produces in redshift space *)
Theorem C184_particles : forall f E z L pos d p v o, 0 < L -> 0 <= z -> 0 < E -> make_particle f E z L pos d = (p, v, o) ->
  0 <= p < L /\ (exists k, pos + d = p + L * IZR k) /\ o = v * (1 + z) / (100 * E).
Proof.
  intros f E z L pos d p v o HL Hz HE M. inversion M; subst. destruct (fmod_ok (pos + d) L HL) as [A [k B]]. split; [exact A|]. split; [exists k; exact B|]. field. lra.
Qed.
Print Assumptions C184_particles.
Example C184_particles_ex : make_particle 1 2 1 10 9 3 = (2, 300, 3).
Proof.
  unfold make_particle. destruct (fmod_ok (9 + 3) 10 ltac:(lra)) as [A [k B]]. assert (K : k = 1%Z).
  { apply eq_IZR. destruct (Z_lt_le_dec k 1) as [K|K]; [assert (IZR k <= 0) by (apply IZR_le; lia); lra|]. destruct (Z.eq_dec k 1) as [->|K']; [reflexivity|]. assert (2 <= IZR k) by (apply IZR_le; lia). lra. }
  subst k. f_equal; [f_equal; [lra|field]|ring].
Qed.

(* C185: the filters keep the mean and the reality of a field, and never amplify a mode *)
Theorem C185_filters : forall r k, r <> 0 ->
  (exists w, tophat r k = Some w /\ - 1 <= w <= 1 /\ 1 - size3 k * size3 k * (r * r) / 10 <= w) /\
  (0 < gaussian r k <= 1 /\ 1 - size3 k * size3 k * (r * r) / 2 <= gaussian r k) /\
  tophat r (0, 0, 0) = Some 1 /\ gaussian r (0, 0, 0) = 1.
Proof.
  intros r k H. rewrite size3_norm2, sqrt_sqrt by apply norm2_nonneg. split; [|split; [|split]].
  - destruct (tophat_ok r k H) as (w & E & A & B). exists w. tauto.
  - apply gaussian_ok.
  - apply tophat_zero.
  - unfold gaussian, norm2. replace (- (1 / 2) * (0 * 0 + 0 * 0 + 0 * 0) * (r * r)) with 0 by ring. apply exp_0.
Qed.
Print Assumptions C185_filters.
Theorem C185_real : forall N L r F, hermitian N F -> r <> 0 ->
  hermitian N (fun m => cscale (gaussian r (kvec N L m)) (F m)) /\
  exists w, (forall m, tophat r (kvec N L m) = Some (w m)) /\ hermitian N (fun m => cscale (w m) (F m)).
Proof.
  intros N L r F HF Hr. split; [apply filter_hermitian; [|exact HF]; intros k k' E; unfold gaussian; rewrite E; reflexivity|].
  set (t := fun k => match tophat r k with Some v => v | None => 0 end). exists (fun m => t (kvec N L m)). split.
  - intros m. unfold t. destruct (tophat_ok r (kvec N L m) Hr) as (w & E & _). rewrite E. reflexivity.
  - apply filter_hermitian; [|exact HF]. intros k k' E. unfold t. rewrite (tophat_size r k k' E). reflexivity.
Qed.
Print Assumptions C185_real.
Theorem C185_compose : forall r1 r2 k, gaussian r2 k * gaussian r1 k = gaussian (sqrt (r1 * r1 + r2 * r2)) k.
Proof. intros. rewrite <- gaussian_compose. ring. Qed.
Print Assumptions C185_compose.
Example C185_filters_ex : gaussian 1 (0, 0, 2) = exp (-2) /\ tophat 2 (0, 0, PI / 2) = Some (3 / (PI * PI)).
Proof.
  split; [unfold gaussian, norm2; f_equal; field|]. assert (P := PI_RGT_0). unfold tophat, norm2. replace (0 * 0 + 0 * 0 + PI / 2 * (PI / 2)) with (PI / 2 * (PI / 2)) by ring.
  rewrite sqrt_square by lra. unfold ceq0. destruct (Req_EM_T (PI / 2) 0); [lra|]. replace (PI / 2 * 2) with PI by field. destruct (Req_EM_T PI 0); [lra|]. rewrite sin_PI, cos_PI. f_equal. field. lra.
Qed.
Example C185_real_ex : hermitian exN ex_white /\ 2 <> 0.
Proof. split; [apply C180_real_ex|lra]. Qed.
Example C185_compose_ex : gaussian 4 (1, 0, 0) * gaussian 3 (1, 0, 0) = gaussian 5 (1, 0, 0).
Proof. rewrite C185_compose. f_equal. replace (3 * 3 + 4 * 4) with (5 * 5) by ring. apply sqrt_square. lra. Qed.

(* C186: a top hat of radius 0 does not leave the field alone but yields nan in every mode but the mean *)
Theorem C186_radius_refuted : exists r k, 0 <= r /\ gaussian r k = 1 /\ tophat r k = None /\ forall k', norm2 k' <> 0 -> tophat r k' = None.
Proof.
  exists 0, (1, 0, 0). split; [lra|]. split; [unfold gaussian; rewrite Rmult_0_r, Rmult_0_r; apply exp_0|]. split; [apply tophat_r0; cbn; lra|]. intros k'. apply tophat_r0.
Qed.
Print Assumptions C186_radius_refuted.
