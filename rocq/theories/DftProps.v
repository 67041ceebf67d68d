(* Fourier transforms of meshes, the 3-d power spectrum and correlation function, and interlaced meshes. *)
From Verif Require Import Base.
From Coq Require Import Reals Lra.
From Verif Require Import RandModel RandProofs ThreeModel ThreeProofs SkyModel ConvModel MockModel MockSpec MockProofs MockMean DftModel DftSpec DftProofs DftMain DftInter.
Local Open Scope R_scope.
Local Notation length := List.length.

Lemma vol_nonzero L : positive3 L -> vol L <> 0.
Proof. destruct L as [[l0 l1] l2]. intros (A & B & C). unfold vol. assert (0 < l0 * l1 * l2) by (repeat apply Rmult_lt_0_compat; assumption). lra. Qed.
Lemma vol_box L : vol L = box_volume L.
Proof. reflexivity. Qed.

(* C274: the real and the complex representation of a mesh carry the same information *)
Theorem C274_round_trip :
  (forall N f x, is_mode N x -> inverse N (r2c N f) x = f x) /\
  (forall N F m, hermitian N F -> is_mode N m -> r2c N (inverse N F) m = F m) /\
  (forall N f, hermitian N (r2c N f)) /\
  (forall N f, r2c N f (0, 0, 0)%nat = (grid_mean N f, 0)) /\
  (forall N f r m, mesh_size N -> is_mode N m -> r2c N (fun x => f (moved N x r)) m = cmul (r2c N f m) (cos (angle N m r), sin (angle N m r))).
Proof. split; [exact inverse_r2c|]. split; [exact r2c_inverse|]. split; [exact r2c_hermitian|]. split; [exact r2c_zero|exact r2c_moved]. Qed.
Print Assumptions C274_round_trip.
(* every cosine has its amplitude and phase in one pair of modes *)
Theorem C274_plane_wave : forall N m A phi k, is_mode N m -> is_mode N k -> opposite N m <> m ->
  r2c N (fun x => A * cos (phi + angle N m x)) k =
    if eqm k m then (A / 2 * cos phi, A / 2 * sin phi) else if eqm k (opposite N m) then (A / 2 * cos phi, - (A / 2 * sin phi)) else (0, 0).
Proof.
  intros N m A phi k M K H. change (fun x => A * cos (phi + angle N m x)) with (wav N m A phi). rewrite (r2c_wav N m A phi k M K), (eqm_sym k m). assert (E : eqm m (opposite N k) = eqm k (opposite N m)).
  { apply eq_true_iff_eq. rewrite !eqm_iff. split; intros ->; rewrite opposite_twice by assumption; reflexivity. }
  rewrite E. unfold cadd. destruct (eqm m k) eqn:E1; destruct (eqm k (opposite N m)) eqn:E2; cbn [fst snd]; try (f_equal; ring).
  apply eqm_iff in E1, E2. congruence.
Qed.
Print Assumptions C274_plane_wave.
Example C274_case : is_mode (4, 4, 4)%nat (1, 0, 2)%nat /\ opposite (4, 4, 4)%nat (1, 0, 2)%nat <> (1, 0, 2)%nat /\ opposite (4, 4, 4)%nat (1, 0, 2)%nat = (3, 0, 2)%nat.
Proof. cbn. repeat split; try lia; congruence. Qed.
Example C274_not_hermitian : ~ hermitian (2, 2, 2)%nat (fun _ => (0, 1)).
Proof. intros H. assert (E := H (0, 0, 0)%nat ltac:(cbn; lia)). pose proof (f_equal snd E) as E'. cbn in E'. lra. Qed.

(* C275: the 3-d correlation is the mean product of the fields at a separation, less the product of the means *)
Theorem C275_correlation : forall N L f g r, positive3 L -> is_mode N r ->
  correlation N L f g r = grid_mean N (fun y => f (moved N y r) * g y) - grid_mean N f * grid_mean N g.
Proof. intros N L f g r P M. exact (correlation_pairs N L f g r M (vol_nonzero L P)). Qed.
Print Assumptions C275_correlation.
(* the correlation of fluctuations about the mean *)
Theorem C275_fluctuations : forall N L f g r, positive3 L -> is_mode N r ->
  correlation N L f g r = grid_mean N (fun y => (f (moved N y r) - grid_mean N f) * (g y - grid_mean N g)).
Proof.
  intros N L f g r P M. assert (Z := mode_size N r M). assert (Q := ncell_pos N Z).
  assert (A := C275_correlation N L (fun x => 1 * f x + - grid_mean N f) (fun x => 1 * g x + - grid_mean N g) r P M).
  assert (E : forall h, grid_mean N (fun x => 1 * h x + - grid_mean N h) = 0).
  { intros h. unfold grid_mean at 1. rewrite rsum_plus, sum_const. unfold grid_mean. rewrite rsum_scl. field. rewrite <- ncell_len. lra. }
  rewrite !E in A. rewrite Rmult_0_l, Rminus_0_r in A. transitivity (correlation N L (fun x => 1 * f x + - grid_mean N f) (fun x => 1 * g x + - grid_mean N g) r).
  - unfold correlation. f_equal. rewrite !inverse_hermitian by apply power_hermitian. apply c2r_ext. intros m Hm. rewrite (power_offset N L f g 1 1 _ _ m Hm). unfold cscale. destruct (power N L f g m) as [a b]. cbn [fst snd]. f_equal; ring.
  - rewrite A. apply average_ext. intros x _. ring.
Qed.
Print Assumptions C275_fluctuations.
Example C275_case : correlation (1, 1, 2)%nat (1, 1, 5) (fun x => let '(_, _, c) := x in INR c) (fun x => let '(_, _, c) := x in INR c) (0, 0, 1)%nat = - / 4.
Proof. rewrite C275_correlation by (cbn; lia || lra). unfold grid_mean. cbn. lra. Qed.

(* C276: the 3-d power spectrum *)
Theorem C276_power :
  (* its sum over the modes is the volume times the covariance of the fields *)
  (forall N L f g, mesh_size N ->
     rsum (map (fun m => fst (power N L f g m)) (cells N)) = box_volume L * (grid_mean N (fun x => f x * g x) - grid_mean N f * grid_mean N g) /\
     rsum (map (fun m => snd (power N L f g m)) (cells N)) = 0) /\
  (* the power of a single field is real and not negative *)
  (forall N L f m, positive3 L -> snd (power N L f f m) = 0 /\ 0 <= fst (power N L f f m)) /\
  (* exchanging the fields conjugates it *)
  (forall N L f g m, power N L g f m = conj (power N L f g m)) /\
  (* moving both fields together leaves it alone *)
  (forall N L f g r m, mesh_size N -> is_mode N m -> power N L (fun x => f (moved N x r)) (fun x => g (moved N x r)) m = power N L f g m) /\
  (* constants do not matter, factors come out *)
  (forall N L f g a b c d m, is_mode N m -> power N L (fun x => a * f x + c) (fun x => b * g x + d) m = cscale (a * b) (power N L f g m)).
Proof.
  split; [intros N L f g Z; split; [rewrite <- vol_box; exact (power_total N L f g Z)|exact (power_total_im N L f g Z)]|]. split; [exact auto_real|]. split; [exact power_swap|]. split; [exact power_moved|exact power_offset].
Qed.
Print Assumptions C276_power.
(* a cosine of amplitude A has the power V A^2 / 4 in its two modes and none elsewhere *)
Theorem C276_plane_wave : forall N L m A phi k, is_mode N m -> is_mode N k -> opposite N m <> m ->
  power N L (fun x => A * cos (phi + angle N m x)) (fun x => A * cos (phi + angle N m x)) k =
    if eqm k m || eqm k (opposite N m) then (box_volume L * (A * A / 4), 0) else (0, 0).
Proof.
  intros N L m A phi k M K H. assert (M0 : m <> (0, 0, 0)%nat). { intros ->. apply H. apply is_zero_iff. rewrite (opposite_zero N _ M). reflexivity. }
  rewrite power_raw, vol_box. unfold raw. rewrite (C274_plane_wave N m A phi k M K H). assert (E := sin2_cos2 phi). unfold Rsqr in E.
  destruct (is_zero k) eqn:Z.
  - apply is_zero_iff in Z. subst k. replace (eqm (0, 0, 0)%nat m) with false; [replace (eqm (0, 0, 0)%nat (opposite N m)) with false; [reflexivity|]|].
    + symmetry. apply not_true_iff_false. rewrite eqm_iff. intros Q. apply M0. apply is_zero_iff. rewrite <- (opposite_zero N m M), <- Q. reflexivity.
    + symmetry. apply not_true_iff_false. rewrite eqm_iff. congruence.
  - destruct (eqm k m); [|destruct (eqm k (opposite N m))]; cbn [orb]; unfold cscale, cmul, conj; cbn [fst snd]; f_equal; try ring.
    + transitivity (box_volume L * (A * A / 4) * (sin phi * sin phi + cos phi * cos phi)); [field|rewrite E; ring].
    + transitivity (box_volume L * (A * A / 4) * (sin phi * sin phi + cos phi * cos phi)); [field|rewrite E; ring].
Qed.
Print Assumptions C276_plane_wave.
Example C276_case : rsum (map (fun m => fst (power (1, 1, 2)%nat (1, 1, 5) (fun x => let '(_, _, c) := x in INR c) (fun x => let '(_, _, c) := x in INR c) m)) (cells (1, 1, 2)%nat)) = 5 / 4.
Proof. rewrite (proj1 (proj1 C276_power (1, 1, 2)%nat (1, 1, 5) _ _ ltac:(cbn; lia))). unfold grid_mean. cbn. lra. Qed.

(* C277: interlacing.  A wave with any wave numbers q is sampled by the mesh at the cells and by the second mesh half a
   cell away; q is an image of the mode m.  If the order of the image is odd the wave vanishes from the result in every
   cell, if it is even (and for the mode itself) the result is the wave at the cells *)
Theorem C277_images : forall N L m q s A phi, positive3 L -> is_mode N m -> below_nyquist N m -> image N m q s ->
  forall x, is_mode N x ->
  interlace N L (fun x => A * cos (wave N q (at_cell x) + phi)) (fun x => A * cos (wave N q (at_half x) + phi)) x
  = if Z.even (order s) then A * cos (wave N q (at_cell x) + phi) else 0.
Proof. intros N L m q s A phi P M B I x X. exact (interlace_image N L m q s A phi P M I x X B). Qed.
Print Assumptions C277_images.
(* for any two meshes, the modes of the result average over both meshes, and the mean is the mean of both *)
Theorem C277_modes : forall N L f g, positive3 L ->
  (forall m q, is_mode N m -> below_nyquist N m -> image N m q (0, 0, 0)%Z ->
     r2c N (interlace N L f g) m = (/ 2 * grid_mean N (fun x => f x * cos (wave N q (at_cell x)) + g x * cos (wave N q (at_half x))),
                                    - (/ 2 * grid_mean N (fun x => f x * sin (wave N q (at_cell x)) + g x * sin (wave N q (at_half x)))))) /\
  (mesh_size N -> grid_mean N (interlace N L f g) = / 2 * (grid_mean N f + grid_mean N g)).
Proof. intros N L f g P. split; [intros m q M B I; exact (interlace_modes N L f g m q P M B I)|exact (interlace_mean N L f g P)]. Qed.
Print Assumptions C277_modes.
Example C277_case : is_mode (8, 8, 8)%nat (1, 7, 2)%nat /\ below_nyquist (8, 8, 8)%nat (1, 7, 2)%nat /\ image (8, 8, 8)%nat (1, 7, 2)%nat (9, -1, 2)%Z (1, 0, 0)%Z /\ Z.even (order (1, 0, 0)%Z) = false
  /\ image (8, 8, 8)%nat (1, 7, 2)%nat (9, 7, 2)%Z (1, 1, 0)%Z /\ Z.even (order (1, 1, 0)%Z) = true.
Proof.
  split; [cbn; lia|]. split; [cbn; lia|]. split; [exists 1%Z, (-1)%Z, 2%Z|split; [reflexivity|split; [exists 1%Z, (-1)%Z, 2%Z|reflexivity]]];
    (split; [split; [exists 0%Z|]; cbn; lia|]); (split; [split; [exists (-1)%Z|]; cbn; lia|]); (split; [split; [exists 0%Z|]; cbn; lia|]); cbn; lia.
Qed.

(* C278: not so at the Nyquist frequency, where half of the wave is lost *)
Theorem C278_nyquist_refuted : exists N L m q A phi x, positive3 L /\ is_mode N m /\ image N m q (0, 0, 0)%Z /\ is_mode N x /\
  interlace N L (fun x => A * cos (wave N q (at_cell x) + phi)) (fun x => A * cos (wave N q (at_half x) + phi)) x = / 2 * (A * cos (wave N q (at_cell x) + phi)) /\
  A * cos (wave N q (at_cell x) + phi) = 1.
Proof.
  exists (1, 1, 2)%nat, (1, 1, 1), (0, 0, 1)%nat, (0, 0, -1)%Z, 1, 0, (0, 0, 0)%nat.
  assert (P : positive3 (1, 1, 1)) by (cbn; lra). assert (M : is_mode (1, 1, 2)%nat (0, 0, 1)%nat) by (cbn; lia).
  assert (I : image (1, 1, 2)%nat (0, 0, 1)%nat (0, 0, -1)%Z (0, 0, 0)%Z).
  { exists 0%Z, 0%Z, (-1)%Z. split; [split; [exists 0%Z; reflexivity|cbn; lia]|]. split; [split; [exists 0%Z; reflexivity|cbn; lia]|]. split; [split; [exists (-1)%Z; reflexivity|cbn; lia]|]. cbn. lia. }
  assert (W : 1 * cos (wave (1, 1, 2)%nat (0, 0, -1)%Z (at_cell (0, 0, 0)%nat) + 0) = 1).
  { replace (wave (1, 1, 2)%nat (0, 0, -1)%Z (at_cell (0, 0, 0)%nat) + 0) with 0; [rewrite cos_0; ring|]. unfold wave, at_cell. cbn [INR]. unfold Rdiv. ring. }
  split; [exact P|]. split; [exact M|]. split; [exact I|]. split; [cbn; lia|]. split; [|exact W]. rewrite W.
  unfold interlace, inverse, c2r. unfold cells, list_prod. cbn [seq map app]. cbn [rsum].
  assert (R0 : forall F, restore (1, 1, 2)%nat F (0, 0, 0)%nat = F (0, 0, 0)%nat) by reflexivity.
  assert (R1 : forall F, restore (1, 1, 2)%nat F (0, 0, 1)%nat = F (0, 0, 1)%nat) by reflexivity.
  assert (A0 : forall k, angle (1, 1, 2)%nat k (0, 0, 0)%nat = 0) by (intros k; rewrite angle_sym; apply angle_zero).
  rewrite R0, R1, !A0, cos_0, sin_0. unfold combine2.
  assert (FW := f_wav (1, 1, 2)%nat (0, 0, 1)%nat (0, 0, -1)%Z (0, 0, 0)%Z 1 0 M I). assert (GW := g_wav (1, 1, 2)%nat (1, 1, 1) (0, 0, 1)%nat (0, 0, -1)%Z (0, 0, 0)%Z 1 0 P M I). cbv beta zeta in FW, GW.
  assert (KH : kh (1, 1, 2)%nat (1, 1, 1) (0, 0, 1)%nat = - PI). { rewrite kh_turn by (cbn; lia || lra). unfold turn3. cbn. field. }
  rewrite KH in GW.
  rewrite !(r2c_ext _ _ _ _ (fun x _ => FW x)), !(r2c_ext _ _ _ _ (fun x _ => GW x)), !r2c_wav by (cbn; lia).
  replace (0 - / 2 * - PI - PI * IZR (order (0, 0, 0)%Z)) with (PI / 2) by (cbn; field). rewrite cos_PI2, sin_PI2, cos_0, sin_0.
  rewrite KH. cbn [eqm opposite Nat.eqb andb Nat.sub Nat.modulo Nat.divmod]. unfold cadd, cmul, cscale. cbn [fst snd Nat.eqb andb Nat.sub Nat.modulo Nat.divmod]. replace (/ 2 * - PI) with (- (PI / 2)) by field. rewrite cos_neg, sin_neg, cos_PI2, sin_PI2. field.
Qed.
Print Assumptions C278_nyquist_refuted.
