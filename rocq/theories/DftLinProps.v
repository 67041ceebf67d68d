(* From linear meshes to measured power and reconstructed displacements: MockModel, DftModel and RecModel together. *)
From Verif Require Import Base.
From Coq Require Import Reals Lra.
From Verif Require Import RandModel RandProofs ThreeModel ThreeProofs SkyModel ConvModel MockModel MockSpec MockProofs MockMean DftModel DftSpec DftProofs DftMain RecModel RecProps.
Local Open Scope R_scope.

Lemma linear_zero N L P white inv : positive3 L -> mesh_size N -> linear_complex N L P white inv (0, 0, 0)%nat = (1, 0).
Proof.
  intros HL Z. unfold linear_complex. rewrite (proj2 (kvec0 N L (0, 0, 0)%nat HL (zero_is N Z)) eq_refl).
  assert (E : ceq0 0 = true) by (apply ceq0_iff; reflexivity). rewrite E. reflexivity.
Qed.
Lemma linear_delta N L P white inv m : positive3 L -> is_mode N m -> m <> (0, 0, 0)%nat -> linear_complex N L P white inv m = delta N L P white inv m.
Proof.
  intros HL M H. unfold linear_complex. destruct (kvec N L m) as [[a b] c] eqn:E. destruct (ceq0 a && ceq0 b && ceq0 c) eqn:Q; [|reflexivity].
  exfalso. rewrite !andb_true_iff, !ceq0_iff in Q. destruct Q as ((-> & ->) & ->). apply H. apply (kvec0 N L m HL M). exact E.
Qed.
Lemma linear_hermitian N L P white inv : positive3 L -> hermitian N white -> hermitian N (linear_complex N L P white inv).
Proof.
  intros HL W m M. destruct (is_zero m) eqn:Z.
  - apply is_zero_iff in Z. subst m. assert (O : opposite N (0, 0, 0)%nat = (0, 0, 0)%nat) by (apply is_zero_iff; rewrite (opposite_zero N _ M); reflexivity).
    rewrite O, (linear_zero N L P white inv HL (mode_size N _ M)). cbn [fst snd]. f_equal. ring.
  - assert (H : m <> (0, 0, 0)%nat) by (intros E; apply is_zero_iff in E; congruence).
    assert (H' : opposite N m <> (0, 0, 0)%nat) by (intros E; apply is_zero_iff in E; rewrite (opposite_zero N m M) in E; congruence).
    rewrite (linear_delta N L P white inv m HL M H), (linear_delta N L P white inv _ HL (opposite_mode N m M) H'). apply delta_hermitian; assumption.
Qed.
(* the real field of a LinearMesh *)
Definition linear_field (N : mode) (L : point) (P : R -> R) (white : mode -> comp) (inverted : bool) : mode -> R := inverse N (linear_complex N L P white inverted).

(* C281: the power measured from a linear mesh is the input power times the squared amplitude of the white noise *)
Theorem C281_measured : forall N L P white inverted m k, positive3 L -> hermitian N white -> is_mode N m -> m <> (0, 0, 0)%nat -> wavevector N L m k -> 0 <= P (size3 k) ->
  let d := linear_field N L P white inverted in
  power N L d d m = (P (size3 k) * cabs2 (white m), 0) /\
  (* the mesh with inverted phases is anticorrelated *)
  power N L d (linear_field N L P white (negb inverted)) m = (- (P (size3 k) * cabs2 (white m)), 0).
Proof.
  intros N L P white inv m k HL W M H K HP. cbn zeta. rewrite !power_raw. replace (is_zero m) with false by (symmetry; apply not_true_iff_false; rewrite is_zero_iff; exact H).
  unfold raw, linear_field. rewrite !r2c_inverse by (try apply linear_hermitian; assumption). rewrite !linear_delta by assumption.
  assert (E := delta_power N L P white inv m k HL M H K HP). change (box_volume L) with (vol L) in E.
  assert (I : delta N L P white (negb inv) m = cscale (-1) (delta N L P white inv m)).
  { destruct inv; cbn [negb]; [|apply inverted_delta]. rewrite inverted_delta. unfold cscale. cbn [fst snd]. destruct (delta N L P white false m). cbn [fst snd]. f_equal; ring. }
  rewrite I. set (z := delta N L P white inv m) in *. unfold cabs2 in E. unfold cscale, cmul, conj. cbn [fst snd]. split; f_equal.
  - unfold cabs2. rewrite <- E. ring.
  - ring.
  - unfold cabs2. rewrite <- E. ring.
  - ring.
Qed.
Print Assumptions C281_measured.
(* with unit amplitudes (unitary_amplitude=True) it is the input power, in every mode; the mean of the mesh is 1 *)
Theorem C281_unitary : forall N L P white inverted, positive3 L -> hermitian N white -> mesh_size N ->
  (forall m, is_mode N m -> cabs2 (white m) = 1) -> (forall q, 0 <= P q) ->
  (forall m k, is_mode N m -> m <> (0, 0, 0)%nat -> wavevector N L m k ->
     power N L (linear_field N L P white inverted) (linear_field N L P white inverted) m = (P (size3 k), 0)) /\
  grid_mean N (linear_field N L P white inverted) = 1.
Proof.
  intros N L P white inv HL W Z U HP. split.
  - intros m k M H K. rewrite (proj1 (C281_measured N L P white inv m k HL W M H K (HP _))), (U m M), Rmult_1_r. reflexivity.
  - unfold linear_field. rewrite inverse_mean by exact Z. rewrite linear_zero by assumption. reflexivity.
Qed.
Print Assumptions C281_unitary.
Example C281_case : hermitian (2, 3, 4)%nat (fun _ => (1, 0)) /\ (forall m, is_mode (2, 3, 4)%nat m -> cabs2 (1, 0) = 1) /\ mesh_size (2, 3, 4)%nat.
Proof. split; [intros m _; cbn [fst snd]; f_equal; ring|]. split; [intros _ _; unfold cabs2; cbn [fst snd]; ring|]. cbn. lia. Qed.

(* C282: reconstructing a linear mesh without smoothing, bias or distortions gives the displacement of the mock *)
Theorem C282_mock : forall N L P white inverted los d x, positive3 L -> hermitian N white -> is_mode N x ->
  displacement N L los 1 0 0 (linear_field N L P white inverted) d x = inverse N (disp N L P white inverted d) x.
Proof.
  intros N L P white inv los d x HL W X. unfold displacement. apply inverse_ext. intros m M. unfold linear_field. rewrite r2c_inverse by (try apply linear_hermitian; assumption).
  unfold kernel, frac, disp. rewrite Rmult_0_r, Rmult_0_r, exp_0. replace (/ (1 * (1 + 0 / 1 * (mu_of los (kvec N L m) * mu_of los (kvec N L m))))) with 1 by field.
  assert (C : forall v, cscale 1 (cscale 1 v) = v) by (intros [a b]; unfold cscale; cbn [fst snd]; f_equal; ring). rewrite C.
  destruct (zero_idx N L m) eqn:Z.
  - apply (zero_mode N L m HL M) in Z. subst m. rewrite (proj2 (kvec0 N L (0, 0, 0)%nat HL M) eq_refl). replace (comp3 d (0, 0, 0)) with 0 by (destruct d as [|[|d]]; reflexivity). unfold cmul, cscale, Rdiv. cbn [fst snd]. f_equal; ring.
  - assert (H : m <> (0, 0, 0)%nat). { intros E. apply (zero_mode N L m HL M) in E. congruence. } rewrite (linear_delta N L P white inv m HL M H).
    assert (K1 : comp3 d (kvec N L m) = kcomp N L d m) by (unfold comp3, kcomp; destruct (kvec N L m) as [[a b] c]; reflexivity).
    assert (K2 : safe2 (kvec N L m) = k2_safe N L m) by reflexivity. rewrite K1, K2. reflexivity.
Qed.
Print Assumptions C282_mock.
