From Verif Require Import Base.
From Coq Require Import Reals Lra.
From Verif Require Import RandModel RandProofs ThreeModel ThreeProofs SkyModel ConvModel MockModel MockSpec MockProofs MockMean DftModel DftSpec DftProofs.
Local Open Scope R_scope.
Local Notation length := List.length.

Lemma cross N f g m psi : let p := cmul (r2c N f m) (conj (r2c N g m)) in
  fst p * cos psi - snd p * sin psi = / ncell N * / ncell N * rsum (map (fun x => rsum (map (fun y => f x * g y * cos (psi + angle N m y - angle N m x)) (cells N))) (cells N)).
Proof.
  cbn zeta. unfold r2c, cmul, conj. cbn [fst snd].
  set (A := rsum (map (fun x => f x * cos (angle N m x)) (cells N))). set (B := rsum (map (fun x => f x * sin (angle N m x)) (cells N))).
  set (C := rsum (map (fun x => g x * cos (angle N m x)) (cells N))). set (D := rsum (map (fun x => g x * sin (angle N m x)) (cells N))).
  rewrite (rsum_ext' _ (fun x => (C * cos psi - D * sin psi) * (f x * cos (angle N m x)) + (C * sin psi + D * cos psi) * (f x * sin (angle N m x)))).
  - rewrite rsum_plus, !rsum_scl. fold A B. ring.
  - intros x _. set (a := angle N m x).
    rewrite (rsum_ext' _ (fun y => (f x * cos (psi - a)) * (g y * cos (angle N m y)) + (- f x * sin (psi - a)) * (g y * sin (angle N m y)))).
    + rewrite rsum_plus, !rsum_scl. fold C D. rewrite cos_minus, sin_minus. ring.
    + intros y _. replace (psi + angle N m y - a) with ((psi - a) + angle N m y) by ring. rewrite (cos_plus (psi - a)). ring.
Qed.
Lemma is_zero_iff m : is_zero m = true <-> m = (0, 0, 0)%nat.
Proof. destruct m as [[i j] k]. unfold is_zero. rewrite !andb_true_iff, !Nat.eqb_eq, !pair_equal_spec. tauto. Qed.
Definition vol (L : point) : R := let '(l0, l1, l2) := L in l0 * l1 * l2.
Definition raw (N : mode) (f g : mode -> R) (m : mode) : comp := cmul (r2c N f m) (conj (r2c N g m)).
Lemma power_raw N L f g m : power N L f g m = if is_zero m then (0, 0) else cscale (vol L) (raw N f g m).
Proof. unfold power, vol, raw. destruct L as [[l0 l1] l2]. destruct (is_zero m); [|reflexivity]. unfold cscale. cbn [fst snd]. f_equal; ring. Qed.
Lemma opposite_zero N m : is_mode N m -> is_zero (opposite N m) = is_zero m.
Proof.
  intros M. apply eq_true_iff_eq. rewrite !is_zero_iff. assert (O0 : opposite N (0, 0, 0)%nat = (0, 0, 0)%nat). { destruct N as [[n0 n1] n2], m as [[i j] k]. destruct M as (A & B & C). cbn [opposite]. rewrite !Nat.sub_0_r, !Nat.mod_same by lia. reflexivity. }
  split; intros E; [rewrite <- (opposite_twice N m M), E|subst m]; exact O0.
Qed.
Lemma power_hermitian N L f g : hermitian N (power N L f g).
Proof.
  intros m M. rewrite !power_raw, (opposite_zero N m M). destruct (is_zero m); [cbn [fst snd]; f_equal; ring|].
  unfold raw. rewrite !(r2c_hermitian N _ m M). unfold cscale, cmul, conj. cbn [fst snd]. f_equal; ring.
Qed.
Lemma raw_zero N f g : raw N f g (0, 0, 0)%nat = (average N f * average N g, 0).
Proof. unfold raw. rewrite !r2c_zero. unfold cmul, conj. cbn [fst snd]. f_equal; ring. Qed.
(* sum of the power over all modes, with a phase *)
Lemma power_sum N L f g (psi : mode -> R) : mesh_size N ->
  rsum (map (fun m => fst (power N L f g m) * cos (psi m) - snd (power N L f g m) * sin (psi m)) (cells N))
  = vol L * (rsum (map (fun m => fst (raw N f g m) * cos (psi m) - snd (raw N f g m) * sin (psi m)) (cells N)) - average N f * average N g * cos (psi (0, 0, 0)%nat)).
Proof.
  intros Z. rewrite (rsum_ext' _ (fun m => vol L * (fst (raw N f g m) * cos (psi m) - snd (raw N f g m) * sin (psi m)) + (if eqm m (0, 0, 0)%nat then - (vol L * (average N f * average N g * cos (psi m))) else 0))).
  - rewrite rsum_plus, rsum_scl. rewrite (pick N (fun m => - (vol L * (average N f * average N g * cos (psi m)))) _ (zero_is N Z)). ring.
  - intros m _. rewrite power_raw. change (eqm m (0, 0, 0)%nat) with (let '(a, b, c) := m in ((a =? 0) && (b =? 0) && (c =? 0))%nat). fold (is_zero m). destruct (is_zero m) eqn:E.
    + apply is_zero_iff in E. subst m. rewrite raw_zero. cbn [fst snd]. ring.
    + unfold cscale. cbn [fst snd]. ring.
Qed.
Lemma raw_sum N f g r : mesh_size N -> rsum (map (fun m => fst (raw N f g m) * cos (angle N m r) - snd (raw N f g m) * sin (angle N m r)) (cells N)) = average N (fun y => f (moved N y r) * g y).
Proof.
  intros Z. assert (P := ncell_pos N Z).
  rewrite (rsum_ext' _ _ _ (fun m _ => cross N f g m (angle N m r))). rewrite rsum_scl, rsum_swap.
  rewrite (rsum_ext' _ (fun x => rsum (map (fun y => if eqm (moved N y r) x then f (moved N y r) * g y * ncell N else 0) (cells N)))).
  - rewrite rsum_swap. rewrite (rsum_ext' _ (fun y => ncell N * (f (moved N y r) * g y))).
    + rewrite rsum_scl. unfold average, grid_mean. rewrite <- ncell_len. field. lra.
    + intros y Y. rewrite (rsum_ext' _ (fun x => if eqm x (moved N y r) then f (moved N y r) * g y * ncell N else 0)) by (intros x _; rewrite eqm_sym; reflexivity).
      rewrite (pick N (fun _ => f (moved N y r) * g y * ncell N) _ (moved_mode N y r Z)). ring.
  - intros x X. apply in_cells in X. rewrite rsum_swap. apply rsum_ext'. intros y Y. apply in_cells in Y. rewrite rsum_scl.
    rewrite (rsum_ext' _ (fun m => cos (0 + angle N m (moved N y r) - angle N m x))).
    + rewrite ortho by (try apply moved_mode; assumption). destruct (eqm (moved N y r) x) eqn:E; [|ring]. apply eqm_iff in E. rewrite E, cos_0. ring.
    + intros m _. apply same_cos. unfold Rminus. apply same_plus; [|apply same_refl]. rewrite Rplus_0_l, (Rplus_comm (angle N m r)). apply same_sym, angle_moved. exact Z.
Qed.
Lemma correlation_pairs N L f g r : is_mode N r -> vol L <> 0 -> correlation N L f g r = average N (fun y => f (moved N y r) * g y) - average N f * average N g.
Proof.
  intros M V. assert (Z := mode_size N r M). unfold correlation. fold (vol L). rewrite inverse_hermitian by apply power_hermitian. unfold c2r. rewrite (power_sum N L f g (fun m => angle N m r) Z), (raw_sum N f g r Z), angle_zero, cos_0.
  generalize dependent (vol L). intros v V. field. exact V.
Qed.
Lemma moved_zero N y : is_mode N y -> moved N y (0, 0, 0)%nat = y.
Proof. destruct N as [[n0 n1] n2], y as [[a b] c]. intros (A & B & C). cbn [moved]. rewrite !Nat.add_0_r, !Nat.mod_small by assumption. reflexivity. Qed.
Lemma average_ext N f g : (forall x, is_mode N x -> f x = g x) -> average N f = average N g.
Proof. intros H. unfold average, grid_mean. f_equal. apply rsum_ext'. intros x X. apply H, in_cells, X. Qed.
Lemma power_total N L f g : mesh_size N -> rsum (map (fun m => fst (power N L f g m)) (cells N)) = vol L * (average N (fun x => f x * g x) - average N f * average N g).
Proof.
  intros Z. assert (E := power_sum N L f g (fun m => angle N m (0, 0, 0)%nat) Z). cbv beta in E. rewrite (raw_sum N f g _ Z), angle_zero, cos_0 in E.
  rewrite (average_ext N (fun y => f (moved N y (0, 0, 0)%nat) * g y) (fun y => f y * g y)) in E by (intros x X; rewrite moved_zero by exact X; reflexivity).
  rewrite Rmult_1_r in E. rewrite <- E. apply rsum_ext'. intros m _. rewrite (angle_sym N m), angle_zero, cos_0, sin_0. ring.
Qed.
Lemma power_total_im N L f g : mesh_size N -> rsum (map (fun m => snd (power N L f g m)) (cells N)) = 0.
Proof.
  intros Z. assert (E := power_sum N L f g (fun _ => - (PI / 2)) Z). cbv beta in E. rewrite cos_neg, cos_PI2, Rmult_0_r, Rminus_0_r in E.
  rewrite (rsum_ext' _ (fun m => fst (power N L f g m) * 0 - snd (power N L f g m) * sin (- (PI / 2)))) by (intros; rewrite sin_neg, sin_PI2; ring).
  rewrite E. replace (rsum _) with 0; [ring|].
  rewrite (rsum_ext' _ (fun m => fst (raw N f g m) * cos (- (PI / 2)) - snd (raw N f g m) * sin (- (PI / 2)))) by (intros; rewrite cos_neg, cos_PI2; reflexivity).
  rewrite (rsum_ext' _ _ _ (fun m _ => cross N f g m (- (PI / 2)))). rewrite rsum_scl, rsum_swap. rewrite rsum_zero; [ring|].
  intros x X. apply in_cells in X. rewrite rsum_swap. apply rsum_zero. intros y Y. apply in_cells in Y. rewrite rsum_scl, ortho by assumption. rewrite cos_neg, cos_PI2. destruct (eqm y x); ring.
Qed.
Lemma auto_real N L f m : positive3 L -> snd (power N L f f m) = 0 /\ 0 <= fst (power N L f f m).
Proof.
  intros H. rewrite power_raw. destruct (is_zero m); [cbn [fst snd]; lra|]. unfold raw, cmul, conj, cscale. cbn [fst snd]. split; [ring|].
  assert (0 < vol L). { destruct L as [[l0 l1] l2]. destruct H as (A & B & C). unfold vol. repeat apply Rmult_lt_0_compat; assumption. } nra.
Qed.
Lemma power_swap N L f g m : power N L g f m = conj (power N L f g m).
Proof. rewrite !power_raw. destruct (is_zero m); unfold raw, cmul, conj, cscale; cbn [fst snd]; f_equal; ring. Qed.
(* a field moved by whole cells: every mode is turned *)
Lemma r2c_moved N f r m : mesh_size N -> is_mode N m -> r2c N (fun x => f (moved N x r)) m = cmul (r2c N f m) (cos (angle N m r), sin (angle N m r)).
Proof.
  intros Z M. set (F := fun m => cmul (r2c N f m) (cos (angle N m r), sin (angle N m r))).
  assert (H : hermitian N F). { intros k K. unfold F. rewrite (r2c_hermitian N f k K), (same_cos _ _ (angle_minus_l N k r K)), (same_sin _ _ (angle_minus_l N k r K)), cos_neg, sin_neg. unfold cmul. cbn [fst snd]. f_equal; ring. }
  change (cmul (r2c N f m) (cos (angle N m r), sin (angle N m r))) with (F m). rewrite <- (r2c_inverse N F m H M). apply r2c_ext. intros x X.
  rewrite inverse_hermitian by exact H. rewrite <- (c2r_r2c N f (moved N x r) (moved_mode N x r Z)). unfold c2r. apply rsum_ext'. intros k _. unfold F, cmul. cbn [fst snd].
  rewrite (same_cos _ _ (angle_moved N k x r Z)), (same_sin _ _ (angle_moved N k x r Z)), cos_plus, sin_plus. ring.
Qed.
Lemma power_moved N L f g r m : mesh_size N -> is_mode N m -> power N L (fun x => f (moved N x r)) (fun x => g (moved N x r)) m = power N L f g m.
Proof.
  intros Z M. rewrite !power_raw. destruct (is_zero m); [reflexivity|]. unfold raw. rewrite !r2c_moved by assumption. f_equal. unfold cmul, conj. cbn [fst snd].
  assert (E := sin2_cos2 (angle N m r)). unfold Rsqr in E. set (c := cos (angle N m r)) in *. set (s := sin (angle N m r)) in *. set (a := r2c N f m). set (b := r2c N g m). f_equal.
  - transitivity ((s * s + c * c) * (fst a * fst b - snd a * - snd b)); [ring|rewrite E; ring].
  - transitivity ((s * s + c * c) * (fst a * - snd b + snd a * fst b)); [ring|rewrite E; ring].
Qed.
Lemma r2c_offset N f a c m : is_mode N m -> m <> (0, 0, 0)%nat -> r2c N (fun x => a * f x + c) m = cscale a (r2c N f m).
Proof.
  intros M H. assert (C0 : rsum (map (fun x => cos (angle N m x)) (cells N)) = 0). { rewrite <- (cells_cos N m 0 M H). apply rsum_ext'. intros; rewrite Rplus_0_l; reflexivity. }
  assert (S0 : rsum (map (fun x => sin (angle N m x)) (cells N)) = 0). { rewrite <- (cells_cos N m (- (PI / 2)) M H). apply rsum_ext'. intros x _. replace (- (PI / 2) + angle N m x) with (- (PI / 2 - angle N m x)) by ring. rewrite cos_neg, cos_shift. reflexivity. }
  unfold r2c, cscale. cbn [fst snd]. f_equal.
  - rewrite (rsum_ext' _ (fun x => a * (f x * cos (angle N m x)) + c * cos (angle N m x))) by (intros; ring). rewrite rsum_plus, !rsum_scl, C0. ring.
  - rewrite (rsum_ext' _ (fun x => a * (f x * sin (angle N m x)) + c * sin (angle N m x))) by (intros; ring). rewrite rsum_plus, !rsum_scl, S0. ring.
Qed.
Lemma power_offset N L f g a b c d m : is_mode N m -> power N L (fun x => a * f x + c) (fun x => b * g x + d) m = cscale (a * b) (power N L f g m).
Proof.
  intros M. rewrite !power_raw. destruct (is_zero m) eqn:E; [unfold cscale; cbn [fst snd]; f_equal; ring|].
  assert (H : m <> (0, 0, 0)%nat) by (intros Q; apply is_zero_iff in Q; congruence). unfold raw. rewrite !r2c_offset by assumption. unfold cscale, cmul, conj. cbn [fst snd]. f_equal; ring.
Qed.
(* transform of a plane wave *)
Definition wav (N m : mode) (A phi : R) (x : mode) : R := A * cos (phi + angle N m x).
Lemma r2c_wav N m A phi k : is_mode N m -> is_mode N k ->
  r2c N (wav N m A phi) k = cadd (if eqm m k then (A / 2 * cos phi, A / 2 * sin phi) else (0, 0)) (if eqm m (opposite N k) then (A / 2 * cos phi, - (A / 2 * sin phi)) else (0, 0)).
Proof.
  intros M K. assert (K' := opposite_mode N k K). assert (P := ncell_pos N (mode_size N m M)). unfold r2c, wav, cadd.
  assert (O : forall x, same (- angle N (opposite N k) x) (angle N k x)). { intros x. replace (angle N k x) with (- - angle N k x) by ring. apply same_opp, angle_minus_l. exact K. }
  assert (C1 : forall ps x, cos (ps + angle N m x - angle N (opposite N k) x) = cos (ps + angle N m x + angle N k x)). { intros ps x. apply same_cos. unfold Rminus. apply same_plus; [apply same_refl|apply O]. }
  f_equal.
  - rewrite (rsum_ext' _ (fun x => A / 2 * (cos (phi + angle N m x - angle N k x) + cos (phi + angle N m x - angle N (opposite N k) x)))).
    + rewrite rsum_scl, rsum_plus, !ortho' by assumption. destruct (eqm m k), (eqm m (opposite N k)); cbn [fst snd]; field; lra.
    + intros x _. rewrite C1, (cos_plus (phi + angle N m x)), (cos_minus (phi + angle N m x)). field.
  - rewrite (rsum_ext' _ (fun x => A / 2 * (cos ((phi - PI / 2) + angle N m x - angle N (opposite N k) x) + - 1 * cos ((phi - PI / 2) + angle N m x - angle N k x)))).
    + rewrite rsum_scl, rsum_plus, rsum_scl, !ortho' by assumption. replace (phi - PI / 2) with (- (PI / 2 - phi)) by ring. rewrite cos_neg, cos_shift. destruct (eqm m k), (eqm m (opposite N k)); cbn [fst snd]; field; lra.
    + intros x _. rewrite C1. replace (phi - PI / 2 + angle N m x + angle N k x) with (- (PI / 2 - (phi + angle N m x + angle N k x))) by ring.
      replace (phi - PI / 2 + angle N m x - angle N k x) with (- (PI / 2 - (phi + angle N m x - angle N k x))) by ring. rewrite !cos_neg, !cos_shift, (sin_plus (phi + angle N m x)), (sin_minus (phi + angle N m x)). field.
Qed.
