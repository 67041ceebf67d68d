From Verif Require Import Base.
From Coq Require Import Reals Lra.
From Verif Require Import RandModel RandProofs ThreeModel ThreeProofs SkyModel ConvModel MockModel MockSpec MockProofs MockMean DftModel DftSpec.
Local Open Scope R_scope.
Local Notation length := List.length.

(* equal up to whole turns *)
Definition turns (a b : R) : Prop := exists z : Z, a = b + IZR z.
Definition same (a b : R) : Prop := exists z : Z, a = b + 2 * PI * IZR z.
Lemma cos_Z x z : cos (x + 2 * PI * IZR z) = cos x.
Proof.
  destruct z as [|p|p]; [f_equal; ring| |].
  - rewrite <- (positive_nat_Z p), <- INR_IZR_INZ. replace (2 * PI * INR (Pos.to_nat p)) with (2 * INR (Pos.to_nat p) * PI) by ring. apply cos_period.
  - rewrite <- (cos_period _ (Pos.to_nat p)). f_equal. rewrite <- Pos2Z.opp_pos, opp_IZR, <- (positive_nat_Z p), <- INR_IZR_INZ. ring.
Qed.
Lemma same_cos a b : same a b -> cos a = cos b.
Proof. intros (z & ->). apply cos_Z. Qed.
Lemma same_sin a b : same a b -> sin a = sin b.
Proof. intros (z & ->). rewrite <- !cos_shift. replace (PI / 2 - (b + 2 * PI * IZR z)) with ((PI / 2 - b) + 2 * PI * IZR (- z)) by (rewrite opp_IZR; ring). apply cos_Z. Qed.
Lemma same_refl a : same a a.
Proof. exists 0%Z. ring. Qed.
Lemma same_sym a b : same a b -> same b a.
Proof. intros (z & ->). exists (- z)%Z. rewrite opp_IZR. ring. Qed.
Lemma same_trans a b c : same a b -> same b c -> same a c.
Proof. intros (z & ->) (y & ->). exists (z + y)%Z. rewrite plus_IZR. ring. Qed.
Lemma same_plus a b c d : same a b -> same c d -> same (a + c) (b + d).
Proof. intros (z & ->) (y & ->). exists (z + y)%Z. rewrite plus_IZR. ring. Qed.
Lemma same_opp a b : same a b -> same (- a) (- b).
Proof. intros (z & ->). exists (- z)%Z. rewrite opp_IZR. ring. Qed.
Lemma same_three a b c a' b' c' : turns a a' -> turns b b' -> turns c c' -> same (2 * PI * (a + b + c)) (2 * PI * (a' + b' + c')).
Proof. intros (x & ->) (y & ->) (z & ->). exists (x + y + z)%Z. rewrite !plus_IZR. ring. Qed.
Lemma turns_div n u v : (0 < n)%nat -> (Z.of_nat n | u - v)%Z -> turns (IZR u / INR n) (IZR v / INR n).
Proof.
  intros H (q & E). exists q. assert (0 < INR n) by (apply lt_0_INR; lia). replace u with (v + q * Z.of_nat n)%Z by lia. rewrite plus_IZR, mult_IZR, <- INR_IZR_INZ. field. lra.
Qed.
Lemma ax_minus n i a : (0 < n)%nat -> (a < n)%nat -> turns (INR (i * ((n - a) mod n)) / INR n) (- (INR (i * a) / INR n)).
Proof.
  intros H A. replace (- (INR (i * a) / INR n)) with (IZR (- Z.of_nat (i * a)) / INR n) by (rewrite opp_IZR, <- INR_IZR_INZ; field; apply not_0_INR; lia).
  rewrite INR_IZR_INZ. apply turns_div; [exact H|]. rewrite Nat2Z.inj_mul, Nat2Z.inj_mul, Nat2Z.inj_mod, Nat2Z.inj_sub by lia.
  rewrite Z.mod_eq by lia. exists (Z.of_nat i * (1 - (Z.of_nat n - Z.of_nat a) / Z.of_nat n))%Z. ring.
Qed.
Lemma ax_moved n i a b : (0 < n)%nat -> turns (INR (i * ((a + b) mod n)) / INR n) (INR (i * a) / INR n + INR (i * b) / INR n).
Proof.
  intros H. replace (INR (i * a) / INR n + INR (i * b) / INR n) with (IZR (Z.of_nat (i * a) + Z.of_nat (i * b)) / INR n) by (rewrite plus_IZR, <- !INR_IZR_INZ; field; apply not_0_INR; lia).
  rewrite INR_IZR_INZ. apply turns_div; [exact H|]. rewrite !Nat2Z.inj_mul, Nat2Z.inj_mod, Nat2Z.inj_add by lia.
  rewrite Z.mod_eq by lia. exists (Z.of_nat i * (- ((Z.of_nat a + Z.of_nat b) / Z.of_nat n)))%Z. ring.
Qed.
Lemma mode_size N m : is_mode N m -> mesh_size N.
Proof. destruct N as [[n0 n1] n2], m as [[i j] k]. cbn. lia. Qed.
Lemma zero_is N : mesh_size N -> is_mode N (0, 0, 0)%nat.
Proof. destruct N as [[n0 n1] n2]. cbn. lia. Qed.
Lemma angle_sym N m x : angle N m x = angle N x m.
Proof. destruct N as [[n0 n1] n2], m as [[i j] k], x as [[a b] c]. unfold angle. rewrite (Nat.mul_comm i), (Nat.mul_comm j), (Nat.mul_comm k). reflexivity. Qed.
Lemma angle_minus N m x : is_mode N x -> same (angle N m (opposite N x)) (- angle N m x).
Proof.
  destruct N as [[n0 n1] n2], m as [[i j] k], x as [[a b] c]. intros (A & B & C). unfold angle, opposite.
  replace (- (2 * PI * (INR (i * a) / INR n0 + INR (j * b) / INR n1 + INR (k * c) / INR n2))) with (2 * PI * (- (INR (i * a) / INR n0) + - (INR (j * b) / INR n1) + - (INR (k * c) / INR n2))) by ring.
  apply same_three; apply ax_minus; lia.
Qed.
Lemma angle_moved N m x r : mesh_size N -> same (angle N m (moved N x r)) (angle N m x + angle N m r).
Proof.
  destruct N as [[n0 n1] n2], m as [[i j] k], x as [[a b] c], r as [[u v] w]. intros (A & B & C). unfold angle, moved.
  rewrite <- Rmult_plus_distr_l. replace (INR (i * a) / INR n0 + INR (j * b) / INR n1 + INR (k * c) / INR n2 + (INR (i * u) / INR n0 + INR (j * v) / INR n1 + INR (k * w) / INR n2))
    with ((INR (i * a) / INR n0 + INR (i * u) / INR n0) + (INR (j * b) / INR n1 + INR (j * v) / INR n1) + (INR (k * c) / INR n2 + INR (k * w) / INR n2)) by ring.
  apply same_three; apply ax_moved; lia.
Qed.
Lemma moved_mode N x r : mesh_size N -> is_mode N (moved N x r).
Proof. destruct N as [[n0 n1] n2], x as [[a b] c], r as [[u v] w]. intros (A & B & C). cbn [moved is_mode]. repeat split; apply Nat.mod_upper_bound; lia. Qed.
Lemma mod_eqs n a b : (a < n)%nat -> (b < n)%nat -> ((a + (n - b) mod n) mod n = 0 -> a = b)%nat.
Proof. intros A B. destruct (Nat.eq_dec b 0) as [->|Z]; [rewrite Nat.sub_0_r, Nat.mod_same, Nat.add_0_r, Nat.mod_small by lia; tauto|]. rewrite (Nat.mod_small (n - b)) by lia. intros E.
  destruct (Nat.lt_ge_cases (a + (n - b)) n) as [Q|Q]; [rewrite Nat.mod_small in E; lia|]. replace (a + (n - b))%nat with ((a - b) + 1 * n)%nat in E by lia. rewrite Nat.mod_add, Nat.mod_small in E by lia. lia. Qed.
Lemma diff_zero N x y : is_mode N x -> is_mode N y -> moved N x (opposite N y) = (0, 0, 0)%nat -> x = y.
Proof.
  destruct N as [[n0 n1] n2], x as [[a b] c], y as [[u v] w]. intros (A & B & C) (U & V & W) E. cbn [moved opposite] in E. rewrite !pair_equal_spec in E. destruct E as ((E1 & E2) & E3).
  apply mod_eqs in E1; [|lia|lia]. apply mod_eqs in E2; [|lia|lia]. apply mod_eqs in E3; [|lia|lia]. congruence.
Qed.
Lemma eqm_iff x y : eqm x y = true <-> x = y.
Proof. destruct x as [[a b] c], y as [[a' b'] c']. unfold eqm. rewrite !andb_true_iff, !Nat.eqb_eq, !pair_equal_spec. tauto. Qed.
Lemma ncell_len N : ncell N = INR (length (cells N)).
Proof. rewrite cells_len. destruct N as [[n0 n1] n2]. rewrite !mult_INR. reflexivity. Qed.
Lemma ncell_pos N : mesh_size N -> 0 < ncell N.
Proof. destruct N as [[n0 n1] n2]. intros (A & B & C). unfold ncell. repeat apply Rmult_lt_0_compat; apply lt_0_INR; lia. Qed.
Lemma sum_const (c : R) : forall l : list mode, rsum (map (fun _ => c) l) = INR (length l) * c.
Proof. induction l as [|y l IH]; [cbn; ring|]. cbn [map rsum]. rewrite IH. change (length (y :: l)) with (Datatypes.S (length l)). rewrite S_INR. ring. Qed.
Lemma pick N (f : mode -> R) x : is_mode N x -> rsum (map (fun y => if eqm y x then f y else 0) (cells N)) = f x.
Proof. intros H. apply (rsum_one eqm f x eqm_iff); [apply cells_nodup|apply in_cells; exact H]. Qed.
(* the plane waves are orthogonal *)
Lemma ortho N x y phi : is_mode N x -> is_mode N y ->
  rsum (map (fun m => cos (phi + angle N m x - angle N m y)) (cells N)) = if eqm x y then ncell N * cos phi else 0.
Proof.
  intros X Y. assert (Z := mode_size N x X). set (d := moved N x (opposite N y)).
  assert (A : forall m, same (angle N m x - angle N m y) (angle N d m)).
  { intros m. rewrite angle_sym with (m := d). unfold d. apply same_sym. eapply same_trans; [apply angle_moved; exact Z|]. apply same_plus; [apply same_refl|apply angle_minus; exact Y]. }
  rewrite (rsum_ext' _ (fun m => cos (phi + angle N d m))).
  2:{ intros m _. unfold Rminus. rewrite Rplus_assoc. apply same_cos. apply same_plus; [apply same_refl|apply A]. }
  destruct (eqm x y) eqn:E.
  - apply eqm_iff in E. subst y. rewrite (rsum_ext' _ (fun _ => cos phi)); [rewrite sum_const, ncell_len; reflexivity|]. intros m _. apply same_cos.
    destruct (A m) as (z & E). exists (- z)%Z. rewrite opp_IZR. lra.
  - apply cells_cos; [apply moved_mode; exact Z|]. intros D. apply diff_zero in D; [|exact X|exact Y]. apply eqm_iff in D. congruence.
Qed.
(* the same sum over the cells *)
Lemma ortho' N m k phi : is_mode N m -> is_mode N k ->
  rsum (map (fun x => cos (phi + angle N m x - angle N k x)) (cells N)) = if eqm m k then ncell N * cos phi else 0.
Proof. intros X Y. rewrite <- (ortho N m k phi X Y). apply rsum_ext'. intros x _. rewrite (angle_sym N m), (angle_sym N k). reflexivity. Qed.
Lemma eqm_sym x y : eqm x y = eqm y x.
Proof. apply eq_true_iff_eq. rewrite !eqm_iff. split; congruence. Qed.

(* c2r undoes r2c *)
Lemma c2r_r2c N f x : is_mode N x -> c2r N (r2c N f) x = f x.
Proof.
  intros X. assert (Z := ncell_pos N (mode_size N x X)). unfold c2r, r2c. cbn [fst snd].
  rewrite (rsum_ext' _ (fun m => / ncell N * rsum (map (fun y => f y * cos (0 + angle N m x - angle N m y)) (cells N)))).
  2:{ intros m _. set (a := angle N m x). rewrite (rsum_ext' (fun y => f y * cos (0 + a - angle N m y)) (fun y => cos a * (f y * cos (angle N m y)) + sin a * (f y * sin (angle N m y)))).
      - rewrite rsum_plus, !rsum_scl. ring.
      - intros y _. rewrite Rplus_0_l, cos_minus. ring. }
  rewrite rsum_scl, rsum_swap. rewrite (rsum_ext' _ (fun y => if eqm y x then f y * ncell N else 0)).
  - rewrite (pick N (fun y => f y * ncell N) x X). field. lra.
  - intros y Y. apply in_cells in Y. rewrite rsum_scl, ortho by assumption. rewrite eqm_sym. destruct (eqm y x); [rewrite cos_0; ring|ring].
Qed.
Lemma opposite_twice N m : is_mode N m -> opposite N (opposite N m) = m.
Proof.
  destruct N as [[n0 n1] n2], m as [[i j] k]. intros (A & B & C). cbn [opposite].
  assert (G : forall n i, (i < n)%nat -> ((n - (n - i) mod n) mod n = i)%nat).
  { intros n a H. destruct (Nat.eq_dec a 0) as [->|Q]; [rewrite Nat.sub_0_r, Nat.mod_same, Nat.sub_0_r, Nat.mod_same by lia; reflexivity|]. rewrite (Nat.mod_small (n - a)) by lia. rewrite Nat.mod_small by lia. lia. }
  rewrite !G by assumption. reflexivity.
Qed.
Lemma angle_minus_l N m x : is_mode N m -> same (angle N (opposite N m) x) (- angle N m x).
Proof. intros H. rewrite (angle_sym N _ x), (angle_sym N m x). apply angle_minus. exact H. Qed.
Lemma r2c_hermitian N f : hermitian N (r2c N f).
Proof.
  intros m H. unfold r2c. cbn [fst snd]. f_equal.
  - f_equal. apply rsum_ext'. intros x _. rewrite (same_cos _ _ (angle_minus_l N m x H)), cos_neg. reflexivity.
  - f_equal. rewrite <- Ropp_mult_distr_r_reverse. f_equal. rewrite <- (Rmult_1_l (rsum (map (fun x => f x * sin (angle N m x)) (cells N)))), <- Ropp_mult_distr_l_reverse, <- rsum_scl.
    apply rsum_ext'. intros x _. rewrite (same_sin _ _ (angle_minus_l N m x H)), sin_neg. ring.
Qed.
(* r2c of c2r keeps the part of the modes that belongs to a real field *)
Definition half_of (a b : comp) : comp := (/ 2 * (fst a + fst b), / 2 * (snd a - snd b)).
Lemma r2c_c2r N F m : is_mode N m -> r2c N (c2r N F) m = half_of (F m) (F (opposite N m)).
Proof.
  intros M. assert (M' := opposite_mode N m M). assert (Z := ncell_pos N (mode_size N m M)).
  assert (G : forall phi, rsum (map (fun x => c2r N F x * cos (phi + angle N m x)) (cells N))
    = ncell N / 2 * ((fst (F (opposite N m)) * cos phi - snd (F (opposite N m)) * sin phi) + (fst (F m) * cos phi + snd (F m) * sin phi))).
  { intros phi. unfold c2r.
    rewrite (rsum_ext' _ (fun x => rsum (map (fun k => / 2 * (fst (F k) * cos (phi + angle N k x - angle N (opposite N m) x) + snd (F k) * cos ((PI / 2 + phi) + angle N k x - angle N (opposite N m) x)
       + fst (F k) * cos (- phi + angle N k x - angle N m x) + snd (F k) * cos ((PI / 2 - phi) + angle N k x - angle N m x))) (cells N)))).
    2:{ intros x _. rewrite Rmult_comm, <- rsum_scl. apply rsum_ext'. intros k _. set (a := angle N k x). set (b := angle N m x).
        assert (O := angle_minus_l N m x M). fold b in O. assert (P : same (- angle N (opposite N m) x) b) by (replace b with (- - b) by ring; apply same_opp; exact O).
        assert (E1 : cos (phi + a - angle N (opposite N m) x) = cos (phi + a + b)) by (apply same_cos; unfold Rminus; apply same_plus; [apply same_refl|exact P]).
        assert (E2 : cos (PI / 2 + phi + a - angle N (opposite N m) x) = cos (PI / 2 - - (phi + a + b))) by (replace (PI / 2 - - (phi + a + b)) with (PI / 2 + phi + a + b) by ring; apply same_cos; unfold Rminus; apply same_plus; [apply same_refl|exact P]).
        rewrite E1, E2. replace (PI / 2 - phi + a - b) with (PI / 2 - (phi + b - a)) by ring. rewrite !cos_shift, sin_neg.
        replace (- phi + a - b) with (- (phi + b - a)) by ring. rewrite cos_neg. replace (phi + a + b) with ((phi + b) + a) by ring.
        generalize (phi + b). intros c. rewrite sin_plus, sin_minus, cos_plus, cos_minus.
        field. }
    rewrite rsum_swap.
    rewrite (rsum_ext' _ (fun k => (if eqm k (opposite N m) then / 2 * ncell N * (fst (F k) * cos phi - snd (F k) * sin phi) else 0) + (if eqm k m then / 2 * ncell N * (fst (F k) * cos phi + snd (F k) * sin phi) else 0))).
    2:{ intros k K. apply in_cells in K. rewrite rsum_scl, !rsum_plus, !rsum_scl, !ortho' by assumption.
        replace (PI / 2 + phi) with (PI / 2 - - phi) by ring. rewrite !cos_shift, sin_neg, cos_neg. destruct (eqm k (opposite N m)), (eqm k m); ring. }
    rewrite rsum_plus. rewrite (pick N (fun k => / 2 * ncell N * (fst (F k) * cos phi - snd (F k) * sin phi)) _ M'), (pick N (fun k => / 2 * ncell N * (fst (F k) * cos phi + snd (F k) * sin phi)) _ M). field. }
  unfold r2c, half_of. f_equal.
  - rewrite (rsum_ext' _ (fun x => c2r N F x * cos (0 + angle N m x))) by (intros; rewrite Rplus_0_l; reflexivity). rewrite G, cos_0, sin_0. field. lra.
  - rewrite (rsum_ext' _ (fun x => c2r N F x * cos (- (PI / 2) + angle N m x))).
    2:{ intros x _. replace (- (PI / 2) + angle N m x) with (- (PI / 2 - angle N m x)) by ring. rewrite cos_neg, cos_shift. reflexivity. }
    rewrite G, cos_neg, sin_neg, cos_PI2, sin_PI2. field. lra.
Qed.
Lemma restore_hermitian N F m : hermitian N F -> is_mode N m -> restore N F m = F m.
Proof.
  intros H M. unfold restore. destruct (stored N m); [reflexivity|]. change (minus N m) with (opposite N m). rewrite (H m M). unfold conj. cbn [fst snd]. rewrite Ropp_involutive. destruct (F m); reflexivity.
Qed.
Lemma c2r_ext N F G x : (forall m, is_mode N m -> F m = G m) -> c2r N F x = c2r N G x.
Proof. intros H. unfold c2r. apply rsum_ext'. intros m M. apply in_cells in M. rewrite (H m M). reflexivity. Qed.
Lemma inverse_hermitian N F x : hermitian N F -> inverse N F x = c2r N F x.
Proof. intros H. apply c2r_ext. intros m M. apply restore_hermitian; assumption. Qed.
Lemma inverse_r2c N f x : is_mode N x -> inverse N (r2c N f) x = f x.
Proof. intros X. rewrite inverse_hermitian by apply r2c_hermitian. apply c2r_r2c. exact X. Qed.
Lemma r2c_inverse N F m : hermitian N F -> is_mode N m -> r2c N (inverse N F) m = F m.
Proof.
  intros H M. replace (r2c N (inverse N F) m) with (r2c N (c2r N F) m).
  - rewrite r2c_c2r by exact M. rewrite (H m M). unfold half_of. cbn [fst snd]. destruct (F m) as [a b]. cbn [fst snd]. f_equal; field.
  - unfold r2c. f_equal; [|f_equal]; f_equal; apply rsum_ext'; intros x _; rewrite (inverse_hermitian N F x H); reflexivity.
Qed.
Lemma r2c_ext N f g m : (forall x, is_mode N x -> f x = g x) -> r2c N f m = r2c N g m.
Proof. intros H. unfold r2c. f_equal; [|f_equal]; f_equal; apply rsum_ext'; intros x X; apply in_cells in X; rewrite (H x X); reflexivity. Qed.
Lemma angle_zero N x : angle N (0, 0, 0)%nat x = 0.
Proof. destruct N as [[n0 n1] n2], x as [[a b] c]. unfold angle. rewrite !Nat.mul_0_l. cbn [INR]. unfold Rdiv. ring. Qed.
Lemma r2c_zero N f : r2c N f (0, 0, 0)%nat = (average N f, 0).
Proof.
  unfold r2c, average, grid_mean. f_equal.
  - rewrite (rsum_ext' _ f) by (intros; rewrite angle_zero, cos_0; ring). rewrite ncell_len. unfold Rdiv. ring.
  - rewrite rsum_zero by (intros; rewrite angle_zero, sin_0; ring). ring.
Qed.
