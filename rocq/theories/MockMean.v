From Verif Require Import Base.
From Coq Require Import Reals Lra Permutation.
From Verif Require Import RandModel RandProofs ThreeModel ThreeProofs SkyModel SkyProofs ConvModel MockModel MockSpec MockProofs.
Local Open Scope R_scope.
Local Notation length := List.length.

Lemma rsum_list_prod {A B} (f : A * B -> R) : forall l k, rsum (map f (list_prod l k)) = rsum (map (fun a => rsum (map (fun b => f (a, b)) k)) l).
Proof. induction l as [|a l IH]; intros k; cbn [list_prod map rsum]; [reflexivity|]. rewrite map_app, rsum_app, IH, map_map. reflexivity. Qed.
Lemma telescope phi th : forall n s, 2 * sin (th / 2) * rsum (map (fun a => cos (phi + INR a * th)) (seq s n))
  = sin (phi + (INR (s + n) - / 2) * th) - sin (phi + (INR s - / 2) * th).
Proof.
  induction n as [|n IH]; intros s; cbn [seq map rsum].
  - rewrite Nat.add_0_r. ring.
  - rewrite Rmult_plus_distr_l, IH, Nat.add_succ_l, <- Nat.add_succ_r.
    replace (2 * sin (th / 2) * cos (phi + INR s * th)) with (sin (phi + (INR (S s) - / 2) * th) - sin (phi + (INR s - / 2) * th)); [ring|].
    rewrite S_INR. replace (phi + (INR s + 1 - / 2) * th) with ((phi + INR s * th) + th / 2) by field. replace (phi + (INR s - / 2) * th) with ((phi + INR s * th) - th / 2) by field.
    rewrite sin_plus, sin_minus. ring.
Qed.
Lemma cos_sum phi n i : (0 < i < n)%nat -> rsum (map (fun a => cos (phi + 2 * PI * (INR (i * a) / INR n))) (seq 0 n)) = 0.
Proof.
  intros H. assert (N0 : 0 < INR n) by (apply lt_0_INR; lia). assert (P := PI_RGT_0). set (th := 2 * PI * INR i / INR n).
  rewrite (rsum_ext' (fun a => cos (phi + 2 * PI * (INR (i * a) / INR n))) (fun a => cos (phi + INR a * th))).
  2:{ intros a _. f_equal. rewrite mult_INR. unfold th. field. lra. }
  assert (T := telescope phi th n 0). rewrite Nat.add_0_l in T. cbn [INR] in T.
  replace (phi + (INR n - / 2) * th) with ((phi + (0 - / 2) * th) + 2 * INR i * PI) in T by (unfold th; field; lra).
  rewrite sin_period in T. rewrite Rminus_diag_eq in T by reflexivity. apply Rmult_integral in T. destruct T as [T|T]; [|exact T].
  exfalso. assert (I : 0 < INR i < INR n) by (split; [apply lt_0_INR|apply lt_INR]; lia).
  assert (D : th / 2 = PI * (INR i / INR n)) by (unfold th; field; lra). assert (F : 0 < INR i / INR n < 1).
  { split; [apply Rdiv_lt_0_compat; lra|]. apply Rmult_lt_reg_r with (INR n); [lra|]. unfold Rdiv. rewrite Rmult_assoc, Rinv_l by lra. lra. }
  assert (0 < sin (th / 2)); [|lra]. rewrite D. apply sin_gt_0; nra.
Qed.
Lemma cells_sum N (f : mode -> R) : let '(n0, n1, n2) := N in
  rsum (map f (cells N)) = rsum (map (fun a => rsum (map (fun b => rsum (map (fun c => f (a, b, c)) (seq 0 n2))) (seq 0 n1))) (seq 0 n0)).
Proof. destruct N as [[n0 n1] n2]. unfold cells. rewrite !rsum_list_prod. reflexivity. Qed.
Lemma cells_cos N m phi : is_mode N m -> m <> (0, 0, 0)%nat -> rsum (map (fun x => cos (phi + angle N m x)) (cells N)) = 0.
Proof.
  destruct N as [[n0 n1] n2], m as [[i j] k]. intros (A & B & C) D. rewrite (cells_sum (n0, n1, n2) (fun x => cos (phi + angle (n0, n1, n2) (i, j, k) x))). cbn [angle].
  destruct (Nat.eq_dec k 0) as [K|K]; [destruct (Nat.eq_dec j 0) as [J|J]; [destruct (Nat.eq_dec i 0) as [I|I]|]|].
  - subst. congruence.
  - rewrite rsum_swap. apply rsum_zero. intros b _. rewrite rsum_swap. apply rsum_zero. intros c _.
    rewrite <- (cos_sum (phi + 2 * PI * (INR (j * b) / INR n1 + INR (k * c) / INR n2)) n0 i ltac:(lia)). apply rsum_ext'. intros a _. f_equal. ring.
  - apply rsum_zero. intros a _. rewrite rsum_swap. apply rsum_zero. intros c _.
    rewrite <- (cos_sum (phi + 2 * PI * (INR (i * a) / INR n0 + INR (k * c) / INR n2)) n1 j ltac:(lia)). apply rsum_ext'. intros b _. f_equal. ring.
  - apply rsum_zero. intros a _. apply rsum_zero. intros b _.
    rewrite <- (cos_sum (phi + 2 * PI * (INR (i * a) / INR n0 + INR (j * b) / INR n1)) n2 k ltac:(lia)). apply rsum_ext'. intros c _. f_equal. ring.
Qed.
Lemma in_cells N m : In m (cells N) <-> is_mode N m.
Proof. destruct N as [[n0 n1] n2], m as [[i j] k]. unfold cells. rewrite !in_prod_iff, !in_seq. cbn. lia. Qed.
Lemma cells_nodup N : NoDup (cells N).
Proof.
  destruct N as [[n0 n1] n2]. unfold cells. assert (G : forall A B (l : list A) (k : list B), NoDup l -> NoDup k -> NoDup (list_prod l k)).
  { intros A B l k Hl Hk. induction Hl as [|a l Ha Hl IH]; cbn [list_prod]; [constructor|]. assert (T : forall (l1 l2 : list (A * B)), NoDup l1 -> NoDup l2 -> (forall x, In x l1 -> ~ In x l2) -> NoDup (l1 ++ l2)).
    { induction l1 as [|x l1 IH1]; intros l2 U V W; [exact V|]. inversion U; subst. constructor; [rewrite in_app_iff; intros [?|?]; [auto|eapply W; [left; reflexivity|assumption]]|].
      apply IH1; auto. intros y Y. apply W. right. exact Y. }
    apply T; [|exact IH|].
    - clear -Hk. induction Hk as [|b k Hb Hk IHk]; cbn; constructor; auto. rewrite in_map_iff. intros (y & E & Y). congruence.
    - intros [x y] X Y. apply in_map_iff in X. destruct X as (y' & E & _). apply in_prod_iff in Y. inversion E; subst. apply Ha, Y. }
  apply G; [apply G|]; apply seq_NoDup.
Qed.
Lemma cells_len N : length (cells N) = let '(n0, n1, n2) := N in (n0 * n1 * n2)%nat.
Proof. destruct N as [[n0 n1] n2]. unfold cells. rewrite !prod_length, !seq_length. reflexivity. Qed.
(* the mean of a field is its zero mode *)
Lemma mean_c2r N F : is_mode N (0, 0, 0)%nat -> grid_mean N (c2r N F) = fst (F (0, 0, 0)%nat).
Proof.
  intros H. assert (M : 0 < INR (length (cells N))). { apply lt_0_INR. rewrite cells_len. destruct N as [[n0 n1] n2]. cbn in H. nia. }
  unfold grid_mean, c2r. rewrite rsum_swap.
  rewrite (rsum_ext' _ (fun m => if (let '(i, j, k) := m in (i =? 0) && (j =? 0) && (k =? 0))%nat then fst (F (0, 0, 0)%nat) * INR (length (cells N)) else 0)).
  - assert (E := @rsum_one mode (fun x y => let '(a, b, c) := x in let '(a', b', c') := y in ((a =? a') && (b =? b') && (c =? c'))%nat) (fun _ => fst (F (0, 0, 0)%nat) * INR (length (cells N))) (0, 0, 0)%nat).
    cbv beta iota in E. rewrite E; [field; lra| |apply cells_nodup|apply in_cells; exact H].
    intros [[a b] c] [[a' b'] c']. rewrite !andb_true_iff, !Nat.eqb_eq, !pair_equal_spec. tauto.
  - intros m Hm. apply in_cells in Hm. rewrite (rsum_ext' _ (fun x => fst (F m) * cos (0 + angle N m x) + (- snd (F m)) * cos (- (PI / 2) + angle N m x))).
    2:{ intros x _. rewrite Rplus_0_l. replace (- (PI / 2) + angle N m x) with (- (PI / 2 - angle N m x)) by ring. rewrite cos_neg, cos_shift. ring. }
    rewrite rsum_plus, !rsum_scl. destruct m as [[i j] k]. destruct ((i =? 0) && (j =? 0) && (k =? 0))%nat eqn:Z.
    + rewrite !andb_true_iff, !Nat.eqb_eq in Z. destruct Z as [[-> ->] ->].
      assert (A0 : forall x, angle N (0, 0, 0)%nat x = 0). { intros [[a b] c]. destruct N as [[n0 n1] n2]. cbn [angle Nat.mul]. cbn [INR]. unfold Rdiv. ring. }
      rewrite (rsum_ext' (fun x => cos (0 + angle N (0, 0, 0)%nat x)) (fun _ => 1)) by (intros; rewrite A0, Rplus_0_l; apply cos_0).
      rewrite (rsum_zero (fun x => cos (- (PI / 2) + angle N (0, 0, 0)%nat x))) by (intros; rewrite A0, Rplus_0_r, cos_neg; apply cos_PI2).
      assert (C : forall l : list mode, rsum (map (fun _ => 1) l) = INR (length l)). { induction l as [|y l IH]; [reflexivity|]. cbn [map rsum]. rewrite IH. change (length (y :: l)) with (S (length l)). rewrite S_INR. ring. }
      rewrite C. ring.
    + assert (D : (i, j, k) <> (0, 0, 0)%nat). { intros E. rewrite !pair_equal_spec in E. destruct E as [[-> ->] ->]. discriminate. }
      rewrite !(cells_cos N (i, j, k) _ Hm D). ring.
Qed.
Lemma linear_zero N L P white inv m : linear_complex N L P white inv m = if zero_idx N L m then (1, 0) else delta N L P white inv m.
Proof.
  unfold linear_complex, zero_idx, k2. destruct (kvec N L m) as [[a b] c]. replace (ceq0 a && ceq0 b && ceq0 c) with (ceq0 (norm2 (a, b, c))); [reflexivity|].
  apply Bool.eq_iff_eq_true. rewrite !andb_true_iff, !ceq0_iff, norm2_zero. tauto.
Qed.
Lemma linear_mean N L P white inv : positive3 L -> is_mode N (0, 0, 0)%nat -> grid_mean N (c2r N (linear_complex N L P white inv)) = 1.
Proof. intros HL H. rewrite mean_c2r by exact H. rewrite linear_zero, (zero_at N L HL H). reflexivity. Qed.
Lemma linear_cell N L P white inv x : positive3 L -> is_mode N (0, 0, 0)%nat -> c2r N (linear_complex N L P white inv) x = 1 + c2r N (delta N L P white inv) x.
Proof.
  intros HL H. unfold c2r. set (f := fun m => fst (delta N L P white inv m) * cos (angle N m x) - snd (delta N L P white inv m) * sin (angle N m x)).
  rewrite (rsum_ext' _ (fun m => (if (let '(i, j, k) := m in (i =? 0) && (j =? 0) && (k =? 0))%nat then 1 else 0) + f m)).
  - rewrite rsum_plus. f_equal. assert (E := @rsum_one mode (fun x y => let '(a, b, c) := x in let '(a', b', c') := y in ((a =? a') && (b =? b') && (c =? c'))%nat) (fun _ => 1) (0, 0, 0)%nat).
    cbv beta iota in E. rewrite E; [reflexivity| |apply cells_nodup|apply in_cells; exact H].
    intros [[a b] c] [[a' b'] c']. rewrite !andb_true_iff, !Nat.eqb_eq, !pair_equal_spec. tauto.
  - intros m Hm. apply in_cells in Hm. rewrite linear_zero. unfold f. destruct (zero_idx N L m) eqn:Z.
    + rewrite (delta_zero N L P white inv m Z). apply (zero_mode N L m HL Hm) in Z. subst m. cbn [fst snd Nat.eqb andb].
      assert (A0 : angle N (0, 0, 0)%nat x = 0). { destruct x as [[a b] c]. destruct N as [[n0 n1] n2]. cbn [angle Nat.mul]. cbn [INR]. unfold Rdiv. ring. }
      rewrite A0, cos_0. ring.
    + destruct m as [[i j] k]. destruct ((i =? 0) && (j =? 0) && (k =? 0))%nat eqn:E; [|ring].
      rewrite !andb_true_iff, !Nat.eqb_eq in E. destruct E as [[-> ->] ->]. rewrite (zero_at N L HL H) in Z. discriminate.
Qed.
