From Coq Require Import Reals List Bool String Lra Lia.
From Coquelicot Require Import Coquelicot.
From Verif Require Import Base CmpModel CmpSpec CmpPoly.
Import ListNotations.
Local Open Scope R_scope.

Ltac abs_cases := repeat match goal with
  | |- context [Rle_dec ?a ?b] => destruct (Rle_dec a b)
  | |- context [Rabs ?x] => unfold Rabs; destruct (Rcase_abs x)
  | H : context [Rabs ?x] |- _ => unfold Rabs in H; destruct (Rcase_abs x)
  end.
Ltac kernel_tac k := intros; unfold k, Rabs in *; repeat (match goal with |- context [Rcase_abs ?x] => destruct (Rcase_abs x); try lra | H : context [Rcase_abs ?x] |- _ => destruct (Rcase_abs x); try lra end);
  repeat (match goal with |- context [Rle_dec ?a ?b] => destruct (Rle_dec a b); try lra end); try field; try lra.

Lemma cic_pos t : 0 <= t <= 1 -> cic t = 1 - t. Proof. kernel_tac cic. Qed.
Lemma cic_neg t : -1 <= t <= 0 -> cic t = 1 + t. Proof. kernel_tac cic. Qed.
Lemma cic_out t : t < -1 \/ 1 < t -> cic t = 0. Proof. kernel_tac cic. Qed.
Lemma tsc_mid t : -1/2 <= t <= 1/2 -> tsc t = 3/4 - t^2. Proof. kernel_tac tsc. Qed.
Lemma tsc_pos t : 1/2 < t <= 3/2 -> tsc t = (3/2 - t)^2/2. Proof. kernel_tac tsc. Qed.
Lemma tsc_neg t : -3/2 <= t < -1/2 -> tsc t = (3/2 + t)^2/2. Proof. kernel_tac tsc. Qed.
Lemma tsc_out t : t < -3/2 \/ 3/2 < t -> tsc t = 0. Proof. kernel_tac tsc. Qed.
Lemma pcs_pos t : 0 <= t <= 1 -> pcs t = (4 - 6 * t^2 + 3 * t^3)/6. Proof. kernel_tac pcs. Qed.
Lemma pcs_neg t : -1 <= t <= 0 -> pcs t = (4 - 6 * t^2 - 3 * t^3)/6. Proof. kernel_tac pcs. assert (t = 0) as -> by lra. field. Qed.
Lemma pcs_far t : 1 < t <= 2 -> pcs t = (2 - t)^3/6. Proof. kernel_tac pcs. Qed.
Lemma pcs_nfar t : -2 <= t < -1 -> pcs t = (2 + t)^3/6. Proof. kernel_tac pcs. Qed.
Lemma pcs_out t : t < -2 \/ 2 < t -> pcs t = 0. Proof. kernel_tac pcs. Qed.

Ltac rfield := match goal with |- @eq _ ?a ?b => change (@eq R a b) end; field.
(* ---- shot noise ---- *)
Lemma cos_double x : cos (2 * x) = 1 - 2 * sin x ^ 2.
Proof. rewrite cos_2a_sin. ring. Qed.
Lemma cos_four x : cos (4 * x) = 1 - 8 * sin x ^ 2 + 8 * sin x ^ 4.
Proof. replace (4 * x) with (2 * (2 * x)) by ring. rewrite cos_2a_cos, cos_double. ring. Qed.
Lemma sin_four x : sin (4 * x) = 4 * sin x * cos x * (1 - 2 * sin x ^ 2).
Proof. replace (4 * x) with (2 * (2 * x)) by ring. rewrite sin_2a, sin_2a, cos_double. ring. Qed.
Lemma c2 x : cos x ^ 2 = 1 - sin x ^ 2.
Proof. pose proof (sin2_cos2 x) as H. unfold Rsqr in H. simpl. lra. Qed.

Definition poly (name : string) (s : R) : R :=
  if String.eqb name "cic" then 1 - 2/3 * s else if String.eqb name "tsc" then 1 - s + 2/15 * s^2 else 1 - 4/3 * s + 2/5 * s^2 - 4/315 * s^3.

Ltac args x := replace (2 * x * -1) with (- (2 * x)) by ring; replace (2 * x * 0) with 0 by ring; replace (2 * x * 1) with (2 * x) by ring; replace (2 * x * 2) with (4 * x) by ring;
  rewrite ?sin_neg, ?cos_neg, ?sin_0, ?cos_0, ?cos_double, ?sin_2a, ?cos_four, ?sin_four.

Lemma noise_cic_is x : is_RInt (particle_power cic (2 * x)) 0 1 (1 - 2/3 * sin x ^ 2).
Proof.
  evar_last. { eapply is_RInt_ext; [|exact (F_cic_ok (cos (2*x*0)) (sin (2*x*0)) (cos (2*x*1)) (sin (2*x*1)) 0 1)].
    intros u Hu. rewrite Rmin_left, Rmax_right in Hu by lra. unfold particle_power, norm2, particle, points, sum_over. cbn [fold_right fst snd].
    rewrite (cic_out (-3 - u)), (cic_out (-2 - u)), (cic_out (-1 - u)), (cic_neg (0 - u)), (cic_pos (1 - u)), (cic_out (2 - u)), (cic_out (3 - u)) by lra. rfield. }
  unfold F_cic. args x. pose proof (c2 x) as C2. field_simplify. rewrite ?C2. field.
Qed.
Lemma noise_cic x : shot_noise cic (2 * x) = 1 - 2/3 * sin x ^ 2.
Proof. apply is_RInt_unique, noise_cic_is. Qed.
Lemma noise_tsc_is x : is_RInt (particle_power tsc (2 * x)) 0 1 (1 - sin x ^ 2 + 2/15 * (sin x ^ 2) ^ 2).
Proof.
  evar_last. { eapply (is_RInt_Chasles _ 0 (1/2) 1).
    - eapply is_RInt_ext; [|exact (F_tsc_a_ok (cos (2*x* -1)) (sin (2*x* -1)) (cos (2*x*0)) (sin (2*x*0)) (cos (2*x*1)) (sin (2*x*1)) 0 (1/2))].
      intros u Hu. rewrite Rmin_left, Rmax_right in Hu by lra. unfold particle_power, norm2, particle, points, sum_over. cbn [fold_right fst snd].
      rewrite (tsc_out (-3 - u)), (tsc_out (-2 - u)), (tsc_neg (-1 - u)), (tsc_mid (0 - u)), (tsc_pos (1 - u)), (tsc_out (2 - u)), (tsc_out (3 - u)) by lra. rfield.
    - eapply is_RInt_ext; [|exact (F_tsc_b_ok (cos (2*x*0)) (sin (2*x*0)) (cos (2*x*1)) (sin (2*x*1)) (cos (2*x*2)) (sin (2*x*2)) (1/2) 1)].
      intros u Hu. rewrite Rmin_left, Rmax_right in Hu by lra. unfold particle_power, norm2, particle, points, sum_over. cbn [fold_right fst snd].
      rewrite (tsc_out (-3 - u)), (tsc_out (-2 - u)), (tsc_out (-1 - u)), (tsc_neg (0 - u)), (tsc_mid (1 - u)), (tsc_pos (2 - u)), (tsc_out (3 - u)) by lra. rfield. }
  change plus with Rplus. unfold F_tsc_a, F_tsc_b. args x. pose proof (c2 x) as C2. field_simplify. rewrite ?C2. field.
Qed.
Lemma noise_tsc x : shot_noise tsc (2 * x) = 1 - sin x ^ 2 + 2/15 * (sin x ^ 2) ^ 2.
Proof. apply is_RInt_unique, noise_tsc_is. Qed.
Lemma noise_pcs_is x : is_RInt (particle_power pcs (2 * x)) 0 1 (1 - 4/3 * sin x ^ 2 + 2/5 * (sin x ^ 2) ^ 2 - 4/315 * (sin x ^ 2) ^ 3).
Proof.
  evar_last. { eapply is_RInt_ext; [|exact (F_pcs_ok (cos (2*x* -1)) (sin (2*x* -1)) (cos (2*x*0)) (sin (2*x*0)) (cos (2*x*1)) (sin (2*x*1)) (cos (2*x*2)) (sin (2*x*2)) 0 1)].
    intros u Hu. rewrite Rmin_left, Rmax_right in Hu by lra. unfold particle_power, norm2, particle, points, sum_over. cbn [fold_right fst snd].
    rewrite (pcs_out (-3 - u)), (pcs_out (-2 - u)), (pcs_nfar (-1 - u)), (pcs_neg (0 - u)), (pcs_pos (1 - u)), (pcs_far (2 - u)), (pcs_out (3 - u)) by lra. rfield. }
  unfold F_pcs. args x. pose proof (c2 x) as C2. field_simplify. rewrite ?C2. field.
Qed.
Lemma noise_pcs x : shot_noise pcs (2 * x) = 1 - 4/3 * sin x ^ 2 + 2/5 * (sin x ^ 2) ^ 2 - 4/315 * (sin x ^ 2) ^ 3.
Proof. apply is_RInt_unique, noise_pcs_is. Qed.

(* ---- transforms ---- *)
Definition A (p0 p1 p2 p3 w t : R) : R :=
  (p0 + p1 * t + p2 * t^2 + p3 * t^3) * sin (w * t) / w + (p1 + 2 * p2 * t + 3 * p3 * t^2) * cos (w * t) / w^2
  - (2 * p2 + 6 * p3 * t) * sin (w * t) / w^3 - 6 * p3 * cos (w * t) / w^4.
Lemma A_ok p0 p1 p2 p3 w a b : w <> 0 -> is_RInt (fun t => (p0 + p1 * t + p2 * t^2 + p3 * t^3) * cos (w * t)) a b (A p0 p1 p2 p3 w b - A p0 p1 p2 p3 w a).
Proof.
  intros Hw. change (A p0 p1 p2 p3 w b - A p0 p1 p2 p3 w a) with (minus (A p0 p1 p2 p3 w b) (A p0 p1 p2 p3 w a)). apply (is_RInt_derive (A p0 p1 p2 p3 w)).
  - intros u _. unfold A. auto_derive; [repeat split; auto; repeat apply Rmult_integral_contrapositive_currified; auto; lra|]. field. exact Hw.
  - intros u _. apply (@ex_derive_continuous R_AbsRing R_NormedModule). auto_derive. exact I.
Qed.
Lemma B_ok p0 p1 p2 p3 a b : is_RInt (fun t => p0 + p1 * t + p2 * t^2 + p3 * t^3) a b ((p0 * b + p1 / 2 * b^2 + p2 / 3 * b^3 + p3 / 4 * b^4) - (p0 * a + p1 / 2 * a^2 + p2 / 3 * a^3 + p3 / 4 * a^4)).
Proof.
  change (?x - ?y) with (minus x y). apply (is_RInt_derive (fun t => p0 * t + p1 / 2 * t^2 + p2 / 3 * t^3 + p3 / 4 * t^4)).
  - intros u _. auto_derive; [exact I|field].
  - intros u _. apply (@ex_derive_continuous R_AbsRing R_NormedModule). auto_derive. exact I.
Qed.
(* a piece of a kernel, at frequency w *)
Definition piece (p0 p1 p2 p3 w a b : R) : R :=
  if Req_EM_T w 0 then (p0 * b + p1 / 2 * b^2 + p2 / 3 * b^3 + p3 / 4 * b^4) - (p0 * a + p1 / 2 * a^2 + p2 / 3 * a^3 + p3 / 4 * a^4)
  else A p0 p1 p2 p3 w b - A p0 p1 p2 p3 w a.
Lemma piece_ok k p0 p1 p2 p3 w a b : a <= b -> (forall t, a < t < b -> k t = p0 + p1 * t + p2 * t^2 + p3 * t^3) -> is_RInt (fun t => k t * cos (w * t)) a b (piece p0 p1 p2 p3 w a b).
Proof.
  intros Hab H. unfold piece. destruct (Req_EM_T w 0) as [->|N].
  - eapply is_RInt_ext; [|apply B_ok]. intros u Hu. rewrite Rmin_left, Rmax_right in Hu by lra. cbv beta. rewrite (H u Hu), Rmult_0_l, cos_0. rfield.
  - eapply is_RInt_ext; [|apply A_ok; exact N]. intros u Hu. rewrite Rmin_left, Rmax_right in Hu by lra. cbv beta. rewrite (H u Hu). reflexivity.
Qed.
Definition sinc (x : R) : R := if Req_EM_T x 0 then 1 else sin x / x.

Lemma sin_three x : sin (3 * x) = 3 * sin x - 4 * sin x ^ 3.
Proof.
  replace (3 * x) with (2 * x + x) by ring. rewrite sin_plus, sin_2a, cos_double. pose proof (c2 x) as C2. replace (2 * sin x * cos x * cos x) with (2 * sin x * cos x ^ 2) by ring. rewrite C2. ring.
Qed.

Lemma transform_cic x : transform cic (2 * x) = sinc x ^ 2.
Proof.
  unfold transform. apply is_RInt_unique. evar_last.
  { eapply (is_RInt_Chasles _ (-2) (-1) 2); [apply (piece_ok cic 0 0 0 0 (2*x)); [lra|intros t Ht; rewrite cic_out by lra; ring]|].
    eapply (is_RInt_Chasles _ (-1) 0 2); [apply (piece_ok cic 1 1 0 0 (2*x)); [lra|intros t Ht; rewrite cic_neg by lra; ring]|].
    eapply (is_RInt_Chasles _ 0 1 2); [apply (piece_ok cic 1 (-1) 0 0 (2*x)); [lra|intros t Ht; rewrite cic_pos by lra; ring]|].
    apply (piece_ok cic 0 0 0 0 (2*x)); [lra|intros t Ht; rewrite cic_out by lra; ring]. }
  change plus with Rplus. unfold piece, sinc. destruct (Req_EM_T (2 * x) 0) as [E|N]; destruct (Req_EM_T x 0) as [E'|N']; try lra.
  unfold A. replace (2 * x * -2) with (- (4 * x)) by ring. args x. field. exact N'.
Qed.
Lemma transform_tsc x : transform tsc (2 * x) = sinc x ^ 3.
Proof.
  unfold transform. apply is_RInt_unique. evar_last.
  { eapply (is_RInt_Chasles _ (-2) (-3/2) 2); [apply (piece_ok tsc 0 0 0 0 (2*x)); [lra|intros t Ht; rewrite tsc_out by lra; ring]|].
    eapply (is_RInt_Chasles _ (-3/2) (-1/2) 2); [apply (piece_ok tsc (9/8) (3/2) (1/2) 0 (2*x)); [lra|intros t Ht; rewrite tsc_neg by lra; field]|].
    eapply (is_RInt_Chasles _ (-1/2) (1/2) 2); [apply (piece_ok tsc (3/4) 0 (-1) 0 (2*x)); [lra|intros t Ht; rewrite tsc_mid by lra; ring]|].
    eapply (is_RInt_Chasles _ (1/2) (3/2) 2); [apply (piece_ok tsc (9/8) (-3/2) (1/2) 0 (2*x)); [lra|intros t Ht; rewrite tsc_pos by lra; field]|].
    apply (piece_ok tsc 0 0 0 0 (2*x)); [lra|intros t Ht; rewrite tsc_out by lra; ring]. }
  change plus with Rplus. unfold piece, sinc. destruct (Req_EM_T (2 * x) 0) as [E|N]; destruct (Req_EM_T x 0) as [E'|N']; try lra.
  unfold A. replace (2 * x * -2) with (- (4 * x)) by ring. replace (2 * x * (-3/2)) with (- (3 * x)) by field. replace (2 * x * (3/2)) with (3 * x) by field.
  replace (2 * x * (-1/2)) with (- x) by field. replace (2 * x * (1/2)) with x by field. args x. rewrite sin_three. field. exact N'.
Qed.
Lemma transform_pcs x : transform pcs (2 * x) = sinc x ^ 4.
Proof.
  unfold transform. apply is_RInt_unique. evar_last.
  { eapply (is_RInt_Chasles _ (-2) (-1) 2); [apply (piece_ok pcs (8/6) 2 1 (1/6) (2*x)); [lra|intros t Ht; rewrite pcs_nfar by lra; field]|].
    eapply (is_RInt_Chasles _ (-1) 0 2); [apply (piece_ok pcs (4/6) 0 (-1) (-1/2) (2*x)); [lra|intros t Ht; rewrite pcs_neg by lra; field]|].
    eapply (is_RInt_Chasles _ 0 1 2); [apply (piece_ok pcs (4/6) 0 (-1) (1/2) (2*x)); [lra|intros t Ht; rewrite pcs_pos by lra; field]|].
    apply (piece_ok pcs (8/6) (-2) 1 (-1/6) (2*x)); [lra|intros t Ht; rewrite pcs_far by lra; field]. }
  change plus with Rplus. unfold piece, sinc. destruct (Req_EM_T (2 * x) 0) as [E|N]; destruct (Req_EM_T x 0) as [E'|N']; try lra.
  unfold A. replace (2 * x * -2) with (- (4 * x)) by ring. args x. field. exact N'.
Qed.

(* ---- the functions of the package ---- *)
Lemma np_sinc_half w : np_sinc (5 / 10 * w / PI) = sinc (w / 2).
Proof.
  pose proof PI_RGT_0 as P. unfold np_sinc, sinc, reqb. destruct (Req_EM_T (5 / 10 * w / PI) 0) as [E|N]; destruct (Req_EM_T (w / 2) 0) as [E'|N']; try reflexivity.
  - exfalso. apply N'. apply (Rmult_eq_compat_r PI) in E. replace (5 / 10 * w / PI * PI) with (w / 2) in E by (field; lra). lra.
  - exfalso. apply N. replace w with 0 by lra. field. lra.
  - replace (PI * (5 / 10 * w / PI)) with (w / 2) by (field; lra). reflexivity.
Qed.
Lemma sinc_nonzero w : - PI <= w <= PI -> sinc (w / 2) <> 0.
Proof.
  intros H. unfold sinc. destruct (Req_EM_T (w / 2) 0) as [E|N]; [lra|]. pose proof PI_RGT_0 as P. 
  assert (sin (w / 2) <> 0).
  { destruct (Rlt_le_dec 0 w).
    - apply Rgt_not_eq, sin_gt_0; lra.
    - assert (0 < sin (- (w / 2))) by (apply sin_gt_0; lra). rewrite sin_neg in *. lra. }
  intros K. apply H0. apply (Rmult_eq_compat_r (w / 2)) in K. replace (sin (w / 2) / (w / 2) * (w / 2)) with (sin (w / 2)) in K by (field; lra). lra.
Qed.
Lemma loop_eq tmp w v : (forall i, (i < 3)%nat -> tmp (w i) <> 0) -> loop tmp w v = cdiv v (tmp (w 0%nat) * tmp (w 1%nat) * tmp (w 2%nat)).
Proof.
  intros H. unfold loop, cdiv. cbn [fold_left fst snd]. pose proof (H 0%nat). pose proof (H 1%nat). pose proof (H 2%nat). f_equal; field; repeat split; auto with arith.
Qed.
Definition window (name : string) : nat := if String.eqb name "cic" then 2 else if String.eqb name "tsc" then 3 else 4.
Lemma kernel_transform name k w : kernel name k -> transform k w = sinc (w / 2) ^ (window name).
Proof. intros H. replace w with (2 * (w / 2)) at 1 by field. destruct H; [apply transform_cic|apply transform_tsc|apply transform_pcs]. Qed.
Lemma kernel_noise name k w : kernel name k -> shot_noise k w = poly name (sin (w / 2) ^ 2).
Proof. intros H. replace w with (2 * (w / 2)) at 1 by field. destruct H; [apply noise_cic|apply noise_tsc|apply noise_pcs]. Qed.
Lemma poly_pos name s : 0 <= s <= 1 -> 0 < poly name s.
Proof. intros H. unfold poly. destruct (String.eqb name "cic"); [lra|]. destruct (String.eqb name "tsc"); nra. Qed.
Lemma sin2_range x : 0 <= sin x ^ 2 <= 1.
Proof. pose proof (sin2_cos2 x) as H. unfold Rsqr in H. nra. Qed.
Lemma comp_interlaced name k : kernel name k -> exists f, get_compensation true name = Ok f /\ forall w v, (forall i, (i < 3)%nat -> - PI <= w i <= PI) -> f w v = cdiv v (transform k (w 0%nat) * transform k (w 1%nat) * transform k (w 2%nat)).
Proof.
  intros H. assert (G : exists tmp, get_compensation true name = Ok (loop tmp) /\ forall w, tmp w = sinc (w / 2) ^ (window name)).
  { destruct H; (eexists; split; [reflexivity|]); intros w; cbv beta; rewrite ?np_sinc_half; cbn [window String.eqb Ascii.eqb Bool.eqb]; try reflexivity.
    unfold reqb. destruct (Req_EM_T w 0) as [->|N]; [|reflexivity]. unfold sinc. destruct (Req_EM_T (0 / 2) 0); [unfold window; cbn; ring|lra]. }
  destruct G as (tmp & E & T). exists (loop tmp). split; [exact E|]. intros w v HW. rewrite loop_eq.
  - rewrite !T, <- !(kernel_transform name k) by exact H. reflexivity.
  - intros i Hi. rewrite T. apply pow_nonzero, sinc_nonzero, HW, Hi.
Qed.
Lemma transform_nonzero name k w : kernel name k -> - PI <= w <= PI -> transform k w <> 0.
Proof. intros H Hw. rewrite (kernel_transform name k w H). apply pow_nonzero, sinc_nonzero, Hw. Qed.
Lemma noise_pos name k w : kernel name k -> 0 < shot_noise k w.
Proof. intros H. rewrite (kernel_noise name k w H). apply poly_pos, sin2_range. Qed.
Lemma comp_noise name k : kernel name k -> exists f, get_compensation false name = Ok f /\ forall w v, norm2 (f w v) = norm2 v / (shot_noise k (w 0%nat) * shot_noise k (w 1%nat) * shot_noise k (w 2%nat)).
Proof.
  intros H. assert (G : exists tmp, get_compensation false name = Ok (loop tmp) /\ forall w, tmp w = sqrt (shot_noise k w)).
  { pose proof (fun w => kernel_noise name k w H) as KN. destruct H; (eexists; split; [reflexivity|]); intros w; cbv beta; rewrite KN; unfold poly; cbn [String.eqb Ascii.eqb Bool.eqb]; replace (5 / 10 * w) with (w / 2) by field; f_equal. }
  destruct G as (tmp & E & T). exists (loop tmp). split; [exact E|]. intros w v.
  assert (P : forall x, tmp x <> 0) by (intros x; rewrite T; apply Rgt_not_eq, sqrt_lt_R0, (noise_pos name k x H)).
  rewrite loop_eq by auto. assert (S : forall x, tmp x ^ 2 = shot_noise k x) by (intros x; rewrite T; apply pow2_sqrt; apply Rlt_le, (noise_pos name k x H)).
  unfold norm2, cdiv. cbn [fst snd]. rewrite <- !S. field. auto.
Qed.

Lemma noise_ex name k w : kernel name k -> ex_RInt (particle_power k w) 0 1.
Proof. intros H. replace w with (2 * (w / 2)) by field. destruct H; eexists; [apply noise_cic_is|apply noise_tsc_is|apply noise_pcs_is]. Qed.
Lemma norm2_cmul a b : norm2 (cmul a b) = norm2 a * norm2 b.
Proof. unfold norm2, cmul. cbn [fst snd]. ring. Qed.
Lemma RInt_scale c (f : R -> R) : ex_RInt f 0 1 -> RInt (fun x => c * f x) 0 1 = c * RInt f 0 1.
Proof. intros H. apply is_RInt_unique. apply (is_RInt_scal f 0 1 c (RInt f 0 1)). apply (@RInt_correct R_CompleteNormedModule). exact H. Qed.
Ltac rring := match goal with |- @eq _ ?a ?b => change (@eq R a b) end; ring.
Lemma white name k : kernel name k -> exists f, get_compensation false name = Ok f /\ forall w, average3 (fun u0 u1 u2 => norm2 (f w (particle3 k w u0 u1 u2))) = 1.
Proof.
  intros H. destruct (comp_noise name k H) as (f & E & F). exists f. split; [exact E|]. intros w. unfold average3.
  pose proof (noise_pos name k (w 0%nat) H) as P0. pose proof (noise_pos name k (w 1%nat) H) as P1. pose proof (noise_pos name k (w 2%nat) H) as P2.
  set (D := shot_noise k (w 0%nat) * shot_noise k (w 1%nat) * shot_noise k (w 2%nat)) in *.
  assert (E2 : forall u0 u1, RInt (fun u2 => norm2 (f w (particle3 k w u0 u1 u2))) 0 1 = particle_power k (w 0%nat) u0 * particle_power k (w 1%nat) u1 * shot_noise k (w 2%nat) / D).
  { intros u0 u1. rewrite (RInt_ext _ (fun u2 => particle_power k (w 0%nat) u0 * particle_power k (w 1%nat) u1 / D * particle_power k (w 2%nat) u2)).
    - rewrite RInt_scale by (apply (noise_ex name k _ H)). unfold shot_noise, Rdiv. rring.
    - intros u2 _. rewrite F. fold D. unfold particle3. rewrite !norm2_cmul. unfold particle_power, Rdiv. rring. }
  assert (E1 : forall u0, RInt (fun u1 => RInt (fun u2 => norm2 (f w (particle3 k w u0 u1 u2))) 0 1) 0 1 = particle_power k (w 0%nat) u0 * shot_noise k (w 1%nat) * shot_noise k (w 2%nat) / D).
  { intros u0. rewrite (RInt_ext _ (fun u1 => particle_power k (w 0%nat) u0 * shot_noise k (w 2%nat) / D * particle_power k (w 1%nat) u1)).
    - rewrite RInt_scale by (apply (noise_ex name k _ H)). unfold shot_noise at 2, Rdiv. unfold shot_noise. rring.
    - intros u1 _. rewrite E2. unfold Rdiv. rring. }
  rewrite (RInt_ext _ (fun u0 => shot_noise k (w 1%nat) * shot_noise k (w 2%nat) / D * particle_power k (w 0%nat) u0)).
  - rewrite RInt_scale by (apply (noise_ex name k _ H)). fold (shot_noise k (w 0%nat)). unfold D. rfield. repeat split; lra.
  - intros u0 _. rewrite E1. unfold Rdiv. rring.
Qed.
Lemma restore name k : kernel name k -> exists f, get_compensation true name = Ok f /\ forall w v, (forall i, (i < 3)%nat -> - PI <= w i <= PI) -> f w (scale (transform k (w 0%nat) * transform k (w 1%nat) * transform k (w 2%nat)) v) = v.
Proof.
  intros H. destruct (comp_interlaced name k H) as (f & E & F). exists f. split; [exact E|]. intros w v HW. rewrite (F w _ HW). unfold cdiv, scale. cbn [fst snd].
  pose proof (transform_nonzero name k _ H (HW 0%nat ltac:(lia))). pose proof (transform_nonzero name k _ H (HW 1%nat ltac:(lia))). pose proof (transform_nonzero name k _ H (HW 2%nat ltac:(lia))).
  destruct v as [a b]. cbn [fst snd]. f_equal; field; auto.
Qed.
Lemma other b name : (forall k, ~ kernel name k) -> get_compensation b name = Err ValueError.
Proof.
  intros H. unfold get_compensation.
  destruct (String.eqb_spec "cic" name) as [<-|N1]; [exfalso; exact (H _ k_cic)|]. destruct (String.eqb_spec "tsc" name) as [<-|N2]; [exfalso; exact (H _ k_tsc)|]. destruct (String.eqb_spec "pcs" name) as [<-|N3]; [exfalso; exact (H _ k_pcs)|].
  apply String.eqb_neq in N1, N2, N3. destruct b; cbn [find fst]; rewrite N1, N2, N3; reflexivity.
Qed.
