From Verif Require Import Base.
From Coq Require Import Reals Lra Permutation.
From Verif Require Import RandModel RandProofs ThreeModel ThreeProofs SkyModel SkyProofs ConvModel MockModel MockSpec MockProofs MockMean.
Local Open Scope R_scope.
Local Notation length := List.length.

(* lognormal fields *)
Lemma concat_map' {A B} (f : A -> B) (l : list (list A)) : List.concat (map (map f) l) = map f (List.concat l).
Proof. symmetry. apply concat_map. Qed.
Lemma rsum_concat l : rsum (map rsum l) = rsum (List.concat l).
Proof. induction l as [|a l IH]; cbn [map rsum List.concat]; [reflexivity|]. rewrite rsum_app, IH. reflexivity. Qed.
Definition flat_lognormal (b : R) (l : list R) : list R := map (fun d => exp (b * d) / (rsum (map (fun d => exp (b * d)) l) / INR (length l))) l.
Lemma lognormal_flat b ranks : List.concat (lognormal_transform b ranks) = flat_lognormal b (List.concat ranks).
Proof. unfold lognormal_transform, flat_lognormal, cmean_ranks. rewrite concat_map', concat_map', map_map, rsum_concat, concat_map', map_length. reflexivity. Qed.
Lemma lognormal_shape b ranks : map (@length R) (lognormal_transform b ranks) = map (@length R) ranks.
Proof. unfold lognormal_transform. rewrite !map_map. apply map_ext. intros l. rewrite !map_length. reflexivity. Qed.
Lemma exp_sum_pos b l : l <> [] -> 0 < rsum (map (fun d => exp (b * d)) l).
Proof. induction l as [|x l IH]; intros H; [congruence|]. cbn [map rsum]. assert (E := exp_pos (b * x)). destruct l as [|y l]; [cbn [map rsum]; lra|]. assert (0 < rsum (map (fun d => exp (b * d)) (y :: l))) by (apply IH; discriminate). lra. Qed.
Lemma len_pos {A} (l : list A) : l <> [] -> 0 < INR (length l).
Proof. intros H. apply lt_0_INR. destruct l; [congruence|cbn; lia]. Qed.
Lemma lognormal_ok b ranks i d : nth_error (List.concat ranks) i = Some d -> exists c, 0 < c /\ nth_error (List.concat (lognormal_transform b ranks)) i = Some (exp (b * d) / c)
  /\ c = rsum (map (fun d => exp (b * d)) (List.concat ranks)) / INR (length (List.concat ranks)).
Proof.
  intros H. assert (N : List.concat ranks <> []) by (intros E; rewrite E in H; destruct i; discriminate).
  eexists; split; [|split; [|reflexivity]].
  - apply Rdiv_lt_0_compat; [apply exp_sum_pos, N|apply len_pos, N].
  - rewrite lognormal_flat. unfold flat_lognormal. rewrite nth_error_map, H. reflexivity.
Qed.
Lemma lognormal_sum b ranks : List.concat ranks <> [] -> rsum (List.concat (lognormal_transform b ranks)) = INR (length (List.concat ranks)).
Proof.
  intros N. rewrite lognormal_flat. unfold flat_lognormal. set (s := rsum (map (fun d => exp (b * d)) (List.concat ranks))). set (c := INR _).
  assert (0 < s) by (apply exp_sum_pos, N). assert (0 < c) by (apply len_pos, N).
  rewrite (rsum_ext' _ (fun d => exp (b * d) * / (s / c))) by (intros; reflexivity). rewrite rsum_scr. fold s. field. lra.
Qed.
Lemma cellmean_sum b h nbar ranks : List.concat ranks <> [] -> rsum (List.concat (cellmean b h nbar ranks)) = nbar * (h * INR (length (List.concat ranks))).
Proof. intros N. unfold cellmean. rewrite concat_map', rsum_scr, map_id, lognormal_sum by exact N. ring. Qed.

(* filters *)
Lemma from_zero (f f' : R -> R) : f 0 = 0 -> (forall c, 0 <= c -> derivable_pt_lim f c (f' c)) -> (forall c, 0 <= c -> 0 <= f' c) -> forall x, 0 <= x -> 0 <= f x.
Proof.
  intros Z D P x [X|X]; [|subst; rewrite Z; lra]. destruct (MVT_cor2 f f' 0 x X) as (c & E & C). { intros c [C _]. apply D, C. }
  assert (0 <= f' c) by (apply P; lra). assert (0 <= f' c * (x - 0)) by (apply Rmult_le_pos; lra). lra.
Qed.
Ltac deriv := match goal with |- derivable_pt_lim ?f ?c ?v => let H := fresh in assert (H : derivable_pt f c) by reg; replace v with (derive_pt f c H) by (reg; field); apply (proj2_sig H) end.
Lemma sin_le x : 0 <= x -> 0 <= x - sin x.
Proof. apply (from_zero (fun x => x - sin x) (fun x => 1 - cos x)); [rewrite sin_0; ring| |]; intros c C; [deriv|]. assert (B := COS_bound c). lra. Qed.
Lemma sin_ge x : 0 <= x -> 0 <= x + sin x.
Proof. apply (from_zero (fun x => x + sin x) (fun x => 1 + cos x)); [rewrite sin_0; ring| |]; intros c C; [deriv|]. assert (B := COS_bound c). lra. Qed.
Lemma cos_ge x : 0 <= x -> 0 <= cos x - 1 + x * x / 2.
Proof. apply (from_zero (fun x => cos x - 1 + x * x / 2) (fun x => x - sin x)); [rewrite cos_0; field| |]; intros c C; [deriv|]. apply sin_le, C. Qed.
Lemma sin_ge3 x : 0 <= x -> 0 <= sin x - x + x * x * x / 6.
Proof. apply (from_zero (fun x => sin x - x + x * x * x / 6) (fun x => cos x - 1 + x * x / 2)); [rewrite sin_0; field| |]; intros c C; [deriv|]. apply cos_ge, C. Qed.
Lemma sph_le x : 0 <= x -> 0 <= x * x * x / 3 - (sin x - x * cos x).
Proof.
  apply (from_zero (fun x => x * x * x / 3 - (sin x - x * cos x)) (fun x => x * (x - sin x))); [rewrite sin_0, cos_0; field| |]; intros c C; [deriv|].
  apply Rmult_le_pos; [exact C|apply sin_le, C].
Qed.
Lemma sph_ge x : 0 <= x -> 0 <= x * x * x / 3 + (sin x - x * cos x).
Proof.
  apply (from_zero (fun x => x * x * x / 3 + (sin x - x * cos x)) (fun x => x * (x + sin x))); [rewrite sin_0, cos_0; field| |]; intros c C; [deriv|].
  apply Rmult_le_pos; [exact C|apply sin_ge, C].
Qed.
Lemma sph_quint x : 0 <= x -> 0 <= x * x * x * x * x / 30 - (x * x * x / 3 - (sin x - x * cos x)).
Proof.
  apply (from_zero (fun x => x * x * x * x * x / 30 - (x * x * x / 3 - (sin x - x * cos x))) (fun x => x * (sin x - x + x * x * x / 6))); [rewrite sin_0, cos_0; field| |]; intros c C; [deriv|].
  apply Rmult_le_pos; [exact C|apply sin_ge3, C].
Qed.
Definition bessel (x : R) : R := 3 * (sin x / (x * x * x) - cos x / (x * x)).
Lemma bessel_even x : x <> 0 -> bessel (- x) = bessel x.
Proof. intros H. unfold bessel. rewrite sin_neg, cos_neg. field. exact H. Qed.
Lemma bessel_pos x : 0 < x -> 1 - x * x / 10 <= bessel x <= 1 /\ - 1 <= bessel x.
Proof.
  intros X. assert (C3 : 0 < x * x * x) by (apply Rmult_lt_0_compat; [apply Rmult_lt_0_compat|]; exact X).
  assert (E : bessel x * (x * x * x) = 3 * (sin x - x * cos x)) by (unfold bessel; field; lra).
  assert (A := sph_le x ltac:(lra)). assert (B := sph_ge x ltac:(lra)). assert (Q := sph_quint x ltac:(lra)).
  split; [split|]; apply Rmult_le_reg_r with (x * x * x); try exact C3; rewrite E; nra.
Qed.
Lemma bessel_bound x : x <> 0 -> 1 - x * x / 10 <= bessel x <= 1 /\ - 1 <= bessel x.
Proof.
  intros H. destruct (Rlt_le_dec 0 x) as [P|P]; [apply bessel_pos, P|]. rewrite <- (bessel_even x H). replace (x * x) with (- x * - x) by ring. apply bessel_pos. lra.
Qed.
Lemma norm2_nonneg k : 0 <= norm2 k.
Proof. destruct k as [[a b] c]. cbn [norm2]. assert (A := Rle_0_sqr a). assert (B := Rle_0_sqr b). assert (C := Rle_0_sqr c). unfold Rsqr in *. lra. Qed.
Lemma tophat_ok r k : r <> 0 -> exists w, tophat r k = Some w /\ 1 - norm2 k * (r * r) / 10 <= w <= 1 /\ - 1 <= w.
Proof.
  intros H. assert (N := norm2_nonneg k). unfold tophat. destruct (ceq0 (sqrt (norm2 k))) eqn:Z.
  - exists 1. split; [reflexivity|]. assert (0 <= norm2 k * (r * r)) by (apply Rmult_le_pos; [exact N|apply Rle_0_sqr]). lra.
  - assert (K : sqrt (norm2 k) <> 0) by (intros E; apply ceq0_iff in E; congruence).
    assert (KR : sqrt (norm2 k) * r <> 0) by (apply Rmult_integral_contrapositive; auto).
    replace (ceq0 (sqrt (norm2 k) * r)) with false by (symmetry; apply Bool.not_true_iff_false; rewrite ceq0_iff; exact KR).
    eexists; split; [reflexivity|]. assert (B := bessel_bound _ KR). unfold bessel in B.
    replace (norm2 k * (r * r)) with (sqrt (norm2 k) * r * (sqrt (norm2 k) * r)); [exact B|].
    transitivity (sqrt (norm2 k) * sqrt (norm2 k) * (r * r)); [ring|]. rewrite (sqrt_sqrt _ N). reflexivity.
Qed.
Lemma tophat_zero r : tophat r (0, 0, 0) = Some 1.
Proof. unfold tophat. replace (norm2 (0, 0, 0)) with 0 by (cbn [norm2]; ring). rewrite sqrt_0. replace (ceq0 0) with true by (symmetry; apply ceq0_iff; reflexivity). reflexivity. Qed.
Lemma tophat_size r k k' : norm2 k = norm2 k' -> tophat r k = tophat r k'.
Proof. intros E. unfold tophat. rewrite E. reflexivity. Qed.
Lemma gaussian_ok r k : 0 < gaussian r k <= 1 /\ 1 - norm2 k * (r * r) / 2 <= gaussian r k.
Proof.
  assert (N : 0 <= norm2 k * (r * r)) by (apply Rmult_le_pos; [apply norm2_nonneg|apply Rle_0_sqr]). unfold gaussian.
  replace (- (1 / 2) * norm2 k * (r * r)) with (- (norm2 k * (r * r) / 2)) by field. set (y := norm2 k * (r * r)) in *. split; [split; [apply exp_pos|]|].
  - destruct (Rle_lt_or_eq_dec 0 y N) as [P|P]; [left; rewrite <- exp_0; apply exp_increasing; lra|]. rewrite <- P. replace (- (0 / 2)) with 0 by field. rewrite exp_0. lra.
  - destruct (Req_EM_T y 0) as [Z|Z]; [rewrite Z; replace (- (0 / 2)) with 0 by field; rewrite exp_0; lra|]. assert (B := exp_ineq1 (- (y / 2)) ltac:(lra)). lra.
Qed.
Lemma gaussian_compose r1 r2 k : gaussian r1 k * gaussian r2 k = gaussian (sqrt (r1 * r1 + r2 * r2)) k.
Proof. unfold gaussian. rewrite <- exp_plus. f_equal. rewrite sqrt_sqrt by (assert (A := Rle_0_sqr r1); assert (B := Rle_0_sqr r2); unfold Rsqr in *; lra). ring. Qed.
Lemma filter_hermitian N L (w : point -> R) F : (forall k k', norm2 k = norm2 k' -> w k = w k') -> hermitian N F -> hermitian N (fun m => cscale (w (kvec N L m)) (F m)).
Proof. intros W H m Hm. rewrite (W _ (kvec N L m) (k2_opposite N L m Hm)), (H m Hm). unfold cscale; cbn [fst snd]. f_equal; ring. Qed.
Lemma tophat_r0 k : norm2 k <> 0 -> tophat 0 k = None.
Proof.
  intros H. unfold tophat. replace (ceq0 (sqrt (norm2 k))) with false.
  - rewrite Rmult_0_r. replace (ceq0 0) with true by (symmetry; apply ceq0_iff; reflexivity). reflexivity.
  - symmetry. apply Bool.not_true_iff_false. rewrite ceq0_iff. intros E. apply sqrt_eq_0 in E; [auto|apply norm2_nonneg].
Qed.
