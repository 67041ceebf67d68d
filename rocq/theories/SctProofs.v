(* Proofs about Scott's rule. *)
From Verif Require Import Base BaseProofs SctModel SctSpec.
From Coq Require Import Reals Permutation Lra.
Local Open Scope R_scope.

(* ---- sums ---- *)
Lemma total_sum l : total l = sum l.
Proof. induction l as [|x l IH]; cbn; [reflexivity|]. now rewrite <- IH. Qed.
Lemma sum_app a b : sum (a ++ b) = sum a + sum b.
Proof. induction a as [|x a IH]; cbn; [ring|]. rewrite IH. ring. Qed.
Lemma sum_perm a b : Permutation a b -> sum a = sum b.
Proof. induction 1; cbn; lra. Qed.
Lemma sum_nonneg (g : R -> R) l : (forall z, 0 <= g z) -> 0 <= sum (map g l).
Proof. intros H. induction l as [|x l IH]; cbn; [lra|]. specialize (H x). lra. Qed.
Lemma sum_two (g : R -> R) l x y : (forall z, 0 <= g z) -> In x l -> In y l -> x <> y -> g x + g y <= sum (map g l).
Proof.
  intros G Hx Hy N. apply in_split in Hx. destruct Hx as (a & b & ->). assert (H : In y (a ++ b)) by (apply in_app_iff in Hy; apply in_app_iff; destruct Hy as [?|[?|?]]; [auto|congruence|auto]).
  apply in_split in H. destruct H as (c & d & E).
  assert (P : Permutation (a ++ x :: b) (x :: y :: c ++ d)) by (rewrite <- Permutation_middle; constructor; rewrite E; symmetry; apply Permutation_middle).
  rewrite (sum_perm _ _ (Permutation_map g P)). cbn [map sum]. pose proof (sum_nonneg g (c ++ d) G). lra.
Qed.
Lemma sum_zero (g : R -> R) l : (forall z, 0 <= g z) -> sum (map g l) = 0 -> forall z, In z l -> g z = 0.
Proof.
  intros G. induction l as [|x l IH]; cbn; [tauto|]. intros H z Hz. pose proof (sum_nonneg g l G) as S. pose proof (G x). destruct Hz as [<-|Hz]; [lra|]. apply IH; [lra|exact Hz].
Qed.
Lemma total_concat (g : R -> R) ranks : total (map (fun d => total (map g d)) ranks) = sum (map g (concat ranks)).
Proof. induction ranks as [|d r IH]; cbn; [reflexivity|]. rewrite map_app, sum_app, <- IH, total_sum. reflexivity. Qed.
Lemma total_concat_id ranks : total (map total ranks) = sum (concat ranks).
Proof. induction ranks as [|d r IH]; cbn; [reflexivity|]. rewrite sum_app, <- IH, total_sum. reflexivity. Qed.
Lemma size_concat (ranks : list (list R)) : list_sum (map (@length R) ranks) = length (concat ranks).
Proof. induction ranks as [|d r IH]; cbn; [reflexivity|]. rewrite app_length. f_equal. exact IH. Qed.

(* ---- largest and smallest ---- *)
Definition tops (le : R -> R -> Prop) (l : list R) (m : R) : Prop := In m l /\ forall y, In y l -> le y m.
Section Ext.
Variables (le : R -> R -> Prop) (f : R -> R -> R).
Hypothesis refl : forall a, le a a.
Hypothesis trans : forall a b c, le a b -> le b c -> le a c.
Hypothesis pick : forall a b, f a b = a \/ f a b = b.
Hypothesis up : forall a b, le a (f a b) /\ le b (f a b).
Lemma fold_tops l : forall x, tops le (x :: l) (fold_left f l x).
Proof.
  induction l as [|y l IH]; intros x; cbn [fold_left]; [split; [left; reflexivity|intros z [<-|[]]; apply refl]|].
  destruct (IH (f x y)) as [A B]. split.
  - destruct A as [A|A]; [|right; right; exact A]. rewrite <- A. destruct (pick x y) as [->| ->]; cbn; auto.
  - intros z [<-|[<-|Hz]]; [|apply (trans _ (f x y)); [apply up|]; apply B; left; reflexivity|apply B; right; exact Hz].
    apply (trans _ (f x y)); [apply up|]. apply B. left. reflexivity.
Qed.
Lemma extreme_tops l : l <> [] -> exists m, extreme f l = Ok m /\ tops le l m.
Proof. destruct l as [|x l]; [congruence|]. intros _. exists (fold_left f l x). split; [reflexivity|apply fold_tops]. Qed.
Lemma reduce_tops ranks : filled ranks -> exists m, reduce_extreme f ranks = Ok m /\ tops le (concat ranks) m.
Proof.
  intros [N F]. assert (L : exists ms, rall (map (extreme f) ranks) = Ok ms /\ Forall2 (tops le) ranks ms).
  { clear N. induction ranks as [|d r IH]; [exists []; split; [reflexivity|constructor]|]. destruct (IH (fun d H => F d (or_intror H))) as (ms & E & T).
    destruct (extreme_tops d (F d (or_introl eq_refl))) as (m & E1 & T1). exists (m :: ms). split; [cbn; rewrite E1; cbn; rewrite E; reflexivity|constructor; assumption]. }
  destruct L as (ms & E & T). assert (M : ms <> []) by (intros ->; inversion T; subst; congruence). destruct (extreme_tops ms M) as (m & E1 & [A B]).
  exists m. unfold reduce_extreme. rewrite E. cbn [rbind]. split; [exact E1|]. clear E E1 N F M. split.
  - clear B. induction T as [|d k r ks T1 T2 IH]; [destruct A|]. cbn. apply in_app_iff. destruct A as [<-|A]; [left; apply T1|right; auto].
  - clear A. induction T as [|d k r ks T1 T2 IH]; intros y Hy; [destruct Hy|]. cbn in Hy. apply in_app_iff in Hy. destruct Hy as [Hy|Hy].
    + apply (trans _ k); [apply T1; exact Hy|]. apply B. left. reflexivity.
    + apply IH; [|exact Hy]. intros z Hz. apply B. right. exact Hz.
Qed.
End Ext.
Lemma reduce_max ranks : filled ranks -> exists m, reduce_extreme Rmax ranks = Ok m /\ tops Rle (concat ranks) m.
Proof.
  apply reduce_tops; [apply Rle_refl|exact Rle_trans|intros a b; unfold Rmax; destruct (Rle_dec a b); auto|intros a b; split; [apply Rmax_l|apply Rmax_r]].
Qed.
Lemma reduce_min ranks : filled ranks -> exists m, reduce_extreme Rmin ranks = Ok m /\ tops Rge (concat ranks) m.
Proof.
  apply reduce_tops; [intros a; apply Rge_refl|exact Rge_trans|intros a b; unfold Rmin; destruct (Rle_dec a b); auto|intros a b; split; apply Rle_ge; [apply Rmin_l|apply Rmin_r]].
Qed.
Lemma tops_perm (le : R -> R -> Prop) l l' m m' : (forall a b, le a b -> le b a -> a = b) -> Permutation l l' -> tops le l m -> tops le l' m' -> m = m'.
Proof. intros AS P [A B] [C D]. apply AS; [apply D, (Permutation_in _ P), A|apply B, (Permutation_in _ (Permutation_sym P)), C]. Qed.

(* ---- the width ---- *)
Definition width (l : list R) : R := sqrt (variance l) * Rpower (24 * sqrt PI / count l) (1 / 3).
Definition number (l : list R) (lo hi : R) : Z := if Req_EM_T (width l) 0 then 1%Z else Z.max 1 (ceil ((hi - lo) / width l)).
Lemma filled_concat ranks : filled ranks -> concat ranks <> [].
Proof. intros [N F]. destruct ranks as [|d r]; [congruence|]. intros E. cbn in E. apply app_eq_nil in E. apply (F d (or_introl eq_refl)). tauto. Qed.
Lemma run_ok ranks : filled ranks -> exists lo hi, tops Rge (concat ranks) lo /\ tops Rle (concat ranks) hi /\
  scotts_bin_width ranks = Ok (width (concat ranks), map (fun i => lo + width (concat ranks) * INR i) (seq 0 (Z.to_nat (number (concat ranks) lo hi + 1)))).
Proof.
  intros F. destruct (reduce_max ranks F) as (hi & EH & TH). destruct (reduce_min ranks F) as (lo & EL & TL). exists lo, hi. split; [exact TL|]. split; [exact TH|].
  unfold scotts_bin_width. rewrite EH, EL, total_concat_id, size_concat. cbn [rbind]. fold (count (concat ranks)). fold (mean (concat ranks)).
  assert (V : total (map (fun data => total (map (fun z => Rabs (z - mean (concat ranks)) ^ 2) data)) ranks) = sum (map (fun z => (z - mean (concat ranks)) * (z - mean (concat ranks))) (concat ranks))).
  { rewrite total_concat. f_equal. apply map_ext. intros z. rewrite pow2_abs. ring. }
  rewrite V. fold (variance (concat ranks)). fold (width (concat ranks)). reflexivity.
Qed.
Lemma count_pos l : l <> [] -> 0 < count l.
Proof. unfold count. destruct l; [congruence|]. intros _. cbn [length]. rewrite S_INR. pose proof (pos_INR (length l)). lra. Qed.
Lemma variance_nonneg l : l <> [] -> 0 <= variance l.
Proof.
  intros N. unfold variance, Rdiv. apply Rmult_le_pos; [|apply Rlt_le, Rinv_0_lt_compat, count_pos, N]. apply (sum_nonneg (fun z => (z - mean l) * (z - mean l))). intros z. apply Rle_0_sqr.
Qed.
Lemma root_pos l : 0 < Rpower (24 * sqrt PI / count l) (1 / 3).
Proof. apply exp_pos. Qed.
Lemma sqrt_pi_pos : 0 < sqrt PI.
Proof. apply sqrt_lt_R0, PI_RGT_0. Qed.
Lemma root_cube l : l <> [] -> Rpower (24 * sqrt PI / count l) (1 / 3) ^ 3 * count l = 24 * sqrt PI.
Proof.
  intros N. pose proof (count_pos l N) as C. pose proof sqrt_pi_pos as P. assert (A : 0 < 24 * sqrt PI / count l) by (apply Rdiv_lt_0_compat; lra).
  rewrite <- Rpower_pow by apply root_pos. rewrite Rpower_mult. replace (1 / 3 * INR 3) with 1 by (cbn; field). rewrite Rpower_1 by exact A. field. lra.
Qed.
Lemma width_scott l : l <> [] -> scott l (width l).
Proof.
  intros N. split.
  - apply Rmult_le_pos; [apply sqrt_pos|apply Rlt_le, root_pos].
  - unfold width. rewrite Rpow_mult_distr. rewrite Rmult_assoc, root_cube by exact N. ring.
Qed.
Lemma variance_same l : l <> [] -> (variance l = 0 <-> all_same l).
Proof.
  intros N. pose proof (count_pos l N) as C. split.
  - intros V. assert (S : sum (map (fun z => (z - mean l) * (z - mean l)) l) = 0).
    { unfold variance, Rdiv in V. apply Rmult_integral in V. destruct V as [V|V]; [exact V|]. exfalso. apply Rinv_neq_0_compat in V; [exact V|lra]. }
    assert (Z : forall z, In z l -> z = mean l). { intros z Hz. pose proof (sum_zero (fun z => (z - mean l) * (z - mean l)) l (fun z => Rle_0_sqr _) S z Hz) as Q. cbv beta in Q. apply Rmult_integral in Q. lra. }
    intros x y Hx Hy. rewrite (Z x Hx), (Z y Hy). reflexivity.
  - intros A. destruct l as [|x l]; [congruence|]. assert (E : forall z, In z (x :: l) -> z = x) by (intros z Hz; apply A; [exact Hz|left; reflexivity]).
    assert (S : forall m, (forall z, In z m -> z = x) -> sum m = count m * x).
    { induction m as [|y m IH]; intros H; unfold count in *; cbn [sum length]; [cbn; ring|]. rewrite S_INR, IH by (intros; apply H; right; assumption). rewrite (H y) by (left; reflexivity). ring. }
    assert (M : mean (x :: l) = x) by (unfold mean; rewrite (S _ E); field; lra). unfold variance. rewrite M.
    assert (Q : forall m, (forall z, In z m -> z = x) -> sum (map (fun z => (z - x) * (z - x)) m) = 0).
    { induction m as [|y m IH]; intros H; cbn [map sum]; [reflexivity|]. rewrite IH by (intros; apply H; right; assumption). rewrite (H y) by (left; reflexivity). ring. }
    rewrite (Q _ E). unfold Rdiv. ring.
Qed.
Lemma width_pos l : l <> [] -> ~ all_same l -> 0 < width l.
Proof.
  intros N S. apply Rmult_lt_0_compat; [|apply root_pos]. apply sqrt_lt_R0. pose proof (variance_nonneg l N). destruct (Req_dec (variance l) 0) as [E|E]; [apply variance_same in E; [contradiction|exact N]|lra].
Qed.
Lemma ceil_spec x : IZR (ceil x) - 1 < x <= IZR (ceil x).
Proof. unfold ceil. pose proof (base_Int_part (- x)) as H. rewrite opp_IZR. lra. Qed.

Lemma bins_ok ranks : filled ranks -> ~ all_same (concat ranks) -> exists lo hi N, tops Rge (concat ranks) lo /\ tops Rle (concat ranks) hi /\
  scotts_bin_width ranks = Ok (width (concat ranks), map (fun i => lo + width (concat ranks) * INR i) (seq 0 (S (S N)))) /\
  lo + width (concat ranks) * INR N < hi <= lo + width (concat ranks) * INR (S N).
Proof.
  intros F S. destruct (run_ok ranks F) as (lo & hi & TL & TH & E). pose proof (width_pos _ (filled_concat ranks F) S) as W. set (l := concat ranks) in *.
  assert (D : lo < hi). { destruct TL as [IL BL], TH as [IH BH]. destruct (Rtotal_order lo hi) as [H|[H|H]]; [exact H| |specialize (BH lo IL); lra]. exfalso. apply S. intros x y Hx Hy. pose proof (BL x Hx). pose proof (BL y Hy). pose proof (BH x Hx). pose proof (BH y Hy). lra. }
  unfold number in E. destruct (Req_EM_T (width l) 0) as [Z|_]; [lra|]. pose proof (ceil_spec ((hi - lo) / width l)) as C. set (c := ceil ((hi - lo) / width l)) in *.
  assert (Q : 0 < (hi - lo) / width l) by (apply Rdiv_lt_0_compat; lra). assert (P : (1 <= c)%Z) by (apply (Zlt_le_succ 0), lt_IZR; lra).
  exists lo, hi, (Z.to_nat (c - 1)). split; [exact TL|]. split; [exact TH|]. rewrite Z.max_r in E by exact P. replace (Z.to_nat (c + 1)) with (Datatypes.S (Datatypes.S (Z.to_nat (c - 1)))) in E by lia. split; [exact E|].
  rewrite S_INR, INR_IZR_INZ, Z2Nat.id by lia. rewrite minus_IZR. replace hi with (lo + width l * ((hi - lo) / width l)) at 1 2 by (field; lra). split; [apply Rplus_lt_compat_l, Rmult_lt_compat_l; lra|apply Rplus_le_compat_l, Rmult_le_compat_l; lra].
Qed.

Lemma spread l x y : l <> [] -> In x l -> In y l -> (x - y) * (x - y) <= 2 * (count l * variance l).
Proof.
  intros N Hx Hy. pose proof (count_pos l N) as C. assert (V : count l * variance l = sum (map (fun z => (z - mean l) * (z - mean l)) l)) by (unfold variance; field; lra). rewrite V.
  destruct (Req_dec x y) as [->|D].
  - pose proof (sum_nonneg (fun z => (z - mean l) * (z - mean l)) l (fun z => Rle_0_sqr _)). lra.
  - pose proof (sum_two (fun z => (z - mean l) * (z - mean l)) l x y (fun z => Rle_0_sqr _) Hx Hy D) as H. cbv beta in H. pose proof (Rle_0_sqr (x + y - 2 * mean l)) as Q. unfold Rsqr in Q. nra.
Qed.
Lemma number_bound l lo hi k : l <> [] -> In lo l -> In hi l -> 0 < width l -> 0 <= k -> lo + width l * k < hi ->
  k ^ 6 * (24 * sqrt PI) ^ 2 < 8 * count l ^ 5.
Proof.
  intros N Hl Hh W K H. pose proof (count_pos l N) as C. destruct (width_scott l N) as [_ S]. pose proof (variance_nonneg l N) as V. pose proof sqrt_pi_pos as P.
  assert (V1 : 0 < variance l). { destruct (Req_dec (variance l) 0) as [E|E]; [|lra]. exfalso. unfold width in W. rewrite E, sqrt_0 in W. lra. }
  pose proof (spread l hi lo N Hh Hl) as SP. set (w := width l) in *. set (s := variance l) in *. set (n := count l) in *.
  assert (A : (w * k) * (w * k) < 2 * (n * s)). { assert (0 <= w * k) by (apply Rmult_le_pos; lra). nra. }
  assert (B : (w * k) ^ 6 < (2 * (n * s)) ^ 3).
  { replace ((w * k) ^ 6) with (((w * k) * (w * k)) ^ 3) by ring. assert (0 <= w * k * (w * k)) by apply Rle_0_sqr. set (a := w * k * (w * k)) in *. set (b := 2 * (n * s)) in *.
    assert (a * a <= b * b) by nra. assert (0 < b) by lra. replace (a ^ 3) with (a * a * a) by ring. replace (b ^ 3) with (b * b * b) by ring.
    apply Rle_lt_trans with (b * b * a); [apply Rmult_le_compat_r; assumption|apply Rmult_lt_compat_l; [apply Rmult_lt_0_compat; assumption|exact A]]. }
  assert (E : (w ^ 3 * n) ^ 2 = (24 * sqrt PI) ^ 2 * s ^ 3). { rewrite S. replace ((24 * sqrt PI * sqrt s ^ 3) ^ 2) with ((24 * sqrt PI) ^ 2 * (sqrt s * sqrt s) ^ 3) by ring. rewrite sqrt_sqrt by lra. reflexivity. }
  assert (S3 : 0 < s ^ 3) by (apply pow_lt; exact V1). apply (Rmult_lt_reg_r (s ^ 3)); [exact S3|].
  replace (k ^ 6 * (24 * sqrt PI) ^ 2 * s ^ 3) with (k ^ 6 * ((w ^ 3 * n) ^ 2)) by (rewrite E; ring).
  replace (k ^ 6 * (w ^ 3 * n) ^ 2) with (n ^ 2 * (w * k) ^ 6) by ring. replace (8 * n ^ 5 * s ^ 3) with (n ^ 2 * (2 * (n * s)) ^ 3) by ring. apply Rmult_lt_compat_l; [apply pow_lt; exact C|exact B].
Qed.

Lemma width_perm l l' : Permutation l l' -> width l = width l'.
Proof.
  intros P. assert (C : count l = count l') by (unfold count; rewrite (Permutation_length P); reflexivity). assert (M : mean l = mean l') by (unfold mean; rewrite (sum_perm _ _ P), C; reflexivity).
  unfold width, variance. rewrite M, C, (sum_perm _ _ (Permutation_map (fun z => (z - mean l') * (z - mean l')) P)). reflexivity.
Qed.
Lemma run_perm r1 r2 : filled r1 -> filled r2 -> Permutation (concat r1) (concat r2) -> scotts_bin_width r1 = scotts_bin_width r2.
Proof.
  intros F1 F2 P. destruct (run_ok r1 F1) as (lo & hi & TL & TH & ->). destruct (run_ok r2 F2) as (lo' & hi' & TL' & TH' & ->).
  assert (lo = lo') as <- by (apply (tops_perm Rge _ _ _ _ (fun a b H1 H2 => Rge_antisym a b H1 H2) P TL TL')). assert (hi = hi') as <- by (apply (tops_perm Rle _ _ _ _ Rle_antisym P TH TH')).
  unfold number. rewrite (width_perm _ _ P). reflexivity.
Qed.
Lemma run_same ranks z : filled ranks -> (forall x, In x (concat ranks) -> x = z) -> scotts_bin_width ranks = Ok (0, [z; z]).
Proof.
  intros F H. destruct (run_ok ranks F) as (lo & hi & [TL _] & _ & ->). pose proof (filled_concat ranks F) as N. set (l := concat ranks) in *.
  assert (V : variance l = 0) by (apply variance_same; [exact N|]; intros x y Hx Hy; rewrite (H x Hx), (H y Hy); reflexivity).
  assert (W : width l = 0) by (unfold width; rewrite V, sqrt_0; ring). unfold number. rewrite W. destruct (Req_EM_T 0 0) as [_|X]; [|congruence]. rewrite (H lo TL). change (Z.to_nat (1 + 1)) with 2%nat. cbn [seq map].
  replace (z + 0 * INR 0) with z by ring. replace (z + 0 * INR 1) with z by ring. reflexivity.
Qed.
