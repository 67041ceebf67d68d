(* C360, C361 *)
From Verif Require Import Base BaseProofs SctModel SctSpec SctProofs.
From Coq Require Import Reals Permutation Lra.
Local Open Scope R_scope.

(* ---- C360: the automatic bins follow Scott's rule ---- *)
Theorem C360_scott : forall ranks, filled ranks -> exists h edges, scotts_bin_width ranks = Ok (h, edges) /\ scott (concat ranks) h.
Proof.
  intros ranks F. destruct (run_ok ranks F) as (lo & hi & _ & _ & E). eexists _, _. split; [exact E|]. apply width_scott, filled_concat, F.
Qed.
Print Assumptions C360_scott.
Theorem C360_bins : forall ranks, filled ranks -> ~ all_same (concat ranks) -> exists h lo hi N,
  scotts_bin_width ranks = Ok (h, map (fun i => lo + h * INR i) (seq 0 (S (S N)))) /\ 0 < h /\
  In lo (concat ranks) /\ In hi (concat ranks) /\ (forall z, In z (concat ranks) -> lo <= z <= hi) /\
  lo + h * INR N < hi <= lo + h * INR (S N) /\
  INR N ^ 6 * (24 * sqrt PI) ^ 2 < 8 * count (concat ranks) ^ 5.
Proof.
  intros ranks F S. destruct (bins_ok ranks F S) as (lo & hi & N & [IL BL] & [IH BH] & E & B). pose proof (filled_concat ranks F) as NE. pose proof (width_pos _ NE S) as W.
  exists (width (concat ranks)), lo, hi, N. split; [exact E|]. split; [exact W|]. split; [exact IL|]. split; [exact IH|].
  split; [intros z Hz; split; [apply Rge_le, BL, Hz|apply BH, Hz]|]. split; [exact B|]. apply (number_bound _ lo hi); [exact NE|exact IL|exact IH|exact W|apply pos_INR|apply B].
Qed.
Print Assumptions C360_bins.
Theorem C360_ranks : forall r1 r2, filled r1 -> filled r2 -> Permutation (concat r1) (concat r2) -> scotts_bin_width r1 = scotts_bin_width r2.
Proof. exact run_perm. Qed.
Print Assumptions C360_ranks.
Example C360_ex : filled [[1; 2]; [3]] /\ ~ all_same (concat [[1; 2]; [3]]) /\ filled [[3]; [2]; [1]] /\ Permutation (concat [[1; 2]; [3]]) (concat [[3]; [2]; [1]]) /\
  variance (concat [[1; 2]; [3]]) = 2 / 3.
Proof.
  split; [split; [discriminate|intros d [<-|[<-|[]]]; discriminate]|]. split; [intros H; assert (1 = 2) by (apply H; cbn; auto); lra|].
  split; [split; [discriminate|intros d [<-|[<-|[<-|[]]]]; discriminate]|]. split; [cbn; apply (Permutation_rev [1; 2; 3])|].
  unfold variance, mean, count. cbn. field.
Qed.

(* ---- C361: the automatic bins have a positive width ---- *)
Theorem C361_same : forall ranks z, filled ranks -> (forall x, In x (concat ranks) -> x = z) -> scotts_bin_width ranks = Ok (0, [z; z]).
Proof. exact run_same. Qed.
Print Assumptions C361_same.
Theorem C361_width_refuted : exists ranks h edges, filled ranks /\ scotts_bin_width ranks = Ok (h, edges) /\ ~ 0 < h /\
  forall z, In z (concat ranks) -> ~ exists i a b, nth_error edges i = Some a /\ nth_error edges (S i) = Some b /\ a <= z < b.
Proof.
  exists [[1; 1]; [1]], 0, [1; 1]. assert (F : filled [[1; 1]; [1]]) by (split; [discriminate|intros d [<-|[<-|[]]]; discriminate]).
  assert (A : forall x, In x (concat [[1; 1]; [1]]) -> x = 1) by (cbn; intuition). split; [exact F|]. split; [apply run_same; assumption|]. split; [lra|].
  intros z Hz (i & a & b & Ha & Hb & H). destruct i as [|[|[|i]]]; cbn in Ha, Hb; try discriminate. injection Ha as <-. injection Hb as <-. lra.
Qed.
Print Assumptions C361_width_refuted.
