(* C166 - C169: the density proxy of KDDensity. *)
From Verif Require Import Base.
From Coq Require Import Reals Lra.
From Verif Require Import RandModel ThreeModel KdModel KdSpec KdProofs KdExamples.
Local Open Scope R_scope.

(* with the margin as large as the distance d of the eighth nearest particle, itself included: one over d cubed *)
Theorem C166_density : forall n L pos margin decompose p ds d, 0 < L -> covers L pos n (margin * meansep n L) (decompose (margin * meansep n L)) -> (p < n)%nat ->
  distances L pos n p ds -> kth ds 7 d -> 0 < d -> d <= margin * Rpower (INR n / (L * L * L)) (1 / 3) ->
  KDDensity n L pos margin decompose p = Some (1 / (d * d * d)).
Proof. exact density_ok. Qed.
Print Assumptions C166_density.
Example C166_density_ex : KDDensity 9 1 clump (1 / 20) clump_ranks 0 = Some (1 / (7 / 100 * (7 / 100) * (7 / 100))).
Proof.
  apply (C166_density 9 1 clump (1 / 20) clump_ranks 0 clump_ds); [lra|apply clump_covers|lia|apply clump_distances|apply clump_kth|lra|].
  pose proof clump_meansep as M. unfold meansep in M. lra.
Qed.

(* on one rank, whatever the margin *)
Theorem C166_one_rank : forall n L pos margin p ds d, 0 < L -> (p < n)%nat -> distances L pos n p ds -> kth ds 7 d -> 0 < d ->
  KDDensity n L pos margin (fun _ => [seq 0 n]) p = Some (1 / (d * d * d)).
Proof. exact density_one_rank. Qed.
Print Assumptions C166_one_rank.
Example C166_one_rank_ex : KDDensity 8 100 even8 1 (fun _ => [seq 0 8]) 0 = Some (1 / (50 * 50 * 50)).
Proof. apply (C166_one_rank 8 100 even8 1 0 even8_ds); [lra|lia|apply even8_distances|apply even8_kth|lra]. Qed.

(* on any ranks it is never above that value *)
Theorem C166_bound : forall n L pos margin decompose p ds d, 0 < L -> (forall held, In held (decompose (margin * meansep n L)) -> NoDup held /\ forall q, In q held -> (q < n)%nat) ->
  distances L pos n p ds -> kth ds 7 d -> 0 < d ->
  exists v, KDDensity n L pos margin decompose p = Some v /\ 0 <= v <= 1 / (d * d * d).
Proof. exact density_bound. Qed.
Print Assumptions C166_bound.
Example C166_bound_ex : exists v, KDDensity 8 100 even8 1 two_ranks 0 = Some v /\ 0 <= v <= 1 / (50 * 50 * 50).
Proof.
  apply (C166_bound 8 100 even8 1 two_ranks 0 even8_ds); [lra| |apply even8_distances|apply even8_kth|lra].
  intros held [<-|[<-|[]]]; (split; [repeat constructor; cbn; intuition lia|]); intros q Hq; cbn in Hq; intuition lia.
Qed.

(* it is not the inverse cube of the distance to the nearest neighbour, not even on one rank *)
Theorem C167_nearest_refuted : exists n L pos p e, 0 < L /\ (p < n)%nat /\ 0 < e /\
  (exists q, (q < n)%nat /\ q <> p /\ torus L (pos p) (pos q) e) /\
  (forall q d, (q < n)%nat -> q <> p -> torus L (pos p) (pos q) d -> e <= d) /\
  exists v, KDDensity n L pos 1 (fun _ => [seq 0 n]) p = Some v /\ v < 1 / (e * e * e).
Proof.
  exists 8%nat, 100, even8, 0%nat, (25 / 2).
  pose proof even8_distances as H. unfold distances, even8_ds in H. cbn [seq] in H.
  assert (G : forall q, (q < 8)%nat -> q <> 0%nat -> exists d, torus 100 (even8 0) (even8 q) d /\ 25 / 2 <= d).
  { intros q Hq Hq0. repeat match goal with H : Forall2 _ _ _ |- _ => inversion H; clear H; subst end.
    assert (q = 1 \/ q = 2 \/ q = 3 \/ q = 4 \/ q = 5 \/ q = 6 \/ q = 7)%nat as C by lia.
    destruct C as [->|[->|[->|[->|[->|[->| ->]]]]]]; eexists; (split; [eassumption|lra]). }
  split; [lra|]. split; [lia|]. split; [lra|]. split; [|split].
  - exists 1%nat. split; [lia|]. split; [lia|]. inversion H; subst. match goal with H : Forall2 _ (1%nat :: _) _ |- _ => inversion H; subst end. assumption.
  - intros q d Hq Hq0 T. destruct (G q Hq Hq0) as (d' & T' & Hd). rewrite (torus_unique _ _ _ _ _ T T'). exact Hd.
  - eexists. split; [apply C166_one_rank_ex|]. lra.
Qed.
Print Assumptions C167_nearest_refuted.

(* it depends on the number of ranks: one and two slabs, with the default margin *)
Theorem C168_ranks_refuted : exists n L pos p one two v, 0 < L /\ (p < n)%nat /\
  slabs L pos n [(0, L)] (1 * meansep n L) (one (1 * meansep n L)) /\
  slabs L pos n [(0, L / 2); (L / 2, L)] (1 * meansep n L) (two (1 * meansep n L)) /\
  KDDensity n L pos 1 one p = Some v /\ 0 < v /\ KDDensity n L pos 1 two p = Some 0.
Proof.
  exists 8%nat, 100, even8, 0%nat, (fun _ => [seq 0 8]), two_ranks, (1 / (50 * 50 * 50)). split; [lra|]. split; [lia|]. split; [|split; [|split; [|split]]].
  - constructor; [|constructor]. split; [apply seq_NoDup|]. intros q. rewrite in_seq. split; intros H; [|lia]. split; [lia|].
    exists (fst (fst (even8 q))), 0%Z. cbn [fst snd even8]. split.
    + assert (INR q <= 7) by (replace 7 with (INR 7) by (cbn; lra); apply le_INR; lia). pose proof (pos_INR q). unfold even8. cbn [fst]. lra.
    + rewrite even8_meansep. unfold even8. cbn [fst]. rewrite Rabs_pos_eq; lra.
  - replace (100 / 2) with 50 by lra. apply even8_slabs.
  - apply C166_one_rank_ex.
  - lra.
  - apply even8_two_ranks.
Qed.
Print Assumptions C168_ranks_refuted.

(* the margin is not relative to the mean separation (V / N) ** (1/3): a margin of one may be a thousandth of it *)
Theorem C169_margin_refuted : exists n L, 0 < L /\ (0 < n)%nat /\ 1 * meansep n L * 1000 < Rpower (L * L * L / INR n) (1 / 3).
Proof.
  exists 8%nat, 100. split; [lra|]. split; [lia|]. rewrite even8_meansep. rewrite (third_root _ 50); [lra|lra|]. cbn. lra.
Qed.
Print Assumptions C169_margin_refuted.
