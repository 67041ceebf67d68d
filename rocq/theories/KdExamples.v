(* concrete particles on a line, for the examples and refutations *)
From Verif Require Import Base.
From Coq Require Import Reals Lra.
From Verif Require Import RandModel ThreeModel ThreeProofs SkyModel ConvExamples KdModel KdSpec KdProofs.
Local Open Scope R_scope.
Local Notation length := List.length.

Lemma axis_near L x y : 0 < L -> Rabs (x - y) <= L / 2 -> axis_dist L x y (Rabs (x - y)).
Proof.
  intros HL H. split; [exists 0%Z; f_equal; ring|]. intros k. destruct (Z.eq_dec k 0) as [->|Hk]; [right; f_equal; ring|].
  assert (1 <= Rabs (IZR k)) by (rewrite <- abs_IZR; apply (IZR_le 1); lia).
  pose proof (Rabs_triang (x - y + IZR k * L) (- (x - y))) as T. rewrite Rabs_Ropp in T.
  replace (x - y + IZR k * L + - (x - y)) with (IZR k * L) in T by ring. rewrite Rabs_mult, (Rabs_pos_eq L) in T by lra. nra.
Qed.
Lemma axis_far L x y : 0 < L -> L / 2 <= Rabs (x - y) <= L -> axis_dist L x y (L - Rabs (x - y)).
Proof.
  intros HL [H1 H2]. split.
  - destruct (Rle_or_lt 0 (x - y)) as [P|P].
    + exists (-1)%Z. rewrite (Rabs_pos_eq (x - y)) in * by lra. rewrite Rabs_left1 by lra. ring.
    + exists 1%Z. rewrite (Rabs_left (x - y)) in * by lra. rewrite Rabs_pos_eq by lra. ring.
  - intros k. destruct (Z.eq_dec k 0) as [->|Hk]; [rewrite Rmult_0_l, Rplus_0_r; lra|].
    assert (1 <= Rabs (IZR k)) by (rewrite <- abs_IZR; apply (IZR_le 1); lia).
    pose proof (Rabs_triang (x - y + IZR k * L) (- (x - y))) as T. rewrite Rabs_Ropp in T.
    replace (x - y + IZR k * L + - (x - y)) with (IZR k * L) in T by ring. rewrite Rabs_mult, (Rabs_pos_eq L) in T by lra. nra.
Qed.
Lemma axis_of L x y m : 0 < L -> (m = Rabs (x - y) /\ m <= L / 2 \/ m = L - Rabs (x - y) /\ 0 <= m <= L / 2) -> axis_dist L x y m.
Proof. intros HL [[-> H]|[-> H]]; [apply axis_near; assumption|apply axis_far; [exact HL|lra]]. Qed.
Lemma torus_line L x u m : 0 < L -> 0 <= m -> axis_dist L x u m -> torus L (x, 0, 0) (u, 0, 0) m.
Proof.
  intros HL Hm H. exists m, 0, 0. split; [exact H|]. assert (Z : axis_dist L 0 0 0) by (apply axis_of; [exact HL|left; rewrite Rminus_0_r, Rabs_R0; lra]).
  split; [exact Z|]. split; [exact Z|]. replace (m * m + 0 * 0 + 0 * 0) with (m * m) by ring. symmetry. apply sqrt_square, Hm.
Qed.
Ltac rabs := unfold Rabs; destruct (Rcase_abs _); lra.
Ltac line := cbn [Nat.ltb Nat.leb INR]; apply torus_line; [lra|lra|apply axis_of; [lra|]; first [left; split; [rabs|lra] | right; split; [rabs|lra]]].
Ltac decide_r := repeat (cbn [filter]; match goal with
  | |- context [rltb ?a ?b] => first [rewrite (rltb_yes a b) by lra | rewrite (rltb_no a b) by lra]
  | |- context [rleb ?a ?b] => first [rewrite (rleb_yes a b) by lra | rewrite (rleb_no a b) by lra] end); cbn [filter].

(* eight particles spread evenly over a box of side 100 *)
Definition even8 (q : nat) : point := (INR q * (25 / 2) + 25 / 4, 0, 0).
Definition even8_ds : list R := [0; 25 / 2; 25; 75 / 2; 50; 75 / 2; 25; 25 / 2].
Lemma even8_distances : distances 100 even8 8 0 even8_ds.
Proof.
  unfold distances, even8, even8_ds. cbn [seq INR]. repeat (constructor; [line|]).
  constructor.
Qed.
Lemma even8_kth : kth even8_ds 7 50.
Proof. unfold kth, even8_ds. split; [cbn; tauto|]. split; decide_r; cbn [length]; lia. Qed.

Lemma third_root a b : 0 < b -> a = b * b * b -> Rpower a (1 / 3) = b.
Proof.
  intros Hb ->. replace (b * b * b) with (Rpower b 3).
  - rewrite Rpower_mult. replace (3 * (1 / 3)) with 1 by lra. apply Rpower_1, Hb.
  - replace 3 with (INR 3) by (cbn; lra). rewrite Rpower_pow by exact Hb. cbn. ring.
Qed.
Lemma even8_meansep : meansep 8 100 = 1 / 50.
Proof. unfold meansep. apply third_root; [lra|]. cbn. lra. Qed.
(* two ranks: the halves of the box with a margin of one fiftieth *)
Definition two_ranks (s : R) : list (list nat) := [[0; 1; 2; 3]; [4; 5; 6; 7]]%nat.
Lemma even8_slabs : slabs 100 even8 8 [(0, 50); (50, 100)] (1 * meansep 8 100) (two_ranks (1 * meansep 8 100)).
Proof.
  rewrite even8_meansep. unfold two_ranks.
  assert (N : forall lo hi q, (q < 8)%nat -> lo <= INR q * (25 / 2) + 25 / 4 <= hi -> slab_holds 100 (lo, hi) (1 * (1 / 50)) (even8 q)).
  { intros lo hi q Hq H. exists (INR q * (25 / 2) + 25 / 4), 0%Z. split; [exact H|]. unfold even8. cbn [fst]. rewrite Rabs_pos_eq; lra. }
  assert (E : forall (lo hi x : R) (k : Z), Rabs (x + IZR k * 100) <= 1 * (1 / 50) -> -100 < x < 100 -> (-100 + 1/50 < x < -1/50 \/ 1/50 < x < 100 - 1/50) -> False).
  { intros lo hi x k H B Hx. assert (H' : - (1 * (1 / 50)) <= x + IZR k * 100 <= 1 * (1 / 50)) by (unfold Rabs in H; destruct (Rcase_abs _); lra). clear H.
    assert (-1 < IZR k < 1 \/ 1 <= IZR k \/ IZR k <= -1) as [K|[K|K]] by lra; [|lra|lra].
    assert (k = 0)%Z as -> by (assert (-1 < k < 1)%Z; [split; apply lt_IZR; lra|lia]). lra. }
  constructor; [|constructor; [|constructor]]; (split; [repeat constructor; cbn; intuition lia|]); intros q; split.
  - intros Hq. assert (q < 4)%nat by (cbn in Hq; intuition lia). split; [lia|]. apply N; [lia|]. apply le_INR in H as H'. 
    assert (INR q <= 3) by (replace 3 with (INR 3) by (cbn; lra); apply le_INR; lia). pose proof (pos_INR q). lra.
  - intros [Hq (y & k & Hy & H)]. cbn [fst snd] in *. unfold even8 in H. cbn [fst] in H.
    destruct (Nat.lt_ge_cases q 4) as [Q|Q]; [cbn; lia|exfalso].
    assert (4 <= INR q) by (replace 4 with (INR 4) by (cbn; lra); apply le_INR; lia).
    assert (INR q <= 7) by (replace 7 with (INR 7) by (cbn; lra); apply le_INR; lia).
    apply (E 0 0 _ k H); [lra|]. right. lra.
  - intros Hq. assert (4 <= q < 8)%nat by (cbn in Hq; intuition lia). split; [lia|]. apply N; [lia|].
    assert (4 <= INR q) by (replace 4 with (INR 4) by (cbn; lra); apply le_INR; lia).
    assert (INR q <= 7) by (replace 7 with (INR 7) by (cbn; lra); apply le_INR; lia). lra.
  - intros [Hq (y & k & Hy & H)]. cbn [fst snd] in *. unfold even8 in H. cbn [fst] in H.
    destruct (Nat.lt_ge_cases q 4) as [Q|Q]; [exfalso|cbn; lia].
    assert (INR q <= 3) by (replace 3 with (INR 3) by (cbn; lra); apply le_INR; lia). pose proof (pos_INR q).
    apply (E 0 0 _ k H); [lra|]. left. lra.
Qed.
Lemma even8_two_ranks : KDDensity 8 100 even8 1 two_ranks 0 = Some 0.
Proof.
  unfold KDDensity, gather_min, two_ranks. cbn [filter existsb Nat.eqb orb map fold_right fmin].
  assert (query8 (fun q => to_unit 100 (even8 q)) [0; 1; 2; 3]%nat 0 = None) as ->; [|reflexivity].
  unfold query8. apply nth_error_None. rewrite (Permutation.Permutation_length (sortR_perm _)), map_length. cbn. lia.
Qed.

(* eight particles close together and one apart, two ranks *)
Definition clump (q : nat) : point := if (q <? 8)%nat then (1 / 5 + INR q / 100, 0, 0) else (3 / 4, 0, 0).
Definition clump_ds : list R := [0; 1 / 100; 2 / 100; 3 / 100; 4 / 100; 5 / 100; 6 / 100; 7 / 100; 45 / 100].
Lemma clump_distances : distances 1 clump 9 0 clump_ds.
Proof. unfold distances, clump, clump_ds. cbn [seq Nat.ltb Nat.leb INR]. repeat (constructor; [line|]). constructor. Qed.
Lemma clump_kth : kth clump_ds 7 (7 / 100).
Proof. unfold kth, clump_ds. split; [cbn; tauto|]. split; decide_r; cbn [length]; lia. Qed.
Definition clump_ranks (s : R) : list (list nat) := [[0; 1; 2; 3; 4; 5; 6; 7]; [8]]%nat.
Lemma clump_meansep : 2 <= meansep 9 1 <= 3.
Proof.
  unfold meansep. replace (INR 9 / (1 * 1 * 1)) with 9 by (cbn; lra). split.
  - apply Rle_trans with (Rpower 8 (1 / 3)); [rewrite (third_root 8 2); lra|]. apply Rle_Rpower_l; lra.
  - apply Rle_trans with (Rpower 27 (1 / 3)); [apply Rle_Rpower_l; lra|]. rewrite (third_root 27 3); lra.
Qed.
Lemma clump_far q d : (q < 8)%nat -> torus 1 (clump q) (clump 8) d \/ torus 1 (clump 8) (clump q) d -> 3 / 10 <= d.
Proof.
  intros Hq H. unfold clump in H. apply Nat.ltb_lt in Hq as E. rewrite E in H. cbn [Nat.ltb Nat.leb] in H.
  assert (INR q <= 7) by (replace 7 with (INR 7) by (cbn; lra); apply le_INR; lia). pose proof (pos_INR q).
  destruct H as [H|H].
  - destruct (Rle_or_lt (3 / 4 - (1 / 5 + INR q / 100)) (1 / 2)) as [Q|Q].
    + assert (T : torus 1 (1 / 5 + INR q / 100, 0, 0) (3 / 4, 0, 0) (3 / 4 - (1 / 5 + INR q / 100))) by line. rewrite (torus_unique _ _ _ _ _ H T). lra.
    + assert (T : torus 1 (1 / 5 + INR q / 100, 0, 0) (3 / 4, 0, 0) (1 - (3 / 4 - (1 / 5 + INR q / 100)))) by line. rewrite (torus_unique _ _ _ _ _ H T). lra.
  - destruct (Rle_or_lt (3 / 4 - (1 / 5 + INR q / 100)) (1 / 2)) as [Q|Q].
    + assert (T : torus 1 (3 / 4, 0, 0) (1 / 5 + INR q / 100, 0, 0) (3 / 4 - (1 / 5 + INR q / 100))) by line. rewrite (torus_unique _ _ _ _ _ H T). lra.
    + assert (T : torus 1 (3 / 4, 0, 0) (1 / 5 + INR q / 100, 0, 0) (1 - (3 / 4 - (1 / 5 + INR q / 100)))) by line. rewrite (torus_unique _ _ _ _ _ H T). lra.
Qed.
Lemma clump_covers : covers 1 clump 9 (1 / 20 * meansep 9 1) (clump_ranks (1 / 20 * meansep 9 1)).
Proof.
  pose proof clump_meansep as M. unfold clump_ranks. split.
  - intros held [<-|[<-|[]]]; (split; [repeat constructor; cbn; intuition lia|]); intros q Hq; cbn in Hq; intuition lia.
  - intros p Hp. destruct (Nat.eq_dec p 8) as [->|Hp8].
    + exists [8%nat]. split; [cbn; tauto|]. split; [cbn; tauto|]. intros q d Hq T Hd. destruct (Nat.eq_dec q 8) as [->|Hq8]; [cbn; tauto|exfalso].
      assert (3 / 10 <= d) by (apply (clump_far q); [lia|right; exact T]). lra.
    + exists [0; 1; 2; 3; 4; 5; 6; 7]%nat. split; [cbn; tauto|]. split; [cbn; lia|]. intros q d Hq T Hd.
      destruct (Nat.eq_dec q 8) as [->|Hq8]; [exfalso|cbn; lia].
      assert (3 / 10 <= d) by (apply (clump_far p); [lia|left; exact T]). lra.
Qed.
