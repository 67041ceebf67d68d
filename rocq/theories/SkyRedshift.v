(* Redshifts from distances. *)
From Verif Require Import Base.
From Coq Require Import Reals Lra Lia Sorted.
From Verif Require Import RandModel ThreeModel ThreeProofs SkyModel SkySpec SkyProofs.
Local Open Scope R_scope.

Lemma count_lt xs v : StronglySorted Rle xs -> forall j, (j < length xs)%nat -> (nth j xs 0 < v <-> (j < length (filter (fun x => rltb x v) xs))%nat).
Proof.
  induction 1 as [|a xs S IH F]; intros j J; [cbn in J; lia|]. cbn [filter]. rlt a v.
  - cbn [length]. destruct j as [|j]; cbn [nth]; [split; [lia|intros _; exact H]|]. cbn in J. rewrite (IH j) by lia. lia.
  - assert (G : v <= a) by lra. clear H. rename G into H. rewrite Forall_forall in F. replace (filter (fun x => rltb x v) xs) with (@nil R).
    + cbn [length]. split; [|lia]. intros Q. exfalso. destruct j as [|j]; cbn [nth] in Q; [lra|]. cbn in J. pose proof (F (nth j xs 0) (nth_In xs 0 (le_S_n _ _ J))). lra.
    + symmetry. clear - F H. induction xs as [|b xs IH]; [reflexivity|]. cbn [filter]. rlt b v; [specialize (F b (or_introl eq_refl)); lra|]. apply IH. intros x X. apply F. right. exact X.
Qed.
Lemma last_nth (xs : list R) : last xs 0 = nth (length xs - 1) xs 0.
Proof. induction xs as [|a [|b xs] IH]; [reflexivity|reflexivity|]. change (last (a :: b :: xs) 0) with (last (b :: xs) 0). rewrite IH. cbn [length Nat.sub nth]. rewrite Nat.sub_0_r. reflexivity. Qed.
Lemma sorted_map f zs : increasing f -> (forall z, In z zs -> 0 <= z) -> StronglySorted Rlt zs -> StronglySorted Rle (map f zs).
Proof.
  intros I P S. induction S as [|a zs S IH F]; cbn [map]; constructor; [apply IH; intros z Z; apply P; right; exact Z|]. rewrite Forall_forall in *. intros y Y. apply in_map_iff in Y. destruct Y as (z & <- & Z). left. apply I; [apply P; left; reflexivity|apply F, Z].
Qed.
Lemma increasing_iff f a b : increasing f -> 0 <= a -> 0 <= b -> (f a < f b <-> a < b).
Proof. intros I A B. split; [|apply I, A]. intros H. destruct (Rtotal_order a b) as [|[->|G]]; [assumption|lra|]. pose proof (I b a B G). lra. Qed.

Lemma increasing_le f a b : increasing f -> 0 <= a -> a <= b -> f a <= f b.
Proof. intros I A [B| ->]; [left; apply I; assumption|right; reflexivity]. Qed.

Lemma interp_ok f zs z : increasing f -> (forall y, In y zs -> 0 <= y) -> StronglySorted Rlt zs -> (2 <= length zs)%nat -> 0 <= z -> hd 0 zs <= z <= last zs 0 ->
  exists out j, interp1d (map f zs) zs (f z) = Ok out /\ (S j < length zs)%nat /\ nth j zs 0 <= z <= nth (S j) zs 0 /\ nth j zs 0 <= out <= nth (S j) zs 0 /\
    (nth j zs 0 < z \/ j = O) /\ (z = nth (S j) zs 0 -> out = z) /\ (z = nth j zs 0 -> out = z).
Proof.
  intros I P SS L2 Z0 [ZL ZH]. set (xs := map f zs). assert (LX : length xs = length zs) by apply map_length.
  assert (NX : forall j, (j < length zs)%nat -> nth j xs 0 = f (nth j zs 0)) by (intros j J; unfold xs; rewrite (nth_indep _ 0 (f 0)) by (rewrite map_length; exact J); apply map_nth).
  assert (PN : forall j, (j < length zs)%nat -> 0 <= nth j zs 0) by (intros j J; apply P, nth_In, J).
  assert (SX : StronglySorted Rle xs) by (apply sorted_map; assumption).
  pose proof (count_lt xs (f z) SX) as C. set (c := length (filter (fun x => rltb x (f z)) xs)) in C.
  assert (CI : forall j, (j < length zs)%nat -> (nth j zs 0 < z <-> (j < c)%nat)).
  { intros j J. rewrite <- (C j) by lia. rewrite NX by exact J. symmetry. apply increasing_iff; [exact I|apply PN, J|exact Z0]. }
  assert (H0 : hd 0 zs = nth 0 zs 0) by (destruct zs; reflexivity). rewrite last_nth in ZH. rewrite H0 in ZL.
  assert (CB : (c <= length zs - 1)%nat) by (destruct (le_lt_dec c (length zs - 1)) as [|G]; [assumption|]; apply CI in G; [lra|lia]).
  assert (ADJ : forall j, (S j < length zs)%nat -> nth j zs 0 < nth (S j) zs 0).
  { clear -SS. induction SS as [|a zs S IH F]; intros j J; [cbn in J; lia|]. cbn in J. destruct j as [|j]; cbn [nth]; [rewrite Forall_forall in F; apply F, nth_In; lia|apply IH; lia]. }
  set (j := (Nat.max 1 c - 1)%nat). assert (J : (S j < length zs)%nat) by (unfold j; lia).
  assert (B : nth j zs 0 <= z <= nth (S j) zs 0).
  { unfold j. destruct c as [|c'].
    - change (Nat.max 1 0 - 1)%nat with O. assert (N : ~ nth 0 zs 0 < z) by (rewrite (CI O) by lia; lia). pose proof (ADJ O ltac:(lia)). lra.
    - replace (Nat.max 1 (S c') - 1)%nat with c' by lia. split; [left; apply CI; lia|]. assert (N : ~ nth (S c') zs 0 < z) by (rewrite (CI (S c')) by lia; lia). lra. }
  pose proof (ADJ j J) as A. pose proof (I _ _ (PN j ltac:(lia)) A) as FA.
  assert (FB : f (nth j zs 0) <= f z <= f (nth (S j) zs 0)).
  { split; apply increasing_le; try exact I; try exact Z0; try (apply PN; lia); apply B. }
  set (a := nth j zs 0) in *. set (b := nth (S j) zs 0) in *.
  exists ((b - a) / (f b - f a) * (f z - f a) + a), j. split; [|split; [exact J|split; [exact B|]]].
  - unfold interp1d. fold xs. assert (HX : hd 0 xs = f (nth 0 zs 0)) by (unfold xs; destruct zs; [cbn in L2; lia|reflexivity]).
    assert (LA : last xs 0 = f (nth (length zs - 1) zs 0)) by (rewrite last_nth, LX; apply NX; lia). rewrite HX, LA.
    assert (E1 : rltb (f z) (f (nth 0 zs 0)) = false). { apply Bool.not_true_iff_false. rewrite rltb_iff. rewrite (increasing_iff f z (nth 0 zs 0) I Z0 (PN O ltac:(lia))). intros Q. lra. }
    assert (E2 : rltb (f (nth (length zs - 1) zs 0)) (f z) = false). { apply Bool.not_true_iff_false. rewrite rltb_iff. rewrite (increasing_iff f (nth (length zs - 1) zs 0) z I (PN (length zs - 1)%nat ltac:(lia)) Z0). intros Q. lra. }
    rewrite E1, E2. cbn [orb]. rewrite LX. fold c. replace (Nat.max 1 (Nat.min (length zs - 1) c)) with (S j) by (unfold j; lia). replace (S j - 1)%nat with j by lia. rewrite !NX by lia. reflexivity.
  - set (t := (f z - f a) / (f b - f a)). replace ((b - a) / (f b - f a) * (f z - f a) + a) with (a + (b - a) * t) by (unfold t; field; lra).
    assert (T : 0 <= t <= 1) by (unfold t; split; [apply Rmult_le_pos; [lra|left; apply Rinv_0_lt_compat; lra]|apply (Rmult_le_reg_r (f b - f a)); [lra|]; unfold Rdiv; rewrite Rmult_assoc, Rinv_l by lra; lra]).
    fold a; fold b. split; [pose proof (Rmult_le_pos (b - a) t ltac:(lra) ltac:(lra)); pose proof (Rmult_le_compat_l (b - a) t 1 ltac:(lra) ltac:(lra)); lra|]. split; [|split].
    + unfold a, j. destruct c as [|c']; [right; reflexivity|left]. replace (Nat.max 1 (S c') - 1)%nat with c' by lia. apply CI; lia.
    + intros E. assert (t = 1) by (unfold t; rewrite E; field; lra). rewrite H. lra.
    + intros E. assert (t = 0) by (unfold t; rewrite E; field; lra). rewrite H. lra.
Qed.

Lemma ln10_pos : 0 < ln 10. Proof. rewrite <- ln_1. apply ln_increasing; lra. Qed.
Lemma zmin_exp : zmin = exp (-8 * ln 10).
Proof. unfold zmin. replace (-8 * ln 10) with (- (INR 8 * ln 10)) by (cbn; ring). rewrite exp_Ropp. f_equal. symmetry. apply (Rpower_pow 8 10). lra. Qed.
Lemma zmin_pos : 0 < zmin. Proof. rewrite zmin_exp. apply exp_pos. Qed.
Lemma ln_zmin : ln zmin = -8 * ln 10. Proof. rewrite zmin_exp. apply ln_exp. Qed.
Lemma ln_over zmax : 0 < zmax -> ln (zmax / zmin) = ln zmax + 8 * ln 10.
Proof. intros H. pose proof zmin_pos. unfold Rdiv. rewrite ln_mult by (try assumption; apply Rinv_0_lt_compat; assumption). rewrite ln_Rinv by assumption. rewrite ln_zmin. ring. Qed.
Lemma node_eq zmax (n i : nat) : 0 < zmax -> (1 <= n)%nat -> Rpower 10 (-8 + INR i * ((log10 zmax - -8) / INR (S n - 1))) = zmin * Rpower (zmax / zmin) (INR i / INR n).
Proof.
  intros H N. pose proof ln10_pos as L. assert (0 < INR n) by (apply lt_0_INR; lia). replace (S n - 1)%nat with n by lia. unfold Rpower. rewrite ln_over, zmin_exp by exact H. rewrite <- exp_plus. f_equal. unfold log10. field. split; lra.
Qed.
Lemma logspace_nth a b n i : (i < n)%nat -> nth i (logspace a b n) 0 = Rpower 10 (a + INR i * ((b - a) / INR (n - 1))).
Proof. intros I. unfold logspace. rewrite (nth_indep _ 0 (Rpower 10 (a + INR 0 * ((b - a) / INR (n - 1))))) by (rewrite map_length, seq_length; exact I). rewrite (map_nth (fun i => Rpower 10 (a + INR i * ((b - a) / INR (n - 1))))). rewrite seq_nth by exact I. reflexivity. Qed.
Lemma Rpower_lt' x a b : 1 < x -> a < b -> Rpower x a < Rpower x b. Proof. intros X H. apply Rpower_lt; assumption. Qed.

Section Grid.
Variable zmax : R.
Hypothesis big : zmin < zmax.
Let q := zmax / zmin.
Lemma q_big : 1 < q.
Proof using big. unfold q. pose proof zmin_pos. apply (Rmult_lt_reg_r zmin); [assumption|]. unfold Rdiv. rewrite Rmult_assoc, Rinv_l by lra. lra. Qed.
Lemma zmax_pos : 0 < zmax. Proof using big. pose proof zmin_pos. lra. Qed.
Definition gnode (i : nat) : R := zmin * Rpower q (INR i / 1023).
Lemma gnode_pos i : 0 < gnode i. Proof using All. unfold gnode. apply Rmult_lt_0_compat; [apply zmin_pos|apply exp_pos]. Qed.
Lemma INR1023 : INR 1023 = 1023. Proof using All. rewrite INR_IZR_INZ. reflexivity. Qed.
Lemma zgrid_length : length (zgrid zmax) = 1025%nat.
Proof using All. unfold zgrid, logspace. cbn [length]. rewrite map_length, seq_length. reflexivity. Qed.
Lemma zgrid_nth i : (i < 1024)%nat -> nth (S i) (zgrid zmax) 0 = gnode i.
Proof using All.
  intros I. unfold zgrid. cbn [nth]. rewrite logspace_nth by exact I. rewrite (node_eq zmax 1023 i zmax_pos ltac:(lia)). rewrite INR1023. reflexivity.
Qed.
Lemma gnode_step i : gnode (S i) = gnode i * Rpower q (/ 1023).
Proof using All. unfold gnode. rewrite Rmult_assoc, <- Rpower_plus. f_equal. f_equal. rewrite S_INR. field. Qed.
Lemma gnode_lt i j : (i < j)%nat -> gnode i < gnode j.
Proof using All. intros H. unfold gnode. apply Rmult_lt_compat_l; [apply zmin_pos|]. apply Rpower_lt; [apply q_big|]. apply lt_INR in H. lra. Qed.
Lemma gnode_0 : gnode 0 = zmin.
Proof using All. unfold gnode. cbn [INR]. replace (0 / 1023) with 0 by field. rewrite Rpower_O; [ring|pose proof q_big; lra]. Qed.
Lemma gnode_last : gnode 1023 = zmax.
Proof using All. unfold gnode. rewrite INR1023. replace (1023 / 1023) with 1 by field. pose proof q_big. rewrite Rpower_1 by lra. unfold q. pose proof zmin_pos. field. lra. Qed.
Lemma zgrid_sorted : StronglySorted Rlt (zgrid zmax).
Proof using All.
  assert (G : forall n k, StronglySorted Rlt (map gnode (seq k n))).
  { induction n as [|n IH]; intros k; cbn [seq map]; constructor; [apply IH|]. apply Forall_forall. intros y Y. apply in_map_iff in Y. destruct Y as (i & <- & Y). apply in_seq in Y. apply gnode_lt. lia. }
  assert (E : zgrid zmax = 0 :: map gnode (seq 0 1024)).
  { unfold zgrid, logspace. f_equal. apply map_ext. intros i. rewrite (node_eq zmax 1023 i zmax_pos ltac:(lia)). rewrite INR1023. reflexivity. }
  rewrite E. constructor; [apply G|]. apply Forall_forall. intros y Y. apply in_map_iff in Y. destruct Y as (i & <- & _). apply gnode_pos.
Qed.
Lemma zgrid_nonneg y : In y (zgrid zmax) -> 0 <= y.
Proof using All.
  intros Y. apply (In_nth _ _ 0) in Y. destruct Y as (i & L & <-). rewrite zgrid_length in L. destruct i as [|i]; [cbn [zgrid nth]; lra|]. rewrite zgrid_nth by lia. left. apply gnode_pos.
Qed.
Lemma zgrid_last : last (zgrid zmax) 0 = zmax.
Proof using All. rewrite last_nth, zgrid_length. change (1025 - 1)%nat with (S 1023). rewrite zgrid_nth by lia. apply gnode_last. Qed.

Lemma z_ok f z : increasing f -> 0 <= z <= zmax -> exists out, z_from_comoving_distance f zmax (f z) = Ok out /\
  (node zmax z -> out = z) /\ (z <= zmin -> 0 <= out <= zmin) /\ (zmin <= z -> z / ratio zmax <= out <= z * ratio zmax).
Proof using All.
  intros I [Z0 Z1]. destruct (interp_ok f (zgrid zmax) z I zgrid_nonneg zgrid_sorted) as (out & j & E & J & B & O & D & E1 & E2).
  - rewrite zgrid_length. lia.
  - exact Z0.
  - rewrite zgrid_last. cbn [zgrid hd]. lra.
  - rewrite zgrid_length in J. exists out. split; [exact E|]. rewrite zgrid_nth in B, O, E1 by lia.
    split; [|split].
    + intros [->|(i & Li & ->)].
      * apply E2. destruct j as [|j]; [reflexivity|]. rewrite zgrid_nth in B by lia. pose proof (gnode_pos j). lra.
      * change (zmin * Rpower (zmax / zmin) (INR i / 1023)) with (gnode i) in *. apply E1. f_equal. assert (i <= j)%nat by (destruct (le_lt_dec i j) as [|G]; [assumption|]; pose proof (gnode_lt _ _ G); lra).
        assert (~ (i < j)%nat); [|lia]. intros G. destruct D as [D|D]; [|lia]. destruct j as [|j]; [lia|]. rewrite zgrid_nth in D by lia. destruct (Nat.eq_dec i j) as [->|N]; [lra|]. pose proof (gnode_lt i j ltac:(lia)). lra.
    + intros H. destruct j as [|j]; [rewrite gnode_0 in *; cbn [zgrid nth] in O; lra|]. exfalso. rewrite zgrid_nth in B, D by lia. destruct D as [D|D]; [|lia]. destruct (Nat.eq_dec j 0) as [->|N]; [rewrite gnode_0 in D; lra|]. pose proof (gnode_lt 0 j ltac:(lia)) as G. rewrite gnode_0 in G. lra.
    + intros H. unfold ratio. fold q. set (t := Rpower q (/ 1023)). assert (T : 1 < t) by (unfold t; rewrite <- (Rpower_O q) by (pose proof q_big; lra); apply Rpower_lt; [apply q_big|lra]).
      assert (F : forall u v, 0 < t -> u <= v * t -> u / t <= v) by (intros u v T0 Q; apply (Rmult_le_reg_r t); [exact T0|]; unfold Rdiv; rewrite Rmult_assoc, Rinv_l by lra; lra).
      pose proof zmin_pos as ZP. destruct j as [|j].
      * rewrite gnode_0 in *. assert (z = zmin) by lra. rewrite (E1 H0). split; [apply F; nra|nra].
      * rewrite zgrid_nth in B, O by lia. rewrite gnode_step in B, O. fold t in B, O. pose proof (gnode_pos j). split; [apply F; nra|nra].
Qed.
Lemma z_beyond f r : increasing f -> f zmax < r -> z_from_comoving_distance f zmax r = Err ValueError.
Proof using All.
  intros I H. unfold z_from_comoving_distance, interp1d. rewrite last_nth, map_length. rewrite (nth_indep _ 0 (f 0)) by (rewrite map_length, zgrid_length; lia). rewrite map_nth, <- last_nth, zgrid_last.
  replace (rltb (f zmax) r) with true by (symmetry; apply rltb_iff; exact H). rewrite Bool.orb_true_r. reflexivity.
Qed.
End Grid.
