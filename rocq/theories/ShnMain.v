From Verif Require Import Base BaseProofs Num.
From Coq Require Import Reals Lra Qreals.
From Verif Require Import RandModel RandProofs ThreeModel ThreeProofs SkyModel ConvModel MockModel MockSpec MockProofs MockMean DftModel DftSpec DftProofs DftMain LegProps ShnModel ShnSpec ShnProofs.
From Verif Require PaintModel PaintSpec PaintProofs.
Local Open Scope R_scope.
Local Notation length := List.length.

Lemma placements_in N n xs : In xs (placements N n) <-> length xs = n /\ Forall (is_mode N) xs.
Proof.
  revert xs. induction n as [|n IH]; intros xs; cbn [placements].
  - split; [intros [<- | []]; split; [reflexivity|constructor]|]. intros [H _]. destruct xs; [left; reflexivity|discriminate H].
  - rewrite in_flat_map. split.
    + intros (x & X & H). apply in_map_iff in H. destruct H as (ys & <- & H). apply IH in H. destruct H as [H1 H2]. apply in_cells in X. split; [cbn; congruence|constructor; assumption].
    + intros [H F]. destruct xs as [|x xs]; [discriminate H|]. exists x. split; [apply in_cells; exact (Forall_inv F)|]. apply in_map. apply IH. split; [cbn in H; congruence|exact (Forall_inv_tail F)].
Qed.
Lemma rsum_const {A} (c : R) : forall l : list A, rsum (map (fun _ => c) l) = INR (length l) * c.
Proof. induction l as [|y l IH]; [cbn; ring|]. cbn [map rsum]. rewrite IH. change (length (y :: l)) with (Datatypes.S (length l)). rewrite S_INR. ring. Qed.
Lemma placements_sum N n (f : list mode -> R) :
  rsum (map f (placements N (S n))) = rsum (map (fun x => rsum (map (fun xs => f (x :: xs)) (placements N n))) (cells N)).
Proof. cbn [placements]. rewrite rsum_flat. apply rsum_ext'. intros x _. rewrite map_map. reflexivity. Qed.
Lemma placements_len N n : INR (length (placements N n)) = ncell N ^ n.
Proof.
  induction n as [|n IH]; [cbn; ring|]. rewrite <- (Rmult_1_r (INR _)), <- (rsum_const 1 (placements N (S n))), placements_sum.
  rewrite (rsum_ext' _ (fun _ => INR (length (placements N n)))) by (intros; rewrite rsum_const; ring). rewrite sum_const, <- ncell_len, IH. cbn [pow]. reflexivity.
Qed.

(* ---- random phases ---- *)
Definition cs (N m : mode) (es : list R) (xs : list mode) : R := rsum (map (fun ex => fst ex * cos (angle N m (snd ex))) (combine es xs)).
Definition sn (N m : mode) (es : list R) (xs : list mode) : R := rsum (map (fun ex => fst ex * sin (angle N m (snd ex))) (combine es xs)).
Lemma no_cos N m : is_mode N m -> m <> (0, 0, 0)%nat -> rsum (map (fun x => cos (angle N m x)) (cells N)) = 0.
Proof. intros M H. rewrite <- (cells_cos N m 0 M H). apply rsum_ext'. intros; rewrite Rplus_0_l; reflexivity. Qed.
Lemma no_sin N m : is_mode N m -> m <> (0, 0, 0)%nat -> rsum (map (fun x => sin (angle N m x)) (cells N)) = 0.
Proof. intros M H. rewrite <- (cells_cos N m (- (PI / 2)) M H). apply rsum_ext'. intros x _. replace (- (PI / 2) + angle N m x) with (- (PI / 2 - angle N m x)) by ring. rewrite cos_neg, cos_shift. reflexivity. Qed.
Lemma phases_zero N m : is_mode N m -> m <> (0, 0, 0)%nat -> forall es,
  rsum (map (cs N m es) (placements N (length es))) = 0 /\ rsum (map (sn N m es) (placements N (length es))) = 0.
Proof.
  intros M H. induction es as [|e es [I1 I2]]; [cbn; split; ring|]. change (length (e :: es)) with (S (length es)). rewrite !placements_sum. split.
  - rewrite (rsum_ext' _ (fun x => INR (length (placements N (length es))) * e * cos (angle N m x))).
    + rewrite rsum_scl, (no_cos N m M H). ring.
    + intros x _. rewrite (rsum_ext' _ (fun xs => e * cos (angle N m x) + cs N m es xs)) by reflexivity. rewrite rsum_plus, rsum_const, I1. ring.
  - rewrite (rsum_ext' _ (fun x => INR (length (placements N (length es))) * e * sin (angle N m x))).
    + rewrite rsum_scl, (no_sin N m M H). ring.
    + intros x _. rewrite (rsum_ext' _ (fun xs => e * sin (angle N m x) + sn N m es xs)) by reflexivity. rewrite rsum_plus, rsum_const, I2. ring.
Qed.
Lemma phases_square N m : is_mode N m -> m <> (0, 0, 0)%nat -> forall es,
  rsum (map (fun xs => cs N m es xs * cs N m es xs + sn N m es xs * sn N m es xs) (placements N (length es))) = INR (length (placements N (length es))) * rsum (map (fun e => e * e) es).
Proof.
  intros M H. induction es as [|e es IH]; [cbn; ring|]. destruct (phases_zero N m M H es) as [Z1 Z2]. change (length (e :: es)) with (S (length es)). rewrite placements_sum.
  rewrite (rsum_ext' _ (fun x => INR (length (placements N (length es))) * (e * e + rsum (map (fun e => e * e) es)))).
  - rewrite sum_const, <- ncell_len. rewrite (placements_len N (S (length es))), (placements_len N (length es)). cbn [pow map rsum]. ring.
  - intros x _. rewrite (rsum_ext' _ (fun xs => e * e + (2 * e * cos (angle N m x) * cs N m es xs + (2 * e * sin (angle N m x) * sn N m es xs + (cs N m es xs * cs N m es xs + sn N m es xs * sn N m es xs))))).
    + rewrite rsum_plus, rsum_const, rsum_plus, rsum_scl, rsum_plus, rsum_scl, Z1, Z2, IH. ring.
    + intros xs _. unfold cs at 1 2, sn at 1 2. cbn [combine map rsum fst snd]. fold (cs N m es xs) (sn N m es xs).
      assert (Q := sin2_cos2 (angle N m x)). unfold Rsqr in Q. set (c := cos (angle N m x)) in *. set (s := sin (angle N m x)) in *. set (C := cs N m es xs). set (D := sn N m es xs).
      transitivity (e * e * (s * s + c * c) + (2 * e * c * C + (2 * e * s * D + (C * C + D * D)))); [ring|]. rewrite Q. ring.
Qed.

(* ---- the catalogs: objects that are not selected weigh nothing ---- *)
Definition eff (k : rank) : list Qc :=
  map (fun i => if PaintSpec.at_row (chosen k) true i then PaintSpec.at_row (weights k) 1%Qc i else 0%Qc) (seq 0 (objects k)).
Lemma eff_len k : length (eff k) = objects k.
Proof. unfold eff. rewrite map_length, seq_length. reflexivity. Qed.
Lemma effs_len l : length (flat_map eff l) = count l.
Proof. induction l as [|k l IH]; [reflexivity|]. cbn [flat_map count fold_right]. rewrite app_length, eff_len, IH. reflexivity. Qed.
Lemma combine_map_l {A B C} (g : A -> B) : forall (l : list A) (k : list C), combine (map g l) k = map (fun ix => (g (fst ix), snd ix)) (combine l k).
Proof. induction l as [|x l IH]; intros [|y k]; cbn; [reflexivity..|]. rewrite IH. reflexivity. Qed.
Lemma combine_app {A B} : forall (a b : list A) (c d : list B), length a = length c -> combine (a ++ b) (c ++ d) = combine a c ++ combine b d.
Proof. induction a as [|x a IH]; intros b [|y c] d H; try discriminate H; [reflexivity|]. cbn. rewrite IH by (cbn in H; congruence). reflexivity. Qed.
Lemma rank_sum (G : Qc -> mode -> R) k xs : (forall x, G 0%Qc x = 0) -> length xs = objects k ->
  rsum (map (fun p => G (PaintModel.w p) (PaintModel.pos p)) (PaintSpec.selected {| PaintModel.position := xs; PaintModel.weight := weights k; PaintModel.value := None; PaintModel.selection := chosen k |}))
  = rsum (map (fun ex => G (fst ex) (snd ex)) (combine (eff k) xs)).
Proof.
  intros G0 H. unfold PaintSpec.selected. cbn [PaintModel.position PaintModel.weight PaintModel.value PaintModel.selection]. rewrite map_map. cbn [PaintModel.w PaintModel.pos].
  rewrite (rsum_filter (fun ip => G (PaintSpec.at_row (weights k) 1%Qc (fst ip)) (snd ip))). unfold eff. rewrite combine_map_l, map_map, H. apply rsum_ext'. intros ip _. cbn [fst snd]. destruct (PaintSpec.at_row _ _ _); [reflexivity|]. rewrite G0. reflexivity.
Qed.
Lemma placed_sum (G : Qc -> mode -> R) : (forall x, G 0%Qc x = 0) -> forall l xs, length xs = count l ->
  rsum (map (fun p => G (PaintModel.w p) (PaintModel.pos p)) (PaintSpec.all_selected (placed l xs))) = rsum (map (fun ex => G (fst ex) (snd ex)) (combine (flat_map eff l) xs)).
Proof.
  intros G0. induction l as [|k l IH]; intros xs H; [reflexivity|]. cbn [count fold_right] in H. fold (count l) in H. cbn [placed flat_map]. unfold PaintSpec.all_selected in *. cbn [map concat]. rewrite map_app, rsum_app, rank_sum by (try exact G0; rewrite firstn_length; lia).
  rewrite IH by (rewrite skipn_length; lia). rewrite <- (firstn_skipn (objects k) xs) at 3. rewrite combine_app by (rewrite eff_len, firstn_length; lia). rewrite map_app, rsum_app. reflexivity.
Qed.
Lemma placed_aligned l : Forall complete l -> forall xs, length xs = count l -> Forall PaintSpec.aligned (placed l xs).
Proof.
  induction 1 as [|k l [Hk1 Hk2] F IH]; intros xs H; [constructor|]. cbn [count fold_right] in H. fold (count l) in H. cbn [placed]. constructor; [|apply IH; rewrite skipn_length; lia].
  assert (E : length (firstn (objects k) xs) = objects k) by (rewrite firstn_length; lia).
  split; [|split]; cbn [PaintModel.position PaintModel.weight PaintModel.value PaintModel.selection]; intros y Hy; rewrite E; [exact (Hk1 y Hy)|discriminate Hy|exact (Hk2 y Hy)].
Qed.
Lemma placed_value l : forall xs k, In k (placed l xs) -> PaintModel.value k = None.
Proof. induction l as [|k l IH]; intros xs c H; [destruct H|]. cbn [placed] in H. destruct H as [<- | H]; [reflexivity|exact (IH _ _ H)]. Qed.
Lemma placed_pos N l : forall xs, Forall (is_mode N) xs -> forall k p, In k (placed l xs) -> In p (PaintModel.position k) -> is_mode N p.
Proof.
  induction l as [|k l IH]; intros xs F c p H P; [destruct H|]. cbn [placed] in H. rewrite <- (firstn_skipn (objects k) xs) in F. apply Forall_app in F. destruct F as [F1 F2]. destruct H as [<- | H].
  - exact (proj1 (Forall_forall _ _) F1 p P).
  - exact (IH _ F2 c p H P).
Qed.
Definition reals (l : list rank) : list R := map real_of (flat_map eff l).
Lemma reals_len l : length (reals l) = count l.
Proof. unfold reals. rewrite map_length. apply effs_len. Qed.
Lemma placed_cs N m l xs : length xs = count l -> csum pw PaintModel.pos N m (PaintSpec.all_selected (placed l xs)) = cs N m (reals l) xs.
Proof.
  intros H. unfold csum, pw. rewrite (placed_sum (fun w x => real_of w * cos (angle N m x))) by (try exact H; intros; rewrite real_0; ring). unfold cs, reals. rewrite combine_map_l, map_map. reflexivity.
Qed.
Lemma placed_sn N m l xs : length xs = count l -> ssum pw PaintModel.pos N m (PaintSpec.all_selected (placed l xs)) = sn N m (reals l) xs.
Proof.
  intros H. unfold ssum, pw. rewrite (placed_sum (fun w x => real_of w * sin (angle N m x))) by (try exact H; intros; rewrite real_0; ring). unfold sn, reals. rewrite combine_map_l, map_map. reflexivity.
Qed.
Lemma combine_fst {A B C} (f : A -> C) : forall (a : list A) (b : list B), length a = length b -> map (fun ex => f (fst ex)) (combine a b) = map f a.
Proof. induction a as [|x a IH]; intros [|y b] H; try discriminate H; [reflexivity|]. cbn. rewrite IH by (cbn in H; congruence). reflexivity. Qed.
Lemma placed_w l xs : length xs = count l -> rsum (map pw (PaintSpec.all_selected (placed l xs))) = rsum (reals l).
Proof.
  intros H. unfold pw. rewrite (placed_sum (fun w x => real_of w)) by (try exact H; intros; exact real_0). rewrite (combine_fst real_of) by (rewrite effs_len, H; reflexivity). reflexivity.
Qed.
Lemma placed_w2 l xs : length xs = count l -> rsum (map (fun p => pw p * pw p) (PaintSpec.all_selected (placed l xs))) = rsum (map (fun e => e * e) (reals l)).
Proof.
  intros H. unfold pw. rewrite (placed_sum (fun w x => real_of w * real_of w)) by (try exact H; intros; rewrite real_0; ring). rewrite (combine_fst (fun w => real_of w * real_of w)) by (rewrite effs_len, H; reflexivity). unfold reals. rewrite map_map. reflexivity.
Qed.
Lemma real_inj a b : real_of a = real_of b -> a = b.
Proof. intros H. apply Qc_is_canon. apply eqR_Qeq. exact H. Qed.

Section Mean.
Variables (N : mode) (L : point) (K : mode -> Qc) (kern kern2 : mode -> PaintModel.field) (volume : Qc) (compose : PaintModel.field -> PaintModel.field -> PaintModel.field).
Variables (throttle : list mode -> nat -> bool) (chunk : Z) (l : list rank) (r : list mode -> PaintModel.result).
Hypothesis HN : mesh_size N.
Hypothesis HK : window N (number N) K kern.
Hypothesis HV : real_of volume = box_volume L.
Hypothesis HL : Forall complete l.
Hypothesis HC : (1 <= chunk)%Z.
Hypothesis HR : forall xs, In xs (placements N (count l)) ->
  PaintModel.to_real_field mode kern kern2 (size N) volume compose (throttle xs) chunk false true None (placed l xs) = Ok (r xs) /\ (0 < PaintModel.aW (r xs))%Qc.

Lemma each xs : In xs (placements N (count l)) ->
  real_of (PaintModel.aW (r xs)) = rsum (reals l) /\ rsum (reals l) <> 0 /\
  PaintModel.shotnoise (r xs) = Some (volume * (PaintModel.aW2 (r xs) / (PaintModel.aW (r xs) * PaintModel.aW (r xs))))%Qc /\
  real_of (PaintModel.aW2 (r xs)) = rsum (map (fun e => e * e) (reals l)) /\
  (forall m, is_mode N m -> r2c N (read N (r xs)) m = cscale (ncell N / rsum (reals l)) (cmul (r2c N (fun y => real_of (K y)) m) (cs N m (reals l) xs, - sn N m (reals l) xs))).
Proof.
  intros H. destruct (HR xs H) as [E W]. apply placements_in in H. destruct H as [Hl HF].
  assert (AL := placed_aligned l HL xs Hl). assert (VL := placed_value l xs). assert (PL := placed_pos N l xs HF).
  destruct (painted_field N K kern kern2 volume compose HN HK (throttle xs) chunk (placed l xs) (r xs) AL HC VL PL E W) as (_ & A & B & C & _).
  rewrite placed_w in A by exact Hl. rewrite placed_w2 in C by exact Hl.
  assert (RW : rsum (reals l) <> 0). { rewrite <- A. apply real_nz. intros Q. rewrite Q in W. discriminate W. }
  split; [exact A|]. split; [exact RW|]. split; [exact B|]. split; [exact C|].
  intros m M. rewrite (painted_mode N K kern kern2 volume compose HN HK (throttle xs) chunk (placed l xs) (r xs) m AL HC VL PL E W M), A, placed_cs, placed_sn by exact Hl. reflexivity.
Qed.
Lemma some_placement : exists xs, In xs (placements N (count l)).
Proof. exists (repeat (0, 0, 0)%nat (count l)). apply placements_in. split; [apply repeat_length|]. apply Forall_forall. intros x H. apply repeat_spec in H. subst x. apply zero_is. exact HN. Qed.
(* the reported shot noise does not depend on the positions *)
Lemma one_shot : exists s, real_of s = box_volume L * rsum (map (fun e => e * e) (reals l)) / (rsum (reals l) * rsum (reals l)) /\ forall xs, In xs (placements N (count l)) -> PaintModel.shotnoise (r xs) = Some s.
Proof.
  destruct some_placement as (x0 & H0). destruct (each x0 H0) as (A & W & B & C & _). exists (volume * (PaintModel.aW2 (r x0) / (PaintModel.aW (r x0) * PaintModel.aW (r x0))))%Qc.
  assert (Q : (PaintModel.aW (r x0) * PaintModel.aW (r x0))%Qc <> 0%Qc). { intros Q. apply (f_equal real_of) in Q. rewrite real_mult, A, real_0 in Q. apply Rmult_integral in Q. destruct Q; contradiction. }
  split; [rewrite real_mult, real_quot by exact Q; rewrite real_mult, A, C, HV; field; exact W|].
  intros xs H. destruct (each xs H) as (A' & _ & B' & C' & _). rewrite B'.
  assert (E1 : PaintModel.aW (r xs) = PaintModel.aW (r x0)) by (apply real_inj; congruence). assert (E2 : PaintModel.aW2 (r xs) = PaintModel.aW2 (r x0)) by (apply real_inj; congruence). rewrite E1, E2. reflexivity.
Qed.
Lemma count_pos : INR (length (placements N (count l))) <> 0.
Proof. rewrite placements_len. apply pow_nonzero. pose proof (ncell_pos N HN). lra. Qed.
Lemma each_power xs m : In xs (placements N (count l)) -> is_mode N m -> m <> (0, 0, 0)%nat ->
  power N L (read N (r xs)) (read N (r xs)) m = (box_volume L * window_power N K m / (rsum (reals l) * rsum (reals l)) * (cs N m (reals l) xs * cs N m (reals l) xs + sn N m (reals l) xs * sn N m (reals l) xs), 0).
Proof.
  intros H M M0. destruct (each xs H) as (_ & W & _ & _ & D). assert (PN := ncell_pos N HN). rewrite power_raw. destruct (is_zero m) eqn:Ez; [apply is_zero_iff in Ez; contradiction|].
  unfold raw. rewrite (D m M). unfold window_power. change (box_volume L) with (vol L). unfold r2c, cmul, conj, cscale. cbn [fst snd]. cbv zeta.
  set (a := rsum (map (fun x => real_of (K x) * cos (angle N m x)) (cells N))). set (b := rsum (map (fun x => real_of (K x) * sin (angle N m x)) (cells N))).
  f_equal; field; split; lra.
Qed.
Lemma mean_power m : is_mode N m -> m <> (0, 0, 0)%nat ->
  mean (fun xs => fst (power N L (read N (r xs)) (read N (r xs)) m)) (placements N (count l)) =
  window_power N K m * (box_volume L * rsum (map (fun e => e * e) (reals l)) / (rsum (reals l) * rsum (reals l))).
Proof.
  intros M M0. destruct some_placement as (x0 & H0). destruct (each x0 H0) as (_ & W & _). assert (C := count_pos). unfold mean.
  rewrite (rsum_ext' _ (fun xs => box_volume L * window_power N K m / (rsum (reals l) * rsum (reals l)) * (cs N m (reals l) xs * cs N m (reals l) xs + sn N m (reals l) xs * sn N m (reals l) xs))) by (intros xs H; rewrite (each_power xs m H M M0); reflexivity).
  rewrite rsum_scl. rewrite <- (reals_len l), (phases_square N m M M0 (reals l)), (reals_len l). field. split; assumption.
Qed.
(* the mean of every mode *)
Lemma mean_mode m : is_mode N m -> m <> (0, 0, 0)%nat ->
  rsum (map (fun xs => fst (r2c N (read N (r xs)) m)) (placements N (count l))) = 0 /\ rsum (map (fun xs => snd (r2c N (read N (r xs)) m)) (placements N (count l))) = 0.
Proof.
  intros M M0. destruct (phases_zero N m M M0 (reals l)) as [Z1 Z2]. rewrite reals_len in Z1, Z2. set (c := ncell N / rsum (reals l)). set (k := r2c N (fun y => real_of (K y)) m).
  assert (D : forall xs, In xs (placements N (count l)) -> r2c N (read N (r xs)) m = cscale c (cmul k (cs N m (reals l) xs, - sn N m (reals l) xs))) by (intros xs H; exact (proj2 (proj2 (proj2 (proj2 (each xs H)))) m M)).
  split.
  - rewrite (rsum_ext' _ (fun xs => c * fst k * cs N m (reals l) xs + c * snd k * sn N m (reals l) xs)) by (intros xs H; rewrite (D xs H); unfold cscale, cmul; cbn [fst snd]; ring). rewrite rsum_plus, !rsum_scl, Z1, Z2. ring.
  - rewrite (rsum_ext' _ (fun xs => c * snd k * cs N m (reals l) xs + - (c * fst k) * sn N m (reals l) xs)) by (intros xs H; rewrite (D xs H); unfold cscale, cmul; cbn [fst snd]; ring). rewrite rsum_plus, !rsum_scl, Z1, Z2. ring.
Qed.
(* the correlation with any other field vanishes on average *)
Lemma mean_cross g m : is_mode N m -> 
  rsum (map (fun xs => fst (power N L (read N (r xs)) g m)) (placements N (count l))) = 0 /\ rsum (map (fun xs => snd (power N L (read N (r xs)) g m)) (placements N (count l))) = 0.
Proof.
  intros M. destruct (is_zero m) eqn:Ez.
  - split; rewrite rsum_zero; try reflexivity; intros xs _; rewrite power_raw, Ez; reflexivity.
  - assert (M0 : m <> (0, 0, 0)%nat) by (intros Q; apply is_zero_iff in Q; congruence). destruct (mean_mode m M M0) as [Z1 Z2]. set (k := r2c N g m). split.
    + rewrite (rsum_ext' _ (fun xs => vol L * fst k * fst (r2c N (read N (r xs)) m) + vol L * snd k * snd (r2c N (read N (r xs)) m))) by (intros xs H; rewrite power_raw, Ez; unfold raw, cscale, cmul, conj; fold k; cbn [fst snd]; ring). rewrite rsum_plus, !rsum_scl, Z1, Z2. ring.
    + rewrite (rsum_ext' _ (fun xs => - (vol L * snd k) * fst (r2c N (read N (r xs)) m) + vol L * fst k * snd (r2c N (read N (r xs)) m))) by (intros xs H; rewrite power_raw, Ez; unfold raw, cscale, cmul, conj; fold k; cbn [fst snd]; ring). rewrite rsum_plus, !rsum_scl, Z1, Z2. ring.
Qed.
End Mean.

(* the nearest-cell window does not change the power *)
Lemma nearest_power N m : mesh_size N -> window_power N nearest m = 1.
Proof.
  intros Z. unfold window_power. cbv zeta.
  rewrite (rsum_ext' (fun x => real_of (nearest x) * cos _) (fun x => if eqm x (0, 0, 0)%nat then cos (angle N m x) else 0)) by (intros x _; unfold nearest; destruct (eqm x _); rewrite ?real_0, ?real_1; ring).
  rewrite (rsum_ext' (fun x => real_of (nearest x) * sin _) (fun x => if eqm x (0, 0, 0)%nat then sin (angle N m x) else 0)) by (intros x _; unfold nearest; destruct (eqm x _); rewrite ?real_0, ?real_1; ring).
  rewrite (pick N (fun x => cos (angle N m x)) _ (zero_is N Z)), (pick N (fun x => sin (angle N m x)) _ (zero_is N Z)). rewrite (angle_sym N m), angle_zero, cos_0, sin_0. ring.
Qed.
