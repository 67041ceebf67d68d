From Verif Require Import Base.
From Coq Require Import Reals Lra Lia.
From Verif Require Import RandModel ThreeModel RandProofs ThreeProofs SkyModel SkySpec SkyProofs SkyMain MockMean SpcModel SpcSpec SpcProofs SpcMain.
Local Open Scope R_scope.
Local Notation length := List.length.

(* two ranks sharing the box along x *)
Definition mid (lo hi : point) : R := (px lo + px hi) / 2.
Definition pick (P : point -> bool) (l : list point) : list nat := filter (fun i => match nth_error l i with Some p => P p | None => false end) (seq 0 (length l)).
Definition halves (lo hi : point) (load l : list point) (s : R) : list (list nat) :=
  [pick (fun p => rltb (px p - s) (mid lo hi)) l; pick (fun p => rleb (mid lo hi) (px p + s)) l].
Lemma in_pick P l i : In i (pick P l) <-> exists p, nth_error l i = Some p /\ P p = true.
Proof.
  unfold pick. rewrite filter_In, in_seq. split.
  - intros [_ H]. destruct (nth_error l i) as [p|] eqn:E; [|discriminate]. exists p. auto.
  - intros (p & E & H). rewrite E. split; [|exact H]. split; [lia|]. apply nth_error_Some. rewrite E. discriminate.
Qed.
Lemma px_sep p q : Rabs (px p - px q) <= separation p q.
Proof.
  destruct p as [[a b] c], q as [[x y] z]. apply sq_le; [apply sqrt_pos|]. rewrite sep_sq. unfold scalar, less, px. cbn [fst]. rewrite <- Rabs_mult, Rabs_pos_eq by apply (Rle_0_sqr (a - x)).
  pose proof (Rle_0_sqr (b - y)). pose proof (Rle_0_sqr (c - z)). unfold Rsqr in *. lra.
Qed.
Lemma halves_ok : grid_ok 2 halves.
Proof.
  intros lo hi load _. exists (fun p => if rltb (px p) (mid lo hi) then 0%nat else 1%nat). split; [intros p _; destruct (rltb _ _); lia|]. intros l s _ S. split; [reflexivity|].
  intros r ids R. assert (N : NoDup ids /\ forall i, In i ids -> (i < length l)%nat).
  { destruct r as [|[|r]]; [| |destruct r; discriminate]; injection R as <-; (split; [apply NoDup_filter, seq_NoDup|]); intros i I; apply in_pick in I; destruct I as (p & I & _); apply nth_error_Some; rewrite I; discriminate. }
  destruct N as [N B]. split; [exact N|]. split; [exact B|]. split.
  - intros i q I ->. destruct r as [|[|r]]; [| |destruct r; discriminate]; injection R as <-; rewrite in_pick; unfold rltb, rleb; destruct (Rlt_dec (px q) (mid lo hi)) as [H|H].
    + split; [reflexivity|]. intros _. exists q. split; [exact I|]. destruct (Rlt_dec (px q - 0) (mid lo hi)); [reflexivity|lra].
    + split; [|discriminate]. intros (p & J & K). rewrite I in J. injection J as <-. destruct (Rlt_dec (px q - 0) (mid lo hi)); [lra|discriminate].
    + split; [|discriminate]. intros (p & J & K). rewrite I in J. injection J as <-. destruct (Rle_dec (mid lo hi) (px q + 0)); [lra|discriminate].
    + split; [reflexivity|]. intros _. exists q. split; [exact I|]. destruct (Rle_dec (mid lo hi) (px q + 0)); [reflexivity|lra].
  - intros i q p I _ H D. pose proof (px_sep p q) as X. assert (Y : - s <= px p - px q <= s) by (unfold Rabs in X; destruct (Rcase_abs _); lra).
    destruct r as [|[|r]]; [| |destruct r; discriminate]; injection R as <-; apply in_pick; exists q; (split; [exact I|]); unfold rltb in H; destruct (Rlt_dec (px p) (mid lo hi)) as [Z|Z]; try discriminate; [apply rltb_iff|apply rleb_iff]; lra.
Qed.

(* three objects on the axes, at distance one *)
Definition sky3 : list point := [(0, 0, 1); (90, 0, 1); (0, 90, 1)].
Lemma trig0 : cos (0 * degree) = 1 /\ sin (0 * degree) = 0. Proof. rewrite Rmult_0_l. split; [apply cos_0|apply sin_0]. Qed.
Lemma trig90 : cos (90 * degree) = 0 /\ sin (90 * degree) = 1. Proof. unfold degree. replace (90 * (PI / 180)) with (PI / 2) by field. split; [apply cos_PI2|apply sin_PI2]. Qed.
Lemma place1 : place (0, 0, 1) = (1, 0, 0). Proof. unfold place, toward. destruct trig0 as [-> ->]. apply f_equal2; [apply f_equal2|]; ring. Qed.
Lemma place2 : place (90, 0, 1) = (0, 1, 0). Proof. unfold place, toward. destruct trig0 as [-> ->], trig90 as [-> ->]. apply f_equal2; [apply f_equal2|]; ring. Qed.
Lemma place3 : place (0, 90, 1) = (0, 0, 1). Proof. unfold place, toward. destruct trig0 as [-> ->], trig90 as [-> ->]. apply f_equal2; [apply f_equal2|]; ring. Qed.
Lemma axes_spread l : incl [(1, 0, 0); (0, 1, 0); (0, 0, 1)] l -> spread_out l.
Proof.
  intros I. assert (A := I _ (or_introl eq_refl)). assert (B := I _ (or_intror (or_introl eq_refl))). assert (C := I _ (or_intror (or_intror (or_introl eq_refl)))).
  split; [|split]; [exists (0, 1, 0), (1, 0, 0)|exists (1, 0, 0), (0, 1, 0)|exists (1, 0, 0), (0, 0, 1)]; cbn [fst snd]; (repeat split; try assumption; lra).
Qed.
Lemma sky3_regular : regular (fun z => z) (sky3, [1; 2; 3]).
Proof.
  split; [reflexivity|]. unfold at_distance, sky3. cbn [fst snd map combine]. rewrite place1, place2, place3. apply axes_spread. intros x H. exact H.
Qed.
(* squared distances in [1, 4) *)
Definition ring_bin (p q : point) : option nat := let s := scalar (less (place p) (place q)) (less (place p) (place q)) in if rleb 1 s && rltb s 4 then Some 0%nat else None.
Lemma ring_reach p q b : ring_bin p q = Some b -> in_reach S1d [1; 2] None p q.
Proof.
  unfold ring_bin. destruct (rleb 1 _ && rltb _ 4) eqn:E; [|discriminate]. intros _. apply andb_prop in E. destruct E as [_ E]. apply rltb_iff in E. exists 2. split; [right; left; reflexivity|]. apply sq_le; [lra|]. rewrite sep_sq. lra.
Qed.
Lemma ring_far u v : scalar (less u v) (less u v) = 2 -> rleb 1 (scalar (less u v) (less u v)) && rltb (scalar (less u v) (less u v)) 4 = true.
Proof. intros ->. apply andb_true_intro. split; [apply rleb_iff|apply rltb_iff]; lra. Qed.
Lemma ring_self u : rleb 1 (scalar (less u u) (less u u)) && rltb (scalar (less u u) (less u u)) 4 = false.
Proof. replace (scalar (less u u) (less u u)) with 0 by (destruct u as [[a b] c]; unfold scalar, less; ring). destruct (rleb 1 0) eqn:E; [apply rleb_iff in E; lra|reflexivity]. Qed.
Lemma sky3_pairs : totals ring_bin (fun _ _ => 1) 0 (at_distance (fun z => z) (sky3, [1; 2; 3])) (at_distance (fun z => z) (sky3, [1; 2; 3])) = (6, 6, 22).
Proof.
  unfold totals, total, at_distance, sky3. cbn [fst snd map combine list_prod app fold_right]. unfold ring_bin. rewrite place1, place2, place3. rewrite !ring_self. rewrite !ring_far by (unfold scalar, less; ring). cbn [Nat.eqb].
  apply f_equal2; [apply f_equal2|]; ring.
Qed.

(* the same objects in a box, away from the centre *)
Definition box3 : list point := [(3, 2, 2); (2, 3, 2); (2, 2, 3)].
Lemma box3_centre : centre_of (4, 4, 4) box3 (2, 2, 2).
Proof. left. split; [repeat constructor; cbn; lra|]. apply f_equal2; [apply f_equal2|]; field. Qed.
Lemma box3_directions : map (direction (2, 2, 2)) box3 = [(1, 0, 0); (0, 1, 0); (0, 0, 1)].
Proof.
  assert (D : forall a b c, (a - 2) * (a - 2) + (b - 2) * (b - 2) + (c - 2) * (c - 2) = 1 -> separation (a, b, c) (2, 2, 2) = 1) by (intros a b c E; unfold separation; rewrite E; apply sqrt_1).
  unfold box3. cbn [map]. unfold direction. cbn [less]. rewrite !D by ring. repeat apply f_equal2; try reflexivity; field.
Qed.
Lemma box3_around : around (2, 2, 2) (box3, [1; 2; 3]).
Proof.
  split; [reflexivity|]. split.
  - intros p I E. subst p. cbn [fst box3 In] in I. destruct I as [I|[I|[I|[]]]]; injection I; intros; lra.
  - cbn [fst]. rewrite box3_directions. apply axes_spread. intros x H. exact H.
Qed.
(* angles between 60 and 120 degrees *)
Definition wide (c : R) : option nat := if rltb (- / 2) c && rltb c (/ 2) then Some 0%nat else None.
Lemma wide_within c b : wide c = Some b -> angle_within [60; 120] c.
Proof.
  unfold wide. destruct (rltb (- / 2) c && rltb c (/ 2)) eqn:E; [|discriminate]. intros _. apply andb_prop in E. destruct E as [E1 E2]. apply rltb_iff in E1, E2.
  pose proof PI_RGT_0 as PP. pose proof (acos_bound c) as AB. pose proof (cos_acos c ltac:(lra)) as CA.
  exists (acos c / degree), 120. assert (DP : 0 < degree) by (unfold degree; lra).
  assert (DE : acos c / degree * degree = acos c) by (field; lra). split; [|split; [right; left; reflexivity|rewrite DE; exact CA]].
  split; [apply Rmult_le_reg_r with degree; [exact DP|]; rewrite DE; lra|]. apply Rmult_le_reg_r with degree; [exact DP|]. rewrite DE.
  destruct (Rle_dec (acos c) (120 * degree)) as [H|H]; [exact H|exfalso]. assert (Q : 120 * degree = 2 * (PI / 3)) by (unfold degree; field). rewrite Q in H.
  assert (L : cos (acos c) < cos (2 * (PI / 3))) by (apply cos_decreasing_1; lra). rewrite CA in L. rewrite cos_2PI3 in L || (replace (2 * (PI / 3)) with (2 * PI / 3) in L by field; rewrite cos_2PI3 in L). lra.
Qed.
