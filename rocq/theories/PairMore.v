(* Estimators, refuted statements and example inputs for the pair counters. *)
From Verif Require Import Base BaseProofs Num FofModel FofCmModel FofCmSpec FofMean PairModel PairSpec PairProofs PairBox.
From Coq Require Import Permutation Ascii.
Local Open Scope Z_scope.

(* ---------------- any grouping ---------------- *)
Lemma nth_error_holds_unique n f r r' : holds_all n f r -> holds_all n f r' -> r = r'.
Proof.
  intros [L H] [L' H']. apply nth_error_ext. intros b. destruct (Nat.lt_ge_cases b n) as [G|G].
  - destruct (H b G) as (x & -> & Hx). destruct (H' b G) as (y & -> & Hy). f_equal. apply holds_unique with (f b); assumption.
  - rewrite !(proj2 (nth_error_None _ _)) by lia. reflexivity.
Qed.
Lemma any_grouping n fs rs g : Forall2 (holds_all n) fs rs -> Permutation (leaves g) (seq 0 (length rs)) ->
  exists r, reduce g rs = Ok r /\ holds_all n (fun b => concat (map (fun f => f b) fs)) r /\
    forall g', Permutation (leaves g') (seq 0 (length rs)) -> reduce g' rs = Ok r.
Proof.
  intros F Pg. destruct (reduce_all n g fs rs F Pg) as (r & E & H). exists r. split; [exact E|]. split; [exact H|].
  intros g' Pg'. destruct (reduce_all n g' fs rs F Pg') as (r' & E' & H'). rewrite E'. f_equal. apply nth_error_holds_unique with (1 := H') (2 := H).
Qed.

(* ---------------- scaling of weights ---------------- *)
Definition scale_weights {P} (c : Qc) (A : list (P * Qc)) : list (P * Qc) := map (fun x => (fst x, c * snd x)%Qc) A.
Lemma pairs_scaled {P} test sep (A B : list (P * Qc)) a b :
  pairs_in test sep (scale_weights a A) (scale_weights b B) = map (fun x => (fst x, a * b * snd x)%Qc) (pairs_in test sep A B).
Proof.
  rewrite !pairs_in_flat. unfold scale_weights. rewrite flat_map_concat_map, map_map, <- flat_map_concat_map.
  induction A as [|x A IH]; [reflexivity|]. cbn [flat_map]. rewrite map_app, IH. f_equal. clear IH. rewrite map_map. cbn [fst snd].
  induction B as [|y B IH]; [reflexivity|]. cbn [map filter fst snd]. destruct (test (fst x) (fst y)); cbn [map]; rewrite IH; [|reflexivity]. f_equal. unfold pair_row. cbn [fst snd]. f_equal. ring.
Qed.
Definition wn (l : list (Qc * Qc)) : Qc := qsum (map snd l).
Lemma wn_scaled {P} test sep (A B : list (P * Qc)) a b : wn (pairs_in test sep (scale_weights a A) (scale_weights b B)) = (a * b * wn (pairs_in test sep A B))%Qc.
Proof. rewrite pairs_scaled. unfold wn. rewrite map_map. cbn [snd]. apply (qsum_map_scale (a * b)%Qc snd). Qed.
Lemma n_scaled {P} test sep (A B : list (P * Qc)) a b : zlen (pairs_in test sep (scale_weights a A) (scale_weights b B)) = zlen (pairs_in test sep A B).
Proof. rewrite pairs_scaled. apply zlen_map. Qed.
Definition scale_all (c : Qc) (w : list (list Qc)) : list (list Qc) := map (map (fun x => c * x)%Qc) w.
Lemma qsum_scale_all c w : qsum (map qsum (scale_all c w)) = (c * qsum (map qsum w))%Qc.
Proof. unfold scale_all. rewrite map_map. rewrite <- (qsum_map_scale c qsum w). apply qsum_map_ext. intros l _. rewrite (qsum_map_scale c (fun x => x) l), map_id. reflexivity. Qed.
Lemma total_auto_scaled c w : total_auto (scale_all c w) = (c * c * total_auto w)%Qc.
Proof.
  unfold total_auto. rewrite qsum_scale_all.
  assert (qsum (map (fun l => qsum (map (fun x => x * x)%Qc l)) (scale_all c w)) = (c * c) * qsum (map (fun l => qsum (map (fun x => x * x)%Qc l)) w))%Qc as ->; [|ring].
  unfold scale_all. rewrite map_map, <- qsum_map_scale. apply qsum_map_ext. intros l _. rewrite map_map, <- qsum_map_scale. apply qsum_map_ext. intros x _. ring.
Qed.
Lemma total_cross_scaled a b w1 w2 : total_cross (scale_all a w1) (scale_all b w2) = (a * b * total_cross w1 w2)%Qc.
Proof. unfold total_cross. rewrite !qsum_scale_all. ring. Qed.

Lemma ls_scale tDD tDR tRD tRR DD DR RD n RR a b : a <> 0%Qc -> b <> 0%Qc -> tDD <> 0%Qc -> tDR <> 0%Qc -> tRD <> 0%Qc -> RR <> 0%Qc ->
  landy_szalay (a * a * tDD) (a * b * tDR) (a * b * tRD) (b * b * tRR) (a * a * DD) (a * b * DR) (a * b * RD) n (b * b * RR) = landy_szalay tDD tDR tRD tRR DD DR RD n RR.
Proof.
  intros Ha Hb H1 H2 H3 H4. unfold landy_szalay. destruct (0 <? n); [|reflexivity]. f_equal. field. repeat split; assumption.
Qed.
Lemma ls_zero tDD tDR tRD tRR DD DR RD n RR f : tDD <> 0%Qc -> tDR <> 0%Qc -> tRD <> 0%Qc -> RR <> 0%Qc ->
  DD = (f * tDD)%Qc -> DR = (f * tDR)%Qc -> RD = (f * tRD)%Qc -> RR = (f * tRR)%Qc -> 0 < n -> landy_szalay tDD tDR tRD tRR DD DR RD n RR = Some 0%Qc.
Proof.
  intros H1 H2 H3 H4 -> -> -> E Hn. unfold landy_szalay. replace (0 <? n) with true by lia. f_equal. 
  transitivity (tRR * f * (1 - 1 - 1) / RR + 1)%Qc; [field; repeat split; assumption|]. rewrite (Qcmult_comm tRR f), <- E. field. exact H4.
Qed.
(* the whole estimate of one bin from two catalogs, auto-correlation *)
Definition ls_auto {P} (test : P -> P -> bool) (sep : P -> P -> Qc) (D R : list (list (P * Qc))) : option Qc :=
  let DD := pairs_in test sep (concat D) (concat D) in
  let DR := pairs_in test sep (concat D) (concat R) in
  let RR := pairs_in test sep (concat R) (concat R) in
  let wD := map (map snd) D in let wR := map (map snd) R in
  landy_szalay (total_auto wD) (total_cross wD wR) (total_cross wD wR) (total_auto wR) (wn DD) (wn DR) (wn DR) (zlen RR) (wn RR).
Lemma map_snd_scaled {P} c (D : list (list (P * Qc))) : map (map snd) (map (scale_weights c) D) = scale_all c (map (map snd) D).
Proof. unfold scale_all, scale_weights. rewrite !map_map. apply map_ext. intros l. rewrite !map_map. reflexivity. Qed.
Lemma concat_scaled {P} c (D : list (list (P * Qc))) : concat (map (scale_weights c) D) = scale_weights c (concat D).
Proof. unfold scale_weights. symmetry. apply concat_map. Qed.
Lemma ls_auto_scale {P} test sep (D R : list (list (P * Qc))) a b : a <> 0%Qc -> b <> 0%Qc ->
  total_auto (map (map snd) D) <> 0%Qc -> total_cross (map (map snd) D) (map (map snd) R) <> 0%Qc -> wn (pairs_in test sep (concat R) (concat R)) <> 0%Qc ->
  ls_auto test sep (map (scale_weights a) D) (map (scale_weights b) R) = ls_auto test sep D R.
Proof.
  intros Ha Hb H1 H2 H3. unfold ls_auto. rewrite !map_snd_scaled, !concat_scaled, !wn_scaled, n_scaled, !total_auto_scaled, total_cross_scaled. apply ls_scale; assumption.
Qed.

(* ---------------- natural estimator ---------------- *)
Lemma zq_pos_nz n : 0 < n -> zq n <> 0%Qc.
Proof. intros H E. rewrite <- zq_0 in E. apply zq_inj in E. lia. Qed.
Lemma half_nz : half <> 0%Qc.
Proof. intros H. assert (half + half = 1)%Qc as E by (apply Qc_is_canon; reflexivity). rewrite H in E. vm_compute in E. discriminate (f_equal (fun x => Qnum (this x)) E). Qed.
Lemma natural_cross N1 N2 f : 0 < N1 -> 0 < N2 -> f <> 0%Qc -> natural N1 (Some N2) f (zq N1 * zq N2 * half) (zq N1 * zq N2 * f) = 0%Qc.
Proof. intros H1 H2 Hf. unfold natural, analytic_pairs. pose proof (zq_pos_nz _ H1). pose proof (zq_pos_nz _ H2). pose proof half_nz. field. repeat split; assumption. Qed.
Lemma natural_auto N f : 1 < N -> f <> 0%Qc -> natural N None f (half * (zq N * zq N - zq N)) (zq N * (zq N - 1) * f) = (- (1 / zq N))%Qc.
Proof.
  intros H Hf. unfold natural, analytic_pairs. pose proof (zq_pos_nz N ltac:(lia)) as A. assert (zq N - 1 <> 0)%Qc as B. { pose proof (zq_pos_nz (N - 1) ltac:(lia)) as B. unfold Z.sub in B. rewrite zq_add, zq_opp, zq_1 in B. exact B. }
  pose proof half_nz as C. replace (half * (zq N * zq N - zq N))%Qc with (half * zq N * (zq N - 1))%Qc by ring. field. repeat split; assumption.
Qed.

(* ---------------- examples ---------------- *)
Definition q (a : Z) (b : positive) : Qc := Q2Qc (a # b).
(* a Corrfunc that keeps its contract *)
Definition ref_corr {P} (n : nat) (test : nat -> P -> P -> bool) (sep : P -> P -> Qc) (A B : list (P * Qc)) : list pc_bin :=
  map (fun b => let l := pairs_in (test b) sep A B in {| pb_n := zlen l; pb_sep := mean0 (map fst l); pb_w := mean0 (map snd l) |}) (seq 0 n).
Lemma ref_corr_counts {P} n test sep (A B : list (P * Qc)) : counts n test sep A B (ref_corr n test sep A B).
Proof.
  unfold counts, ref_corr. rewrite map_length, seq_length. split; [reflexivity|]. intros b Hb. eexists. split; [rewrite nth_error_map', nth_error_seq; rewrite (proj2 (Nat.ltb_lt _ _) Hb); reflexivity|]. repeat split.
Qed.
(* two domains [0, 4) and [4, 8) along x, in a box of side 8 *)
Definition in_first (x : Qc) : bool := if Qclt_le_dec x (q 4 1) then true else false.
Definition ex_targets (s : Qc) (p : v3) : list nat :=
  let x := coord p 0 in
  if Qc_eq_dec s 0 then [if in_first x then 0%nat else 1%nat]
  else if in_first x then 0%nat :: (if Qclt_le_dec s x then if Qclt_le_dec x (q 4 1 - s)%Qc then [] else [1%nat] else [1%nat])
  else 1%nat :: (if Qclt_le_dec s (x - q 4 1)%Qc then if Qclt_le_dec x (q 8 1 - s)%Qc then [] else [0%nat] else [0%nat]).
Definition ex_L : v3 := cube (q 8 1).
Lemma near_big L a b s : (0 < s)%Qc -> (s < near true L a b \/ near true L a b < - s)%Qc -> (s * s < sq (near true L a b))%Qc.
Proof.
  intros Hs H. unfold sq. set (x := near true L a b) in *. clearbody x.
  assert (forall y, (s < y)%Qc -> (s * s < y * y)%Qc) as G.
  { intros y Hy. apply Qclt_trans with (s * y)%Qc; [rewrite (Qcmult_comm s y)|]; apply Qcmult_lt_compat_r; try assumption. apply Qclt_trans with s; assumption. }
  destruct H as [H|H]; [apply G, H|]. replace (x * x)%Qc with ((- x) * (- x))%Qc by ring. apply G. qc_lra.
Qed.
Lemma sum3_ge a b c t : (0 <= b)%Qc -> (0 <= c)%Qc -> (a + b + c <= t)%Qc -> (a <= t)%Qc.
Proof. intros. qc_lra. Qed.
Lemma ex_domains : domain_contract 2 ex_targets true ex_L.
Proof.
  assert (q 8 1 * half = q 4 1)%Qc as H84 by (apply Qc_is_canon; reflexivity).
  split; [|split].
  - intros p _. unfold ex_targets. destruct (Qc_eq_dec 0 0) as [_|N]; [|contradiction N; reflexivity]. destruct (in_first (coord p 0)); [exists 0%nat|exists 1%nat]; (split; [lia|reflexivity]).
  - intros s p r k Hs Bp Br T D. specialize (Bp eq_refl 0%nat ltac:(lia)). specialize (Br eq_refl 0%nat ltac:(lia)). change (coord ex_L 0) with (q 8 1) in *.
    unfold ex_targets in *. destruct (Qc_eq_dec 0 0) as [_|N]; [|contradiction N; reflexivity]. destruct (Qc_eq_dec s 0) as [E|_]; [rewrite E in Hs; apply Qclt_not_eq in Hs; contradiction Hs; reflexivity|].
    unfold dist2, near2 in D. cbn [coord fst snd] in D. apply sum3_ge in D; [|apply sq_nonneg|apply sq_nonneg].
    change (fst (fst ex_L)) with (q 8 1) in D. change (fst (fst p)) with (coord p 0) in D. change (fst (fst r)) with (coord r 0) in D.
    unfold in_first in *. set (x := coord p 0) in *. set (y := coord r 0) in *. clearbody x y.
    assert (forall P : Prop, (s < near true (q 8 1) x y \/ near true (q 8 1) x y < - s)%Qc -> P) as K. { intros P H. exfalso. apply (Qclt_not_le _ _ (near_big _ _ _ _ Hs H) D). }
    unfold near in K. cbv zeta in K. fold half in K. rewrite H84 in K.
    assert (q 8 1 = q 4 1 + q 4 1)%Qc as H8 by (apply Qc_is_canon; reflexivity). rewrite H8 in *. set (f := q 4 1) in *. clearbody f. 
    destruct Bp as [Bp1 Bp2]. destruct Br as [Br1 Br2].
    destruct (Qclt_le_dec x f) as [Hx|Hx]; destruct (Qclt_le_dec y f) as [Hy|Hy]; inversion T; subst k; cbn [In]; try (left; reflexivity).
    + destruct (Qclt_le_dec s (y - f)) as [G1|G1]; [|right; left; reflexivity]. destruct (Qclt_le_dec y (f + f - s)) as [G2|G2]; [|right; left; reflexivity].
      apply K. destruct (Qclt_le_dec f (x - y)) as [J|J]; [exfalso; qc_lra|]. destruct (Qclt_le_dec (x - y) (- f)) as [J2|J2]; [left|right]; qc_lra.
    + destruct (Qclt_le_dec s y) as [G1|G1]; [|right; left; reflexivity]. destruct (Qclt_le_dec y (f - s)) as [G2|G2]; [|right; left; reflexivity].
      apply K. destruct (Qclt_le_dec f (x - y)) as [J|J]; [right; qc_lra|]. destruct (Qclt_le_dec (x - y) (- f)) as [J2|J2]; [exfalso|left]; qc_lra.
  - intros s p Hs _. unfold ex_targets. destruct (Qc_eq_dec s 0); [repeat constructor; intros []|]. 
    destruct (in_first (coord p 0)); repeat match goal with |- context [Qclt_le_dec ?a ?b] => destruct (Qclt_le_dec a b) end; repeat constructor; cbn [In]; intuition lia.
Qed.
Definition ex_sqrt (x : Qc) : Qc := (x + 1)%Qc.
Lemma ex_sqrt_ok : sqrt_contract ex_sqrt.
Proof.
  intros x H. unfold ex_sqrt. split; [qc_lra|]. pose proof (sq_nonneg x) as Q. unfold sq in Q. replace ((x + 1) * (x + 1))%Qc with (x * x + x + x + 1)%Qc by ring. set (t := (x * x)%Qc) in *. clearbody t. qc_lra.
Qed.
Definition ex_sep2 (periodic : bool) (L : v3) (i : nat) (p r : v3) : Qc :=
  if periodic then sq (near true (coord L i) (qmod (coord p i) (coord L i)) (qmod (coord r i) (coord L i))) else sq (coord p i - coord r i)%Qc.
Lemma ex_sep2_ok periodic L : (periodic = true -> forall i, (i < 3)%nat -> (0 < coord L i)%Qc) ->
  forall i p r, (i < 3)%nat -> axis_sep2 periodic (coord L i) (coord p i) (coord r i) (ex_sep2 periodic L i p r).
Proof.
  intros H i p r Hi. unfold ex_sep2. destruct periodic; [|reflexivity]. specialize (H eq_refl i Hi). destruct (qmod_ok (coord p i) _ H) as [B1 M1]. destruct (qmod_ok (coord r i) _ H) as [B2 M2].
  apply axis_sep2_mod with (1 := M1) (2 := M2). apply near_sep2; assumption.
Qed.
Definition ex_edges : list Qc := [q 1 1; q 2 1; q 3 1].
Definition ex_first : list (list obj) := [[((q 1 2, 0, 0)%Qc, q 2 1); ((q 3 1, 0, 0)%Qc, q 1 1)]; [((q 15 2, 0, 0)%Qc, q 3 1)]].
Definition ex_sepf (s : v3) : Qc := (coord s 0 + coord s 1 + coord s 2)%Qc.
Definition ex_corr := ref_corr 2 (fun b p r => bin_test M1d ex_edges None 1 (fun _ _ => true) b (near2 true (cube (coord ex_L 0)) p r)) (fun p r => ex_sepf (near2 true (cube (coord ex_L 0)) p r)).
Lemma ex_good : good_args M1d ex_edges None None true ex_L.
Proof.
  split; [discriminate|]. split; [intros e [<-|[<-|[<-|[]]]]; reflexivity|]. split; [split; reflexivity|]. intros _. split; [split; reflexivity|].
  intros e i He Hi. assert (coord ex_L i = q 8 1) as ->. { assert (i = 0 \/ i = 1 \/ i = 2)%nat as [-> | [-> | ->]] by lia; reflexivity. } destruct He as [<-|[<-|[<-|[]]]]; vm_compute; intros H; discriminate H.
Qed.
(* ... is nan exactly when no two randoms are in the bin *)
Lemma ls_auto_nan {P} (test : P -> P -> bool) sep (D R : list (list (P * Qc))) :
  ls_auto test sep D R = None <-> forall a b, In a (concat R) -> In b (concat R) -> test (fst a) (fst b) = false.
Proof.
  unfold ls_auto, landy_szalay. destruct (Z.ltb_spec 0 (zlen (pairs_in test sep (concat R) (concat R)))) as [H|H].
  - split; [discriminate|]. intros N. exfalso. unfold pairs_in, zlen in H. rewrite map_length in H.
    destruct (filter _ _) as [|x l] eqn:E in H; [cbn in H; lia|].
    assert (I : In x (x :: l)) by (left; reflexivity). rewrite <- E in I. apply filter_In in I. destruct I as [I T].
    destruct x as [a b]. apply in_prod_iff in I. destruct I as [Ia Ib]. cbn [fst snd] in T. rewrite (N a b Ia Ib) in T. discriminate.
  - split; [|reflexivity]. intros _ a b Ia Ib. destruct (test (fst a) (fst b)) eqn:T; [|reflexivity]. exfalso.
    unfold pairs_in, zlen in H. rewrite map_length in H.
    assert (I : In (a, b) (filter (fun pq : (P * Qc) * (P * Qc) => test (fst (fst pq)) (fst (snd pq))) (list_prod (concat R) (concat R)))) by (apply filter_In; split; [apply in_prod; assumption|exact T]).
    destruct (filter _ _) as [|x l]; [destruct I|cbn [length] in H; lia].
Qed.
