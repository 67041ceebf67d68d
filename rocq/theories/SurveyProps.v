(* C35, C39, C40, C43, C44, C115-C125 *)
From Coq Require Import Sorting.Sorted Sorting.Permutation.
From Verif Require Import Base Num SurveyModel SurveySpec SurveyProofs SurveyMore SurveyCells.
Local Open Scope Qc_scope.

Definition q (n : Z) (d : positive) : Qc := Q2Qc (n # d).

(* ---- C35 ---- *)
Theorem C35_bins : forall edges ranks, increasing edges -> ranks <> [] ->
  zhist_counts edges ranks =
  map (fun i => weight_between (edge edges i) (edge edges (S i)) (concat ranks)) (seq 0 (length edges - 1)).
Proof. exact zhist_counts_ok. Qed.
Print Assumptions C35_bins.
Theorem C35_one_bin : forall edges z, increasing edges -> (1 < length edges)%nat ->
  in_bin (edge edges 0) (edge edges (length edges - 1)) z ->
  exists i, (S i < length edges)%nat /\ in_bin (edge edges i) (edge edges (S i)) z /\
    forall j, (S j < length edges)%nat -> in_bin (edge edges j) (edge edges (S j)) z -> j = i.
Proof. exact one_bin. Qed.
Print Assumptions C35_one_bin.
Theorem C35_total : forall edges ranks, increasing edges -> ranks <> [] -> (1 <= length edges)%nat ->
  qsum (zhist_counts edges ranks) = weight_between (edge edges 0) (edge edges (length edges - 1)) (concat ranks).
Proof. exact zhist_total. Qed.
Print Assumptions C35_total.
Theorem C35_density : forall edges dV ranks i, increasing edges -> ranks <> [] -> (S i < length edges)%nat ->
  nth_error (zhist_nbar edges dV ranks) i = Some (weight_between (edge edges i) (edge edges (S i)) (concat ranks) / dV i).
Proof. exact zhist_nbar_ok. Qed.
Print Assumptions C35_density.
(* the automatic bins have equal width, start at the lowest redshift and reach
   the highest *)
Theorem C35_automatic : forall dx ranks e, 0 < dx -> zhist_edges dx BNone ranks = Ok e ->
  (2 <= length e)%nat /\ increasing e /\ (forall i, (S i < length e)%nat -> edge e (S i) = edge e i + dx) /\
  is_lowest (edge e 0) (concat ranks) /\ forall z, In z (concat ranks) -> edge e 0 <= z /\ z <= edge e (length e - 1).
Proof.
  intros dx ranks e Hdx H. unfold zhist_edges in H. destruct (global_range ranks) as [[lo hi]|] eqn:Er; [|discriminate].
  cbn [rbind fst snd] in H. injection H as <-. destruct (global_range_ok _ _ _ Er) as [[Hl1 Hl2] [Hh1 Hh2]].
  destruct (scott_ok dx lo hi Hdx (Hl2 _ Hh1)) as [H1 [H2 [H3 [H4 H5]]]]. split; [exact H1|]. split; [exact H5|]. split; [exact H4|].
  rewrite H2. split; [split; assumption|]. intros z Hz. split; [apply Hl2; exact Hz|]. eapply Qcle_trans; [apply Hh2; exact Hz|exact H3].
Qed.
Print Assumptions C35_automatic.
Definition ex_z : list (list (Qc * Qc)) := [[(q 1 2, 1); (q 3 2, q 2 1); (q 5 1, 1)]; []; [(1, q 3 1); (0, q 1 2)]].
Example C35_example :
  map this (zhist_counts [0; 1; q 2 1] ex_z) = [3 # 2; 5]%Q /\
  match zhist_edges (q 3 1) BNone [[0; q 5 1]; [1]] with Ok e => map this e = [0; 3; 6]%Q | Err _ => False end.
Proof. vm_compute. split; reflexivity. Qed.
Example C35_example_hyps : increasing [0; 1; q 2 1] /\ ex_z <> [] /\ in_bin (edge [0; 1; q 2 1] 0) (edge [0; 1; q 2 1] 2) 1.
Proof. split; [repeat constructor; discriminate|]. split; [discriminate|]. split; [discriminate|reflexivity]. Qed.

(* ---- C115: an object on the last edge is not counted ---- *)
Theorem C115_last_edge_refuted : exists edges z,
  increasing edges /\ edge edges 0 < z /\ z = edge edges (length edges - 1) /\
  qsum (zhist_counts edges [[(z, 1)]]) = 0.
Proof.
  exists [0; 1; q 2 1], (q 2 1). split; [repeat constructor; discriminate|]. split; [reflexivity|]. split; [reflexivity|].
  apply Qc_is_canon. reflexivity.
Qed.
Print Assumptions C115_last_edge_refuted.
(* with the automatic bins the objects of highest redshift can be lost *)
Theorem C115_automatic_refuted : exists dx ranks e, 0 < dx /\ zhist_edges dx BNone ranks = Ok e /\
  qsum (zhist_counts e (map (map (fun z => (z, 1))) ranks)) <> nq (length (concat ranks)).
Proof.
  exists 1, [[0; 1; q 2 1]]. eexists. split; [reflexivity|]. split; [reflexivity|]. intros H. apply (f_equal this) in H. vm_compute in H. discriminate.
Qed.
Print Assumptions C115_automatic_refuted.

(* ---- C116: integer bins ---- *)
Theorem C116_integer_bins : forall dx n ranks, ranks <> [] -> (forall r, In r ranks -> r <> []) ->
  zhist_edges dx (BInt n) ranks = Err NameError.
Proof.
  intros dx n ranks H1 H2. unfold zhist_edges. pose proof (proj2 (global_range_ok_iff ranks) (conj H1 H2)) as H.
  destruct (global_range ranks); [reflexivity|discriminate].
Qed.
Print Assumptions C116_integer_bins.
Theorem C116_integer_bins_refuted : exists dx n ranks, 0 < dx /\ (0 < n)%Z /\ ranks <> [] /\ (forall r, In r ranks -> r <> []) /\
  zhist_edges dx (BInt n) ranks = Err NameError.
Proof.
  exists 1, 2%Z, [[0; 1]; [q 3 1]]. split; [reflexivity|]. split; [reflexivity|]. split; [discriminate|]. split; [|reflexivity].
  intros r [<-|[<-|[]]]; discriminate.
Qed.
Print Assumptions C116_integer_bins_refuted.

(* ---- C117: a rank without objects ---- *)
Theorem C117_empty_rank_refuted : exists dx ranks, concat ranks <> [] /\ 0 < dx /\ zhist_edges dx BNone ranks = Err Deadlock.
Proof. exists 1, [[0; 1]; []]. split; [discriminate|]. split; reflexivity. Qed.
Print Assumptions C117_empty_rank_refuted.
Theorem C117_automatic_iff : forall dx ranks, is_ok (zhist_edges dx BNone ranks) = true <-> ranks <> [] /\ forall r, In r ranks -> r <> [].
Proof. intros dx ranks. rewrite <- global_range_ok_iff. cbn [zhist_edges]. destruct (global_range ranks); split; trivial. Qed.
Print Assumptions C117_automatic_iff.

(* ---- C39 ---- *)
(* one axis; an object is its coordinate and whether it is selected *)
Theorem C39_box : forall pad ranks L c, 0 <= pad -> survey_box None pad ranks = Ok (L, c) ->
  let pos := map fst (filter snd (concat ranks)) in
  (forall x y, In x pos -> In y pos -> (x - y) * (1 + pad) <= L) /\ (exists z, L = zq z) /\
  (exists x y, In x pos /\ In y pos /\ L < (x - y) * (1 + pad) + 1 /\ c = half * (x + y)) /\
  forall x, In x pos -> - (half * L) <= recentered c x /\ recentered c x <= half * L.
Proof. exact survey_box_ok. Qed.
Print Assumptions C39_box.
(* a box size given by the user is kept, and is large enough exactly when no two
   objects are further apart *)
Theorem C39_given : forall pad ranks L, 0 < L ->
  let pos := map fst (filter snd (concat ranks)) in
  match survey_box (Some L) pad ranks with
  | Ok (L', c) => L' = L /\ ((forall x y, In x pos -> In y pos -> x - y <= L) <-> forall x, In x pos -> - (half * L) <= recentered c x /\ recentered c x <= half * L)
  | Err e => e = ValueError /\ pos = []
  end.
Proof. exact survey_box_given. Qed.
Print Assumptions C39_given.
Theorem C39_refused : forall given pad ranks,
  is_ok (survey_box given pad ranks) = false <-> forall r o, In r ranks -> In o r -> snd o = false.
Proof. exact survey_box_refused. Qed.
Print Assumptions C39_refused.
Definition ex_pos : list (list (Qc * bool)) := [[(1, true); (q (-1) 2, true)]; []; [(q 7 2, true); (q 9 1, false)]].
Example C39_example :
  match survey_box None (q 1 50) ex_pos with Ok (L, c) => this L = 5%Q /\ this c = (3 # 2)%Q | Err _ => False end /\
  match survey_box (Some (q 4 1)) (q 1 50) ex_pos with Ok (L, c) => this L = 4%Q /\ this c = (3 # 2)%Q | Err _ => False end /\
  survey_box None 0 [[(1, false)]; []] = Err ValueError.
Proof. vm_compute. repeat split; reflexivity. Qed.

(* ---- C123: the box of the randoms need not contain the data ---- *)
Theorem C123_data_outside_refuted : exists randoms data L c x,
  bbox_species None (length (concat randoms)) = Randoms /\
  survey_box None (q 1 50) randoms = Ok (L, c) /\ In (x, true) (concat data) /\ half * L < recentered c x.
Proof.
  exists [[(0, true); (1, true)]], [[(q 4 1, true)]]. do 2 eexists. exists (q 4 1). split; [reflexivity|].
  split; [reflexivity|]. split; [left; reflexivity|]. reflexivity.
Qed.
Print Assumptions C123_data_outside_refuted.

(* ---- C124: the joint box of two meshes ---- *)
(* x lies in the box of the second mesh but not in the joint box *)
Theorem C124_joint_box_refuted : exists b1 b2 x,
  fst b1 <> fst b2 /\
  - (half * fst b2) <= recentered (snd b2) x /\ recentered (snd b2) x <= half * fst b2 /\
  half * fst (joint_box false b1 b2) < recentered (snd (joint_box false b1 b2)) x.
Proof.
  exists (q 10 1, 0), (q 8 1, q 20 1), (q 20 1). split; [intros H; apply (f_equal this) in H; discriminate|].
  split; [discriminate|]. split; [discriminate|]. reflexivity.
Qed.
Print Assumptions C124_joint_box_refuted.
(* the meshes are not even looked at when only the centres differ *)
Theorem C124_same_size_refuted : exists b1 b2 x,
  fst b1 = fst b2 /\
  - (half * fst b2) <= recentered (snd b2) x /\ recentered (snd b2) x <= half * fst b2 /\
  half * fst (joint_box true b1 b2) < recentered (snd (joint_box true b1 b2)) x.
Proof.
  exists (q 10 1, 0), (q 10 1, q 20 1), (q 20 1). split; [reflexivity|].
  split; [discriminate|]. split; [discriminate|]. reflexivity.
Qed.
Print Assumptions C124_same_size_refuted.

(* ---- C118: the numbers of a first run ---- *)
Theorem C118_first_run : forall (R : Type) (multipoles : Qc -> list nat -> R) poles data randoms r a,
  length data = length randoms ->
  fkp_run R multipoles poles data randoms fresh = (Ok r, a) ->
  let D := concat data in let N := concat randoms in
  let alpha := total o_comp D / total o_comp N in
  let nw o := o_nbar o * o_comp o * o_fkp1 o * o_fkp2 o in
  let sw o := o_comp o * o_comp o * o_fkp1 o * o_fkp2 o in
  let norm := alpha * total nw N in
  a_alpha a = Some alpha /\ a_dnorm a = Some (total nw D) /\ a_rnorm a = Some norm /\
  a_shot a = Some ((total sw D + alpha * alpha * total sw N) / norm) /\
  r = multipoles (if Qclt_le_dec 0 norm then / norm else 1) poles.
Proof. exact (@first_run). Qed.
Print Assumptions C118_first_run.
Definition ob (c f n : Z) : obj := {| o_comp := zq c; o_fkp1 := zq f; o_fkp2 := zq f; o_nbar := zq n; o_sel := true |}.
Definition ex_data : list (list obj) := [[ob 1 1 2]; [ob 1 1 2; {| o_comp := 1; o_fkp1 := 1; o_fkp2 := 1; o_nbar := 1; o_sel := false |}]].
Definition ex_randoms : list (list obj) := [[ob 1 1 2; ob 1 1 2]; [ob 2 1 2]].
Example C118_example :
  match fkp_run Qc (fun n _ => n) [0%nat; 2%nat] ex_data ex_randoms fresh with
  | (Ok r, {| a_dnorm := Some n1; a_rnorm := Some n2; a_shot := Some s; a_alpha := Some al |}) =>
      this r = (1 # 4)%Q /\ this n1 = 4%Q /\ this n2 = 4%Q /\ this s = (7 # 8)%Q /\ this al = (1 # 2)%Q
  | _ => False end /\ length ex_data = length ex_randoms.
Proof. vm_compute. repeat split; reflexivity. Qed.

(* ---- C40: a second run fails ---- *)
Theorem C40_second_run : forall (R : Type) (multipoles : Qc -> list nat -> R) poles data randoms r a,
  fkp_run R multipoles poles data randoms fresh = (Ok r, a) ->
  fst (fkp_run R multipoles poles data randoms a) = Err UnboundLocalError.
Proof. exact (@second_run). Qed.
Print Assumptions C40_second_run.
(* and so does every later one, whatever it is called with *)
Theorem C40_never_again : forall (R : Type) (multipoles : Qc -> list nat -> R) poles data randoms a, a_shot a <> None ->
  (exists e, fst (fkp_run R multipoles poles data randoms a) = Err e) /\ a_shot (snd (fkp_run R multipoles poles data randoms a)) <> None.
Proof. exact (@run_shot_some). Qed.
Print Assumptions C40_never_again.
Theorem C40_instance_refuted : exists poles data randoms r a,
  fkp_run Qc (fun n _ => n) poles data randoms fresh = (Ok r, a) /\
  fst (fkp_run Qc (fun n _ => n) poles data randoms a) <> Ok r.
Proof.
  exists [0%nat], ex_data, ex_randoms.
  assert (H : is_ok (fst (fkp_run Qc (fun n _ => n) [0%nat] ex_data ex_randoms fresh)) = true) by (vm_compute; reflexivity).
  destruct (fkp_run Qc (fun n _ => n) [0%nat] ex_data ex_randoms fresh) as [[r|e] a] eqn:E; [|discriminate].
  exists r, a. split; [reflexivity|]. rewrite (@second_run Qc (fun n _ => n) _ _ _ _ _ E). discriminate.
Qed.
Print Assumptions C40_instance_refuted.

(* ---- C125: no multipoles ---- *)
Theorem C125_no_poles_refuted : exists data randoms,
  fst (fkp_run Qc (fun n _ => n) [] data randoms fresh) = Err UnboundLocalError /\
  is_ok (fst (fkp_run Qc (fun n _ => n) [0%nat] data randoms fresh)) = true.
Proof. exists ex_data, ex_randoms. split; vm_compute; reflexivity. Qed.
Print Assumptions C125_no_poles_refuted.

(* ---- C119 ---- *)
Theorem C119_field_total : forall paint_d paint_r vol data randoms,
  (forall w, qsum (paint_d w) = qsum w) -> (forall w, qsum (paint_r w) = qsum w) ->
  (forall w w', length (paint_d w) = length (paint_r w')) -> vol <> 0 -> concat randoms <> [] ->
  qsum (fkp_field paint_d paint_r vol data randoms) =
  (total (fun o => o_comp o * o_fkp1 o) (concat data)
   - total o_comp (concat data) / total o_comp (concat randoms) * total (fun o => o_comp o * o_fkp1 o) (concat randoms)) / vol.
Proof. exact fkp_field_total. Qed.
Print Assumptions C119_field_total.
Theorem C119_field_zero : forall paint_d paint_r vol data randoms c,
  (forall w, qsum (paint_d w) = qsum w) -> (forall w, qsum (paint_r w) = qsum w) ->
  (forall w w', length (paint_d w) = length (paint_r w')) -> vol <> 0 -> total o_comp (concat randoms) <> 0 ->
  (forall o, In o (concat data) \/ In o (concat randoms) -> o_fkp1 o = c) ->
  qsum (fkp_field paint_d paint_r vol data randoms) = 0.
Proof. exact fkp_field_zero. Qed.
Print Assumptions C119_field_zero.
(* data painted to the first of two cells, randoms to the second *)
Definition ex_pd (w : list Qc) : list Qc := [qsum w; 0].
Definition ex_pr (w : list Qc) : list Qc := [0; qsum w].
Example C119_example : map this (fkp_field ex_pd ex_pr (q 2 1) ex_data ex_randoms) = [1; -1]%Q.
Proof. vm_compute. reflexivity. Qed.
Example C119_example_hyps :
  (forall w, qsum (ex_pd w) = qsum w) /\ (forall w, qsum (ex_pr w) = qsum w) /\ total o_comp (concat ex_randoms) <> 0 /\
  (forall o, In o (concat ex_data) \/ In o (concat ex_randoms) -> o_fkp1 o = 1).
Proof.
  split; [intros w; unfold ex_pd; rewrite !qsum_cons, qsum_nil; ring|]. split; [intros w; unfold ex_pr; rewrite !qsum_cons, qsum_nil; ring|].
  split; [intros H; apply (f_equal this) in H; vm_compute in H; discriminate|].
  intros o [Ho|Ho]; cbn [concat app ex_data ex_randoms In] in Ho; repeat (destruct Ho as [<-|Ho]; [apply Qc_is_canon; reflexivity|]); destruct Ho.
Qed.

(* ---- C43 ---- *)
Theorem C43_unit_los : forall los, dot los los = 1 -> recon_los los = Ok los.
Proof. exact los_unit. Qed.
Print Assumptions C43_unit_los.
Theorem C43_direction : forall los v, recon_los los = Ok v -> exists t, 0 < t /\ v = scale t los.
Proof. exact los_direction. Qed.
Print Assumptions C43_direction.
Theorem C43_refused : forall los, recon_los los = Err AssertionError <-> los = (0, 0, 0).
Proof. exact los_zero. Qed.
Print Assumptions C43_refused.
(* every scheme, for every chunk size *)
Theorem C43_schemes : forall ncell kern c data ran s_d s_r, (0 < c)%nat -> (0 < ncell)%nat ->
  concat data <> [] -> concat ran <> [] -> matches data s_d -> matches ran s_r -> forall sch,
  helper_paint ncell kern c sch data ran s_d s_r = Ok (map (scheme_value ncell kern data ran s_d s_r sch) (seq 0 ncell)).
Proof. exact helper_ok. Qed.
Print Assumptions C43_schemes.
Theorem C43_mean_zero : forall ncell kern c data ran s_d s_r sch F, conserves ncell kern -> (0 < c)%nat -> (0 < ncell)%nat ->
  concat data <> [] -> concat ran <> [] -> matches data s_d -> matches ran s_r ->
  helper_paint ncell kern c sch data ran s_d s_r = Ok F -> mean F = 0.
Proof.
  intros ncell kern c data ran s_d s_r sch F Hk Hc Hn Hd Hr Hsd Hsr H.
  rewrite (helper_ok ncell kern c data ran s_d s_r Hc Hn Hd Hr Hsd Hsr sch) in H.
  assert (HF : F = map (scheme_value ncell kern data ran s_d s_r sch) (seq 0 ncell)) by congruence. subst F. unfold mean.
  rewrite (scheme_mean_zero ncell kern Hk c data ran s_d s_r); try assumption. unfold Qcdiv. ring.
Qed.
Print Assumptions C43_mean_zero.
Theorem C43_boost : forall los f s, In los [(1, 0, 0); (0, 1, 0); (0, 0, 1)] ->
  rsd_boost los f s = vplus s (scale (f * dot s los) los).
Proof. exact boost_axis. Qed.
Print Assumptions C43_boost.
(* two cells: a particle belongs to cell 0 or 1 by its x coordinate *)
Definition ex_kern (x : vec) (k : nat) : Qc := if Bool.eqb (qltb (fst (fst x)) 1) (Nat.eqb k 0) then 1 else 0.
Definition ex_d : list (list vec) := [[(q 1 2, 0, 0); (q 3 2, 0, 0)]; [(q 1 2, 0, 0)]].
Definition ex_sd : list (list vec) := [[(0, 0, 0); (1, 0, 0)]; [(0, 0, 0)]].
Definition ex_r : list (list vec) := [[(q 1 2, 0, 0)]; [(q 3 2, 0, 0)]].
Definition ex_sr : list (list vec) := [[(0, 0, 0)]; [(0, 0, 0)]].
Example C43_example :
  match helper_paint 2 ex_kern 1 LGS ex_d ex_r ex_sd ex_sr with Ok F => map this F = [1; -1]%Q | Err _ => False end /\
  match helper_paint 2 ex_kern 5 LRR ex_d ex_r ex_sd ex_sr with Ok F => map this F = [1 # 3; -1 # 3]%Q | Err _ => False end /\
  match helper_paint 2 ex_kern 2 LF2 ex_d ex_r ex_sd ex_sr with Ok F => map this F = [13 # 21; -13 # 21]%Q | Err _ => False end.
Proof. vm_compute. repeat split; reflexivity. Qed.
Example C43_example_hyps : conserves 2 ex_kern /\ matches ex_d ex_sd /\ matches ex_r ex_sr /\ dot (q 3 5, 0, q 4 5) (q 3 5, 0, q 4 5) = 1.
Proof.
  split; [|split; [repeat constructor|split; [repeat constructor|apply Qc_is_canon; reflexivity]]].
  intros x. unfold ex_kern. cbn [seq map]. rewrite !qsum_cons, qsum_nil. destruct (qltb (fst (fst x)) 1); apply Qc_is_canon; reflexivity.
Qed.

(* ---- C120: a line of sight of another length is not normalised ---- *)
Theorem C120_los_length_refuted : exists los v, recon_los los = Ok v /\ los = (0, 0, q 2 1) /\ dot v v = q 1 4.
Proof. exists (0, 0, q 2 1). eexists. split; [reflexivity|]. split; [reflexivity|]. apply Qc_is_canon. reflexivity. Qed.
Print Assumptions C120_los_length_refuted.
Theorem C120_iff : forall los v, recon_los los = Ok v -> (dot v v = 1 <-> dot los los = 1).
Proof.
  intros [[a b] c] v. unfold recon_los. set (n := dot (a, b, c) (a, b, c)) in *. destruct (Qc_eq_dec n 0) as [E|E]; [discriminate|].
  intros H. assert (Hv : v = (a / n, b / n, c / n)) by congruence. subst v.
  assert (D : dot (a / n, b / n, c / n) (a / n, b / n, c / n) = / n).
  { unfold dot. replace (a / n * (a / n) + b / n * (b / n) + c / n * (c / n)) with ((a * a + b * b + c * c) / (n * n)) by (field; exact E).
    change (a * a + b * b + c * c) with n. field. exact E. }
  rewrite D. split; intros G.
  - rewrite <- (Qcmult_inv_r n E), G. ring.
  - rewrite G. apply Qc_is_canon. reflexivity.
Qed.
Print Assumptions C120_iff.
(* ---- C121: the boost along other unit vectors ---- *)
Theorem C121_boost_refuted : exists los f s, recon_los los = Ok los /\ los = (0, 0, - (1)) /\
  rsd_boost los f s <> vplus s (scale (f * dot s los) los).
Proof.
  exists (0, 0, - (1)), (q 1 2), (0, 0, 1). split; [apply los_unit; apply Qc_is_canon; reflexivity|]. split; [reflexivity|].
  intros H. apply (f_equal (fun v : vec => this (snd v))) in H. vm_compute in H. discriminate.
Qed.
Print Assumptions C121_boost_refuted.
Theorem C121_oblique_refuted : exists los f s, recon_los los = Ok los /\ los = (q 3 5, 0, q 4 5) /\
  rsd_boost los f s <> vplus s (scale (f * dot s los) los).
Proof.
  exists (q 3 5, 0, q 4 5), 1, (0, 0, 1). split; [apply los_unit; apply Qc_is_canon; reflexivity|]. split; [reflexivity|].
  intros H. apply (f_equal (fun v : vec => this (snd v))) in H. vm_compute in H. discriminate.
Qed.
Print Assumptions C121_oblique_refuted.

(* ---- C44 ---- *)
(* The output is in the order of the cells, every cell gets its number of
   points, and they lie in it. *)
Theorem C44_points : forall ns H, Forall (fun h => 0 < h) H -> length H = length ns ->
  forall counts us, (forall c n, In (c, n) counts -> valid_cell ns c) ->
  length us = length (grid_points counts) -> Forall (unit_numbers (length ns)) us -> Forall (fun h => last_h H <= h) H ->
  exists cs, Permutation cs (flat_map (fun p => repeat (fst p) (snd p)) counts) /\ StronglySorted (fun a b => ~ lex_lt b a) cs /\
    Forall2 (lies_in H) cs (poisson_points ns H (box_of ns H) counts us).
Proof. exact points_ok. Qed.
Print Assumptions C44_points.
(* the distribution of the cells over ranks does not matter *)
Theorem C44_ranks : forall ns H, Forall (fun h => 0 < h) H -> length H = length ns ->
  forall counts counts' us, (forall c n, In (c, n) counts -> valid_cell ns c) -> Permutation counts counts' ->
  poisson_points ns H (box_of ns H) counts us = poisson_points ns H (box_of ns H) counts' us.
Proof. exact points_ranks. Qed.
Print Assumptions C44_ranks.
Theorem C44_key : forall ns H a b, Forall (fun h => 0 < h) H -> length H = length ns -> valid_cell ns a -> valid_cell ns b ->
  ((orderby ns H (corner H a) < orderby ns H (corner H b))%Z <-> lex_lt a b).
Proof. exact orderby_lex. Qed.
Print Assumptions C44_key.
Definition ex_counts : list (cell * nat) := [([1; 0], 1%nat); ([0; 1], 2%nat)]%Z.
Definition ex_us : list (list Qc) := [[q 1 2; q 1 2]; [0; q 3 4]; [q 1 4; 0]].
Example C44_example :
  map (map this) (poisson_points [2; 3]%Z [q 2 1; q 2 1] (box_of [2; 3]%Z [q 2 1; q 2 1]) ex_counts ex_us) =
  [[1; 3]; [0; 7 # 2]; [5 # 2; 0]]%Q.
Proof. vm_compute. reflexivity. Qed.
Example C44_example_hyps : (forall c n, In (c, n) ex_counts -> valid_cell [2; 3]%Z c) /\ length ex_us = length (grid_points ex_counts) /\
  Forall (unit_numbers 2) ex_us /\ Forall (fun h => last_h [q 2 1; q 2 1] <= h) [q 2 1; q 2 1].
Proof.
  split; [|split; [reflexivity|split]].
  - intros c n Hc. cbn [In ex_counts] in Hc. destruct Hc as [Hc|[Hc|[]]]; injection Hc as <- <-; repeat constructor; lia.
  - repeat constructor; try discriminate.
  - repeat constructor; discriminate.
Qed.

(* ---- C122: cells with different sides ---- *)
Theorem C122_anisotropic_refuted : exists ns H c u, Forall (fun h => 0 < h) H /\ length H = length ns /\ valid_cell ns c /\
  unit_numbers (length ns) u /\ ~ lies_in H c (shifted H (box_of ns H) (corner H c) u).
Proof.
  exists [4; 1; 1]%Z, [1; q 4 1; q 4 1], [0; 0; 0]%Z, [q 1 2; 0; 0].
  split; [repeat constructor|]. split; [reflexivity|]. split; [repeat constructor; lia|].
  split; [split; [reflexivity|repeat constructor; discriminate]|]. intros H. inversion H as [|? ? ? ? [_ H1] _]. vm_compute in H1. discriminate.
Qed.
Print Assumptions C122_anisotropic_refuted.
