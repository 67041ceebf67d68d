From Verif Require Import Base.
From Coq Require Import Reals Lra Lia.
From Verif Require Import RandModel ThreeModel RandProofs ThreeProofs SkyModel SkySpec SkyProofs SkyMain MockMean SpcModel SpcSpec SpcProofs.
Local Open Scope R_scope.
Local Notation length := List.length.

Definition dist_of (cosmo : option (R -> R)) : R -> R := match cosmo with Some D => D | None => fun _ => 1 end.
Lemma at_distance_eq cosmo pos w : combine (map (with_distance cosmo) pos) w = at_distance (dist_of cosmo) (pos, w).
Proof. unfold at_distance. cbn [fst snd]. f_equal. apply map_ext. intros [[ra dec] z]. unfold with_distance, dist_of, px, py, pz. cbn [fst snd]. destruct cosmo; reflexivity. Qed.

(* ---- the sums of the ranks ---- *)
Lemma zip4_take {A B C D} (p1 : list A) (w1 : list B) (p2 : list C) (w2 : list D) : forall l1 l2,
  zip4 (exchange l1 p1) (exchange l1 w1) (exchange l2 p2) (exchange l2 w2) = map (fun ab => (take p1 (fst ab), take w1 (fst ab), take p2 (snd ab), take w2 (snd ab))) (combine l1 l2).
Proof. unfold exchange. induction l1 as [|a l1 IH]; intros [|b l2]; cbn [map zip4 combine]; try reflexivity. f_equal. apply IH. Qed.
Lemma fold_add3 {A} (g : A -> R * R * R) : forall l, fold_right add3r (0, 0, 0) (map g l) = (rsum (map (fun x => px (g x)) l), rsum (map (fun x => py (g x)) l), rsum (map (fun x => pz (g x)) l)).
Proof. induction l as [|x l IH]; [reflexivity|]. cbn [map fold_right rsum]. rewrite IH. destruct (g x) as [[a b] c]. reflexivity. Qed.
Lemma total_index bin f b (a c : list (point * R)) :
  total bin f b a c = rsum (map (fun i => rsum (map (fun j => val (fun p => val (fun q => if in_bin bin b (fst p) (fst q) then f p q else 0) (nth_error c j)) (nth_error a i)) (seq 0 (length c)))) (seq 0 (length a))).
Proof.
  unfold total. fold (rsum (map (fun pq => match bin (fst (fst pq)) (fst (snd pq)) with Some k => if Nat.eqb k b then f (fst pq) (snd pq) else 0 | None => 0 end) (list_prod a c))).
  change (fold_right Rplus 0) with rsum. rewrite rsum_list_prod. rewrite rsum_index. apply rsum_ext'. intros i _. destruct (nth_error a i) as [p|]; cbn [val].
  - rewrite rsum_index. apply rsum_ext'. intros j _. destruct (nth_error c j) as [q|]; cbn [val fst snd]; [|reflexivity]. unfold in_bin. destruct (bin (fst p) (fst q)); reflexivity.
  - symmetry. apply rsum_zero. reflexivity.
Qed.
Lemma bin_sum_index bin f b (a c : list (point * R)) ids1 ids2 :
  bin_sum bin f b (take a ids1) (take c ids2) = rsum (map (fun i => rsum (map (fun j => val (fun p => val (fun q => if in_bin bin b (fst p) (fst q) then f p q else 0) (nth_error c j)) (nth_error a i)) ids2)) ids1).
Proof.
  unfold bin_sum. rewrite rsum_take. apply rsum_ext'. intros i _. destruct (nth_error a i) as [p|]; cbn [val]; [apply rsum_take|]. symmetry. apply rsum_zero. reflexivity.
Qed.

Lemma ranks_total nranks bin sep (P1 P2 : list point) (W1 W2 : list R) (l1 l2 : list (list nat)) (home : point -> nat) lo hi s b :
  length P1 = length W1 -> length P2 = length W2 -> (forall p, inside lo hi p -> (home p < nranks)%nat) -> (forall p, In p (map place P1) -> inside lo hi p) ->
  length l1 = nranks -> length l2 = nranks ->
  (forall r ids, nth_error l1 r = Some ids -> NoDup ids /\ (forall i, In i ids -> (i < length P1)%nat) /\ forall i q, nth_error (map place P1) i = Some q -> (In i ids <-> home q = r)) ->
  (forall r ids, nth_error l2 r = Some ids -> NoDup ids /\ (forall i, In i ids -> (i < length P2)%nat) /\ forall i q p, nth_error (map place P2) i = Some q -> inside lo hi p -> home p = r -> separation p q <= s -> In i ids) ->
  (forall p q b, In p P1 -> In q P2 -> bin p q = Some b -> separation (place p) (place q) <= s) ->
  fold_right add3r (0, 0, 0) (map (fun r => let '(p1, w1, p2, w2) := r in corrfunc bin sep p1 w1 p2 w2 b) (zip4 (exchange l1 P1) (exchange l1 W1) (exchange l2 P2) (exchange l2 W2)))
  = totals bin sep b (combine P1 W1) (combine P2 W2).
Proof.
  intros E1 E2 HH IN L1 L2 A B C. rewrite zip4_take, map_map. rewrite fold_add3.
  assert (G : forall f, rsum (map (fun ab => bin_sum bin f b (combine (take P1 (fst ab)) (take W1 (fst ab))) (combine (take P2 (snd ab)) (take W2 (snd ab)))) (combine l1 l2)) = total bin f b (combine P1 W1) (combine P2 W2)).
  { intros f. rewrite total_index.
    rewrite (rsum_ext' _ (fun ab => rsum (map (fun i => rsum (map (fun j => val (fun p => val (fun q => if in_bin bin b (fst p) (fst q) then f p q else 0) (nth_error (combine P2 W2) j)) (nth_error (combine P1 W1) i)) (snd ab))) (fst ab)))).
    2:{ intros ab _. rewrite !take_combine by assumption. apply bin_sum_index. }
    rewrite !combine_length, <- E1, <- E2, !Nat.min_id.
    pose (hm := fun i => match nth_error P1 i with Some p => home (place p) | None => 0%nat end).
    apply (split_sum (length P1) (length P2) nranks l1 l2 hm (fun i j => val (fun p => val (fun q => if in_bin bin b (fst p) (fst q) then f p q else 0) (nth_error (combine P2 W2) j)) (nth_error (combine P1 W1) i))); [exact L1|exact L2|..].
    - intros i I. unfold hm. destruct (nth_error P1 i) as [p|] eqn:X; [|apply nth_error_None in X; lia]. apply HH, IN, in_map, (nth_error_In _ _ X).
    - intros r ids R. destruct (A r ids R) as (N & I & Q). split; [exact N|]. intros i. unfold hm. split.
      + intros J. pose proof (I i J) as LT. split; [exact LT|]. destruct (nth_error P1 i) as [p|] eqn:X; [|apply nth_error_None in X; lia]. apply (Q i (place p)); [rewrite nth_error_map, X; reflexivity|exact J].
      + intros [LT H]. destruct (nth_error P1 i) as [p|] eqn:X; [|apply nth_error_None in X; lia]. apply (Q i (place p)); [rewrite nth_error_map, X; reflexivity|exact H].
    - intros r ids R. destruct (B r ids R) as (N & I & Q). split; [exact N|]. split; [exact I|]. intros i j LI H LJ NJ. unfold hm in H.
      destruct (nth_error P1 i) as [p|] eqn:X; [|apply nth_error_None in X; lia]. destruct (nth_error W1 i) as [w|] eqn:Xw; [|apply nth_error_None in Xw; lia].
      destruct (nth_error P2 j) as [q|] eqn:Y; [|apply nth_error_None in Y; lia]. destruct (nth_error W2 j) as [v|] eqn:Yw; [|apply nth_error_None in Yw; lia].
      rewrite (SkyArrays.nth_error_combine P1 W1 i p w X Xw), (SkyArrays.nth_error_combine P2 W2 j q v Y Yw). cbn [val fst snd]. unfold in_bin. destruct (bin p q) as [k|] eqn:K; [|reflexivity]. exfalso. apply NJ.
      apply (Q j (place q) (place p)); [rewrite nth_error_map, Y; reflexivity|apply IN, in_map, (nth_error_In _ _ X)|exact H|]. apply (C p q k); [apply (nth_error_In _ _ X)|apply (nth_error_In _ _ Y)|exact K]. }
  unfold totals. rewrite <- !G. reflexivity.
Qed.

Lemma map_fst_combine' {A B} : forall (l : list A) (m : list B), length l = length m -> map fst (combine l m) = l.
Proof. induction l as [|x l IH]; intros [|y m] E; try discriminate; [reflexivity|]. cbn [combine map fst]. f_equal. apply IH. injection E. auto. Qed.
Lemma get_cartesian_ok cosmo pos w : regular (dist_of cosmo) (pos, w) ->
  get_cartesian cosmo pos = Ok (map place (map (with_distance cosmo) pos), pad_lo (bmin (map place (map (with_distance cosmo) pos))) (bmax (map place (map (with_distance cosmo) pos))), pad_hi (bmin (map place (map (with_distance cosmo) pos))) (bmax (map place (map (with_distance cosmo) pos))))
  /\ spread_out (map place (map (with_distance cosmo) pos)).
Proof.
  intros [E S]. cbn [fst snd] in E. rewrite <- at_distance_eq in S.
  assert (Q : map (fun o => place (fst o)) (combine (map (with_distance cosmo) pos) w) = map place (map (with_distance cosmo) pos)).
  { rewrite <- (map_map fst place). f_equal. apply map_fst_combine'. rewrite map_length. exact E. }
  rewrite Q in S. split; [|exact S]. unfold get_cartesian. destruct pos as [|p pos]; [destruct S as [(a & _ & I & _) _]; destruct I|]. 
  assert (M : map (cart cosmo) (p :: pos) = map place (map (with_distance cosmo) (p :: pos))) by (rewrite map_map; apply map_ext; intros; apply cart_place). rewrite M. reflexivity.
Qed.

Definition or_first (first : catalog) (second : option catalog) : catalog := match second with Some c => c | None => first end.
Lemma repeat_exchange {A} (a : list A) n : repeat a n = exchange (repeat (seq 0 (length a)) n) a.
Proof. unfold exchange. induction n as [|n IH]; [reflexivity|]. cbn [repeat map]. rewrite <- IH. f_equal. symmetry. apply take_all. Qed.

Lemma decompose_total nranks domain bin sep angular cosmo s first second nbins :
  grid_ok nranks domain -> (angular = false -> cosmo <> None) -> 0 <= s ->
  let D := dist_of (if angular then None else cosmo) in
  regular D first -> regular D (or_first first second) ->
  (forall p q b, In p (map fst (at_distance D first)) -> In q (map fst (at_distance D (or_first first second))) -> bin p q = Some b -> separation (place p) (place q) <= s) ->
  exists parts, decompose_survey_data nranks domain angular cosmo s first second = Ok parts /\ count_pairs bin sep nbins parts = map (fun b => totals bin sep b (at_distance D first) (at_distance D (or_first first second))) (seq 0 nbins).
Proof.
  intros G AC S0 D RA RB C. unfold decompose_survey_data. set (cosmo' := if angular then None else cosmo) in *.
  assert (V : match cosmo' with None => negb angular | Some _ => false end = false) by (unfold cosmo'; destruct angular; [reflexivity|]; destruct cosmo; [reflexivity|]; exfalso; apply AC; reflexivity).
  rewrite V. destruct first as [pos1 w1]. pose proof (get_cartesian_ok cosmo' pos1 w1 RA) as [E1 S1]. rewrite E1. cbn [rbind]. pose proof (proj1 RA) as Q1. cbn [fst snd] in Q1.
  remember (or_first (pos1, w1) second) as sec eqn:SEC. destruct sec as [pos2 w2]. pose proof (get_cartesian_ok cosmo' pos2 w2 RB) as [E2 S2]. pose proof (proj1 RB) as Q2. cbn [fst snd] in Q2.
  set (P1 := map (with_distance cosmo') pos1) in *. set (P2 := map (with_distance cosmo') pos2) in *.
  assert (E3 : match second with Some (pos2, w2) => let! c := get_cartesian cosmo' pos2 in Ok (map (with_distance cosmo') pos2, w2, c) | None => Ok (P1, w1, (map place P1, pad_lo (bmin (map place P1)) (bmax (map place P1)), pad_hi (bmin (map place P1)) (bmax (map place P1)))) end
             = Ok (P2, w2, (map place P2, pad_lo (bmin (map place P2)) (bmax (map place P2)), pad_hi (bmin (map place P2)) (bmax (map place P2))))).
  { destruct second as [[a b]|]; cbn [or_first] in SEC; injection SEC as ? ?; subst; [rewrite E2|]; reflexivity. }
  rewrite E3. cbn [rbind fst snd].
  set (lo := lift2 Rmin _ _). set (hi := lift2 Rmax _ _).
  assert (I1 : forall p, In p (map place P1) -> inside lo hi p) by (intros p I; apply inside_both; left; apply padded_inside; assumption).
  assert (I2 : forall p, In p (map place P2) -> inside lo hi p) by (intros p I; apply inside_both; right; apply padded_inside; assumption).
  assert (NE : exists p, inside lo hi p) by (destruct S1 as [(a & _ & I & _) _]; exists a; apply I1, I).
  destruct (G lo hi (map place P1) NE) as (home & HH & K).
  destruct (K (map place P1) 0 I1 (Rle_refl 0)) as [L1 K1].
  assert (T1 : length P1 = length w1) by (unfold P1; rewrite map_length; exact Q1). assert (T2 : length P2 = length w2) by (unfold P2; rewrite map_length; exact Q2).
  assert (C' : forall p q b, In p P1 -> In q P2 -> bin p q = Some b -> separation (place p) (place q) <= s).
  { intros p q b A B. apply C; unfold D; rewrite <- at_distance_eq; fold P1; fold P2; rewrite map_fst_combine'; assumption. }
  eexists. split; [reflexivity|].
  assert (exists l2, (if rltb (lmax [px (lift2 Rminus hi lo); py (lift2 Rminus hi lo); pz (lift2 Rminus hi lo)] * / 4) s then (repeat P2 nranks, repeat w2 nranks)
      else (exchange (domain lo hi (map place P1) (map place P2) s) P2, exchange (domain lo hi (map place P1) (map place P2) s) w2)) = (exchange l2 P2, exchange l2 w2) /\ length l2 = nranks /\
     (forall r ids, nth_error l2 r = Some ids -> NoDup ids /\ (forall i, In i ids -> (i < length P2)%nat) /\ forall i q p, nth_error (map place P2) i = Some q -> inside lo hi p -> home p = r -> separation p q <= s -> In i ids)) as (l2 & EL & L2 & K2).
  { destruct (rltb _ s).
    - exists (repeat (seq 0 (length P2)) nranks). rewrite repeat_exchange, (repeat_exchange w2), <- T2. split; [reflexivity|]. split; [apply repeat_length|]. intros r ids R. apply nth_error_In, repeat_spec in R. subst ids.
      split; [apply seq_NoDup|]. split; [intros i I; apply in_seq in I; lia|]. intros i q p I _ _ _. apply in_seq. assert (i < length (map place P2))%nat by (apply nth_error_Some; rewrite I; discriminate). rewrite map_length in *. lia.
    - destruct (K (map place P2) s I2 S0) as [L2 K2]. eexists. split; [reflexivity|]. split; [exact L2|]. intros r ids R. destruct (K2 r ids R) as (N & B & _ & F). split; [exact N|]. split; [rewrite map_length in B; exact B|exact F]. }
  rewrite EL. unfold count_pairs. cbn [fst snd]. apply map_ext_in. intros b _. unfold D. rewrite <- !at_distance_eq. fold P1. fold P2.
  apply (ranks_total nranks bin sep P1 P2 w1 w2 _ l2 home lo hi s b T1 T2 HH I1 L1 L2); [|exact K2|exact C'].
  intros r ids R. destruct (K1 r ids R) as (N & B & F & _). split; [exact N|]. split; [rewrite map_length in B; exact B|]. intros i q I. apply (F i q I). reflexivity.
Qed.

(* ---- smoothing ---- *)
Definition in_reach (mode : smode) (edges : list R) (pimax : option R) (p q : point) : Prop :=
  match mode with
  | S1d | S2d => distance_within edges p q
  | Sproj => match pimax with Some m => projected_within edges m p q | None => False end
  | Sang => angle_within edges (scalar (place (fst p, 1)) (place (fst q, 1)))
  end.
Lemma edges_pos mode edges Nmu pimax : survey_check mode edges Nmu pimax = Ok tt -> edges <> [] /\ (forall e, In e edges -> 0 < e) /\ 0 < lmax edges.
Proof.
  unfold survey_check. destruct edges as [|e edges]; [discriminate|]. destruct (rleb (lmin (e :: edges)) 0) eqn:M; [discriminate|]. intros _.
  assert (P : 0 < lmin (e :: edges)) by (unfold rleb in M; destruct (Rle_dec _ _); [discriminate|lra]).
  assert (A : forall x, In x (e :: edges) -> 0 < x) by (intros x I; pose proof (lmin_le _ x I); lra).
  split; [discriminate|]. split; [exact A|]. apply A, lmax_in. discriminate.
Qed.
Lemma smoothing_ok mode edges Nmu pimax p q : survey_check mode edges Nmu pimax = Ok tt -> (mode = Sang -> (forall e, In e edges -> e <= 180) /\ snd p = 1 /\ snd q = 1) ->
  in_reach mode edges pimax p q -> separation (place p) (place q) <= smoothing_of mode edges pimax.
Proof.
  intros V A. destruct (edges_pos _ _ _ _ V) as (NE & EP & MP). unfold smoothing_of, in_reach. destruct mode.
  1,2: intros (e & I & H); pose proof (lmax_ge edges e I); lra.
  - destruct pimax as [m|]; [|intros []]. intros (rp & pi & e & P0 & _ & SS & I & H1 & H2). pose proof (lmax_ge edges e I). apply sq_le; [apply sqrt_pos|]. rewrite sqrt_sqrt by nra. rewrite sep_sq, SS.
    assert (pi * pi <= m * m) by (pose proof (Rabs_pos pi); rewrite <- (Rabs_pos_eq (pi * pi)) by nra; rewrite Rabs_mult; nra). nra.
  - destruct (A eq_refl) as (E180 & Hp & Hq). intros (th & e & B & I & H). destruct p as [[ra dec] d], q as [[ra' dec'] d']. cbn [fst snd] in *. subst d d'.
    pose proof (lmax_ge edges e I) as LE. pose proof (E180 _ (lmax_in edges NE)) as LM. pose proof PI_RGT_0 as PP.
    pose proof (sep_unit (place (ra, dec, 1)) (place (ra', dec', 1)) (place_unit ra dec) (place_unit ra' dec')) as SU. rewrite <- H in SU.
    unfold deg2rad, SkyModel.deg2rad. set (t := th * degree) in *. set (T := lmax edges * (PI / 180)).
    assert (TB : 0 <= t <= T /\ T <= PI) by (unfold t, T, degree; split; [split|]; nra).
    replace t with (2 * (t / 2)) in SU by field. rewrite cos_2a_sin in SU.
    assert (0 <= sin (t / 2)) by (apply sin_ge_0; lra). assert (sin (t / 2) <= sin (/ 2 * T)) by (apply sin_incr_1; lra).
    apply sq_le; [|rewrite SU]; nra.
Qed.
Lemma smoothing_pos mode edges Nmu pimax : survey_check mode edges Nmu pimax = Ok tt -> (mode = Sang -> forall e, In e edges -> e <= 180) -> 0 <= smoothing_of mode edges pimax.
Proof.
  intros V A. destruct (edges_pos _ _ _ _ V) as (NE & EP & MP). unfold smoothing_of. destruct mode; [lra|lra|destruct pimax; [apply sqrt_pos|lra]|].
  pose proof (A eq_refl _ (lmax_in edges NE)). pose proof PI_RGT_0. unfold deg2rad, SkyModel.deg2rad. assert (0 <= sin (/ 2 * (lmax edges * (PI / 180)))) by (apply sin_ge_0; nra). lra.
Qed.

(* ---- survey ---- *)
Definition proper (mode : smode) (edges : list R) (Nmu : option nat) (pimax : option R) : Prop :=
  edges <> [] /\ (forall e, In e edges -> 0 < e) /\
  match mode with
  | S2d => Nmu <> None /\ pimax = None
  | S1d | Sang => Nmu = None /\ pimax = None
  | Sproj => Nmu = None /\ exists m, pimax = Some m /\ 1 <= m
  end.
Lemma rleb_false a b : rleb a b = false <-> b < a. Proof. unfold rleb. destruct (Rle_dec a b); split; intros; try discriminate; try lra; reflexivity. Qed.
Lemma rltb_false a b : rltb a b = false <-> b <= a. Proof. unfold rltb. destruct (Rlt_dec a b); split; intros; try discriminate; try lra; reflexivity. Qed.
Lemma check_ok mode edges Nmu pimax : proper mode edges Nmu pimax -> survey_check mode edges Nmu pimax = Ok tt.
Proof.
  intros (NE & P & M). unfold survey_check. pose proof (P _ (lmin_in edges NE)) as Q. destruct edges as [|e edges]; [contradiction|].
  rewrite (proj2 (rleb_false _ _) Q). destruct mode.
  - destruct M as [-> ->]. reflexivity.
  - destruct M as [N ->]. destruct Nmu; [reflexivity|contradiction].
  - destruct M as [-> (m & -> & H)]. rewrite (proj2 (rltb_false _ _) H). reflexivity.
  - destruct M as [-> ->]. reflexivity.
Qed.
Lemma check_err mode edges Nmu pimax : ~ proper mode edges Nmu pimax -> survey_check mode edges Nmu pimax = Err ValueError.
Proof.
  intros N. unfold survey_check. destruct edges as [|e edges]; [reflexivity|]. destruct (rleb (lmin (e :: edges)) 0) eqn:M; [reflexivity|]. apply rleb_false in M.
  assert (P : forall x, In x (e :: edges) -> 0 < x) by (intros x I; pose proof (lmin_le _ x I); lra).
  assert (NE : e :: edges <> []) by discriminate.
  destruct mode, Nmu as [n|], pimax as [m|]; try reflexivity; try (exfalso; apply N; repeat split; try assumption; discriminate).
  destruct (rltb m 1) eqn:B; [reflexivity|]. apply rltb_false in B. exfalso. apply N. split; [exact NE|]. split; [exact P|]. split; [reflexivity|]. exists m. auto.
Qed.
Lemma survey_ok nranks domain bin sep mode edges Nmu pimax cosmo nbins first second :
  grid_ok nranks domain -> proper mode edges Nmu pimax -> (mode <> Sang -> cosmo <> None) -> (mode = Sang -> forall e, In e edges -> e <= 180) ->
  (forall p q b, bin p q = Some b -> in_reach mode edges pimax p q) ->
  let D := match mode with Sang => fun _ => 1 | _ => dist_of cosmo end in
  regular D first -> regular D (or_first first second) ->
  SurveyDataPairCount nranks domain bin sep mode edges Nmu pimax cosmo nbins first second = Ok (map (fun b => totals bin sep b (at_distance D first) (at_distance D (or_first first second))) (seq 0 nbins)).
Proof.
  intros G P MC E B D RA RB. pose proof (check_ok _ _ _ _ P) as V. unfold SurveyDataPairCount. rewrite V. cbn [rbind].
  set (angular := match mode with Sang => true | _ => false end).
  assert (AM : angular = false -> mode <> Sang) by (unfold angular; destruct mode; intros; discriminate).
  assert (Q : match cosmo with None => negb angular | Some _ => false end = false) by (destruct cosmo; [reflexivity|]; destruct angular eqn:T; [reflexivity|]; exfalso; apply MC; auto).
  rewrite Q. assert (DD : D = dist_of (if angular then None else cosmo)) by (unfold D, angular; destruct mode; reflexivity).
  destruct (decompose_total nranks domain bin sep angular cosmo (smoothing_of mode edges pimax) first second nbins) as (parts & EP & EC); [exact G|intros; apply MC; auto|apply (smoothing_pos mode edges Nmu pimax V E)|rewrite <- DD; exact RA|rewrite <- DD; exact RB| |].
  - intros p q b Ip Iq H. apply (smoothing_ok mode edges Nmu pimax p q V); [|apply (B p q b H)]. intros MS. split; [apply E, MS|].
    assert (T : forall c r, In r (map fst (at_distance (dist_of (if angular then None else cosmo)) c)) -> snd r = 1).
    { intros [ps ws] r I. apply in_map_iff in I. destruct I as ([r' w] & <- & I). unfold at_distance in I. apply in_combine_l in I. apply in_map_iff in I. destruct I as ([[a d] z] & F & _). cbn [fst]. subst r'. unfold angular. rewrite MS. reflexivity. }
    split; [apply (T first p Ip)|apply (T _ q Iq)].
  - rewrite EP. cbn [rbind]. rewrite EC, DD. reflexivity.
Qed.
Lemma survey_err nranks domain bin sep mode edges Nmu pimax cosmo nbins first second :
  ~ proper mode edges Nmu pimax \/ (mode <> Sang /\ cosmo = None) -> SurveyDataPairCount nranks domain bin sep mode edges Nmu pimax cosmo nbins first second = Err ValueError.
Proof.
  intros H. unfold SurveyDataPairCount. destruct H as [H|[H ->]]; [rewrite (check_err _ _ _ _ H); reflexivity|].
  destruct (survey_check mode edges Nmu pimax) as [u|e] eqn:V; cbn [rbind].
  - destruct mode; try reflexivity. contradiction.
  - unfold survey_check in V. destruct edges; [injection V as <-; reflexivity|]. destruct (rleb _ _); [injection V as <-; reflexivity|]. destruct mode, Nmu, pimax; try discriminate; try (injection V as <-; reflexivity). destruct (rltb _ _); [injection V as <-; reflexivity|discriminate].
Qed.

(* ---- box ---- *)
Lemma shift_ok L pos o : pos <> [] -> centre_of L pos o -> shift_to_box_center pos L = Ok (map (fun p => less p o) pos).
Proof.
  intros NE H. unfold shift_to_box_center.
  assert (NM : forall c : point -> R, map c pos <> []) by (intros c E; apply map_eq_nil in E; contradiction).
  assert (LO : forall (c : point -> R) v, (forall p, In p pos -> v < c p) -> v < lmin (map c pos)) by (intros c v A; pose proof (lmin_in _ (NM c)) as I; apply in_map_iff in I; destruct I as (p & E & I); rewrite <- E; apply A, I).
  assert (HI : forall (c : point -> R) v, (forall p, In p pos -> c p < v) -> lmax (map c pos) < v) by (intros c v A; pose proof (lmax_in _ (NM c)) as I; apply in_map_iff in I; destruct I as (p & E & I); rewrite <- E; apply A, I).
  destruct L as [[a b] d].
  change (all3 (fun c => rltb 0 (c (bmin pos)))) with (rltb 0 (lmin (map px pos)) && rltb 0 (lmin (map py pos)) && rltb 0 (lmin (map pz pos))).
  change (all3 (fun c => rltb (c (bmax pos)) (c (a, b, d)))) with (rltb (lmax (map px pos)) a && rltb (lmax (map py pos)) b && rltb (lmax (map pz pos)) d).
  change (all3 (fun c => rltb (- / 2 * c (a, b, d)) (c (bmin pos)))) with (rltb (- / 2 * a) (lmin (map px pos)) && rltb (- / 2 * b) (lmin (map py pos)) && rltb (- / 2 * d) (lmin (map pz pos))).
  change (all3 (fun c => rltb (c (bmax pos)) (/ 2 * c (a, b, d)))) with (rltb (lmax (map px pos)) (/ 2 * a) && rltb (lmax (map py pos)) (/ 2 * b) && rltb (lmax (map pz pos)) (/ 2 * d)).
  destruct pos as [|p0 pos0] eqn:EP; [contradiction|]. rewrite <- EP in *. clear p0 pos0 EP.
  destruct H as [[F ->]|(F & (p & I & Z) & ->)].
  - rewrite Forall_forall in F.
    assert (A : forall p, In p pos -> 0 < px p < a /\ 0 < py p < b /\ 0 < pz p < d) by (intros [[x y] z] I; exact (F _ I)).
    rewrite (proj2 (rltb_iff _ _) (LO px 0 (fun p I => proj1 (proj1 (A p I))))), (proj2 (rltb_iff _ _) (LO py 0 (fun p I => proj1 (proj1 (proj2 (A p I)))))), (proj2 (rltb_iff _ _) (LO pz 0 (fun p I => proj1 (proj2 (proj2 (A p I)))))).
    rewrite (proj2 (rltb_iff _ _) (HI px a (fun p I => proj2 (proj1 (A p I))))), (proj2 (rltb_iff _ _) (HI py b (fun p I => proj2 (proj1 (proj2 (A p I)))))), (proj2 (rltb_iff _ _) (HI pz d (fun p I => proj2 (proj2 (proj2 (A p I)))))).
    cbn [andb]. f_equal. apply map_ext. intros [[x y] z]. unfold lift2, less, px, py, pz. cbn [fst snd]. apply f_equal2; [apply f_equal2|]; field.
  - rewrite Forall_forall in F.
    assert (A : forall p, In p pos -> - / 2 * a < px p < / 2 * a /\ - / 2 * b < py p < / 2 * b /\ - / 2 * d < pz p < / 2 * d) by (intros [[x y] z] J; specialize (F _ J); unfold px, py, pz; cbn [inside fst snd] in *; lra).
    assert (N : rltb 0 (lmin (map px pos)) && rltb 0 (lmin (map py pos)) && rltb 0 (lmin (map pz pos)) = false).
    { destruct (rltb 0 (lmin (map px pos))) eqn:X; [|reflexivity]. destruct (rltb 0 (lmin (map py pos))) eqn:Y; [|reflexivity]. destruct (rltb 0 (lmin (map pz pos))) eqn:T; [|reflexivity]. exfalso. apply rltb_iff in X, Y, T.
      pose proof (lmin_le _ _ (in_map px _ _ I)). pose proof (lmin_le _ _ (in_map py _ _ I)). pose proof (lmin_le _ _ (in_map pz _ _ I)). destruct p as [[x y] z]. unfold px, py, pz in *. cbn [fst snd] in *. lra. }
    rewrite N. cbn [andb].
    rewrite (proj2 (rltb_iff _ _) (LO px _ (fun p I => proj1 (proj1 (A p I))))), (proj2 (rltb_iff _ _) (LO py _ (fun p I => proj1 (proj1 (proj2 (A p I)))))), (proj2 (rltb_iff _ _) (LO pz _ (fun p I => proj1 (proj2 (proj2 (A p I)))))).
    rewrite (proj2 (rltb_iff _ _) (HI px _ (fun p I => proj2 (proj1 (A p I))))), (proj2 (rltb_iff _ _) (HI py _ (fun p I => proj2 (proj1 (proj2 (A p I)))))), (proj2 (rltb_iff _ _) (HI pz _ (fun p I => proj2 (proj2 (proj2 (A p I)))))).
    cbn [andb]. f_equal. symmetry. rewrite <- (map_id pos) at 2. apply map_ext. intros [[x y] z]. unfold less. apply f_equal2; [apply f_equal2|]; ring.
Qed.

Definition sky_of (o p : point) : point := (equatorial (less p o) (0, 0, 0), 1).
Lemma sky_of_place o p : p <> o -> place (sky_of o p) = direction o p.
Proof.
  intros H. unfold sky_of, place. pose proof (equatorial_ok (less p o) (0, 0, 0)) as Q. destruct (equatorial (less p o) (0, 0, 0)) as [ra dec]. destruct Q as (_ & _ & Q).
  assert (E : separation (less p o) (0, 0, 0) = separation p o) by (destruct p as [[a b] c], o as [[x y] z]; unfold separation, less; f_equal; ring). rewrite E in Q. unfold direction.
  assert (N : separation p o <> 0).
  { intros Z. apply H. assert (S : separation p o * separation p o = 0) by (rewrite Z; ring). rewrite sep_sq in S. destruct p as [[a b] c], o as [[x y] z]. unfold scalar, less in S.
    pose proof (Rle_0_sqr (a - x)). pose proof (Rle_0_sqr (b - y)). pose proof (Rle_0_sqr (c - z)). unfold Rsqr in *.
    assert (a - x = 0) by (apply Rsqr_0_uniq; unfold Rsqr; lra). assert (b - y = 0) by (apply Rsqr_0_uniq; unfold Rsqr; lra). assert (c - z = 0) by (apply Rsqr_0_uniq; unfold Rsqr; lra).
    replace a with x by lra. replace b with y by lra. replace c with z by lra. reflexivity. }
  rewrite Q. unfold toward. apply f_equal2; [apply f_equal2|]; field; exact N.
Qed.
Lemma combine_map {A B C} (h : A -> B) : forall (l : list A) (w : list C), combine (map h l) w = map (fun o => (h (fst o), snd o)) (combine l w).
Proof. induction l as [|x l IH]; intros [|y w]; cbn [map combine]; try reflexivity. rewrite IH. reflexivity. Qed.
Lemma sky_columns_ok L c o : fst c <> [] -> centre_of L (fst c) o -> sky_columns L c = Ok (map (sky_of o) (fst c), snd c).
Proof.
  intros NE H. unfold sky_columns. rewrite (shift_ok L (fst c) o NE H). cbn [rbind]. unfold CartesianToEquatorial. rewrite !map_map. f_equal. f_equal. clear.
  induction (fst c) as [|p l IH]; [reflexivity|]. cbn [map combine]. rewrite IH. cbn [fst snd]. f_equal. unfold sky_of. destruct (equatorial (less p o) (0, 0, 0)); reflexivity.
Qed.
Lemma around_nonempty o c : around o c -> fst c <> [].
Proof. intros (_ & _ & (a & _ & I & _) & _) E. rewrite E in I. destruct I. Qed.
Lemma sky_at o c : at_distance (fun _ => 1) (map (sky_of o) (fst c), snd c) = map (fun x => (sky_of o (fst x), snd x)) (combine (fst c) (snd c)).
Proof. unfold at_distance. cbn [fst snd]. rewrite <- (combine_map (sky_of o)). f_equal. rewrite map_map. apply map_ext. intros p. unfold sky_of. destruct (equatorial (less p o) (0, 0, 0)); reflexivity. Qed.
Lemma around_regular o c : around o c -> regular (fun _ => 1) (map (sky_of o) (fst c), snd c).
Proof.
  intros (E & N & S). split; [cbn [fst snd]; rewrite map_length; exact E|]. rewrite sky_at, map_map. cbn [fst snd].
  rewrite <- (map_map (A := point * R) fst (fun p => place (sky_of o p))), map_fst_combine' by exact E. rewrite (map_ext_in _ (direction o)); [exact S|]. intros p I. apply sky_of_place, N, I.
Qed.

Lemma box_ok nranks domain (abin : R -> option nat) (asep : R -> R) bin sep edges L nbins first second o1 o2 :
  grid_ok nranks domain -> edges <> [] -> (forall e, In e edges -> 0 < e <= 180) ->
  (forall ra dec z ra' dec' z', bin (ra, dec, z) (ra', dec', z') = abin (scalar (place (ra, dec, 1)) (place (ra', dec', 1))) /\ sep (ra, dec, z) (ra', dec', z') = asep (scalar (place (ra, dec, 1)) (place (ra', dec', 1)))) ->
  (forall c b, abin c = Some b -> angle_within edges c) ->
  centre_of L (fst first) o1 -> around o1 first -> centre_of L (fst (or_first first second)) o2 -> around o2 (or_first first second) ->
  BoxAngularPairCount nranks domain bin sep edges L nbins first second
  = Ok (map (fun b => totals (fun u v => abin (scalar u v)) (fun u v => asep (scalar u v)) b (seen_from o1 first) (seen_from o2 (or_first first second))) (seq 0 nbins)).
Proof.
  intros G NE EB BS AB C1 A1 C2 A2. assert (P : proper Sang edges None None) by (split; [exact NE|]; split; [intros e I; apply EB, I|split; reflexivity]).
  pose proof (check_ok _ _ _ _ P) as V. unfold BoxAngularPairCount. rewrite V. cbn [rbind]. rewrite (sky_columns_ok L first o1 (around_nonempty _ _ A1) C1). cbn [rbind].
  set (f' := (map (sky_of o1) (fst first), snd first)). set (s' := (map (sky_of o2) (fst (or_first first second)), snd (or_first first second))).
  assert (exists sec, match second with Some c => let! c := sky_columns L c in Ok (Some c) | None => Ok None end = Ok sec /\ or_first f' sec = s') as (sec & ES & EO).
  { destruct second as [c|]; cbn [or_first] in *.
    - rewrite (sky_columns_ok L c o2 (around_nonempty _ _ A2) C2). cbn [rbind]. eexists. split; reflexivity.
    - exists None. split; [reflexivity|]. cbn [or_first]. unfold f', s'.
      assert (o1 = o2) as ->; [|reflexivity]. destruct C1 as [[F1 ->]|(F1 & (p & I & Z) & ->)], C2 as [[F2 ->]|(F2 & (q & J & Y) & ->)]; try reflexivity; exfalso.
      + rewrite Forall_forall in F1. specialize (F1 q J). destruct L as [[a b] d], q as [[x y] z]. cbn [inside] in F1. lra.
      + rewrite Forall_forall in F2. specialize (F2 p I). destruct L as [[a b] d], p as [[x y] z]. cbn [inside] in F2. lra. }
  rewrite ES. cbn [rbind].
  destruct (decompose_total nranks domain bin sep true None (smoothing_of Sang edges None) f' sec nbins) as (parts & EP & EC); [exact G|discriminate|apply (smoothing_pos Sang edges None None V); intros _ e I; apply EB, I|apply around_regular, A1|rewrite EO; apply around_regular, A2| |].
  - cbn [dist_of]. rewrite EO. unfold f', s'. rewrite !sky_at, !map_map. cbn [fst].
    intros p q b Ip Iq H. apply in_map_iff in Ip. apply in_map_iff in Iq. destruct Ip as (x & <- & _), Iq as (y & <- & _).
    apply (smoothing_ok Sang edges None None _ _ V); [intros _; split; [intros e I; apply EB, I|split; reflexivity]|]. unfold in_reach. apply (AB _ b). unfold sky_of in *.
    destruct (equatorial (less (fst x) o1) (0, 0, 0)) as [ra dec], (equatorial (less (fst y) o2) (0, 0, 0)) as [ra' dec']. cbn [fst]. rewrite <- (proj1 (BS ra dec 1 ra' dec' 1)). exact H.
  - rewrite EP. cbn [rbind]. rewrite EC, EO. f_equal. apply map_ext_in. intros b _. cbn [dist_of]. unfold f', s', seen_from. rewrite !sky_at, !(combine_map (direction _)).
    assert (T : forall fB fC, (forall p q, In p (fst first) -> In q (fst (or_first first second)) -> forall v w, fB (sky_of o1 p, v) (sky_of o2 q, w) = fC (direction o1 p, v) (direction o2 q, w)) ->
       total bin fB b (map (fun x => (sky_of o1 (fst x), snd x)) (combine (fst first) (snd first))) (map (fun x => (sky_of o2 (fst x), snd x)) (combine (fst (or_first first second)) (snd (or_first first second))))
       = total (fun u v => abin (scalar u v)) fC b (map (fun x => (direction o1 (fst x), snd x)) (combine (fst first) (snd first))) (map (fun x => (direction o2 (fst x), snd x)) (combine (fst (or_first first second)) (snd (or_first first second))))).
    { intros fB fC HF. unfold total. change (fold_right Rplus 0) with rsum. rewrite !rsum_list_prod, !map_map. apply rsum_ext'. intros [p v] Hp. rewrite !map_map. apply rsum_ext'. intros [q w] Hq. cbn [fst snd].
      apply in_combine_l in Hp. apply in_combine_l in Hq. rewrite (HF p q Hp Hq).
      assert (BB : bin (sky_of o1 p) (sky_of o2 q) = abin (scalar (direction o1 p) (direction o2 q))).
      { rewrite <- !sky_of_place; [|apply A2, Hq|apply A1, Hp]. unfold sky_of. destruct (equatorial (less p o1) (0, 0, 0)) as [ra dec], (equatorial (less q o2) (0, 0, 0)) as [ra' dec']. apply BS. }
      rewrite BB. reflexivity. }
    unfold totals. rewrite (T (fun _ _ => 1) (fun _ _ => 1)) by reflexivity. rewrite (T (fun p q => snd p * snd q) (fun p q => snd p * snd q)) by reflexivity.
    rewrite (T (fun p q => sep (fst p) (fst q)) (fun u v => asep (scalar (fst u) (fst v)))); [reflexivity|]. intros p q Hp Hq v w. cbn [fst].
    rewrite <- !sky_of_place; [|apply A2, Hq|apply A1, Hp]. unfold sky_of. destruct (equatorial (less p o1) (0, 0, 0)) as [ra dec], (equatorial (less q o2) (0, 0, 0)) as [ra' dec']. apply BS.
Qed.
