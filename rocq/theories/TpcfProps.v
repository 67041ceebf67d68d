(* Correlation functions from pair counts: properties C190-C199. *)
From Verif Require Import Base Num PairModel TpcfModel TpcfProofs TpcfMain.
From Coq Require Import String.
Local Open Scope Z_scope.
Local Notation length := List.length.

(* C190: wp is twice the integral of the correlation over pi: a constant gives twice its value times the range, ranges add up,
   and a missing value makes the result missing *)
Theorem C190_constant l x c : wp_row (x :: l) (repeat (Some c) (length l)) = Some (Q2Qc 2 * c * (last (x :: l) x - x))%Qc.
Proof. exact (wp_const l x c). Qed.
Print Assumptions C190_constant.
Example C190_constant_ex : wp_row [zq 0; zq 1; zq 4] [Some (zq 3); Some (zq 3)] = Some (zq 24).
Proof. pose proof (C190_constant [zq 1; zq 4] (zq 0) (zq 3)) as H. rewrite <- (Qc_is_canon (Q2Qc 2 * zq 3 * (zq 4 - zq 0))%Qc (zq 24)) by reflexivity. exact H. Qed.
Theorem C190_ranges (l r : list Qc) m (c1 c2 : list num) : length c1 = length l -> length c2 = length r ->
  wp_row (l ++ m :: r) (c1 ++ c2) = nlift Qcplus (wp_row (l ++ [m]) c1) (wp_row (m :: r) c2).
Proof. exact (wp_app l r m c1 c2). Qed.
Print Assumptions C190_ranges.
Example C190_ranges_ex : wp_row [zq 0; zq 1; zq 3] [Some (zq 2); Some (zq 5)] = Some (zq 24).
Proof.
  pose proof (C190_ranges [zq 0] [zq 3] (zq 1) [Some (zq 2)] [Some (zq 5)] eq_refl eq_refl) as H. refine (eq_trans H _).
  cbn. apply f_equal. apply Qc_is_canon. reflexivity.
Qed.
Theorem C190_missing edges corr : length corr = (length edges - 1)%nat -> (wp_row edges corr = None <-> In None corr).
Proof. exact (wp_nan edges corr). Qed.
Print Assumptions C190_missing.
Example C190_missing_ex : wp_row [zq 0; zq 1; zq 3] [Some (zq 2); None] = None.
Proof. apply C190_missing; [reflexivity|right; left; reflexivity]. Qed.

(* C191: the monopole is the mean over mu *)
Theorem C191_monopole edges vals : length vals = (length edges - 1)%nat -> edges <> [] -> (last edges 0 - hd 0 edges <> 0)%Qc ->
  pole edges 0 (map Some vals) = Some (qsum (map (fun j => nth j vals 0 * (nth (S j) edges 0 - nth j edges 0)) (seq 0 (length vals))) / (last edges 0 - hd 0 edges))%Qc.
Proof. exact (monopole_ok edges vals). Qed.
Print Assumptions C191_monopole.
Example C191_monopole_ex : pole [zq 0; zq 1; zq 4] 0 [Some (zq 4); Some (zq 8)] = Some (zq 7).
Proof.
  refine (eq_trans (C191_monopole [zq 0; zq 1; zq 4] [zq 4; zq 8] eq_refl _ _) _); [discriminate|discriminate|].
  apply f_equal. apply Qc_is_canon. reflexivity.
Qed.
(* equal wedges give an isotropic correlation c the quadrupole - 5 c / (8 N^2) *)
Theorem C191_quadrupole N c : (0 < N)%nat -> pole (linspace 0 1 (N + 1)) 2 (repeat (Some c) N) = Some (- (zq 5 * c / (zq 8 * zq (Z.of_nat N) * zq (Z.of_nat N))))%Qc.
Proof. exact (quadrupole_const N c). Qed.
Print Assumptions C191_quadrupole.
Example C191_quadrupole_ex : pole (linspace 0 1 2) 2 [Some (zq 8)] = Some (zq (-5)).
Proof. refine (eq_trans (C191_quadrupole 1 (zq 8) _) _); [lia|]. apply f_equal. apply Qc_is_canon. reflexivity. Qed.

(* C192 (refuted): an isotropic correlation has no quadrupole *)
Theorem C192_isotropic_refuted : exists c, forall N, (0 < N)%nat -> pole (linspace 0 1 (N + 1)) 2 (repeat (Some c) N) <> Some 0%Qc.
Proof.
  exists (zq 8). intros N H E. rewrite (quadrupole_const N _ H) in E. apply (f_equal (fun o : num => match o with Some x => x | None => 0%Qc end)) in E. pose proof (zq_pos_ne N H) as NZ.
  assert (X : (- (zq 5 * zq 8 / (zq 8 * zq (Z.of_nat N) * zq (Z.of_nat N))) * (zq (Z.of_nat N) * zq (Z.of_nat N)))%Qc = (- zq 5)%Qc) by (field; split; [exact NZ|discriminate]).
  assert (Y : (0 * (zq (Z.of_nat N) * zq (Z.of_nat N)))%Qc = (- zq 5)%Qc) by (rewrite <- X; cbn beta iota in E; rewrite E; reflexivity).
  rewrite Qcmult_0_l in Y. discriminate.
Qed.
Print Assumptions C192_isotropic_refuted.

(* C193: with randoms the estimate is that of Landy and Szalay; without, and not in a periodic box, ValueError *)
Theorem C193_landy count natural_of n periodic restrict d1 d2 r1 r2 :
  (forall a b, length (c_bins (count a b)) = n) -> (forall a b, c_total (count a b) <> 0%Qc) ->
  exists t, run count natural_of periodic restrict d1 d2 (Some r1) r2 None = Ok t /\
    let rr := match r2 with Some r => r | None => r1 end in
    let D1R2 := count d1 (Some rr) in let D2R1 := match d2 with Some d => count d (Some r1) | None => D1R2 end in
    t_D1D2 t = count d1 d2 /\ t_D1R2 t = Some D1R2 /\ t_D2R1 t = Some D2R1 /\ t_R1R2 t = count r1 (Some rr) /\ length (t_corr t) = n /\
    forall i xi, nth_error (t_corr t) i = Some xi -> estimate_of (count d1 d2) D1R2 D2R1 (count r1 (Some rr)) i xi.
Proof. intros A B. exact (run_landy count natural_of n A B periodic restrict d1 d2 r1 r2). Qed.
Print Assumptions C193_landy.
Definition count_ex (a : nat) (b : option nat) : pcounts :=
  let n := Z.of_nat (1 + a + match b with Some x => x | None => a end) in {| c_total := zq n; c_bins := [(n, zq (2 * n)); (0, 0%Qc)] |}.
Example C193_landy_ex : exists t, run count_ex (fun c _ _ => (c, [])) None (fun x => x) 1 (Some 2%nat) (Some 5%nat) None None = Ok t /\ t_corr t = [Some 0%Qc; None].
Proof.
  destruct (C193_landy count_ex (fun c _ _ => (c, [])) 2 None (fun x => x) 1 (Some 2%nat) 5 None) as (t & E & R).
  - intros a [b|]; reflexivity.
  - intros a b E. unfold count_ex in E. cbn [c_total] in E. change 0%Qc with (zq 0) in E. apply zq_inj in E. lia.
  - exists t. split; [exact E|]. injection E as <-. unfold LandySzalay. cbn [t_corr count_ex c_bins c_total ls_bins fst snd].
    apply f_equal2; [|reflexivity]. unfold landy_szalay. cbn. apply f_equal. apply Qc_is_canon. reflexivity.
Qed.
Theorem C193_swap count natural_of periodic restrict d1 d2 r1 r2 t t' : (forall a b, count a (Some b) = count b (Some a)) ->
  run count natural_of periodic restrict d1 (Some d2) (Some r1) (Some r2) None = Ok t -> run count natural_of periodic restrict d2 (Some d1) (Some r2) (Some r1) None = Ok t' ->
  t_corr t' = t_corr t /\ t_D1R2 t' = t_D2R1 t /\ t_D2R1 t' = t_D1R2 t.
Proof. exact (run_swap count natural_of periodic restrict d1 d2 r1 r2 t t'). Qed.
Print Assumptions C193_swap.
Example C193_swap_ex : (forall a b, count_ex a (Some b) = count_ex b (Some a)) /\ count_ex 1 (Some 2%nat) <> count_ex 1 (Some 3%nat).
Proof. split; [intros a b; unfold count_ex; replace (1 + a + b)%nat with (1 + b + a)%nat by lia; reflexivity|discriminate]. Qed.
Theorem C193_same count natural_of periodic restrict d1 r1 : (forall a, count a (Some a) = count a None) ->
  run count natural_of periodic restrict d1 (Some d1) (Some r1) None None = run count natural_of periodic restrict d1 None (Some r1) None None.
Proof. exact (run_same count natural_of periodic restrict d1 r1). Qed.
Print Assumptions C193_same.
Example C193_same_ex : (forall a, count_ex a (Some a) = count_ex a None) /\ count_ex 1 None <> count_ex 2 None.
Proof. split; [reflexivity|discriminate]. Qed.
Theorem C193_reuse count natural_of periodic restrict d1 d2 r1 r2 t : run count natural_of periodic restrict d1 d2 (Some r1) r2 None = Ok t ->
  run count natural_of periodic restrict d1 d2 (Some r1) r2 (Some (t_R1R2 t)) = Ok t.
Proof. exact (run_reuse count natural_of periodic restrict d1 d2 r1 r2 t). Qed.
Print Assumptions C193_reuse.
Example C193_reuse_ex : run count_ex (fun c _ _ => (c, [])) None (fun x => x) 1 None (Some 5%nat) None (Some (count_ex 5 (Some 5%nat))) = run count_ex (fun c _ _ => (c, [])) None (fun x => x) 1 None (Some 5%nat) None None.
Proof. symmetry. symmetry. exact (C193_reuse count_ex (fun c _ _ => (c, [])) None (fun x => x) 1 None 5 None _ eq_refl). Qed.
(* counts given by the user are used as they are *)
Theorem C193_given count natural_of n periodic restrict d1 d2 r1 r2 RR :
  (forall a b, length (c_bins (count a b)) = n) -> (forall a b, c_total (count a b) <> 0%Qc) -> length (c_bins RR) = n -> c_total RR <> 0%Qc ->
  exists t, run count natural_of periodic restrict d1 d2 (Some r1) r2 (Some RR) = Ok t /\
    let rr := match r2 with Some r => r | None => r1 end in
    let D1R2 := count d1 (Some rr) in let D2R1 := match d2 with Some d => count d (Some r1) | None => D1R2 end in
    t_D1D2 t = count d1 d2 /\ t_D1R2 t = Some D1R2 /\ t_D2R1 t = Some D2R1 /\ t_R1R2 t = RR /\ length (t_corr t) = n /\
    forall i xi, nth_error (t_corr t) i = Some xi -> estimate_of (count d1 d2) D1R2 D2R1 RR i xi.
Proof. exact (run_given count natural_of n periodic restrict d1 d2 r1 r2 RR). Qed.
Print Assumptions C193_given.
Example C193_given_ex : let RR := {| c_total := zq 7; c_bins := [(3, zq 4); (5, zq 6)] |} in length (c_bins RR) = 2%nat /\ c_total RR <> 0%Qc /\ RR <> count_ex 5 (Some 5%nat).
Proof. split; [reflexivity|]. split; [intros E; change 0%Qc with (zq 0) in E; apply zq_inj in E; lia|discriminate]. Qed.
Theorem C193_refused count natural_of periodic restrict d1 d2 r2 R : periodic <> Some true -> run count natural_of periodic restrict d1 d2 None r2 R = Err ValueError.
Proof. exact (run_refused count natural_of periodic restrict d1 d2 r2 R). Qed.
Print Assumptions C193_refused.
Example C193_refused_ex : run count_ex (fun c _ _ => (c, [])) (Some false) (fun x => x) 1 None None (Some 5%nat) None = Err ValueError.
Proof. apply C193_refused. discriminate. Qed.

(* C194 (refuted): without periodic boundaries, a second sample without its randoms raises ValueError *)
Theorem C194_documented_refuted : exists count natural_of d1 d2 r1 t, run count natural_of (Some false) (fun x => x) d1 (Some d2) (Some r1) None None = Ok t.
Proof. exists count_ex, (fun c _ _ => (c, [])), 1%nat, 2%nat, 5%nat. eexists. reflexivity. Qed.
Print Assumptions C194_documented_refuted.
(* C195 (refuted): if randoms are provided they are used *)
Theorem C195_randoms_refuted : exists count natural_of d1 d2 t, forall r2, run count natural_of (Some true) (fun x => x) d1 d2 None r2 None = Ok t.
Proof. exists count_ex, (fun c _ _ => (c, [])), 1%nat, (Some 2%nat). eexists. intros r2. reflexivity. Qed.
Print Assumptions C195_randoms_refuted.

(* C196 (refuted): with analytic randoms, the objects of an angular correlation function are those in the sphere around the centre of the box
   for all positions that SimulationBoxPairCount accepts *)
Theorem C196_sphere_refuted : exists L pos, shift_to_box_center pos L = Ok pos /\ pos <> [] /\
  (forall p, In p pos -> (coord p 0 * coord p 0 + coord p 1 * coord p 1 + coord p 2 * coord p 2 < (Q2Qc (1 # 2) * vmin L) * (Q2Qc (1 # 2) * vmin L))%Qc) /\
  restrict_to_sphere L pos = [].
Proof.
  exists (zq 8, zq 8, zq 8), [(zq (-1), zq (-1), zq (-1)); (zq 1, zq 1, zq 1)]. split; [reflexivity|]. split; [discriminate|]. split; [|reflexivity].
  intros p [<-|[<-|[]]]; reflexivity.
Qed.
Print Assumptions C196_sphere_refuted.

(* C197: a saved correlation function comes back with its bins and values, as do the pair counts and wp *)
Theorem C197_tpcf r : (forall c, In (Some c) (r_counts r) -> st_dims c = st_dims (r_corr r) /\ st_edges c = st_edges (r_corr r)) ->
  (forall w, r_wp r = Some w -> st_dims w = firstn 1 (st_dims (r_corr r)) /\ st_edges w = firstn 1 (st_edges (r_corr r))) ->
  let out := setstate (getstate r) in
  same_stat (r_corr out) (r_corr r) /\ match r_wp out, r_wp r with Some a, Some b => same_stat a b | None, None => True | _, _ => False end /\
  Forall2 (fun a b => match a, b with Some x, Some y => same_stat x y | None, None => True | _, _ => False end) (r_counts out) (r_counts r).
Proof. exact (saved_ok r). Qed.
Print Assumptions C197_tpcf.
Example C197_tpcf_ex :
  let c := statistic ["rp"; "pi"]%string [[zq 1; zq 2]; [zq 0; zq 1]] [[Some (zq 3)]] [] in
  let r := {| r_corr := c; r_wp := Some (statistic ["rp"%string] [[zq 1; zq 2]] [[Some (zq 6)]] []); r_counts := [Some c; None; None; Some c] |} in
  setstate (getstate r) = r.
Proof. reflexivity. Qed.
(* ... and pair counts of all modes, with the fields that are summed *)
Theorem C197_pairs mode edges Nmu pimax data total s : (forall p, pimax = Some p -> (0 <= p)%Qc) -> counted mode edges Nmu pimax data total = Ok s ->
  exists s', pc_setstate mode edges Nmu pimax (st_data s) = Ok s' /\ same_stat s' s /\ st_sum s' = st_sum s.
Proof. exact (pairs_saved mode edges Nmu pimax data total s). Qed.
Print Assumptions C197_pairs.
Example C197_pairs_ex : exists s, counted Mproj [zq 1; zq 2] None (Some (Q2Qc (5 # 2))) [[Some (zq 3); None]] (zq 9) = Ok s /\
  match pc_setstate Mproj [zq 1; zq 2] None (Some (Q2Qc (5 # 2))) (st_data s) with Ok s' => st_edges s' = st_edges s /\ length (nth 1 (st_edges s') []) = 3%nat | Err _ => False end.
Proof. eexists. split; [reflexivity|]. split; reflexivity. Qed.

(* C198 (refuted): the total weight of the pairs is restored with the pair counts *)
Theorem C198_total_refuted : exists mode edges data total s s',
  counted mode edges None None data total = Ok s /\ pc_setstate mode edges None None (st_data s) = Ok s' /\ In ("total_wnpairs"%string, total) (st_attrs s) /\ st_attrs s' = [].
Proof. exists M1d, [zq 1; zq 2], [[Some (zq 3)]], (zq 9). do 2 eexists. split; [reflexivity|]. split; [reflexivity|]. split; [left; reflexivity|reflexivity]. Qed.
Print Assumptions C198_total_refuted.
(* C199 (refuted): pair counts restored with a correlation function are summed when bins are merged *)
Theorem C199_sums_refuted : exists mode edges data total s r c,
  counted mode edges None None data total = Ok s /\ r_counts r = [Some s] /\ st_sum s = ["npairs"; "wnpairs"]%string /\ r_counts (setstate (getstate r)) = [Some c] /\ st_sum c = [].
Proof.
  exists M1d, [zq 1; zq 2], [[Some (zq 3)]], (zq 9).
  exists {| st_dims := ["r"%string]; st_edges := [[zq 1; zq 2]]; st_data := [[Some (zq 3)]]; st_sum := ["npairs"; "wnpairs"]%string; st_attrs := [("total_wnpairs"%string, zq 9)] |}.
  exists {| r_corr := statistic ["r"%string] [[zq 1; zq 2]] [[Some (zq 1)]] []; r_wp := None;
            r_counts := [Some {| st_dims := ["r"%string]; st_edges := [[zq 1; zq 2]]; st_data := [[Some (zq 3)]]; st_sum := ["npairs"; "wnpairs"]%string; st_attrs := [("total_wnpairs"%string, zq 9)] |}] |}.
  eexists. repeat split; reflexivity.
Qed.
Print Assumptions C199_sums_refuted.
