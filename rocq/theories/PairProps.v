(* Pair counting: C17, C36 to C38, C41, C42, C92 to C99. *)
From Verif Require Import Base BaseProofs Num FofModel FofCmModel PairModel PairSpec PairProofs PairBox PairMore.
From Coq Require Import Permutation Ascii.
Local Open Scope Z_scope.

(* C17: adding the results of ranks, in any grouping and order, counts the pairs of all of them *)
Theorem C17_merge : forall n fs rs g, Forall2 (holds_all n) fs rs -> Permutation (leaves g) (seq 0 (length rs)) ->
  exists r, reduce g rs = Ok r /\ holds_all n (fun b => concat (map (fun f => f b) fs)) r /\
    forall g', Permutation (leaves g') (seq 0 (length rs)) -> reduce g' rs = Ok r.
Proof. exact any_grouping. Qed.
Print Assumptions C17_merge.
(* C17: so does counting in chunks on every rank, whether or not progress is shown *)
Theorem C17_call : forall (P : Type) corr n test sep show g (data : list (list (P * Qc) * list (P * Qc))),
  (forall A B, counts n test sep A B (corr A B)) -> Permutation (leaves g) (seq 0 (length data)) ->
  exists out, corr_call (P * Qc) corr g show data = Ok out /\ length out = n /\
    forall b, (b < n)%nat -> exists o, nth_error out b = Some o /\ reports (concat (map (fun d => pairs_in (test b) sep (fst d) (snd d)) data)) o.
Proof. exact @corr_call_ok. Qed.
Print Assumptions C17_call.
Definition ex_res (l : list (Qc * Qc)) : pc_bin := {| pb_n := zlen l; pb_sep := mean0 (map fst l); pb_w := mean0 (map snd l) |}.
Definition ex_lists : list (nat -> list (Qc * Qc)) :=
  [fun _ => [(q 1 1, q 2 1)]; fun b => if Nat.eqb b 0 then [(q 2 1, q 1 1); (q 4 1, q 1 1)] else []; fun _ => [(q 3 1, q 5 1)]].
Example C17_merge_ex :
  Forall2 (holds_all 2) ex_lists (map (fun f => [ex_res (f 0%nat); ex_res (f 1%nat)]) ex_lists) /\
  Permutation (leaves (GPlus (GRank 2) (GPlus (GRank 0) (GRank 1)))) (seq 0 3) /\
  match reduce (GPlus (GRank 2) (GPlus (GRank 0) (GRank 1))) (map (fun f => [ex_res (f 0%nat); ex_res (f 1%nat)]) ex_lists) with
  | Ok [a; b] => pb_n a = 4 /\ pb_n b = 2 /\ (this (pb_sep a) = 5 # 2)%Q /\ (this (pb_w b) = 7 # 2)%Q
  | _ => False
  end.
Proof.
  split; [|split].
  - unfold ex_lists. repeat constructor; intros [|[|b]] Hb; try lia; eexists; (split; [reflexivity|]); repeat split.
  - cbn. apply perm_trans with [0; 2; 1]%nat; [apply perm_swap|]. apply perm_skip, perm_swap.
  - vm_compute. repeat split.
Qed.
Example C17_call_ex : (forall A B, counts 2 (fun b p r => bin_test M1d ex_edges None 1 (fun _ _ => true) b (near2 true (cube (coord ex_L 0)) p r)) (fun p r => ex_sepf (near2 true (cube (coord ex_L 0)) p r)) A B (ex_corr A B)) /\
  match corr_call obj ex_corr (GPlus (GRank 1) (GRank 0)) true (map (fun l => (l, concat ex_first)) ex_first) with
  | Ok out => map o_n out = [2; 2] /\ map (fun o => this (o_w o)) out = [12 # 1; 4 # 1]%Q
  | Err _ => False
  end.
Proof. split; [intros A B; apply ref_corr_counts|]. vm_compute. split; reflexivity. Qed.

(* C37: the counts over all ranks are those of the whole catalogs *)
Theorem C37_pairs : forall size targets sqrt corr g mode edges Nmu pimax n2 aux sepf los axis periodic show L first second sep2,
  sqrt_contract sqrt -> domain_contract size targets periodic L -> corr_contract corr mode edges pimax n2 aux sepf periodic (coord L 0) ->
  good_args mode edges Nmu pimax periodic L -> Permutation (leaves g) (seq 0 size) -> los_names los axis ->
  (forall i p q, (i < 3)%nat -> axis_sep2 periodic (coord L i) (coord p i) (coord q i) (sep2 i p q)) ->
  exists out, simbox_pairs size targets sqrt corr g mode edges Nmu pimax los periodic show L first second = Ok out /\
    length out = n_bins mode edges n2 /\
    forall b, (b < n_bins mode edges n2)%nat -> exists o, nth_error out b = Some o /\
      reports (pairs_in (fun p q => bin_test mode edges pimax n2 aux b (sep_of axis sep2 p q)) (fun p q => sepf (sep_of axis sep2 p q))
        (concat first) (concat (match second with Some s => s | None => first end))) o.
Proof.
  intros size targets sqrt corr g mode edges Nmu pimax n2 aux sepf los axis periodic show L first second sep2 H1 H2 H3 H4 H5 H6 H7.
  apply simbox_ok; try assumption. apply los_accepts, H6.
Qed.
Print Assumptions C37_pairs.
Example C37_pairs_ex : sqrt_contract ex_sqrt /\ domain_contract 2 ex_targets true ex_L /\
  corr_contract ex_corr M1d ex_edges None 1 (fun _ _ => true) ex_sepf true (coord ex_L 0) /\ good_args M1d ex_edges None None true ex_L /\
  Permutation (leaves (GPlus (GRank 0) (GRank 1))) (seq 0 2) /\ los_names (LosStr ["z"%char]) 2 /\
  (forall i p r, (i < 3)%nat -> axis_sep2 true (coord ex_L i) (coord p i) (coord r i) (ex_sep2 true ex_L i p r)) /\
  match simbox_pairs 2 ex_targets ex_sqrt ex_corr (GPlus (GRank 0) (GRank 1)) M1d ex_edges None None (LosStr ["z"%char]) true false ex_L ex_first None with
  | Ok out => map o_n out = [2; 2] /\ map (fun o => this (o_w o)) out = [12 # 1; 4 # 1]%Q
  | Err _ => False
  end.
Proof.
  split; [exact ex_sqrt_ok|]. split; [exact ex_domains|]. split; [intros A B; apply ref_corr_counts|]. split; [exact ex_good|]. split; [apply Permutation_refl|]. split; [reflexivity|].
  split; [apply ex_sep2_ok; intros _ i Hi; assert (i = 0 \/ i = 1 \/ i = 2)%nat as [-> | [-> | ->]] by lia; reflexivity|]. vm_compute. split; reflexivity.
Qed.

(* C38: three factors of s, the first two the largest divisors not above the roots plus one *)
Theorem C38_factors : forall root3 root2 s, (forall x, 1 <= x -> 0 <= root3 x) -> (forall x, 1 <= x -> 0 <= root2 x) -> 1 <= s ->
  exists a b c, split_size_3d root3 root2 s = Ok (a, b, c) /\ 1 <= a /\ 1 <= b /\ 1 <= c /\ a * b * c = s /\
    (a <= root3 s + 1 /\ forall e, 1 <= e -> e <= root3 s + 1 -> s mod e = 0 -> e <= a) /\
    (b <= root2 (b * c) + 1 /\ forall e, 1 <= e -> e <= root2 (b * c) + 1 -> (b * c) mod e = 0 -> e <= b).
Proof. exact split_size_ok. Qed.
Print Assumptions C38_factors.
Example C38_factors_ex : split_size_3d (fun _ => 2) Z.sqrt 12 = Ok (3, 2, 2) /\ split_size_3d (fun _ => 3) Z.sqrt 35 = Ok (1, 5, 7).
Proof. split; vm_compute; reflexivity. Qed.
(* C92: the factors are not in order *)
Theorem C92_order_refuted : exists s, 1 <= s /\ forall root3 root2, root3 s = 1 -> root2 1 = 1 ->
  exists a b c, split_size_3d root3 root2 s = Ok (a, b, c) /\ ~ (a <= b /\ b <= c).
Proof.
  exists 2. split; [lia|]. intros root3 root2 H3 H2. exists 2, 1, 1. split; [|lia]. unfold split_size_3d. rewrite H3. cbn [Z.add Pos.add Z.to_nat Pos.to_nat Pos.iter_op]. vm_compute (div_loop _ 2 2).
  cbn [rbind]. rewrite H2. vm_compute. reflexivity.
Qed.
Print Assumptions C92_order_refuted.

(* C41: integers, other numbers and one-letter strings are accepted exactly when they name an axis *)
Theorem C41_los : forall los axis, (forall s, los = LosStr s -> length s = 1%nat) -> check_los los = Ok axis <-> los_names los axis.
Proof. intros los axis L. split; [intros H; apply los_only; assumption|apply los_accepts]. Qed.
Print Assumptions C41_los.
(* C41: and the columns are ordered with that axis last *)
Theorem C41_axes : forall los axis, check_los los = Ok axis -> Permutation (axes_order axis) [0; 1; 2]%nat /\ nth_error (axes_order axis) 2 = Some axis.
Proof. intros los axis H. apply axes_order_ok. apply los_lt3 with los, H. Qed.
Print Assumptions C41_axes.
Example C41_los_ex : los_names (LosInt (-2)) 1 /\ check_los (LosInt (-2)) = Ok 1%nat /\ check_los (LosInt 3) = Err ValueError /\
  check_los (LosStr ["y"%char]) = Ok 1%nat /\ check_los (LosStr ["w"%char]) = Err ValueError /\ axes_order 1 = [0; 2; 1]%nat.
Proof. split; [split; lia|]. repeat split; reflexivity. Qed.
(* C93: other strings are accepted *)
Theorem C93_los_refuted : (exists s axis, check_los (LosStr s) = Ok axis /\ length s <> 1%nat) /\ check_los (LosStr []) = Ok 0%nat /\ check_los (LosStr ["y"; "z"]%char) = Ok 1%nat.
Proof. split; [exists ["x"; "y"]%char, 0%nat; split; [reflexivity|discriminate]|]. split; reflexivity. Qed.
Print Assumptions C93_los_refuted.

(* C42 *)
Theorem C42_shift : forall pos L,
  (inside (fun _ => 0%Qc) (coord L) pos -> exists out, shift_to_box_center pos L = Ok out /\ shifted L pos out) /\
  (~ inside (fun _ => 0%Qc) (coord L) pos -> inside (fun i => - half * coord L i)%Qc (fun i => half * coord L i)%Qc pos -> shift_to_box_center pos L = Ok pos) /\
  (~ inside (fun _ => 0%Qc) (coord L) pos -> ~ inside (fun i => - half * coord L i)%Qc (fun i => half * coord L i)%Qc pos -> shift_to_box_center pos L = Err ValueError).
Proof. exact shift_ok. Qed.
Print Assumptions C42_shift.
Definition v (a b c : Z) : v3 := (q a 1, q b 1, q c 1).
Example C42_shift_ex : match shift_to_box_center [v 1 7 4; v 2 2 2] (v 8 8 8) with Ok [a; b] => a = v (-3) 3 0 /\ b = v (-2) (-2) (-2) | _ => False end /\
  match shift_to_box_center [v (-1) 3 2] (v 8 8 8) with Ok [p] => p = v (-1) 3 2 | _ => False end /\
  match shift_to_box_center [v (-1) 5 2] (v 8 8 8) with Err ValueError => True | _ => False end.
Proof.
  split; [vm_compute; split; repeat f_equal; apply Qc_is_canon; reflexivity|].
  split; [vm_compute; reflexivity|vm_compute; exact I].
Qed.
(* C94: positions on the boundary of the box are refused *)
Theorem C94_closed_refuted : exists pos L, (forall p i, In p pos -> (i < 3)%nat -> (0 <= coord p i /\ coord p i <= coord L i)%Qc) /\ shift_to_box_center pos L = Err ValueError.
Proof.
  exists [v 0 7 4], (v 8 8 8). split.
  - intros p i [<-|[]] Hi. assert (i = 0 \/ i = 1 \/ i = 2)%nat as [-> | [-> | ->]] by lia; split; vm_compute; intros H; discriminate H.
  - destruct (shift_ok [v 0 7 4] (v 8 8 8)) as (_ & _ & H). apply H; intros G.
    + destruct (G (v 0 7 4) 0%nat (or_introl eq_refl) ltac:(lia)) as [A _]. vm_compute in A. discriminate A.
    + destruct (G (v 0 7 4) 1%nat (or_introl eq_refl) ltac:(lia)) as [_ A]. vm_compute in A. discriminate A.
Qed.
Print Assumptions C94_closed_refuted.
(* C95: positions around the center are moved when all coordinates happen to be positive *)
Theorem C95_centered_refuted : exists pos L out, inside (fun i => - half * coord L i)%Qc (fun i => half * coord L i)%Qc pos /\ shift_to_box_center pos L = Ok out /\ out <> pos.
Proof.
  destruct (proj1 (shift_ok [v 1 2 3] (v 8 8 8))) as (out & E & SH).
  { intros p i [<-|[]] Hi. assert (i = 0 \/ i = 1 \/ i = 2)%nat as [-> | [-> | ->]] by lia; split; vm_compute; reflexivity. }
  exists [v 1 2 3], (v 8 8 8), out. split; [|split; [exact E|]].
  - intros p i [<-|[]] Hi. assert (i = 0 \/ i = 1 \/ i = 2)%nat as [-> | [-> | ->]] by lia; split; vm_compute; reflexivity.
  - intros ->. inversion SH as [|? ? ? ? H _]; subst. specialize (H 0%nat ltac:(lia)). apply (f_equal (fun x => Qnum (this x))) in H. vm_compute in H. discriminate H.
Qed.
Print Assumptions C95_centered_refuted.

(* C96: the normalisation is the weight of all unordered pairs *)
Theorem C96_total_auto : forall w, total_auto w = qsum (map (fun ab => fst ab * snd ab)%Qc (upairs (concat w))).
Proof. exact total_auto_ok. Qed.
Print Assumptions C96_total_auto.
Theorem C96_total_cross : forall w1 w2, total_cross w1 w2 = (half * qsum (map (fun ab => fst ab * snd ab)%Qc (list_prod (concat w1) (concat w2))))%Qc.
Proof. exact total_cross_ok. Qed.
Print Assumptions C96_total_cross.
(* C96: an auto-correlation counts every unordered pair twice *)
Theorem C96_twice : forall (P : Type) (test : P -> P -> bool) (A : list (P * Qc)), (forall a b, test a b = test b a) -> (forall a, test a a = false) ->
  qsum (map snd (pairs_in test (fun _ _ => 0%Qc) A A)) =
  (zq 2 * qsum (map (fun ab => snd (fst ab) * snd (snd ab))%Qc (filter (fun ab => test (fst (fst ab)) (fst (snd ab))) (upairs A))))%Qc.
Proof. exact @auto_twice. Qed.
Print Assumptions C96_twice.
Example C96_ex : this (total_auto [[q 1 1; q 2 1]; []; [q 3 1]]) = (11 # 1)%Q /\ this (total_cross [[q 1 1; q 2 1]] [[q 3 1]; [q 5 1]]) = (12 # 1)%Q /\
  this (qsum (map snd (pairs_in (fun a b => negb (Z.eqb a b)) (fun _ _ => 0%Qc) [(1, q 1 1); (2, q 2 1); (3, q 3 1)] [(1, q 1 1); (2, q 2 1); (3, q 3 1)]))) = (22 # 1)%Q.
Proof. vm_compute. repeat split. Qed.

(* C97: the Landy-Szalay estimate does not depend on the scale of the weights *)
Theorem C97_scale : forall (P : Type) test sep (D R : list (list (P * Qc))) a b, a <> 0%Qc -> b <> 0%Qc ->
  total_auto (map (map snd) D) <> 0%Qc -> total_cross (map (map snd) D) (map (map snd) R) <> 0%Qc -> wn (pairs_in test sep (concat R) (concat R)) <> 0%Qc ->
  ls_auto test sep (map (scale_weights a) D) (map (scale_weights b) R) = ls_auto test sep D R.
Proof. exact @ls_auto_scale. Qed.
Print Assumptions C97_scale.
(* C97: it is zero when data and randoms have the same fraction of their pairs in the bin, and nan when there are no random pairs *)
Theorem C97_zero : forall tDD tDR tRD tRR DD DR RD n RR f, tDD <> 0%Qc -> tDR <> 0%Qc -> tRD <> 0%Qc -> RR <> 0%Qc ->
  DD = (f * tDD)%Qc -> DR = (f * tDR)%Qc -> RD = (f * tRD)%Qc -> RR = (f * tRR)%Qc -> 0 < n -> landy_szalay tDD tDR tRD tRR DD DR RD n RR = Some 0%Qc.
Proof. exact ls_zero. Qed.
Print Assumptions C97_zero.
Theorem C97_nan : forall (P : Type) (test : P -> P -> bool) sep (D R : list (list (P * Qc))),
  ls_auto test sep D R = None <-> forall a b, In a (concat R) -> In b (concat R) -> test (fst a) (fst b) = false.
Proof. exact @ls_auto_nan. Qed.
Print Assumptions C97_nan.
Definition ex_D : list (list (Z * Qc)) := [[(1, q 1 1); (2, q 2 1)]; [(4, q 1 1)]].
Definition ex_R : list (list (Z * Qc)) := [[(1, q 1 1); (3, q 1 1)]; [(4, q 1 1); (5, q 1 1)]].
Definition ex_near (a b : Z) : bool := Z.eqb (Z.abs (a - b)) 1.
Example C97_ex : match ls_auto ex_near (fun _ _ => 0%Qc) ex_D ex_R, ls_auto ex_near (fun _ _ => 0%Qc) (map (scale_weights (q 3 1)) ex_D) (map (scale_weights (q 1 2)) ex_R) with
  | Some x, Some y => this x = (-1 # 20)%Q /\ this y = (-1 # 20)%Q
  | _, _ => False
  end.
Proof. vm_compute. split; reflexivity. Qed.
Example C97_nan_ex : ls_auto ex_near (fun _ _ => 0%Qc) ex_D [[(1, q 1 1)]; [(3, q 1 1)]] = None.
Proof. vm_compute. reflexivity. Qed.

(* C36: the natural estimate vanishes for the mean counts of two unclustered samples *)
Theorem C36_natural : forall N1 N2 f, 0 < N1 -> 0 < N2 -> f <> 0%Qc -> natural N1 (Some N2) f (zq N1 * zq N2 * half) (zq N1 * zq N2 * f) = 0%Qc.
Proof. exact natural_cross. Qed.
Print Assumptions C36_natural.
Example C36_natural_ex : this (natural 10 (Some 20) (q 1 5) (zq 10 * zq 20 * half) (zq 10 * zq 20 * q 1 5))%Qc = (0 # 1)%Q.
Proof. vm_compute. reflexivity. Qed.
(* C98: for one sample of N it is -1/N *)
Theorem C98_natural_refuted : exists N f, 1 < N /\ (0 < f)%Qc /\
  let total := (half * (zq N * zq N - zq N))%Qc in total = qsum (map (fun _ => 1%Qc) (upairs (repeat 1%Qc (Z.to_nat N)))) /\
  natural N None f total (zq N * (zq N - 1) * f) = (- (1 / zq N))%Qc /\ (- (1 / zq N) <> 0)%Qc.
Proof.
  exists 5, (q 1 5). split; [lia|]. split; [reflexivity|]. cbv zeta. split; [apply Qc_is_canon; vm_compute; reflexivity|]. split; [apply natural_auto; [lia|]|]; intros H; apply (f_equal (fun x => Qnum (this x))) in H; vm_compute in H; discriminate H.
Qed.
Print Assumptions C98_natural_refuted.
