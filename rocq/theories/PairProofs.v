(* Proofs about the pair counters, except for the decomposition. *)
From Verif Require Import Base BaseProofs Num BatchModel BatchProofs FofModel FofCmModel FofGroups PairModel PairSpec.
From Coq Require Import Permutation Ascii.
Local Open Scope Z_scope.

(* ---------------- split_size_3d ---------------- *)
Lemma div_loop_ok : forall fuel a s, 1 <= a -> (Z.to_nat a <= fuel)%nat -> 1 <= s -> exists d q, div_loop fuel a s = Ok (d, q) /\
  1 <= d /\ d <= a /\ 1 <= q /\ d * q = s /\ forall e, 1 <= e -> e <= a -> s mod e = 0 -> e <= d.
Proof.
  induction fuel as [|fuel IH]; intros a s Ha Hf Hs; [lia|]. cbn [div_loop]. destruct (1 <? a) eqn:E1.
  - destruct (s mod a =? 0) eqn:E2.
    + exists a, (s / a). assert (a * (s / a) = s) as EQ. { apply Z.eqb_eq in E2. pose proof (Z.div_mod s a). lia. }
      split; [reflexivity|]. repeat split; try lia; nia.
    + destruct (IH (a - 1) s) as (d & q & E & A & B & C & D & M); try lia. exists d, q. split; [exact E|]. repeat split; try lia.
      intros e He1 He2 He3. destruct (Z.eq_dec e a) as [->|]; [lia|]. apply M; lia.
  - exists a, s. assert (a = 1) as -> by lia. repeat split; lia.
Qed.
Lemma split_size_ok root3 root2 s : (forall x, 1 <= x -> 0 <= root3 x) -> (forall x, 1 <= x -> 0 <= root2 x) -> 1 <= s ->
  exists a b c, split_size_3d root3 root2 s = Ok (a, b, c) /\ 1 <= a /\ 1 <= b /\ 1 <= c /\ a * b * c = s /\
    (a <= root3 s + 1 /\ forall e, 1 <= e -> e <= root3 s + 1 -> s mod e = 0 -> e <= a) /\
    (b <= root2 (b * c) + 1 /\ forall e, 1 <= e -> e <= root2 (b * c) + 1 -> (b * c) mod e = 0 -> e <= b).
Proof.
  intros R3 R2 Hs. unfold split_size_3d. destruct (div_loop_ok (S (Z.to_nat (root3 s + 1))) (root3 s + 1) s) as (a & t & -> & A1 & A2 & T1 & EA & MA); [pose proof (R3 s Hs); lia|lia|lia|].
  cbn [rbind]. destruct (div_loop_ok (S (Z.to_nat (root2 t + 1))) (root2 t + 1) t) as (b & c & -> & B1 & B2 & C1 & EB & MB); [pose proof (R2 t T1); lia|lia|lia|].
  cbn [rbind]. exists a, b, c. split; [reflexivity|]. rewrite EB. repeat split; try lia; try assumption; nia.
Qed.

(* ---------------- line of sight ---------------- *)
Lemma check_los_int z : check_los (LosInt z) = (if (-3 <=? z) && (z <=? 2) then Ok (Z.to_nat (z mod 3)) else Err ValueError).
Proof.
  unfold check_los. cbn [rbind]. destruct (z <? 0) eqn:E.
  - destruct (-3 <=? z) eqn:E2; cbn [andb]; [|replace ((z + 3 =? 0) || (z + 3 =? 1) || (z + 3 =? 2)) with false by lia; reflexivity].
    replace (z <=? 2) with true by lia. replace ((z + 3 =? 0) || (z + 3 =? 1) || (z + 3 =? 2)) with true by lia. do 2 f_equal. lia.
  - replace (-3 <=? z) with true by lia. cbn [andb]. destruct (z <=? 2) eqn:E2.
    + replace ((z =? 0) || (z =? 1) || (z =? 2)) with true by lia. do 2 f_equal. lia.
    + replace ((z =? 0) || (z =? 1) || (z =? 2)) with false by lia. reflexivity.
Qed.
Lemma los_accepts los axis : los_names los axis -> check_los los = Ok axis.
Proof.
  destruct los as [s|z|x]; cbn [los_names].
  - intros H. destruct axis as [|[|[|axis]]]; cbn [nth_error] in H; try (inversion H; subst; reflexivity). destruct axis; discriminate H.
  - intros [A B]. rewrite check_los_int. replace ((-3 <=? z) && (z <=? 2)) with true by lia. f_equal. lia.
  - intros [A ->]. destruct axis as [|[|[|axis]]]; [vm_compute; reflexivity..|lia].
Qed.
Lemma los_only los axis : check_los los = Ok axis -> (forall s, los = LosStr s -> length s = 1%nat) -> los_names los axis.
Proof.
  destruct los as [s|z|x]; cbn [los_names]; intros H L.
  - specialize (L s eq_refl). destruct s as [|c [|]]; try discriminate L. unfold check_los, xyz in H. cbn [str_index is_prefix] in H. rewrite !andb_true_r in H.
    destruct (Ascii.eqb c "x") eqn:Ex; [apply Ascii.eqb_eq in Ex; subst; cbn in H; inversion H; reflexivity|].
    destruct (Ascii.eqb c "y") eqn:Ey; [apply Ascii.eqb_eq in Ey; subst; cbn in H; inversion H; reflexivity|].
    destruct (Ascii.eqb c "z") eqn:Ez; [apply Ascii.eqb_eq in Ez; subst; cbn in H; inversion H; reflexivity|]. cbn in H. discriminate H.
  - rewrite check_los_int in H. destruct ((-3 <=? z) && (z <=? 2)) eqn:E; [|discriminate H]. inversion H; subst. split; lia.
  - unfold check_los in H. cbn [rbind] in H. destruct (Qc_eq_dec x 0) as [->|]; [inversion H; split; [lia|reflexivity]|].
    destruct (Qc_eq_dec x 1) as [->|]; [inversion H; split; [lia|reflexivity]|]. destruct (Qc_eq_dec x (zq 2)) as [->|]; [inversion H; split; [lia|reflexivity]|discriminate H].
Qed.
Lemma los_lt3 los axis : check_los los = Ok axis -> (axis < 3)%nat.
Proof.
  unfold check_los. intros H. set (r := match los with LosStr s => _ | _ => _ end) in H. destruct r as [l|]; [|discriminate H]. cbn [rbind] in H.
  destruct l as [s|z|x]; [discriminate H| |].
  - destruct (z <? 0); [destruct ((z + 3 =? 0) || (z + 3 =? 1) || (z + 3 =? 2)) eqn:E|destruct ((z =? 0) || (z =? 1) || (z =? 2)) eqn:E]; inversion H; lia.
  - destruct (Qc_eq_dec x 0); [inversion H; lia|]. destruct (Qc_eq_dec x 1); [inversion H; lia|]. destruct (Qc_eq_dec x (zq 2)); inversion H; lia.
Qed.
Lemma axes_order_ok los : (los < 3)%nat -> Permutation (axes_order los) [0; 1; 2]%nat /\ nth_error (axes_order los) 2 = Some los.
Proof.
  intros H. assert (los = 0 \/ los = 1 \/ los = 2)%nat as [-> | [-> | ->]] by lia; split; try reflexivity; unfold axes_order; cbn.
  - apply perm_trans with [1; 0; 2]%nat; [apply perm_skip, perm_swap|apply perm_swap].
  - apply perm_skip, perm_swap.
Qed.

(* ---------------- bounds ---------------- *)
Lemma qmax_ge a b : (a <= qmax a b /\ b <= qmax a b)%Qc.
Proof. unfold qmax. destruct (Qclt_le_dec a b); split; qc_lra. Qed.
Lemma qmin_le a b : (qmin a b <= a /\ qmin a b <= b)%Qc.
Proof. unfold qmin. destruct (Qclt_le_dec b a); split; qc_lra. Qed.
Lemma fold_qmax l : forall a, (In (fold_left qmax l a) (a :: l)) /\ forall x, In x (a :: l) -> (x <= fold_left qmax l a)%Qc.
Proof.
  induction l as [|b l IH]; intros a; cbn [fold_left]; [split; [left; reflexivity|intros x [->|[]]; apply Qcle_refl]|].
  destruct (IH (qmax a b)) as [I M]. split.
  - destruct I as [I|I]; [|right; right; exact I]. rewrite <- I. unfold qmax. destruct (Qclt_le_dec a b); [right; left|left]; reflexivity.
  - intros x [<-|[<-|H]]; [apply Qcle_trans with (qmax a b); [apply qmax_ge|apply M; left; reflexivity] ..|]. apply M. right. exact H.
Qed.
Lemma fold_qmin l : forall a, (In (fold_left qmin l a) (a :: l)) /\ forall x, In x (a :: l) -> (fold_left qmin l a <= x)%Qc.
Proof.
  induction l as [|b l IH]; intros a; cbn [fold_left]; [split; [left; reflexivity|intros x [->|[]]; apply Qcle_refl]|].
  destruct (IH (qmin a b)) as [I M]. split.
  - destruct I as [I|I]; [|right; right; exact I]. rewrite <- I. unfold qmin. destruct (Qclt_le_dec b a); [right; left|left]; reflexivity.
  - intros x [<-|[<-|H]]; [apply Qcle_trans with (qmin a b); [apply M; left; reflexivity|apply qmin_le] ..|]. apply M. right. exact H.
Qed.
Lemma qgt_iff a b : qgt a b = true <-> (b < a)%Qc.
Proof. unfold qgt. destruct (Qclt_le_dec b a) as [H|H]; split; intros; try reflexivity; try assumption; try discriminate. exfalso. apply (Qclt_not_le _ _ H0 H). Qed.
Lemma all_gt_iff i pos x : all_gt i pos x = true <-> forall p, In p pos -> (x < coord p i)%Qc.
Proof.
  unfold all_gt. destruct (map (fun p => coord p i) pos) as [|a l] eqn:E.
  - destruct pos; [|discriminate E]. split; [intros _ p []|reflexivity].
  - assert (forall p, In p pos -> In (coord p i) (a :: l)) as I by (intros p Hp; rewrite <- E; apply (in_map (fun p => coord p i)), Hp).
    destruct (fold_qmin l a) as [J M]. destruct (Qclt_le_dec x (fold_left qmin l a)) as [H|H]; split; intros G; try reflexivity; try discriminate.
    + intros p Hp. apply Qclt_le_trans with (fold_left qmin l a); [exact H|apply M, I, Hp].
    + exfalso. rewrite <- E in J. apply in_map_iff in J as (p & Ep & Hp). apply (Qclt_not_le _ _ (G p Hp)). rewrite Ep. exact H.
Qed.
Lemma all_lt_iff i pos x : all_lt i pos x = true <-> forall p, In p pos -> (coord p i < x)%Qc.
Proof.
  unfold all_lt. destruct (map (fun p => coord p i) pos) as [|a l] eqn:E.
  - destruct pos; [|discriminate E]. split; [intros _ p []|reflexivity].
  - assert (forall p, In p pos -> In (coord p i) (a :: l)) as I by (intros p Hp; rewrite <- E; apply (in_map (fun p => coord p i)), Hp).
    destruct (fold_qmax l a) as [J M]. destruct (Qclt_le_dec (fold_left qmax l a) x) as [H|H]; split; intros G; try reflexivity; try discriminate.
    + intros p Hp. apply Qcle_lt_trans with (fold_left qmax l a); [apply M, I, Hp|exact H].
    + exfalso. rewrite <- E in J. apply in_map_iff in J as (p & Ep & Hp). apply (Qclt_not_le _ _ (G p Hp)). rewrite Ep. exact H.
Qed.
Lemma all_axes_iff f : all_axes f = true <-> forall i, (i < 3)%nat -> f i = true.
Proof.
  unfold all_axes. rewrite !andb_true_iff. split; [|intros H; repeat split; apply H; lia].
  intros [[A B] C] i Hi. assert (i = 0 \/ i = 1 \/ i = 2)%nat as [-> | [-> | ->]] by lia; assumption.
Qed.
Lemma inside_iff lo hi pos : all_axes (fun i => all_gt i pos (lo i)) && all_axes (fun i => all_lt i pos (hi i)) = true <-> inside lo hi pos.
Proof.
  rewrite andb_true_iff, !all_axes_iff. unfold inside. split.
  - intros [A B] p i Hp Hi. split; [apply (proj1 (all_gt_iff i pos _) (A i Hi) p Hp)|apply (proj1 (all_lt_iff i pos _) (B i Hi) p Hp)].
  - intros H. split; intros i Hi; [apply all_gt_iff|apply all_lt_iff]; intros p Hp; apply (H p i Hp Hi).
Qed.
Lemma shifted_by L pos : shifted L pos (map (fun p => vsub p (vscale half L)) pos).
Proof. unfold shifted. induction pos as [|p pos IH]; cbn [map]; constructor; [|exact IH]. intros i Hi. assert (i = 0 \/ i = 1 \/ i = 2)%nat as [-> | [-> | ->]] by lia; reflexivity. Qed.
Lemma shift_ok pos L :
  (inside (fun _ => 0%Qc) (coord L) pos -> exists out, shift_to_box_center pos L = Ok out /\ shifted L pos out) /\
  (~ inside (fun _ => 0%Qc) (coord L) pos -> inside (fun i => - half * coord L i)%Qc (fun i => half * coord L i)%Qc pos -> shift_to_box_center pos L = Ok pos) /\
  (~ inside (fun _ => 0%Qc) (coord L) pos -> ~ inside (fun i => - half * coord L i)%Qc (fun i => half * coord L i)%Qc pos -> shift_to_box_center pos L = Err ValueError).
Proof.
  unfold shift_to_box_center. rewrite <- (inside_iff (fun _ => 0%Qc) (coord L)), <- (inside_iff (fun i => - half * coord L i)%Qc (fun i => half * coord L i)%Qc). cbv beta.
  destruct (all_axes (fun i => all_gt i pos 0) && all_axes (fun i => all_lt i pos (coord L i))); [split; [intros _; eexists; split; [reflexivity|apply shifted_by]|split; intros H; contradiction H; reflexivity]|].
  destruct (all_axes (fun i => all_gt i pos (- half * coord L i)%Qc) && all_axes (fun i => all_lt i pos (half * coord L i)%Qc)); (split; [intros H; discriminate H|]); split; intros _ H; try reflexivity; try discriminate H. contradiction H; reflexivity.
Qed.

(* ---------------- merging ---------------- *)
Lemma zlen_pos_iff {A} (l : list A) : l = [] \/ 0 < zlen l.
Proof. destruct l; [left; reflexivity|right; rewrite zlen_cons; pose proof (zlen_nonneg l); lia]. Qed.
Lemma zq_zlen_nz {A} (l : list A) : l <> [] -> zq (zlen l) <> 0%Qc.
Proof. intros H E. rewrite <- zq_0 in E. apply zq_inj in E. destruct (zlen_pos_iff l); [contradiction|lia]. Qed.
Lemma mean0_sum l : (mean0 l * zq (zlen l) = qsum l)%Qc.
Proof.
  destruct l as [|x l]; [cbn [mean0]; rewrite qsum_nil; ring|]. unfold mean0. field. apply zq_zlen_nz. discriminate.
Qed.
Lemma mean0_def l : mean0 l = if 0 <? zlen l then (qsum l / zq (zlen l))%Qc else qsum l.
Proof. destruct l as [|x l]; [reflexivity|]. rewrite zlen_cons. pose proof (zlen_nonneg l). replace (0 <? 1 + zlen l) with true by lia. rewrite <- zlen_cons with (x := x). reflexivity. Qed.
Lemma add_col_mean l1 l2 : add_col (zlen l1) (mean0 l1) (zlen l2) (mean0 l2) = mean0 (l1 ++ l2).
Proof. unfold add_col. rewrite !mean0_sum, <- zlen_app, <- qsum_app. symmetry. apply mean0_def. Qed.
Lemma add_bin_holds l1 l2 a b : holds l1 a -> holds l2 b -> holds (l1 ++ l2) (add_bin a b).
Proof.
  intros (N1 & S1 & W1) (N2 & S2 & W2). unfold holds, add_bin. cbn [pb_n pb_sep pb_w]. rewrite N1, N2, S1, S2, W1, W2, !map_app, zlen_app. split; [reflexivity|].
  split; [rewrite <- (zlen_map fst l1), <- (zlen_map fst l2)|rewrite <- (zlen_map snd l1), <- (zlen_map snd l2)]; apply add_col_mean.
Qed.
Lemma zlen_perm {A} (l l' : list A) : Permutation l l' -> zlen l = zlen l'.
Proof. intros H. unfold zlen. rewrite (Permutation_length H). reflexivity. Qed.
Lemma mean0_perm l l' : Permutation l l' -> mean0 l = mean0 l'.
Proof. intros H. rewrite !mean0_def, (zlen_perm _ _ H), (qsum_perm _ _ H). reflexivity. Qed.
Lemma holds_perm l l' x : Permutation l l' -> holds l x -> holds l' x.
Proof.
  intros H (N & S1 & W). unfold holds. rewrite N, S1, W, (zlen_perm _ _ H), (mean0_perm _ _ (Permutation_map fst H)), (mean0_perm _ _ (Permutation_map snd H)). repeat split.
Qed.
Lemma holds_unique l x y : holds l x -> holds l y -> x = y.
Proof. destruct x as [n1 s1 w1], y as [n2 s2 w2]. intros (A & B & C) (D & E & F). cbn [pb_n pb_sep pb_w] in *. subst. reflexivity. Qed.
Lemma finish_reports l x : holds l x -> reports l (finish_bin x).
Proof.
  intros (N & S1 & W). unfold reports, finish_bin. cbn [o_n o_sep o_w]. rewrite N, S1, W. repeat split.
  destruct l as [|p l]; [reflexivity|]. rewrite zlen_cons at 1. pose proof (zlen_nonneg l). replace (1 + zlen l =? 0) with false by lia. rewrite <- (zlen_map snd (p :: l)). apply mean0_sum.
Qed.
Lemma reports_perm l l' x : Permutation l l' -> reports l x -> reports l' x.
Proof. intros H (N & S1 & W). unfold reports. rewrite N, S1, W, (zlen_perm _ _ H), (mean0_perm _ _ (Permutation_map fst H)), (qsum_perm _ _ (Permutation_map snd H)). repeat split. Qed.

Lemma add_result_holds n f g a b : holds_all n f a -> holds_all n g b -> holds_all n (fun i => f i ++ g i) (add_result a b).
Proof.
  intros [La Ha] [Lb Hb]. split.
  - unfold add_result, zipr. rewrite map_length, combine_length, La, Lb. lia.
  - intros i Hi. destruct (Ha i Hi) as (x & Ex & Hx). destruct (Hb i Hi) as (y & Ey & Hy). exists (add_bin x y). split; [|apply add_bin_holds; assumption].
    unfold add_result. rewrite zipr_nth, Ex, Ey. reflexivity.
Qed.
Lemma holds_all_perm n f g r : (forall b, (b < n)%nat -> Permutation (f b) (g b)) -> holds_all n f r -> holds_all n g r.
Proof. intros H [L A]. split; [exact L|]. intros b Hb. destruct (A b Hb) as (x & Ex & Hx). exists x. split; [exact Ex|]. apply holds_perm with (f b); auto. Qed.
Lemma fold_add_holds n : forall rs fs f r, holds_all n f r -> Forall2 (holds_all n) fs rs -> holds_all n (fun b => f b ++ flat_map (fun g => g b) fs) (fold_left add_result rs r).
Proof.
  intros rs fs f r H F. revert f r H. induction F as [|g r' fs rs Hg F IH]; intros f r H; cbn [fold_left flat_map].
  - apply holds_all_perm with f; [intros; rewrite app_nil_r; reflexivity|exact H].
  - apply holds_all_perm with (fun b => (f b ++ g b) ++ flat_map (fun g => g b) fs); [intros; rewrite app_assoc; reflexivity|]. apply IH, add_result_holds; assumption.
Qed.
Lemma reduce_holds n g : forall fs rs, Forall2 (holds_all n) fs rs -> Forall (fun r => (r < length rs)%nat) (leaves g) ->
  exists r, reduce g rs = Ok r /\ holds_all n (fun b => flat_map (fun k => nth k (map (fun f => f b) fs) []) (leaves g)) r.
Proof.
  induction g as [k|a IHa c IHc]; intros fs rs F H; cbn [leaves reduce] in *.
  - inversion H as [|? ? Hk _]; subst. destruct (nth_error rs k) as [r|] eqn:E; [|apply nth_error_None in E; lia]. exists r. split; [reflexivity|].
    assert (exists f, nth_error fs k = Some f /\ holds_all n f r) as (f & Ef & Hf).
    { clear H Hk. revert k E. induction F as [|f r' fs rs Hf F IH]; intros k E; [destruct k; discriminate E|]. destruct k; cbn [nth_error] in *; [inversion E; subst; exists f; split; [reflexivity|exact Hf]|apply IH, E]. }
    apply holds_all_perm with f; [|exact Hf]. intros b _. cbn [flat_map]. rewrite app_nil_r. rewrite (nth_error_nth _ _ [] (map_nth_error (fun f => f b) _ _ Ef)). reflexivity.
  - apply Forall_app in H as [H1 H2]. destruct (IHa fs rs F H1) as (x & -> & Hx). destruct (IHc fs rs F H2) as (y & -> & Hy). cbn [rbind]. exists (add_result x y). split; [reflexivity|].
    apply holds_all_perm with (fun b => flat_map (fun k => nth k (map (fun f => f b) fs) []) (leaves a) ++ flat_map (fun k => nth k (map (fun f => f b) fs) []) (leaves c)).
    + intros b _. rewrite flat_map_app. reflexivity.
    + apply add_result_holds; assumption.
Qed.
Lemma flat_map_nth {A} (ls : list (list A)) : flat_map (fun k => nth k ls []) (seq 0 (length ls)) = concat ls.
Proof.
  induction ls as [|l ls IH]; [reflexivity|]. cbn [length seq flat_map nth concat]. f_equal. rewrite <- IH. rewrite <- seq_shift, !flat_map_concat_map, map_map. reflexivity.
Qed.
Lemma flat_map_perm {A B} (f : A -> list B) l l' : Permutation l l' -> Permutation (flat_map f l) (flat_map f l').
Proof. intros H. rewrite !flat_map_concat_map. induction H; cbn [map concat]; [reflexivity|apply Permutation_app_head; assumption| |etransitivity; eassumption]. rewrite !app_assoc. apply Permutation_app_tail, Permutation_app_comm. Qed.
Lemma reduce_all n g fs rs : Forall2 (holds_all n) fs rs -> Permutation (leaves g) (seq 0 (length rs)) ->
  exists r, reduce g rs = Ok r /\ holds_all n (fun b => concat (map (fun f => f b) fs)) r.
Proof.
  intros F P. destruct (reduce_holds n g fs rs F) as (r & E & H).
  - apply Forall_forall. intros k Hk. apply (Permutation_in _ P), in_seq in Hk. lia.
  - exists r. split; [exact E|]. apply holds_all_perm with (2 := H). intros b _. rewrite <- (flat_map_nth (map (fun f => f b) fs)). rewrite map_length.
    assert (length fs = length rs) as -> by (clear -F; induction F; cbn; congruence). apply flat_map_perm, P.
Qed.

(* ---------------- chunks ---------------- *)
Lemma list_prod_app {A B} (a a' : list A) (b : list B) : list_prod (a ++ a') b = list_prod a b ++ list_prod a' b.
Proof. induction a as [|x a IH]; [reflexivity|]. cbn [app list_prod]. rewrite IH, app_assoc. reflexivity. Qed.
Lemma filter_app' {A} (f : A -> bool) a b : filter f (a ++ b) = filter f a ++ filter f b.
Proof. apply filter_app. Qed.
Lemma pairs_in_app {P} test sep (A A' B : list (P * Qc)) : pairs_in test sep (A ++ A') B = pairs_in test sep A B ++ pairs_in test sep A' B.
Proof. unfold pairs_in. rewrite list_prod_app, filter_app', map_app. reflexivity. Qed.
Lemma pairs_in_concat {P} test sep (As : list (list (P * Qc))) B : pairs_in test sep (concat As) B = flat_map (fun A => pairs_in test sep A B) As.
Proof. induction As as [|A As IH]; [reflexivity|]. cbn [concat flat_map]. rewrite pairs_in_app, IH. reflexivity. Qed.
Lemma run_rank_ok {P} corr n test sep show (pos1 pos2 : list (P * Qc)) : (forall A B, counts n test sep A B (corr A B)) ->
  exists r, run_rank (P * Qc) corr show pos1 pos2 = Ok r /\ holds_all n (fun b => pairs_in (test b) sep pos1 pos2) r.
Proof.
  intros C. unfold run_rank. set (k := chunks_of show). assert (1 <= k)%nat as K by (unfold k, chunks_of; destruct show; lia).
  pose proof (array_split_concat pos1 k K) as E. destruct (array_split pos1 k) as [|c cs] eqn:Ec.
  - exfalso. unfold array_split in Ec. destruct k; [lia|]. discriminate Ec.
  - cbn [map]. eexists. split; [reflexivity|]. 
    apply holds_all_perm with (fun b => pairs_in (test b) sep c pos2 ++ flat_map (fun g => g b) (map (fun c b => pairs_in (test b) sep c pos2) cs)).
    + intros b _. rewrite <- E. cbn [concat]. rewrite pairs_in_app, pairs_in_concat. rewrite !flat_map_concat_map, map_map. reflexivity.
    + apply fold_add_holds; [apply C|]. clear -C. induction cs as [|c cs IH]; constructor; [apply C|exact IH].
Qed.
Lemma corr_call_ok {P} corr n test sep show g (data : list (list (P * Qc) * list (P * Qc))) :
  (forall A B, counts n test sep A B (corr A B)) -> Permutation (leaves g) (seq 0 (length data)) ->
  exists out, corr_call (P * Qc) corr g show data = Ok out /\ length out = n /\
    forall b, (b < n)%nat -> exists o, nth_error out b = Some o /\ reports (concat (map (fun d => pairs_in (test b) sep (fst d) (snd d)) data)) o.
Proof.
  intros C Pg. unfold corr_call.
  assert (exists rs, rall (map (fun d => run_rank (P * Qc) corr show (fst d) (snd d)) data) = Ok rs /\
    Forall2 (holds_all n) (map (fun d b => pairs_in (test b) sep (fst d) (snd d)) data) rs) as (rs & -> & F).
  { clear Pg. induction data as [|d data (rs & E & F)]; [exists []; split; [reflexivity|constructor]|]. destruct (run_rank_ok corr n test sep show (fst d) (snd d) C) as (r & Er & Hr).
    exists (r :: rs). split; [|constructor; assumption]. cbn [map rall]. rewrite Er. cbn [rbind]. rewrite E. reflexivity. }
  cbn [rbind]. destruct (reduce_all n g _ rs F) as (r & -> & Hr).
  { assert (length rs = length data) as -> by (rewrite <- (map_length (fun d b => pairs_in (test b) sep (fst d) (snd d)) data); symmetry; clear -F; induction F; cbn; congruence). exact Pg. }
  cbn [rbind]. exists (map finish_bin r). split; [reflexivity|]. destruct Hr as [Lr Hr]. split; [rewrite map_length; exact Lr|].
  intros b Hb. destruct (Hr b Hb) as (x & Ex & Hx). exists (finish_bin x). split; [rewrite nth_error_map', Ex; reflexivity|]. apply finish_reports. rewrite map_map in Hx. exact Hx.
Qed.

(* ---------------- totals ---------------- *)
Lemma total_auto_ok w : total_auto w = qsum (map (fun ab => fst ab * snd ab)%Qc (upairs (concat w))).
Proof.
  unfold total_auto.
  assert (qsum (map qsum w) = qsum (concat w)) as -> by (rewrite qsum_concat; reflexivity).
  assert (qsum (map (fun l => qsum (map (fun x => x * x)%Qc l)) w) = qsum (map (fun x => x * x)%Qc (concat w))) as ->.
  { rewrite concat_map, qsum_concat, map_map. reflexivity. }
  generalize (concat w) as l. clear w. induction l as [|x l IH]; [cbn [map upairs]; rewrite !qsum_nil; ring|]. cbn [upairs map]. rewrite !qsum_cons, map_app, qsum_app, map_map. cbn [fst snd]. rewrite <- IH.
  rewrite (qsum_map_scale x (fun y => y) l), map_id. unfold half. set (s := qsum l). set (t := qsum (map _ l)). 
  assert (Q2Qc (1 # 2) + Q2Qc (1 # 2) = 1)%Qc as H by (apply Qc_is_canon; reflexivity). set (h := Q2Qc (1 # 2)) in *. clearbody h s t.
  transitivity (h * (s * s - t) + (h + h) * (x * s))%Qc; [ring|]. rewrite H. ring.
Qed.
Lemma total_cross_ok w1 w2 : total_cross w1 w2 = (half * qsum (map (fun ab => fst ab * snd ab)%Qc (list_prod (concat w1) (concat w2))))%Qc.
Proof.
  unfold total_cross. rewrite <- !qsum_concat. generalize (concat w1) as l, (concat w2) as m. intros l m. rewrite <- Qcmult_assoc. f_equal.
  induction l as [|x l IH]; [cbn [list_prod map]; rewrite qsum_nil; ring|]. cbn [list_prod]. rewrite map_app, qsum_app, <- IH, map_map. cbn [fst snd]. rewrite (qsum_map_scale x (fun y => y) m), map_id, qsum_cons. ring.
Qed.
(* the pairs of a set with itself: every unordered pair twice, when the test is symmetric and false for an object and itself *)
Lemma auto_twice {P} (test : P -> P -> bool) (A : list (P * Qc)) : (forall a b, test a b = test b a) -> (forall a, test a a = false) ->
  qsum (map snd (pairs_in test (fun _ _ => 0%Qc) A A)) =
  (zq 2 * qsum (map (fun ab => snd (fst ab) * snd (snd ab))%Qc (filter (fun ab => test (fst (fst ab)) (fst (snd ab))) (upairs A))))%Qc.
Proof.
  intros Sy Ir. unfold pairs_in. rewrite map_map. cbn [snd].
  set (w := fun ab : P * Qc * (P * Qc) => (snd (fst ab) * snd (snd ab))%Qc). set (t := fun ab : P * Qc * (P * Qc) => test (fst (fst ab)) (fst (snd ab))).
  assert (forall l, qsum (map w (filter t l)) = qsum (map (fun ab => if t ab then w ab else 0%Qc) l)) as F.
  { induction l as [|x l IH]; [reflexivity|]. cbn [filter map]. rewrite qsum_cons, <- IH. destruct (t x); [cbn [map]; rewrite qsum_cons; reflexivity|ring]. }
  rewrite !F. set (v := fun ab => if t ab then w ab else 0%Qc).
  assert (forall a b, v (a, b) = v (b, a)) as V1. { intros a b. unfold v, t, w. cbn [fst snd]. rewrite (Sy (fst b) (fst a)). destruct (test (fst a) (fst b)); [ring|reflexivity]. }
  assert (forall a, v (a, a) = 0%Qc) as V2. { intros a. unfold v, t. cbn [fst snd]. rewrite Ir. reflexivity. }
  clearbody v. clear F w t. induction A as [|a A IH]; [cbn [map upairs list_prod]; rewrite !qsum_nil; ring|].
  assert (forall l m, qsum (map v (list_prod l m)) = qsum (map (fun x => qsum (map (fun y => v (x, y)) m)) l)) as LP.
  { intros l m. induction l as [|x l IHl]; [reflexivity|]. cbn [list_prod map]. rewrite map_app, qsum_app, qsum_cons, IHl, map_map. reflexivity. }
  rewrite LP. cbn [map upairs]. rewrite !qsum_cons, map_app, qsum_app, map_map, V2.
  assert (qsum (map (fun x => qsum (v (x, a) :: map (fun y => v (x, y)) A)) A) = qsum (map (fun y => v (a, y)) A) + zq 2 * qsum (map v (upairs A)))%Qc as ->.
  { rewrite <- IH, LP. rewrite <- qsum_map_add. apply qsum_map_ext. intros x _. rewrite qsum_cons, (V1 x a). reflexivity. }
  change (zq 2) with (1 + 1)%Qc. ring.
Qed.
