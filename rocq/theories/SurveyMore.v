(* FKP normalisation, reconstruction, Poisson sampling *)
From Coq Require Import Qround.
From Verif Require Import Base BaseProofs Num SurveyModel SurveySpec SurveyProofs.
Local Open Scope Qc_scope.

(* ---- FKP ---- *)
Lemma selected_total : forall f l, qsum (map f (selected l)) = total f l.
Proof.
  intros f l. unfold selected, total. induction l as [|o l IH]; [reflexivity|]. cbn [filter map]. rewrite qsum_cons, <- IH.
  destruct (o_sel o); [cbn [map]; apply qsum_cons|ring].
Qed.
Lemma total_concat : forall f ranks, total f (concat ranks) = qsum (map (total f) ranks).
Proof. intros f ranks. unfold total. rewrite concat_map, qsum_concat, map_map. reflexivity. Qed.
Lemma allsum_total : forall f ranks, allsum (fun l => qsum (map f (selected l))) ranks = total f (concat ranks).
Proof. intros f ranks. unfold allsum. rewrite total_concat. f_equal. apply map_ext. intros l. apply selected_total. Qed.
Lemma total_scale : forall f c l, total (fun o => f o * c) l = c * total f l.
Proof.
  intros f c l. unfold total. rewrite <- qsum_map_scale. f_equal. apply map_ext. intros o. destruct (o_sel o); ring.
Qed.
Lemma norm_randoms_total : forall alpha ranks, norm_randoms alpha ranks = alpha * total norm_term (concat ranks).
Proof. intros. unfold norm_randoms. rewrite allsum_total. apply total_scale. Qed.
Lemma shot_total : forall alpha (data randoms : list (list obj)), length data = length randoms ->
  qsum (map (fun p => shot_local alpha (fst p) (snd p)) (combine data randoms)) =
  total shot_term (concat data) + alpha * alpha * total shot_term (concat randoms).
Proof.
  intros alpha. induction data as [|d data IH]; intros [|r randoms] Hl; try discriminate.
  - cbn [combine map concat]. unfold total. cbn [map]. rewrite qsum_nil. ring.
  - cbn [combine map fst snd concat]. rewrite qsum_cons, IH by (cbn in Hl; lia). unfold shot_local. rewrite !selected_total.
    assert (Ha : forall f a b, total f (a ++ b) = total f a + total f b) by (intros; unfold total; rewrite map_app, qsum_app; reflexivity).
    rewrite !Ha. ring.
Qed.

Section Fkp.
Context {R : Type} (multipoles : Qc -> list nat -> R).
Lemma first_run : forall poles data randoms r a, length data = length randoms ->
  fkp_run R multipoles poles data randoms fresh = (Ok r, a) ->
  let D := concat data in let N := concat randoms in
  let alpha := total o_comp D / total o_comp N in
  let norm := alpha * total norm_term N in
  a_alpha a = Some alpha /\ a_dnorm a = Some (total norm_term D) /\ a_rnorm a = Some norm /\
  a_shot a = Some ((total shot_term D + alpha * alpha * total shot_term N) / norm) /\
  r = multipoles (if Qclt_le_dec 0 norm then / norm else 1) poles.
Proof.
  intros poles data randoms r a Hl H D N alpha norm. unfold fkp_run in H.
  change (weighted_total randoms) with (allsum (fun l => qsum (map o_comp (selected l))) randoms) in H.
  change (weighted_total data) with (allsum (fun l => qsum (map o_comp (selected l))) data) in H.
  rewrite !allsum_total in H. fold D N in H. fold alpha in H.
  destruct (Qc_eq_dec (total o_comp N) 0); [discriminate|].
  cbn [normalization fresh a_dnorm a_rnorm a_shot a_alpha] in H. unfold norm_data in H. rewrite allsum_total, norm_randoms_total in H.
  fold D N in H. fold norm in H.
  destruct (qltb 0 norm && negb (close5 (total norm_term D) norm)); [discriminate|].
  destruct poles as [|p poles]; [discriminate|]. cbn [shotnoise a_shot a_rnorm] in H.
  unfold shotnoise in H. cbn [a_shot a_rnorm] in H. rewrite shot_total in H by exact Hl. fold D N in H.
  destruct (Qc_eq_dec norm 0); [discriminate|].
  apply pair_equal_spec in H. destruct H as [H1 H2]. subst a. cbn [a_alpha a_dnorm a_rnorm a_shot].
  do 4 (split; [reflexivity|]). assert (r = multipoles (if qltb 0 norm then / norm else 1) (p :: poles)) by congruence. subst r.
  unfold qltb. destruct (Qclt_le_dec 0 norm); reflexivity.
Qed.
Lemma run_shot_some : forall poles data randoms a, a_shot a <> None ->
  (exists e, fst (fkp_run R multipoles poles data randoms a) = Err e) /\ a_shot (snd (fkp_run R multipoles poles data randoms a)) <> None.
Proof.
  intros poles data randoms a Ha. unfold fkp_run. destruct (Qc_eq_dec (weighted_total randoms) 0); [split; [eexists; reflexivity|exact Ha]|].
  set (alpha := weighted_total data / weighted_total randoms).
  assert (Hn : forall s a0, a_shot a0 <> None -> a_shot (snd (normalization a0 s alpha data randoms)) <> None).
  { intros s a0 H0. destruct s; cbn [normalization]; [destruct (a_dnorm a0)|destruct (a_rnorm a0)]; exact H0. }
  set (a1 := {| a_dnorm := a_dnorm a; a_rnorm := a_rnorm a; a_shot := a_shot a; a_alpha := Some alpha |}).
  assert (H1 : a_shot a1 <> None) by exact Ha.
  pose proof (Hn Data a1 H1) as H2. destruct (normalization a1 Data alpha data randoms) as [nd a2]. cbn [snd] in H2.
  pose proof (Hn Randoms a2 H2) as H3. destruct (normalization a2 Randoms alpha data randoms) as [nr a3]. cbn [snd] in H3.
  destruct (qltb 0 nr && negb (close5 nd nr)); [split; [eexists; reflexivity|exact H3]|].
  destruct poles; [split; [eexists; reflexivity|exact H3]|].
  unfold shotnoise. destruct (a_shot a3) eqn:E; [|congruence]. split; [eexists; reflexivity|]. cbn [snd]. congruence.
Qed.
Lemma second_run : forall poles data randoms r a, fkp_run R multipoles poles data randoms fresh = (Ok r, a) ->
  fst (fkp_run R multipoles poles data randoms a) = Err UnboundLocalError.
Proof.
  intros poles data randoms r a H. unfold fkp_run in *. destruct (Qc_eq_dec (weighted_total randoms) 0); [discriminate|].
  set (alpha := weighted_total data / weighted_total randoms) in *.
  cbn [normalization fresh a_dnorm a_rnorm a_shot a_alpha] in H.
  set (nd := norm_data data) in *. set (nr := norm_randoms alpha randoms) in *. clearbody nd nr.
  destruct (qltb 0 nr && negb (close5 nd nr)) eqn:Ec; [discriminate|]. destruct poles as [|p poles]; [discriminate|].
  destruct (shotnoise _ alpha data randoms) as [s|]; [|discriminate].
  apply pair_equal_spec in H. destruct H as [_ <-]. cbn [normalization a_dnorm a_rnorm a_shot a_alpha]. rewrite Ec.
  reflexivity.
Qed.
End Fkp.

Lemma vadd_sum : forall a b, length a = length b -> qsum (vadd a b) = qsum a + qsum b.
Proof.
  induction a as [|x a IH]; intros [|y b] H; try discriminate; [change (vadd [] []) with (@nil Qc); rewrite !qsum_nil; ring|].
  change (vadd (x :: a) (y :: b)) with ((x + y) :: vadd a b). rewrite !qsum_cons, IH by (cbn in H; lia). ring.
Qed.
Lemma sum_scale : forall c l, qsum (map (fun x => x * c) l) = qsum l * c.
Proof. intros c l. induction l as [|x l IH]; cbn [map]; [rewrite !qsum_nil; ring|]. rewrite !qsum_cons, IH. ring. Qed.
Lemma fkp_field_total : forall paint_d paint_r vol data randoms,
  (forall w, qsum (paint_d w) = qsum w) -> (forall w, qsum (paint_r w) = qsum w) ->
  (forall w w', length (paint_d w) = length (paint_r w')) -> vol <> 0 -> concat randoms <> [] ->
  qsum (fkp_field paint_d paint_r vol data randoms) =
  (total (fun o => o_comp o * o_fkp1 o) (concat data)
   - total o_comp (concat data) / total o_comp (concat randoms) * total (fun o => o_comp o * o_fkp1 o) (concat randoms)) / vol.
Proof.
  intros pd pr vol data randoms Hd Hr Hl Hv Hne. unfold fkp_field, weighted_total. rewrite !allsum_total.
  set (alpha := total o_comp (concat data) / total o_comp (concat randoms)).
  destruct (concat randoms) as [|o l] eqn:E; [congruence|]. rewrite <- E.
  rewrite (map_ext (fun x => x / vol) (fun x => x * / vol)) by (intro; reflexivity). rewrite sum_scale.
  rewrite vadd_sum by (rewrite map_length; apply Hl). rewrite Hd.
  rewrite (map_ext (fun x => - (1) * alpha * x) (fun x => x * (- (1) * alpha))) by (intro; ring). rewrite sum_scale, Hr.
  unfold fkp_weights. rewrite !selected_total. unfold Qcdiv. ring.
Qed.
Lemma fkp_field_zero : forall paint_d paint_r vol data randoms c,
  (forall w, qsum (paint_d w) = qsum w) -> (forall w, qsum (paint_r w) = qsum w) ->
  (forall w w', length (paint_d w) = length (paint_r w')) -> vol <> 0 -> total o_comp (concat randoms) <> 0 ->
  (forall o, In o (concat data) \/ In o (concat randoms) -> o_fkp1 o = c) ->
  qsum (fkp_field paint_d paint_r vol data randoms) = 0.
Proof.
  intros pd pr vol data randoms c Hd Hr Hl Hv Hn Hc. rewrite fkp_field_total; try assumption.
  - assert (Ht : forall l, (forall o, In o l -> o_fkp1 o = c) -> total (fun o => o_comp o * o_fkp1 o) l = c * total o_comp l).
    { intros l H. unfold total. rewrite <- qsum_map_scale. apply qsum_map_ext. intros o Ho. rewrite (H o Ho). destruct (o_sel o); ring. }
    rewrite !Ht by (intros o Ho; apply Hc; auto). field. split; assumption.
  - intros E. rewrite E in Hn. apply Hn. reflexivity.
Qed.

(* ---- line of sight ---- *)
Lemma qdiv1 : forall x : Qc, x / 1 = x.
Proof. intros x. field. discriminate. Qed.
Lemma los_unit : forall los, dot los los = 1 -> recon_los los = Ok los.
Proof.
  intros [[a b] c] H. unfold recon_los. rewrite H. destruct (Qc_eq_dec 1 0) as [E|E]; [discriminate|]. rewrite !qdiv1. reflexivity.
Qed.
Lemma qsq_nonneg : forall x : Qc, 0 <= x * x.
Proof.
  intros x. destruct (Qclt_le_dec x 0) as [H|H].
  - replace (x * x) with ((- x) * (- x)) by ring. apply Qclt_le_weak in H. apply qmul_nonneg; qc_lra.
  - apply qmul_nonneg; exact H.
Qed.
Lemma qinv_pos : forall x : Qc, 0 < x -> 0 < / x.
Proof.
  intros x H. destruct (Qclt_le_dec 0 (/ x)) as [G|G]; [exact G|]. exfalso.
  assert (x <> 0) by (intros E; rewrite E in H; exact (Qclt_not_eq _ _ H eq_refl)).
  assert (0 <= x * - / x). { apply qmul_nonneg; [apply Qclt_le_weak; exact H|]. set (y := / x) in *. clearbody y. qc_lra. }
  replace (x * - / x) with (- (1)) in H1 by (field; assumption). revert H1. clear. intros H. qc_lra.
Qed.
Lemma los_direction : forall los v, recon_los los = Ok v -> exists t, 0 < t /\ v = scale t los.
Proof.
  intros [[a b] c] v. unfold recon_los. set (n := dot (a, b, c) (a, b, c)). destruct (Qc_eq_dec n 0) as [E|E]; [discriminate|].
  intros H. assert (v = (a / n, b / n, c / n)) by congruence. exists (/ n). split.
  - apply qinv_pos. assert (Hge : 0 <= n). { unfold n, dot. pose proof (qsq_nonneg a). pose proof (qsq_nonneg b). pose proof (qsq_nonneg c).
      set (x := a * a) in *. set (y := b * b) in *. set (z := c * c) in *. clearbody x y z. clear - H1 H2 H3. qc_lra. }
    destruct (Qcle_lt_or_eq _ _ Hge) as [G|G]; [exact G|]. congruence.
  - subst v. unfold scale, Qcdiv. rewrite (Qcmult_comm a), (Qcmult_comm b), (Qcmult_comm c). reflexivity.
Qed.
Lemma los_zero : forall los, recon_los los = Err AssertionError <-> los = (0, 0, 0).
Proof.
  intros [[a b] c]. unfold recon_los. destruct (Qc_eq_dec (dot (a, b, c) (a, b, c)) 0) as [E|E].
  - split; [|reflexivity]. intros _. unfold dot in E.
    pose proof (qsq_nonneg a) as Ha. pose proof (qsq_nonneg b) as Hb. pose proof (qsq_nonneg c) as Hc.
    assert (Hz : forall x : Qc, x * x = 0 -> x = 0) by (intros x Hx; destruct (Qcmult_integral _ _ Hx); assumption).
    assert (Hx : a * a = 0 /\ b * b = 0 /\ c * c = 0).
    { set (x := a * a) in *. set (y := b * b) in *. set (z := c * c) in *. clearbody x y z. clear - Ha Hb Hc E.
      split; [|split]; apply Qcle_antisym; try assumption; qc_lra. }
    destruct Hx as [H1 [H2 H3]]. rewrite (Hz a H1), (Hz b H2), (Hz c H3). reflexivity.
  - split; [discriminate|]. intros H. exfalso. apply E. inversion H. reflexivity.
Qed.
(* the boost along an axis *)
Lemma boost_axis : forall los f s, In los [(1, 0, 0); (0, 1, 0); (0, 0, 1)] ->
  rsd_boost los f s = vplus s (scale (f * dot s los) los).
Proof.
  intros los f [[x y] z] H. cbn [In] in H.
  destruct H as [<-|[<-|[<-|[]]]]; unfold rsd_boost, vplus, scale, dot; f_equal; try (f_equal; ring); ring.
Qed.

(* ---- chunks ---- *)
Lemma skipn_skipn : forall (A : Type) x y (l : list A), skipn x (skipn y l) = skipn (x + y) l.
Proof.
  intros A x y. induction y as [|y IH]; intros l; [rewrite Nat.add_0_r; reflexivity|].
  replace (x + S y)%nat with (S (x + y)) by lia. destruct l as [|a l]; [rewrite !skipn_nil; reflexivity|]. cbn [skipn]. apply IH.
Qed.
Lemma skipn_map : forall (A B : Type) (f : A -> B) n l, skipn n (map f l) = map f (skipn n l).
Proof. intros A B f n. induction n as [|n IH]; intros [|a l]; try reflexivity. cbn [skipn map]. apply IH. Qed.
Lemma starts_cover : forall (A : Type) (l : list A) c nmax fuel i, (0 < c)%nat -> (length l <= nmax)%nat -> (nmax - i <= fuel)%nat ->
  flat_map (fun j => slice l j c) (starts fuel i nmax c) = skipn i l.
Proof.
  intros A l c nmax fuel. induction fuel as [|f IH]; intros i Hc Hl Hf; cbn [starts].
  - cbn [flat_map]. symmetry. apply skipn_all2. lia.
  - destruct (Nat.ltb_spec i nmax) as [H|H].
    + cbn [flat_map]. rewrite IH by lia. unfold slice. rewrite <- (firstn_skipn c (skipn i l)) at 2. f_equal.
      rewrite skipn_skipn. f_equal. lia.
    + cbn [flat_map]. symmetry. apply skipn_all2. lia.
Qed.
Lemma skipn_combine : forall (A B : Type) (l : list A) (m : list B) n, skipn n (combine l m) = combine (skipn n l) (skipn n m).
Proof.
  intros A B. induction l as [|x l IH]; intros m n.
  - cbn [combine]. rewrite !skipn_nil. reflexivity.
  - destruct m as [|y m]; [cbn [combine]; rewrite !skipn_nil; destruct (skipn n (x :: l)); reflexivity|].
    destruct n as [|n]; [reflexivity|]. cbn [combine skipn]. apply IH.
Qed.
Lemma chunk_slice : forall s pos i n, chunk_pos s pos i n = slice (moved s pos) i n.
Proof.
  intros [s|] pos i n; [|reflexivity]. unfold chunk_pos, moved, slice. rewrite skipn_map, firstn_map, skipn_combine, combine_firstn. reflexivity.
Qed.
Lemma moved_length : forall s pos, (length (moved s pos) <= length pos)%nat.
Proof. intros [s|] pos; unfold moved; [|lia]. rewrite map_length, combine_length. lia. Qed.
Lemma qsum_flat : forall (A B : Type) (f : B -> Qc) (g : A -> list B) l,
  qsum (map f (flat_map g l)) = qsum (map (fun a => qsum (map f (g a))) l).
Proof. intros A B f g l. induction l as [|a l IH]; [reflexivity|]. cbn [flat_map map]. rewrite map_app, qsum_app, qsum_cons, IH. reflexivity. Qed.

Lemma map_repeat0 : forall n k, repeat 0 n = map (fun _ => 0) (seq k n).
Proof. induction n as [|n IH]; intros k; [reflexivity|]. cbn [repeat seq map]. rewrite <- IH. reflexivity. Qed.

Section Recon.
Variables (ncell : nat) (kern : vec -> nat -> Qc).
Lemma paint_fold : forall (g : nat -> list vec) l f,
  fold_left (fun out i => paint_hold ncell kern out (g i)) l (map f (seq 0 ncell)) =
  map (fun c => f c + qsum (map (fun i => qsum (map (fun x => kern x c) (g i))) l)) (seq 0 ncell).
Proof.
  intros g l. induction l as [|i l IH]; intros f; cbn [fold_left].
  - apply map_ext. intros c. cbn [map]. rewrite qsum_nil. ring.
  - unfold paint_hold at 2. rewrite vadd_map, IH. apply map_ext. intros c. cbn [map]. rewrite qsum_cons. ring.
Qed.
Lemma work_with_ok : forall c cat s, (0 < c)%nat -> concat cat <> [] -> (0 < ncell)%nat ->
  work_with ncell kern c cat s =
  Ok (map (fun k => qsum (map (fun x => kern x k) (everyone cat s)) / (nq (length (concat cat)) / nq ncell)) (seq 0 ncell)).
Proof.
  intros c cat s Hc Hne Hn. unfold work_with. destruct (Nat.eqb_spec c 0) as [E|_]; [lia|].
  set (nmax := fold_right Nat.max 0%nat (map (@length vec) cat)).
  assert (Hmax : forall r, In r cat -> (length r <= nmax)%nat).
  { unfold nmax. clear. induction cat as [|r0 cat IH]; intros r [].
    - subst. cbn. lia.
    - specialize (IH r H). cbn [map fold_right]. lia. }
  rewrite (map_repeat0 ncell 0), paint_fold.
  assert (Hnn : forall k, (0 < k)%nat -> nq k <> 0).
  { intros k Hk E0. unfold nq in E0. rewrite <- zq_0 in E0. apply zq_inj in E0. lia. }
  assert (Hlen : (0 < length (concat cat))%nat) by (destruct (concat cat); [congruence|cbn; lia]).
  destruct (Qc_eq_dec (nq (length (concat cat)) / nq ncell) 0) as [E|_].
  - exfalso. assert (H0 : nq (length (concat cat)) / nq ncell * nq ncell = 0) by (rewrite E; ring).
    rewrite Qcmult_comm, Qcmult_div_r in H0 by (apply Hnn; exact Hn). exact (Hnn _ Hlen H0).
  - f_equal. rewrite map_map. apply map_ext. intros k. f_equal. unfold everyone. rewrite qsum_flat.
    rewrite (map_ext _ (fun i => qsum (map (fun ps : list vec * option (list vec) =>
        qsum (map (fun x => kern x k) (slice (moved (snd ps) (fst ps)) i c))) (combine cat s)))).
    2:{ intros i. rewrite qsum_flat. f_equal. apply map_ext. intros ps. rewrite chunk_slice. reflexivity. }
    rewrite qsum_swap. rewrite Qcplus_0_l. apply qsum_map_ext. intros [pos so] Hin. cbn [fst snd].
    rewrite <- (qsum_flat _ _ (fun x => kern x k) (fun i => slice (moved so pos) i c)). rewrite (starts_cover _ (moved so pos) c nmax nmax 0%nat); [reflexivity|exact Hc| |lia].
    pose proof (moved_length so pos). apply in_combine_l in Hin. specialize (Hmax pos Hin). lia.
Qed.

(* mean of a painted field *)
Hypothesis Hcons : conserves ncell kern.
Lemma everyone_length : forall cat s, Forall2 (fun p s => match s with Some d => length d = length p | None => True end) cat s ->
  length (everyone cat s) = length (concat cat).
Proof.
  intros cat s H. unfold everyone. induction H as [|p so cat s Hp H IH]; [reflexivity|]. cbn [combine flat_map concat fst snd].
  rewrite !app_length, IH. f_equal. destruct so as [d|]; [|reflexivity]. unfold moved. rewrite map_length, combine_length, Hp. lia.
Qed.
Lemma work_with_sum : forall c cat s F, (0 < c)%nat -> concat cat <> [] -> (0 < ncell)%nat ->
  Forall2 (fun p s => match s with Some d => length d = length p | None => True end) cat s ->
  work_with ncell kern c cat s = Ok F -> qsum F = nq ncell /\ length F = ncell.
Proof.
  intros c cat s F Hc Hne Hn Hs H. rewrite work_with_ok in H by assumption. assert (HF : F = map (fun k => qsum (map (fun x => kern x k) (everyone cat s)) / (nq (length (concat cat)) / nq ncell)) (seq 0 ncell)) by congruence.
  subst F. split; [|rewrite map_length, seq_length; reflexivity].
  set (nb := nq (length (concat cat)) / nq ncell).
  rewrite (map_ext _ (fun k => / nb * qsum (map (fun x => kern x k) (everyone cat s)))) by (intro k; unfold Qcdiv; ring).
  rewrite qsum_map_scale, qsum_swap.
  rewrite (map_ext _ (fun _ => 1)) by (intro x; apply Hcons).
  assert (H1 : forall (X : Type) (l : list X), qsum (map (fun _ => 1) l) = nq (length l)).
  { intros X l. replace (map (fun _ => 1) l) with (repeat 1 (length l)); [rewrite qsum_repeat; ring|]. induction l as [|x l IH]; [reflexivity|]. cbn. rewrite IH. reflexivity. }
  rewrite H1, everyone_length by exact Hs. unfold nb.
  assert (Hnn : forall k, (0 < k)%nat -> nq k <> 0). { intros k Hk E0. unfold nq in E0. rewrite <- zq_0 in E0. apply zq_inj in E0. lia. }
  assert (Hlen : (0 < length (concat cat))%nat) by (destruct (concat cat); [congruence|cbn; lia]).
  field. split; apply Hnn; assumption.
Qed.
Lemma fsub_sum : forall a b, length a = length b -> qsum (fsub a b) = qsum a - qsum b.
Proof.
  induction a as [|x a IH]; intros [|y b] H; try discriminate; [change (fsub [] []) with (@nil Qc); rewrite !qsum_nil; ring|].
  change (fsub (x :: a) (y :: b)) with ((x - y) :: fsub a b). rewrite !qsum_cons, IH by (cbn in H; lia). ring.
Qed.

Lemma matches_some : forall cat s, matches cat s -> Forall2 (fun p s => match s with Some d => length d = length p | None => True end) cat (some_all s).
Proof. intros cat s H. unfold some_all. induction H; constructor; assumption. Qed.
Lemma matches_none : forall cat : list (list vec), Forall2 (fun p (s : option (list vec)) => match s with Some d => length d = length p | None => True end) cat (map (fun _ => None) cat).
Proof. intros cat. induction cat; constructor; [exact I|assumption]. Qed.
Lemma matches_neg : forall cat s, matches cat s -> matches cat (neg_s s).
Proof. intros cat s H. unfold neg_s. induction H; constructor; [rewrite map_length; assumption|assumption]. Qed.

Local Notation rho := (SurveySpec.rho ncell kern).
Lemma rho_work : forall c cat s, (0 < c)%nat -> concat cat <> [] -> (0 < ncell)%nat ->
  Forall2 (fun p s => match s with Some d => length d = length p | None => True end) cat s ->
  work_with ncell kern c cat s = Ok (map (rho (everyone cat s)) (seq 0 ncell)).
Proof.
  intros c cat s Hc Hne Hn Hs. rewrite work_with_ok by assumption. f_equal. apply map_ext. intros k. unfold SurveySpec.rho. rewrite everyone_length by exact Hs. reflexivity.
Qed.
Lemma fsub_map : forall (f g : nat -> Qc) l, fsub (map f l) (map g l) = map (fun i => f i - g i) l.
Proof. intros f g l. unfold fsub. induction l as [|x l IH]; [reflexivity|]. cbn [map combine fst snd]. rewrite IH. reflexivity. Qed.
Lemma everyone_none : forall cat, everyone cat (map (fun _ => None) cat) = concat cat.
Proof. intros cat. unfold everyone. induction cat as [|p cat IH]; [reflexivity|]. cbn [map combine flat_map fst snd moved concat]. rewrite IH. reflexivity. Qed.

Section Schemes.
Variables (c : nat) (data ran s_d s_r : list (list vec)).
Hypothesis Hc : (0 < c)%nat.
Hypothesis Hn : (0 < ncell)%nat.
Hypothesis Hd : concat data <> [].
Hypothesis Hr : concat ran <> [].
Hypothesis Hsd : matches data s_d.
Hypothesis Hsr : matches ran s_r.
Local Notation lgs_value := (SurveySpec.lgs_value ncell kern data ran s_d s_r).
Local Notation lrr_value := (SurveySpec.lrr_value ncell kern data ran s_r).
Local Notation scheme_value := (SurveySpec.scheme_value ncell kern data ran s_d s_r).
Lemma lgs_ok : lgs ncell kern c data s_d (map (rho (everyone ran (some_all s_r))) (seq 0 ncell)) = Ok (map lgs_value (seq 0 ncell)).
Proof using Hc Hn Hd Hsd.
  unfold lgs. rewrite rho_work; [|assumption..|apply matches_some; exact Hsd]. cbn [rbind]. rewrite fsub_map. reflexivity.
Qed.
Lemma lrr_ok : lrr ncell kern c data ran s_r (map (rho (everyone ran (some_all s_r))) (seq 0 ncell)) = Ok (map lrr_value (seq 0 ncell)).
Proof using Hc Hn Hd Hr Hsr.
  unfold lrr. rewrite rho_work; [|assumption..|apply matches_some, matches_neg; exact Hsr]. cbn [rbind].
  rewrite rho_work; [|assumption..|apply matches_none]. cbn [rbind]. rewrite vadd_map. unfold fscale. rewrite map_map, fsub_map.
  f_equal. apply map_ext. intros k. unfold SurveySpec.lrr_value. rewrite everyone_none. ring.
Qed.
Lemma helper_ok : forall sch, helper_paint ncell kern c sch data ran s_d s_r = Ok (map (scheme_value sch) (seq 0 ncell)).
Proof using Hc Hn Hd Hr Hsd Hsr.
  intros sch. unfold helper_paint. rewrite rho_work; [|assumption..|apply matches_some; exact Hsr]. cbn [rbind].
  destruct sch; [apply lgs_ok| |apply lrr_ok]. rewrite lgs_ok. cbn [rbind]. rewrite lrr_ok. cbn [rbind].
  unfold fscale. rewrite !map_map, vadd_map. f_equal. apply map_ext. intros k. cbn [SurveySpec.scheme_value]. ring.
Qed.
Lemma rho_sum : forall ps, ps <> [] -> qsum (map (rho ps) (seq 0 ncell)) = nq ncell.
Proof using Hcons Hn.
  intros ps Hps. unfold SurveySpec.rho. set (nb := nq (length ps) / nq ncell).
  rewrite (map_ext _ (fun k => / nb * qsum (map (fun x => kern x k) ps))) by (intro k; unfold Qcdiv; ring).
  rewrite qsum_map_scale, qsum_swap. rewrite (map_ext _ (fun _ => 1)) by (intro x; apply Hcons).
  assert (H1 : forall (X : Type) (l : list X), qsum (map (fun _ => 1) l) = nq (length l)).
  { clear. intros X l. replace (map (fun _ => 1) l) with (repeat 1 (length l)); [rewrite qsum_repeat; ring|]. induction l as [|x l IH]; [reflexivity|]. cbn. rewrite IH. reflexivity. }
  rewrite H1. unfold nb.
  assert (Hnn : forall k, (0 < k)%nat -> nq k <> 0). { clear. intros k Hk E0. unfold nq in E0. rewrite <- zq_0 in E0. apply zq_inj in E0. lia. }
  assert (Hlen : (0 < length ps)%nat) by (clear - Hps; destruct ps; [congruence|cbn; lia]).
  field. split; apply Hnn; assumption.
Qed.
Lemma qsum_map_sub : forall (X : Type) (f g : X -> Qc) l, qsum (map (fun x => f x - g x) l) = qsum (map f l) - qsum (map g l).
Proof using. clear. intros X f g l. induction l as [|x l IH]; cbn [map]; [rewrite !qsum_nil; ring|]. rewrite !qsum_cons, IH. ring. Qed.
Lemma scheme_mean_zero : forall sch, qsum (map (scheme_value sch) (seq 0 ncell)) = 0.
Proof using Hcons Hc Hn Hd Hr Hsd Hsr.
  assert (He : forall cat s, concat cat <> [] -> matches cat s -> everyone cat (some_all s) <> []).
  { clear. intros cat s Hne Hm E. pose proof (everyone_length cat (some_all s) (matches_some cat s Hm)) as H. rewrite E in H.
    destruct (concat cat); [congruence|discriminate]. }
  assert (H1 : qsum (map lgs_value (seq 0 ncell)) = 0).
  { unfold SurveySpec.lgs_value. rewrite qsum_map_sub, !rho_sum; [ring|apply He; assumption..]. }
  assert (H2 : qsum (map lrr_value (seq 0 ncell)) = 0).
  { unfold SurveySpec.lrr_value. rewrite qsum_map_sub. rewrite rho_sum by exact Hd. rewrite qsum_map_scale, qsum_map_add, !rho_sum.
    - rewrite Qcmult_plus_distr_r, half_double. ring.
    - apply He; assumption.
    - apply He; [assumption|apply matches_neg; assumption]. }
  intros [| |]; cbn [SurveySpec.scheme_value]; [exact H1| |exact H2].
  rewrite (qsum_map_add (fun k => Q2Qc (3 # 7) * lgs_value k) (fun k => Q2Qc (4 # 7) * lrr_value k)), !qsum_map_scale, H1, H2. ring.
Qed.
End Schemes.
End Recon.
