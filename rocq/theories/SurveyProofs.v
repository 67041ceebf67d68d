(* The redshift histogram and the survey box *)
From Coq Require Import Qround Sorting.Sorted.
From Verif Require Import Base BaseProofs Num SurveyModel SurveySpec.
Local Open Scope Qc_scope.

Lemma qleb_spec : forall a b, qleb a b = true <-> a <= b.
Proof.
  intros a b. unfold qleb. destruct (Qclt_le_dec b a) as [H|H]; split; intros; try congruence; try exact H.
  exfalso. exact (Qclt_not_le _ _ H H0).
Qed.
Lemma qltb_spec : forall a b, qltb a b = true <-> a < b.
Proof.
  intros a b. unfold qltb. destruct (Qclt_le_dec a b) as [H|H]; split; intros; try congruence; try exact H.
  exfalso. exact (Qcle_not_lt _ _ H H0).
Qed.

(* ---- histogram ---- *)
Lemma inner_seq : forall (f : nat -> Qc) n, inner (map f (seq 0 (n + 1))) = map f (seq 1 (n - 1)).
Proof.
  intros f n. unfold inner. replace (n + 1)%nat with (S n) by lia. cbn [seq map tl]. destruct n as [|m]; [reflexivity|].
  replace (S m - 1)%nat with m by lia. rewrite seq_S, map_app. cbn [map]. apply removelast_last.
Qed.

Lemma filter_none : forall (z : Qc) l, Forall (fun e => z < e) l -> filter (fun e => qleb e z) l = [].
Proof.
  intros z l H. induction H as [|e l He H IH]; [reflexivity|]. cbn [filter].
  destruct (qleb e z) eqn:E; [|exact IH]. exfalso. apply qleb_spec in E. exact (Qclt_not_le _ _ He E).
Qed.
Lemma search_sorted : forall edges z i, increasing edges -> (S i < length edges)%nat ->
  (searchsorted_right edges z = S i <-> in_bin (edge edges i) (edge edges (S i)) z).
Proof.
  unfold increasing, searchsorted_right, edge, in_bin. intros edges z i H. revert i.
  induction H as [|e l Hs IH Hf]; intros i Hi; [cbn in Hi; lia|].
  cbn [filter]. destruct (qleb e z) eqn:E.
  - apply qleb_spec in E. cbn [length]. destruct i as [|i].
    + cbn [nth]. destruct l as [|e2 l]; [cbn in Hi; lia|]. cbn [nth]. inversion Hs. inversion Hf. subst.
      split.
      * intros H. split; [exact E|]. cbn [filter] in H. destruct (qleb e2 z) eqn:E2; [cbn in H; lia|].
        unfold qleb in E2. destruct (Qclt_le_dec z e2); [assumption|discriminate].
      * intros [_ H]. rewrite filter_none; [reflexivity|]. constructor; [exact H|].
        rewrite Forall_forall in *. intros x Hx. eapply Qclt_le_trans; [exact H|]. apply H2. exact Hx.
    + cbn [nth]. cbn [length] in Hi. specialize (IH i ltac:(lia)). split.
      * intros H. apply IH. lia.
      * intros H. f_equal. apply IH. exact H.
  - assert (Hz : z < e) by (unfold qleb in E; destruct (Qclt_le_dec z e); [assumption|discriminate]).
    rewrite filter_none; [cbn [length]; split; [discriminate|]|].
    + intros [H _]. exfalso. destruct i as [|i]; cbn [nth] in H; [exact (Qclt_not_le _ _ Hz H)|].
      rewrite Forall_forall in Hf. assert (He : e <= nth i l 0) by (apply Hf; apply nth_In; cbn in Hi; lia).
      apply (Qclt_not_le _ _ Hz). eapply Qcle_trans; [exact He|exact H].
    + rewrite Forall_forall in *. intros x Hx. eapply Qclt_le_trans; [exact Hz|]. apply Hf. exact Hx.
Qed.

Lemma bin_weight : forall edges i objs, increasing edges -> (S i < length edges)%nat ->
  qsum (map snd (filter (fun p => Nat.eqb (fst p) (S i)) (combine (map (fun o => searchsorted_right edges (fst o)) objs) (map snd objs)))) =
  weight_between (edge edges i) (edge edges (S i)) objs.
Proof.
  intros edges i objs Hs Hi. unfold weight_between. induction objs as [|[z w] objs IH]; [reflexivity|].
  cbn [map combine filter fst snd]. rewrite qsum_cons, <- IH. pose proof (search_sorted edges z i Hs Hi) as Hb. unfold in_bin in Hb.
  destruct (Nat.eqb_spec (searchsorted_right edges z) (S i)) as [E|E].
  - cbn [map snd]. rewrite qsum_cons. destruct (proj1 Hb E) as [H1 H2].
    destruct (Qclt_le_dec z (edge edges i)) as [H|H]; [exfalso; exact (Qclt_not_le _ _ H H1)|].
    destruct (Qclt_le_dec z (edge edges (S i))) as [H'|H']; [reflexivity|exfalso; exact (Qclt_not_le _ _ H2 H')].
  - destruct (Qclt_le_dec z (edge edges i)) as [H|H]; [ring|].
    destruct (Qclt_le_dec z (edge edges (S i))) as [H'|H']; [|ring]. exfalso. apply E. apply Hb. split; assumption.
Qed.

Lemma map_seq1 : forall (X : Type) (f : nat -> X) n, map f (seq 1 n) = map (fun i => f (S i)) (seq 0 n).
Proof. intros X f n. rewrite <- seq_shift, map_map. reflexivity. Qed.
Lemma local_counts : forall edges objs, increasing edges ->
  zhist_local edges objs = map (fun i => weight_between (edge edges i) (edge edges (S i)) objs) (seq 0 (length edges - 1)).
Proof.
  intros edges objs Hs. unfold zhist_local, bincount. rewrite inner_seq, map_seq1. apply map_ext_in. intros i Hi.
  apply in_seq in Hi. apply bin_weight; [exact Hs|lia].
Qed.

Lemma vadd_map : forall (f g : nat -> Qc) l, vadd (map f l) (map g l) = map (fun i => f i + g i) l.
Proof. intros f g l. unfold vadd. induction l as [|x l IH]; [reflexivity|]. cbn [map combine fst snd]. rewrite IH. reflexivity. Qed.
Lemma vreduce_map : forall (X : Type) (g : X -> nat -> Qc) idx ranks, ranks <> [] ->
  vreduce (map (fun r => map (g r) idx) ranks) = map (fun i => qsum (map (fun r => g r i) ranks)) idx.
Proof.
  intros X g idx ranks H. induction ranks as [|r ranks IH]; [congruence|]. destruct ranks as [|r2 ranks].
  - cbn [map vreduce]. apply map_ext. intros i. rewrite qsum_cons, qsum_nil. ring.
  - change (vreduce (map (fun r => map (g r) idx) (r :: r2 :: ranks))) with
      (vadd (map (g r) idx) (vreduce (map (fun r => map (g r) idx) (r2 :: ranks)))).
    rewrite IH by discriminate. rewrite vadd_map. apply map_ext. intros i. symmetry. apply qsum_cons.
Qed.
Lemma weight_concat : forall lo hi ranks, weight_between lo hi (concat ranks) = qsum (map (weight_between lo hi) ranks).
Proof. intros lo hi ranks. unfold weight_between. rewrite concat_map, qsum_concat, map_map. reflexivity. Qed.

Lemma zhist_counts_ok : forall edges ranks, increasing edges -> ranks <> [] ->
  zhist_counts edges ranks = map (fun i => weight_between (edge edges i) (edge edges (S i)) (concat ranks)) (seq 0 (length edges - 1)).
Proof.
  intros edges ranks Hs Hr. unfold zhist_counts.
  rewrite (map_ext _ (fun r => map (fun i => weight_between (edge edges i) (edge edges (S i)) r) (seq 0 (length edges - 1)))) by (intro r; apply local_counts; exact Hs).
  rewrite (vreduce_map _ (fun r i => weight_between (edge edges i) (edge edges (S i)) r)) by exact Hr.
  apply map_ext. intros i. symmetry. apply weight_concat.
Qed.

(* every object in range is in exactly one bin *)
Lemma one_bin : forall edges z, increasing edges -> (1 < length edges)%nat ->
  in_bin (edge edges 0) (edge edges (length edges - 1)) z ->
  exists i, (S i < length edges)%nat /\ in_bin (edge edges i) (edge edges (S i)) z /\
    forall j, (S j < length edges)%nat -> in_bin (edge edges j) (edge edges (S j)) z -> j = i.
Proof.
  intros edges z Hs Hl Hz.
  assert (Hex : exists i, (S i < length edges)%nat /\ searchsorted_right edges z = S i).
  { unfold edge in Hz. clear Hl. unfold increasing in Hs. induction Hs as [|e l Hs IH Hf]; [destruct Hz as [H1 H2]; exfalso; exact (Qclt_not_le _ _ H2 H1)|].
    destruct Hz as [H1 H2]. cbn [nth] in H1. unfold searchsorted_right. cbn [filter].
    rewrite (proj2 (qleb_spec e z) H1). destruct l as [|e2 l]; [exfalso; exact (Qclt_not_le _ _ H2 H1)|].
    destruct (Qclt_le_dec z e2) as [Hz|Hz].
    - exists 0%nat. split; [cbn; lia|]. rewrite filter_none; [reflexivity|]. constructor; [exact Hz|].
      inversion Hs. rewrite Forall_forall in *. intros x Hx. eapply Qclt_le_trans; [exact Hz|]. auto.
    - destruct IH as [i [Hi Hi2]].
      + split; [exact Hz|]. cbn [length] in H2 |- *. replace (S (length l) - 1)%nat with (length l) by lia. replace (S (S (length l)) - 1)%nat with (S (length l)) in H2 by lia. exact H2.
      + exists (S i). split; [cbn [length] in *; lia|]. cbn [length]. f_equal. exact Hi2. }
  destruct Hex as [i [Hi Hsi]]. exists i. split; [exact Hi|]. split; [apply search_sorted; assumption|].
  intros j Hj Hb. apply (search_sorted edges z j Hs Hj) in Hb. congruence.
Qed.
(* the bins add up to the whole range *)
Lemma between_split : forall a b c objs, a <= b -> b <= c ->
  weight_between a c objs = weight_between a b objs + weight_between b c objs.
Proof.
  intros a b c objs Hab Hbc. unfold weight_between. rewrite <- qsum_map_add. apply qsum_map_ext. intros [z w] _. cbn [fst snd].
  destruct (Qclt_le_dec z a) as [H1|H1]; destruct (Qclt_le_dec z b) as [H2|H2]; destruct (Qclt_le_dec z c) as [H3|H3]; try ring; exfalso; qc_lra.
Qed.
Lemma between_empty : forall a objs, weight_between a a objs = 0.
Proof.
  intros a objs. unfold weight_between. rewrite (map_ext _ (fun _ => 0)); [apply qsum_map_zero|]. intros [z w]. cbn [fst snd].
  destruct (Qclt_le_dec z a); [reflexivity|]. destruct (Qclt_le_dec z a) as [H|H]; [exfalso; exact (Qclt_not_le _ _ H q)|reflexivity].
Qed.
Lemma increasing_nth : forall edges i j, increasing edges -> (i <= j)%nat -> (j < length edges)%nat -> edge edges i <= edge edges j.
Proof.
  intros edges i j Hs. unfold edge. revert i j. induction Hs as [|e l Hs IH Hf]; intros i j Hij Hj; [cbn in Hj; lia|].
  destruct i as [|i]; destruct j as [|j]; cbn [nth].
  - apply Qcle_refl.
  - rewrite Forall_forall in Hf. apply Hf. apply nth_In. cbn in Hj. lia.
  - lia.
  - apply IH; [lia|cbn in Hj; lia].
Qed.
Lemma bins_total : forall edges objs n, increasing edges -> (n < length edges)%nat ->
  qsum (map (fun i => weight_between (edge edges i) (edge edges (S i)) objs) (seq 0 n)) = weight_between (edge edges 0) (edge edges n) objs.
Proof.
  intros edges objs n Hs. induction n as [|n IH]; intros Hn.
  - cbn [seq map]. rewrite between_empty. reflexivity.
  - rewrite seq_S, map_app, qsum_app, IH by lia. cbn [map Nat.add]. rewrite qsum_cons, qsum_nil.
    rewrite (between_split (edge edges 0) (edge edges n) (edge edges (S n))); [ring| |]; apply increasing_nth; try exact Hs; lia.
Qed.
Lemma zhist_total : forall edges ranks, increasing edges -> ranks <> [] -> (1 <= length edges)%nat ->
  qsum (zhist_counts edges ranks) = weight_between (edge edges 0) (edge edges (length edges - 1)) (concat ranks).
Proof. intros edges ranks Hs Hr Hl. rewrite zhist_counts_ok by assumption. apply bins_total; [exact Hs|lia]. Qed.
Lemma zhist_nbar_ok : forall edges dV ranks i, increasing edges -> ranks <> [] -> (S i < length edges)%nat ->
  nth_error (zhist_nbar edges dV ranks) i = Some (weight_between (edge edges i) (edge edges (S i)) (concat ranks) / dV i).
Proof.
  intros edges dV ranks i Hs Hr Hi. unfold zhist_nbar. rewrite zhist_counts_ok by assumption.
  assert (E : forall (f : nat -> Qc) l, combine (map f l) l = map (fun i => (f i, i)) l) by (intros f l; induction l as [|x l IH]; [reflexivity|cbn; rewrite IH; reflexivity]).
  rewrite E, map_map. cbn [fst snd]. rewrite nth_error_map. 
  assert (Hn : nth_error (seq 0 (length edges - 1)) i = Some i).
  { rewrite (nth_error_nth' _ 0%nat) by (rewrite seq_length; lia). rewrite seq_nth by lia. reflexivity. }
  rewrite Hn. reflexivity.
Qed.

(* ---- ranges ---- *)
Lemma lowest_ok : forall l, match lowest l with None => l = [] | Some x => is_lowest x l end.
Proof.
  induction l as [|x l IH]; cbn [lowest]; [reflexivity|]. destruct (lowest l) as [y|].
  - destruct IH as [Hi Hy]. unfold qmin. destruct (Qclt_le_dec y x) as [H|H]; split.
    + right. exact Hi.
    + intros z [<-|Hz]; [apply Qclt_le_weak; exact H|apply Hy; exact Hz].
    + left. reflexivity.
    + intros z [<-|Hz]; [apply Qcle_refl|]. eapply Qcle_trans; [exact H|apply Hy; exact Hz].
  - subst. split; [left; reflexivity|]. intros z [<-|[]]. apply Qcle_refl.
Qed.
Lemma highest_ok : forall l, match highest l with None => l = [] | Some x => is_highest x l end.
Proof.
  induction l as [|x l IH]; cbn [highest]; [reflexivity|]. destruct (highest l) as [y|].
  - destruct IH as [Hi Hy]. unfold qmax. destruct (Qclt_le_dec x y) as [H|H]; split.
    + right. exact Hi.
    + intros z [<-|Hz]; [apply Qclt_le_weak; exact H|apply Hy; exact Hz].
    + left. reflexivity.
    + intros z [<-|Hz]; [apply Qcle_refl|]. eapply Qcle_trans; [apply Hy; exact Hz|exact H].
  - subst. split; [left; reflexivity|]. intros z [<-|[]]. apply Qcle_refl.
Qed.
Lemma global_range_ok : forall ranks lo hi, global_range ranks = Ok (lo, hi) ->
  is_lowest lo (concat ranks) /\ is_highest hi (concat ranks).
Proof.
  intros ranks lo hi. unfold global_range. destruct (forallb _ _); [discriminate|]. destruct (existsb _ _); [discriminate|].
  pose proof (lowest_ok (concat ranks)) as H1. pose proof (highest_ok (concat ranks)) as H2.
  destruct (lowest (concat ranks)); [|discriminate]. destruct (highest (concat ranks)); [|discriminate].
  intros E. inversion E. subst. split; assumption.
Qed.
Lemma global_range_ok_iff : forall ranks, is_ok (global_range ranks) = true <-> ranks <> [] /\ forall r, In r ranks -> r <> [].
Proof.
  intros ranks. unfold global_range. split.
  - destruct (forallb (fun r => Nat.eqb (length r) 0) ranks) eqn:E1; [discriminate|].
    destruct (existsb (fun r => Nat.eqb (length r) 0) ranks) eqn:E2; [discriminate|]. intros _. split; [intros ->; discriminate|].
    intros r Hr ->. assert (existsb (fun r => Nat.eqb (length r) 0) ranks = true); [|congruence].
    apply existsb_exists. exists []. split; [exact Hr|reflexivity].
  - intros [Hne Hr]. destruct ranks as [|r0 ranks]; [congruence|].
    assert (Hn : forall r : list Qc, r <> [] -> Nat.eqb (length r) 0 = false) by (intros [|x r] H; [congruence|reflexivity]).
    cbn [forallb]. rewrite (Hn r0) by (apply Hr; left; reflexivity). cbn [andb].
    destruct (existsb (fun r => Nat.eqb (length r) 0) (r0 :: ranks)) eqn:E.
    + apply existsb_exists in E. destruct E as [r [Hi He]]. rewrite Hn in He by (apply Hr; exact Hi). discriminate.
    + pose proof (lowest_ok (concat (r0 :: ranks))) as H1. pose proof (highest_ok (concat (r0 :: ranks))) as H2.
      assert (Hc : concat (r0 :: ranks) <> []). { cbn [concat]. specialize (Hr r0 (or_introl eq_refl)). destruct r0; [congruence|discriminate]. }
      destruct (lowest (concat (r0 :: ranks))); [|contradiction]. destruct (highest (concat (r0 :: ranks))); [reflexivity|contradiction].
Qed.

Lemma ceil_ge : forall x : Qc, x <= zq (Qceiling (this x)).
Proof.
  intros x. unfold Qcle, zq. cbn [this Q2Qc]. rewrite Qred_correct. apply Qle_ceiling.
Qed.
Lemma ceil_lt : forall x : Qc, zq (Qceiling (this x)) < x + 1.
Proof.
  intros x. assert (E : this (x + 1) == this x + 1) by (unfold Qcplus; cbn [this Q2Qc]; rewrite Qred_correct; reflexivity).
  unfold Qclt. rewrite E. unfold zq. cbn [this Q2Qc]. rewrite Qred_correct.
  pose proof (Qceiling_lt (this x)) as H. unfold Z.sub in H. rewrite inject_Z_plus in H. change (inject_Z (- (1))) with (- (1))%Q in H.
  apply Qplus_lt_l with (z := (- (1))%Q). rewrite <- Qplus_assoc. setoid_replace (1 + - (1))%Q with 0%Q by reflexivity. rewrite Qplus_0_r. exact H.
Qed.
Lemma scott_ok : forall dx lo hi, 0 < dx -> lo <= hi ->
  let e := scott_edges dx lo hi in
  (2 <= length e)%nat /\ edge e 0 = lo /\ hi <= edge e (length e - 1) /\
  (forall i, (S i < length e)%nat -> edge e (S i) = edge e i + dx) /\ increasing e.
Proof.
  intros dx lo hi Hdx Hlh e. unfold e, scott_edges. set (n := Z.max 1 (Qceiling (this ((hi - lo) / dx)))).
  assert (Hn : (1 <= n)%Z) by (unfold n; lia).
  assert (Hlen : length (map (fun i => lo + dx * nq i) (seq 0 (Z.to_nat n + 1))) = S (Z.to_nat n)) by (rewrite map_length, seq_length; lia).
  assert (Hnth : forall i, (i <= Z.to_nat n)%nat -> edge (map (fun i => lo + dx * nq i) (seq 0 (Z.to_nat n + 1))) i = lo + dx * nq i).
  { intros i Hi. unfold edge. rewrite (nth_indep _ 0 (lo + dx * nq 0)) by (rewrite Hlen; lia).
    rewrite map_nth with (f := fun i => lo + dx * nq i). rewrite seq_nth by lia. reflexivity. }
  assert (Hdn : dx <> 0) by (intros E; rewrite E in Hdx; exact (Qclt_not_eq _ _ Hdx eq_refl)).
  rewrite Hlen. split; [lia|]. split; [|split; [|split]].
  - rewrite Hnth by lia. change (nq 0) with 0. ring.
  - replace (S (Z.to_nat n) - 1)%nat with (Z.to_nat n) by lia. rewrite Hnth by lia. unfold nq. rewrite Z2Nat.id by lia.
    assert (Hc : (hi - lo) / dx <= zq n). { eapply Qcle_trans; [apply ceil_ge|]. apply (proj1 (zq_le _ _)). apply Z.le_max_r. }
    assert (Hm : dx * ((hi - lo) / dx) <= dx * zq n). { rewrite !(Qcmult_comm dx). apply Qcmult_le_compat_r; [exact Hc|apply Qclt_le_weak; exact Hdx]. }
    replace (dx * ((hi - lo) / dx)) with (hi - lo) in Hm by (field; exact Hdn). qc_lra.
  - intros i Hi. rewrite !Hnth by lia. unfold nq. rewrite Nat2Z.inj_succ. unfold Z.succ. rewrite zq_add, zq_1. ring.
  - unfold increasing. assert (Hmono : forall k m, StronglySorted Qcle (map (fun i => lo + dx * nq i) (seq k m))).
    { intros k m. revert k. induction m as [|m IH]; intros k; cbn [seq map]; constructor; [apply IH|].
      rewrite Forall_forall. intros x Hx. apply in_map_iff in Hx. destruct Hx as [j [<- Hj]]. apply in_seq in Hj.
      assert (nq k <= nq j) by (unfold nq; apply (proj1 (zq_le _ _)); lia).
      assert (Hm : dx * nq k <= dx * nq j) by (rewrite !(Qcmult_comm dx); apply Qcmult_le_compat_r; [assumption|apply Qclt_le_weak; exact Hdx]).
      qc_lra. }
    apply Hmono.
Qed.

(* ---- box ---- *)
Lemma qmul_nonneg : forall a b : Qc, 0 <= a -> 0 <= b -> 0 <= a * b.
Proof. intros a b Ha Hb. replace 0 with (0 * b) by ring. apply Qcmult_le_compat_r; assumption. Qed.
Lemma half_double : forall x : Qc, half * x + half * x = x.
Proof. intros x. replace (half * x + half * x) with ((half + half) * x) by ring. replace (half + half) with 1 by (apply Qc_is_canon; reflexivity). ring. Qed.
Lemma bbox_ok : forall pos lo hi pad L c, is_lowest lo pos -> is_highest hi pos -> 0 <= pad ->
  define_bbox (Some (lo, hi)) None pad = Ok (L, c) ->
  (hi - lo) * (1 + pad) <= L /\ L < (hi - lo) * (1 + pad) + 1 /\ (exists z, L = zq z) /\
  forall x, In x pos -> - (half * L) <= recentered c x /\ recentered c x <= half * L.
Proof.
  intros pos lo hi pad L c [Hlo1 Hlo2] [Hhi1 Hhi2] Hpad H. unfold define_bbox in H.
  assert (Hle : lo <= hi) by (apply Hlo2; exact Hhi1).
  assert (Hd : qabs (hi - lo) = hi - lo).
  { unfold qabs. destruct (Qclt_le_dec (hi - lo) 0) as [Hn|Hn]; [|reflexivity]. exfalso. apply (Qclt_not_le _ _ Hn). qc_lra. }
  rewrite Hd in H.
  assert (E : (zq (Qceiling (this ((hi - lo) * (1 + pad)))), half * (lo + hi)) = (L, c)) by congruence.
  apply pair_equal_spec in E. destruct E as [<- <-]. clear H. set (x0 := (hi - lo) * (1 + pad)).
  pose proof (ceil_ge x0) as H1. pose proof (ceil_lt x0) as H2.
  split; [exact H1|]. split; [exact H2|]. split; [eexists; reflexivity|].
  intros x Hx. unfold recentered. specialize (Hlo2 x Hx). specialize (Hhi2 x Hx).
  assert (Hge : hi - lo <= zq (Qceiling (this x0))).
  { eapply Qcle_trans; [|exact H1]. unfold x0. assert (0 <= (hi - lo) * pad) by (apply qmul_nonneg; [apply (proj1 (Qcle_minus_iff lo hi)); exact Hle|exact Hpad]).
    replace ((hi - lo) * (1 + pad)) with ((hi - lo) + (hi - lo) * pad) by ring.
    set (p := (hi - lo) * pad) in *. clearbody p. clear - H. qc_lra. }
  pose proof (half_double (zq (Qceiling (this x0)))) as Hh. pose proof (half_double (lo + hi)) as Hh2.
  set (a := half * zq (Qceiling (this x0))) in *. set (b := half * (lo + hi)) in *. clearbody a b.
  set (LL := zq (Qceiling (this x0))) in *. clearbody LL. clear - Hlo2 Hhi2 Hge Hh Hh2. split; qc_lra.
Qed.

Lemma extremes_dec : forall l, (l = [] /\ lowest l = None) \/ exists lo hi, lowest l = Some lo /\ highest l = Some hi /\ is_lowest lo l /\ is_highest hi l.
Proof.
  intros l. pose proof (lowest_ok l) as H1. pose proof (highest_ok l) as H2. destruct (lowest l) as [lo|]; [|left; auto]. right.
  destruct (highest l) as [hi|]; [exists lo, hi; auto|]. subst l. destruct H1 as [[] _].
Qed.
Lemma survey_box_ok : forall pad ranks L c, 0 <= pad -> survey_box None pad ranks = Ok (L, c) ->
  let pos := map fst (filter snd (concat ranks)) in
  (forall x y, In x pos -> In y pos -> (x - y) * (1 + pad) <= L) /\ (exists z, L = zq z) /\
  (exists x y, In x pos /\ In y pos /\ L < (x - y) * (1 + pad) + 1 /\ c = half * (x + y)) /\
  forall x, In x pos -> - (half * L) <= recentered c x /\ recentered c x <= half * L.
Proof.
  intros pad ranks L c Hpad H pos. unfold survey_box in H. fold pos in H. clearbody pos. clear ranks.
  destruct (extremes_dec pos) as [[_ E]|[lo [hi [E1 [E2 [Hl Hh]]]]]]; [rewrite E in H; discriminate|]. rewrite E1, E2 in H.
  destruct (bbox_ok pos lo hi pad L c Hl Hh Hpad H) as [B1 [B2 [B3 B4]]]. split; [|split; [exact B3|split; [|exact B4]]].
  - intros x y Hx Hy. eapply Qcle_trans; [|exact B1]. apply Qcmult_le_compat_r.
    + destruct Hl as [_ Hl]. destruct Hh as [_ Hh]. specialize (Hl y Hy). specialize (Hh x Hx). clear - Hl Hh. qc_lra.
    + clear - Hpad. qc_lra.
  - exists hi, lo. split; [apply Hh|]. split; [apply Hl|]. split; [exact B2|].
    unfold define_bbox in H. assert (E : (zq (Qceiling (this (qabs (hi - lo) * (1 + pad)))), half * (lo + hi)) = (L, c)) by congruence.
    apply pair_equal_spec in E. destruct E as [_ <-]. ring.
Qed.
Lemma survey_box_given : forall pad ranks L, 0 < L ->
  let pos := map fst (filter snd (concat ranks)) in
  match survey_box (Some L) pad ranks with
  | Ok (L', c) => L' = L /\ ((forall x y, In x pos -> In y pos -> x - y <= L) <-> forall x, In x pos -> - (half * L) <= recentered c x /\ recentered c x <= half * L)
  | Err e => e = ValueError /\ pos = []
  end.
Proof.
  intros pad ranks L HL pos. unfold survey_box. fold pos. clearbody pos. clear ranks.
  destruct (extremes_dec pos) as [[E0 E]|[lo [hi [E1 [E2 [Hl Hh]]]]]]; [rewrite E; cbn [define_bbox]; split; [reflexivity|exact E0]|]. rewrite E1, E2.
  cbn [define_bbox]. split; [reflexivity|]. destruct Hl as [Hl1 Hl2]. destruct Hh as [Hh1 Hh2]. unfold recentered. split.
  - intros H x Hx. specialize (H hi lo Hh1 Hl1). specialize (Hl2 x Hx). specialize (Hh2 x Hx). pose proof (half_double lo) as D1. pose proof (half_double hi) as D2. pose proof (half_double L) as D3.
    replace (half * (lo + hi)) with (half * lo + half * hi) by ring. set (a := half * lo) in *. set (b := half * hi) in *. set (d := half * L) in *. clearbody a b d. clear - H Hl2 Hh2 D1 D2 D3. split; qc_lra.
  - intros H x y Hx Hy. destruct (H x Hx) as [_ G1]. destruct (H y Hy) as [G2 _]. pose proof (half_double L) as D3.
    set (d := half * L) in *. set (m := half * (lo + hi)) in *. clearbody d m. clear - G1 G2 D3. qc_lra.
Qed.
Lemma survey_box_refused : forall given pad ranks,
  is_ok (survey_box given pad ranks) = false <-> forall r o, In r ranks -> In o r -> snd o = false.
Proof.
  intros given pad ranks. unfold survey_box. set (pos := map fst (filter snd (concat ranks))).
  assert (Hp : pos = [] <-> forall r o, In r ranks -> In o r -> snd o = false).
  { unfold pos. split.
    - intros E r o Hr Ho. apply map_eq_nil in E. destruct (snd o) eqn:Es; [|reflexivity].
      assert (In o (filter snd (concat ranks))) as G by (apply filter_In; split; [apply in_concat; exists r; auto|exact Es]). rewrite E in G. destruct G.
    - intros H. destruct (filter snd (concat ranks)) as [|o l] eqn:Ef; [reflexivity|]. exfalso.
      assert (In o (filter snd (concat ranks))) as G by (rewrite Ef; left; reflexivity). apply filter_In in G. destruct G as [G1 G2].
      apply in_concat in G1. destruct G1 as [r [Hr Ho]]. rewrite (H r o Hr Ho) in G2. discriminate. }
  rewrite <- Hp. destruct (extremes_dec pos) as [[E0 E]|[lo [hi [E1 [E2 [Hl Hh]]]]]].
  - rewrite E. cbn [define_bbox is_ok]. split; auto.
  - rewrite E1, E2. split; [destruct given; discriminate|]. intros G. destruct Hl as [Hl _]. rewrite G in Hl. destruct Hl.
Qed.
