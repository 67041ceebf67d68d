From Verif Require Import Base BaseProofs RanksModel RanksSpec RanksProofs CatModel CatSpec CatProofs DistModel DistSpec.
From Coq Require Import Sorted Permutation.
Local Open Scope Z_scope.

(* ---------- masks ---------- *)
Lemma masked_app {A} (r1 r2 : list A) m1 m2 : length r1 = length m1 -> masked (r1 ++ r2) (m1 ++ m2) = masked r1 m1 ++ masked r2 m2.
Proof.
  intros H. unfold masked. revert m1 H. induction r1 as [|x r1 IH]; intros [|b m1] H; simpl in H; try lia; [reflexivity|].
  cbn [app combine filter snd]. destruct b; cbn [map app]; rewrite IH by lia; reflexivity.
Qed.
Lemma masked_concat {A} (parts : list (list A)) : forall ms, map zlen parts = map zlen ms ->
  concat (map (fun pm => masked (fst pm) (snd pm)) (combine parts ms)) = masked (concat parts) (concat ms).
Proof.
  induction parts as [|p ps IH]; intros [|m ms] H; simpl in H; try discriminate; [reflexivity|].
  cbn [combine map concat fst snd]. injection H as H1 H2. rewrite masked_app by (unfold zlen in H1; lia).
  rewrite IH by exact H2. reflexivity.
Qed.

Lemma sorted_ltZ_ext (l1 l2 : list Z) : StronglySorted Z.lt l1 -> StronglySorted Z.lt l2 ->
  (forall x, In x l1 <-> In x l2) -> l1 = l2.
Proof.
  intros S1. revert l2. induction S1 as [|x l1 S1 IH F1]; intros l2 S2 H.
  - destruct l2 as [|y l2]; [reflexivity|]. exfalso. apply (proj2 (H y)). left. reflexivity.
  - destruct S2 as [|y l2 S2 F2]; [exfalso; apply (proj1 (H x)); left; reflexivity|].
    rewrite Forall_forall in F1, F2.
    assert (x = y) as ->.
    { destruct (proj1 (H x) (or_introl eq_refl)) as [E|E]; [auto|].
      destruct (proj2 (H y) (or_introl eq_refl)) as [E'|E']; [auto|]. specialize (F1 y E'). specialize (F2 x E). lia. }
    f_equal. apply IH; [exact S2|]. intros z. split; intros Hz.
    + destruct (proj1 (H z) (or_intror Hz)) as [E|E]; [|exact E]. subst. specialize (F1 z Hz). lia.
    + destruct (proj2 (H z) (or_intror Hz)) as [E|E]; [|exact E]. subst. specialize (F2 z Hz). lia.
Qed.

Lemma true_positions_sorted m : forall i, StronglySorted Z.lt (true_positions i m).
Proof.
  induction m as [|b m IH]; intros i; cbn [true_positions]; [constructor|]. destruct b; [|apply IH].
  constructor; [apply IH|]. eapply Forall_impl; [|apply true_positions_range]. cbv beta. intros; lia.
Qed.
Lemma true_positions_in m : forall i x, In x (true_positions i m) <-> i <= x /\ nth_error m (Z.to_nat (x - i)) = Some true.
Proof.
  induction m as [|b m IH]; intros i x.
  - cbn [true_positions In]. split; [tauto|]. intros [_ H]. destruct (Z.to_nat (x - i)); discriminate.
  - cbn [true_positions]. assert (In x (true_positions (i + 1) m) <-> i + 1 <= x /\ nth_error (b :: m) (Z.to_nat (x - i)) = Some true) as E.
    { rewrite IH. split; intros [H1 H2]; (split; [lia|]).
      - replace (Z.to_nat (x - i)) with (S (Z.to_nat (x - (i + 1)))) by lia. exact H2.
      - replace (Z.to_nat (x - i)) with (S (Z.to_nat (x - (i + 1)))) in H2 by lia. exact H2. }
    destruct b.
    + cbn [In]. rewrite E. split.
      * intros [<-|[H1 H2]]; [split; [lia|]; rewrite Z.sub_diag; reflexivity|split; [lia|exact H2]].
      * intros [H1 H2]. destruct (Z.eq_dec i x); [left; lia|right; split; [lia|exact H2]].
    + rewrite E. split; intros [H1 H2]; (split; [|exact H2]); [lia|].
      destruct (Z.eq_dec i x) as [->|]; [|lia]. rewrite Z.sub_diag in H2. discriminate.
Qed.

Lemma set_true_positions n pos x : In x (true_positions 0 (set_true n pos)) <-> 0 <= x < Z.of_nat n /\ In x pos.
Proof.
  rewrite true_positions_in. rewrite Z.sub_0_r. unfold set_true. rewrite nth_error_map', nth_error_seq.
  destruct (Nat.ltb_spec (Z.to_nat x) n) as [L|L]; cbn [option_map].
  - split.
    + intros [H1 H2]. split; [lia|]. injection H2 as H2. apply existsb_exists in H2. destruct H2 as (y & Hy & E). apply Z.eqb_eq in E.
      replace x with y by lia. exact Hy.
    + intros [H1 H2]. split; [lia|]. f_equal. apply existsb_exists. exists x. split; [exact H2|]. apply Z.eqb_eq. lia.
  - split; [intros [_ H]; discriminate|intros [H _]; lia].
Qed.

Lemma py_range_sorted a b s : 0 < s -> StronglySorted Z.lt (py_range a b s).
Proof.
  intros Hs. unfold py_range. generalize (Z.to_nat (range_len a b s)). intros n. generalize 0%nat.
  induction n as [|n IH]; intros k; cbn [seq map]; constructor; [apply IH|].
  apply Forall_forall. intros x Hx. apply in_map_iff in Hx. destruct Hx as (j & <- & Hj). apply in_seq in Hj. nia.
Qed.
Lemma sorted_snoc (l : list Z) x : StronglySorted Z.lt l -> Forall (fun y => y < x) l -> StronglySorted Z.lt (l ++ [x]).
Proof.
  induction 1 as [|y l S IH F]; intros H; cbn [app]; [repeat constructor|]. inversion H; subst. constructor; [apply IH; assumption|].
  apply Forall_app. split; [exact F|]. constructor; [assumption|constructor].
Qed.
Lemma py_range_rev_sorted a b s : s < 0 -> StronglySorted Z.lt (rev (py_range a b s)).
Proof.
  intros Hs. unfold py_range. generalize (Z.to_nat (range_len a b s)). intros n. generalize 0%nat.
  induction n as [|n IH]; intros k; cbn [seq map rev]; [constructor|]. apply sorted_snoc; [apply IH|].
  apply Forall_forall. intros x Hx. apply in_rev in Hx. apply in_map_iff in Hx. destruct Hx as (j & <- & Hj). apply in_seq in Hj. nia.
Qed.

Lemma set_true_length n pos : length (set_true n pos) = n.
Proof. unfold set_true. rewrite map_length. apply seq_length. Qed.

Lemma select_rev {A} (l : list A) idx : select l (rev idx) = rev (select l idx).
Proof.
  induction idx as [|i idx IH]; [reflexivity|]. cbn [rev]. rewrite select_app, IH.
  change (i :: idx) with ([i] ++ idx). rewrite select_app, rev_app_distr. f_equal.
  cbn [select flat_map]. destruct (znth l i); reflexivity.
Qed.

Lemma masked_select {A} (rows : list A) pos : masked rows (set_true (length rows) pos) = select rows (true_positions 0 (set_true (length rows) pos)).
Proof. symmetry. apply (select_masked rows (set_true (length rows) pos)) with (pre := []). apply set_true_length. Qed.

Lemma masked_range {A} (rows : list A) a b s : s <> 0 -> Forall (in_range rows) (py_range a b s) ->
  masked rows (set_true (length rows) (py_range a b s)) =
  if 0 <? s then select rows (py_range a b s) else rev (select rows (py_range a b s)).
Proof.
  intros Hs F. rewrite masked_select. rewrite Forall_forall in F.
  destruct (Z.ltb_spec 0 s) as [P|P].
  - f_equal. apply sorted_ltZ_ext; [apply true_positions_sorted|apply py_range_sorted; lia|].
    intros x. rewrite set_true_positions. split; [tauto|]. intros Hx. split; [|exact Hx]. specialize (F x Hx). unfold in_range, zlen in F. lia.
  - rewrite <- select_rev. f_equal. apply sorted_ltZ_ext; [apply true_positions_sorted|apply py_range_rev_sorted; lia|].
    intros x. rewrite set_true_positions, <- in_rev. split; [tauto|]. intros Hx. split; [|exact Hx]. specialize (F x Hx). unfold in_range, zlen in F. lia.
Qed.

Lemma filled_some {A} (l : list A) : filled (map Some l) = Ok l.
Proof. unfold filled. rewrite map_map. apply rall_ok. Qed.

(* ---------- gslice ---------- *)
Lemma gslice_ok {A} (parts : list (list A)) start stop step rows : (1 <= length parts)%nat ->
  py_slice (global parts) start stop step = Ok rows ->
  let asc := match step with Some s => if 0 <? s then rows else rev rows | None => rows end in
  (exists out, gslice start stop step false parts = Ok out /\ global out = asc /\ length out = length parts /\
     (exists ms, map zlen ms = map zlen parts /\ out = map (fun pm => masked (fst pm) (snd pm)) (combine parts ms))) /\
  (exists out, gslice start stop step true parts = Ok out /\ global out = asc /\ length out = length parts /\ balanced (map zlen out)).
Proof.
  intros HN H asc. unfold py_slice in H. unfold global in *. rewrite zlen_concat in H.
  destruct (slice_indices start stop step (zsum (map zlen parts))) as [[[a b] s]|] eqn:E; [|discriminate].
  cbn [rbind] in H. assert (rows = select (concat parts) (py_range a b s)) as Hrows by congruence. clear H.
  assert (s = match step with Some s => s | None => 1 end) as Es.
  { unfold slice_indices in E. destruct (_ =? 0); [discriminate|]. destruct (0 <? _); congruence. }
  pose proof E as E'. rewrite <- zlen_concat in E'. pose proof (py_slice_in_range _ _ _ _ _ _ _ E') as F.
  destruct (slice_indices_spec _ _ _ _ _ _ _ (zlen_nonneg (concat parts)) E') as (Hs & _).
  pose proof (masked_range (concat parts) a b s Hs F) as HM.
  assert (masked (concat parts) (set_true (length (concat parts)) (py_range a b s)) = asc) as HA.
  { rewrite HM, <- Hrows. subst asc. destruct step as [s0|]; subst s; reflexivity. }
  set (index := set_true (Z.to_nat (zsum (map zlen parts))) (py_range a b s)).
  assert (index = set_true (length (concat parts)) (py_range a b s)) as EI.
  { unfold index. rewrite <- zlen_concat. unfold zlen. rewrite Nat2Z.id. reflexivity. }
  destruct (scatter_counts_ok (length parts) index (map zlen parts)) as (ms & ES & EC & EL).
  { apply map_length. }
  { apply Forall_forall. intros x Hx. apply in_map_iff in Hx. destruct Hx as (p & <- & _). apply zlen_nonneg. }
  { rewrite EI. unfold zlen at 2. rewrite set_true_length. rewrite <- zlen_concat. reflexivity. }
  set (out := map (fun pm => masked (fst pm) (snd pm)) (combine parts ms)).
  assert (concat out = asc) as HC.
  { unfold out. rewrite masked_concat by (symmetry; exact EL). rewrite EC, EI. exact HA. }
  assert (length out = length parts) as HL.
  { unfold out. rewrite map_length, combine_length. assert (length ms = length parts) as L by (rewrite <- (map_length zlen ms), EL; apply map_length). lia. }
  split.
  - exists out. unfold gslice. rewrite E. cbn [rbind]. fold index. rewrite ES. cbn [rbind negb]. fold out.
    repeat split; auto. exists ms. auto.
  - destruct (scatter_even_balanced (length parts) asc HN) as (res & ER & RC & RL & RB).
    exists res. unfold gslice. rewrite E. cbn [rbind]. fold index. rewrite ES. cbn [rbind negb]. fold out.
    rewrite gather_ok. cbn [rbind]. rewrite HC, filled_some. cbn [rbind]. auto.
Qed.

Lemma gslice_zero {A} (parts : list (list A)) start stop r :
  gslice start stop (Some 0) r parts = Err ValueError /\ py_slice (global parts) start stop (Some 0) = Err ValueError.
Proof. split; reflexivity. Qed.
Lemma gslice_even {A} (parts : list (list A)) start stop step rows :
  (1 <= length parts)%nat -> (forall s, step = Some s -> 0 < s) ->
  py_slice (global parts) start stop step = Ok rows ->
  exists out, gslice start stop step true parts = Ok out /\ global out = rows /\
    length out = length parts /\ balanced (map zlen out).
Proof.
  intros HN HS H. destruct (gslice_ok parts start stop step rows HN H) as [_ G].
  destruct step as [s|]; [|exact G]. specialize (HS s eq_refl). destruct (Z.ltb_spec 0 s); [exact G|lia].
Qed.
Lemma gslice_local {A} (parts : list (list A)) start stop step rows :
  (1 <= length parts)%nat -> (forall s, step = Some s -> 0 < s) ->
  py_slice (global parts) start stop step = Ok rows ->
  exists out ms, gslice start stop step false parts = Ok out /\ global out = rows /\
    map zlen ms = map zlen parts /\ out = map (fun pm => masked (fst pm) (snd pm)) (combine parts ms).
Proof.
  intros HN HS H. destruct (gslice_ok parts start stop step rows HN H) as [(out & G1 & G2 & _ & ms & G3 & G4) _].
  exists out, ms. repeat split; auto. rewrite G2.
  destruct step as [s|]; [|reflexivity]. specialize (HS s eq_refl). destruct (Z.ltb_spec 0 s); [reflexivity|lia].
Qed.
Lemma gslice_negative {A} (parts : list (list A)) start stop s rows redistribute :
  (1 <= length parts)%nat -> s < 0 ->
  py_slice (global parts) start stop (Some s) = Ok rows ->
  exists out, gslice start stop (Some s) redistribute parts = Ok out /\ global out = rev rows.
Proof.
  intros HN HS H. destruct (gslice_ok parts start stop (Some s) rows HN H) as [(o1 & G1 & G2 & _) (o2 & G3 & G4 & _)].
  destruct (Z.ltb_spec 0 s); [lia|]. destruct redistribute; eauto.
Qed.

(* ---------- Index ---------- *)
Lemma py_range_app a b c : a <= b -> b <= c -> py_range a b 1 ++ py_range b c 1 = py_range a c 1.
Proof.
  intros H1 H2. apply nth_error_ext. intros i. 
  assert (forall x y, x <= y -> range_len x y 1 = y - x) as RL.
  { intros x y H. unfold range_len. cbn [Z.ltb Z.compare]. destruct (Z.ltb_spec x y); [rewrite Z.div_1_r; lia|lia]. }
  destruct (Z.ltb_spec (Z.of_nat i) (b - a)) as [L|L].
  - rewrite nth_error_app1.
    + rewrite !py_range_nth, !RL by lia. destruct (Z.ltb_spec (Z.of_nat i) (b - a)), (Z.ltb_spec (Z.of_nat i) (c - a)); try lia. reflexivity.
    + pose proof (py_range_length a b 1) as P. rewrite RL in P by lia. unfold zlen in P. lia.
  - pose proof (py_range_length a b 1) as P. rewrite RL in P by lia. unfold zlen in P.
    rewrite nth_error_app2 by lia. rewrite !py_range_nth, !RL by lia.
    destruct (Z.ltb_spec (Z.of_nat (i - length (py_range a b 1))) (c - b)), (Z.ltb_spec (Z.of_nat i) (c - a)); try lia; [|reflexivity].
    f_equal. lia.
Qed.

Lemma index_from sizes : Forall (fun n => 0 <= n) sizes -> forall k, (k <= length sizes)%nat ->
  concat (map (fun r => let offset := zsum (firstn r sizes) in py_range offset (offset + nth r sizes 0) 1) (seq 0 k))
  = py_range 0 (zsum (firstn k sizes)) 1.
Proof.
  intros F. induction k as [|k IH]; intros H; [reflexivity|].
  rewrite seq_S, map_app, concat_app, IH by lia. cbn [map concat plus]. rewrite app_nil_r.
  assert (forall j, (j <= length sizes)%nat -> 0 <= zsum (firstn j sizes)) as NN.
  { intros j Hj. apply zsum_nonneg. rewrite Forall_forall in *. intros x Hx. apply F.
    rewrite <- (firstn_skipn j sizes). apply in_or_app. left. exact Hx. }
  assert (zsum (firstn (S k) sizes) = zsum (firstn k sizes) + nth k sizes 0) as E.
  { clear - H. revert k H. induction sizes as [|s sizes IHs]; intros k H; simpl in H; [lia|].
    destruct k as [|k]; [cbn [firstn zsum fold_right nth]; lia|].
    specialize (IHs k ltac:(lia)). rewrite firstn_cons, (firstn_cons k). unfold zsum in *. cbn [fold_right nth]. lia. }
  rewrite E. assert (0 <= nth k sizes 0).
  { rewrite Forall_forall in F. apply F. apply nth_In. lia. }
  apply py_range_app; [apply NN; lia|lia].
Qed.
Lemma index_global sizes : Forall (fun n => 0 <= n) sizes ->
  global (index_column sizes) = py_range 0 (zsum sizes) 1 /\ map zlen (index_column sizes) = sizes.
Proof.
  intros F. unfold index_column, global. split.
  - rewrite index_from by (auto; lia). rewrite firstn_all. reflexivity.
  - rewrite map_map. apply nth_error_ext. intros r. rewrite nth_error_map', nth_error_seq.
    destruct (Nat.ltb_spec r (length sizes)) as [L|L]; cbn [option_map].
    + rewrite Nat.add_0_l. cbv zeta. rewrite py_range_length. rewrite (nth_error_nth' sizes 0 L). f_equal.
      rewrite Forall_forall in F. assert (0 <= nth r sizes 0) by (apply F, nth_In, L).
      unfold range_len. cbn [Z.ltb Z.compare]. set (o := zsum (firstn r sizes)). destruct (Z.ltb_spec o (o + nth r sizes 0)); [rewrite Z.div_1_r; lia|lia].
    + symmetry. apply nth_error_None. lia.
Qed.

(* ---------- sort ---------- *)
Lemma sorted_by_classes {R} (key : R -> Z) (L : R -> R -> Prop) (l : list R) :
  StronglySorted (fun a b => key a <= key b) l ->
  (forall c, StronglySorted L (filter (fun r => key r =? c) l)) ->
  StronglySorted (fun a b => (key a <> key b /\ key a <= key b) \/ (key a = key b /\ L a b)) l.
Proof.
  induction 1 as [|x l S IH F]; intros H; constructor.
  - apply IH. intros c. specialize (H c). cbn [filter] in H. destruct (key x =? c); [inversion H; assumption|exact H].
  - specialize (H (key x)). cbn [filter] in H. rewrite Z.eqb_refl in H. inversion H as [|? ? _ F']; subst.
    rewrite Forall_forall in *. intros y Hy. destruct (Z.eq_dec (key x) (key y)) as [E|E]; [right|left; auto].
    split; [exact E|]. apply F'. apply filter_In. split; [exact Hy|]. apply Z.eqb_eq. auto.
Qed.
Lemma sorted_filter {R} (L : R -> R -> Prop) p l : StronglySorted L l -> StronglySorted L (filter p l).
Proof.
  induction 1 as [|x l S IH F]; cbn [filter]; [constructor|]. destruct (p x); [|exact IH]. constructor; [exact IH|].
  rewrite Forall_forall in *. intros y Hy. apply filter_In in Hy. apply F, Hy.
Qed.
Lemma filter_filter {R} (p q : R -> bool) l : filter p (filter q l) = filter (fun x => q x && p x) l.
Proof. induction l as [|x l IH]; [reflexivity|]. cbn [filter]. destruct (q x); cbn [filter andb]; [destruct (p x)|]; rewrite IH; reflexivity. Qed.
Lemma filter_ext' {R} (p q : R -> bool) l : (forall x, In x l -> p x = q x) -> filter p l = filter q l.
Proof.
  induction l as [|x l IH]; intros H; [reflexivity|]. cbn [filter]. rewrite (H x (or_introl eq_refl)), IH; [reflexivity|].
  intros y Hy. apply H. right. exact Hy.
Qed.

Lemma tied_cons {R} f (fs : list (R -> Z)) v0 v r : tied (f :: fs) (v0 :: v) r = (f r =? v0) && tied fs v r.
Proof.
  unfold tied. cbn [map]. destruct (list_eq_dec Z.eq_dec (f r :: map (fun f0 => f0 r) fs) (v0 :: v)) as [E|E];
  destruct (Z.eqb_spec (f r) v0) as [E0|E0]; destruct (list_eq_dec Z.eq_dec (map (fun f0 => f0 r) fs) v) as [E1|E1]; cbn [andb];
  congruence.
Qed.

(* the passes, last key first, with arbitrary integer keys *)
Fixpoint passes {R} (mp : (R -> Z) -> list (list R) -> list (list R)) (ks : list (R -> Z)) parts :=
  match ks with [] => parts | k :: ks => passes mp ks (mp k parts) end.
Lemma passes_snoc {R} mp ks (k : R -> Z) : forall parts, passes mp (ks ++ [k]) parts = mp k (passes mp ks parts).
Proof. induction ks as [|k0 ks IH]; intros parts; [reflexivity|]. cbn [app passes]. apply IH. Qed.

Lemma passes_lex {R} mp (ks : list (R -> Z)) parts : mpsort_contract mp ->
  let out := passes mp (rev ks) parts in
  map (@length R) out = map (@length R) parts /\ Permutation (global out) (global parts) /\
  StronglySorted (lex Z.le ks) (global out) /\
  forall v, filter (tied ks v) (global out) = filter (tied ks v) (global parts).
Proof.
  intros HC. induction ks as [|k ks IH]; cbn [rev].
  - cbn [passes]. repeat split; auto. induction (global parts) as [|x l S]; constructor; [exact S|]. apply Forall_forall. intros; exact I.
  - rewrite passes_snoc. set (mid := passes mp (rev ks) parts) in *. cbv zeta in IH. destruct IH as (L1 & P1 & S1 & T1).
    destruct (HC k mid) as (L2 & P2 & S2 & T2). split; [congruence|]. split; [eapply perm_trans; eassumption|]. split.
    + apply (sorted_by_classes k (lex Z.le ks)); [exact S2|]. intros c. rewrite T2. apply sorted_filter, S1.
    + intros v. destruct v as [|v0 v].
      * assert (forall l : list R, filter (tied (k :: ks) []) l = []) as E.
        { induction l as [|x l IHl]; [reflexivity|]. cbn [filter]. unfold tied at 1. destruct (list_eq_dec Z.eq_dec _ []); [discriminate|exact IHl]. }
        rewrite !E. reflexivity.
      * assert (forall l, filter (tied (k :: ks) (v0 :: v)) l = filter (tied ks v) (filter (fun r => k r =? v0) l)) as E.
        { intros l. rewrite filter_filter. apply filter_ext'. intros r _. apply tied_cons. }
        rewrite !E, T2, !filter_filter.
        assert (forall l : list R, filter (fun x => (k x =? v0) && tied ks v x) l = filter (fun r => k r =? v0) (filter (tied ks v) l)) as E2.
        { intros l. rewrite filter_filter. apply filter_ext'. intros r _. apply andb_comm. }
        rewrite !E2, T1. reflexivity.
Qed.

(* ---------- keys and values ---------- *)
Lemma magnitude_mono fb m m' : 0 <= fb -> 0 <= m -> m < m' -> magnitude fb m < magnitude fb m'.
Proof.
  intros Hf Hm H. unfold magnitude. assert (0 < 2 ^ fb) as HP by (apply Z.pow_pos_nonneg; lia).
  set (P := 2 ^ fb) in *.
  pose proof (Z.div_mod m P ltac:(lia)) as D. pose proof (Z.div_mod m' P ltac:(lia)) as D'.
  pose proof (Z.mod_pos_bound m P HP) as B. pose proof (Z.mod_pos_bound m' P HP) as B'.
  set (e := m / P) in *. set (e' := m' / P) in *. set (f := m mod P) in *. set (f' := m' mod P) in *.
  assert (0 <= e) by (apply Z.div_pos; lia).
  assert (e < e' \/ (e = e' /\ f < f')) as [L|[E L]] by nia.
  - destruct (Z.eqb_spec e 0) as [E0|E0], (Z.eqb_spec e' 0) as [E0'|E0']; try lia.
    + assert (1 <= 2 ^ (e' - 1)) by (assert (0 < 2 ^ (e' - 1)) by (apply Z.pow_pos_nonneg; lia); lia). nia.
    + assert (2 * 2 ^ (e - 1) <= 2 ^ (e' - 1)) as Q.
      { replace (2 * 2 ^ (e - 1)) with (2 ^ e) by (replace e with (Z.succ (e - 1)) at 1 by lia; rewrite Z.pow_succ_r by lia; lia).
        apply Z.pow_le_mono_r; lia. }
      assert (0 < 2 ^ (e - 1)) by (apply Z.pow_pos_nonneg; lia). nia.
  - rewrite <- E. destruct (Z.eqb_spec e 0) as [E0|E0]; [exact L|]. assert (0 < 2 ^ (e - 1)) by (apply Z.pow_pos_nonneg; lia). nia.
Qed.

Definition keyval (dt : dtype) (reverse : bool) (x : Z) : Z := match sortkey dt reverse x with Ok k => k | Err _ => 0 end.

Lemma wrap64_small x : - 2 ^ 63 <= x < 2 ^ 63 -> wrap64 x = x.
Proof.
  intros H. unfold wrap64, signed. replace (64 - 1) with 63 by reflexivity.
  destruct (Z.ltb_spec x 0) as [N|N].
  - assert (x mod 2 ^ 64 = x + 2 ^ 64) as ->.
    { symmetry. apply (Z.mod_unique x (2 ^ 64) (-1)); lia. }
    destruct (Z.ltb_spec (x + 2 ^ 64) (2 ^ 63)); lia.
  - rewrite Z.mod_small by lia. destruct (Z.ltb_spec x (2 ^ 63)); lia.
Qed.

Lemma key_order dt reverse x y : plain dt reverse x -> plain dt reverse y ->
  (keyval dt reverse x = keyval dt reverse y <-> value dt x = value dt y) /\
  (keyval dt reverse x < keyval dt reverse y <-> (if reverse then value dt y < value dt x else value dt x < value dt y)).
Proof.
  assert (HM : forall fb a b, 0 <= fb -> 0 <= a -> 0 <= b -> (a = b <-> magnitude fb a = magnitude fb b) /\ (a < b <-> magnitude fb a < magnitude fb b)).
  { intros fb a b Hf Ha Hb. pose proof (magnitude_mono fb a b Hf Ha). pose proof (magnitude_mono fb b a Hf Hb).
    destruct (Z.lt_trichotomy a b) as [T|[T|T]]; [|subst|]; lia. }
  destruct dt; cbn [plain value]; unfold keyval; cbn [sortkey].
  - intros -> _. cbn. lia.
  - intros Hx Hy. unfold signed, float_value. replace (32 - 1) with 31 by reflexivity.
    destruct (Z.ltb_spec x (2 ^ 31)); [|lia]. destruct (Z.ltb_spec y (2 ^ 31)); [|lia].
    destruct (HM 23 x y) as [M1 M2]; try lia. destruct (HM 23 y x) as [M3 M4]; try lia.
    destruct reverse; [rewrite !wrap64_small by lia|]; lia.
  - intros Hx Hy. unfold signed, float_value. replace (64 - 1) with 63 by reflexivity.
    destruct (Z.ltb_spec x (2 ^ 63)); [|lia]. destruct (Z.ltb_spec y (2 ^ 63)); [|lia].
    destruct (HM 52 x y) as [M1 M2]; try lia. destruct (HM 52 y x) as [M3 M4]; try lia.
    destruct reverse; [rewrite !wrap64_small by lia|]; lia.
  - intros [].
Qed.

Section SortProofs.
Variable R : Type.
Variable field : nat -> R -> Z.
Variable cols : list (nat * dtype).
Variable mp : (R -> Z) -> list (list R) -> list (list R).
Notation dtype_of := (dtype_of cols).

Definition key_of (reverse : bool) (n : nat) (r : R) : Z :=
  match dtype_of n with Some dt => keyval dt reverse (field n r) | None => 0 end.
Notation value_of := (value_of field cols).
Notation all_plain := (all_plain field cols).

Lemma sort_passes_eq reverse rankby : (forall n, In n rankby -> exists dt, dtype_of n = Some dt /\ dt <> DOther) ->
  forall parts, sort_passes R field cols mp reverse rankby parts = Ok (passes mp (map (key_of reverse) rankby) parts).
Proof.
  induction rankby as [|n l IH]; intros H parts; [reflexivity|]. cbn [sort_passes map passes].
  destruct (H n (or_introl eq_refl)) as (dt & E & Hd). unfold sort_pass. rewrite E.
  destruct dt; try congruence; cbn [rbind]; rewrite IH by (intros m Hm; apply H; right; exact Hm); do 3 f_equal; unfold key_of; rewrite E; reflexivity.
Qed.

Lemma key_value reverse keys rows n a b : all_plain reverse keys rows -> In n keys -> In a rows -> In b rows ->
  (key_of reverse n a = key_of reverse n b <-> value_of n a = value_of n b) /\
  (key_of reverse n a < key_of reverse n b <-> (if reverse then value_of n b < value_of n a else value_of n a < value_of n b)).
Proof.
  intros HP Hn Ha Hb. destruct (HP n a Hn Ha) as (dt & E & Pa). destruct (HP n b Hn Hb) as (dt' & E' & Pb).
  assert (dt' = dt) as -> by congruence. unfold key_of, DistSpec.value_of. rewrite E. apply key_order; assumption.
Qed.

Lemma lex_transfer reverse rows a b : forall keys, all_plain reverse keys rows -> In a rows -> In b rows ->
  lex Z.le (map (key_of reverse) keys) a b -> lex (if reverse then Z.ge else Z.le) (map value_of keys) a b.
Proof.
  induction keys as [|n keys IH]; intros HP Ha Hb H; [exact I|]. cbn [map lex] in *.
  destruct (key_value reverse (n :: keys) rows n a b HP (or_introl eq_refl) Ha Hb) as [K1 K2].
  destruct H as [[H1 H2]|[H1 H2]].
  - left. split; [rewrite <- K1; exact H1|]. assert (key_of reverse n a < key_of reverse n b) as K by lia. apply K2 in K.
    destruct reverse; lia.
  - right. split; [apply K1, H1|]. apply IH; auto. intros m r Hm Hr. apply HP; [right; exact Hm|exact Hr].
Qed.

Lemma sorted_transfer {L1 L2 : R -> R -> Prop} l : StronglySorted L1 l -> (forall a b, In a l -> In b l -> L1 a b -> L2 a b) -> StronglySorted L2 l.
Proof.
  induction 1 as [|x l S IH F]; intros H; constructor.
  - apply IH. intros a b Ha Hb. apply H; right; assumption.
  - rewrite Forall_forall in *. intros y Hy. apply H; [left; reflexivity|right; exact Hy|apply F, Hy].
Qed.

Lemma tied_transfer reverse rows r0 r : forall keys, all_plain reverse keys rows -> In r0 rows -> In r rows ->
  tied (map value_of keys) (map (fun n => value_of n r0) keys) r = tied (map (key_of reverse) keys) (map (fun n => key_of reverse n r0) keys) r.
Proof.
  induction keys as [|n keys IH]; intros HP H0 Hr; [reflexivity|]. cbn [map]. rewrite !tied_cons.
  rewrite IH; auto; [|intros m x Hm Hx; apply HP; [right; exact Hm|exact Hx]].
  f_equal. destruct (key_value reverse (n :: keys) rows n r r0 HP (or_introl eq_refl) Hr H0) as [K1 _].
  destruct (Z.eqb_spec (value_of n r) (value_of n r0)), (Z.eqb_spec (key_of reverse n r) (key_of reverse n r0)); try reflexivity; tauto.
Qed.

(* a class of equal values is a class of equal keys, or empty *)
Lemma tied_filter reverse keys rows v l : all_plain reverse keys rows -> (forall r, In r l -> In r rows) ->
  forall l', (forall r, In r l' -> In r rows) ->
  (forall w, filter (tied (map (key_of reverse) keys) w) l = filter (tied (map (key_of reverse) keys) w) l') ->
  filter (tied (map value_of keys) v) l = filter (tied (map value_of keys) v) l'.
Proof.
  intros HP HL l' HL' H.
  destruct (existsb (tied (map value_of keys) v) rows) eqn:E.
  - apply existsb_exists in E. destruct E as (r0 & H0 & T). unfold tied in T. destruct (list_eq_dec _ _ _) as [EV|]; [|discriminate].
    rewrite map_map in EV. rewrite <- EV.
    rewrite (filter_ext' _ (tied (map (key_of reverse) keys) (map (fun n => key_of reverse n r0) keys)) l)
      by (intros r Hr; apply (tied_transfer reverse rows); auto).
    rewrite (filter_ext' (tied (map value_of keys) _) (tied (map (key_of reverse) keys) (map (fun n => key_of reverse n r0) keys)) l')
      by (intros r Hr; apply (tied_transfer reverse rows); auto).
    apply H.
  - assert (forall q : list R, (forall r, In r q -> In r rows) -> filter (tied (map value_of keys) v) q = []) as N.
    { induction q as [|x q IHq]; intros Hq; [reflexivity|]. cbn [filter].
      destruct (tied (map value_of keys) v x) eqn:T; [|apply IHq; intros r Hr; apply Hq; right; exact Hr].
      assert (existsb (tied (map value_of keys) v) rows = true) by (apply existsb_exists; exists x; split; [apply Hq; left; reflexivity|exact T]). congruence. }
    rewrite !N by assumption. reflexivity.
Qed.

Lemma distinct_NoDup l : distinct l = true <-> NoDup l.
Proof.
  induction l as [|x l IH]; cbn [distinct]; [split; [constructor|auto]|]. rewrite andb_true_iff, negb_true_iff, IH. split.
  - intros [H1 H2]. constructor; [|exact H2]. intros Hin. assert (existsb (Nat.eqb x) l = true); [|congruence].
    apply existsb_exists. exists x. split; [exact Hin|apply Nat.eqb_refl].
  - intros H. inversion H; subst. split; [|assumption]. apply not_true_is_false. intros E. apply existsb_exists in E.
    destruct E as (y & Hy & E). apply Nat.eqb_eq in E. congruence.
Qed.
Lemma dtype_of_in n : (exists dt, dtype_of n = Some dt) <-> In n (map fst cols).
Proof.
  unfold DistModel.dtype_of. destruct (find (fun c => Nat.eqb n (fst c)) cols) as [c|] eqn:E.
  - apply find_some in E. destruct E as [E1 E2]. apply Nat.eqb_eq in E2. split; [|eauto]. intros _. rewrite E2. apply in_map, E1.
  - split; [intros [? ?]; discriminate|]. intros H. apply in_map_iff in H. destruct H as (c & <- & Hc).
    pose proof (find_none _ _ E c Hc) as N. cbv beta in N. rewrite Nat.eqb_refl in N. discriminate.
Qed.
Lemma known_in n : (match dtype_of n with Some _ => true | None => false end = true) <-> In n (map fst cols).
Proof. rewrite <- dtype_of_in. destruct (dtype_of n); split; eauto; try discriminate. intros [? ?]; discriminate. Qed.

Lemma sort_ok keys reverse usecols parts : mpsort_contract mp ->
  NoDup keys -> (forall n, In n keys -> exists dt, dtype_of n = Some dt /\ dt <> DOther) ->
  (forall u n, usecols = Some u -> In n u -> In n (map fst cols)) ->
  all_plain reverse keys (global parts) ->
  exists names out, DistModel.sort R field cols mp keys reverse usecols parts = Ok (names, out) /\
    (forall n, In n names <-> In n (match usecols with Some u => u | None => map fst cols end)) /\
    map (@length R) out = map (@length R) parts /\
    Permutation (global out) (global parts) /\
    StronglySorted (lex (if reverse then Z.ge else Z.le) (map value_of keys)) (global out) /\
    (forall v, filter (tied (map value_of keys) v) (global out) = filter (tied (map value_of keys) v) (global parts)).
Proof.
  intros HC HD HK HU HP. unfold DistModel.sort. rewrite (proj2 (distinct_NoDup keys) HD). cbn [negb].
  assert (forallb (fun n => match dtype_of n with Some _ => true | None => false end) keys = true) as ->.
  { apply forallb_forall. intros n Hn. destruct (HK n Hn) as (dt & -> & _). reflexivity. }
  cbn [negb]. set (use := match usecols with Some u => u | None => map fst cols end).
  assert (forallb (fun n => match dtype_of n with Some _ => true | None => false end) use = true) as ->.
  { apply forallb_forall. intros n Hn. apply known_in. unfold use in Hn. destruct usecols; [eapply HU; eauto|exact Hn]. }
  cbn [negb]. rewrite sort_passes_eq by (intros n Hn; apply HK, in_rev, Hn). cbn [rbind]. rewrite map_rev.
  destruct (passes_lex mp (map (key_of reverse) keys) parts HC) as (L & P & S & T). set (out := passes _ _ _) in *.
  exists (nodup Nat.eq_dec use), out. split; [reflexivity|]. split; [intros n; apply nodup_In|]. split; [exact L|]. split; [exact P|].
  assert (HI : forall r, In r (global out) -> In r (global parts)) by (intros r; apply Permutation_in, P).
  split.
  - eapply sorted_transfer; [exact S|]. intros a b Ha Hb. apply (lex_transfer reverse (global parts)); auto.
  - intros v. apply (tied_filter reverse keys (global parts)); auto.
Qed.

Lemma sort_refused keys reverse usecols parts :
  ~ NoDup keys \/ (exists n, In n keys /\ ~ In n (map fst cols)) \/
  (exists u n, usecols = Some u /\ In n u /\ ~ In n (map fst cols)) ->
  DistModel.sort R field cols mp keys reverse usecols parts = Err ValueError.
Proof.
  intros H. unfold DistModel.sort. destruct (distinct keys) eqn:E; [|reflexivity]. cbn [negb].
  destruct H as [H|H]; [apply distinct_NoDup in E; contradiction|].
  destruct (forallb _ keys) eqn:E2; [|reflexivity]. cbn [negb].
  destruct H as [(n & Hn & Hc)|(u & n & -> & Hn & Hc)].
  - rewrite forallb_forall in E2. specialize (E2 n Hn). apply known_in in E2. contradiction.
  - destruct (forallb _ u) eqn:E3; [|reflexivity]. rewrite forallb_forall in E3. specialize (E3 n Hn). apply known_in in E3. contradiction.
Qed.
Lemma sort_other keys reverse usecols parts n : In n keys -> dtype_of n = Some DOther ->
  DistModel.sort R field cols mp keys reverse usecols parts = Err ValueError.
Proof.
  intros Hn Ht. unfold DistModel.sort. destruct (negb (distinct keys)); [reflexivity|].
  destruct (forallb (fun n => match dtype_of n with Some _ => true | None => false end) keys) eqn:EK; cbn [negb]; [|reflexivity].
  destruct (negb _); [reflexivity|].
  assert (forall l p, In n l -> (forall m, In m l -> exists dt, dtype_of m = Some dt) -> sort_passes R field cols mp reverse l p = Err ValueError) as HH.
  { induction l as [|m l IH]; intros p Hl HD; [destruct Hl|]; destruct Hl as [->|Hin]; cbn [sort_passes].
    - unfold sort_pass. rewrite Ht. reflexivity.
    - destruct (HD m (or_introl eq_refl)) as [dt E]. unfold sort_pass. rewrite E.
      destruct dt; try reflexivity; cbn [rbind]; apply IH; auto; intros q Hq; apply HD; right; exact Hq. }
  rewrite HH; [reflexivity|apply -> in_rev; exact Hn|]. intros m Hm. apply in_rev in Hm. rewrite forallb_forall in EK.
  specialize (EK m Hm). destruct (dtype_of m); [eauto|discriminate].
Qed.
End SortProofs.

(* a sorter that meets the contract, to run examples *)
Fixpoint insert {R} (key : R -> Z) (x : R) (l : list R) : list R :=
  match l with [] => [x] | y :: l' => if key x <=? key y then x :: l else y :: insert key x l' end.
Definition isort {R} (key : R -> Z) (l : list R) : list R := fold_right (insert key) [] l.
Fixpoint cut {R} (sizes : list nat) (l : list R) : list (list R) :=
  match sizes with [] => [] | n :: s => firstn n l :: cut s (skipn n l) end.
Definition ref_sort {R} (key : R -> Z) (parts : list (list R)) : list (list R) :=
  cut (map (@length R) parts) (isort key (concat parts)).

Lemma insert_perm {R} (key : R -> Z) x l : Permutation (insert key x l) (x :: l).
Proof.
  induction l as [|y l IH]; cbn [insert]; [reflexivity|]. destruct (key x <=? key y); [reflexivity|].
  eapply perm_trans; [apply perm_skip, IH|apply perm_swap].
Qed.
Lemma isort_perm {R} (key : R -> Z) l : Permutation (isort key l) l.
Proof. induction l as [|x l IH]; [reflexivity|]. cbn. eapply perm_trans; [apply insert_perm|apply perm_skip, IH]. Qed.
Lemma insert_sorted {R} (key : R -> Z) x l : StronglySorted (fun a b => key a <= key b) l -> StronglySorted (fun a b => key a <= key b) (insert key x l).
Proof.
  induction 1 as [|y l S IH F]; cbn [insert]; [repeat constructor|]. destruct (Z.leb_spec (key x) (key y)) as [L|L].
  - constructor; [constructor; assumption|]. constructor; [exact L|]. eapply Forall_impl; [|exact F]. cbv beta. intros; lia.
  - constructor; [exact IH|]. rewrite Forall_forall in *. intros z Hz. apply (Permutation_in _ (insert_perm key x l)) in Hz.
    destruct Hz as [<-|Hz]; [lia|apply F, Hz].
Qed.
Lemma isort_sorted {R} (key : R -> Z) l : StronglySorted (fun a b => key a <= key b) (isort key l).
Proof. induction l as [|x l IH]; cbn; [constructor|apply insert_sorted, IH]. Qed.
Lemma insert_stable {R} (key : R -> Z) x l k : StronglySorted (fun a b => key a <= key b) l ->
  filter (fun r => key r =? k) (insert key x l) = filter (fun r => key r =? k) (x :: l).
Proof.
  induction 1 as [|y l S IH F]; cbn [insert]; [reflexivity|]. destruct (Z.leb_spec (key x) (key y)) as [L|L]; [reflexivity|].
  cbn [filter] in *. rewrite IH. destruct (Z.eqb_spec (key y) k), (Z.eqb_spec (key x) k); try lia; reflexivity.
Qed.
Lemma isort_stable {R} (key : R -> Z) l k : filter (fun r => key r =? k) (isort key l) = filter (fun r => key r =? k) l.
Proof. induction l as [|x l IH]; [reflexivity|]. cbn [isort fold_right]. rewrite insert_stable by apply isort_sorted. cbn [filter]. unfold isort in IH. rewrite IH. reflexivity. Qed.
Lemma cut_ok {R} sizes : forall l : list R, nsum sizes = length l -> concat (cut sizes l) = l /\ map (@length R) (cut sizes l) = sizes.
Proof.
  induction sizes as [|n s IH]; intros l H; cbn [nsum fold_right cut concat map] in *.
  - destruct l; [auto|discriminate].
  - fold (nsum s) in H. destruct (IH (skipn n l)) as [E1 E2]; [rewrite skipn_length; lia|]. rewrite E1, E2, firstn_skipn, firstn_length. split; [reflexivity|]. f_equal. lia.
Qed.
Lemma ref_sort_contract {R} : mpsort_contract (@ref_sort R).
Proof.
  intros key parts. unfold ref_sort, global.
  destruct (cut_ok (map (@length R) parts) (isort key (concat parts))) as [E1 E2].
  { rewrite (Permutation_length (isort_perm key (concat parts))). clear. induction parts as [|p ps IH]; [reflexivity|].
    cbn [map concat nsum fold_right]. rewrite app_length. unfold nsum in IH. lia. }
  rewrite E1. split; [exact E2|]. split; [apply isort_perm|]. split; [apply isort_sorted|]. apply isort_stable.
Qed.

Lemma index_ok sizes : Forall (fun n => 0 <= n) sizes ->
  map zlen (index_column sizes) = sizes /\
  length (global (index_column sizes)) = Z.to_nat (zsum sizes) /\
  forall i, 0 <= i < zsum sizes -> nth_error (global (index_column sizes)) (Z.to_nat i) = Some i.
Proof.
  intros F. destruct (index_global sizes F) as [E1 E2]. rewrite E1. split; [exact E2|].
  unfold py_range. split.
  - rewrite map_length, seq_length. unfold range_len. change (0 <? 1) with true. cbv iota. rewrite Z.div_1_r.
    pose proof (zsum_nonneg sizes F). destruct (Z.ltb_spec 0 (zsum sizes)); lia.
  - intros i Hi. rewrite nth_error_map', nth_error_seq. unfold range_len. change (0 <? 1) with true. cbv iota. rewrite Z.div_1_r.
    destruct (Z.ltb_spec 0 (zsum sizes)); [|lia].
    match goal with |- context [Nat.ltb ?a ?b] => destruct (Nat.ltb_spec a b) as [L|L] end; [cbn [option_map]; f_equal; lia|lia].
Qed.

Definition one_col (n : nat) (r : Z) : Z := r.
Lemma sort_one dt mp reverse parts : mpsort_contract mp -> dt <> DOther ->
  exists names out, DistModel.sort Z one_col [(O, dt)] mp [O] reverse None parts = Ok (names, out) /\
    out = mp (keyval dt reverse) parts.
Proof. intros HC HD. destruct dt; try congruence; eexists; eexists; split; reflexivity. Qed.
Lemma two_rows (x y : Z) (l : list Z) : Permutation l [x; y] -> l = [x; y] \/ l = [y; x].
Proof. intros P. apply Permutation_sym, Permutation_length_2_inv in P. exact P. Qed.
Lemma reverse_int : exists (field : nat -> Z -> Z) cols parts, forall mp, mpsort_contract mp ->
  exists names out, DistModel.sort Z field cols mp [O] true None parts = Ok (names, out) /\
    ~ StronglySorted (lex Z.ge [field O]) (global out).
Proof.
  exists one_col, [(O, DInt)], [[1; 2]]. intros mp HC. destruct (sort_one DInt mp true [[1; 2]] HC) as (names & out & E & ->); [discriminate|].
  exists names, (mp (keyval DInt true) [[1; 2]]). split; [exact E|]. destruct (HC (keyval DInt true) [[1; 2]]) as (_ & P & S & _).
  intros S2. unfold global at 2 in P. cbn in P. destruct (two_rows _ _ _ P) as [Q|Q]; rewrite Q in *.
  - inversion S2 as [|? ? _ F]. inversion F as [|? ? L _]. cbn in L. unfold one_col in L. lia.
  - inversion S as [|? ? _ F]. inversion F as [|? ? L _]. cbn in L. lia.
Qed.
Lemma negative_floats : exists (field : nat -> Z -> Z) cols parts, dtype_of cols O = Some DF8 /\
  forall mp, mpsort_contract mp ->
  exists names out, DistModel.sort Z field cols mp [O] false None parts = Ok (names, out) /\
    ~ StronglySorted (lex Z.le [value_of field cols O]) (global out).
Proof.
  exists one_col, [(O, DF8)], [[13830554455654793216; 13835058055282163712]]. split; [reflexivity|].
  intros mp HC. set (parts := [[_; _]]).
  destruct (sort_one DF8 mp false parts HC) as (names & out & E & ->); [discriminate|].
  exists names, (mp (keyval DF8 false) parts). split; [exact E|]. destruct (HC (keyval DF8 false) parts) as (_ & P & S & _).
  intros S2. unfold global at 2, parts at 2 in P. cbn [concat app] in P. destruct (two_rows _ _ _ P) as [Q|Q]; rewrite Q in *.
  - inversion S2 as [|? ? _ F]. inversion F as [|? ? L _]. vm_compute in L. destruct L as [[_ L]|[L _]]; [apply L; reflexivity|discriminate].
  - inversion S as [|? ? _ F]. inversion F as [|? ? L _]. vm_compute in L. apply L. reflexivity.
Qed.
Lemma sort_uneven : exists (field : nat -> Z -> Z) cols parts, forall mp, mpsort_contract mp ->
  exists names out, DistModel.sort Z field cols mp [O] false None parts = Ok (names, out) /\ ~ balanced (map zlen out).
Proof.
  exists one_col, [(O, DInt)], [[1; 2]; []]. intros mp HC. destruct (sort_one DInt mp false [[1; 2]; []] HC) as (names & out & E & ->); [discriminate|].
  exists names, (mp (keyval DInt false) [[1; 2]; []]). split; [exact E|]. destruct (HC (keyval DInt false) [[1; 2]; []]) as (L & _).
  set (out := mp _ _) in *. intros B. assert (map zlen out = [2; 0]) as Q.
  { unfold zlen. rewrite <- map_map with (f := @length Z) (g := Z.of_nat), L. reflexivity. }
  rewrite Q in B. unfold balanced in B. specialize (B 2 0). cbn in B. lia.
Qed.
