From Verif Require Import Base BaseProofs RanksSpec DaModel DaSpec DaProofs DaBin DaMore DistSpec FofModel FofSpec.
From Coq Require Import Sorted Permutation.
Local Open Scope Z_scope.

(* ---- generalities ---- *)
Lemma zipr_map {A B C D} (f : B -> C -> D) (g : A -> B) (h : A -> C) l : zipr f (map g l) (map h l) = map (fun x => f (g x) (h x)) l.
Proof. unfold zipr. induction l; cbn; congruence. Qed.
Lemma zipr_map_r {A C D} (f : A -> C -> D) (h : A -> C) l : zipr f l (map h l) = map (fun x => f x (h x)) l.
Proof. rewrite <- (map_id l) at 1. apply zipr_map. Qed.
Lemma count_app v a b : count v (a ++ b) = count v a + count v b.
Proof. unfold count. now rewrite filter_app, zlen_app. Qed.
Lemma count_nonneg v l : 0 <= count v l.
Proof. apply zlen_nonneg. Qed.
Lemma count_cons v x l : count v (x :: l) = (if x =? v then 1 else 0) + count v l.
Proof. unfold count. cbn. destruct (x =? v); [now rewrite zlen_cons|lia]. Qed.
Lemma count_perm v a b : Permutation a b -> count v a = count v b.
Proof. intros P. induction P as [|x a b P IH|x y a|a b c P1 IH1 P2 IH2]; rewrite ?count_cons in *; try lia. Qed.
Lemma count_map_inj (f : Z -> Z) v l : (forall x, In x l -> f x = f v -> x = v) -> count (f v) (map f l) = count v l.
Proof.
  induction l as [|x l IH]; intros H; [reflexivity|]. cbn [map]. rewrite !count_cons, IH by (intros; apply H; [now right|assumption]).
  destruct (Z.eqb_spec (f x) (f v)) as [E|N], (Z.eqb_spec x v) as [E'|N']; try lia; [|subst; contradiction]. exfalso. apply N'. apply H; [left; reflexivity|assumption].
Qed.
Lemma count_pos v l : In v l -> 0 < count v l.
Proof. induction l as [|x l IH]; intros []; rewrite count_cons; pose proof (count_nonneg v l); [subst; rewrite Z.eqb_refl; lia|]. specialize (IH H). destruct (x =? v); lia. Qed.
Lemma count_zero v l : count v l = 0 -> ~ In v l.
Proof. intros H I. pose proof (count_pos v l I). lia. Qed.
Lemma count_in v l : 0 < count v l -> In v l.
Proof. induction l as [|x l IH]; [cbn; lia|]. rewrite count_cons. destruct (Z.eqb_spec x v); [left; assumption|]. intros H. right. apply IH. lia. Qed.
Lemma db_perm a b x : Permutation a b -> distinct_below a x = distinct_below b x.
Proof.
  intros P. unfold distinct_below. apply same_elements_length; try apply NoDup_nodup. intros y. rewrite !nodup_In, !filter_In.
  split; intros [H1 H2]; (split; [|assumption]); [apply (Permutation_in y P)|apply (Permutation_in y (Permutation_sym P))]; assumption.
Qed.
Lemma sorted_map {A B} (R : A -> A -> Prop) (Q : B -> B -> Prop) (f : A -> B) l : (forall a b, R a b -> Q (f a) (f b)) -> StronglySorted R l -> StronglySorted Q (map f l).
Proof. intros H. induction 1 as [|x l S IH F]; cbn; constructor; auto. apply Forall_map. eapply Forall_impl; [|exact F]. auto. Qed.
Lemma ss_nth {A} (R : A -> A -> Prop) d l : StronglySorted R l -> forall i j, (i < j)%nat -> (j < length l)%nat -> R (nth i l d) (nth j l d).
Proof.
  induction 1 as [|x l S IH F]; intros i j L1 L2; cbn in L2; [lia|]. destruct j as [|j]; [lia|]. destruct i as [|i]; cbn [nth].
  - rewrite Forall_forall in F. apply F, nth_In. lia.
  - apply IH; lia.
Qed.
Lemma map_map2 {A B C} (f : A -> B) (g : B -> C) (ll : list (list A)) : map (map g) (map (map f) ll) = map (map (fun x => g (f x))) ll.
Proof. rewrite map_map. apply map_ext. intros l. apply map_map. Qed.
Lemma global_map {A B} (f : A -> B) ll : global (map (map f) ll) = map f (global ll).
Proof. unfold global. symmetry. apply concat_map. Qed.

(* ---- counts of ones ---- *)
Lemma total_ones v l : total 0 Z.add v (combine l (map (fun _ => 1) l)) = count v l.
Proof.
  unfold total, count. induction l as [|x l IH]; [reflexivity|]. cbn [map combine filter fst]. destruct (x =? v); [|exact IH]. cbn [map snd fold_right]. rewrite IH, zlen_cons. reflexivity.
Qed.
Lemma combine_app {A B} (a : list A) : forall (b : list B) a' b', length a = length b -> combine (a ++ a') (b ++ b') = combine a b ++ combine a' b'.
Proof. induction a as [|x a IH]; intros [|y b] a' b' L; cbn in *; try discriminate; [reflexivity|]. f_equal. apply IH. lia. Qed.
Lemma all_ones parts : all parts (ones parts) = combine (global parts) (map (fun _ => 1) (global parts)).
Proof.
  unfold all, xw, ones, global. transitivity (concat (map (fun l => combine l (map (fun _ => 1) l)) parts)).
  - f_equal. apply nth_error_ext. intros i. rewrite !nth_error_map', nth_error_seq. destruct (Nat.ltb_spec i (length parts)) as [L|L]; cbn [option_map].
    + rewrite (nth_error_nth' parts [] L). cbn. f_equal. f_equal. change (@nil Z) with (map (fun _ : Z => 1) []) at 1. apply map_nth.
    + now rewrite (proj2 (nth_error_None parts i)) by lia.
  - induction parts as [|p ps IH]; [reflexivity|]. cbn [map concat]. rewrite map_app, combine_app, IH; [reflexivity|]. now rewrite map_length.
Qed.
Lemma xw_ones parts r : xw parts (ones parts) r = combine (nth r parts []) (map (fun _ => 1) (nth r parts [])).
Proof. unfold xw, ones. f_equal. change (@nil Z) with (map (fun _ : Z => 1) []) at 1. apply map_nth. Qed.
Lemma counted_ones l a b : counted 0 Z.add (combine l (map (fun _ => 1) l)) a b = map (fun i => count (a + Z.of_nat i) l) (seq 0 (Z.to_nat (b - a))).
Proof. unfold counted. apply map_ext. intros i. apply total_ones. Qed.
Lemma ones_aligned parts : map (@length Z) parts = map (@length Z) (ones parts).
Proof. unfold ones. rewrite map_map. apply map_ext. intros l. now rewrite map_length. Qed.

(* counting sort *)
Lemma repeat_counts {A} (f : Z -> A) k : forall l o, StronglySorted Z.le l -> (forall a, In a l -> o <= a < o + Z.of_nat k) ->
  concat (map (fun i => repeat (f (o + Z.of_nat i)) (Z.to_nat (count (o + Z.of_nat i) l))) (seq 0 k)) = map f l.
Proof.
  induction k as [|k IH]; intros l o S H.
  - destruct l as [|x l]; [reflexivity|]. specialize (H x (or_introl eq_refl)). lia.
  - cbn [seq map concat]. rewrite Z.add_0_r.
    (* split l into the items equal to o and the rest *)
    assert (exists m, l = repeat o (Z.to_nat (count o l)) ++ m /\ StronglySorted Z.le m /\ (forall a, In a m -> o + 1 <= a < o + Z.of_nat (Datatypes.S k)) /\ (forall v, o + 1 <= v -> count v m = count v l)) as (m & El & Sm & Hm & Cm).
    { clear IH. induction S as [|x l S IH F]; [exists []; split; [reflexivity|]; split; [constructor|]; split; [intros a []|reflexivity]|]. destruct (Z.eq_dec x o) as [->|N].
      - destruct IH as (m & El & Sm & Hm & Cm); [intros a Ha; apply H; now right|]. exists m. rewrite count_cons, Z.eqb_refl. pose proof (count_nonneg o l). replace (Z.to_nat (1 + count o l)) with (Datatypes.S (Z.to_nat (count o l))) by lia.
        split; [cbn; now f_equal|]. split; [assumption|]. split; [assumption|]. intros v Hv. rewrite (Cm v Hv), count_cons. destruct (Z.eqb_spec o v); lia.
      - exists (x :: l). pose proof (H x (or_introl eq_refl)) as Hx. rewrite Forall_forall in F. assert (count o (x :: l) = 0) as ->.
        { rewrite count_cons. destruct (Z.eqb_spec x o); [contradiction|]. destruct (Z.eq_dec (count o l) 0) as [->|NZ]; [reflexivity|]. exfalso. pose proof (count_nonneg o l). assert (In o l) as Io by (apply count_in; lia). specialize (F o Io). lia. }
        split; [reflexivity|]. split; [constructor; [assumption|now apply Forall_forall]|]. split; [|reflexivity]. intros a [<-|Ha]; [lia|]. specialize (F a Ha). specialize (H a (or_intror Ha)). lia. }
    rewrite El at 2. rewrite map_app. f_equal; [generalize (Z.to_nat (count o l)); intros n0; induction n0; cbn; congruence|]. rewrite <- seq_shift, map_map. rewrite <- (IH m (o + 1) Sm) by (intros a Ha; specialize (Hm a Ha); lia).
    f_equal. apply map_ext. intros i. replace (o + 1 + Z.of_nat i) with (o + Z.of_nat (Datatypes.S i)) by lia. now rewrite (Cm (o + Z.of_nat (Datatypes.S i))) by lia.
Qed.
Lemma repeat_rank {A} (f : Z -> A) l o x : StronglySorted Z.le l -> last_error l = Some x -> (forall a, In a l -> o <= a) ->
  np_repeat (map f (map (fun i => o + Z.of_nat i) (seq 0 (Z.to_nat (x + 1 - o))))) (map (fun i => count (o + Z.of_nat i) l) (seq 0 (Z.to_nat (x + 1 - o)))) = Ok (map f l).
Proof.
  intros S E H. unfold np_repeat. rewrite !map_length, Nat.eqb_refl. f_equal. rewrite map_map, zipr_map. apply repeat_counts; [assumption|]. intros a Ha. destruct (sorted_last l x S E) as [Ix Lx]. specialize (Lx a Ha). specialize (H a Ha). lia.
Qed.

Definition aroundZ := around 0 Z.add Z.add_0_r Z.add_comm Z.add_assoc.
Definition off_leZ := off_le 0 Z.add Z.add_0_r Z.add_comm Z.add_assoc.
(* ---- the rows ---- *)
Lemma fof_rows_global minid : global (fof_rows minid) = indexed 0 (global minid) /\ map (@length _) (fof_rows minid) = map (@length Z) minid /\ map (map snd) (fof_rows minid) = minid.
Proof.
  assert (forall r, let l := nth r minid [] in combine (map (fun i => Z.of_nat i + zsum (map zlen (firstn r minid))) (seq 0 (length l))) l = combine (map (fun i => 0 + coffset minid r + Z.of_nat i) (seq 0 (length l))) l) as E.
  { intros r l. f_equal. apply map_ext. intros i. unfold coffset. lia. }
  unfold fof_rows. rewrite (map_ext _ _ E). split; [|split].
  - unfold global at 1. rewrite rows_one, firstn_all by lia. reflexivity.
  - rewrite map_map. apply nth_error_ext. intros i. rewrite !nth_error_map', nth_error_seq. destruct (Nat.ltb_spec i (length minid)) as [L|L]; cbn [option_map].
    + rewrite (nth_error_nth' minid [] L). cbn. rewrite combine_length, map_length, seq_length. f_equal. lia.
    + now rewrite (proj2 (nth_error_None minid i)) by lia.
  - rewrite map_map. apply nth_error_ext. intros i. rewrite !nth_error_map', nth_error_seq. destruct (Nat.ltb_spec i (length minid)) as [L|L]; cbn [option_map].
    + rewrite (nth_error_nth' minid [] L). cbn [Nat.add]. f_equal. generalize 0%nat as k. generalize (nth i minid []) as l. induction l as [|x l IH]; intros k; cbn; [reflexivity|]. f_equal. apply IH.
    + now rewrite (proj2 (nth_error_None minid i)) by lia.
Qed.

Lemma set_fofid_map (h : Z -> Z) data : zipr set_fofid data (map (map h) (map (map snd) data)) = map (map (fun r : Z * Z => (fst r, h (snd r)))) data.
Proof.
  rewrite map_map2. rewrite zipr_map_r. apply map_ext. intros rows. unfold set_fofid. rewrite zipr_map_r. reflexivity.
Qed.
Lemma fofid_sorted (data : list (list (Z * Z))) : StronglySorted (fun a b => snd a <= snd b) (global data) -> globally_sorted (map (map snd) data).
Proof. intros S. unfold globally_sorted. rewrite global_map. eapply sorted_map; [|exact S]. auto. Qed.
Lemma perm_map_nonempty {A B} (f : A -> B) l m : Permutation l m -> m <> [] -> map f l <> [].
Proof. intros P N H. apply map_eq_nil in H. subst. apply Permutation_nil in P. subst. contradiction. Qed.

(* labels of sorted data: globally sorted and nonnegative *)
Lemma labels_sorted parts g : globally_sorted parts -> globally_sorted (map (map (distinct_below g)) parts).
Proof. intros S. unfold globally_sorted in *. rewrite global_map. eapply sorted_map; [|exact S]. intros a b. apply db_le. Qed.

Section Assign.
Variable mpsort : (Z * Z -> Z) -> list (list (Z * Z)) -> list (list (Z * Z)).
Variable argsort : list Z -> list nat.
Hypothesis sort_ok : mpsort_contract mpsort.
Variable thresh : Z.

(* the part of assign_labels on sorted labels that decides which are small *)
Lemma small_ok label : globally_sorted label -> (forall x, In x (global label) -> 0 <= x) -> global label <> [] ->
  (forall x b, In x (global label) -> 0 <= b <= x -> In b (global label)) ->
  exists n nlocal, bincount 0 Z.add true label (ones label) = Ok n /\ bincount_local 0 Z.add label (ones label) = Ok nlocal /\
    rall (zipr np_repeat (map (map (fun c => c <=? thresh)) n) nlocal) = Ok (map (map (fun x => count x (global label) <=? thresh)) label) /\
    existsb (fun x : bool => x) (concat (map (map (fun c => c <=? thresh)) n)) = existsb (fun x => count x (global label) <=? thresh) (global label).
Proof.
  intros S P NE D. pose proof (ones_aligned label) as AL.
  pose proof (bincount_shared_ok 0 Z.add Z.add_0_r Z.add_comm Z.add_assoc label (ones label) S P AL NE) as B1.
  pose proof (bincount_local_ok 0 Z.add Z.add_0_r Z.add_comm Z.add_assoc label (ones label) S P AL) as B2.
  eexists; eexists. split; [exact B1|]. split; [exact B2|].
  assert (forall r, (r < length label)%nat -> forall x1, last_error (nth r label []) = Some x1 ->
    result 0 Z.add label (ones label) true r = map (fun i => count (off label r + Z.of_nat i) (global label)) (seq 0 (Z.to_nat (x1 + 1 - off label r))) /\
    local_counts 0 Z.add label (ones label) r = map (fun i => count (off label r + Z.of_nat i) (nth r label [])) (seq 0 (Z.to_nat (x1 + 1 - off label r)))) as R.
  { intros r L x1 E. unfold result, local_counts. rewrite E, all_ones, xw_ones, !counted_ones. auto. }
  split.
  - rewrite map_map. rewrite zipr_map. rewrite <- rall_ok. f_equal. rewrite map_map. apply nth_error_ext. intros r. rewrite !nth_error_map', nth_error_seq. destruct (Nat.ltb_spec r (length label)) as [L|L]; cbn [option_map].
    + rewrite (nth_error_nth' label [] L). cbn [Nat.add option_map]. f_equal. destruct (aroundZ label S r L) as (G & Sr & _). destruct (last_error (nth r label [])) as [x1|] eqn:E.
      * destruct (R r L x1 E) as [-> ->]. rewrite map_map. erewrite map_ext; [rewrite <- (map_map (fun i => off label r + Z.of_nat i) (fun v => count v (global label) <=? thresh)); apply repeat_rank; [assumption|assumption|]|reflexivity].
        intros a Ha. apply off_leZ; assumption.
      * apply last_error_none in E. unfold result, local_counts. rewrite E. reflexivity.
    + now rewrite (proj2 (nth_error_None label r)) by lia.
  - apply eq_true_iff_eq. rewrite !existsb_exists. split.
    + intros (b & Ib & ->). apply in_concat in Ib. destruct Ib as (l & Il & Ib). rewrite map_map in Il. apply in_map_iff in Il. destruct Il as (r & <- & Ir). apply in_seq in Ir. cbn [Nat.add] in Ir.
      destruct (last_error (nth r label [])) as [x1|] eqn:E; [|unfold result in Ib; rewrite E in Ib; contradiction]. destruct (R r ltac:(lia) x1 E) as [QQ _]. rewrite QQ, map_map in Ib. apply in_map_iff in Ib. destruct Ib as (i & Hb & Hi). apply in_seq in Hi.
      destruct (aroundZ label S r ltac:(lia)) as (G & Sr & _). destruct (sorted_last _ x1 Sr E) as [I1 _]. exists (off label r + Z.of_nat i). split; [|exact Hb].
      apply (D x1); [rewrite G; apply in_or_app; right; apply in_or_app; auto|].
      assert (0 <= off label r); [|lia]. unfold off. rewrite prev_eq. unfold bin_offset. destruct (last_error (concat (firstn r label))) as [p|] eqn:EP; [|lia].
      assert (0 <= p). { apply P. rewrite G. apply in_or_app. left. destruct (last_error_some _ _ EP) as (m & ->). apply in_or_app. right. left. reflexivity. }
      destruct (nth r label []); [lia|]. destruct (p =? z); lia.
    + intros (x & Ix & Hx). unfold global in Ix. apply in_concat in Ix. destruct Ix as (l & Il & Ix). apply (In_nth _ _ []) in Il. destruct Il as (r & L & El). exists true. split; [|reflexivity].
      destruct (last_error (nth r label [])) as [x1|] eqn:E; [|apply last_error_none in E; subst l; rewrite E in Ix; contradiction].
      destruct (R r L x1 E) as [Q _]. destruct (aroundZ label S r L) as (_ & Sr & _). destruct (sorted_last _ x1 Sr E) as [_ L1]. subst l.
      pose proof (off_leZ label S P r x L Ix) as O. specialize (L1 x Ix).
      apply in_concat. exists (map (fun c => c <=? thresh) (result 0 Z.add label (ones label) true r)). split; [rewrite map_map; apply in_map_iff; exists r; split; [reflexivity|apply in_seq; lia]|].
      rewrite Q, map_map. apply in_map_iff. exists (Z.to_nat (x - off label r)). split; [replace (off label r + Z.of_nat (Z.to_nat (x - off label r))) with x by lia; exact Hx|apply in_seq; lia].
Qed.

Definition finish (label : list (list Z)) : res (list (list Z)) :=
  let! maxs := rall (map np_max label) in
  let nhalo0 := Z.to_nat (zmax maxs + 1) in
  let n := map (fun b => zsum (map (fun l => zlen (filter (fun x => x =? Z.of_nat b) l)) label)) (seq 0 nhalo0) in
  let arg := map S (rev (argsort (tl n))) in
  let p := put (map Z.of_nat (seq 0 nhalo0)) arg (map (fun i => Z.of_nat i + 1) (seq 0 (length arg))) in
  Ok (map (map (fun x => nth (Z.to_nat x) p 0)) label).

Variable minid : list (list Z).
Hypothesis NE : global minid <> [].
Let g := global minid.
Definition lab1 (m : Z) : Z := if count m (global minid) <=? thresh then 0 else distinct_below (global minid) m + 1.
Definition any_small : bool := existsb (fun m => count m (global minid) <=? thresh) (global minid).
Definition lab2 (m : Z) : Z := distinct_below (map lab1 (global minid)) (lab1 m) + if any_small then 0 else 1.

Lemma assign_to_finish : assign_labels mpsort argsort thresh minid = finish (map (map lab2) minid).
Proof.
  destruct (fof_rows_global minid) as (FG & FL & FS). unfold assign_labels.
  rewrite da_init_ok by (rewrite FG; intros H; apply (f_equal (map snd)) in H; rewrite indexed_snd in H; contradiction). cbn [rbind].
  destruct (sort_ok snd (fof_rows minid)) as (L1 & P1 & S1 & _). set (d1 := mpsort snd (fof_rows minid)) in *.
  assert (Permutation (map snd (global d1)) g) as PG. { unfold g. rewrite <- (indexed_snd 0 (global minid)), <- FG. now apply Permutation_map. }
  assert (global (map (map snd) d1) <> []) as N1. { rewrite global_map. intros H. rewrite H in PG. apply Permutation_nil in PG. contradiction. }
  rewrite (unique_labels_ok _ (fofid_sorted d1 S1) N1). cbn [rbind]. rewrite global_map.
  rewrite (map_ext (map (distinct_below (map snd (global d1)))) (map (distinct_below g))) by (intros l; apply map_ext; intros x; apply db_perm, PG).
  set (label := map (map (distinct_below g)) (map (map snd) d1)).
  assert (global label = map (distinct_below g) (map snd (global d1))) as GL by (unfold label; rewrite !global_map; reflexivity).
  assert (forall m, In m g -> count (distinct_below g m) (global label) = count m g) as CL.
  { intros m Hm. rewrite GL. rewrite <- (count_perm m _ _ PG). apply count_map_inj. intros x Hx E. apply (db_inj g); auto. apply (Permutation_in x PG Hx). }
  destruct (small_ok label) as (n & nl & B1 & B2 & B3 & B4).
  - unfold label. apply labels_sorted, fofid_sorted, S1.
  - intros x Hx. rewrite GL in Hx. apply in_map_iff in Hx. destruct Hx as (m & <- & _). apply db_nonneg.
  - rewrite GL. intros H. apply map_eq_nil in H. rewrite global_map in N1. contradiction.
  - intros x b Hx Hb. rewrite GL in *. apply in_map_iff in Hx. destruct Hx as (m & <- & Hm). destruct (db_dense g m b) as (y & Hy & <-); [apply (Permutation_in m PG Hm)|lia|]. apply in_map. apply (Permutation_in y (Permutation_sym PG) Hy).
  - rewrite B1. cbn [rbind]. rewrite B2. cbn [rbind]. cbv zeta. rewrite B3. cbn [rbind]. rewrite B4. clear B1 B2 B3 B4 n nl.
    assert (rall (zipr (fun l m => clear (map (fun x => x + 1) l) m) label (map (map (fun x => count x (global label) <=? thresh)) label)) = Ok (map (map lab1) (map (map snd) d1))) as ->.
    { rewrite zipr_map_r. rewrite <- rall_ok. f_equal. unfold label at 2. rewrite !map_map. apply map_ext_in. intros rows Hr. unfold clear. rewrite !map_length, Nat.eqb_refl. f_equal. rewrite !map_map, zipr_map.
      apply map_ext_in. intros [o m] Hm. cbn [snd]. unfold lab1. fold g. rewrite CL; [reflexivity|]. apply (Permutation_in m PG). apply in_map_iff. exists (o, m). split; [reflexivity|]. apply in_concat. eauto. }
    cbn [rbind]. rewrite set_fofid_map. set (d2 := map (map (fun r : Z * Z => (fst r, lab1 (snd r)))) d1).
    destruct (sort_ok snd d2) as (L3 & P3 & S3 & _). set (d3 := mpsort snd d2) in *.
    assert (map snd (global d2) = map lab1 (map snd (global d1))) as G2. { unfold d2. rewrite global_map, !map_map. reflexivity. }
    assert (Permutation (map snd (global d3)) (map lab1 g)) as PG3. { transitivity (map snd (global d2)); [now apply Permutation_map|]. rewrite G2. now apply Permutation_map. }
    assert (global (map (map snd) d3) <> []) as N3. { rewrite global_map. intros H. rewrite H in PG3. apply Permutation_nil, map_eq_nil in PG3. contradiction. }
    rewrite (unique_labels_ok _ (fofid_sorted d3 S3) N3). cbn [rbind]. rewrite global_map.
    rewrite (map_ext (map (distinct_below (map snd (global d3)))) (map (distinct_below (map lab1 g)))) by (intros l; apply map_ext; intros x; apply db_perm, PG3).
    rewrite set_fofid_map.
    assert (existsb (fun x => count x (global label) <=? thresh) (global label) = any_small) as AS.
    { unfold any_small. fold g. apply eq_true_iff_eq. rewrite !existsb_exists. split.
      - intros (x & Hx & Q). rewrite GL in Hx. apply in_map_iff in Hx. destruct Hx as (m & <- & Hm). assert (In m g) as Ig by (apply (Permutation_in m PG Hm)). rewrite (CL m Ig) in Q. eauto.
      - intros (m & Hm & Q). exists (distinct_below g m). rewrite (CL m Hm). split; [|assumption]. rewrite GL. apply in_map, (Permutation_in m (Permutation_sym PG) Hm). }
    rewrite AS.
    assert ((if any_small then map (map (fun r : Z * Z => (fst r, distinct_below (map lab1 g) (snd r)))) d3 else map (map (fun r => (fst r, snd r + 1))) (map (map (fun r : Z * Z => (fst r, distinct_below (map lab1 g) (snd r)))) d3))
      = map (map (fun r : Z * Z => (fst r, distinct_below (map lab1 g) (snd r) + if any_small then 0 else 1))) d3) as ->.
    { destruct any_small; [|now rewrite map_map2]. apply map_ext. intros rows. apply map_ext. intros r. now rewrite Z.add_0_r. }
    set (d4 := map (map (fun r : Z * Z => (fst r, distinct_below (map lab1 g) (snd r) + (if any_small then 0 else 1)))) d3).
    destruct (sort_ok fst d4) as (L5 & P5 & S5 & _). set (d5 := mpsort fst d4) in *.
    assert (d5 = map (map (fun r : Z * Z => (fst r, lab2 (snd r)))) (fof_rows minid)) as E5.
    { assert (Permutation (global d5) (map (fun r : Z * Z => (fst r, lab2 (snd r))) (indexed 0 g))) as PP.
      { rewrite P5. unfold d4. rewrite global_map. rewrite P3. unfold d2. rewrite global_map, map_map. cbn [fst snd]. rewrite P1, FG. reflexivity. }
      assert (map fst (map (fun r : Z * Z => (fst r, lab2 (snd r))) (indexed 0 g)) = map fst (indexed 0 g)) as EF by (rewrite map_map; reflexivity).
      apply same_parts.
      - rewrite L5. unfold d4. rewrite map_map. rewrite (map_ext _ (@length (Z * Z))) by (intros; apply map_length). rewrite L3. unfold d2. rewrite map_map. rewrite (map_ext _ (@length (Z * Z))) by (intros; apply map_length).
        rewrite L1. rewrite map_map. apply map_ext. intros. now rewrite map_length.
      - change (global d5 = global (map (map (fun r : Z * Z => (fst r, lab2 (snd r)))) (fof_rows minid))). rewrite global_map, FG. apply (sorted_perm_unique fst).
        + exact PP.
        + apply (Permutation_NoDup (l := map fst (map (fun r : Z * Z => (fst r, lab2 (snd r))) (indexed 0 g)))); [apply Permutation_map; symmetry; exact PP|]. rewrite EF. apply indexed_sorted.
        + exact S5.
        + eapply sorted_map; [|apply (proj1 (indexed_sorted 0 g))]. cbn. auto. }
    rewrite E5. rewrite map_map2. cbn [snd].
    assert (map (map (fun r : Z * Z => lab2 (snd r))) (fof_rows minid) = map (map lab2) minid) as ->; [|reflexivity].
    rewrite <- map_map2. now rewrite FS.
Qed.
End Assign.
