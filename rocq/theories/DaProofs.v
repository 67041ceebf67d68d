From Verif Require Import Base BaseProofs RanksSpec DaModel DaSpec.
From Coq Require Import Sorted Permutation.
Local Open Scope Z_scope.

(* ---- generalities ---- *)
Lemma same_elements_length (a b : list Z) : NoDup a -> NoDup b -> (forall x, In x a <-> In x b) -> zlen a = zlen b.
Proof. intros Ha Hb H. unfold zlen. now rewrite (Permutation_length (NoDup_Permutation Ha Hb H)). Qed.
Lemma sorted_app_inv (a b : list Z) : StronglySorted Z.le (a ++ b) -> StronglySorted Z.le a /\ StronglySorted Z.le b /\ (forall x y, In x a -> In y b -> x <= y).
Proof.
  induction a as [|x a IH]; cbn [app]; intros H; [split; [constructor|split; [assumption|intros x y []]]|].
  inversion H as [|? ? H1 H2]; subst. destruct (IH H1) as (A & B & C). split; [|split; [assumption|]].
  - constructor; [assumption|]. apply Forall_forall. intros y Hy. rewrite Forall_forall in H2. apply H2, in_or_app. auto.
  - intros u v [<-|Hu] Hv; [rewrite Forall_forall in H2; apply H2, in_or_app; auto|eauto].
Qed.
Lemma NoDup_app_intro {A} (a b : list A) : NoDup a -> NoDup b -> (forall x, In x a -> In x b -> False) -> NoDup (a ++ b).
Proof.
  induction 1 as [|x a H N IH]; cbn [app]; intros Hb D; [assumption|]. constructor.
  - rewrite in_app_iff. intros [I|I]; [contradiction|]. apply (D x); cbn; auto.
  - apply IH; [assumption|]. intros y Hy. apply D. now right.
Qed.
Lemma last_error_app {A} (a b : list A) : last_error (a ++ b) = match last_error b with Some x => Some x | None => last_error a end.
Proof. unfold last_error. rewrite rev_app_distr. destruct (rev b); reflexivity. Qed.
Lemma last_error_snoc {A} (a : list A) x : last_error (a ++ [x]) = Some x.
Proof. now rewrite last_error_app. Qed.
Lemma last_error_none {A} (l : list A) : last_error l = None -> l = [].
Proof. unfold last_error. intros H. destruct (rev l) eqn:E; [|discriminate]. now rewrite <- (rev_involutive l), E. Qed.
Lemma last_error_some {A} (l : list A) x : last_error l = Some x -> exists m, l = m ++ [x].
Proof. unfold last_error. intros H. destruct (rev l) eqn:E; [discriminate|]. injection H as ->. exists (rev l0). now rewrite <- (rev_involutive l), E. Qed.
Lemma first_some_heads {A} (ps : list (list A)) : first_some (heads ps) = hd_error (concat ps).
Proof. induction ps as [|[|x p] ps IH]; cbn; auto. Qed.
Lemma first_some_app {A} (a b : list (option A)) : first_some (a ++ b) = match first_some a with Some x => Some x | None => first_some b end.
Proof. induction a as [|[x|] a IH]; cbn; auto. Qed.
Lemma first_some_tails {A} (ps : list (list A)) : first_some (rev (tails ps)) = last_error (concat ps).
Proof.
  induction ps as [|p ps IH]; [reflexivity|]. cbn [tails map rev concat]. rewrite first_some_app. unfold tails in IH. rewrite IH. rewrite last_error_app.
  destruct (last_error (concat ps)); [reflexivity|]. cbn. destruct (last_error p); reflexivity.
Qed.
Lemma prev_eq {A} (parts : list (list A)) r : prev parts r = last_error (concat (firstn r parts)).
Proof. unfold prev, tails. rewrite firstn_map. apply first_some_tails. Qed.
Lemma next_eq {A} (parts : list (list A)) r : next parts r = hd_error (concat (skipn (S r) parts)).
Proof. unfold next, heads. rewrite skipn_map. apply first_some_heads. Qed.

Lemma map_seq_nth {A B} (d : A) (f : nat -> A -> B) (l : list A) : map (fun r => f r (nth r l d)) (seq 0 (length l)) = map (fun p => f (fst p) (snd p)) (combine (seq 0 (length l)) l).
Proof.
  apply nth_error_ext. intros i. rewrite !nth_error_map'. rewrite nth_error_seq.
  destruct (Nat.ltb_spec i (length l)) as [L|L].
  - destruct (nth_error l i) as [x|] eqn:E; [|apply nth_error_None in E; lia].
    assert (nth_error (combine (seq 0 (length l)) l) i = Some (i, x)) as ->.
    { clear -E L. assert (forall k, nth_error (combine (seq k (length l)) l) i = Some ((k + i)%nat, x)) as H; [|apply (H O)].
      revert i E L. induction l as [|y l IH]; intros [|i] E L k; cbn in *; try discriminate; try lia.
      - injection E as ->. now rewrite Nat.add_0_r.
      - rewrite (IH i E ltac:(lia) (S k)). do 2 f_equal. lia. }
    cbn. now rewrite (nth_error_nth l i d E).
  - cbn. assert (nth_error (combine (seq 0 (length l)) l) i = None) as ->; [|reflexivity]. apply nth_error_None. rewrite combine_length, seq_length. lia.
Qed.

Lemma split_at {A} (parts : list (list A)) r p : nth_error parts r = Some p -> parts = firstn r parts ++ p :: skipn (S r) parts.
Proof. revert r. induction parts as [|q parts IH]; intros [|r] H; cbn in *; try discriminate; [injection H as ->; reflexivity|]. f_equal. now apply IH. Qed.
Lemma global_split {A} (parts : list (list A)) r p : nth_error parts r = Some p -> global parts = concat (firstn r parts) ++ p ++ concat (skipn (S r) parts).
Proof. intros H. unfold global. rewrite (split_at parts r p H) at 1. now rewrite concat_app. Qed.
Lemma da_init_ok {A} (parts : list (list A)) : global parts <> [] -> da_init parts = Ok parts.
Proof.
  unfold da_init, global. intros H. destruct (forallb is_empty parts) eqn:E; [|reflexivity]. exfalso. apply H. clear H.
  induction parts as [|[|x p] parts IH]; cbn in *; [reflexivity|auto|discriminate].
Qed.

(* ---- numpy.unique ---- *)
Lemma unique_insert_in x y l : In y (unique_insert x l) <-> y = x \/ In y l.
Proof.
  induction l as [|z l IH]; cbn [unique_insert In]; [intuition|].
  destruct (Z.ltb_spec x z); [cbn; intuition|]. destruct (Z.eqb_spec x z); [subst; cbn; intuition|]. cbn [In]. rewrite IH. intuition.
Qed.
Lemma unique_insert_sorted x l : StronglySorted Z.lt l -> StronglySorted Z.lt (unique_insert x l).
Proof.
  induction 1 as [|z l H IH F]; cbn [unique_insert]; [repeat constructor|].
  destruct (Z.ltb_spec x z). { constructor; [constructor; assumption|]. constructor; [assumption|]. eapply Forall_impl; [|exact F]. cbn. lia. }
  destruct (Z.eqb_spec x z); [constructor; assumption|]. constructor; [assumption|]. apply Forall_forall. intros y Hy. apply unique_insert_in in Hy.
  rewrite Forall_forall in F. destruct Hy as [->|Hy]; [lia|auto].
Qed.
Lemma np_unique_in y l : In y (np_unique l) <-> In y l.
Proof. induction l as [|x l IH]; cbn [np_unique fold_right]; [reflexivity|]. change (fold_right unique_insert [] l) with (np_unique l). rewrite unique_insert_in, IH. cbn. intuition. Qed.
Lemma np_unique_sorted l : StronglySorted Z.lt (np_unique l).
Proof. induction l; cbn; [constructor|now apply unique_insert_sorted]. Qed.
Lemma sorted_lt_NoDup l : StronglySorted Z.lt l -> NoDup l.
Proof. induction 1 as [|x l H IH F]; constructor; auto. intros I. rewrite Forall_forall in F. specialize (F x I). lia. Qed.
Lemma sorted_filter_lt (p : Z -> bool) l : StronglySorted Z.lt l -> StronglySorted Z.lt (filter p l).
Proof.
  induction 1 as [|x l H IH F]; cbn; [constructor|]. destruct (p x); [|assumption]. constructor; [assumption|]. apply Forall_forall. intros y Hy.
  apply filter_In in Hy. rewrite Forall_forall in F. now apply F.
Qed.
Lemma searchsorted_count l x : StronglySorted Z.lt l -> Z.of_nat (searchsorted l x) = zlen (filter (fun y => y <? x) l).
Proof.
  induction 1 as [|y l H IH F]; [reflexivity|]. cbn [searchsorted filter]. destruct (Z.ltb_spec y x); [rewrite zlen_cons, Nat2Z.inj_succ, IH; lia|].
  assert (filter (fun y0 => y0 <? x) l = []) as ->; [|reflexivity]. rewrite Forall_forall in F. clear IH H. induction l as [|z l IH]; [reflexivity|].
  cbn. destruct (Z.ltb_spec z x); [specialize (F z (or_introl eq_refl)); lia|]. apply IH. intros u Hu. apply F. now right.
Qed.
Lemma unique_rank l x : Z.of_nat (searchsorted (np_unique l) x) = distinct_below l x.
Proof.
  rewrite (searchsorted_count _ _ (np_unique_sorted l)). apply same_elements_length; [apply sorted_lt_NoDup, sorted_filter_lt, np_unique_sorted|apply NoDup_nodup|].
  intros y. rewrite nodup_In, !filter_In, np_unique_in. reflexivity.
Qed.

(* ---- distinct_below ---- *)
Lemma db_nonneg l x : 0 <= distinct_below l x.
Proof. apply zlen_nonneg. Qed.
Lemma db_app p rest h x : (forall a, In a p -> a <= h) -> (forall a, In a rest -> h <= a) -> In h rest -> h <= x ->
  distinct_below (p ++ rest) x = distinct_below p h + distinct_below rest x.
Proof.
  intros Hp Hr Hh Hx. unfold distinct_below. rewrite <- zlen_app. apply same_elements_length; [apply NoDup_nodup| |].
  - apply NoDup_app_intro; try apply NoDup_nodup. intros y H1 H2. rewrite nodup_In, filter_In in *. specialize (Hr y (proj1 H2)). lia.
  - intros y. rewrite in_app_iff, !nodup_In, !filter_In, in_app_iff. split.
    + intros [[H|H] L]; [|right; auto]. destruct (Z.ltb_spec y h); [left; auto|]. right. specialize (Hp y H). assert (y = h) by lia. subst. auto.
    + intros [[H L]|[H L]]; [|auto]. split; [auto|lia].
Qed.
Lemma db_app_ge l rest x : (forall a, In a rest -> x <= a) -> distinct_below (l ++ rest) x = distinct_below l x.
Proof.
  intros H. unfold distinct_below. apply same_elements_length; try apply NoDup_nodup. intros y. rewrite !nodup_In, !filter_In, in_app_iff.
  split; [intros [[I|I] L]; [auto|specialize (H y I); lia]|intros [I L]; auto].
Qed.
Lemma db_0 l x : (forall a, In a l -> x <= a) -> distinct_below l x = 0.
Proof. intros H. change l with ([] ++ l). now rewrite db_app_ge. Qed.

Lemma sorted_last (l : list Z) x : StronglySorted Z.le l -> last_error l = Some x -> In x l /\ forall a, In a l -> a <= x.
Proof.
  intros S H. apply last_error_some in H. destruct H as (m & ->). split; [apply in_or_app; right; left; reflexivity|]. intros a Ha. apply in_app_or in Ha.
  destruct (sorted_app_inv _ _ S) as (_ & _ & D). destruct Ha as [Ha|[->|[]]]; [apply D; [assumption|left; reflexivity]|lia].
Qed.
Lemma sorted_head (l : list Z) x : StronglySorted Z.le l -> hd_error l = Some x -> In x l /\ forall a, In a l -> x <= a.
Proof.
  intros S H. destruct l as [|y l]; [discriminate|]. injection H as ->. split; [left; reflexivity|]. inversion S as [|? ? ? F]; subst. rewrite Forall_forall in F.
  intros a [<-|Ha]; [lia|auto].
Qed.
Lemma n_unique_db p h : StronglySorted Z.le p -> (forall a, In a p -> a <= h) -> n_unique (Some h) p = distinct_below p h.
Proof.
  intros S H. unfold n_unique. destruct (last_error p) as [x|] eqn:E; [|apply last_error_none in E; subst; reflexivity].
  destruct (sorted_last p x S E) as [I L]. cbn [opt_eqb]. unfold distinct_below. destruct (Z.eqb_spec h x) as [->|N].
  - assert (zlen (np_unique p) = zlen (nodup Z.eq_dec (filter (fun y => y <? x) p) ++ [x])) as ->; [|rewrite zlen_app, zlen_cons; cbn; lia].
    apply same_elements_length; [apply sorted_lt_NoDup, np_unique_sorted| |].
    + apply NoDup_app_intro; [apply NoDup_nodup|repeat constructor; intros []|]. intros y H1 [->|[]]. rewrite nodup_In, filter_In in H1. lia.
    + intros y. rewrite np_unique_in, in_app_iff, nodup_In, filter_In. cbn [In]. split.
      * intros Hy. specialize (L y Hy). destruct (Z.eq_dec x y); [auto|]. left. split; [assumption|]. lia.
      * intros [[Hy _]|[<-|[]]]; assumption.
  - apply same_elements_length; [apply sorted_lt_NoDup, np_unique_sorted|apply NoDup_nodup|]. intros y. rewrite np_unique_in, nodup_In, filter_In.
    split; [intros Hy; specialize (L y Hy); specialize (H x I); split; [assumption|lia]|intros [Hy _]; assumption].
Qed.

Fixpoint nus (parts : list (list Z)) : list Z :=
  match parts with [] => [] | p :: ps => n_unique (hd_error (concat ps)) p :: nus ps end.
Lemma n_uniques_nus parts : n_uniques parts = nus parts.
Proof.
  unfold n_uniques. induction parts as [|p ps IH]; [reflexivity|]. cbn [length seq map nus]. f_equal.
  - rewrite next_eq. reflexivity.
  - rewrite <- IH, <- seq_shift, map_map. apply map_ext. intros r. rewrite !next_eq. reflexivity.
Qed.
Lemma nus_length parts : length (nus parts) = length parts.
Proof. induction parts; cbn; congruence. Qed.
Lemma nus_sum parts : forall r p h, globally_sorted parts -> nth_error parts r = Some p -> hd_error p = Some h ->
  zsum (firstn r (nus parts)) = distinct_below (concat (firstn r parts)) h.
Proof.
  unfold globally_sorted, global. induction parts as [|q ps IH]; intros [|r] p h S E H; cbn [nth_error] in E; try discriminate; [reflexivity|].
  cbn [nus firstn zsum fold_right concat]. cbn [concat] in S. destruct (sorted_app_inv _ _ S) as (Sq & Sp & D).
  change (fold_right Z.add 0 (firstn r (nus ps))) with (zsum (firstn r (nus ps))). rewrite (IH r p h Sp E H).
  pose proof (global_split ps r p E) as G. unfold global in G. rewrite G in *. destruct p as [|p0 p]; [discriminate|]. injection H as ->.
  destruct (sorted_app_inv _ _ Sp) as (Sb & _ & Db). destruct (concat (firstn r ps)) as [|y rest] eqn:EB.
  - cbn [app hd_error]. rewrite app_nil_r. rewrite n_unique_db; [change (distinct_below [] h) with 0; lia|assumption|]. intros a Ha. apply D; [assumption|]. left; reflexivity.
  - cbn [app hd_error]. rewrite n_unique_db; [|assumption|intros a Ha; apply D; [assumption|left; reflexivity]].
    symmetry. apply db_app.
    + intros a Ha. apply D; [assumption|left; reflexivity].
    + intros a Ha. destruct (sorted_head (y :: rest) y Sb eq_refl) as [_ L]. now apply L.
    + left; reflexivity.
    + apply Db; left; reflexivity.
Qed.

Lemma unique_labels_ok parts : globally_sorted parts -> global parts <> [] -> unique_labels parts = Ok (map (map (distinct_below (global parts))) parts).
Proof.
  intros S NE. unfold unique_labels. cbv zeta. rewrite n_uniques_nus.
  assert (map (fun r => map (fun x => x + zsum (firstn r (nus parts))) (unique_inverse (nth r parts []))) (seq 0 (length parts)) = map (map (distinct_below (global parts))) parts) as ->.
  { apply nth_error_ext. intros r. rewrite !nth_error_map', nth_error_seq. destruct (Nat.ltb_spec r (length parts)) as [L|L].
    - destruct (nth_error parts r) as [p|] eqn:E; [|apply nth_error_None in E; lia]. cbn [option_map Nat.add]. f_equal. rewrite (nth_error_nth parts r [] E).
      unfold unique_inverse. rewrite map_map. apply map_ext_in. intros x Hx. rewrite unique_rank.
      destruct p as [|h p]; [contradiction|]. rewrite (nus_sum parts r (h :: p) h S E eq_refl).
      unfold globally_sorted in S. rewrite (global_split parts r (h :: p) E) in *. destruct (sorted_app_inv _ _ S) as (Sb & S2 & Db). destruct (sorted_app_inv _ _ S2) as (Sp & Sa & Da).
      destruct (sorted_head (h :: p) h Sp eq_refl) as [_ Lh].
      rewrite app_assoc. rewrite db_app_ge by (intros a Ha; exact (Da x a Hx Ha)).
      rewrite (db_app (concat (firstn r parts)) (h :: p) h x); [lia| |exact Lh|left; reflexivity|exact (Lh x Hx)].
      intros a Ha. apply Db; [assumption|]. left; reflexivity.
    - cbn. assert (nth_error parts r = None) as ->; [apply nth_error_None; lia|reflexivity]. }
  apply da_init_ok. unfold global in *. rewrite <- concat_map. intros H. apply map_eq_nil in H. contradiction.
Qed.

(* labels are order preserving, injective and dense *)
Lemma db_mono l x y : In x l -> x < y -> distinct_below l x < distinct_below l y.
Proof.
  intros I L. unfold distinct_below. assert (zlen (nodup Z.eq_dec (filter (fun z => z <? x) l) ++ [x]) <= zlen (nodup Z.eq_dec (filter (fun z => z <? y) l))) as H.
  { unfold zlen. apply inj_le. apply NoDup_incl_length.
    - apply NoDup_app_intro; [apply NoDup_nodup|repeat constructor; intros []|]. intros z H1 [->|[]]. rewrite nodup_In, filter_In in H1. lia.
    - intros z Hz. rewrite in_app_iff, nodup_In, filter_In in Hz. rewrite nodup_In, filter_In. destruct Hz as [[H1 H2]|[<-|[]]]; split; auto; lia. }
  rewrite zlen_app, zlen_cons in H. change (zlen (@nil Z)) with 0 in H. lia.
Qed.
Lemma db_inj l x y : In x l -> In y l -> distinct_below l x = distinct_below l y -> x = y.
Proof. intros Hx Hy H. destruct (Z.lt_trichotomy x y) as [L|[L|L]]; [|assumption|]; [pose proof (db_mono l x y Hx L)|pose proof (db_mono l y x Hy L)]; lia. Qed.
Lemma db_le l x y : x <= y -> distinct_below l x <= distinct_below l y.
Proof.
  intros L. unfold distinct_below, zlen. apply inj_le, NoDup_incl_length; [apply NoDup_nodup|]. intros z. rewrite !nodup_In, !filter_In. intros [H1 H2]. split; [assumption|lia].
Qed.
Lemma strict_nth_count l : forall i, StronglySorted Z.lt l -> (i < length l)%nat -> filter (fun y => y <? nth i l 0) l = firstn i l.
Proof.
  induction l as [|a l IH]; intros [|i] S L; cbn [length] in L; try lia; inversion S as [|? ? S' F]; subst; cbn [nth filter firstn].
  - rewrite Z.ltb_irrefl. clear -F. induction l as [|b l IH]; [reflexivity|]. inversion F; subst. cbn. destruct (Z.ltb_spec b a); [lia|]. now apply IH.
  - rewrite Forall_forall in F. assert (a < nth i l 0) by (apply F, nth_In; lia). destruct (Z.ltb_spec a (nth i l 0)); [|lia]. f_equal. apply IH; [assumption|lia].
Qed.
Lemma db_dense l x b : In x l -> 0 <= b <= distinct_below l x -> exists y, In y l /\ distinct_below l y = b.
Proof.
  intros I H. pose proof (np_unique_sorted l) as S.
  assert (distinct_below l x < zlen (np_unique l)) as Hlt.
  { rewrite <- unique_rank, (searchsorted_count _ _ S). assert (zlen (filter (fun y => y <? x) (np_unique l) ++ [x]) <= zlen (np_unique l)) as Q.
    - unfold zlen. apply inj_le, NoDup_incl_length.
      + apply NoDup_app_intro; [apply sorted_lt_NoDup, sorted_filter_lt, S|repeat constructor; intros []|]. intros z Hz [->|[]]. rewrite filter_In in Hz. lia.
      + intros z. rewrite in_app_iff, filter_In. intros [[Hz _]|[<-|[]]]; [assumption|]. now apply np_unique_in.
    - rewrite zlen_app, zlen_cons in Q. change (zlen (@nil Z)) with 0 in Q. lia. }
  exists (nth (Z.to_nat b) (np_unique l) 0). assert (Z.to_nat b < length (np_unique l))%nat as L by (unfold zlen in Hlt; lia).
  split; [apply np_unique_in, nth_In, L|]. rewrite <- unique_rank, (searchsorted_count _ _ S), strict_nth_count by assumption. unfold zlen. rewrite firstn_length. lia.
Qed.
