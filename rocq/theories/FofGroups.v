From Verif Require Import Base BaseProofs RanksSpec DaModel DaSpec DaProofs DaBin DaMore DistSpec FofModel FofSpec FofProofs FofLabels FofMerge.
From Coq Require Import Sorted Permutation Relations.
Local Open Scope Z_scope.

Lemma rall_exists {A} (l : list (res A)) : (forall x, In x l -> exists y, x = Ok y) -> exists out, rall l = Ok out /\ l = map Ok out.
Proof.
  induction l as [|x l IH]; intros H; [exists []; auto|]. destruct (H x (or_introl eq_refl)) as (y & ->). destruct IH as (out & E1 & E2); [intros; apply H; now right|].
  exists (y :: out). cbn. rewrite E1. cbn. split; [reflexivity|congruence].
Qed.
Lemma map_ok_nth {A} (l : list (res A)) out i : l = map Ok out -> nth_error l i = option_map Ok (nth_error out i).
Proof. intros ->. apply nth_error_map'. Qed.
Lemma zipr_nth {A B C} (f : A -> B -> C) l m i : nth_error (zipr f l m) i = match nth_error l i, nth_error m i with Some x, Some y => Some (f x y) | _, _ => None end.
Proof. unfold zipr. rewrite nth_error_map'. revert m i. induction l as [|x l IH]; intros [|y m] [|i]; cbn; auto; try (destruct (nth_error l i); reflexivity). Qed.
Lemma zipr_length {A B C} (f : A -> B -> C) l m : length (zipr f l m) = Nat.min (length l) (length m).
Proof. unfold zipr. rewrite map_length. apply combine_length. Qed.
Lemma in_combine_nth {A B} (l : list A) (m : list B) a b : In (a, b) (combine l m) <-> exists j, nth_error l j = Some a /\ nth_error m j = Some b.
Proof.
  revert m. induction l as [|x l IH]; intros [|y m]; cbn; split; try contradiction; try (intros ([|j] & H1 & H2); discriminate).
  - intros [H|H]; [injection H as <- <-; exists O; auto|]. apply IH in H. destruct H as (j & H1 & H2). exists (S j). auto.
  - intros ([|j] & H1 & H2); [left; cbn in *; congruence|right; apply IH; exists j; auto].
Qed.

(* ---- minima ---- *)
Lemma zmin_fold l : forall x, In (fold_left Z.min l x) (x :: l) /\ forall y, In y (x :: l) -> fold_left Z.min l x <= y.
Proof.
  induction l as [|z l IH]; intros x; cbn [fold_left]; [split; [now left|intros y [->|[]]; lia]|]. destruct (IH (Z.min x z)) as [I L]. split.
  - destruct I as [I|I]; [|right; right; exact I]. rewrite <- I. destruct (Z.min_spec x z) as [[_ ->]|[_ ->]]; [now left|right; now left].
  - intros y [->|[->|H]]; [specialize (L _ (or_introl eq_refl)); lia|specialize (L _ (or_introl eq_refl)); lia|apply L; now right].
Qed.
Lemma zmin1_some l v : zmin1 l = Some v -> In v l /\ forall y, In y l -> v <= y.
Proof. destruct l as [|x l]; [discriminate|]. cbn [zmin1]. intros E. injection E as <-. apply zmin_fold. Qed.
Lemma zmin1_exists l : l <> [] -> exists v, zmin1 l = Some v.
Proof. destruct l; [contradiction|]. intros _. eexists. reflexivity. Qed.

(* ---- gather and exchange ---- *)
(* p has a copy with value v *)
Definition copy (layout : list (list nat)) (m : list (list Z)) (r j p : nat) (v : Z) : Prop :=
  exists l mr, nth_error layout r = Some l /\ nth_error m r = Some mr /\ nth_error l j = Some p /\ nth_error mr j = Some v.
Lemma copies_in layout m p v : In v (copies layout m p) <-> exists r j, copy layout m r j p v.
Proof.
  unfold copies. rewrite in_concat. split.
  - intros (c & Hc & Hv). apply In_nth_error in Hc. destruct Hc as (r & Hr). rewrite zipr_nth in Hr. destruct (nth_error layout r) as [l|] eqn:El; [|discriminate]. destruct (nth_error m r) as [mr|] eqn:Em; [|discriminate]. injection Hr as <-.
    apply in_map_iff in Hv. destruct Hv as ([p' v'] & E & Hv). cbn in E. subst v'. apply filter_In in Hv. destruct Hv as [Hv Hp]. cbn in Hp. apply Nat.eqb_eq in Hp. subst p'. apply in_combine_nth in Hv. destruct Hv as (j & H1 & H2). exists r, j, l, mr. auto.
  - intros (r & j & l & mr & H1 & H2 & H3 & H4). exists (map snd (filter (fun pv => Nat.eqb p (fst pv)) (combine l mr))). split.
    + apply (nth_error_In _ r). rewrite zipr_nth, H1, H2. reflexivity.
    + apply in_map_iff. exists (p, v). split; [reflexivity|]. apply filter_In. split; [apply in_combine_nth; eauto|cbn; apply Nat.eqb_refl].
Qed.
Definition aligned (layout : list (list nat)) (m : list (list Z)) : Prop := map (@length nat) layout = map (@length Z) m.
Lemma aligned_rank layout m r l : aligned layout m -> nth_error layout r = Some l -> exists mr, nth_error m r = Some mr /\ length mr = length l.
Proof.
  intros A E. assert (nth_error (map (@length nat) layout) r = Some (length l)) as Q by (rewrite nth_error_map', E; reflexivity). rewrite A, nth_error_map' in Q. destruct (nth_error m r) as [mr|]; [|discriminate]. cbn in Q. injection Q as Q. eauto.
Qed.
Lemma aligned_copy layout m r l j p : aligned layout m -> nth_error layout r = Some l -> nth_error l j = Some p -> exists v, copy layout m r j p v.
Proof.
  intros A E Ej. destruct (aligned_rank _ _ _ _ A E) as (mr & Em & L). destruct (nth_error mr j) as [v|] eqn:Ev; [|apply nth_error_None in Ev; assert (j < length l)%nat by (apply nth_error_Some; congruence); lia].
  exists v, l, mr. auto.
Qed.
Lemma gather_min_ok layout n m : aligned layout m -> (forall p, (p < n)%nat -> exists l, In l layout /\ In p l) ->
  exists g, gather_min layout n m = Ok g /\ length g = n /\ forall p v, (p < n)%nat -> nth_error g p = Some v -> (exists r j, copy layout m r j p v) /\ forall r j w, copy layout m r j p w -> v <= w.
Proof.
  intros A C. unfold gather_min. destruct (rall_exists (map (fun p => match zmin1 (copies layout m p) with Some v => Ok v | None => Err OutOfContract end) (seq 0 n))) as (g & E & M).
  { intros x Hx. apply in_map_iff in Hx. destruct Hx as (p & <- & Hp). apply in_seq in Hp. destruct (C p) as (l & Hl & Hpl); [lia|]. apply In_nth_error in Hl. destruct Hl as (r & Er). apply In_nth_error in Hpl. destruct Hpl as (j & Ej).
    destruct (aligned_copy layout m r l j p A Er Ej) as (v & Hv). destruct (zmin1_exists (copies layout m p)) as (w & ->); [|eauto]. intros Q. assert (In v (copies layout m p)) as I by (apply copies_in; eauto). rewrite Q in I. contradiction. }
  exists g. split; [exact E|]. split; [apply (f_equal (@length _)) in M; rewrite !map_length, seq_length in M; congruence|]. intros p v Lp Ev. pose proof (map_ok_nth _ _ p M) as Q. rewrite Ev, nth_error_map', nth_error_seq in Q.
  destruct (Nat.ltb_spec p n); [|lia]. cbn [option_map] in Q. destruct (zmin1 (copies layout m (0 + p))) as [w|] eqn:EW; [|discriminate]. injection Q as ->. destruct (zmin1_some _ _ EW) as [I L]. split; [now apply copies_in|]. intros r j w Hw. apply L. apply copies_in. eauto.
Qed.
Lemma exchange_ok {A} layout (x : list A) : (forall l p, In l layout -> In p l -> (p < length x)%nat) ->
  exists m, exchange layout x = Ok m /\ map (@length nat) layout = map (@length A) m /\
    forall r l mr j p, nth_error layout r = Some l -> nth_error m r = Some mr -> nth_error l j = Some p -> nth_error mr j = nth_error x p.
Proof.
  intros H. unfold exchange.
  assert (forall l, In l layout -> exists mr, rall (map (fun p => match nth_error x p with Some v => Ok v | None => Err OutOfContract end) l) = Ok mr /\ map (nth_error x) l = map Some mr) as R.
  { intros l Hl. specialize (H l). revert H Hl. clear. intros H Hl. assert (forall p, In p l -> (p < length x)%nat) as H' by auto. clear H Hl. induction l as [|p l IH]; [exists []; auto|].
    destruct IH as (mr & E1 & E2); [intros; apply H'; now right|]. destruct (nth_error x p) as [v|] eqn:Ev; [|apply nth_error_None in Ev; specialize (H' p (or_introl eq_refl)); lia].
    exists (v :: mr). cbn. rewrite Ev, E1. cbn. split; [reflexivity|congruence]. }
  destruct (rall_exists (map (fun l => rall (map (fun p => match nth_error x p with Some v => Ok v | None => Err OutOfContract end) l)) layout)) as (m & E & M).
  { intros y Hy. apply in_map_iff in Hy. destruct Hy as (l & <- & Hl). destruct (R l Hl) as (mr & -> & _). eauto. }
  exists m. split; [exact E|].
  assert (forall r l, nth_error layout r = Some l -> exists mr, nth_error m r = Some mr /\ map (nth_error x) l = map Some mr) as Q.
  { intros r l El. pose proof (map_ok_nth _ _ r M) as Q. rewrite nth_error_map', El in Q. cbn in Q. destruct (R l (nth_error_In _ _ El)) as (mr & ER & EM). rewrite ER in Q. destruct (nth_error m r); [|discriminate]. cbn in Q. injection Q as <-. eauto. }
  split.
  - apply nth_error_ext. intros r. rewrite !nth_error_map'. destruct (nth_error layout r) as [l|] eqn:El.
    + destruct (Q r l El) as (mr & -> & EM). cbn. f_equal. apply (f_equal (@length _)) in EM. now rewrite !map_length in EM.
    + cbn. destruct (nth_error m r) eqn:Em; [|reflexivity]. exfalso. apply (f_equal (@length _)) in M. rewrite !map_length in M. apply nth_error_None in El. assert (r < length m)%nat by (apply nth_error_Some; congruence). lia.
  - intros r l mr j p El Em Ej. destruct (Q r l El) as (mr' & Em' & EM). rewrite Em in Em'. injection Em' as <-. apply (f_equal (fun l => nth_error l j)) in EM. rewrite !nth_error_map', Ej in EM. cbn in EM. destruct (nth_error mr j); cbn in EM; congruence.
Qed.

(* ---- replacesorted ---- *)
Lemma searchsorted_in s x : StronglySorted Z.le s -> In x s -> nth_error s (searchsorted s x) = Some x.
Proof.
  induction 1 as [|y s S IH F]; [contradiction|]. intros I. cbn [searchsorted]. destruct (Z.ltb_spec y x) as [L|L].
  - cbn. apply IH. destruct I as [->|I]; [lia|exact I].
  - cbn. f_equal. destruct I as [->|I]; [reflexivity|]. rewrite Forall_forall in F. specialize (F x I). lia.
Qed.
Section Merge.
Variable argsort : list Z -> list nat.
Hypothesis arg_ok : argsort_contract argsort.

Lemma sorted_rows l : StronglySorted Z.le (take_rows l (argsort l)) /\ (forall x, In x (take_rows l (argsort l)) <-> In x l).
Proof.
  destruct (arg_ok l) as [P S]. assert (forall i, In i (argsort l) -> (i < length l)%nat) as R by (intros i Hi; apply (Permutation_in i P) in Hi; apply in_seq in Hi; lia). split.
  - revert S R. clear. generalize (argsort l). intros a. induction 1 as [|i a S IH F]; intros R; [constructor|]. cbn [take_rows flat_map]. destruct (nth_error l i) as [x|] eqn:E; [|apply nth_error_None in E; specialize (R i (or_introl eq_refl)); lia].
    cbn [app]. constructor; [apply IH; intros; apply R; now right|]. apply Forall_forall. intros y Hy. apply in_flat_map in Hy. destruct Hy as (k & Hk & Hy). destruct (nth_error l k) as [z|] eqn:Ek; [|contradiction]. destruct Hy as [<-|[]]. rewrite Forall_forall in F. specialize (F k Hk). cbn in F.
    rewrite (nth_error_nth _ _ _ E), (nth_error_nth _ _ _ Ek) in F. exact F.
  - intros x. split.
    + intros H. apply in_flat_map in H. destruct H as (k & _ & H). destruct (nth_error l k) eqn:E; [|contradiction]. destruct H as [<-|[]]. now apply (nth_error_In _ k).
    + intros H. apply In_nth_error in H. destruct H as (k & E). apply in_flat_map. exists k. split; [|rewrite E; now left]. apply (Permutation_in k (Permutation_sym P)). apply in_seq. assert (k < length l)%nat by (apply nth_error_Some; congruence). lia.
Qed.
Lemma merge_rank_ok a b : length b = length a -> exists F, merge_rank argsort a b = map F a /\
  forall v, In v a -> (F v = v /\ forall k, nth_error a k = Some v -> nth_error b k = Some v) \/ (exists k, nth_error a k = Some v /\ nth_error b k = Some (F v) /\ F v <> v).
Proof.
  intros L. unfold merge_rank. set (merged := filter _ _). set (old := map fst merged). set (new := map snd merged). set (arg := argsort old).
  destruct (sorted_rows old) as [SS SI]. fold arg in SS, SI. destruct (arg_ok old) as [P _]. fold arg in P.
  assert (forall i, In i arg -> (i < length old)%nat) as R by (intros i Hi; apply (Permutation_in i P) in Hi; apply in_seq in Hi; lia).
  destruct (take_rows_nth old arg R) as [LO NO]. assert (length new = length old) as LN by (unfold old, new; now rewrite !map_length). destruct (take_rows_nth new arg) as [LNW NW]; [intros; rewrite LN; auto|].
  assert (forall v, ~ In v old -> forall k, nth_error a k = Some v -> nth_error b k = Some v) as SAME.
  { intros v N k Ek. destruct (nth_error b k) as [w|] eqn:Eb; [|apply nth_error_None in Eb; assert (k < length a)%nat by (apply nth_error_Some; congruence); lia]. f_equal. destruct (Z.eq_dec v w) as [|D]; [congruence|]. exfalso. apply N. apply in_map_iff. exists (v, w). split; [reflexivity|]. apply filter_In. split; [apply in_combine_nth; eauto|]. cbn. lia. }
  assert (forall i v, nth_error old i = Some v -> exists w k, nth_error new i = Some w /\ nth_error a k = Some v /\ nth_error b k = Some w /\ w <> v) as PAIR.
  { intros i v Ei. unfold old in Ei. rewrite nth_error_map' in Ei. destruct (nth_error merged i) as [[v' w]|] eqn:Em; [|discriminate]. cbn in Ei. injection Ei as ->. exists w. assert (In (v, w) merged) as I by (now apply (nth_error_In _ i)). apply filter_In in I. destruct I as [I D]. cbn in D. apply in_combine_nth in I. destruct I as (k & H1 & H2).
    exists k. split; [unfold new; rewrite nth_error_map', Em; reflexivity|]. split; [exact H1|]. split; [exact H2|]. lia. }
  unfold replace_sorted. destruct (take_rows old arg) as [|s0 s] eqn:ES.
  - exists (fun x => x). split; [now rewrite map_id|]. intros v Hv. left. split; [reflexivity|]. apply SAME. intros I. apply SI in I. contradiction.
  - rewrite <- ES in *. eexists. split; [reflexivity|]. cbv beta. intros v Hv. destruct (in_dec Z.eq_dec v old) as [I|N].
    + right. apply SI in I. pose proof (searchsorted_in _ _ SS I) as EN. assert (searchsorted (take_rows old arg) v < length (take_rows old arg))%nat as LS by (apply nth_error_Some; congruence).
      rewrite Nat.min_l by lia. rewrite (nth_error_nth _ _ _ EN), Z.eqb_refl. rewrite NO in EN. destruct (nth_error arg (searchsorted (take_rows old arg) v)) as [i|] eqn:Ei; [|discriminate]. destruct (PAIR i v EN) as (w & k & H1 & H2 & H3 & H4).
      assert (nth_error (take_rows new arg) (searchsorted (take_rows old arg) v) = Some w) as EW by (rewrite NW, Ei; exact H1). rewrite (nth_error_nth _ _ _ EW). eauto.
    + left. split; [|now apply SAME]. set (ind := Nat.min _ _). destruct (Z.eqb_spec (nth ind (take_rows old arg) 0) v) as [E|_]; [|reflexivity]. exfalso. apply N, SI. rewrite <- E. apply nth_In. rewrite ES. unfold ind. rewrite ES. cbn [length]. lia.
Qed.

(* ---- the merging loop ---- *)
Variable n : nat.
Variable layout : list (list nat).
Variable labels : list (list Z).
Hypothesis IN : fof_input n layout labels.
Notation comp := (component layout labels).
Record good (m : list (list Z)) : Prop := {
  g_aligned : aligned layout m;
  g_same : forall r c mr j k x, nth_error labels r = Some c -> nth_error m r = Some mr -> nth_error c j = Some x -> nth_error c k = Some x -> nth_error mr j = nth_error mr k;
  g_in : forall r j p v, copy layout m r j p v -> exists q, v = Z.of_nat q /\ (q < n)%nat /\ comp p q;
  g_le : forall r j p v, copy layout m r j p v -> v <= Z.of_nat p
}.
Definition msum (m : list (list Z)) : Z := zsum (map zsum m).

Lemma comp_refl p : comp p p. Proof. apply rst_refl. Qed.
Lemma comp_sym p q : comp p q -> comp q p. Proof. apply rst_sym. Qed.
Lemma comp_trans p q s : comp p q -> comp q s -> comp p s. Proof. apply rst_trans. Qed.

Lemma merge_step m g m' : good m -> (forall p v, (p < n)%nat -> nth_error g p = Some v -> (exists r j, copy layout m r j p v) /\ forall r j w, copy layout m r j p w -> v <= w) -> length g = n ->
  aligned layout m' -> (forall r l mr j p, nth_error layout r = Some l -> nth_error m' r = Some mr -> nth_error l j = Some p -> nth_error mr j = nth_error g p) ->
  good (zipr (merge_rank argsort) m m') /\ (forall r mr j v w, nth_error m r = Some mr -> nth_error mr j = Some v -> (exists zr, nth_error (zipr (merge_rank argsort) m m') r = Some zr /\ nth_error zr j = Some w) -> w <= v) /\
  (forall r mr m'r j v w, nth_error m r = Some mr -> nth_error m' r = Some m'r -> nth_error mr j = Some v -> nth_error m'r j = Some w -> w <> v -> exists zr u, nth_error (zipr (merge_rank argsort) m m') r = Some zr /\ nth_error zr j = Some u /\ u < v).
Proof.
  intros G GM LG A' EX.
  assert (forall r l, nth_error layout r = Some l -> exists mr m'r F, nth_error m r = Some mr /\ nth_error m' r = Some m'r /\ length mr = length l /\ length m'r = length l /\ nth_error (zipr (merge_rank argsort) m m') r = Some (map F mr) /\
    forall v, In v mr -> (F v = v /\ forall k, nth_error mr k = Some v -> nth_error m'r k = Some v) \/ (exists k, nth_error mr k = Some v /\ nth_error m'r k = Some (F v) /\ F v <> v)) as RK.
  { intros r l El. destruct (aligned_rank _ _ _ _ (g_aligned _ G) El) as (mr & Em & L1). destruct (aligned_rank _ _ _ _ A' El) as (m'r & Em' & L2). destruct (merge_rank_ok mr m'r ltac:(congruence)) as (F & EF & HF).
    exists mr, m'r, F. split; [exact Em|]. split; [exact Em'|]. split; [exact L1|]. split; [exact L2|]. split; [|exact HF]. now rewrite zipr_nth, Em, Em', EF. }
  assert (length layout = length m) as LM by (pose proof (g_aligned _ G) as Q; apply (f_equal (@length _)) in Q; now rewrite !map_length in Q).
  assert (length layout = length m') as LM' by (pose proof A' as Q; apply (f_equal (@length _)) in Q; now rewrite !map_length in Q).
  assert (forall r mr, nth_error m r = Some mr -> exists l, nth_error layout r = Some l) as LX.
  { intros r mr Em. destruct (nth_error layout r) as [l|] eqn:E; [eauto|]. apply nth_error_None in E. assert (r < length m)%nat by (apply nth_error_Some; congruence). lia. }
  (* the received value at a copy of p is the smallest of the copies of p *)
  assert (forall r l m'r k p w, nth_error layout r = Some l -> nth_error m' r = Some m'r -> nth_error l k = Some p -> nth_error m'r k = Some w -> (exists r' j', copy layout m r' j' p w) /\ forall mr v, nth_error m r = Some mr -> nth_error mr k = Some v -> w <= v) as MIN.
  { intros r l m'r k p w El Em' Ek Ew. rewrite (EX r l m'r k p El Em' Ek) in Ew. assert (p < n)%nat as Lp by (rewrite <- LG; apply nth_error_Some; congruence). destruct (GM p w Lp Ew) as [C L]. split; [exact C|]. intros mr v Em Ev. apply (L r k). exists l, mr. auto. }
  (* what the replacement does to one value *)
  assert (forall r l mr j p v F m'r, nth_error layout r = Some l -> nth_error m r = Some mr -> nth_error m' r = Some m'r -> length m'r = length l -> length mr = length l -> nth_error l j = Some p -> nth_error mr j = Some v ->
     ((F v = v /\ forall k, nth_error mr k = Some v -> nth_error m'r k = Some v) \/ (exists k, nth_error mr k = Some v /\ nth_error m'r k = Some (F v) /\ F v <> v)) -> F v <= v /\ exists q, F v = Z.of_nat q /\ (q < n)%nat /\ comp p q) as ONE.
  { intros r l mr j p v F m'r El Em Em' L' L Ej Ev [[E _]|(k & Ek & Ek' & D)].
    - split; [lia|]. rewrite E. apply (g_in _ G r j p v). exists l, mr. auto.
    - assert (k < length l)%nat as Lk by (rewrite <- L; apply nth_error_Some; congruence). destruct (nth_error l k) as [p'|] eqn:Elk; [|apply nth_error_None in Elk; lia]. destruct (MIN r l m'r k p' (F v) El Em' Elk Ek') as [(r' & j' & C) Lw]. split; [apply (Lw mr v Em Ek)|].
      destruct (g_in _ G _ _ _ _ C) as (q & Eq & Lq & Cq). exists q. split; [exact Eq|]. split; [exact Lq|].
      destruct (g_in _ G r j p v) as (s & Es & _ & Cs); [exists l, mr; auto|]. destruct (g_in _ G r k p' v) as (s' & Es' & _ & Cs'); [exists l, mr; auto|]. assert (s = s') by lia. subst s'.
      apply comp_trans with s; [exact Cs|]. apply comp_trans with p'; [now apply comp_sym|exact Cq]. }
  assert (forall r j p w, copy layout (zipr (merge_rank argsort) m m') r j p w -> exists v, copy layout m r j p v /\ w <= v /\ exists q, w = Z.of_nat q /\ (q < n)%nat /\ comp p q) as CP.
  { intros r j p w (l & zr & El & Ez & Ej & Ew). destruct (RK r l El) as (mr & m'r & F & Em & Em' & L1 & L2 & Ez' & HF). rewrite Ez in Ez'. injection Ez' as ->. rewrite nth_error_map' in Ew. destruct (nth_error mr j) as [v|] eqn:Ev; [|discriminate]. cbn in Ew. injection Ew as <-.
    exists v. split; [exists l, mr; auto|]. apply (ONE r l mr j p v F m'r); auto. apply HF. now apply (nth_error_In _ j). }
  split; [constructor|split].
  - unfold aligned. apply nth_error_ext. intros r. rewrite !nth_error_map'. destruct (nth_error layout r) as [l|] eqn:El.
    + destruct (RK r l El) as (mr & m'r & F & Em & Em' & L1 & L2 & -> & _). cbn. now rewrite map_length, L1.
    + rewrite zipr_nth. destruct (nth_error m r) as [mr|] eqn:Em; [|reflexivity]. destruct (LX r mr Em); congruence.
  - intros r c zr j k x Ec Ez Ej Ek. destruct (nth_error layout r) as [l|] eqn:El.
    + destruct (RK r l El) as (mr & m'r & F & Em & Em' & L1 & L2 & Ez' & HF). rewrite Ez in Ez'. injection Ez' as ->. rewrite !nth_error_map'. f_equal. apply (g_same _ G r c mr j k x); assumption.
    + rewrite zipr_nth in Ez. destruct (nth_error m r) as [mr|] eqn:Em; [|discriminate]. destruct (LX r mr Em); congruence.
  - intros r j p w H. destruct (CP r j p w H) as (v & _ & _ & Q). exact Q.
  - intros r j p w H. destruct (CP r j p w H) as (v & C & L & _). pose proof (g_le _ G _ _ _ _ C). lia.
  - intros r mr j v w Em Ev (zr & Ez & Ew). destruct (LX r mr Em) as (l & El). destruct (aligned_rank _ _ _ _ (g_aligned _ G) El) as (mr0 & Em0 & L1). rewrite Em in Em0. injection Em0 as <-.
    assert (j < length l)%nat as Lj by (rewrite <- L1; apply nth_error_Some; congruence). destruct (nth_error l j) as [p|] eqn:Ej; [|apply nth_error_None in Ej; lia]. destruct (CP r j p w) as (v' & (l' & mr' & E1 & E2 & E3 & E4) & L & _); [exists l, zr; auto|].
    rewrite E2 in Em. injection Em as ->. congruence.
  - intros r mr m'r j v w Em Em' Ev Ew D. destruct (LX r mr Em) as (l & El). destruct (RK r l El) as (mr0 & m'r0 & F & Em0 & Em'0 & L1 & L2 & Ez & HF). rewrite Em in Em0. injection Em0 as <-. rewrite Em' in Em'0. injection Em'0 as <-.
    exists (map F mr), (F v). split; [exact Ez|]. split; [rewrite nth_error_map', Ev; reflexivity|]. assert (j < length l)%nat as Lj by (rewrite <- L1; apply nth_error_Some; congruence). destruct (nth_error l j) as [p|] eqn:Ej; [|apply nth_error_None in Ej; lia].
    pose proof (HF v (nth_error_In _ _ Ev)) as H. destruct (ONE r l mr j p v F m'r El Em Em' L2 L1 Ej Ev H) as [L _]. destruct H as [[_ H]|(k & _ & _ & H)]; [rewrite (H j Ev) in Ew; congruence|lia].
Qed.

Lemma zsum_pointwise (a b : list Z) : length b = length a -> (forall j v w, nth_error a j = Some v -> nth_error b j = Some w -> w <= v) -> zsum b <= zsum a /\ ((exists j v w, nth_error a j = Some v /\ nth_error b j = Some w /\ w < v) -> zsum b < zsum a).
Proof.
  revert b. induction a as [|x a IH]; intros [|y b] L H; cbn in L; try discriminate; [split; [lia|intros ([|j] & v & w & Q & _); discriminate]|]. destruct (IH b) as [I1 I2]; [lia|intros j; apply (H (S j))|].
  pose proof (H O x y eq_refl eq_refl). change (zsum (y :: b)) with (y + zsum b). change (zsum (x :: a)) with (x + zsum a). split; [lia|]. intros ([|j] & v & w & H1 & H2 & H3).
  - cbn in H1, H2. injection H1 as ->. injection H2 as ->. lia.
  - enough (zsum b < zsum a) by lia. apply I2. exists j, v, w. auto.
Qed.
Lemma n_merged_zero m m' : n_merged m m' = O -> forall r a b j v w, nth_error m r = Some a -> nth_error m' r = Some b -> nth_error a j = Some v -> nth_error b j = Some w -> v = w.
Proof.
  unfold n_merged. intros H r a b j v w Ha Hb Ev Ew. destruct (Z.eq_dec v w) as [|D]; [assumption|exfalso]. apply length_zero_iff_nil in H.
  assert (In (v, w) (concat (zipr (fun a b => filter (fun p => negb (fst p =? snd p)) (combine a b)) m m'))) as I; [|rewrite H in I; contradiction].
  apply in_concat. exists (filter (fun p => negb (fst p =? snd p)) (combine a b)). split; [apply (nth_error_In _ r); rewrite zipr_nth, Ha, Hb; reflexivity|]. apply filter_In. split; [apply in_combine_nth; eauto|cbn; lia].
Qed.
Lemma n_merged_pos m m' : n_merged m m' <> O -> exists r a b j v w, nth_error m r = Some a /\ nth_error m' r = Some b /\ nth_error a j = Some v /\ nth_error b j = Some w /\ w <> v.
Proof.
  unfold n_merged. intros H. destruct (concat _) as [|[v w] t] eqn:E; [contradiction|]. assert (In (v, w) ((v, w) :: t)) as I by now left. rewrite <- E in I. apply in_concat in I. destruct I as (c & Hc & I). apply In_nth_error in Hc. destruct Hc as (r & Hr). rewrite zipr_nth in Hr.
  destruct (nth_error m r) as [a|] eqn:Ha; [|discriminate]. destruct (nth_error m' r) as [b|] eqn:Hb; [|discriminate]. injection Hr as <-. apply filter_In in I. destruct I as [I D]. cbn in D. apply in_combine_nth in I. destruct I as (j & H1 & H2). exists r, a, b, j, v, w. repeat (split; [assumption|]). lia.
Qed.
Lemma good_nonneg m : good m -> 0 <= msum m.
Proof.
  intros G. apply zsum_nonneg. apply Forall_forall. intros x Hx. apply in_map_iff in Hx. destruct Hx as (mr & <- & Hm). apply In_nth_error in Hm. destruct Hm as (r & Em). apply zsum_nonneg. apply Forall_forall. intros v Hv. apply In_nth_error in Hv. destruct Hv as (j & Ev).
  pose proof (g_aligned _ G) as A. assert (nth_error (map (@length Z) m) r = Some (length mr)) as Q by (rewrite nth_error_map', Em; reflexivity). rewrite <- A, nth_error_map' in Q. destruct (nth_error layout r) as [l|] eqn:El; [|discriminate]. cbn in Q. injection Q as Q.
  assert (j < length l)%nat as Lj by (rewrite Q; apply nth_error_Some; congruence). destruct (nth_error l j) as [p|] eqn:Ej; [|apply nth_error_None in Ej; lia]. destruct (g_in _ G r j p v) as (q & -> & _); [exists l, mr; auto|]. lia.
Qed.


Lemma comp_range p q : comp p q -> (p < n)%nat <-> (q < n)%nat.
Proof.
  induction 1 as [p q (r & l & c & j & k & H1 & _ & H3 & H4 & _)|p|p q _ IH|p q s _ IH1 _ IH2]; try tauto.
  pose proof (fi_range _ _ _ IN l p (nth_error_In _ _ H1) (nth_error_In _ _ H3)). pose proof (fi_range _ _ _ IN l q (nth_error_In _ _ H1) (nth_error_In _ _ H4)). tauto.
Qed.

Lemma fof_merge_ok k : forall m, good m -> msum m <= Z.of_nat k -> forall fuel, (k < fuel)%nat -> exists g, fof_merge argsort fuel layout n m = Ok g /\ least_of n layout labels g.
Proof.
  induction k as [k IH] using (well_founded_induction lt_wf). intros m G LE [|fuel] LF; [lia|]. cbn [fof_merge].
  destruct (gather_min_ok layout n m (g_aligned _ G) (fi_covers _ _ _ IN)) as (g & EG & LG & HG). rewrite EG. cbn [rbind].
  destruct (exchange_ok layout g) as (m' & EM & AM & HM); [intros l p Hl Hp; rewrite LG; apply (fi_range _ _ _ IN l p Hl Hp)|]. rewrite EM. cbn [rbind].
  destruct (Nat.eqb_spec (n_merged m m') 0) as [Z0|N0].
  - exists g. split; [reflexivity|]. split; [exact LG|].
    assert (forall r j p v, copy layout m r j p v -> nth_error g p = Some v) as FX.
    { intros r j p v (l & mr & El & Em & Ej & Ev). destruct (aligned_rank _ _ _ _ AM El) as (m'r & Em' & L'). pose proof (HM r l m'r j p El Em' Ej) as Q. rewrite <- Q. destruct (nth_error m'r j) as [w|] eqn:Ew; [|apply nth_error_None in Ew; assert (j < length l)%nat by (apply nth_error_Some; congruence); lia].
      f_equal. symmetry. apply (n_merged_zero m m' Z0 r mr m'r j); assumption. }
    assert (forall p q, comp p q -> (p < n)%nat -> nth_error g p = nth_error g q) as CE.
    { induction 1 as [p q (r & l & c & j & k' & H1 & H2 & H3 & H4 & x & H5 & H6)|p|p q C IHc|p q s C1 IH1 C2 IH2]; intros Lp.
      - destruct (aligned_copy layout m r l j p (g_aligned _ G) H1 H3) as (v & C1). destruct (aligned_copy layout m r l k' q (g_aligned _ G) H1 H4) as (w & C2). rewrite (FX _ _ _ _ C1), (FX _ _ _ _ C2).
        destruct C1 as (l1 & mr1 & A1 & A2 & A3 & A4). destruct C2 as (l2 & mr2 & B1 & B2 & B3 & B4). rewrite A2 in B2. injection B2 as <-. rewrite <- A4, <- B4. apply (g_same _ G r c mr1 j k' x); assumption.
      - reflexivity.
      - symmetry. apply IHc. now apply (comp_range p q C).
      - rewrite IH1 by assumption. apply IH2. now apply (comp_range p q C1). }
    assert (forall p, (p < n)%nat -> exists r j v, copy layout m r j p v) as EXC.
    { intros p Lp. destruct (fi_covers _ _ _ IN p Lp) as (l & Hl & Hp). apply In_nth_error in Hl. destruct Hl as (r & El). apply In_nth_error in Hp. destruct Hp as (j & Ej). destruct (aligned_copy layout m r l j p (g_aligned _ G) El Ej) as (v & C). eauto. }
    intros p Lp. destruct (EXC p Lp) as (r & j & v & C). destruct (g_in _ G _ _ _ _ C) as (q & -> & Lq & Cq). exists q. split; [apply (FX _ _ _ _ C)|]. split; [exact Lq|]. split; [exact Cq|].
    intros s Ls Cs. pose proof (CE p s Cs Lp) as E. rewrite (FX _ _ _ _ C) in E. destruct (EXC s Ls) as (r' & j' & v' & C'). rewrite (FX _ _ _ _ C') in E. injection E as <-. pose proof (g_le _ G _ _ _ _ C'). lia.
  - destruct (merge_step m g m' G HG LG AM HM) as (G2 & LE2 & LT2).
    assert (length m = length layout) as LL by (pose proof (g_aligned _ G) as Q; apply (f_equal (@length _)) in Q; now rewrite !map_length in Q).
    assert (length (zipr (merge_rank argsort) m m') = length layout) as LL2 by (pose proof (g_aligned _ G2) as Q; apply (f_equal (@length _)) in Q; now rewrite !map_length in Q).
    assert (forall r a b, nth_error m r = Some a -> nth_error (zipr (merge_rank argsort) m m') r = Some b -> length b = length a /\ forall j v w, nth_error a j = Some v -> nth_error b j = Some w -> w <= v) as PR.
    { intros r a b Ha Hb. split; [|intros j v w Hv Hw; apply (LE2 r a j v w); eauto]. destruct (nth_error layout r) as [l|] eqn:El; [|apply nth_error_None in El; assert (r < length m)%nat by (apply nth_error_Some; congruence); lia].
      destruct (aligned_rank _ _ _ _ (g_aligned _ G) El) as (a' & Ea & La). destruct (aligned_rank _ _ _ _ (g_aligned _ G2) El) as (b' & Eb & Lb). congruence. }
    assert (msum (zipr (merge_rank argsort) m m') < msum m) as DEC.
    { apply zsum_pointwise; [rewrite !map_length; congruence| |].
      - intros r x y Hx Hy. rewrite nth_error_map' in Hx, Hy. destruct (nth_error m r) as [a|] eqn:Ha; [|discriminate]. destruct (nth_error (zipr _ _ _) r) as [b|] eqn:Hb; [|discriminate]. cbn in Hx, Hy. injection Hx as <-. injection Hy as <-. destruct (PR r a b Ha Hb). now apply zsum_pointwise.
      - destruct (n_merged_pos _ _ N0) as (r & a & b & j & v & w & Ha & Hb & Ev & Ew & D). destruct (LT2 r a b j v w Ha Hb Ev Ew D) as (zr & u & Ez & Eu & Lu). exists r, (zsum a), (zsum zr). rewrite !nth_error_map', Ha, Ez. split; [reflexivity|]. split; [reflexivity|]. destruct (PR r a zr Ha Ez). apply zsum_pointwise; eauto. exists j, v, u. auto. }
    pose proof (good_nonneg _ G2). apply (IH (Z.to_nat (msum (zipr (merge_rank argsort) m m')))); [lia|exact G2|lia|lia].
Qed.

(* ---- the initial state ---- *)
Lemma db_id l x : (forall y, In y l -> 0 <= y) -> (forall a y, In a l -> 0 <= y <= a -> In y l) -> In x l -> distinct_below l x = x.
Proof.
  intros N D I. unfold distinct_below. pose proof (N x I). transitivity (zlen (map Z.of_nat (seq 0 (Z.to_nat x)))); [|unfold zlen; rewrite map_length, seq_length; lia].
  apply same_elements_length; [apply NoDup_nodup| |].
  - apply FinFun.Injective_map_NoDup; [intros a b Q; lia|apply seq_NoDup].
  - intros y. rewrite nodup_In, filter_In, in_map_iff. split.
    + intros [Hy L]. exists (Z.to_nat y). specialize (N y Hy). rewrite in_seq. split; lia.
    + intros (k & <- & Hk). apply in_seq in Hk. split; [apply (D x); [exact I|lia]|lia].
Qed.
Lemma local_rank_ok c pid : length pid = length c -> (forall y, In y c -> 0 <= y) -> (forall a y, In a c -> 0 <= y <= a -> In y c) ->
  exists out, (let! e := equiv_class Z.min argsort c pid false None None in rall (map (fun x => match znth e x with Some v => Ok v | None => Err IndexError end) c)) = Ok out /\ length out = length c /\
    forall j x v, nth_error c j = Some x -> nth_error out j = Some v -> fold1 Z.min (class_values x c pid) = Some v.
Proof.
  intros L N D. assert (unique_inverse c = c) as UI.
  { unfold unique_inverse. transitivity (map (fun x => x) c); [|apply map_id]. apply map_ext_in. intros x Hx. rewrite unique_rank. now apply db_id. }
  destruct c as [|c0 c]; [destruct pid; [|discriminate]; exists []; split; [|split; [reflexivity|intros [|j]; discriminate]]|].
  { unfold equiv_class. rewrite UI. cbn. now destruct (argsort []). }
  set (cc := c0 :: c) in *.
  destruct (equiv_class_dense_ok Z.min Z.min_comm Z.min_assoc argsort arg_ok cc pid None None L) as (e & E & LE & NE).
  { discriminate. } { exact N. }
  { intros _ b Hb. assert (In (zmax cc) cc) as IMX; [|apply (D (zmax cc)); assumption].
    assert (forall l : list Z, l <> [] -> (forall v, In v l -> 0 <= v) -> In (zmax l) l) as MX.
    { clear. induction l as [|a l IH]; [contradiction|]. intros _ Hl. rewrite zmax_cons. destruct l as [|b l]; [left; specialize (Hl a (or_introl eq_refl)); change (zmax []) with (-1); lia|].
      destruct (Z.max_spec a (zmax (b :: l))) as [[_ ->]|[_ ->]]; [right; apply IH; [discriminate|intros; apply Hl; now right]|left; reflexivity]. }
    apply MX; [discriminate|exact N]. }
  { reflexivity. } { discriminate. }
  assert (equiv_class Z.min argsort cc pid false None None = Ok e) as -> by (rewrite <- E; unfold equiv_class; rewrite UI; reflexivity). cbn [rbind].
  assert (forall x, In x cc -> exists v, znth e x = Some v /\ fold1 Z.min (class_values x cc pid) = Some v) as ZN.
  { intros x Hx. pose proof (N x Hx). pose proof (zmax_above _ _ Hx). specialize (NE (Z.to_nat x)). rewrite Z2Nat.id in NE by lia. pose proof (class_nonempty x cc pid L Hx) as NN. destruct (class_values x cc pid) as [|y ys]; [contradiction|].
    cbn [fold1] in *. unfold znth. destruct (Z.ltb_spec x 0); [lia|]. rewrite NE by (rewrite LE; lia). eauto. }
  destruct (rall_exists (map (fun x => match znth e x with Some v => Ok v | None => Err IndexError end) cc)) as (out & EO & MO).
  { intros y Hy. apply in_map_iff in Hy. destruct Hy as (x & <- & Hx). destruct (ZN x Hx) as (v & -> & _). eauto. }
  exists out. split; [exact EO|]. split; [apply (f_equal (@length _)) in MO; now rewrite !map_length in MO|]. intros j x v Ex Ev. pose proof (map_ok_nth _ _ j MO) as Q. rewrite nth_error_map', Ex, Ev in Q. cbn in Q. destruct (ZN x (nth_error_In _ _ Ex)) as (w & EW & FW). rewrite EW in Q. congruence.
Qed.
Lemma fof_local_ok : exists m, fof_local argsort layout labels n = Ok m /\ good m.
Proof.
  unfold fof_local. destruct (exchange_ok layout (map Z.of_nat (seq 0 n))) as (pid & EP & AP & HP).
  { intros l p Hl Hp. rewrite map_length, seq_length. apply (fi_range _ _ _ IN l p Hl Hp). }
  rewrite EP. cbn [rbind]. pose proof (fi_aligned _ _ _ IN) as AL. fold (aligned layout labels) in AL. fold (aligned layout pid) in AP.
  assert (forall r c, nth_error labels r = Some c -> exists l, nth_error layout r = Some l) as LX.
  { intros r c Ec. destruct (nth_error layout r) as [l|] eqn:E; [eauto|]. apply nth_error_None in E. assert (r < length labels)%nat by (apply nth_error_Some; congruence). apply (f_equal (@length _)) in AL. rewrite !map_length in AL. lia. }
  assert (forall r l, nth_error layout r = Some l -> exists c pr, nth_error labels r = Some c /\ nth_error pid r = Some pr /\ length c = length l /\ length pr = length l) as RK.
  { intros r l El. destruct (aligned_rank _ _ _ _ AL El) as (c & Ec & L1). destruct (aligned_rank _ _ _ _ AP El) as (pr & Epr & L2). exists c, pr. auto. }
  destruct (rall_exists (zipr (fun l p => let! e := equiv_class Z.min argsort l p false None None in rall (map (fun x => match znth e x with Some v => Ok v | None => Err IndexError end) l)) labels pid)) as (m & EM & MM).
  { intros y Hy. apply In_nth_error in Hy. destruct Hy as (r & Er). rewrite zipr_nth in Er. destruct (nth_error labels r) as [c|] eqn:Ec; [|discriminate]. destruct (LX r c Ec) as (l & El). destruct (RK r l El) as (c' & pr & Ec' & Epr & L1 & L2). rewrite Ec in Ec'. injection Ec' as <-. rewrite Epr in Er. injection Er as <-.
    destruct (local_rank_ok c pr) as (out & EO & _); [congruence|intros y; apply (fi_nonneg _ _ _ IN c y (nth_error_In _ _ Ec))|intros a y Ha; apply (fi_dense _ _ _ IN c a y (nth_error_In _ _ Ec) Ha)|]. rewrite EO. eauto. }
  exists m. split; [exact EM|].
  assert (forall r l, nth_error layout r = Some l -> exists c pr mr, nth_error labels r = Some c /\ nth_error pid r = Some pr /\ nth_error m r = Some mr /\ length c = length l /\ length mr = length l /\ length pr = length l /\
     forall j x v, nth_error c j = Some x -> nth_error mr j = Some v -> fold1 Z.min (class_values x c pr) = Some v) as RM.
  { intros r l El. destruct (RK r l El) as (c & pr & Ec & Epr & L1 & L2). pose proof (map_ok_nth _ _ r MM) as Q. rewrite zipr_nth, Ec, Epr in Q. destruct (local_rank_ok c pr) as (out & EO & LO & HO); [congruence|intros y; apply (fi_nonneg _ _ _ IN c y (nth_error_In _ _ Ec))|intros a y Ha; apply (fi_dense _ _ _ IN c a y (nth_error_In _ _ Ec) Ha)|].
    rewrite EO in Q. destruct (nth_error m r) as [mr|] eqn:Em; [|discriminate]. cbn in Q. injection Q as <-. exists c, pr, out. repeat (split; [congruence|]). exact HO. }
  assert (length m = length layout) as LM.
  { apply (f_equal (@length _)) in MM. rewrite zipr_length, map_length in MM. pose proof AL as AL'. pose proof AP as AP'. apply (f_equal (@length _)) in AL'. apply (f_equal (@length _)) in AP'. rewrite !map_length in AL', AP'. lia. }
  assert (forall r j p v, copy layout m r j p v -> exists l k q c x, nth_error layout r = Some l /\ nth_error labels r = Some c /\ nth_error c j = Some x /\ nth_error c k = Some x /\ nth_error l k = Some q /\ v = Z.of_nat q /\ v <= Z.of_nat p /\ nth_error l j = Some p) as CP.
  { intros r j p v (l & mr & El & Em & Ej & Ev). destruct (RM r l El) as (c & pr & mr' & Ec & Epr & Em' & L1 & L2 & L3 & H). rewrite Em in Em'. injection Em' as <-. assert (j < length l)%nat as Lj by (apply nth_error_Some; congruence). destruct (nth_error c j) as [x|] eqn:Ex; [|apply nth_error_None in Ex; lia].
    specialize (H j x v Ex Ev). destruct (zmin1_some (class_values x c pr) v) as [I L]; [exact H|]. apply class_in in I. destruct I as (k & Ek & Ev'). assert (k < length l)%nat as Lk by (rewrite <- L1; apply nth_error_Some; congruence). destruct (nth_error l k) as [q|] eqn:Eq; [|apply nth_error_None in Eq; lia].
    assert (forall i s w, nth_error l i = Some s -> nth_error pr i = Some w -> w = Z.of_nat s) as PID.
    { intros i s w Es Ew. rewrite (HP r l pr i s El Epr Es), nth_error_map', nth_error_seq in Ew. destruct (Nat.ltb s n); [cbn in Ew; congruence|discriminate]. }
    exists l, k, q, c, x. split; [exact El|]. split; [exact Ec|]. split; [exact Ex|]. split; [exact Ek|]. split; [exact Eq|]. split; [apply (PID k q v Eq Ev')|]. split; [|exact Ej]. destruct (nth_error pr j) as [w|] eqn:Ew; [|apply nth_error_None in Ew; lia]. rewrite <- (PID j p w Ej Ew). apply L. apply class_in. eauto. }
  constructor.
  - unfold aligned. apply nth_error_ext. intros r. rewrite !nth_error_map'. destruct (nth_error layout r) as [l|] eqn:El.
    + destruct (RM r l El) as (c & pr & mr & _ & _ & -> & _ & L2 & _). cbn. now rewrite L2.
    + destruct (nth_error m r) as [mr|] eqn:Em; [|reflexivity]. apply nth_error_None in El. assert (r < length m)%nat by (apply nth_error_Some; congruence). lia.
  - intros r c mr j k x Ec Em Ej Ek. destruct (LX r c Ec) as (l & El). destruct (RM r l El) as (c' & pr & mr' & Ec' & Epr & Em' & L1 & L2 & L3 & H). rewrite Ec in Ec'. injection Ec' as <-. rewrite Em in Em'. injection Em' as <-.
    destruct (nth_error mr j) as [v|] eqn:Ev; [|apply nth_error_None in Ev; assert (j < length c)%nat by (apply nth_error_Some; congruence); lia]. destruct (nth_error mr k) as [w|] eqn:Ew; [|apply nth_error_None in Ew; assert (k < length c)%nat by (apply nth_error_Some; congruence); lia].
    pose proof (H j x v Ej Ev). pose proof (H k x w Ek Ew). congruence.
  - intros r j p v C. destruct (CP r j p v C) as (l & k & q & c & x & El & Ec & Ex & Ek & Eq & -> & _ & Ep). exists q. split; [reflexivity|]. split; [apply (fi_range _ _ _ IN l q (nth_error_In _ _ El) (nth_error_In _ _ Eq))|]. apply rst_step. exists r, l, c, j, k. repeat (split; [assumption|]). eauto.
  - intros r j p v C. destruct (CP r j p v C) as (l & k & q & c & x & H). tauto.
Qed.
End Merge.
