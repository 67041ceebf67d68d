From Verif Require Import Base BaseProofs Num RanksSpec DaModel DaSpec DaProofs DaBin DistSpec FofModel FofSpec FofProofs FofLabels FofMerge FofGroups FofCmModel FofCmSpec.
From Coq Require Import Sorted Permutation Qround.
Local Open Scope Z_scope.

(* ---- monoids ---- *)
Section Monoid.
Context {V : Type}.
Variables (op : V -> V -> V) (e : V).
Hypothesis op_comm : forall x y, op x y = op y x.
Hypothesis op_assoc : forall x y z, op x (op y z) = op (op x y) z.
Hypothesis op_e : forall x, op x e = x.
Definition mfold (l : list V) : V := fold_right op e l.
Lemma mfold_app a b : mfold (a ++ b) = op (mfold a) (mfold b).
Proof. unfold mfold. induction a as [|x a IH]; cbn; [now rewrite op_comm, op_e|]. now rewrite IH, op_assoc. Qed.
Lemma mfold_concat ls : mfold (concat ls) = mfold (map mfold ls).
Proof. induction ls as [|l ls IH]; [reflexivity|]. cbn [concat map]. rewrite mfold_app, IH. reflexivity. Qed.
Lemma fold_left_mfold l : forall x, fold_left op l x = op x (mfold l).
Proof. unfold mfold. induction l as [|y l IH]; intros x; cbn; [now rewrite op_e|]. now rewrite IH, op_assoc. Qed.
Lemma fold1_mfold l : match fold1 op l with Some v => Some v | None => Some e end = Some (mfold l).
Proof. destruct l as [|x l]; [reflexivity|]. cbn [fold1]. now rewrite fold_left_mfold. Qed.
Lemma mfold_perm a b : Permutation a b -> mfold a = mfold b.
Proof. unfold mfold. induction 1; cbn; try congruence; rewrite !op_assoc; now rewrite (op_comm y x). Qed.
Lemma allreduce_ok (ls : list (list V)) k : ls <> [] -> (forall l, In l ls -> length l = k) ->
  length (allreduce op ls) = k /\ forall b, (b < k)%nat -> nth_error (allreduce op ls) b = Some (mfold (map (fun l => nth b l e) ls)).
Proof.
  destruct ls as [|l ls]; [contradiction|]. intros _. cbn [allreduce]. revert l. induction ls as [|m ls IH]; intros l H.
  - split; [apply H; now left|]. intros b Lb. cbn [fold_left map mfold fold_right]. unfold mfold. cbn [fold_right]. rewrite op_e. apply nth_error_nth'. rewrite (H l (or_introl eq_refl)). exact Lb.
  - cbn [fold_left]. assert (length l = k) as L1 by (apply H; now left). assert (length m = k) as L2 by (apply H; right; now left).
    destruct (IH (zipr op l m)) as [I1 I2].
    { intros x [<-|Hx]; [rewrite zipr_length; lia|apply H; right; now right]. }
    split; [exact I1|]. intros b Lb. rewrite (I2 b Lb). f_equal. unfold mfold. cbn [map fold_right]. rewrite op_assoc. f_equal.
    assert (nth_error (zipr op l m) b = Some (op (nth b l e) (nth b m e))) as E; [|exact (nth_error_nth _ _ _ E)].
    rewrite zipr_nth. rewrite (nth_error_nth' l e) by lia. rewrite (nth_error_nth' m e) by lia. reflexivity.
Qed.
End Monoid.

Lemma class_of {V} b l (v : list V) : class_values b l v = of_label b l v.
Proof. reflexivity. Qed.
Lemma of_label_app {V} b l l' (v v' : list V) : length l = length v -> of_label b (l ++ l') (v ++ v') = of_label b l v ++ of_label b l' v'.
Proof. intros L. unfold of_label. rewrite combine_app by assumption. now rewrite filter_app, map_app. Qed.
Lemma of_label_concat {V} b (ls : list (list Z)) (vs : list (list V)) : map (@length Z) ls = map (@length V) vs ->
  of_label b (global ls) (global vs) = concat (zipr (of_label b) ls vs).
Proof.
  unfold global. revert vs. induction ls as [|l ls IH]; intros [|v vs] H; cbn in H; try discriminate; [reflexivity|]. injection H as H1 H2. cbn [concat]. rewrite of_label_app by assumption. rewrite (IH vs H2). reflexivity.
Qed.
Lemma of_label_map {V W} (f : V -> W) b l v : of_label b l (map f v) = map f (of_label b l v).
Proof. unfold of_label. revert v. induction l as [|x l IH]; intros [|y v]; cbn; auto. destruct (x =? b); cbn; now rewrite IH. Qed.

(* ---- the number of labels ---- *)
Definition top (labels : list (list Z)) : nat := Z.to_nat (zmax (global labels) + 1).
Lemma np_max_zmax l : l <> [] -> (forall x, In x l -> 0 <= x) -> np_max l = Ok (zmax l).
Proof.
  destruct l as [|x l]; [contradiction|]. intros _ H. unfold np_max. f_equal. change (zmax (x :: l)) with (Z.max x (zmax l)).
  assert (forall m, (forall y, In y m -> 0 <= y) -> fold_right Z.max x m = Z.max x (zmax m)) as Q; [|apply Q; intros; apply H; now right].
  pose proof (H x (or_introl eq_refl)) as HX. induction m as [|y m IH]; intros Hm; [cbn; change (zmax []) with (-1); lia|]. cbn [fold_right]. change (zmax (y :: m)) with (Z.max y (zmax m)). rewrite IH by (intros; apply Hm; now right). lia.
Qed.
Lemma zmax_concat ls : zmax (map zmax ls) = zmax (concat ls).
Proof.
  induction ls as [|l ls IH]; [reflexivity|]. cbn [map concat]. change (zmax (zmax l :: map zmax ls)) with (Z.max (zmax l) (zmax (map zmax ls))). rewrite IH.
  induction l as [|x l IHl]; [cbn [app]; change (zmax []) with (-1); assert (-1 <= zmax (concat ls)); [|lia]|cbn [app]; change (zmax (x :: l)) with (Z.max x (zmax l)); change (zmax (x :: l ++ concat ls)) with (Z.max x (zmax (l ++ concat ls))); lia].
  clear. induction (concat ls) as [|x l IH]; [unfold zmax; cbn; lia|]. change (zmax (x :: l)) with (Z.max x (zmax l)). lia.
Qed.
Lemma nhalo0_ok labels : proper labels -> nhalo0 labels = Ok (top labels).
Proof.
  intros (NE & F & NN). unfold nhalo0. assert (map np_max labels = map Ok (map zmax labels)) as ->.
  { rewrite map_map. apply map_ext_in. intros l Hl. rewrite Forall_forall in F. apply np_max_zmax; [now apply F|]. intros x Hx. apply NN. apply in_concat. eauto. }
  rewrite rall_ok. cbn [rbind]. rewrite zmax_concat. reflexivity.
Qed.
Lemma zmax_least l m : (forall a, In a l -> a <= m) -> -1 <= m -> zmax l <= m.
Proof. induction l as [|x l IH]; intros H L; [exact L|]. change (zmax (x :: l)) with (Z.max x (zmax l)). pose proof (H x (or_introl eq_refl)). assert (zmax l <= m) by (apply IH; auto; intros; apply H; now right). lia. Qed.
Lemma zmax_low l : -1 <= zmax l.
Proof. induction l as [|x l IH]; [unfold zmax; cbn; lia|]. change (zmax (x :: l)) with (Z.max x (zmax l)). lia. Qed.
Lemma zmax_rank labels l : In l labels -> zmax l <= zmax (global labels).
Proof. intros H. apply zmax_least; [intros a Ha; apply zmax_above; apply in_concat; eauto|apply zmax_low]. Qed.
Lemma bincount_min_ok labels l : proper labels -> In l labels -> exists c, bincount_min l (top labels) = Ok c /\ length c = top labels /\ forall b, (b < top labels)%nat -> nth b c 0 = count (Z.of_nat b) l.
Proof.
  intros (NE & F & NN) Hl. unfold bincount_min, np_bincount. rewrite map_length, Nat.eqb_refl. cbn [negb]. destruct (existsb _ _) eqn:EX; [apply existsb_exists in EX; destruct EX as (y & Hy & Q); assert (0 <= y) by (apply NN, in_concat; eauto); lia|].
  cbn [rbind]. set (k := Z.to_nat (zmax l + 1)). assert (k <= top labels)%nat as LK by (pose proof (zmax_rank labels l Hl); unfold k, top; lia). eexists; split; [reflexivity|]. split; [rewrite app_length, repeat_length, map_length, seq_length; lia|].
  intros b Lb. destruct (Nat.ltb_spec b k) as [L|L].
  - rewrite app_nth1 by (rewrite map_length, seq_length; exact L). rewrite (nth_error_nth _ b _ (x:=count (Z.of_nat b) l)); [reflexivity|]. rewrite nth_error_map', nth_error_seq. destruct (Nat.ltb_spec b k); [|lia]. cbn [option_map Nat.add]. f_equal. apply total_ones.
  - rewrite app_nth2 by (rewrite map_length, seq_length; exact L). rewrite nth_repeat. symmetry. destruct (Z.eq_dec (count (Z.of_nat b) l) 0); [assumption|]. pose proof (count_nonneg (Z.of_nat b) l). assert (In (Z.of_nat b) l) as I by (apply count_in; lia). pose proof (zmax_above _ _ I). unfold k in L. lia.
Qed.
Lemma count_concat v ls : count v (concat ls) = zsum (map (count v) ls).
Proof. induction ls as [|l ls IH]; [reflexivity|]. cbn [concat map]. rewrite count_app, IH. reflexivity. Qed.

Lemma counts_ok labels : proper labels -> exists n, rall (map (fun l => bincount_min l (top labels)) labels) = Ok n /\ length (allreduce Z.add n) = top labels /\
  forall b, (b < top labels)%nat -> nth_error (allreduce Z.add n) b = Some (count (Z.of_nat b) (global labels)).
Proof.
  intros P. destruct (rall_exists (map (fun l => bincount_min l (top labels)) labels)) as (n & E & M).
  { intros x Hx. apply in_map_iff in Hx. destruct Hx as (l & <- & Hl). destruct (bincount_min_ok labels l P Hl) as (c & -> & _). eauto. }
  exists n. split; [exact E|].
  assert (forall c, In c n -> exists l, In l labels /\ bincount_min l (top labels) = Ok c) as IN.
  { intros c Hc. assert (In (Ok c) (map Ok n)) as I by now apply in_map. rewrite <- M in I. apply in_map_iff in I. destruct I as (l & E1 & E2). eauto. }
  destruct (allreduce_ok Z.add 0 Z.add_comm Z.add_assoc Z.add_0_r n (top labels)) as [A1 A2].
  { intros ->. destruct labels; [destruct P as (NE & _); contradiction|discriminate]. }
  { intros c Hc. destruct (IN c Hc) as (l & Hl & EC). destruct (bincount_min_ok labels l P Hl) as (c' & E' & L & _). congruence. }
  split; [exact A1|]. intros b Lb. rewrite (A2 b Lb). f_equal. unfold global. rewrite count_concat. unfold mfold, zsum. f_equal.
  assert (forall ls, (forall l, In l ls -> In l labels) -> forall m, map (fun l => bincount_min l (top labels)) ls = map Ok m -> map (fun l => nth b l 0) m = map (count (Z.of_nat b)) ls) as Q; [|apply (Q labels); auto].
  induction ls as [|l ls IH]; intros Hls [|c m] Em; cbn in Em; try discriminate; [reflexivity|]. injection Em as E1 E2. cbn [map]. f_equal; [|apply IH; auto; intros; apply Hls; now right].
  destruct (bincount_min_ok labels l P (Hls l (or_introl eq_refl))) as (c' & E' & _ & N). rewrite E1 in E'. injection E' as <-. apply N, Lb.
Qed.
Lemma fof_count_ok labels : proper labels -> exists n, fof_count labels = Ok n /\ length n = top labels /\ forall b, (b < top labels)%nat -> nth_error n b = Some (count (Z.of_nat b) (global labels)).
Proof. intros P. unfold fof_count. rewrite (nhalo0_ok labels P). cbn [rbind]. destruct (counts_ok labels P) as (n & -> & L & N). cbn [rbind]. eauto. Qed.

(* ---- reductions over all ranks ---- *)
Section Reduce.
Context {V : Type}.
Variables (op : V -> V -> V) (e : V).
Hypothesis op_comm : forall x y, op x y = op y x.
Hypothesis op_assoc : forall x y z, op x (op y z) = op (op x y) z.
Hypothesis op_e : forall x, op x e = x.
Variable argsort : list Z -> list nat.
Hypothesis arg_ok : argsort_contract argsort.
Lemma label_reduce_ok labels (vs : list (list V)) : proper labels -> map (@length Z) labels = map (@length V) vs ->
  exists s, rall (zipr (fun l v => equiv_class op argsort l v true (Some e) (Some (top labels))) labels vs) = Ok s /\
    length (allreduce op s) = top labels /\ forall b, (b < top labels)%nat -> nth_error (allreduce op s) b = Some (mfold op e (of_label (Z.of_nat b) (global labels) (global vs))).
Proof.
  intros P AL.
  assert (forall l v, In l labels -> length v = length l -> exists ee, equiv_class op argsort l v true (Some e) (Some (top labels)) = Ok ee /\ length ee = top labels /\ forall b, (b < top labels)%nat -> nth b ee e = mfold op e (of_label (Z.of_nat b) l v)) as ONE.
  { intros l v Hl L. destruct P as (NE & F & NN). rewrite Forall_forall in F. destruct (equiv_class_dense_ok op op_comm op_assoc argsort arg_ok l v (Some e) (Some (top labels)) L (F l Hl)) as (ee & E1 & E2 & E3).
    - intros x Hx. apply NN, in_concat. eauto.
    - discriminate. - discriminate.
    - intros m Em. injection Em as <-. pose proof (zmax_rank labels l Hl). unfold top. lia.
    - exists ee. split; [exact E1|]. split; [exact E2|]. intros b Lb. apply nth_error_nth. rewrite E3 by lia. rewrite class_of. now rewrite fold1_mfold. }
  assert (forall r l, nth_error labels r = Some l -> exists v, nth_error vs r = Some v /\ length v = length l) as RK.
  { intros r l El. assert (nth_error (map (@length Z) labels) r = Some (length l)) as Q by (rewrite nth_error_map', El; reflexivity). rewrite AL, nth_error_map' in Q. destruct (nth_error vs r); [|discriminate]. cbn in Q. injection Q as Q. eauto. }
  destruct (rall_exists (zipr (fun l v => equiv_class op argsort l v true (Some e) (Some (top labels))) labels vs)) as (s & E & M).
  { intros y Hy. apply In_nth_error in Hy. destruct Hy as (r & Hr). rewrite zipr_nth in Hr. destruct (nth_error labels r) as [l|] eqn:El; [|discriminate]. destruct (RK r l El) as (v & Ev & L). rewrite Ev in Hr. injection Hr as <-. destruct (ONE l v (nth_error_In _ _ El) L) as (ee & -> & _). eauto. }
  exists s. split; [exact E|].
  assert (length s = length labels) as LS. { apply (f_equal (@length _)) in M. rewrite zipr_length, map_length in M. apply (f_equal (@length _)) in AL. rewrite !map_length in AL. lia. }
  assert (forall r l v, nth_error labels r = Some l -> nth_error vs r = Some v -> exists ee, nth_error s r = Some ee /\ equiv_class op argsort l v true (Some e) (Some (top labels)) = Ok ee) as SR.
  { intros r l v El Ev. pose proof (map_ok_nth _ _ r M) as Q. rewrite zipr_nth, El, Ev in Q. destruct (nth_error s r) as [ee|]; [|discriminate]. cbn in Q. injection Q as Q. eauto. }
  destruct (allreduce_ok op e op_comm op_assoc op_e s (top labels)) as [A1 A2].
  { intros ->. destruct labels; [destruct P as (NE & _); contradiction|discriminate]. }
  { intros c Hc. apply In_nth_error in Hc. destruct Hc as (r & Er). assert (r < length labels)%nat as Lr by (rewrite <- LS; apply nth_error_Some; congruence). destruct (nth_error labels r) as [l|] eqn:El; [|apply nth_error_None in El; lia]. destruct (RK r l El) as (v & Ev & L). destruct (SR r l v El Ev) as (ee & E1 & E2). rewrite Er in E1. injection E1 as <-. destruct (ONE l v (nth_error_In _ _ El) L) as (ee & E3 & L3 & _). congruence. }
  split; [exact A1|]. intros b Lb. rewrite (A2 b Lb). f_equal. rewrite of_label_concat by assumption. rewrite mfold_concat by assumption. f_equal. apply nth_error_ext. intros r. rewrite !nth_error_map', zipr_nth.
  destruct (nth_error labels r) as [l|] eqn:El.
  - destruct (RK r l El) as (v & Ev & L). destruct (SR r l v El Ev) as (ee & E1 & E2). rewrite E1, Ev. cbn. f_equal. destruct (ONE l v (nth_error_In _ _ El) L) as (ee' & E3 & L3 & N3). assert (ee' = ee) by congruence. subst. apply N3, Lb.
  - rewrite (proj2 (nth_error_None s r)); [reflexivity|]. apply nth_error_None in El. lia.
Qed.
End Reduce.
