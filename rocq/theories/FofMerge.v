From Verif Require Import Base BaseProofs RanksSpec DaModel DaSpec DaProofs DaBin DaMore DistSpec FofModel FofSpec FofProofs FofLabels.
From Coq Require Import Sorted Permutation Relations.
Local Open Scope Z_scope.

(* ---- taking rows ---- *)
Lemma take_rows_app {A} (l : list A) a b : take_rows l (a ++ b) = take_rows l a ++ take_rows l b.
Proof. apply flat_map_app. Qed.
Lemma take_rows_nth {A} (l : list A) idx : (forall i, In i idx -> (i < length l)%nat) -> length (take_rows l idx) = length idx /\ forall k, nth_error (take_rows l idx) k = match nth_error idx k with Some i => nth_error l i | None => None end.
Proof.
  induction idx as [|i idx IH]; intros H; [split; [reflexivity|intros [|k]; reflexivity]|]. destruct IH as [IL IN]; [intros; apply H; now right|].
  cbn [take_rows flat_map]. destruct (nth_error l i) as [x|] eqn:E; [|apply nth_error_None in E; specialize (H i (or_introl eq_refl)); lia].
  split; [cbn; f_equal; exact IL|]. intros [|k]; cbn; [now rewrite E|apply IN].
Qed.
Lemma take_rows_perm {A} (l : list A) a b : Permutation a b -> Permutation (take_rows l a) (take_rows l b).
Proof. intros P. unfold take_rows. induction P; cbn; auto; [now apply Permutation_app_head|rewrite !app_assoc; apply Permutation_app_tail, Permutation_app_comm|etransitivity; eauto]. Qed.

(* ---- folds over permutations ---- *)
Section Fold.
Context {V : Type}.
Variable op : V -> V -> V.
Hypothesis op_comm : forall x y, op x y = op y x.
Hypothesis op_assoc : forall x y z, op x (op y z) = op (op x y) z.
Lemma fold_left_perm l m : Permutation l m -> forall a, fold_left op l a = fold_left op m a.
Proof.
  induction 1 as [|x l m P IH|x y l|l m k P1 IH1 P2 IH2]; intros a; cbn; auto.
  - f_equal. now rewrite <- !op_assoc, (op_comm y x).
  - now rewrite IH1.
Qed.
Lemma fold1_perm l m : Permutation l m -> fold1 op l = fold1 op m.
Proof.
  induction 1 as [|x l m P IH|x y l|l m k P1 IH1 P2 IH2]; cbn; auto.
  - f_equal. now apply fold_left_perm.
  - f_equal. f_equal. apply op_comm.
  - congruence.
Qed.
End Fold.

(* ---- reduceat over consecutive segments ---- *)
Section Reduce.
Context {V : Type}.
Variable op : V -> V -> V.
Fixpoint starts (k : nat) (segs : list (list V)) : list nat :=
  match segs with [] => [] | s :: segs => k :: starts (k + length s) segs end.
Lemma skipn_length_app {A} (a b : list A) : skipn (length a) (a ++ b) = b.
Proof. induction a; cbn; auto. Qed.
Lemma firstn_length_app {A} (a b : list A) : firstn (length a) (a ++ b) = a.
Proof. induction a; cbn; congruence. Qed.
Lemma reduceat_ok segs : forall pre, (forall s, last_error segs = Some s -> s <> []) ->
  exists rs, reduceat op (pre ++ concat segs) (starts (length pre) segs) = Ok rs /\ Forall2 (fun s v => s <> [] -> fold1 op s = Some v) segs rs.
Proof.
  induction segs as [|s segs IH]; intros pre H; [exists []; split; constructor|].
  assert (forall t, last_error segs = Some t -> t <> []) as H'. { intros t Ht. apply H. change (s :: segs) with ([s] ++ segs). rewrite last_error_app, Ht. reflexivity. }
  destruct (IH (pre ++ s) H') as (rs & E & F). rewrite app_length, <- app_assoc in E. cbn [starts reduceat concat].
  set (stop := match starts (length pre + length s) segs with [] => length (pre ++ s ++ concat segs) | o' :: _ => o' end).
  assert (stop = length pre + length s)%nat as ES.
  { unfold stop. destruct segs; cbn [starts concat]; [|reflexivity]. rewrite app_nil_r, app_length. reflexivity. }
  rewrite ES. destruct (Nat.ltb_spec (length pre) (length pre + length s)) as [L|L].
  - replace (length pre + length s - length pre)%nat with (length s) by lia. rewrite skipn_length_app, firstn_length_app. destruct s as [|x s]; [cbn in L; lia|].
    cbn [fold1]. rewrite E. cbn [rbind]. eexists; split; [reflexivity|]. constructor; [reflexivity|assumption].
  - assert (s = []) as -> by (destruct s; [reflexivity|cbn in L; lia]). cbn [app] in *. rewrite skipn_length_app.
    assert (concat segs <> []) as N. { clear -H H'. destruct segs as [|t segs]; [exfalso; apply (H []); reflexivity|]. intros C. destruct (last_error (t :: segs)) as [u|] eqn:EU; [|apply last_error_none in EU; discriminate].
      apply (H' u eq_refl). destruct (last_error_some _ _ EU) as (m & Em). rewrite Em, concat_app in C. cbn in C. rewrite app_nil_r in C. apply app_eq_nil in C. tauto. }
    destruct (concat segs) as [|v vs] eqn:EC; [contradiction|]. cbn [firstn fold1 fold_left]. cbn [length] in E. rewrite Nat.add_0_r in *. rewrite E. cbn [rbind]. eexists; split; [reflexivity|]. constructor; [contradiction|assumption].
Qed.
End Reduce.

(* ---- sorted lists by key ---- *)
Lemma sorted_split (key : nat -> Z) l b : StronglySorted (fun i j => key i <= key j) l -> (forall i, In i l -> b <= key i) ->
  l = filter (fun i => key i =? b) l ++ filter (fun i => b + 1 <=? key i) l.
Proof.
  induction 1 as [|x l S IH F]; intros H; [reflexivity|]. cbn [filter]. pose proof (H x (or_introl eq_refl)). rewrite Forall_forall in F. destruct (Z.eqb_spec (key x) b) as [E|N].
  - destruct (Z.leb_spec (b + 1) (key x)); [lia|]. cbn [app]. f_equal. apply IH. intros; apply H; now right.
  - destruct (Z.leb_spec (b + 1) (key x)); [|lia]. assert (filter (fun i => key i =? b) l = []) as ->.
    { clear -F N H0. induction l as [|y l IH]; [reflexivity|]. cbn. pose proof (F y (or_introl eq_refl)). destruct (Z.eqb_spec (key y) b); [lia|]. apply IH. intros; apply F; now right. }
    cbn [app]. f_equal. clear -F N H0. symmetry. induction l as [|y l IH]; [reflexivity|]. cbn. pose proof (F y (or_introl eq_refl)). destruct (Z.leb_spec (b + 1) (key y)); [|lia]. f_equal. apply IH. intros; apply F; now right.
Qed.
Lemma sorted_sub {A} (R : A -> A -> Prop) p l : StronglySorted R l -> StronglySorted R (filter p l).
Proof. induction 1 as [|x l S IH F]; cbn; [constructor|]. destruct (p x); [|assumption]. constructor; [assumption|]. apply Forall_forall. intros y Hy. apply filter_In in Hy. rewrite Forall_forall in F. now apply F. Qed.
Lemma filter_and {A} (p q : A -> bool) l : filter p (filter q l) = filter (fun x => q x && p x) l.
Proof. induction l as [|x l IH]; [reflexivity|]. cbn. destruct (q x); cbn; [destruct (p x); now rewrite IH|assumption]. Qed.
Lemma bins_split (key : nat -> Z) k : forall l b, StronglySorted (fun i j => key i <= key j) l -> (forall i, In i l -> b <= key i < b + Z.of_nat k) ->
  l = concat (map (fun i => filter (fun j => key j =? b + Z.of_nat i) l) (seq 0 k)).
Proof.
  induction k as [|k IH]; intros l b S H; [destruct l as [|x l]; [reflexivity|specialize (H x (or_introl eq_refl)); lia]|].
  rewrite (sorted_split key l b S) at 1 by (intros i Hi; specialize (H i Hi); lia). cbn [seq map concat]. rewrite Z.add_0_r. f_equal.
  rewrite (IH (filter (fun i => b + 1 <=? key i) l) (b + 1)) at 1.
  - rewrite <- seq_shift, map_map. f_equal. apply map_ext. intros i. rewrite filter_and. apply filter_ext. intros j. destruct (Z.eqb_spec (key j) (b + 1 + Z.of_nat i)), (Z.eqb_spec (key j) (b + Z.of_nat (Datatypes.S i))), (Z.leb_spec (b + 1) (key j)); cbn; try lia; reflexivity.
  - now apply sorted_sub.
  - intros i Hi. apply filter_In in Hi. destruct Hi as [Hi Hb]. specialize (H i Hi). lia.
Qed.

(* ---- classes ---- *)
Definition class_values {V} (b : Z) (labels : list Z) (values : list V) : list V := map snd (filter (fun p => fst p =? b) (combine labels values)).
Lemma class_rows {V} (b : Z) (labels : list Z) (values : list V) : length values = length labels ->
  take_rows values (filter (fun i => nth i labels 0 =? b) (seq 0 (length labels))) = class_values b labels values.
Proof.
  unfold class_values, take_rows. revert values. induction labels as [|x labels IH]; intros [|v values] L; cbn [length] in L; try discriminate; [reflexivity|].
  cbn [length seq combine filter nth fst]. rewrite <- seq_shift.
  assert (forall f : nat -> bool, filter f (map S (seq 0 (length labels))) = map S (filter (fun i => f (S i)) (seq 0 (length labels)))) as FM.
  { intros f. generalize (seq 0 (length labels)). intros l. induction l as [|y l IHl]; [reflexivity|]. cbn. destruct (f (S y)); cbn; congruence. }
  destruct (x =? b); cbn [flat_map nth_error app map snd]; rewrite FM; cbn [nth]; rewrite flat_map_concat_map, map_map, <- flat_map_concat_map; cbn [nth_error]; rewrite <- (IH values) by lia; reflexivity.
Qed.
Lemma class_nonempty {V} b labels (values : list V) : length values = length labels -> In b labels -> class_values b labels values <> [].
Proof.
  intros L I. apply In_nth_error in I. destruct I as (j & Ej). destruct (nth_error values j) as [v|] eqn:EV; [|apply nth_error_None in EV; assert (j < length labels)%nat by (apply nth_error_Some; congruence); lia].
  intros H. assert (In v (class_values b labels values)) as I; [|rewrite H in I; contradiction]. unfold class_values. apply in_map_iff. exists (b, v). split; [reflexivity|]. apply filter_In. split; [|cbn; lia].
  clear -Ej EV. revert values j Ej EV. induction labels as [|x l IH]; intros [|y values] [|j] Ej EV; cbn in *; try discriminate; [left; congruence|right; eauto].
Qed.
Lemma class_in {V} b labels (values : list V) v : In v (class_values b labels values) <-> exists j, nth_error labels j = Some b /\ nth_error values j = Some v.
Proof.
  unfold class_values. rewrite in_map_iff. split.
  - intros ([x w] & <- & H). apply filter_In in H. destruct H as [H E]. cbn in *. assert (x = b) by lia. subst x. revert values H. induction labels as [|x l IH]; intros [|y values] H; cbn in H; try contradiction.
    destruct H as [H|H]; [injection H as -> ->; exists O; auto|]. destruct (IH _ H) as (j & H1 & H2). exists (S j). auto.
  - intros (j & H1 & H2). exists (b, v). split; [reflexivity|]. apply filter_In. split; [|cbn; lia]. revert values j H1 H2. induction labels as [|x l IH]; intros [|y values] [|j] H1 H2; cbn in *; try discriminate; [left; congruence|right; eauto].
Qed.
Lemma class_length {V} b labels (values : list V) : length values = length labels -> zlen (class_values b labels values) = count b labels.
Proof.
  unfold class_values, count. revert values. induction labels as [|x l IH]; intros [|y values] L; cbn in *; try discriminate; [reflexivity|]. destruct (x =? b); cbn [map]; rewrite ?zlen_cons, IH by lia; reflexivity.
Qed.

Section Equiv.
Context {V : Type}.
Variable op : V -> V -> V.
Hypothesis op_comm : forall x y, op x y = op y x.
Hypothesis op_assoc : forall x y z, op x (op y z) = op (op x y) z.
Variable argsort : list Z -> list nat.
Hypothesis arg_ok : argsort_contract argsort.

Lemma starts_cumsum (segs : list (list V)) : forall k, map Z.to_nat (firstn (length segs) (Z.of_nat k :: cumsum_from (Z.of_nat k) (map zlen segs))) = starts k segs.
Proof.
  induction segs as [|s segs IH]; intros k; [reflexivity|]. cbn [length firstn map cumsum_from starts]. rewrite Nat2Z.id. f_equal. rewrite <- (IH (k + length s)%nat). unfold zlen. rewrite Nat2Z.inj_add. reflexivity.
Qed.
(* dense labels: the value of label b is the fold of the values of its class *)
Lemma equiv_class_dense_ok labels values ident minlength : length values = length labels -> labels <> [] -> (forall x, In x labels -> 0 <= x) ->
  (ident = None -> forall b, 0 <= b <= zmax labels -> In b labels) -> (ident = None -> minlength = None) -> (forall m, minlength = Some m -> (Z.to_nat (zmax labels + 1) <= m)%nat) ->
  exists e, equiv_class op argsort labels values true ident minlength = Ok e /\
    length e = match minlength with Some m => m | None => Z.to_nat (zmax labels + 1) end /\
    forall b, (b < length e)%nat -> nth_error e b = match fold1 op (class_values (Z.of_nat b) labels values) with Some v => Some v | None => ident end.
Proof.
  intros LV NE NN ID IM HM. unfold equiv_class. set (K := Z.to_nat (zmax labels + 1)) in *.
  assert (np_bincount 0 Z.add labels (map (fun _ => 1) labels) = Ok (map (fun b => count (Z.of_nat b) labels) (seq 0 K))) as ->.
  { unfold np_bincount. rewrite map_length, Nat.eqb_refl. cbn [negb]. destruct (existsb _ _) eqn:EX; [apply existsb_exists in EX; destruct EX as (y & Hy & Q); specialize (NN y Hy); lia|]. f_equal. fold K. apply map_ext. intros b. apply total_ones. }
  cbn [rbind]. rewrite map_length, seq_length.
  set (segs := map (fun b => take_rows values (filter (fun j => nth j labels 0 =? Z.of_nat b) (argsort labels))) (seq 0 K)).
  destruct (arg_ok labels) as [AP AS].
  assert (forall b, Permutation (take_rows values (filter (fun j => nth j labels 0 =? Z.of_nat b) (argsort labels))) (class_values (Z.of_nat b) labels values)) as PS.
  { intros b. rewrite <- class_rows by assumption. apply take_rows_perm. clear -AP. induction AP as [|x a c P IH|x y a|a c d P1 IH1 P2 IH2]; cbn; auto.
    - destruct (_ =? _); [now constructor|assumption].
    - repeat destruct (_ =? _); try reflexivity. apply perm_swap.
    - etransitivity; eauto. }
  assert (map zlen segs = map (fun b => count (Z.of_nat b) labels) (seq 0 K)) as ZS.
  { unfold segs. rewrite map_map. apply map_ext. intros b. rewrite <- (class_length (Z.of_nat b) labels values LV). unfold zlen. now rewrite (Permutation_length (PS b)). }
  assert (take_rows values (argsort labels) = concat segs) as VS.
  { rewrite (bins_split (fun j => nth j labels 0) K (argsort labels) 0 AS) at 1.
    - unfold segs. clear. induction (seq 0 K) as [|b l IH]; [reflexivity|]. cbn [map concat]. rewrite take_rows_app, IH. reflexivity.
    - intros i Hi. apply (Permutation_in i AP) in Hi. apply in_seq in Hi. assert (In (nth i labels 0) labels) as I by (apply nth_In; lia). pose proof (NN _ I). pose proof (zmax_above _ _ I). unfold K. lia. }
  assert (K <> O) as K0. { destruct labels as [|x l]; [contradiction|]. pose proof (NN x (or_introl eq_refl)). pose proof (zmax_above (x :: l) x (or_introl eq_refl)). unfold K. lia. }
  assert (In (zmax labels) labels) as IMX.
  { assert (forall l : list Z, l <> [] -> (forall v, In v l -> 0 <= v) -> In (zmax l) l) as MX.
    { induction l as [|a l IH]; [contradiction|]. intros _ Hl. rewrite zmax_cons. destruct l as [|b l]; [left; cbn; specialize (Hl a (or_introl eq_refl)); lia|].
      destruct (Z.max_spec a (zmax (b :: l))) as [[_ ->]|[_ ->]]; [right; apply IH; [discriminate|intros; apply Hl; now right]|left; reflexivity]. }
    now apply MX. }
  destruct (reduceat_ok op segs []) as (rs & ER & FR).
  { intros s Hs. unfold segs in Hs. destruct (proj1 (Nat.neq_0_r K) K0) as (K' & EK). rewrite EK, seq_S, map_app, last_error_app in Hs. cbn in Hs. injection Hs as <-. intros C. assert (class_values (zmax labels) labels values <> []) as N by (apply class_nonempty; assumption).
    apply N. apply Permutation_nil. rewrite <- C. replace (zmax labels) with (Z.of_nat K'); [apply PS|]. pose proof (NN _ IMX). unfold K in EK. lia. }
  cbn [app length] in ER. pose proof (starts_cumsum segs 0) as SC. cbn [Z.of_nat] in SC. unfold cumsum. rewrite ZS in SC. assert (length segs = K) as LS by (unfold segs; now rewrite map_length, seq_length). rewrite LS in SC.
  rewrite SC, VS, ER. cbn [rbind]. assert (length rs = K) as LR by (rewrite <- LS; clear -FR; induction FR; cbn; congruence).
  assert (forall b v, (b < K)%nat -> nth_error rs b = Some v -> class_values (Z.of_nat b) labels values <> [] -> fold1 op (class_values (Z.of_nat b) labels values) = Some v) as RV.
  { intros b v Lb Ev N. assert (nth_error segs b = Some (take_rows values (filter (fun j => nth j labels 0 =? Z.of_nat b) (argsort labels)))) as Es.
    { unfold segs. rewrite nth_error_map', nth_error_seq. destruct (Nat.ltb_spec b K); [reflexivity|lia]. }
    assert (forall (s : list (list V)) r, Forall2 (fun s v => s <> [] -> fold1 op s = Some v) s r -> forall i x y, nth_error s i = Some x -> nth_error r i = Some y -> x <> [] -> fold1 op x = Some y) as F2.
    { clear. induction 1 as [|x y s r Hxy F IH]; intros [|i] x' y' H1 H2 N; cbn in *; try discriminate; [injection H1 as <-; injection H2 as <-; auto|eauto]. }
    rewrite <- (fold1_perm op op_comm op_assoc _ _ (PS b)). apply (F2 _ _ FR b); auto. intros C. apply N. apply Permutation_nil. rewrite <- C. apply PS. }
  set (ml := match minlength with Some m => m | None => K end). assert (K <= ml)%nat as LM. { unfold ml. destruct minlength as [m|]; [apply HM; reflexivity|lia]. }
  destruct (Nat.ltb_spec ml K) as [BAD|_]; [lia|].
  assert (forall b, count (Z.of_nat b) labels = 0 -> class_values (Z.of_nat b) labels values = []) as C0.
  { intros b Z. rewrite <- (class_length (Z.of_nat b) labels values LV) in Z. destruct (class_values (Z.of_nat b) labels values); [reflexivity|rewrite zlen_cons in Z; pose proof (zlen_nonneg l); lia]. }
  assert (forall b, count (Z.of_nat b) labels <> 0 -> class_values (Z.of_nat b) labels values <> []) as C1.
  { intros b Z H. rewrite <- (class_length (Z.of_nat b) labels values LV), H in Z. apply Z. reflexivity. }
  set (val := fun b => match fold1 op (class_values (Z.of_nat b) labels values) with Some v => Some v | None => ident end).
  assert (exists head, rall (zipr (fun v c => if c =? 0 then match ident with Some i => Ok i | None => Err TypeError end else Ok v) rs (map (fun b => count (Z.of_nat b) labels) (seq 0 K))) = Ok head /\ length head = K /\ forall b, (b < K)%nat -> nth_error head b = val b) as (head & EH & LH & NH).
  { assert (forall k lo rs', length rs' = k -> (forall b v, (b < k)%nat -> nth_error rs' b = Some v -> class_values (Z.of_nat (lo + b)) labels values <> [] -> fold1 op (class_values (Z.of_nat (lo + b)) labels values) = Some v) -> (lo + k <= K)%nat ->
      exists head, rall (zipr (fun v c => if c =? 0 then match ident with Some i => Ok i | None => Err TypeError end else Ok v) rs' (map (fun b => count (Z.of_nat b) labels) (seq lo k))) = Ok head /\ length head = k /\ forall b, (b < k)%nat -> nth_error head b = val (lo + b)%nat) as Q.
    { induction k as [|k IHk]; intros lo [|v rs'] L R B; cbn [length] in L; try discriminate; [exists []; split; [reflexivity|split; [reflexivity|intros; lia]]|].
      destruct (IHk (S lo) rs') as (hd & Ehd & Lhd & Nhd); [lia| |lia|].
      { intros b w Lb Eb N. replace (S lo + b)%nat with (lo + S b)%nat in * by lia. apply (R (S b)); auto. lia. }
      unfold zipr in *. cbn [seq map combine rall fst snd]. rewrite Ehd. specialize (R O v ltac:(lia) eq_refl). rewrite Nat.add_0_r in R.
      destruct (Z.eqb_spec (count (Z.of_nat lo) labels) 0) as [Z|Z].
      - assert (val lo = ident) as VL by (unfold val; now rewrite (C0 lo Z)). destruct ident as [i|] eqn:EI.
        + cbn [rbind]. eexists; split; [reflexivity|]. split; [cbn; congruence|]. intros [|b] Lb; cbn [nth_error]; [rewrite Nat.add_0_r; congruence|]. rewrite (Nhd b) by lia. f_equal. lia.
        + exfalso. specialize (ID eq_refl (Z.of_nat lo)). unfold K in *. apply (count_zero (Z.of_nat lo) labels Z). apply ID. lia.
      - cbn [rbind]. eexists; split; [reflexivity|]. split; [cbn; congruence|]. intros [|b] Lb; cbn [nth_error]; [rewrite Nat.add_0_r; unfold val; now rewrite (R (C1 lo Z))|]. rewrite (Nhd b) by lia. f_equal. lia. }
    destruct (Q K O rs LR) as (head & E1 & E2 & E3); [exact RV|lia|]. exists head. auto. }
  rewrite EH. cbn [rbind].
  assert (exists tail, rall (map (fun _ : nat => match ident with Some i => Ok i | None => Err TypeError end) (seq K (ml - K))) = Ok tail /\ length tail = (ml - K)%nat /\ forall b, (b < ml - K)%nat -> nth_error tail b = ident) as (tail & ET & LTl & NT).
  { destruct ident as [i|]; [|replace (ml - K)%nat with O by (unfold ml; rewrite (IM eq_refl); lia); exists []; split; [reflexivity|split; [reflexivity|intros; lia]]].
    exists (repeat i (ml - K)). split; [|split; [apply repeat_length|intros b Lb; rewrite nth_error_repeat; destruct (Nat.ltb_spec b (ml - K)); [reflexivity|lia]]].
    generalize (ml - K)%nat as c. generalize K as a. clear. intros a c. revert a. induction c as [|c IH]; intros a; cbn; [reflexivity|]. now rewrite IH. }
  rewrite ET. cbn [rbind]. eexists; split; [reflexivity|]. split; [rewrite app_length; lia|]. intros b Lb. rewrite app_length in Lb. destruct (Nat.ltb_spec b K) as [L|L].
  - rewrite nth_error_app1 by lia. apply NH, L.
  - rewrite nth_error_app2 by lia. rewrite NT by lia. assert (class_values (Z.of_nat b) labels values = []) as ->; [|reflexivity]. apply C0. destruct (Z.eq_dec (count (Z.of_nat b) labels) 0); [assumption|].
    pose proof (count_nonneg (Z.of_nat b) labels). assert (In (Z.of_nat b) labels) as I by (apply count_in; lia). pose proof (zmax_above _ _ I). unfold K in L. lia.
Qed.
End Equiv.
