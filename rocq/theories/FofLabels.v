From Verif Require Import Base BaseProofs RanksSpec DaModel DaSpec DaProofs DaBin DaMore DistSpec FofModel FofSpec FofProofs.
From Coq Require Import Sorted Permutation.
Local Open Scope Z_scope.

Lemma set_nth_length {A} i (x : A) l : length (set_nth i x l) = length l.
Proof. revert i. induction l as [|y l IH]; intros [|i]; cbn; auto. Qed.
Lemma set_nth_same {A} i (x d : A) l : (i < length l)%nat -> nth i (set_nth i x l) d = x.
Proof. revert i. induction l as [|y l IH]; intros [|i] L; cbn in *; try lia; [reflexivity|]. apply IH. lia. Qed.
Lemma set_nth_other {A} i j (x d : A) l : i <> j -> nth j (set_nth i x l) d = nth j l d.
Proof. revert i j. induction l as [|y l IH]; intros [|i] [|j] N; cbn; auto; try lia. Qed.
Lemma put_other {A} (d : A) idx : forall vals p j, ~ In j idx -> nth j (put p idx vals) d = nth j p d.
Proof.
  induction idx as [|i idx IH]; intros [|v vals] p j N; cbn [put]; try reflexivity. rewrite IH by (intros H; apply N; now right). apply set_nth_other. intros ->. apply N. left; reflexivity.
Qed.
Lemma put_nth {A} (d : A) idx : forall vals p j, NoDup idx -> length vals = length idx -> (j < length idx)%nat -> (nth j idx O < length p)%nat -> nth (nth j idx O) (put p idx vals) d = nth j vals d.
Proof.
  induction idx as [|i idx IH]; intros [|v vals] p j N L Lj Lp; cbn [length put] in *; try lia. inversion N as [|? ? N1 N2]; subst. destruct j as [|j]; cbn [nth] in *.
  - rewrite put_other by assumption. now apply set_nth_same.
  - apply IH; auto; try lia. now rewrite set_nth_length.
Qed.

Lemma zmax_cons x l : zmax (x :: l) = Z.max x (zmax l).
Proof. reflexivity. Qed.
Lemma zmax_low l : -1 <= zmax l.
Proof. induction l as [|x l IH]; [cbn; lia|]. rewrite zmax_cons. lia. Qed.
Lemma zmax_app a b : zmax (a ++ b) = Z.max (zmax a) (zmax b).
Proof. induction a as [|x a IH]; cbn [app]; [pose proof (zmax_low b); change (zmax []) with (-1); lia|]. rewrite !zmax_cons, IH. lia. Qed.
Lemma zmax_above l a : In a l -> a <= zmax l.
Proof. induction l as [|x l IH]; intros []; rewrite zmax_cons; [subst; lia|]. specialize (IH H). lia. Qed.
Lemma np_max_ok l : l <> [] -> (forall x, In x l -> 0 <= x) -> np_max l = Ok (zmax l).
Proof.
  destruct l as [|x l]; [contradiction|]. intros _ H. cbn [np_max]. f_equal. specialize (H x (or_introl eq_refl)). rewrite zmax_cons.
  induction l as [|y l IH]; [cbn; lia|]. cbn [fold_right]. rewrite zmax_cons, IH. lia.
Qed.
Lemma maxs_ok label : Forall (fun l => l <> []) label -> (forall x, In x (global label) -> 0 <= x) -> exists maxs, rall (map np_max label) = Ok maxs /\ zmax maxs = zmax (global label).
Proof.
  unfold global. induction 1 as [|l label N F IH]; intros H; cbn [map rall concat]; [exists []; split; reflexivity|].
  destruct IH as (ms & -> & E); [intros x Hx; apply H, in_or_app; auto|]. rewrite np_max_ok by (auto; intros x Hx; apply H, in_or_app; auto). cbn [rbind]. eexists; split; [reflexivity|].
  rewrite zmax_app. cbn. fold (zmax ms). now rewrite E.
Qed.
Lemma count_parts b label : zsum (map (fun l => zlen (filter (fun x => x =? b) l)) label) = count b (global label).
Proof. unfold global. induction label as [|l label IH]; cbn [map zsum fold_right concat]; [reflexivity|]. rewrite count_app. unfold zsum in IH. rewrite IH. reflexivity. Qed.
Lemma nth_map_seq (f : nat -> Z) n i : (i < n)%nat -> nth i (map f (seq 0 n)) 0 = f i.
Proof. intros L. rewrite (nth_indep _ 0 (f O)) by (rewrite map_length, seq_length; lia). rewrite map_nth, seq_nth by lia. reflexivity. Qed.
Lemma nth_map_any {A B} (f : A -> B) l d d' i : (i < length l)%nat -> nth i (map f l) d' = f (nth i l d).
Proof. intros L. rewrite (nth_indep _ d' (f d)) by (rewrite map_length; lia). apply map_nth. Qed.

Section Finish.
Variable argsort : list Z -> list nat.
Hypothesis arg_ok : argsort_contract argsort.

Lemma finish_ok label : Forall (fun l => l <> []) label -> global label <> [] -> (forall x, In x (global label) -> 0 <= x) ->
  exists P : Z -> Z, let top := zmax (global label) in finish argsort label = Ok (map (map P) label) /\ P 0 = 0 /\
    (forall x, 1 <= x <= top -> 1 <= P x <= top) /\ (forall x y, 1 <= x <= top -> 1 <= y <= top -> P x = P y -> x = y) /\
    (forall k, 1 <= k <= top -> exists x, 1 <= x <= top /\ P x = k) /\
    (forall x y, 1 <= x <= top -> 1 <= y <= top -> P x < P y -> count y (global label) <= count x (global label)).
Proof.
  intros F NE NN. unfold finish. destruct (maxs_ok label F NN) as (ms & -> & EM). cbn [rbind]. rewrite EM. cbv zeta.
  set (top := zmax (global label)) in *. assert (0 <= top) as T0. { destruct (global label) as [|x l] eqn:E; [contradiction|]. pose proof (zmax_above (x :: l) x (or_introl eq_refl)). specialize (NN x (or_introl eq_refl)). unfold top. lia. }
  set (n := map (fun b => zsum (map (fun l => zlen (filter (fun x => x =? Z.of_nat b) l)) label)) (seq 0 (Z.to_nat (top + 1)))).
  assert (length (tl n) = Z.to_nat top) as LT. { unfold n. replace (Z.to_nat (top + 1)) with (S (Z.to_nat top)) by lia. cbn [seq map tl]. now rewrite map_length, seq_length. }
  assert (forall i, (i < Z.to_nat top)%nat -> nth i (tl n) 0 = count (Z.of_nat i + 1) (global label)) as NT.
  { intros i L. unfold n. replace (Z.to_nat (top + 1)) with (S (Z.to_nat top)) by lia. cbn [seq map tl]. rewrite <- seq_shift, map_map. rewrite nth_map_seq by lia. rewrite count_parts. f_equal. lia. }
  destruct (arg_ok (tl n)) as [AP AS]. rewrite LT in AP. set (a := argsort (tl n)) in *. set (arg := map S (rev a)).
  assert (length a = Z.to_nat top) as LA by (rewrite (Permutation_length AP); apply seq_length).
  assert (length arg = Z.to_nat top) as LG by (unfold arg; rewrite map_length, rev_length; exact LA).
  assert (NoDup arg) as ND. { unfold arg. apply FinFun.Injective_map_NoDup; [intros u v H; lia|]. apply (Permutation_NoDup (l := a)); [apply Permutation_rev|]. apply (Permutation_NoDup (Permutation_sym AP)), seq_NoDup. }
  assert (forall i, In i arg <-> (1 <= i <= Z.to_nat top)%nat) as IA.
  { intros i. unfold arg. rewrite in_map_iff. split.
    - intros (u & <- & Hu). rewrite <- in_rev in Hu. apply (Permutation_in u AP) in Hu. apply in_seq in Hu. lia.
    - intros H. exists (i - 1)%nat. split; [lia|]. rewrite <- in_rev. apply (Permutation_in _ (Permutation_sym AP)). apply in_seq. lia. }
  set (p := put (map Z.of_nat (seq 0 (Z.to_nat (top + 1)))) arg (map (fun i => Z.of_nat i + 1) (seq 0 (length arg)))).
  assert (forall j, (j < Z.to_nat top)%nat -> nth (nth j arg O) p 0 = Z.of_nat j + 1) as PJ.
  { intros j Lj. unfold p. assert (In (nth j arg O) arg) as I by (apply nth_In; lia). apply IA in I. rewrite put_nth; try assumption; try lia; [|rewrite map_length, seq_length; lia|rewrite map_length, seq_length; lia]. rewrite nth_map_seq by lia. reflexivity. }
  assert (forall x, 1 <= x <= top -> exists j, (j < Z.to_nat top)%nat /\ nth j arg O = Z.to_nat x /\ nth (Z.to_nat x) p 0 = Z.of_nat j + 1) as PX.
  { intros x Hx. assert (In (Z.to_nat x) arg) as I by (apply IA; lia). apply (In_nth _ _ O) in I. destruct I as (j & Lj & Ej). exists j. split; [lia|]. split; [assumption|]. rewrite <- Ej. apply PJ. lia. }
  exists (fun x => nth (Z.to_nat x) p 0). split; [reflexivity|]. split; [|split; [|split; [|split]]].
  - change (Z.to_nat 0) with O. unfold p. rewrite put_other by (intros H; apply IA in H; lia). replace (Z.to_nat (top + 1)) with (S (Z.to_nat top)) by lia. reflexivity.
  - intros x Hx. destruct (PX x Hx) as (j & Lj & _ & ->). lia.
  - intros x y Hx Hy E. destruct (PX x Hx) as (j & Lj & Ej & Px), (PX y Hy) as (k & Lk & Ek & Py). rewrite Px, Py in E. assert (j = k) by lia. subst k. lia.
  - intros k Hk. exists (Z.of_nat (nth (Z.to_nat (k - 1)) arg O)). assert (In (nth (Z.to_nat (k - 1)) arg O) arg) as I by (apply nth_In; lia). apply IA in I. split; [lia|]. rewrite Nat2Z.id, PJ by lia. lia.
  - intros x y Hx Hy E. destruct (PX x Hx) as (j & Lj & Ej & Px), (PX y Hy) as (k & Lk & Ek & Py). rewrite Px, Py in E. clear Px Py.
    unfold arg in Ej, Ek. rewrite (nth_map_any S _ O) in Ej by (rewrite rev_length; lia). rewrite (nth_map_any S _ O) in Ek by (rewrite rev_length; lia). rewrite rev_nth in Ej, Ek by lia.
    pose proof (ss_nth _ O a AS (length a - S k) (length a - S j) ltac:(lia) ltac:(lia)) as Q. cbn beta in Q. rewrite !NT in Q by lia.
    replace (Z.of_nat (nth (length a - S k) a 0%nat) + 1) with y in Q by lia. replace (Z.of_nat (nth (length a - S j) a 0%nat) + 1) with x in Q by lia. exact Q.
Qed.
End Finish.

Section Lab2.
Variable thresh : Z.
Variable minid : list (list Z).
Notation g := (global minid).
Notation lab1 := (lab1 thresh minid).
Notation lab2 := (lab2 thresh minid).
Lemma lab1_nonneg m : 0 <= lab1 m.
Proof. unfold FofProofs.lab1. pose proof (db_nonneg g m). destruct (_ <=? _); lia. Qed.
Lemma lab2_nonneg m : 0 <= lab2 m.
Proof. unfold FofProofs.lab2. pose proof (db_nonneg (map lab1 g) (lab1 m)). destruct (any_small _ _); lia. Qed.
Lemma lab2_small m : In m g -> lab2 m = 0 <-> count m g <= thresh.
Proof.
  intros I. unfold FofProofs.lab2. destruct (Z_le_gt_dec (count m g) thresh) as [L|L].
  - split; [intros _; assumption|intros _]. assert (lab1 m = 0) as E by (unfold FofProofs.lab1; destruct (Z.leb_spec (count m g) thresh); lia). rewrite E.
    rewrite db_0 by (intros a Ha; apply in_map_iff in Ha; destruct Ha as (u & <- & _); apply lab1_nonneg).
    assert (any_small thresh minid = true) as ->; [|reflexivity]. apply existsb_exists. exists m. split; [assumption|lia].
  - split; [|lia]. assert (1 <= lab1 m) as E by (unfold FofProofs.lab1; pose proof (db_nonneg g m); destruct (Z.leb_spec (count m g) thresh); lia).
    pose proof (db_nonneg (map lab1 g) (lab1 m)). destruct (any_small thresh minid) eqn:AS; [|lia]. unfold any_small in AS. apply existsb_exists in AS. destruct AS as (s & Is & Hs).
    assert (lab1 s = 0) as Es by (unfold FofProofs.lab1; destruct (Z.leb_spec (count s g) thresh); lia). pose proof (db_mono (map lab1 g) (lab1 s) (lab1 m) (in_map lab1 _ _ Is) ltac:(lia)). pose proof (db_nonneg (map lab1 g) (lab1 s)). lia.
Qed.
Lemma lab2_inj m m' : In m g -> In m' g -> lab2 m <> 0 -> lab2 m' <> 0 -> lab2 m = lab2 m' -> m = m'.
Proof.
  intros I I' N N' E. rewrite lab2_small in N, N' by assumption. unfold FofProofs.lab2 in E. assert (lab1 m = lab1 m') as E1 by (apply (db_inj (map lab1 g)); [now apply in_map|now apply in_map|lia]).
  unfold FofProofs.lab1 in E1. destruct (Z.leb_spec (count m g) thresh), (Z.leb_spec (count m' g) thresh); try lia. apply (db_inj g); auto. lia.
Qed.
Lemma lab2_dense m k : In m g -> 1 <= k <= lab2 m -> exists m', In m' g /\ lab2 m' = k.
Proof.
  intros I H. unfold FofProofs.lab2 in *. set (e := if any_small thresh minid then 0 else 1) in *.
  destruct (db_dense (map lab1 g) (lab1 m) (k - e)) as (y & Hy & Ey); [now apply in_map|unfold e in *; destruct (any_small thresh minid); lia|]. apply in_map_iff in Hy. destruct Hy as (m' & <- & Hm'). exists m'. split; [assumption|]. lia.
Qed.
Lemma lab2_count m : In m g -> lab2 m <> 0 -> count (lab2 m) (map lab2 g) = count m g.
Proof. intros I N. apply count_map_inj. intros x Hx E. apply lab2_inj; auto. rewrite E. assumption. Qed.
End Lab2.

Lemma assign_labels_ok mp argsort thresh minid : mpsort_contract mp -> argsort_contract argsort -> minid <> [] -> Forall (fun l => l <> []) minid ->
  exists out, assign_labels mp argsort thresh minid = Ok out /\ map (@length Z) out = map (@length Z) minid /\ labelled thresh (global minid) (global out).
Proof.
  intros HM HA NE F. assert (global minid <> []) as NG. { destruct minid as [|l ls]; [contradiction|]. inversion F; subst. destruct l; [contradiction|discriminate]. }
  rewrite (assign_to_finish mp argsort HM thresh minid NG). set (h := lab2 thresh minid).
  assert (global (map (map h) minid) = map h (global minid)) as GH by apply global_map.
  destruct (finish_ok argsort HA (map (map h) minid)) as (P & Q). 
  { apply Forall_map. eapply Forall_impl; [|exact F]. intros l N H. apply map_eq_nil in H. contradiction. }
  { rewrite GH. intros H. apply map_eq_nil in H. contradiction. }
  { rewrite GH. intros x Hx. apply in_map_iff in Hx. destruct Hx as (m & <- & _). apply lab2_nonneg. }
  cbv zeta in Q. rewrite GH in Q. set (top := zmax (map h (global minid))) in *. destruct Q as (-> & P0 & PR & PI & PS & PO). rewrite map_map2. eexists. split; [reflexivity|]. split.
  { rewrite map_map. apply map_ext. intros l. apply map_length. }
  rewrite global_map.
  assert (forall m, In m (global minid) -> h m <= top) as HT. { intros m Hm. apply zmax_above. now apply in_map. }
  assert (forall m, In m (global minid) -> P (h m) <> 0 -> 1 <= h m <= top) as HR. { intros m Hm N. split; [|auto]. pose proof (lab2_nonneg thresh minid m). fold h in H. destruct (Z.eq_dec (h m) 0) as [E|E]; [rewrite E in N; contradiction|lia]. }
  assert (forall m, In m (global minid) -> (P (h m) = 0 <-> h m = 0)) as HZ.
  { intros m Hm. split; [|intros ->; assumption]. intros E. destruct (Z.eq_dec (h m) 0) as [|N]; [assumption|]. exfalso. pose proof (lab2_nonneg thresh minid m) as Q. fold h in Q. specialize (HT m Hm). specialize (PR (h m) ltac:(lia)). lia. }
  assert (forall i, (i < length (global minid))%nat -> In (nth i (global minid) 0) (global minid)) as IN by (intros; now apply nth_In).
  assert (forall i, (i < length (global minid))%nat -> nth i (map (fun x => P (h x)) (global minid)) 0 = P (h (nth i (global minid) 0))) as NM by (intros; now apply (nth_map_any (fun x => P (h x)))).
  constructor.
  - apply map_length.
  - intros i L. rewrite NM by assumption. rewrite HZ by auto. apply lab2_small. auto.
  - intros i j Li Lj. rewrite !NM by assumption. intros Ni Nj. split; [|intros ->; reflexivity]. intros E. pose proof (PI _ _ (HR _ (IN i Li) Ni) (HR _ (IN j Lj) Nj) E) as E2.
    apply (lab2_inj thresh minid); auto; fold h; intros Z; [rewrite Z in Ni|rewrite Z in Nj]; contradiction.
  - intros i k L. rewrite NM by assumption. intros Hk. assert (P (h (nth i (global minid) 0)) <> 0) as N by lia. specialize (HR _ (IN i L) N). specialize (PR _ HR).
    destruct (PS k ltac:(lia)) as (x & Hx & Ex).
    assert (exists m, In m (global minid) /\ h m = top) as (mt & It & Et).
    { assert (exists v, In v (map h (global minid)) /\ v = top) as (v & Iv & Ev).
      { unfold top. assert (forall l : list Z, l <> [] -> (forall v, In v l -> 0 <= v) -> exists v, In v l /\ v = zmax l) as MX.
        { induction l as [|a l IH]; [contradiction|]. intros _ Hl. cbn [zmax fold_right]. fold (zmax l). destruct l as [|b l]; [exists a; split; [left; reflexivity|]; specialize (Hl a (or_introl eq_refl)); cbn; lia|].
          destruct IH as (v & Iv & Ev); [discriminate|intros v Hv; apply Hl; now right|]. destruct (Z.max_spec a (zmax (b :: l))) as [[_ ->]|[_ ->]]; [exists v; split; [now right|assumption]|exists a; split; [left; reflexivity|reflexivity]]. }
        apply MX; [intros H; apply map_eq_nil in H; contradiction|]. intros v Hv. apply in_map_iff in Hv. destruct Hv as (m & <- & _). apply lab2_nonneg. }
      apply in_map_iff in Iv. destruct Iv as (m & Em & Im). exists m. split; [assumption|congruence]. }
    destruct (lab2_dense thresh minid mt x It) as (m' & Im' & Em'); [fold h; lia|]. apply in_map_iff. exists m'. split; [|assumption]. fold h in Em'. rewrite Em'. exact Ex.
  - intros i L. rewrite NM by assumption. destruct (Z.eq_dec (P (h (nth i (global minid) 0))) 0) as [->|N]; [lia|]. specialize (PR _ (HR _ (IN i L) N)). lia.
  - intros i j Li Lj. rewrite !NM by assumption. intros H. set (mi := nth i (global minid) 0) in *. set (mj := nth j (global minid) 0) in *.
    assert (P (h mi) <> 0) as Ni by lia. assert (P (h mj) <> 0) as Nj by lia. pose proof (HR mi (IN i Li) Ni) as Ri. pose proof (HR mj (IN j Lj) Nj) as Rj.
    pose proof (PO (h mi) (h mj) Ri Rj ltac:(lia)) as O. unfold h in O. rewrite !lab2_count in O; auto; try (fold h; lia); unfold mi, mj; auto.
Qed.
