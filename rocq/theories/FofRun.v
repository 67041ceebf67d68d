From Verif Require Import Base BaseProofs RanksSpec DaModel DaSpec DaProofs DaBin DaMore DistSpec FofModel FofSpec FofProofs FofLabels FofMerge FofGroups.
From Coq Require Import Sorted Permutation Relations.
Local Open Scope Z_scope.

Lemma component_links n layout labels linked : fof_input n layout labels -> meet layout linked -> local_groups layout labels linked ->
  forall p q, component layout labels p q <-> friends linked p q.
Proof.
  intros IN M LG p q. split.
  - induction 1 as [p q (r & l & c & j & k & El & Ec & Ej & Ek & x & Ex & Ey)|p|p q _ IH|p q s _ IH1 _ IH2].
    + assert (clos_refl_sym_trans nat (fun a b => (linked a b \/ a = b) /\ In a l /\ In b l) p q) as C.
      { apply (LG r l c j k p q El Ec Ej Ek). rewrite (nth_error_nth _ _ _ Ex), (nth_error_nth _ _ _ Ey). reflexivity. }
      clear -C. induction C as [p q [[H| ->] _]|p|p q _ IH|p q s _ IH1 _ IH2]; [apply rst_step; exact H|apply rst_refl|apply rst_refl|now apply rst_sym|now apply rst_trans with q].
    + apply rst_refl.
    + now apply rst_sym.
    + now apply rst_trans with q.
  - induction 1 as [p q H|p|p q _ IH|p q s _ IH1 _ IH2].
    + destruct (M p q H) as (l & Hl & Hp & Hq). pose proof Hl as Hl'. apply In_nth_error in Hl'. destruct Hl' as (r & El). pose proof Hp as Hp'. apply In_nth_error in Hp'. destruct Hp' as (j & Ej). pose proof Hq as Hq'. apply In_nth_error in Hq'. destruct Hq' as (k & Ek).
      destruct (aligned_rank _ _ _ _ (fi_aligned _ _ _ IN) El) as (c & Ec & L). apply rst_step. exists r, l, c, j, k. repeat (split; [assumption|]).
      assert (nth j c 0 = nth k c 0) as E. { apply (LG r l c j k p q El Ec Ej Ek). apply rst_step. auto. }
      exists (nth j c 0). assert (j < length c)%nat by (rewrite L; apply nth_error_Some; congruence). assert (k < length c)%nat by (rewrite L; apply nth_error_Some; congruence). split; [now apply nth_error_nth'|rewrite E; now apply nth_error_nth'].
    + apply rst_refl.
    + now apply rst_sym.
    + now apply rst_trans with q.
Qed.
Lemma cut_concat {A} sizes : forall (l : list A), nsum sizes = length l -> concat (cut sizes l) = l /\ map (@length A) (cut sizes l) = sizes.
Proof.
  induction sizes as [|k s IH]; intros l L; cbn in L; [destruct l; [auto|discriminate]|]. cbn [cut concat map]. change (fold_right Nat.add 0%nat s) with (nsum s) in L.
  destruct (IH (skipn k l)) as [E1 E2]; [rewrite skipn_length; lia|]. rewrite E1, E2, firstn_skipn. split; [reflexivity|]. f_equal. rewrite firstn_length. lia.
Qed.
Lemma group_size_fun n linked p a b : group_size n linked p a -> group_size n linked p b -> a = b.
Proof.
  intros (l & N1 & H1 & <-) (m & N2 & H2 & <-). unfold zlen. f_equal. apply Permutation_length. apply NoDup_Permutation; [assumption|assumption|]. intros x. rewrite H1, H2. reflexivity.
Qed.
Lemma same_id_size n linked ids p : length ids = n -> (p < n)%nat -> (forall q, (q < n)%nat -> nth p ids 0 = nth q ids 0 <-> friends linked p q) -> group_size n linked p (count (nth p ids 0) ids).
Proof.
  intros L Lp H. exists (filter (fun q => nth q ids 0 =? nth p ids 0) (seq 0 n)). split; [apply NoDup_filter, seq_NoDup|]. split.
  - intros q. rewrite filter_In, in_seq. split.
    + intros [Hq E]. split; [lia|]. apply H; lia.
    + intros [Hq F]. split; [lia|]. apply H in F; lia.
  - unfold count. rewrite <- L. clear. generalize (nth p ids 0). intros v. induction ids as [|x ids IH]; [reflexivity|]. cbn [length seq filter]. rewrite <- seq_shift. change (nth 0 (x :: ids) 0) with x.
    assert (zlen (filter (fun q => nth q (x :: ids) 0 =? v) (map S (seq 0 (length ids)))) = zlen (filter (fun q => nth q ids 0 =? v) (seq 0 (length ids)))) as Q.
    { generalize (seq 0 (length ids)). intros l. induction l as [|y l IHl]; [reflexivity|]. cbn [map filter]. change (nth (S y) (x :: ids) 0) with (nth y ids 0). destruct (nth y ids 0 =? v); rewrite ?zlen_cons, IHl; reflexivity. }
    destruct (x =? v); rewrite ?zlen_cons, Q, IH; reflexivity.
Qed.

Lemma least_ids n layout labels g : fof_input n layout labels -> least_of n layout labels g -> forall p q, (p < n)%nat -> (q < n)%nat -> nth p g 0 = nth q g 0 <-> component layout labels p q.
Proof.
  intros IN [L H] p q Lp Lq. destruct (H p Lp) as (a & Ea & La & Ca & Ma). destruct (H q Lq) as (b & Eb & Lb & Cb & Mb). rewrite (nth_error_nth _ _ _ Ea), (nth_error_nth _ _ _ Eb). split.
  - intros E. assert (a = b) by lia. subst b. apply rst_trans with a; [exact Ca|now apply rst_sym].
  - intros C. f_equal. assert (a <= b)%nat by (apply Ma; [exact Lb|now apply rst_trans with q]). assert (b <= a)%nat by (apply Mb; [exact La|apply rst_trans with p; [now apply rst_sym|exact Ca]]). lia.
Qed.
Lemma fof_merge_total argsort n layout labels : argsort_contract argsort -> fof_input n layout labels ->
  exists m fuel0, fof_local argsort layout labels n = Ok m /\ forall fuel, (fuel0 <= fuel)%nat -> exists g, fof_merge argsort fuel layout n m = Ok g /\ least_of n layout labels g.
Proof.
  intros AC IN. destruct (fof_local_ok argsort AC n layout labels IN) as (m & E & G). exists m, (S (Z.to_nat (msum m))). split; [exact E|]. intros fuel LF.
  apply (fof_merge_ok argsort AC n layout labels IN (Z.to_nat (msum m))); [exact G| |lia]. pose proof (good_nonneg n layout labels m G). lia.
Qed.
Lemma fof_run_ok mp argsort nmin sizes layout labels linked : mpsort_contract mp -> argsort_contract argsort -> sizes <> [] -> Forall (fun k => (0 < k)%nat) sizes ->
  fof_input (nsum sizes) layout labels -> meet layout linked -> local_groups layout labels linked ->
  exists fuel0, forall fuel, (fuel0 <= fuel)%nat -> exists out, fof_run mp argsort fuel nmin sizes layout labels = Ok out /\ map (@length Z) out = sizes /\ fof_labels (nsum sizes) linked nmin (global out).
Proof.
  intros MC AC NE POS IN ME LG. set (n := nsum sizes) in *. destruct (fof_merge_total argsort n layout labels AC IN) as (m & fuel0 & EL & HM). exists fuel0. intros fuel LF. destruct (HM fuel LF) as (g & EG & LO).
  unfold fof_run. fold n. rewrite EL. cbn [rbind]. rewrite EG. cbn [rbind]. pose proof LO as [Lg _]. destruct (cut_concat sizes g) as [CC CL]; [unfold n in Lg; congruence|].
  destruct (assign_labels_ok mp argsort nmin (cut sizes g)) as (out & EO & LN & LB); [exact MC|exact AC| | |].
  { intros Q. rewrite Q in CL. cbn in CL. congruence. }
  { apply Forall_forall. intros x Hx E. subst x. apply (in_map (@length Z)) in Hx. rewrite CL in Hx. rewrite Forall_forall in POS. specialize (POS _ Hx). cbn in POS. lia. }
  exists out. split; [exact EO|]. split; [congruence|]. unfold global at 1 in LB. rewrite CC in LB.
  assert (forall p q, (p < n)%nat -> (q < n)%nat -> nth p g 0 = nth q g 0 <-> friends linked p q) as ID.
  { intros p q Lp Lq. rewrite (least_ids n layout labels g IN LO p q Lp Lq). now apply component_links with n. }
  assert (forall p, (p < n)%nat -> group_size n linked p (count (nth p g 0) g)) as GS by (intros p Lp; apply same_id_size; auto).
  assert (forall p k, (p < n)%nat -> group_size n linked p k -> k = count (nth p g 0) g) as GF by (intros p k Lp H; apply (group_size_fun n linked p); auto).
  destruct LB as [B1 B2 B3 B4 B5 B6]. rewrite Lg in *. constructor.
  - congruence.
  - intros p Lp. eauto.
  - intros p k Lp H. rewrite (GF p k Lp H). apply B2, Lp.
  - intros p q Lp Lq F. apply (ID p q Lp Lq) in F. destruct (Z.eq_dec (nth p (global out) 0) 0) as [Z|NZ].
    + rewrite Z. symmetry. apply (B2 q Lq). rewrite <- F. apply (B2 p Lp), Z.
    + apply (B3 p q Lp Lq NZ); [|exact F]. intros Z. apply NZ. apply (B2 p Lp). rewrite F. apply (B2 q Lq), Z.
  - intros p q Lp Lq NZ E. apply (ID p q Lp Lq). apply (B3 p q Lp Lq NZ); [congruence|exact E].
  - intros p k Lp H. apply (B4 p k Lp H).
  - exact B5.
  - intros p q a b Lp Lq H Ha Hb. rewrite (GF p a Lp Ha), (GF q b Lq Hb). apply (B6 p q Lp Lq H).
Qed.
