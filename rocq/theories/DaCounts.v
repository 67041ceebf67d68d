From Verif Require Import Base BaseProofs Num RanksSpec DaModel DaSpec DaProofs DaBin DaMore DistSpec FofModel FofSpec FofProofs FofLabels FofMerge FofGroups FofRun FofCmModel FofCmSpec FofCm FofMean.
From Verif Require DistProofs.
From Coq Require Import Sorted Permutation.
Local Open Scope Z_scope.

Lemma all_combine {W} (parts : list (list Z)) (ws : list (list W)) : map (@length Z) parts = map (@length W) ws -> all parts ws = combine (global parts) (global ws).
Proof.
  intros H. unfold all, xw, global. transitivity (concat (zipr (@combine Z W) parts ws)).
  - f_equal. apply nth_error_ext. intros i. rewrite nth_error_map', nth_error_seq, zipr_nth. pose proof (f_equal (fun l => nth_error l i) H) as Q. cbv beta in Q. rewrite !nth_error_map' in Q. destruct (nth_error parts i) as [p|] eqn:Ep.
    + destruct (nth_error ws i) as [w|] eqn:Ew; [|discriminate]. assert (i < length parts)%nat by (apply nth_error_Some; congruence). destruct (Nat.ltb_spec i (length parts)); [|lia]. cbn. now rewrite (nth_error_nth _ _ _ Ep), (nth_error_nth _ _ _ Ew).
    + apply nth_error_None in Ep. destruct (Nat.ltb_spec i (length parts)); [lia|]. reflexivity.
  - revert ws H. induction parts as [|p parts IH]; intros [|w ws] H; cbn in H; try discriminate; [reflexivity|]. injection H as H1 H2. unfold zipr in *. cbn [combine map concat fst snd]. rewrite (IH ws H2). now rewrite combine_app.
Qed.
Lemma greatest_zmax l m : greatest l m -> -1 <= m -> zmax l = m.
Proof. intros [I U] H. pose proof (zmax_above _ _ I). pose proof (zmax_least l m U H). lia. Qed.

Section Counts.
Context {W : Type}.
Variables (zero : W) (add : W -> W -> W).
Hypothesis add_0 : forall x, add x zero = x.
Hypothesis add_comm : forall x y, add x y = add y x.
Hypothesis add_assoc : forall x y z, add x (add y z) = add (add x y) z.
Variables (parts : list (list Z)) (ws : list (list W)).
Hypothesis sorted : globally_sorted parts.
Hypothesis nonneg : forall x, In x (global parts) -> 0 <= x.
Hypothesis aligned : map (@length Z) parts = map (@length W) ws.
Hypothesis nonempty : global parts <> [].
Lemma shared_counts : exists out, bincount zero add true parts ws = Ok out /\ length out = length parts /\
  forall r local, nth_error parts r = Some local ->
    (local = [] -> nth_error out r = Some []) /\
    (forall x0 x1, hd_error local = Some x0 -> last_error local = Some x1 -> exists o, 0 <= o <= x0 /\ (forall v, o <= v < x0 -> ~ In v (global parts)) /\
      nth_error out r = Some (counted zero add (combine (global parts) (global ws)) o (x1 + 1))).
Proof.
  rewrite (bincount_shared_ok zero add add_0 add_comm add_assoc parts ws sorted nonneg aligned nonempty). eexists; split; [reflexivity|]. split; [now rewrite map_length, seq_length|].
  intros r local El. assert (r < length parts)%nat as Lr by (apply nth_error_Some; congruence). rewrite nth_error_map', nth_error_seq. destruct (Nat.ltb_spec r (length parts)); [|lia]. cbn [option_map Nat.add]. unfold result. rewrite (nth_error_nth _ _ _ El). split.
  - intros ->. reflexivity.
  - intros x0 x1 E0 E1. rewrite E1. exists (off parts r). split; [|split].
    + pose proof (off_cases zero add add_0 add_comm add_assoc parts sorted nonneg r x0 Lr) as C. rewrite (nth_error_nth _ _ _ El) in C. specialize (C E0). assert (0 <= x0) as X0. { apply nonneg. apply in_concat. exists local. split; [now apply (nth_error_In _ r)|]. destruct local; [discriminate|]. injection E0 as ->. now left. }
      assert (0 <= endd parts r) as EN. { unfold endd. destruct (last_error (concat (firstn r parts))) as [p|] eqn:EP; [|lia]. destruct (around zero add add_0 add_comm add_assoc parts sorted r Lr) as (G & _ & _ & _ & Sb & _). destruct (sorted_last _ p Sb EP) as [Ip _]. assert (0 <= p); [|lia]. apply nonneg. rewrite G. apply in_or_app. now left. }
      lia.
    + intros v Hv I. pose proof (off_cases zero add add_0 add_comm add_assoc parts sorted nonneg r x0 Lr) as C. rewrite (nth_error_nth _ _ _ El) in C. specialize (C E0). destruct (around zero add add_0 add_comm add_assoc parts sorted r Lr) as (G & S & B & A & Sb & Sa). rewrite (nth_error_nth _ _ _ El) in *.
      destruct (sorted_head local x0 S E0) as [I0 L0]. destruct C as [[C1 C2]|(C1 & C2 & _)]; [|lia]. rewrite G in I. apply in_app_or in I. destruct I as [I|I].
      * unfold endd in C2. destruct (last_error (concat (firstn r parts))) as [p|] eqn:EP; [destruct (sorted_last _ p Sb EP) as [_ Lp]; specialize (Lp v I); lia|]. apply last_error_none in EP. rewrite EP in I. contradiction.
      * apply in_app_or in I. destruct I as [I|I]; [specialize (L0 v I); lia|specialize (A x0 v I0 I); lia].
    + rewrite all_combine by assumption. reflexivity.
Qed.
Lemma unshared_counts m : greatest (global parts) m -> exists out, bincount zero add false parts ws = Ok out /\ global out = counted zero add (combine (global parts) (global ws)) 0 (m + 1).
Proof.
  intros G. destruct (bincount_unshared_ok zero add add_0 add_comm add_assoc parts ws sorted nonneg aligned nonempty) as (out & E & GO). exists out. split; [exact E|]. rewrite GO, all_combine by assumption. rewrite (greatest_zmax _ m G); [reflexivity|]. destruct G as [I _]. specialize (nonneg m I). lia.
Qed.
End Counts.

(* ---- reference sorters for the examples ---- *)
Definition ref_argsort (l : list Z) : list nat := DistProofs.isort (fun i => nth i l 0) (seq 0 (length l)).
Lemma ref_argsort_contract : argsort_contract ref_argsort.
Proof. intros l. unfold ref_argsort. split; [apply DistProofs.isort_perm|apply DistProofs.isort_sorted]. Qed.
Definition ref_sort_out {R} (sizes : list Z) (key : R -> Z) (parts : list (list R)) : list (list R) := cut (map Z.to_nat sizes) (DistProofs.isort key (concat parts)).
Lemma ref_sort_out_contract {R} : mpsort_out_contract (@ref_sort_out R).
Proof.
  intros sizes key parts F E. unfold ref_sort_out. destruct (cut_concat (map Z.to_nat sizes) (DistProofs.isort key (concat parts))) as [C1 C2].
  { rewrite (Permutation_length (DistProofs.isort_perm key (concat parts))). unfold zlen, global in E. assert (Z.of_nat (nsum (map Z.to_nat sizes)) = zsum sizes) as Q; [|lia]. clear E. induction F as [|k s H F IH]; [reflexivity|]. cbn [map nsum fold_right]. change (fold_right Nat.add 0%nat (map Z.to_nat s)) with (nsum (map Z.to_nat s)). change (zsum (k :: s)) with (k + zsum s). lia. }
  split; [|split].
  - apply (f_equal (map Z.of_nat)) in C2. rewrite !map_map in C2. unfold zlen. rewrite C2. clear -F. induction F; cbn; [reflexivity|]. f_equal; [lia|assumption].
  - unfold global at 1. rewrite C1. apply DistProofs.isort_perm.
  - unfold global. rewrite C1. apply DistProofs.isort_sorted.
Qed.

(* ---- refused inputs ---- *)
Lemma assign_empty_rank mp argsort thresh minid : mpsort_contract mp -> global minid <> [] -> In [] minid -> assign_labels mp argsort thresh minid = Err ValueError.
Proof.
  intros MC NE I. rewrite (assign_to_finish mp argsort MC thresh minid NE). unfold finish. set (label := map _ minid). assert (In [] label) as IL by (unfold label; change (@nil Z) with (map (lab2 thresh minid) []); now apply in_map). clearbody label.
  assert (rall (map np_max label) = Err ValueError) as ->; [|reflexivity]. clear -IL. induction label as [|l ls IH]; [contradiction|]. cbn [map rall]. destruct l as [|x l]; [reflexivity|]. cbn [np_max rbind]. destruct IL as [H|H]; [discriminate|]. now rewrite (IH H).
Qed.
Lemma shared_dense {W} (zero : W) add parts ws : (forall x, add x zero = x) -> (forall x y, add x y = add y x) -> (forall x y z, add x (add y z) = add (add x y) z) ->
  globally_sorted parts -> (forall x, In x (global parts) -> 0 <= x) -> map (@length Z) parts = map (@length W) ws -> global parts <> [] -> (forall x v, In x (global parts) -> 0 <= v <= x -> In v (global parts)) ->
  exists out, bincount zero add true parts ws = Ok out /\ length out = length parts /\
  forall r local, nth_error parts r = Some local ->
    (local = [] -> nth_error out r = Some []) /\
    (forall x0 x1, hd_error local = Some x0 -> last_error local = Some x1 -> nth_error out r = Some (counted zero add (combine (global parts) (global ws)) x0 (x1 + 1))).
Proof.
  intros A0 AC AA S N AL NE D. destruct (shared_counts zero add A0 AC AA parts ws S N AL NE) as (out & E & L & H). exists out. split; [exact E|]. split; [exact L|]. intros r local El. destruct (H r local El) as [H1 H2]. split; [exact H1|].
  intros x0 x1 E0 E1. destruct (H2 x0 x1 E0 E1) as (o & [O0 O1] & O2 & O3). assert (In x0 (global parts)) as I0. { apply in_concat. exists local. split; [now apply (nth_error_In _ r)|]. destruct local; [discriminate|]. injection E0 as ->. now left. }
  assert (o = x0); [|congruence]. destruct (Z.eq_dec o x0) as [|NO]; [assumption|]. exfalso. apply (O2 o); [lia|]. apply (D x0); [exact I0|lia].
Qed.

(* ---- a small friends-of-friends problem: 0-1-2 and 3-4, seen by two ranks ---- *)
Definition ex_linked (p q : nat) : Prop := In (p, q) [(0, 1); (1, 2); (3, 4)]%nat.
Definition ex_layout : list (list nat) := [[0; 1]; [1; 2; 4; 3]]%nat.
Definition ex_labels : list (list Z) := [[0; 0]; [0; 0; 1; 1]].
Lemma ex_input : fof_input 5 ex_layout ex_labels.
Proof.
  constructor.
  - intros p Lp. do 5 (destruct p as [|p]; [first [exists [0; 1]%nat; split; [cbn; tauto|cbn; tauto] | exists [1; 2; 4; 3]%nat; split; [cbn; tauto|cbn; tauto]]|]). lia.
  - intros l p Hl Hp. cbn in Hl. destruct Hl as [<-|[<-|[]]]; cbn in Hp; lia.
  - reflexivity.
  - intros c x y Hc Hx Hy. cbn in Hc. destruct Hc as [<-|[<-|[]]]; cbn in *; lia.
  - intros c x Hc Hx. cbn in Hc. destruct Hc as [<-|[<-|[]]]; cbn in *; lia.
Qed.
Lemma ex_meet : meet ex_layout ex_linked.
Proof.
  intros p q H. cbn in H. destruct H as [H|[H|[H|[]]]]; injection H as <- <-; [exists [0; 1]%nat|exists [1; 2; 4; 3]%nat|exists [1; 2; 4; 3]%nat]; cbn; tauto.
Qed.
Lemma clos_inv {A B} (R : A -> A -> Prop) (f : A -> B) : (forall a b, R a b -> f a = f b) -> forall p q, Relation_Operators.clos_refl_sym_trans A R p q -> f p = f q.
Proof. intros H. induction 1; auto; congruence. Qed.
Lemma ex_groups : local_groups ex_layout ex_labels ex_linked.
Proof.
  intros r l c j k p q El Ec Ej Ek.
  set (g := fun x : nat => Nat.ltb x 3).
  assert (forall a b, (ex_linked a b \/ a = b) /\ In a l /\ In b l -> g a = g b) as INV.
  { intros a b [[H| ->] _]; [|reflexivity]. cbn in H. destruct H as [H|[H|[H|[]]]]; injection H as <- <-; reflexivity. }
  destruct r as [|[|[|r]]]; cbn in El, Ec; try discriminate; injection El as <-; injection Ec as <-.
  - split; [intros _|intros C; destruct j as [|[|j]], k as [|[|k]]; cbn in *; try reflexivity; try (destruct j; discriminate); try (destruct k; discriminate)].
    assert (Relation_Operators.clos_refl_sym_trans nat (fun a b => (ex_linked a b \/ a = b) /\ In a [0; 1]%nat /\ In b [0; 1]%nat) 0%nat 1%nat) as S by (apply Relation_Operators.rst_step; cbn; unfold ex_linked; cbn; tauto).
    destruct j as [|[|j]]; cbn in Ej; try (destruct j; discriminate); injection Ej as <-; (destruct k as [|[|k]]; cbn in Ek; try (destruct k; discriminate); injection Ek as <-); first [apply Relation_Operators.rst_refl|exact S|apply Relation_Operators.rst_sym; exact S].
  - assert (nth j [0; 0; 1; 1] 0 = if g p then 0 else 1) as VJ by (do 4 (destruct j as [|j]; [injection Ej as <-; reflexivity|]); destruct j; discriminate).
    assert (nth k [0; 0; 1; 1] 0 = if g q then 0 else 1) as VK by (do 4 (destruct k as [|k]; [injection Ek as <-; reflexivity|]); destruct k; discriminate).
    rewrite VJ, VK. split.
    + intros E. assert (In p [1; 2; 4; 3]%nat) as IP by now apply (nth_error_In _ j). assert (In q [1; 2; 4; 3]%nat) as IQ by now apply (nth_error_In _ k).
      assert (Relation_Operators.clos_refl_sym_trans nat (fun a b => (ex_linked a b \/ a = b) /\ In a [1; 2; 4; 3]%nat /\ In b [1; 2; 4; 3]%nat) 1%nat 2%nat) as S1 by (apply Relation_Operators.rst_step; cbn; unfold ex_linked; cbn; tauto).
      assert (Relation_Operators.clos_refl_sym_trans nat (fun a b => (ex_linked a b \/ a = b) /\ In a [1; 2; 4; 3]%nat /\ In b [1; 2; 4; 3]%nat) 3%nat 4%nat) as S2 by (apply Relation_Operators.rst_step; cbn; unfold ex_linked; cbn; tauto).
      clear - E IP IQ S1 S2. cbn in IP, IQ. destruct IP as [<-|[<-|[<-|[<-|[]]]]], IQ as [<-|[<-|[<-|[<-|[]]]]]; cbn in E; try discriminate; first [apply Relation_Operators.rst_refl|exact S1|exact S2|apply Relation_Operators.rst_sym; exact S1|apply Relation_Operators.rst_sym; exact S2].
    + intros C. rewrite (clos_inv _ g INV p q C). reflexivity.
Qed.
Lemma ex_size : group_size 5 ex_linked 3 2.
Proof.
  exists [3; 4]%nat. split; [repeat constructor; cbn; lia|]. split; [|reflexivity]. intros q. split.
  - intros [<-|[<-|[]]]; (split; [lia|]); [apply Relation_Operators.rst_refl|apply Relation_Operators.rst_step; unfold ex_linked; cbn; tauto].
  - intros [Lq F]. assert (Nat.ltb 3 3 = Nat.ltb q 3) as E. { refine (clos_inv ex_linked (fun x => Nat.ltb x 3) _ 3%nat q F). intros a b H. cbn in H. destruct H as [H|[H|[H|[]]]]; injection H as <- <-; reflexivity. }
    do 3 (destruct q as [|q]; [discriminate|]). destruct q as [|[|q]]; cbn; [tauto|tauto|lia].
Qed.
Lemma nmin_dropped : exists sizes layout labels linked nmin p, Forall (fun k => (0 < k)%nat) sizes /\ fof_input (nsum sizes) layout labels /\ meet layout linked /\ local_groups layout labels linked /\ (p < nsum sizes)%nat /\
  group_size (nsum sizes) linked p nmin /\
  forall mp argsort, mpsort_contract mp -> argsort_contract argsort -> exists fuel0, forall fuel, (fuel0 <= fuel)%nat -> exists out, fof_run mp argsort fuel nmin sizes layout labels = Ok out /\ nth p (global out) 0 = 0.
Proof.
  exists [3; 2]%nat, ex_layout, ex_labels, ex_linked, 2, 3%nat. split; [repeat constructor|]. split; [exact ex_input|]. split; [exact ex_meet|]. split; [exact ex_groups|]. split; [cbn; lia|]. split; [exact ex_size|].
  intros mp argsort MC AC. destruct (fof_run_ok mp argsort 2 [3; 2]%nat ex_layout ex_labels ex_linked MC AC) as (f0 & H); [discriminate|repeat constructor|exact ex_input|exact ex_meet|exact ex_groups|].
  exists f0. intros fuel LF. destruct (H fuel LF) as (out & E & _ & FL). exists out. split; [exact E|]. apply (fl_small _ _ _ _ FL 3%nat 2); [cbn; lia|exact ex_size|lia].
Qed.
Lemma empty_rank_fails : exists sizes layout labels, (0 < nsum sizes)%nat /\ fof_input (nsum sizes) layout labels /\
  forall mp argsort nmin, mpsort_contract mp -> argsort_contract argsort -> exists fuel0, forall fuel, (fuel0 <= fuel)%nat -> fof_run mp argsort fuel nmin sizes layout labels = Err ValueError.
Proof.
  exists [5; 0]%nat, ex_layout, ex_labels. split; [cbn; lia|]. split; [exact ex_input|]. intros mp argsort nmin MC AC. destruct (fof_merge_total argsort 5 ex_layout ex_labels AC ex_input) as (m & f0 & EL & HM). exists f0. intros fuel LF. destruct (HM fuel LF) as (g & EG & (LG & _)).
  unfold fof_run. change (nsum [5; 0]%nat) with 5%nat. rewrite EL. cbn [rbind]. rewrite EG. cbn [rbind]. destruct (cut_concat [5; 0]%nat g) as [C1 C2]; [rewrite LG; reflexivity|]. apply assign_empty_rank; [exact MC| |].
  - unfold global. rewrite C1. intros ->. discriminate.
  - cbn [cut]. right. left. destruct g; reflexivity.
Qed.
Lemma top_greatest labels m : proper labels -> greatest (global labels) m -> top labels = Z.to_nat (m + 1).
Proof. intros (_ & _ & Q) G. unfold top. rewrite (greatest_zmax _ m G); [reflexivity|]. destruct G as [I _]. specialize (Q m I). lia. Qed.
Lemma cm_open argsort labels pos m : argsort_contract argsort -> proper labels -> map (@length Z) labels = map (@length Qc) pos -> greatest (global labels) m ->
  exists out, centerofmass argsort labels pos None = Ok out /\ length out = Z.to_nat (m + 1) /\
  forall h, In h (global labels) -> nth_error out (Z.to_nat h) = Some (Some (mean (of_label h (global labels) (global pos)))).
Proof. intros A P AL G. rewrite <- (top_greatest labels m P G). now apply cm_open_ok. Qed.
Lemma cm_periodic argsort labels pos m L : argsort_contract argsort -> proper labels -> map (@length Z) labels = map (@length Qc) pos -> greatest (global labels) m ->
  (0 < L)%Qc -> (forall x, In x (global pos) -> (0 <= x /\ x <= L)%Qc) ->
  exists out, centerofmass argsort labels pos (Some L) = Ok out /\ length out = Z.to_nat (m + 1) /\
  forall h y, In h (global labels) -> unwrapped L (of_label h (global labels) (global pos)) y ->
  exists c, nth_error out (Z.to_nat h) = Some (Some c) /\ (0 <= c /\ c < L)%Qc /\ same_mod L (mean y) c.
Proof. intros A P AL G HL IN. rewrite <- (top_greatest labels m P G). now apply cm_periodic_ok. Qed.
Lemma length_ok labels m : proper labels -> greatest (global labels) m ->
  exists n, fof_length labels = Ok n /\ length n = Z.to_nat (m + 1) /\ nth_error n 0 = Some 0 /\
  forall h, 1 <= h <= m -> nth_error n (Z.to_nat h) = Some (count h (global labels)).
Proof.
  intros P G. destruct (fof_length_ok labels P) as (n & E & L & Z & N). rewrite (top_greatest labels m P G) in *.
  exists n. split; [exact E|]. split; [exact L|]. split; [exact Z|]. intros h Hh. rewrite N by lia. rewrite Z2Nat.id by lia. reflexivity.
Qed.
