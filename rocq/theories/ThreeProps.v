(* Theorems about the three-point function; the hypotheses are explained in ThreeSpec.v. *)
From Verif Require Import Base.
From Coq Require Import Reals Sorted Permutation Lra Lia.
From Verif Require Import RandModel ThreeModel ThreeSpec ThreeProofs ThreeMain ThreeExamples.
Local Open Scope nat_scope.

(* Every multipole corr_l(r1, r2) is (2 l + 1) / (4 pi)^2 times the weighted sum of P_l of the angle over all
   primaries and pairs of objects in the bins, for any bunches and decomposition. *)
Theorem C32_triplets : forall edges poles box Y catalog ranks,
  StronglySorted Rle edges -> NoDup poles -> poles <> [] ->
  (forall l, In l poles -> addition Y l) ->
  (forall s, In s catalog -> in_box box (fst s)) ->
  (forall k, In k ranks -> enum_ok edges box k) ->
  decomposed edges box catalog ranks -> 10 <= maxload ranks ->
  exists out, run edges poles box Y ranks = Ok out /\ length out = length poles /\
  forall q l a b, nth_error poles q = Some l -> a < length edges - 1 -> b < length edges - 1 ->
    at3 out q a b = Some (INR (2 * l + 1) / ((4 * PI) * (4 * PI)) * triplets edges box l catalog a b)%R.
Proof. exact run_triplets. Qed.
Print Assumptions C32_triplets.

(* twelve objects in a periodic box on two ranks, one pair per call *)
Example C32_triplets_ex : exists out, run exedges expoles exbox exY exranks = Ok out /\
  at3 out 1 0 1 = Some (INR 5 / ((4 * PI) * (4 * PI)) * triplets exedges exbox 2 excat 0 1)%R.
Proof.
  destruct (C32_triplets exedges expoles exbox exY excat exranks) as (out & E & _ & H).
  - exact ex_sorted.
  - unfold expoles. repeat constructor; cbn; intuition discriminate.
  - discriminate.
  - intros l I. apply exY_addition. cbn in I. lia.
  - exact ex_inbox.
  - intros k I. apply in_map_iff in I. destruct I as (x & <- & _). apply full_ok.
  - apply full_decomposed. reflexivity.
  - cbn. lia.
  - exists out. split; [exact E|]. apply (H 1 2 0 1); cbn; [reflexivity|lia|lia].
Qed.

(* A run with fewer than ten objects on the fullest rank divides by zero. *)
Theorem C150_small : forall edges poles box Y ranks, poles <> [] -> (forall k, In k ranks -> enum_ok edges box k) ->
  0 < maxload ranks < 10 -> run edges poles box Y ranks = Err ZeroDivisionError.
Proof. exact small_error. Qed.
Print Assumptions C150_small.
Theorem C150_small_refuted : exists edges poles box Y catalog ranks,
  StronglySorted Rle edges /\ NoDup poles /\ poles <> [] /\ (forall l, In l poles -> addition Y l) /\
  (forall s, In s catalog -> in_box box (fst s)) /\ (forall k, In k ranks -> enum_ok edges box k) /\
  decomposed edges box catalog ranks /\ run edges poles box Y ranks = Err ZeroDivisionError.
Proof.
  pose (cat := map obj [0; 1; 3]%Z). pose (rk := map (full exedges exbox cat) [cat]).
  assert (EN : forall k, In k rk -> enum_ok exedges exbox k) by (intros k I; apply in_map_iff in I; destruct I as (x & <- & _); apply full_ok).
  exists exedges, [0; 1], exbox, exY, cat, rk.
  split; [exact ex_sorted|]. split; [repeat constructor; cbn; intuition discriminate|]. split; [discriminate|].
  split; [intros l I; apply exY_addition; cbn in I; lia|].
  split; [intros s I; unfold cat, obj in I; cbn in I; repeat (destruct I as [<-|I]; [cbn; lra|]); destruct I|].
  split; [exact EN|]. split; [apply full_decomposed; cbn; apply Permutation_refl|].
  apply small_error; [discriminate|exact EN|cbn; lia].
Qed.
Print Assumptions C150_small_refuted.

(* Two objects of a triplet may be the same: an object counts as a pair with itself. *)
Theorem C151_distinct_refuted : exists edges poles box Y catalog ranks out v,
  StronglySorted Rle edges /\ NoDup poles /\ poles <> [] /\ (forall l, In l poles -> addition Y l) /\
  (forall s, In s catalog -> in_box box (fst s)) /\ (forall k, In k ranks -> enum_ok edges box k) /\
  decomposed edges box catalog ranks /\ run edges poles box Y ranks = Ok out /\
  nth_error poles 0 = Some 0 /\ at3 out 0 0 0 = Some v /\ v <> (INR 1 / ((4 * PI) * (4 * PI)) * distinct_triplets edges box 0 catalog 0 0)%R.
Proof.
  assert (EN : forall k, In k ranks10 -> enum_ok [0; 2]%R None k) by (intros k I; apply in_map_iff in I; destruct I as (x & <- & _); apply full_ok).
  assert (ND : NoDup [0]) by (repeat constructor; intros []).
  assert (AD : forall l, In l [0] -> addition exY l) by (intros l I; apply exY_addition; cbn in I; lia).
  assert (DC : decomposed [0; 2]%R None cat10 ranks10) by (apply full_decomposed; cbn [concat]; rewrite app_nil_r; apply Permutation_refl).
  destruct (run_triplets [0; 2]%R [0] None exY cat10 ranks10 sorted02 ND ltac:(discriminate) AD (fun _ _ => I) EN DC ltac:(cbn; lia)) as (out & E & _ & H).
  exists [0; 2]%R, [0], None, exY, cat10, ranks10, out. eexists.
  split; [exact sorted02|]. split; [exact ND|]. split; [discriminate|]. split; [exact AD|]. split; [exact (fun _ _ => I)|]. split; [exact EN|]. split; [exact DC|]. split; [exact E|]. split; [reflexivity|].
  split; [apply (H 0 0 0 0); [reflexivity|cbn; lia|cbn; lia]|].
  rewrite distinct_zero, Rmult_0_r. pose proof PI_RGT_0. apply Rmult_integral_contrapositive. split; [|pose proof counted_pos; lra].
  change (2 * 0 + 1) with 1. change (INR 1) with 1%R. apply Rgt_not_eq, Rdiv_lt_0_compat; [lra|]. apply Rmult_lt_0_compat; lra.
Qed.
Print Assumptions C151_distinct_refuted.
