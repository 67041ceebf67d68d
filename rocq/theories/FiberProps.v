(* C28, C137, C138 *)
From Verif Require Import Base Num RanksSpec DaSpec DaCounts FiberModel FiberSpec FiberProofs FiberMore.
From Coq Require Import Permutation.
Local Open Scope nat_scope.

(* ---- C28: fibers are assigned without collisions ---- *)
Theorem C28_assigned : forall r2 draws mpsort lsort memory ranks,
  mpsort_out_contract mpsort -> (forall l, Permutation (lsort l) l) -> at_least_two (concat ranks) ->
  exists outs, assign_fibers r2 draws mpsort lsort memory ranks = Ok outs /\ map (@length _) outs = map (@length _) ranks /\
    assigned r2 (concat ranks) (concat outs).
Proof. intros r2 draws mpsort lsort memory ranks H1 H2 H3. exact (fibers_ok r2 draws mpsort lsort memory H1 H2 ranks H3). Qed.
Print Assumptions C28_assigned.

(* no two objects of the whole catalog within the radius both keep their fibers *)
Theorem C28_no_collision : forall r2 draws mpsort lsort memory ranks,
  mpsort_out_contract mpsort -> (forall l, Permutation (lsort l) l) -> at_least_two (concat ranks) -> linked r2 (concat ranks) ->
  forall outs, assign_fibers r2 draws mpsort lsort memory ranks = Ok outs ->
  forall i j p q, i <> j -> option_map fst (nth_error (concat ranks) i) = Some p -> option_map fst (nth_error (concat ranks) j) = Some q -> (d2 p q <= r2)%Qc ->
  ~ (option_map fst (nth_error (concat outs) i) = Some 0%Z /\ option_map fst (nth_error (concat outs) j) = Some 0%Z).
Proof. intros r2 draws mpsort lsort memory ranks H1 H2 H3. exact (fibers_linked r2 draws mpsort lsort memory H1 H2 ranks H3). Qed.
Print Assumptions C28_no_collision.

Definition pt (a b : Z) : point := (Q2Qc (inject_Z a / 10), Q2Qc (inject_Z b / 10), 0)%Qc.
Definition nothing (i : Z) : Z * Z := (7, 7)%Z.
(* five objects on two ranks: three in a row, a pair, one alone *)
Definition six : list (list (point * Z)) := [[(pt 0 0, 3%Z); (pt 90 0, 0%Z); (pt 9 0, 3%Z)]; [(pt 50 0, 8%Z); (pt 18 0, 3%Z); (pt 50 5, 8%Z)]].
Lemma at_six : forall objs : list (point * Z), forallb (fun i => match nth_error objs i with Some (p, g) => (g =? 0)%Z || existsb (fun j => negb (j =? i) && match nth_error objs j with Some (q, h) => (h =? g)%Z | None => false end) (seq 0 (length objs)) | None => true end) (seq 0 (length objs)) = true -> at_least_two objs.
Proof.
  intros objs H i p g Hi Hg. rewrite forallb_forall in H. assert (L : i < length objs) by (apply nth_error_Some; congruence). specialize (H i ltac:(apply in_seq; lia)). rewrite Hi in H.
  apply orb_true_iff in H. destruct H as [H|H]; [apply Z.eqb_eq in H; contradiction|]. apply existsb_exists in H. destruct H as [j [_ H]]. apply andb_true_iff in H. destruct H as [H1 H2].
  destruct (nth_error objs j) as [[q h]|] eqn:E; [|discriminate]. exists j, q. apply negb_true_iff, Nat.eqb_neq in H1. apply Z.eqb_eq in H2. subst h. split; [exact H1|exact E].
Qed.
Lemma linked_by : forall r2 (objs : list (point * Z)), forallb (fun i => forallb (fun j => match nth_error objs i, nth_error objs j with Some (p, g), Some (q, h) => (i =? j) || qltb r2 (d2 p q) || ((g =? h)%Z && negb (g =? 0)%Z) | _, _ => true end) (seq 0 (length objs))) (seq 0 (length objs)) = true -> linked r2 objs.
Proof.
  intros r2 objs H i j p q g h Hij Hi Hj Hd. rewrite forallb_forall in H. assert (L : i < length objs) by (apply nth_error_Some; congruence). assert (L' : j < length objs) by (apply nth_error_Some; congruence).
  specialize (H i ltac:(apply in_seq; lia)). rewrite forallb_forall in H. specialize (H j ltac:(apply in_seq; lia)). rewrite Hi, Hj in H.
  apply orb_true_iff in H. destruct H as [H|H].
  - apply orb_true_iff in H. destruct H as [H|H]; [apply Nat.eqb_eq in H; contradiction|]. apply qltb_iff in H. exfalso. apply (Qclt_not_le _ _ H Hd).
  - apply andb_true_iff in H. destruct H as [H1 H2]. apply Z.eqb_eq in H1. apply negb_true_iff, Z.eqb_neq in H2. auto.
Qed.
Example C28_ex : mpsort_out_contract (@ref_sort_out row) /\ at_least_two (concat six) /\ linked 1%Qc (concat six) /\
  assign_fibers 1%Qc (fun k => 1) ref_sort_out (fun l => l) nothing six = Ok [[(0, -1); (0, -1); (1, 0)]; [(0, -1); (0, -1); (1, 3)]]%Z.
Proof. split; [apply ref_sort_out_contract|]. split; [apply at_six; vm_compute; reflexivity|]. split; [apply linked_by; vm_compute; reflexivity|vm_compute; reflexivity]. Qed.

(* ---- C137: a collided object need not have a neighbour with a fiber ---- *)
Theorem C137_within_radius_refuted : exists r2 draws ranks outs,
  at_least_two (concat ranks) /\ linked r2 (concat ranks) /\
  assign_fibers r2 draws ref_sort_out (fun l => l) nothing ranks = Ok outs /\
  exists i p, option_map fst (nth_error (concat ranks) i) = Some p /\ option_map fst (nth_error (concat outs) i) = Some 1%Z /\
    forall j q, j <> i -> option_map fst (nth_error (concat ranks) j) = Some q -> (d2 p q <= r2)%Qc -> option_map fst (nth_error (concat outs) j) = Some 1%Z.
Proof.
  exists 1%Qc, (fun k => match k with 0 => 2 | _ => 0 end), [map (fun p => (p, 1%Z)) [pt (-9) 0; pt 8 4; pt 8 (-4); pt 0 0; pt 16 0; pt (-18) 0]].
  eexists. split; [apply at_six; vm_compute; reflexivity|]. split; [apply linked_by; vm_compute; reflexivity|]. split; [vm_compute; reflexivity|].
  exists 3, (pt 0 0). split; [reflexivity|]. split; [reflexivity|]. intros j q Hj Hq Hd. cbn [concat app] in *.
  do 6 (destruct j as [|j]; [first [reflexivity|congruence|exfalso; cbn [nth_error map option_map fst] in Hq; injection Hq as <-; vm_compute in Hd; apply Hd; reflexivity]|]).
  destruct j; discriminate.
Qed.
Print Assumptions C137_within_radius_refuted.

(* ---- C138: the assignment depends on the number of ranks ---- *)
Theorem C138_ranks_refuted : exists r2 draws a b oa ob,
  concat a = concat b /\ at_least_two (concat a) /\ linked r2 (concat a) /\
  assign_fibers r2 draws ref_sort_out (fun l => l) nothing a = Ok oa /\ assign_fibers r2 draws ref_sort_out (fun l => l) nothing b = Ok ob /\
  concat oa <> concat ob.
Proof.
  exists 1%Qc, (fun k => k), [[(pt 0 0, 1%Z); (pt 1 0, 1%Z); (pt 100 0, 2%Z); (pt 101 0, 2%Z)]], [[(pt 0 0, 1%Z); (pt 1 0, 1%Z)]; [(pt 100 0, 2%Z); (pt 101 0, 2%Z)]].
  eexists. eexists. split; [reflexivity|]. split; [apply at_six; vm_compute; reflexivity|]. split; [apply linked_by; vm_compute; reflexivity|]. split; [vm_compute; reflexivity|]. split; [vm_compute; reflexivity|].
  cbn [concat app]. congruence.
Qed.
Print Assumptions C138_ranks_refuted.
