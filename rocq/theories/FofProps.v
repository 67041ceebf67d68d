(* Friends of friends: C21, C22, C84, C85, C87 to C91. *)
From Verif Require Import Base Num RanksSpec DaModel DaSpec DistSpec DistProofs FofModel FofSpec FofCmModel FofCmSpec FofRun FofMean FofCm DaCounts.
Local Open Scope Z_scope.

(* C22: merging ends, with the smallest particle of the component as the id *)
Theorem C22_merge : forall argsort n layout labels, argsort_contract argsort -> fof_input n layout labels ->
  exists m fuel0, fof_local argsort layout labels n = Ok m /\
  forall fuel, (fuel0 <= fuel)%nat -> exists ids, fof_merge argsort fuel layout n m = Ok ids /\ least_of n layout labels ids.
Proof. exact fof_merge_total. Qed.
Print Assumptions C22_merge.
(* C22: so two particles have the same id exactly when they are connected *)
Theorem C22_same_id : forall n layout labels ids, fof_input n layout labels -> least_of n layout labels ids ->
  forall p q, (p < n)%nat -> (q < n)%nat -> nth p ids 0 = nth q ids 0 <-> component layout labels p q.
Proof. exact least_ids. Qed.
Print Assumptions C22_same_id.
(* C22: the components are the friends-of-friends groups *)
Theorem C22_friends : forall n layout labels linked, fof_input n layout labels -> meet layout linked -> local_groups layout labels linked ->
  forall p q, component layout labels p q <-> friends linked p q.
Proof. exact component_links. Qed.
Print Assumptions C22_friends.
Example C22_merge_ex : argsort_contract ref_argsort /\ fof_input 5 ex_layout ex_labels /\
  fof_local ref_argsort ex_layout ex_labels 5 = Ok [[0; 0]; [1; 1; 3; 3]] /\
  fof_merge ref_argsort 3 ex_layout 5 [[0; 0]; [1; 1; 3; 3]] = Ok [0; 0; 0; 3; 3].
Proof. split; [apply ref_argsort_contract|]. split; [exact ex_input|]. split; vm_compute; reflexivity. Qed.
Example C22_friends_ex : meet ex_layout ex_linked /\ local_groups ex_layout ex_labels ex_linked.
Proof. split; [exact ex_meet|exact ex_groups]. Qed.

(* C21: the labels of all particles *)
Theorem C21_labels : forall mp argsort nmin sizes layout labels linked, mpsort_contract mp -> argsort_contract argsort ->
  sizes <> [] -> Forall (fun k => (0 < k)%nat) sizes ->
  fof_input (nsum sizes) layout labels -> meet layout linked -> local_groups layout labels linked ->
  exists fuel0, forall fuel, (fuel0 <= fuel)%nat -> exists out,
    fof_run mp argsort fuel nmin sizes layout labels = Ok out /\ map (@length Z) out = sizes /\
    fof_labels (nsum sizes) linked nmin (global out).
Proof. exact fof_run_ok. Qed.
Print Assumptions C21_labels.
Example C21_labels_ex :
  mpsort_contract (@ref_sort (Z * Z)) /\ fof_input (nsum [3; 2]%nat) ex_layout ex_labels /\ meet ex_layout ex_linked /\ local_groups ex_layout ex_labels ex_linked /\
  fof_run ref_sort ref_argsort 3 1 [3; 2]%nat ex_layout ex_labels = Ok [[1; 1; 1]; [2; 2]] /\
  fof_run ref_sort ref_argsort 3 2 [3; 2]%nat ex_layout ex_labels = Ok [[1; 1; 1]; [0; 0]] /\
  fof_run ref_sort ref_argsort 3 3 [3; 2]%nat ex_layout ex_labels = Ok [[0; 0; 0]; [0; 0]].
Proof.
  split; [apply ref_sort_contract|]. split; [exact ex_input|]. split; [exact ex_meet|]. split; [exact ex_groups|]. split; [|split]; vm_compute; reflexivity.
Qed.

(* C84: a group with exactly nmin members is dropped *)
Theorem C84_nmin_refuted : exists sizes layout labels linked nmin p, Forall (fun k => (0 < k)%nat) sizes /\ fof_input (nsum sizes) layout labels /\ meet layout linked /\ local_groups layout labels linked /\ (p < nsum sizes)%nat /\
  group_size (nsum sizes) linked p nmin /\
  forall mp argsort, mpsort_contract mp -> argsort_contract argsort -> exists fuel0, forall fuel, (fuel0 <= fuel)%nat ->
    exists out, fof_run mp argsort fuel nmin sizes layout labels = Ok out /\ nth p (global out) 0 = 0.
Proof. exact nmin_dropped. Qed.
Print Assumptions C84_nmin_refuted.

(* C85: a rank without particles makes the run fail *)
Theorem C85_empty_rank_refuted : exists sizes layout labels, (0 < nsum sizes)%nat /\ fof_input (nsum sizes) layout labels /\
  forall mp argsort nmin, mpsort_contract mp -> argsort_contract argsort -> exists fuel0, forall fuel, (fuel0 <= fuel)%nat ->
    fof_run mp argsort fuel nmin sizes layout labels = Err ValueError.
Proof. exact empty_rank_fails. Qed.
Print Assumptions C85_empty_rank_refuted.

(* C87: max_label holds one number per rank *)
Theorem C87_max_label_refuted : exists labels l, proper labels /\ fof_max_label labels = Ok l /\ length l <> 1%nat /\ exists x, In x l /\ ~ greatest (global labels) x.
Proof.
  exists [[1; 0]; [2; 2]], [1; 2]. split; [split; [discriminate|split; [repeat constructor; discriminate|cbn; intros; lia]]|]. split; [reflexivity|]. split; [discriminate|].
  exists 1. split; [now left|]. intros [_ H]. specialize (H 2). cbn in H. lia.
Qed.
Print Assumptions C87_max_label_refuted.

(* C88: Length of the halo catalog is the number of particles with that label *)
Theorem C88_length : forall labels m, proper labels -> greatest (global labels) m ->
  exists n, fof_length labels = Ok n /\ length n = Z.to_nat (m + 1) /\ nth_error n 0 = Some 0 /\
  forall h, 1 <= h <= m -> nth_error n (Z.to_nat h) = Some (count h (global labels)).
Proof. exact length_ok. Qed.
Print Assumptions C88_length.
Example C88_length_ex : proper [[1; 0; 2]; [1; 1]] /\ greatest (global [[1; 0; 2]; [1; 1]]) 2 /\ fof_length [[1; 0; 2]; [1; 1]] = Ok [0; 3; 1].
Proof. split; [split; [discriminate|split; [repeat constructor; discriminate|cbn; intros; lia]]|]. split; [split; [cbn; tauto|cbn; intros; lia]|reflexivity]. Qed.

(* C89: without a box the center of mass is the mean over all ranks *)
Theorem C89_cm : forall argsort labels pos m, argsort_contract argsort -> proper labels -> map (@length Z) labels = map (@length Qc) pos -> greatest (global labels) m ->
  exists out, centerofmass argsort labels pos None = Ok out /\ length out = Z.to_nat (m + 1) /\
  forall h, In h (global labels) -> nth_error out (Z.to_nat h) = Some (Some (mean (of_label h (global labels) (global pos)))).
Proof. exact cm_open. Qed.
Print Assumptions C89_cm.
Definition with_ok_fof {A} (x : res A) (p : A -> Prop) : Prop := match x with Ok a => p a | Err _ => False end.
Definition q_is (x : option (option Qc)) (q : Q) : Prop := match x with Some (Some v) => (this v == q)%Q | _ => False end.
Example C89_cm_ex : with_ok_fof (centerofmass ref_argsort [[1; 0]; [1]] [[zq 2; zq 9]; [zq 5]] None)
  (fun out => q_is (nth_error out 1) (7 # 2) /\ q_is (nth_error out 0) (9 # 1)).
Proof. vm_compute. split; reflexivity. Qed.

(* C90: in a box, a group that fits in half a box has the mean of the unwrapped positions *)
Theorem C90_cm_periodic : forall argsort labels pos m L, argsort_contract argsort -> proper labels -> map (@length Z) labels = map (@length Qc) pos -> greatest (global labels) m ->
  (0 < L)%Qc -> (forall x, In x (global pos) -> (0 <= x /\ x <= L)%Qc) ->
  exists out, centerofmass argsort labels pos (Some L) = Ok out /\ length out = Z.to_nat (m + 1) /\
  forall h y, In h (global labels) -> unwrapped L (of_label h (global labels) (global pos)) y ->
  exists c, nth_error out (Z.to_nat h) = Some (Some c) /\ (0 <= c /\ c < L)%Qc /\ same_mod L (mean y) c.
Proof. exact cm_periodic. Qed.
Print Assumptions C90_cm_periodic.
Example C90_cm_periodic_ex :
  unwrapped (zq 10) (of_label 1 (global [[1; 0]; [1; 1]]) (global [[zq 9; zq 4]; [zq 0; zq 1]])) [zq 9; zq 10; zq 11] /\
  with_ok_fof (centerofmass ref_argsort [[1; 0]; [1; 1]] [[zq 9; zq 4]; [zq 0; zq 1]] (Some (zq 10)))
    (fun out => q_is (nth_error out 1) 0 /\ q_is (nth_error out 0) 4).
Proof.
  split.
  - split.
    + repeat constructor; [exists 0|exists 1|exists 1]; apply Qc_is_canon; vm_compute; reflexivity.
    + intros a b Ha Hb. cbn [In] in Ha, Hb. destruct Ha as [<-|[<-|[<-|[]]]], Hb as [<-|[<-|[<-|[]]]]; vm_compute; reflexivity.
  - vm_compute. split; reflexivity.
Qed.

(* C91: the labels for the peaks keep the label of the densest particles of each group only *)
Theorem C91_peaks : forall argsort labels density, argsort_contract argsort -> proper labels -> map (@length Z) labels = map (@length Qc) density ->
  exists out, peak_labels argsort labels density = Ok out /\ map (@length Z) out = map (@length Z) labels /\
    forall i h, nth_error (global labels) i = Some h ->
      (is_peak h (global labels) (global density) i -> nth_error (global out) i = Some h) /\
      (~ is_peak h (global labels) (global density) i -> nth_error (global out) i = Some 0).
Proof. exact peak_labels_ok. Qed.
Print Assumptions C91_peaks.
Example C91_peaks_ex : proper [[1; 2]; [1; 2]] /\ peak_labels ref_argsort [[1; 2]; [1; 2]] [[zq 5; zq 1]; [zq 3; zq 4]] = Ok [[1; 0]; [0; 2]].
Proof. split; [split; [discriminate|split; [repeat constructor; discriminate|cbn; intros; lia]]|vm_compute; reflexivity]. Qed.
