(* C29, C139-C142 *)
From Verif Require Import Base Num RanksSpec DaSpec DaCounts FiberModel CgmModel CgmSpec CgmFinal CgmGeom CgmRun.
From Coq Require Import Permutation.
Local Open Scope nat_scope.

(* ---- C29: cylindrical groups ---- *)
Theorem C29_groups : forall los boxsize rperp rpar by_desc prims ghosts batches nan_int order mpsort sorted input,
  Forall (in_box boxsize) input -> (los = None -> ~ In origin input) -> (forall l, In l sorted -> l <> []) ->
  Permutation order (seq 0 (length input)) -> concat sorted = map (fun o => nth o input origin) order ->
  by_desc_contract by_desc -> mpsort_out_contract mpsort ->
  exchange_ok (length input) (fun s t => within boxsize (rperp * rperp + rpar * rpar) (nth s (concat sorted) origin) (nth t (concat sorted) origin)) prims ghosts batches ->
  exists outs, run los boxsize rperp rpar by_desc prims ghosts batches nan_int order mpsort sorted = Ok outs /\
    map (@length (Z * Z * Z)) outs = map (@length point) sorted /\
    cylinder_groups (length input) (fun a b => in_cylinder los boxsize rperp rpar (nth a input origin) (nth b input origin)) (ranked_above order) (concat outs).
Proof. exact run_groups. Qed.
Print Assumptions C29_groups.

Definition at_ (a b c : Z) : point := (Q2Qc (inject_Z a / 10), Q2Qc (inject_Z b / 10), Q2Qc (inject_Z c / 10))%Qc.
Definition zaxis : option point := Some (0, 0, 1)%Qc.
Definition box : option point := Some (at_ 100 100 100).
(* three objects in a row, one near the first through the box boundary, one alone *)
Definition five : list point := [at_ 2 50 50; at_ 98 50 55; at_ 11 50 50; at_ 20 50 50; at_ 70 10 10].
Definition order5 : list nat := [0; 4; 1; 3; 2].
Definition sorted5 : list (list point) := [[at_ 2 50 50; at_ 70 10 10]; [at_ 98 50 55; at_ 20 50 50; at_ 11 50 50]].
Definition prims5 : list (list nat) := [[1; 2]; [0; 3; 4]].
Definition near5 (s t : nat) : bool := qleb (dot (difference box (nth s (concat sorted5) origin) (nth t (concat sorted5) origin)) (difference box (nth s (concat sorted5) origin) (nth t (concat sorted5) origin))) (1 * 1 + 1 * 1).
Definition ghosts5 := map (fun _ : list nat => seq 0 5) prims5.
Definition batches5 := map (fun p => [all_pairs near5 5 p]) prims5.
Lemma five_in : Forall (in_box box) five.
Proof. repeat (constructor; [repeat split; [discriminate|discriminate|discriminate]|]); constructor. Qed.
Example C29_ex : Forall (in_box box) five /\ Permutation order5 (seq 0 5) /\ concat sorted5 = map (fun o => nth o five origin) order5 /\
  by_desc_contract ref_desc /\ mpsort_out_contract (@ref_sort_out cell) /\
  exchange_ok 5 (fun s t => within box (1 * 1 + 1 * 1) (nth s (concat sorted5) origin) (nth t (concat sorted5) origin)) prims5 ghosts5 batches5 /\
  run zaxis box 1 1 ref_desc prims5 ghosts5 batches5 (-7) order5 (@ref_sort_out cell) sorted5 = Ok [[(1, 0, 0); (0, 1, 0)]; [(0, 0, 2); (1, 0, 0); (0, 2, 0)]]%Z.
Proof.
  split; [exact five_in|]. split. { apply NoDup_Permutation; [repeat constructor; cbn; lia|apply seq_NoDup|]. intros x. rewrite in_seq. cbn. lia. }
  split; [reflexivity|]. split; [exact ref_desc_ok|]. split; [exact ref_sort_out_contract|]. split; [|vm_compute; reflexivity].
  apply exchange_exists.
  - intros i j Hi Hj. apply within_iff; apply (proj1 (Forall_forall _ _) five_in);
      [revert i Hi; clear j Hj; intros i Hi|revert j Hj; clear i Hi; intros i Hi]; do 5 (destruct i as [|i]; [cbn; tauto|]); lia.
  - apply NoDup_Permutation; [repeat constructor; cbn; lia|apply seq_NoDup|]. intros x. rewrite in_seq. cbn. lia.
Qed.

(* ---- C139: the domain grid ---- *)
Theorem C139_grid_refuted : exists np P p e, In p P /\ nth_error (cgm_grid np P) 1 = Some e /\ forall x, In x e -> (py p < x)%Qc.
Proof.
  exists (2, 1, 1), [at_ 50 10 10; at_ 60 20 20], (at_ 50 10 10). eexists. split; [left; reflexivity|]. split; [reflexivity|]. intros x Hx. repeat (destruct Hx as [<-|Hx]; [reflexivity|]). destruct Hx.
Qed.
Print Assumptions C139_grid_refuted.

(* ---- C140: a rank without objects ---- *)
Theorem C140_empty_rank_refuted : exists sorted, concat sorted <> [] /\
  forall los boxsize rperp rpar by_desc prims ghosts batches nan_int order mpsort, run los boxsize rperp rpar by_desc prims ghosts batches nan_int order mpsort sorted = Err ValueError.
Proof. exists [[at_ 1 1 1]; []]. split; [discriminate|]. reflexivity. Qed.
Print Assumptions C140_empty_rank_refuted.

(* ---- C141: an object at the origin ---- *)
Theorem C141_origin_refuted : exists rperp rpar by_desc prims ghosts batches nan_int mpsort sorted outs,
  (0 < rperp)%Qc /\ (0 < rpar)%Qc /\ by_desc_contract by_desc /\ mpsort_out_contract mpsort /\ (forall l, In l sorted -> l <> []) /\
  exchange_ok 1 (fun s t => within None (rperp * rperp + rpar * rpar) (nth s (concat sorted) origin) (nth t (concat sorted) origin)) prims ghosts batches /\
  run None None rperp rpar by_desc prims ghosts batches nan_int [0] mpsort sorted = Ok outs /\
  exists a h, type_of (concat outs) a 0 /\ halo_of (concat outs) a h /\ (h < 0)%Z.
Proof.
  exists 1%Qc, 1%Qc, ref_desc, [[0]], [[0]], [[[(0, 0)]]], (-7)%Z, (@ref_sort_out cell), [[origin]], [[(0, -1, 0)%Z]].
  split; [reflexivity|]. split; [reflexivity|]. split; [exact ref_desc_ok|]. split; [exact ref_sort_out_contract|]. split; [intros l [<-|[]]; discriminate|]. split; [|split; [vm_compute; reflexivity|]].
  - apply (exchange_exists 1 _ (fun _ _ => true) [[0]]); [|reflexivity]. intros [|i] [|j] Hi Hj; try lia. split; [|reflexivity]. intros _. exists origin. split; [repeat split|]. discriminate.
  - exists 0, (-1)%Z. split; [exists (-1)%Z, 0%Z; reflexivity|]. split; [exists 0%Z, 0%Z; reflexivity|lia].
Qed.
Print Assumptions C141_origin_refuted.

(* ---- C142: being in each other's cylinder ---- *)
Theorem C142_symmetric : forall los rperp rpar p q, in_cylinder los None rperp rpar p q -> in_cylinder los None rperp rpar q p.
Proof. exact cylinder_sym. Qed.
Print Assumptions C142_symmetric.
Definition inclined : point := (Q2Qc (3 # 5), Q2Qc (4 # 5), 0)%Qc.
Lemma not_symmetric : exists p q, in_box box p /\ in_box box q /\ valid (Some inclined) box (Q2Qc 5 * Q2Qc 5) (Q2Qc 3 * Q2Qc 3) p q = true /\ valid (Some inclined) box (Q2Qc 5 * Q2Qc 5) (Q2Qc 3 * Q2Qc 3) q p = false.
Proof. exists (at_ 20 30 10), (at_ 70 40 10). split; [repeat split; discriminate|]. split; [repeat split; discriminate|]. split; vm_compute; reflexivity. Qed.
Theorem C142_periodic_refuted : exists los boxsize rperp rpar p q, in_box boxsize p /\ in_box boxsize q /\ scalar los los = 1%Qc /\
  in_cylinder (Some los) boxsize rperp rpar p q /\ ~ in_cylinder (Some los) boxsize rperp rpar q p.
Proof.
  destruct not_symmetric as [p [q [H1 [H2 [H3 H4]]]]]. exists inclined, box, (Q2Qc 5), (Q2Qc 3), p, q. split; [exact H1|]. split; [exact H2|]. split; [apply Qc_is_canon; reflexivity|].
  split; [apply valid_iff; assumption|]. intros G. apply valid_iff in G; [congruence|assumption|assumption].
Qed.
Print Assumptions C142_periodic_refuted.
Example C142_ex : in_cylinder None None 1 1 (at_ 10 0 0) (at_ 15 0 5).
Proof. apply valid_iff; [exact I|exact I|]. vm_compute. reflexivity. Qed.
