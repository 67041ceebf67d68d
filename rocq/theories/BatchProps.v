(* Property theorems C08 (worker groups) and C09 (task protocol). *)
From Verif Require Import Base BaseProofs BatchModel BatchProofs BatchProto.
Local Open Scope nat_scope.

(* C08: no rank is in two groups, rank 0 and ranks outside the communicator are
   in none, and no two groups have the same number. *)
Theorem C08_groups_disjoint : forall nranks n all gs, split_ranks nranks n all = Ok gs ->
  NoDup (concat (map snd gs)) /\
  (forall r, In r (concat (map snd gs)) -> 1 <= r < nranks) /\
  NoDup (map fst gs).
Proof. exact split_ranks_ok. Qed.
Print Assumptions C08_groups_disjoint.
Example C08_groups_disjoint_ex :
  split_ranks 13 5 false = Ok [(0, [1; 2; 3; 4; 5]); (1, [6; 7; 8; 9; 10]); (3, [11; 12])].
Proof. reflexivity. Qed.

(* C08: with use_all_cpus the groups together are exactly the ranks 1 .. N-1. *)
Theorem C08_all_ranks_covered : forall nranks n gs, split_ranks nranks n true = Ok gs ->
  concat (map snd gs) = seq 1 (nranks - 1) /\ map fst gs = seq 0 (length gs).
Proof. exact split_ranks_all. Qed.
Print Assumptions C08_all_ranks_covered.
Example C08_all_ranks_covered_ex :
  split_ranks 9 3 true = Ok [(0, [1; 2; 3; 4]); (1, [5; 6; 7; 8])].
Proof. reflexivity. Qed.

(* C08: without it, the groups cut a prefix of the ranks; the first (N-1)/n have
   exactly n members and at most one smaller group, of even size, follows. *)
Theorem C08_full_groups : forall nranks n gs, split_ranks nranks n false = Ok gs ->
  exists m, concat (map snd gs) = firstn m (seq 1 (nranks - 1)) /\
  (forall i g, nth_error gs i = Some g -> i < (nranks - 1) / n -> fst g = i /\ length (snd g) = n) /\
  length gs <= (nranks - 1) / n + 1 /\
  (forall g, nth_error gs ((nranks - 1) / n) = Some g ->
     fst g = (nranks - 1) / n + 1 /\ snd g <> [] /\ length (snd g) < n /\ n / 2 - 1 <= length (snd g)
     /\ Nat.even (length (snd g)) = true).
Proof. exact split_ranks_prefix. Qed.
Print Assumptions C08_full_groups.
Example C08_full_groups_ex :
  split_ranks 12 4 false = Ok [(0, [1; 2; 3; 4]); (1, [5; 6; 7; 8]); (3, [9; 10])].
Proof. reflexivity. Qed.

(* C08: the colours passed to comm.Split: rank 0 and unused ranks get colour 0,
   and two ranks of groups get the same colour only inside one group. *)
Theorem C08_colors : forall nranks n all cs, enter_colors nranks n all = Ok cs ->
  length cs = nranks /\ nth_error cs 0 = Some 0 /\
  exists gs, split_ranks nranks n all = Ok gs /\ gs <> [] /\
    forall r c, nth_error cs r = Some c ->
      (c = 0 <-> ~ In r (concat (map snd gs))) /\
      (forall g, In g gs -> (In r (snd g) <-> c = fst g + 1)).
Proof. exact enter_colors_ok. Qed.
Print Assumptions C08_colors.
Example C08_colors_ex : enter_colors 8 3 false = Ok [0; 1; 1; 1; 2; 2; 2; 0].
Proof. reflexivity. Qed.

(* C09: when the master's loop has ended, every task was handed out, every group
   has been sent EXIT and has answered it, and each task has been executed exactly
   once by each member of one group and never by anybody else. *)
Theorem C09_exactly_once : forall nw nt g sched s,
  1 <= nw -> run nw nt g init sched = Some s -> closed s = nw ->
  idx s = nt /\ (forall w, w < nw -> ws s w = Closed /\ tm s w = [] /\ tw s w = []) /\
  forall i, i < nt -> exists w, w < nw /\ nth_error (sent s) i = Some w /\
    forall w' m, count_occ tdec (log s) (w', m, i) = if (w' =? w) && (m <? g w) then 1 else 0.
Proof. exact final_exact. Qed.
Print Assumptions C09_exactly_once.

(* two groups of sizes 2 and 1, three tasks; the second group is slow *)
Definition sched_ex : list action :=
  [AReady 1; AReady 0; AMaster 0; ARecv 0; AMaster 1; AMember 0 1; AMember 0 0; ADone 0; AReady 0;
   AMaster 0; AMaster 0; ARecv 0; AMember 0 0; AMember 0 1; ARecv 1; AMember 1 0; ADone 0; AReady 0;
   AMaster 0; AMaster 0; ARecv 0; AExit 0; AMaster 0; ADone 1; AMaster 1; AReady 1; AMaster 1; ARecv 1; AExit 1; AMaster 1].
Definition gsize_ex (w : nat) : nat := if w =? 0 then 2 else 1.
Example C09_exactly_once_ex :
  option_map (fun s => (closed s, sent s, log s)) (run 2 3 gsize_ex init sched_ex) =
  Some (2, [0; 1; 0], [(0, 1, 0); (0, 0, 0); (0, 0, 2); (0, 1, 2); (1, 0, 1)]).
Proof. reflexivity. Qed.

(* C09: a group is given a new task only after all its members have finished all
   the tasks it was given before. *)
Theorem C09_one_at_a_time : forall nw nt g sched s w s',
  run nw nt g init sched = Some s ->
  step nw nt g s (AMaster w) = Some s' -> length (sent s') <> length (sent s) ->
  forall i m, nth_error (sent s) i = Some w -> m < g w -> count_occ tdec (log s) (w, m, i) = 1.
Proof. exact one_at_a_time. Qed.
Print Assumptions C09_one_at_a_time.
Example C09_one_at_a_time_ex :
  option_map sent (run 2 3 gsize_ex init (firstn 10 sched_ex)) = Some [0; 1] /\
  option_map sent (run 2 3 gsize_ex init (firstn 10 sched_ex ++ [AMaster 0])) = Some [0; 1; 0].
Proof. split; reflexivity. Qed.

(* C09: no deadlock: unless the master's loop has ended, something can happen. *)
Theorem C09_no_deadlock : forall nw nt g sched s,
  run nw nt g init sched = Some s -> closed s = nw \/ exists a s', step nw nt g s a = Some s'.
Proof. exact (fun nw nt g sched s H => progress nw nt g s (inv_reach nw nt g sched s H)). Qed.
Print Assumptions C09_no_deadlock.
Example C09_no_deadlock_ex :
  option_map closed (run 2 3 gsize_ex init (firstn 5 sched_ex)) = Some 0.
Proof. reflexivity. Qed.

(* C09: no schedule is longer than a fixed bound, so every run ends; by
   C09_no_deadlock it can only end with the master's loop over. *)
Theorem C09_terminates : forall nw nt g G, (forall w, w < nw -> g w <= G) -> forall sched s,
  run nw nt g init sched = Some s -> length sched <= nt * (G + 5) + 5 * nw.
Proof. exact schedules_bounded. Qed.
Print Assumptions C09_terminates.
Example C09_terminates_ex : (forall w, w < 2 -> gsize_ex w <= 2) /\ length sched_ex = 30.
Proof. split; [|reflexivity]. intros w H. unfold gsize_ex. destruct (w =? 0); lia. Qed.

(* C09: from every reachable state the run can be completed. *)
Theorem C09_can_complete : forall nw nt g sched s, run nw nt g init sched = Some s ->
  exists more s', run nw nt g s more = Some s' /\ closed s' = nw.
Proof. exact can_complete. Qed.
Print Assumptions C09_can_complete.
Example C09_can_complete_ex :
  option_map idx (run 2 3 gsize_ex init (firstn 12 sched_ex)) = Some 3.
Proof. reflexivity. Qed.

(* C09: map() returns the results in task order. *)
Theorem C09_map_in_order : forall (R : Type) nw nt g sched s (f : nat -> R),
  1 <= nw -> (forall w, w < nw -> 1 <= g w) ->
  run nw nt g init sched = Some s -> closed s = nw -> map_results nw f s = map f (seq 0 nt).
Proof. exact @map_results_ok. Qed.
Print Assumptions C09_map_in_order.
Example C09_map_in_order_ex :
  option_map (map_results 2 (fun i => 10 * i)) (run 2 3 gsize_ex init sched_ex) = Some [0; 10; 20].
Proof. vm_compute. reflexivity. Qed.
