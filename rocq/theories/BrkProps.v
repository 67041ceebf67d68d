(* C338, C339 *)
From Verif Require Import Base BaseProofs BatchModel BatchProto BrkModel BrkProofs.
Local Open Scope nat_scope.

(* ---- C338: a loop over iterate that is left early ends ---- *)
(* the root stays in its loop in every continuation, and every continuation is finite *)
Theorem C338_break_refuted : exists nw nt g sched b, brun nw nt g binit sched = Some b /\ In (Leave 0) sched /\ log (base b) = [] /\ 1 <= nw /\
  (forall more b', brun nw nt g binit (sched ++ more) = Some b' -> closed (base b') < nw /\ length (sched ++ more) <= nt * 6 + 6 * nw) /\
  forall a, bstep nw nt g b a = None.
Proof.
  exists 1, 2, (fun _ => 1), [Do (AReady 0); Do (AMaster 0); Do (ARecv 0); Leave 0]. eexists. split; [reflexivity|]. split; [cbn; auto|]. split; [reflexivity|]. split; [lia|]. split.
  - intros more b' H. assert (A := always 1 2 (fun _ => 1) 1 (fun _ _ => le_n 1) _ b' 0 H ltac:(cbn; auto)). lia.
  - intros [a|w]; [|destruct w as [|w]; reflexivity]. destruct a as [w|w|w|w m|w|w]; destruct w as [|w]; reflexivity.
Qed.
Print Assumptions C338_break_refuted.

(* ---- C339: what leaving early does to all executions ---- *)
Theorem C339_waits : forall nw nt g G, (forall w, w < nw -> g w <= G) -> forall sched b w, brun nw nt g binit sched = Some b -> In (Leave w) sched ->
  closed (base b) < nw /\ length sched <= nt * (G + 5) + 6 * nw.
Proof. exact always. Qed.
Print Assumptions C339_waits.
Theorem C339_others : forall nw nt g sched, brun nw nt g binit (map Do sched) = match run nw nt g init sched with Some s => Some {| base := s; quit := [] |} | None => None end.
Proof. intros nw nt g sched. apply stay. reflexivity. Qed.
Print Assumptions C339_others.
(* two groups; the first leaves in its first task, the second finishes the others *)
Example C339_ex : match brun 2 3 (fun _ => 1) binit [Do (AReady 1); Do (AReady 0); Do (AMaster 0); Do (ARecv 0); Leave 0; Do (AMaster 1); Do (ARecv 1); Do (AMember 1 0); Do (ADone 1); Do (AReady 1); Do (AMaster 1); Do (AMaster 1); Do (ARecv 1);
    Do (AMember 1 0); Do (ADone 1); Do (AReady 1); Do (AMaster 1); Do (AMaster 1); Do (ARecv 1); Do (AExit 1); Do (AMaster 1)] with
  | Some b => closed (base b) = 1 /\ log (base b) = [(1, 0, 1); (1, 0, 2)] /\ quit b = [0] | None => False end.
Proof. vm_compute. repeat split; reflexivity. Qed.
