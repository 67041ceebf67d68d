(* Model of nbodykit/batch.py: splitting of ranks into worker groups and the
   master/worker task protocol. *)
From Verif Require Import Base.
Local Open Scope nat_scope.

(* ---------------------------------------------------------------- *)
(* split_ranks, batch.py:8-42                                        *)

(* numpy.array_split(l, k), k >= 1: the first len % k pieces have
   len / k + 1 items, the others len / k *)
Fixpoint array_split_from {A} (l : list A) (big : nat) (q : nat) (k : nat) : list (list A) :=
  match k with
  | O => []
  | S k => let n := match big with O => q | S _ => S q end in
           firstn n l :: array_split_from (skipn n l) (pred big) q k
  end.
Definition array_split {A} (l : list A) (k : nat) : list (list A) :=
  array_split_from l (length l mod k) (length l / k) k.

(* the yielded pairs (i, ranks), lines 25-42 *)
Definition split_groups (nranks n : nat) (include_all : bool) : list (nat * list nat) :=
  let available := seq 1 (nranks - 1) in
  let total := length available in
  let extra := total mod n in
  if include_all then
    let chunks := array_split available (Nat.max (total / n) 1) in
    combine (seq 0 (length chunks)) chunks
  else
    map (fun i => (i, firstn n (skipn (i * n) available))) (seq 0 (total / n)) ++
    let i := total / n in
    if (0 <? extra) && (n / 2 <=? extra) then
      let remove := extra mod 2 in
      let ranks := skipn (total - extra) available in          (* available[-extra:] *)
      let ranks := firstn (length ranks - remove) ranks in     (* ranks[:-remove] *)
      match ranks with [] => [] | _ => [(i + 1, ranks)] end
    else [].

(* N = 0 is a ZeroDivisionError (line 27) *)
Definition split_ranks (nranks n : nat) (include_all : bool) : res (list (nat * list nat)) :=
  if n =? 0 then Err ZeroDivisionError else Ok (split_groups nranks n include_all).

(* TaskManager.__enter__, batch.py:115-153: the colour passed to comm.Split by
   each rank; the later of two groups holding a rank would win (line 123) *)
Definition color_of (groups : list (nat * list nat)) (rank : nat) : nat :=
  fold_left (fun c g => if existsb (Nat.eqb rank) (snd g) then fst g + 1 else c) groups 0.

Definition enter_colors (nranks n : nat) (include_all : bool) : res (list nat) :=
  if nranks =? 1 then Err ValueError else                       (* 95-96 *)
  let! groups := split_ranks nranks n include_all in
  if length groups =? 0 then Err ValueError                     (* 130-131 *)
  else if nranks <=? length groups then Err ValueError          (* 141-143 *)
  else Ok (map (color_of groups) (seq 0 nranks)).

(* ---------------------------------------------------------------- *)
(* The protocol, batch.py:172-266                                     *)

(* messages; each carries its MPI tag *)
Inductive to_master := MReady | MDone (task : nat) | MExit.
Inductive to_worker := WStart (task : nat) | WExit.

(* control state of one worker group.  Running carries, for each member of the
   group, whether it has come back from the task (i.e. is at the Barrier, line 205).
   The bcast of lines 194-195 and the Barrier make the other members follow the
   group's master. *)
Inductive wstate :=
| WantReady                                  (* top of the while loop, 184 *)
| Waiting                                    (* blocked in recv, 191 *)
| Running (task : nat) (back : list bool)    (* 198-205 *)
| Exiting                                    (* after break, 213-215 *)
| Closed.                                    (* EXIT sent *)

Record state := {
  idx : nat;                              (* task_index of the master *)
  closed : nat;                           (* closed_workers *)
  tm : nat -> list to_master;             (* channel worker -> master, oldest first *)
  tw : nat -> list to_worker;             (* channel master -> worker *)
  ws : nat -> wstate;                     (* the worker groups *)
  sent : list nat;                        (* sent[i] = the worker that was given task i *)
  log : list (nat * nat * nat)            (* completed executions (worker, member, task) *)
}.

Definition upd {A} (f : nat -> A) (w : nat) (x : A) : nat -> A :=
  fun k => if k =? w then x else f k.

Definition init : state :=
  {| idx := 0; closed := 0; tm := fun _ => []; tw := fun _ => []; ws := fun _ => WantReady;
     sent := []; log := [] |}.

Fixpoint set_nth {A} (l : list A) (n : nat) (x : A) : list A :=
  match l, n with
  | [], _ => []
  | _ :: l, O => x :: l
  | y :: l, S n => y :: set_nth l n x
  end.

(* What can happen next; a schedule is any list of these. *)
Inductive action :=
| AReady (w : nat)            (* group master sends READY, 190 *)
| AMaster (w : nat)           (* the master receives the oldest message of worker w and answers, 239-266 *)
| ARecv (w : nat)             (* group master receives, 191-195 *)
| AMember (w m : nat)         (* member m of group w returns from the task *)
| ADone (w : nat)             (* all members at the Barrier; DONE is sent, 205-207 *)
| AExit (w : nat).            (* EXIT is sent, 214-216 *)

(* nworkers groups of the given sizes, ntasks tasks; None = not enabled.
   A blocking receive is enabled when a message is there; the master's loop
   ends when closed_workers reaches the number of workers (line 236). *)
Definition step (nworkers ntasks : nat) (gsize : nat -> nat) (s : state) (a : action) : option state :=
  match a with
  | AReady w =>
      if negb (w <? nworkers) then None else
      match ws s w with
      | WantReady => Some {| idx := idx s; closed := closed s; tm := upd (tm s) w (tm s w ++ [MReady]);
                             tw := tw s; ws := upd (ws s) w Waiting; sent := sent s; log := log s |}
      | _ => None
      end
  | AMaster w =>
      if negb (w <? nworkers) || negb (closed s <? nworkers) then None else
      match tm s w with
      | [] => None
      | MReady :: q =>
          if idx s <? ntasks then
            Some {| idx := S (idx s); closed := closed s; tm := upd (tm s) w q;
                    tw := upd (tw s) w (tw s w ++ [WStart (idx s)]); ws := ws s;
                    sent := sent s ++ [w]; log := log s |}
          else
            Some {| idx := idx s; closed := closed s; tm := upd (tm s) w q;
                    tw := upd (tw s) w (tw s w ++ [WExit]); ws := ws s;
                    sent := sent s; log := log s |}
      | MDone _ :: q =>
          Some {| idx := idx s; closed := closed s; tm := upd (tm s) w q; tw := tw s; ws := ws s;
                  sent := sent s; log := log s |}
      | MExit :: q =>
          Some {| idx := idx s; closed := S (closed s); tm := upd (tm s) w q; tw := tw s; ws := ws s;
                  sent := sent s; log := log s |}
      end
  | ARecv w =>
      if negb (w <? nworkers) then None else
      match ws s w, tw s w with
      | Waiting, WStart i :: q =>
          Some {| idx := idx s; closed := closed s; tm := tm s; tw := upd (tw s) w q;
                  ws := upd (ws s) w (Running i (repeat false (gsize w))); sent := sent s; log := log s |}
      | Waiting, WExit :: q =>
          Some {| idx := idx s; closed := closed s; tm := tm s; tw := upd (tw s) w q;
                  ws := upd (ws s) w Exiting; sent := sent s; log := log s |}
      | _, _ => None
      end
  | AMember w m =>
      if negb (w <? nworkers) then None else
      match ws s w with
      | Running i back =>
          match nth_error back m with
          | Some false =>
              Some {| idx := idx s; closed := closed s; tm := tm s; tw := tw s;
                      ws := upd (ws s) w (Running i (set_nth back m true)); sent := sent s;
                      log := log s ++ [(w, m, i)] |}
          | _ => None
          end
      | _ => None
      end
  | ADone w =>
      if negb (w <? nworkers) then None else
      match ws s w with
      | Running i back =>
          if forallb (fun b => b) back then
            Some {| idx := idx s; closed := closed s; tm := upd (tm s) w (tm s w ++ [MDone i]); tw := tw s;
                    ws := upd (ws s) w WantReady; sent := sent s; log := log s |}
          else None
      | _ => None
      end
  | AExit w =>
      if negb (w <? nworkers) then None else
      match ws s w with
      | Exiting => Some {| idx := idx s; closed := closed s; tm := upd (tm s) w (tm s w ++ [MExit]); tw := tw s;
                           ws := upd (ws s) w Closed; sent := sent s; log := log s |}
      | _ => None
      end
  end.

Fixpoint run (nworkers ntasks : nat) (gsize : nat -> nat) (s : state) (sched : list action) : option state :=
  match sched with
  | [] => Some s
  | a :: sched => match step nworkers ntasks gsize s a with
                  | Some s' => run nworkers ntasks gsize s' sched
                  | None => None
                  end
  end.

(* ---------------------------------------------------------------- *)
(* map(), batch.py:322-346                                            *)

(* results kept by the master of group w, in the order of execution *)
Definition group_results {R} (f : nat -> R) (s : state) (w : nat) : list (nat * R) :=
  map (fun e => (snd e, f (snd e)))
      (filter (fun e => (fst (fst e) =? w) && (snd (fst e) =? 0)) (log s)).

(* sorted(results, key=lambda x: x[0]): stable insertion sort by task number *)
Fixpoint insert_by {R} (x : nat * R) (l : list (nat * R)) : list (nat * R) :=
  match l with
  | [] => [x]
  | y :: l' => if fst x <=? fst y then x :: l else y :: insert_by x l'
  end.
Fixpoint sort_by {R} (l : list (nat * R)) : list (nat * R) :=
  match l with [] => [] | x :: l => insert_by x (sort_by l) end.

(* allgather in rank order, flatten, sort, strip the task numbers.  `f i` is the
   value of function(tasks[i]) *)
Definition map_results {R} (nworkers : nat) (f : nat -> R) (s : state) : list R :=
  map snd (sort_by (concat (map (group_results f s) (seq 0 nworkers)))).
