(* C362, C363 *)
From Verif Require Import Base BaseProofs ItbModel.
Local Open Scope nat_scope.

(* what a loop over the tasks gives in python *)
Definition items (t : tasks) : list nat :=
  match t with Sequence l | Generator l | SetOf l => l | Dictionary l => map fst l end.
(* every request is answered by the next item with its number, and by Exit when there is none *)
Definition handed (l : list nat) (r : list reply) : Prop :=
  forall i a, nth_error r i = Some a -> match nth_error l i with Some x => a = Start i x | None => a = Exit end.

Lemma serve_seq l : forall k i, i <= length l -> exists r, serve (Sequence l) (length l) i k = Ok r /\ length r = k /\
  forall j a, nth_error r j = Some a -> match nth_error l (i + j) with Some x => a = Start (i + j) x | None => a = Exit end.
Proof.
  induction k as [|k IH]; intros i Hi; [exists []; split; [reflexivity|]; split; [reflexivity|intros [|j] a H; discriminate H]|].
  cbn [serve]. destruct (Nat.ltb_spec i (length l)) as [L|L].
  - cbn [py_getitem]. destruct (nth_error l i) as [x|] eqn:E; [|apply nth_error_None in E; lia]. cbn [rbind].
    destruct (IH (S i) ltac:(lia)) as (r & -> & HL & H). cbn [rbind]. eexists. split; [reflexivity|]. split; [cbn; congruence|]. intros [|j] a Ha.
    + injection Ha as <-. rewrite Nat.add_0_r, E. reflexivity.
    + cbn in Ha. specialize (H j a Ha). replace (i + S j) with (S i + j) by lia. exact H.
  - destruct (IH i Hi) as (r & -> & HL & H). cbn [rbind]. eexists. split; [reflexivity|]. split; [cbn; congruence|]. intros [|j] a Ha.
    + injection Ha as <-. rewrite Nat.add_0_r. destruct (nth_error l i) eqn:E; [|reflexivity]. apply nth_error_None in L. congruence.
    + cbn in Ha. specialize (H j a Ha). destruct (nth_error l (i + S j)) eqn:E; [assert (i + S j < length l) by (apply nth_error_Some; congruence); lia|].
      destruct (nth_error l (i + j)) eqn:F; [assert (i + j < length l) by (apply nth_error_Some; congruence); lia|exact H].
Qed.

(* ---- C362: which tasks can be handed out ---- *)
Theorem C362_sequence : forall l k, exists r, distribute_tasks (Sequence l) k = Ok r /\ length r = k /\ handed (items (Sequence l)) r.
Proof.
  intros l k. destruct (serve_seq l k 0 (Nat.le_0_l _)) as (r & E & L & H). exists r. split; [exact E|]. split; [exact L|]. exact H.
Qed.
Print Assumptions C362_sequence.
Theorem C362_others : forall l k, distribute_tasks (Generator l) k = Err TypeError /\
  (l <> [] -> 0 < k -> distribute_tasks (SetOf l) k = Err TypeError) /\
  (forall d, d <> [] -> 0 < k -> (forall v, ~ In (0, v) d) -> distribute_tasks (Dictionary d) k = Err KeyError).
Proof.
  intros l k. split; [reflexivity|]. split.
  - intros N K. destruct l as [|x l]; [congruence|]. destruct k as [|k]; [lia|]. reflexivity.
  - intros d N K H. destruct d as [|[a v] d]; [congruence|]. destruct k as [|k]; [lia|]. unfold distribute_tasks. cbn [py_len rbind serve length Nat.ltb Nat.leb py_getitem].
    assert (E : forall m, (forall v, ~ In (0, v) m) -> assoc 0 m = None).
    { induction m as [|[b w] m IH]; intros M; [reflexivity|]. cbn. destruct (Nat.eqb_spec b 0) as [->|_]; [elim (M w); left; reflexivity|]. apply IH. intros u Hu. apply (M u). right. exact Hu. }
    rewrite (E _ H). reflexivity.
Qed.
Print Assumptions C362_others.
Example C362_ex : distribute_tasks (Sequence [7; 8; 9]) 5 = Ok [Start 0 7; Start 1 8; Start 2 9; Exit; Exit] /\
  distribute_tasks (Generator [7; 8; 9]) 5 = Err TypeError /\ distribute_tasks (SetOf [7; 8; 9]) 5 = Err TypeError /\
  distribute_tasks (Dictionary [(7, 1); (8, 2)]) 5 = Err KeyError.
Proof. repeat split. Qed.

(* ---- C363: tasks may be any iterable, as documented ---- *)
Theorem C363_iterable_refuted :
  (exists t k e, items t <> [] /\ distribute_tasks t k = Err e) /\
  (exists t k r, distribute_tasks t k = Ok r /\ ~ handed (items t) r).
Proof.
  split; [exists (Generator [7; 8]), 1, TypeError; split; [discriminate|reflexivity]|].
  exists (Dictionary [(0, 7); (1, 8)]), 2, [Start 0 7; Start 1 8]. split; [reflexivity|]. intros H. specialize (H 0 _ eq_refl). discriminate H.
Qed.
Print Assumptions C363_iterable_refuted.
