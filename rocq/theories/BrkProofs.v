(* Executions in which a group leaves the loop. *)
From Verif Require Import Base BaseProofs BatchModel BatchProto BrkModel.
Local Open Scope nat_scope.

Section Brk.
Variables (nw nt : nat) (g : nat -> nat) (G : nat).
Hypothesis HG : forall w, w < nw -> g w <= G.
Record binv (b : bstate) : Prop := {
  b_base : inv nw nt g (base b);
  b_nodup : NoDup (quit b);
  b_quit : forall w, In w (quit b) -> w < nw /\ exists i back, ws (base b) w = Running i back }.
Lemma gone_iff b w : gone b w = true <-> In w (quit b).
Proof. unfold gone. rewrite existsb_exists. split; [intros (x & I & E); apply Nat.eqb_eq in E; subst x; exact I|intros I; exists w; split; [exact I|apply Nat.eqb_refl]]. Qed.
(* a step changes the state of its actor only *)
Lemma step_ws s a s' : step nw nt g s a = Some s' -> forall w, actor a <> Some w -> ws s' w = ws s w.
Proof.
  intros H w N. destruct a as [v|v|v|v m|v|v]; cbn [step actor] in *;
    repeat match type of H with
    | (if ?x then _ else _) = _ => destruct x; try discriminate H
    | match ?x with _ => _ end = _ => destruct x; try discriminate H
    end; injection H as <-; cbn [ws]; try reflexivity; unfold upd; destruct (Nat.eqb_spec w v); congruence.
Qed.
Lemma binv_step b a b' : binv b -> bstep nw nt g b a = Some b' -> binv b'.
Proof.
  intros [A B C] H. destruct a as [a|w]; cbn [bstep] in H.
  - destruct (match actor a with Some w => gone b w | None => false end) eqn:E; [discriminate H|]. destruct (step nw nt g (base b) a) as [s|] eqn:ES; [|discriminate H]. injection H as <-. constructor; cbn [base quit].
    + exact (inv_step nw nt g _ _ _ A ES).
    + exact B.
    + intros w I. destruct (C w I) as (L & i & back & R0). split; [exact L|]. exists i, back. rewrite (step_ws _ _ _ ES); [exact R0|]. intros EA. rewrite EA in E. apply gone_iff in I. congruence.
  - destruct (negb (w <? nw) || gone b w) eqn:E; [discriminate H|]. apply orb_false_elim in E. destruct E as [E1 E2]. destruct (ws (base b) w) as [| |i back| |] eqn:EW; try discriminate H. injection H as <-. constructor; cbn [base quit].
    + exact A.
    + constructor; [|exact B]. intros I. apply gone_iff in I. congruence.
    + intros v [<-|I]; [|exact (C v I)]. split; [destruct (Nat.ltb_spec w nw); [assumption|discriminate E1]|]. exists i, back. exact EW.
Qed.
Lemma binv_run sched : forall b b', binv b -> brun nw nt g b sched = Some b' -> binv b'.
Proof.
  induction sched as [|a sched IH]; intros b b' I H; cbn [brun] in H; [injection H as <-; exact I|]. destruct (bstep nw nt g b a) as [c|] eqn:E; [|discriminate H]. exact (IH c b' (binv_step _ _ _ I E) H).
Qed.
Lemma binv_init : binv binit.
Proof. constructor; cbn [base quit binit]; [apply inv_init|constructor|intros w []]. Qed.
Lemma quit_grows sched : forall b b', brun nw nt g b sched = Some b' -> incl (quit b) (quit b').
Proof.
  induction sched as [|a sched IH]; intros b b' H; cbn [brun] in H; [injection H as <-; apply incl_refl|]. destruct (bstep nw nt g b a) as [c|] eqn:E; [|discriminate H]. eapply incl_tran; [|exact (IH _ _ H)].
  destruct a as [a|w]; cbn [bstep] in E.
  - destruct (match actor a with Some w => gone b w | None => false end); [discriminate E|]. destruct (step nw nt g (base b) a); [|discriminate E]. injection E as <-. apply incl_refl.
  - destruct (negb (w <? nw) || gone b w); [discriminate E|]. destruct (ws (base b) w); try discriminate E. injection E as <-. cbn [quit]. apply incl_tl, incl_refl.
Qed.
Lemma leave_quits sched : forall b b' w, brun nw nt g b sched = Some b' -> In (Leave w) sched -> In w (quit b').
Proof.
  induction sched as [|a sched IH]; intros b b' w H I; [destruct I|]. cbn [brun] in H. destruct (bstep nw nt g b a) as [c|] eqn:E; [|discriminate H]. destruct I as [->|I]; [|exact (IH _ _ _ H I)].
  cbn [bstep] in E. destruct (negb (w <? nw) || gone b w); [discriminate E|]. destruct (ws (base b) w); try discriminate E. injection E as <-. apply (quit_grows _ _ _ H). left. reflexivity.
Qed.
Lemma never b w : binv b -> In w (quit b) -> closed (base b) < nw.
Proof.
  intros [A B C] I. destruct (C w I) as (L & i & back & R0). destruct A as [_ _ _ _ HC _]. rewrite HC. assert (LE := sum_le_full (is_closed (base b)) nw (fun w _ => is_closed_le (base b) w)).
  destruct (Nat.eq_dec (nsum (map (is_closed (base b)) (seq 0 nw))) nw) as [E|NE]; [|lia]. assert (F := sum_full_all (is_closed (base b)) nw (is_closed_le (base b)) E w L). unfold is_closed in F. rewrite R0 in F. discriminate F.
Qed.
Lemma brun_bounded sched : forall b b', binv b -> brun nw nt g b sched = Some b' -> length sched + mu nw nt g G (base b') + (nw - length (quit b')) <= mu nw nt g G (base b) + (nw - length (quit b)).
Proof.
  induction sched as [|a sched IH]; intros b b' I H; cbn [brun] in H; [injection H as <-; cbn [length]; lia|]. destruct (bstep nw nt g b a) as [c|] eqn:E; [|discriminate H]. assert (IC := binv_step _ _ _ I E). specialize (IH _ _ IC H). cbn [length].
  destruct a as [a|w]; cbn [bstep] in E.
  - destruct (match actor a with Some w => gone b w | None => false end); [discriminate E|]. destruct (step nw nt g (base b) a) as [s|] eqn:ES; [|discriminate E]. injection E as <-. cbn [base quit] in *. apply (mu_step nw nt g G HG) in ES. lia.
  - destruct (negb (w <? nw) || gone b w); [discriminate E|]. destruct (ws (base b) w); try discriminate E. injection E as <-. cbn [base quit length] in *.
    assert (LE : length (w :: quit b) <= length (seq 0 nw)). { apply NoDup_incl_length; [exact (b_nodup _ IC)|]. intros v V. apply in_seq. destruct (b_quit _ IC v V) as [V1 _]. lia. } rewrite seq_length in LE. cbn [length] in LE. lia.
Qed.
Lemma always sched b w : brun nw nt g binit sched = Some b -> In (Leave w) sched -> closed (base b) < nw /\ length sched <= nt * (G + 5) + 6 * nw.
Proof.
  intros H I. assert (IB := binv_run _ _ _ binv_init H). split; [exact (never b w IB (leave_quits _ _ _ _ H I))|].
  apply brun_bounded in H; [|exact binv_init]. cbn [base quit binit length] in H. rewrite (mu_init nw nt g G HG) in H. lia.
Qed.
(* without leaving the executions are those of BatchModel *)
Lemma stay sched : forall b, quit b = [] -> brun nw nt g b (map Do sched) = match run nw nt g (base b) sched with Some s => Some {| base := s; quit := [] |} | None => None end.
Proof.
  induction sched as [|a sched IH]; intros b Q; cbn [map brun run]; [rewrite <- Q; destruct b; reflexivity|]. cbn [bstep]. replace (match actor a with Some w => gone b w | None => false end) with false by (unfold gone; rewrite Q; destruct (actor a); reflexivity).
  destruct (step nw nt g (base b) a) as [s|]; [|reflexivity]. apply (IH {| base := s; quit := quit b |}). exact Q.
Qed.
End Brk.
