From Verif Require Import Base Num PairModel TpcfModel TpcfProofs.
From Coq Require Import String.
Local Open Scope Z_scope.
Local Notation length := List.length.

(* the estimate of bin i from the counts: each count relative to its total *)
Definition estimate_of (DD DR RD RR : pcounts) (i : nat) (xi : num) : Prop :=
  forall a b c d, nth_error (c_bins DD) i = Some a -> nth_error (c_bins DR) i = Some b -> nth_error (c_bins RD) i = Some c -> nth_error (c_bins RR) i = Some d ->
    (fst d <= 0 -> xi = None) /\
    (0 < fst d -> snd d <> 0%Qc -> exists x, xi = Some x /\
       (x * (snd d / c_total RR) = snd a / c_total DD - snd b / c_total DR - snd c / c_total RD + snd d / c_total RR)%Qc).
Lemma ls_nth tDD tDR tRD tRR : forall DD DR RD RR i a b c d, nth_error DD i = Some a -> nth_error DR i = Some b -> nth_error RD i = Some c -> nth_error RR i = Some d ->
  nth_error (ls_bins tDD tDR tRD tRR DD DR RD RR) i = Some (landy_szalay tDD tDR tRD tRR (snd a) (snd b) (snd c) (fst d) (snd d)).
Proof.
  induction DD as [|x DD IH]; intros [|y DR] [|z RD] [|w RR] [|i] a b c d A B C D; try discriminate; cbn [nth_error ls_bins] in *; [|apply IH; assumption]. injection A as <-. injection B as <-. injection C as <-. injection D as <-. reflexivity.
Qed.
Lemma ls_length tDD tDR tRD tRR n : forall DD DR RD RR, length DD = n -> length DR = n -> length RD = n -> length RR = n -> length (ls_bins tDD tDR tRD tRR DD DR RD RR) = n.
Proof. induction n as [|n IH]; intros [|x DD] [|y DR] [|z RD] [|w RR] A B C D; try discriminate; [reflexivity|]. cbn [ls_bins length]. f_equal. apply IH; cbn [length] in *; lia. Qed.

Section Counts.
Variable count : nat -> option nat -> pcounts.
Variable natural_of : pcounts -> nat -> option nat -> pcounts * list num.
Variable n : nat.
Hypothesis shape : forall a b, length (c_bins (count a b)) = n.
Hypothesis totals : forall a b, c_total (count a b) <> 0%Qc.

Lemma run_landy periodic restrict d1 d2 r1 r2 :
  exists t, run count natural_of periodic restrict d1 d2 (Some r1) r2 None = Ok t /\
    let rr := match r2 with Some r => r | None => r1 end in
    let D1R2 := count d1 (Some rr) in let D2R1 := match d2 with Some d => count d (Some r1) | None => D1R2 end in
    t_D1D2 t = count d1 d2 /\ t_D1R2 t = Some D1R2 /\ t_D2R1 t = Some D2R1 /\ t_R1R2 t = count r1 (Some rr) /\ length (t_corr t) = n /\
    forall i xi, nth_error (t_corr t) i = Some xi -> estimate_of (count d1 d2) D1R2 D2R1 (count r1 (Some rr)) i xi.
Proof.
  assert (E : run count natural_of periodic restrict d1 d2 (Some r1) r2 None = Ok (LandySzalay count d1 d2 r1 r2 None)).
  { unfold run. destruct periodic as [[|]|], d2, r2; reflexivity. }
  rewrite E. eexists. split; [reflexivity|]. cbv zeta. unfold LandySzalay. cbn [t_D1D2 t_D1R2 t_D2R1 t_R1R2 t_corr]. do 4 (split; [reflexivity|]).
  split; [apply ls_length; try apply shape; destruct d2; apply shape|].
  intros i xi X a b c d A B C D. rewrite (ls_nth _ _ _ _ _ _ _ _ i a b c d A B C D) in X. injection X as <-. unfold landy_szalay. split; intros H.
  - destruct (0 <? fst d) eqn:Q; [lia|reflexivity].
  - intros NZ. destruct (0 <? fst d) eqn:Q; [|lia]. eexists. split; [reflexivity|]. field. repeat split; try exact NZ; try apply totals. destruct d2; apply totals.
Qed.
Lemma run_swap periodic restrict d1 d2 r1 r2 t t' : (forall a b, count a (Some b) = count b (Some a)) ->
  run count natural_of periodic restrict d1 (Some d2) (Some r1) (Some r2) None = Ok t -> run count natural_of periodic restrict d2 (Some d1) (Some r2) (Some r1) None = Ok t' ->
  t_corr t' = t_corr t /\ t_D1R2 t' = t_D2R1 t /\ t_D2R1 t' = t_D1R2 t.
Proof.
  intros SY A B. assert (E : forall d1 d2 r1 r2, run count natural_of periodic restrict d1 (Some d2) (Some r1) (Some r2) None = Ok (LandySzalay count d1 (Some d2) r1 (Some r2) None)) by (intros; destruct periodic as [[|]|]; reflexivity).
  rewrite E in A, B. injection A as <-. injection B as <-. unfold LandySzalay. cbn [t_corr t_D1R2 t_D2R1]. split; [|split; reflexivity].
  rewrite (SY d2 d1), (SY r2 r1). generalize (c_bins (count d1 (Some d2))) (c_bins (count d1 (Some r2))) (c_bins (count d2 (Some r1))) (c_bins (count r1 (Some r2))).
  assert (L : forall tD tA tB tR (DD DR RD RR : list (Z * Qc)), ls_bins tD tB tA tR DD RD DR RR = ls_bins tD tA tB tR DD DR RD RR).
  { intros tD tA tB tR. induction DD as [|x DD IH]; intros [|y DR] [|z RD] [|w RR]; try reflexivity. cbn [ls_bins]. rewrite IH. f_equal. unfold landy_szalay. destruct (0 <? fst w); [|reflexivity]. f_equal. f_equal. f_equal. ring. }
  intros. apply L.
Qed.
End Counts.
Lemma run_same count natural_of periodic restrict d1 r1 : (forall a, count a (Some a) = count a None) ->
  run count natural_of periodic restrict d1 (Some d1) (Some r1) None None = run count natural_of periodic restrict d1 None (Some r1) None None.
Proof. intros S. destruct periodic as [[|]|]; unfold run, LandySzalay; rewrite S; reflexivity. Qed.
Lemma run_reuse count natural_of periodic restrict d1 d2 r1 r2 t : run count natural_of periodic restrict d1 d2 (Some r1) r2 None = Ok t ->
  run count natural_of periodic restrict d1 d2 (Some r1) r2 (Some (t_R1R2 t)) = Ok t.
Proof. destruct periodic as [[|]|], d2, r2; unfold run, LandySzalay; intros E; injection E as <-; reflexivity. Qed.
Lemma run_given count natural_of n periodic restrict d1 d2 r1 r2 RR :
  (forall a b, length (c_bins (count a b)) = n) -> (forall a b, c_total (count a b) <> 0%Qc) -> length (c_bins RR) = n -> c_total RR <> 0%Qc ->
  exists t, run count natural_of periodic restrict d1 d2 (Some r1) r2 (Some RR) = Ok t /\
    let rr := match r2 with Some r => r | None => r1 end in
    let D1R2 := count d1 (Some rr) in let D2R1 := match d2 with Some d => count d (Some r1) | None => D1R2 end in
    t_D1D2 t = count d1 d2 /\ t_D1R2 t = Some D1R2 /\ t_D2R1 t = Some D2R1 /\ t_R1R2 t = RR /\ length (t_corr t) = n /\
    forall i xi, nth_error (t_corr t) i = Some xi -> estimate_of (count d1 d2) D1R2 D2R1 RR i xi.
Proof.
  intros shape totals SR TR. assert (E : run count natural_of periodic restrict d1 d2 (Some r1) r2 (Some RR) = Ok (LandySzalay count d1 d2 r1 r2 (Some RR))).
  { unfold run. destruct periodic as [[|]|], d2, r2; reflexivity. }
  rewrite E. eexists. split; [reflexivity|]. cbv zeta. unfold LandySzalay. cbn [t_D1D2 t_D1R2 t_D2R1 t_R1R2 t_corr]. do 4 (split; [reflexivity|]).
  split; [apply ls_length; try apply shape; try exact SR; destruct d2; apply shape|].
  intros i xi X a b c d A B C D. rewrite (ls_nth _ _ _ _ _ _ _ _ i a b c d A B C D) in X. injection X as <-. unfold landy_szalay. split; intros H.
  - destruct (0 <? fst d) eqn:Q; [lia|reflexivity].
  - intros NZ. destruct (0 <? fst d) eqn:Q; [|lia]. eexists. split; [reflexivity|]. field. repeat split; try exact NZ; try exact TR; try apply totals. destruct d2; apply totals.
Qed.
Lemma run_refused count natural_of periodic restrict d1 d2 r2 R : periodic <> Some true -> run count natural_of periodic restrict d1 d2 None r2 R = Err ValueError.
Proof. intros H. destruct periodic as [[|]|]; [contradiction H; reflexivity|reflexivity|reflexivity]. Qed.

(* ---- disk ---- *)
Definition same_stat (a b : stat) : Prop := st_dims a = st_dims b /\ st_edges a = st_edges b /\ st_data a = st_data b.
Lemma option_forall2 (l : list (option stat)) dims edges : (forall c, In (Some c) l -> st_dims c = dims /\ st_edges c = edges) ->
  Forall2 (fun a b => match a, b with Some x, Some y => same_stat x y | None, None => True | _, _ => False end) (map (option_map (fun d => statistic dims edges d [])) (map (option_map st_data) l)) l.
Proof.
  induction l as [|c l IH]; intros H; [constructor|]. cbn [map]. constructor; [|apply IH; intros x X; apply H; right; exact X].
  destruct c as [c|]; [|exact I]. destruct (H c (or_introl eq_refl)) as [<- <-]. repeat split.
Qed.
Lemma saved_ok r : (forall c, In (Some c) (r_counts r) -> st_dims c = st_dims (r_corr r) /\ st_edges c = st_edges (r_corr r)) ->
  (forall w, r_wp r = Some w -> st_dims w = firstn 1 (st_dims (r_corr r)) /\ st_edges w = firstn 1 (st_edges (r_corr r))) ->
  let out := setstate (getstate r) in
  same_stat (r_corr out) (r_corr r) /\ match r_wp out, r_wp r with Some a, Some b => same_stat a b | None, None => True | _, _ => False end /\
  Forall2 (fun a b => match a, b with Some x, Some y => same_stat x y | None, None => True | _, _ => False end) (r_counts out) (r_counts r).
Proof.
  intros C W. cbv zeta. unfold setstate, getstate. cbn [r_corr r_wp r_counts s_corr s_dims s_edges s_wp s_counts]. split; [repeat split|]. split.
  - destruct (r_wp r) as [w|]; [|exact I]. cbn [option_map]. destruct (W w eq_refl) as [A B]. unfold same_stat, statistic. cbn [st_dims st_edges st_data]. auto.
  - apply option_forall2. exact C.
Qed.
Lemma qint_succ p : (0 <= p)%Qc -> Z.to_nat (qint (p + 1)%Qc) = (Z.to_nat (qint p) + 1)%nat.
Proof.
  intros H. unfold qint. assert (E : Qround.Qfloor (this (p + 1)%Qc) = Qround.Qfloor (this p) + 1).
  { unfold Qcplus. cbn [this Q2Qc]. rewrite Qred_correct. change (this 1%Qc) with (1 # 1)%Q. destruct (this p) as [a b]. unfold Qround.Qfloor, Qplus. cbn [Qnum Qden]. rewrite Z.mul_1_r, Pos.mul_1_r. apply (Z.div_add a 1 (Z.pos b)). lia. }
  rewrite E. assert (0 <= Qround.Qfloor (this p)). { change 0 with (Qround.Qfloor 0). apply Qround.Qfloor_resp_le. exact H. } lia.
Qed.
Lemma pairs_saved mode edges Nmu pimax data total s : (forall p, pimax = Some p -> (0 <= p)%Qc) -> counted mode edges Nmu pimax data total = Ok s ->
  exists s', pc_setstate mode edges Nmu pimax (st_data s) = Ok s' /\ same_stat s' s /\ st_sum s' = st_sum s.
Proof.
  intros P H. unfold counted, pc_setstate in *. destruct mode, Nmu as [m|], pimax as [p|]; try discriminate; injection H as <-; (eexists; split; [reflexivity|]); cbn [st_data]; unfold same_stat, statistic; cbn [st_dims st_edges st_data st_sum]; try (repeat split; fail);
    rewrite qint_succ by (apply P; reflexivity); repeat split.
Qed.
