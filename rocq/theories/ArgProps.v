(* C355 - C359 *)
From Verif Require Import Base BaseProofs VisModel VisSpec VisProofs ArgModel ArgSpec ArgProofs.
From Coq Require Import QArith Qcanon.
Local Open Scope nat_scope.

Definition q (n : Z) : Qc := Q2Qc (inject_Z n).
Definition cube (n : Z) : list Qc := [q n; q n; q n].
Definition cat (cols : list nat) (x : option size) : source := {| s_comm := 0; s_cols := cols; s_box := x |}.

(* ---- C355: arguments of SurveyDataPairCount and SurveyData3PCF ---- *)
Theorem C355_pairs : forall C m first edges (cosmo : option C) second Nmu pimax ra dec redshift weight,
  s_comm (chosen first second) = s_comm first ->
  SurveyDataPairCount m first edges cosmo second Nmu pimax ra dec redshift weight = Ok tt <->
  countable m first edges cosmo second Nmu pimax ra dec redshift weight.
Proof. intros. apply survey_ok. assumption. Qed.
Print Assumptions C355_pairs.
Theorem C355_pairs_refused : forall C m first edges (cosmo : option C) second Nmu pimax ra dec redshift weight,
  s_comm (chosen first second) = s_comm first ->
  ~ countable m first edges cosmo second Nmu pimax ra dec redshift weight ->
  SurveyDataPairCount m first edges cosmo second Nmu pimax ra dec redshift weight = Err ValueError.
Proof.
  intros C m first edges cosmo second Nmu pimax ra dec redshift weight HC N. destruct (survey_ok m first edges cosmo second Nmu pimax ra dec redshift weight HC) as [A B].
  destruct (SurveyDataPairCount m first edges cosmo second Nmu pimax ra dec redshift weight) as [[]|e]; [exfalso; apply N, A; reflexivity|rewrite (B e eq_refl); reflexivity].
Qed.
Print Assumptions C355_pairs_refused.
Theorem C355_comm : forall C m first edges (cosmo : option C) second Nmu pimax ra dec redshift weight,
  s_comm (chosen first second) <> s_comm first ->
  SurveyDataPairCount m first edges cosmo second Nmu pimax ra dec redshift weight = Err AssertionError.
Proof.
  intros C m first edges cosmo second Nmu pimax ra dec redshift weight H. unfold SurveyDataPairCount, verify_columns. fold (chosen first second). destruct (Nat.eqb_spec (s_comm (chosen first second)) (s_comm first)); [contradiction|reflexivity].
Qed.
Print Assumptions C355_comm.
Theorem C355_triples : forall C src edges (cosmo : option C) ra dec redshift weight,
  let made := owns src ra /\ owns src dec /\ owns src redshift /\ owns src weight /\ edges <> [] /\ cosmo <> None in
  (SurveyData3PCF src edges cosmo ra dec redshift weight = Ok tt <-> made) /\
  (~ made -> SurveyData3PCF src edges cosmo ra dec redshift weight = Err ValueError).
Proof.
  intros C src edges cosmo ra dec redshift weight made. destruct (survey3_ok src edges cosmo ra dec redshift weight) as [A B]. split; [exact A|].
  intros N. destruct (SurveyData3PCF src edges cosmo ra dec redshift weight) as [[]|e]; [exfalso; apply N, A; reflexivity|rewrite (B e eq_refl); reflexivity].
Qed.
Print Assumptions C355_triples.
Example C355_ex :
  SurveyDataPairCount M2d (cat [0; 1; 2; 3] None) [q 1; q 10] (Some tt) (Some (cat [3; 2; 1; 0] None)) (Some 5%Z) None 0 1 2 3 = Ok tt /\
  SurveyDataPairCount (C := unit) M2d (cat [0; 1; 2; 3] None) [q 1; q 10] None None (Some 5%Z) None 0 1 2 3 = Err ValueError /\
  SurveyDataPairCount (C := unit) MAngular (cat [0; 1; 3] None) [q 1; q 10] None None None None 0 1 2 3 = Ok tt /\
  SurveyDataPairCount M1d (cat [0; 1; 3] None) [q 1; q 10] (Some tt) None None None 0 1 2 3 = Err ValueError /\
  SurveyData3PCF (cat [0; 1; 2; 3] None) [q 1; q 10] (Some tt) 0 1 2 3 = Ok tt /\
  SurveyData3PCF (C := unit) (cat [0; 1; 2; 3] None) [q 1; q 10] None 0 1 2 3 = Err ValueError.
Proof. repeat split; vm_compute; reflexivity. Qed.
Example C355_countable_ex : countable M2d (cat [0; 1; 2; 3] None) [q 1; q 10] (Some tt) (Some (cat [3; 2; 1; 0] None)) (Some 5%Z) None 0 1 2 3.
Proof. apply C355_pairs; [reflexivity|vm_compute; reflexivity]. Qed.

(* ---- C356: arguments of SimulationBox3PCF ---- *)
Theorem C356_made : forall src edges box periodic weight position o, has_sides src ->
  SimulationBox3PCF src edges box periodic weight position = Ok o <->
  owns src position /\ owns src weight /\ edges <> [] /\
  exists b, one_box src box b /\ (exists q, In q b /\ q <> 0%Qc) /\ (if periodic then o = Some b /\ within edges b else o = None).
Proof. intros. apply box3_ok. assumption. Qed.
Print Assumptions C356_made.
Theorem C356_refused : forall src edges box periodic weight position, has_sides src ->
  (forall o, SimulationBox3PCF src edges box periodic weight position <> Ok o) ->
  SimulationBox3PCF src edges box periodic weight position = Err ValueError.
Proof.
  intros src edges box periodic weight position HS N. destruct (box3_ok src edges box periodic weight position HS) as [_ B].
  destruct (SimulationBox3PCF src edges box periodic weight position) as [o|e]; [elim (N o); reflexivity|rewrite (B e eq_refl); reflexivity].
Qed.
Print Assumptions C356_refused.
Example C356_ex :
  has_sides (cat [0; 1] (Some (Vec (cube 100)))) /\
  SimulationBox3PCF (cat [0; 1] (Some (Vec (cube 100)))) [q 0; q 10; q 50] None true 0 1 = Ok (Some (cube 100)) /\
  SimulationBox3PCF (cat [0; 1] (Some (Vec (cube 100)))) [q 0; q 10; q 51] None true 0 1 = Err ValueError /\
  SimulationBox3PCF (cat [0; 1] (Some (Vec (cube 100)))) [q 0; q 10; q 51] (Some (Num (q 100))) false 0 1 = Ok None /\
  SimulationBox3PCF (cat [0; 1] (Some (Vec (cube 100)))) [q 0; q 10] (Some (Num (q 90))) true 0 1 = Err ValueError /\
  SimulationBox3PCF (cat [0] (Some (Vec (cube 100)))) [q 0; q 10] None true 0 1 = Err ValueError.
Proof. split; [intros x E; injection E as <-; exists (cube 100); split; reflexivity|]. repeat split; vm_compute; reflexivity. Qed.

(* ---- C357: arguments of CylindricalGroups, and its source afterwards ---- *)
Theorem C357_made : forall position src rankby los periodic box l b,
  cgm_checks position src rankby los periodic box = Ok (l, b) <-> groupable position src rankby los periodic box l b.
Proof. intros. apply cgm_ok. Qed.
Print Assumptions C357_made.
Theorem C357_refused : forall position src rankby los periodic box,
  (forall l b, ~ groupable position src rankby los periodic box l b) -> cgm_checks position src rankby los periodic box = Err ValueError.
Proof.
  intros position src rankby los periodic box N. destruct (cgm_ok position src rankby los periodic box) as [A B].
  destruct (cgm_checks position src rankby los periodic box) as [[l b]|e]; [exfalso; apply (N l b), A; reflexivity|rewrite (B e eq_refl); reflexivity].
Qed.
Print Assumptions C357_refused.
Theorem C357_source : forall V G origind (index : V) (work : columns V -> res G) t g,
  lookup t origind = None -> work (set_column t origind index) = Ok g ->
  lookup (set_column t origind index) origind = Some index /\
  exists t', cgm_run origind index work t = (t', Ok g) /\ alike t' t.
Proof.
  intros V G origind index work t g HN HW. split; [unfold lookup; cbn; rewrite Nat.eqb_refl; reflexivity|]. exact (run_alike origind index work t g HN HW).
Qed.
Print Assumptions C357_source.
Example C357_ex :
  cgm_checks 0 (cat [0; 1; 2] (Some (Vec (cube 100)))) (RankOne 2) (Some (Vec [q 0; q 0; q 1])) true None = Ok ([2], Some (cube 100)) /\
  cgm_checks 0 (cat [0; 1; 2] None) (RankList [2; 1]) None true (Some (Num (q 9))) = Ok ([2; 1], Some (cube 9)) /\
  cgm_checks 0 (cat [0; 1; 2] None) RankNone None true None = Err ValueError /\
  cgm_checks 0 (cat [0; 1; 2] None) RankNone None false None = Ok ([], None) /\
  cgm_checks 0 (cat [0; 1; 2] None) (RankOne 5) None false None = Err ValueError /\
  cgm_checks 0 (cat [0; 1; 2] None) RankNone (Some (Vec [q 0; q 0; q 2])) false None = Err ValueError /\
  cgm_checks 0 (cat [0; 1; 2] None) RankNone (Some (Num (q 1))) false None = Err ValueError.
Proof. repeat split; vm_compute; reflexivity. Qed.
Example C357_source_ex :
  cgm_run 7 100 (fun t => match lookup t 7 with Some i => Ok i | None => Err KeyError end) (Columns [(0, 1)] [(3, 4)] [(5, 6)])
    = (Columns [(0, 1)] [(3, 4)] [(5, 6)], Ok 100).
Proof. reflexivity. Qed.

(* ---- C358: the keyword BoxSize is used ---- *)
Theorem C358_keyword_refuted : exists position src rankby los periodic box l b,
  periodic = true /\ cgm_checks position src rankby los periodic (Some box) = Ok (l, Some b) /\ ~ stands box b.
Proof.
  exists 0, (cat [0] (Some (Vec (cube 100)))), RankNone, (Some (Vec [q 0; q 0; q 1])), true, (Num (q 50)), [], (cube 100).
  split; [reflexivity|]. split; [vm_compute; reflexivity|]. cbn. intros H. injection H as H. discriminate H.
Qed.
Print Assumptions C358_keyword_refuted.

(* ---- C359: the source is left as it was ---- *)
Theorem C359_source_refuted :
  (exists t (work : columns nat -> res unit) t', cgm_run 7 100 work t = (t', Ok tt) /\ ~ alike t' t) /\
  (exists t (work : columns nat -> res unit), (forall t, is_ok (work t) = true) /\ cgm_run 7 100 work t = (set_column t 7 100, Err ValueError) /\ ~ alike (set_column t 7 100) t) /\
  (exists t (work : columns nat -> res unit) t' e, lookup t 7 = None /\ cgm_run 7 100 work t = (t', Err e) /\ ~ alike t' t).
Proof.
  split; [|split].
  - exists (Columns [(0, 1)] [(7, 4)] []), (fun _ => Ok tt), (Columns [(0, 1)] [] []). split; [reflexivity|]. intros H. discriminate (H 7).
  - exists (Columns [(7, 1)] [] []), (fun _ => Ok tt). split; [reflexivity|]. split; [reflexivity|]. intros H. discriminate (H 7).
  - exists (Columns [(0, 1)] [] []), (fun _ => Err ValueError), (Columns [(0, 1)] [(7, 100)] []), ValueError. split; [reflexivity|]. split; [reflexivity|]. intros H. discriminate (H 7).
Qed.
Print Assumptions C359_source_refuted.
