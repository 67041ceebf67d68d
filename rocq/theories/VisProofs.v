(* Proofs about the checks of the pair counts in a box. *)
From Verif Require Import Base BaseProofs VisModel VisSpec.
From Coq Require Import QArith Qcanon.
Local Open Scope nat_scope.

Lemma qeq_iff x y : Qc_eq_bool x y = true <-> x = y.
Proof. split; [apply Qc_eq_bool_correct|]. intros ->. unfold Qc_eq_bool. destruct (Qc_eq_dec y y); congruence. Qed.
Lemma qle_iff x y : qle x y = true <-> (x <= y)%Qc.
Proof. unfold qle. rewrite Qcle_alt. destruct (x ?= y)%Qc; split; congruence. Qed.
Lemma same_items_iff a : forall b, same_items a b = true <-> a = b.
Proof.
  induction a as [|x a IH]; intros [|y b]; cbn; try (split; congruence). rewrite andb_true_iff, qeq_iff, IH. split; [intros [-> ->]; reflexivity|intros H; injection H as -> ->; auto].
Qed.
Lemma all_equal_sides l m : length l = 3 -> length m = 3 -> all_equal (Vec l) (Vec m) = true <-> l = m.
Proof.
  intros Hl Hm. destruct l as [|? [|? [|? [|? ?]]]]; try discriminate Hl. destruct m as [|? [|? [|? [|? ?]]]]; try discriminate Hm. apply same_items_iff.
Qed.
Lemma has_cols_iff s cols : has_cols s cols = true <-> forall c, In c cols -> In c (s_cols s).
Proof.
  unfold has_cols. rewrite forallb_forall. split; intros H c Hc; specialize (H c Hc).
  - apply existsb_exists in H. destruct H as (d & Hd & E). apply Nat.eqb_eq in E. subst. exact Hd.
  - apply existsb_exists. exists c. split; [exact H|apply Nat.eqb_refl].
Qed.
Lemma into3_iff l b : into3 l = Ok b <-> stands (Vec l) b.
Proof.
  cbn [stands]. split.
  - destruct l as [|x [|y [|z [|? ?]]]]; try discriminate; cbn [into3]; intros H; injection H as <-; [right; eauto|left; auto].
  - intros [[H ->]|(q & -> & ->)]; [|reflexivity]. destruct l as [|x [|y [|z [|? ?]]]]; try discriminate H. reflexivity.
Qed.
Lemma into3_else l : (exists b, into3 l = Ok b /\ length b = 3) \/ into3 l = Err ValueError.
Proof. destruct l as [|x [|y [|z [|? ?]]]]; cbn [into3]; eauto. Qed.
Lemma assign_iff x b : assign x = Ok b <-> stands x b.
Proof. destruct x; [|apply into3_iff]. cbn. split; [intros H; injection H as <-; reflexivity|intros ->; reflexivity]. Qed.
Lemma assign_else x : (exists b, assign x = Ok b /\ length b = 3) \/ assign x = Err ValueError.
Proof. destruct x; [left; cbn; eauto|apply into3_else]. Qed.
Lemma zero_iff b : forallb (Qc_eq_bool 0%Qc) b = false <-> exists q, In q b /\ q <> 0%Qc.
Proof.
  induction b as [|x b IH]; cbn [forallb]; [split; [discriminate|intros (q & [] & _)]|]. rewrite andb_false_iff, IH. split.
  - intros [H|(q & Hq & N)]; [|exists q; cbn; auto]. exists x. split; [left; reflexivity|]. intros ->. destruct (Qc_eq_bool 0 0) eqn:E; [discriminate|]. assert (Qc_eq_bool 0 0 = true) by (apply qeq_iff; reflexivity). congruence.
  - intros (q & [->|Hq] & N); [|right; eauto]. left. destruct (Qc_eq_bool 0 q) eqn:E; [|reflexivity]. apply qeq_iff in E. congruence.
Qed.

Lemma verify_ok first second box cols :
  s_comm (chosen first second) = s_comm first -> has_sides first -> has_sides (chosen first second) ->
  (forall b, verify first second box cols = Ok b <->
    (forall c, In c cols -> In c (s_cols first) /\ In c (s_cols (chosen first second))) /\
    asked first box b /\ (exists q, In q b /\ q <> 0%Qc) /\
    (forall x y, s_box first = Some x -> s_box (chosen first second) = Some y -> x = Vec b /\ y = Vec b)) /\
  (forall e, verify first second box cols = Err e -> e = ValueError).
Proof.
  intros HC H1 H2. unfold verify. fold (chosen first second). set (snd := chosen first second) in *. rewrite HC, Nat.eqb_refl. cbn [negb].
  destruct (has_cols first cols && has_cols snd cols) eqn:EC.
  2: { cbn [negb]. split; [|intros e H; injection H as <-; reflexivity]. intros b. split; [discriminate|]. intros (A & _). exfalso.
    apply andb_false_iff in EC. destruct EC as [EC|EC]; [assert (has_cols first cols = true) by (apply has_cols_iff; intros c Hc; apply (A c Hc))|assert (has_cols snd cols = true) by (apply has_cols_iff; intros c Hc; apply (A c Hc))]; congruence. }
  apply andb_true_iff in EC. destruct EC as [E1 E2]. rewrite has_cols_iff in E1, E2. cbn [negb].
  assert (HF : exists b0, match s_box first with Some x => assign_items x | None => Ok [0%Qc; 0%Qc; 0%Qc] end = Ok b0 /\
    length b0 = 3 /\ (forall x, s_box first = Some x -> x = Vec b0) /\ (s_box first = None -> b0 = [0%Qc; 0%Qc; 0%Qc])).
  { destruct (s_box first) as [x|] eqn:EB; [|eexists; repeat split; [discriminate]]. destruct (H1 x EB) as (l & -> & HL). exists l. cbn [assign_items]. split; [apply into3_iff; left; auto|]. split; [exact HL|]. split; [congruence|discriminate]. }
  destruct HF as (b0 & -> & HL0 & HB0 & HN0). cbn [rbind].
  assert (HB : (exists b, match box with Some x => assign x | None => Ok b0 end = Ok b /\ length b = 3 /\ forall b', match box with Some x => stands x b' | None => b' = b0 end <-> b' = b) \/
    (match box with Some x => assign x | None => Ok b0 end = Err ValueError /\ forall b', ~ match box with Some x => stands x b' | None => b' = b0 end)).
  { destruct box as [x|]; [|left; exists b0; repeat split; auto]. destruct (assign_else x) as [(b & E & L)|E]; [left|right].
    - exists b. split; [exact E|]. split; [exact L|]. intros b'. rewrite <- assign_iff, E. split; [intros H; injection H as <-; reflexivity|intros ->; reflexivity].
    - split; [exact E|]. intros b'. rewrite <- assign_iff, E. discriminate. }
  assert (AS : forall b', (exists q, In q b' /\ q <> 0%Qc) -> (asked first box b' <-> match box with Some x => stands x b' | None => b' = b0 end)).
  { intros b' (q & Hq & Nq). unfold asked. destruct box; [tauto|]. destruct (s_box first) as [x|] eqn:EB.
    - rewrite (HB0 x eq_refl). split; congruence.
    - split; [discriminate|]. intros ->. rewrite (HN0 eq_refl) in Hq. cbn in Hq. exfalso. intuition congruence. }
  destruct HB as [(b & -> & HL & HU)|[-> HU]]; cbn [rbind].
  2: { split; [|intros e H; injection H as <-; reflexivity]. intros b. split; [discriminate|]. intros (_ & A & B & _). exfalso. apply (HU b), AS; assumption. }
  destruct (forallb (Qc_eq_bool 0%Qc) b) eqn:EZ.
  { split; [|intros e H; injection H as <-; reflexivity]. intros b'. split; [discriminate|]. intros (_ & A & B & _). exfalso. apply AS in A; [|exact B]. apply HU in A. subst b'. apply zero_iff in B. congruence. }
  apply zero_iff in EZ.
  assert (GO : forall b', (forall c, In c cols -> In c (s_cols first) /\ In c (s_cols snd)) /\ asked first box b' /\ (exists q, In q b' /\ q <> 0%Qc) /\
     (forall x y, s_box first = Some x -> s_box snd = Some y -> x = Vec b' /\ y = Vec b') <-> b' = b /\ (forall x y, s_box first = Some x -> s_box snd = Some y -> x = Vec b /\ y = Vec b)).
  { intros b'. split.
    - intros (_ & A & B & D). apply AS in A; [|exact B]. apply HU in A. subst b'. auto.
    - intros [-> D]. split; [intros c Hc; split; auto|]. split; [apply AS; [exact EZ|apply HU; reflexivity]|]. auto. }
  destruct (s_box first) as [x|] eqn:EB1; destruct (s_box snd) as [y|] eqn:EB2.
  2-4: split; [|intros e H; discriminate H]; intros b'; rewrite GO; split; [intros H; injection H as <-; split; [reflexivity|]; intros; discriminate|intros [-> _]; reflexivity].
  destruct (H1 x EB1) as (l & -> & L1). destruct (H2 y EB2) as (m & -> & L2).
  destruct (all_equal (Vec l) (Vec m)) eqn:Q1; cbn [negb].
  2: { split; [|intros e H; injection H as <-; reflexivity]. intros b'. rewrite GO. split; [discriminate|]. intros [-> D]. exfalso. destruct (D _ _ eq_refl eq_refl) as [E F]. assert (all_equal (Vec l) (Vec m) = true) by (apply all_equal_sides; congruence). congruence. }
  apply all_equal_sides in Q1; [|assumption|assumption]. subst m.
  destruct (all_equal (Vec l) (Vec b)) eqn:Q2; cbn [negb].
  2: { split; [|intros e H; injection H as <-; reflexivity]. intros b'. rewrite GO. split; [discriminate|]. intros [-> D]. exfalso. destruct (D _ _ eq_refl eq_refl) as [E F]. assert (all_equal (Vec l) (Vec b) = true) by (apply all_equal_sides; congruence). congruence. }
  apply all_equal_sides in Q2; [|assumption|assumption]. subst l. split; [|intros e H; discriminate H]. intros b'. rewrite GO. split; [intros H; injection H as <-; split; [reflexivity|]|intros [-> _]; reflexivity]. intros x y Hx Hy. injection Hx as <-. injection Hy as <-. auto.
Qed.

Lemma base_ok m edges Nmu pimax : (base_checks m edges Nmu pimax = Ok tt <-> proper m edges Nmu pimax) /\
  (forall e, base_checks m edges Nmu pimax = Err e -> e = ValueError).
Proof.
  unfold base_checks, proper. destruct (mode_eqb m MBad) eqn:EM.
  { split; [|intros e H; injection H as <-; reflexivity]. split; [discriminate|]. intros (A & _). exfalso. apply A. destruct m; try discriminate EM. reflexivity. }
  assert (HM : m <> MBad) by (intros ->; discriminate EM).
  destruct edges as [|e0 edges]. { split; [|intros e H; injection H as <-; reflexivity]. split; [discriminate|]. intros (_ & A & _). congruence. }
  destruct (existsb (fun e => qle e 0%Qc) (e0 :: edges)) eqn:EE.
  { split; [|intros e H; injection H as <-; reflexivity]. split; [discriminate|]. intros (_ & _ & A & _). exfalso. apply existsb_exists in EE. destruct EE as (e & He & E). apply qle_iff in E. specialize (A e He). apply (Qclt_not_le _ _ A E). }
  assert (HE : (forall e, In e (e0 :: edges) -> 0 < e)%Qc).
  { intros e He. apply Qcnot_le_lt. intros L. apply qle_iff in L. assert (existsb (fun e => qle e 0%Qc) (e0 :: edges) = true) by (apply existsb_exists; exists e; auto). congruence. }
  assert (HNE : e0 :: edges <> []) by discriminate. clear EE. generalize dependent (e0 :: edges). intros es HE HNE.
  split.
  - split.
    + intros H. split; [exact HM|]. split; [exact HNE|]. split; [exact HE|].
      destruct m, Nmu as [n|], pimax as [p|]; cbn [mode_eqb is_some andb negb] in H; try discriminate H; try (repeat split; intros; congruence).
      all: try (destruct (qle 1 p) eqn:EP; [|discriminate H]; apply qle_iff in EP; repeat split; intros; congruence).
    + intros (_ & _ & _ & A & B & D). destruct m, Nmu as [n|], pimax as [p|]; cbn [mode_eqb is_some andb negb]; try reflexivity; try (exfalso; destruct A as [A1 A2], B as [B1 B2]; first [congruence | (specialize (A1 ltac:(discriminate)); discriminate A1) | (specialize (B1 ltac:(discriminate)); discriminate B1) | (specialize (A2 eq_refl); congruence) | (specialize (B2 eq_refl); congruence)]).
      all: specialize (D p eq_refl); apply qle_iff in D; rewrite D; reflexivity.
  - intros e H. destruct m, Nmu as [n|], pimax as [p|]; cbn [mode_eqb is_some andb negb] in H; try congruence. all: destruct (qle 1 p); cbn [negb] in H; congruence.
Qed.

Lemma twice (e q : Qc) : (e <= half * q)%Qc <-> (e + e <= q)%Qc.
Proof.
  unfold half, Qcle. cbn [this Qcplus Qcmult Q2Qc]. rewrite !Qred_correct. split; intros H.
  - setoid_replace (this e + this e)%Q with (2 * this e)%Q by ring. setoid_replace (this q) with (2 * ((1 # 2) * this q))%Q by field. apply Qmult_le_l; [reflexivity|exact H].
  - setoid_replace (this e) with ((1 # 2) * (this e + this e))%Q by field. apply Qmult_le_l; [reflexivity|exact H].
Qed.
Lemma within_iff (x : Qc) b : forallb (fun q => qle x (half * q)%Qc) b = true <-> forall q, In q b -> (x + x <= q)%Qc.
Proof. rewrite forallb_forall. split; intros H q Hq; specialize (H q Hq); [apply twice, qle_iff|apply qle_iff, twice]; exact H. Qed.

Lemma counts_ok m first edges box periodic second Nmu pimax cols :
  s_comm (chosen first second) = s_comm first -> has_sides first -> has_sides (chosen first second) ->
  (forall b, SimulationBoxPairCount m first edges box periodic second Nmu pimax cols = Ok b <-> suitable m first edges box periodic second Nmu pimax cols b) /\
  (forall e, SimulationBoxPairCount m first edges box periodic second Nmu pimax cols = Err e -> e = ValueError).
Proof.
  intros HC H1 H2. destruct (verify_ok first second box cols HC H1 H2) as [V1 V2]. destruct (base_ok m edges Nmu pimax) as [B1 B2].
  unfold SimulationBoxPairCount, suitable. destruct (verify first second box cols) as [b|e] eqn:EV; cbn [rbind].
  2: { split; [|intros x H; injection H as <-; apply V2; reflexivity]. intros b. split; [discriminate|]. intros (A & B & C & D & _). assert (Err e = Ok b) by (apply V1; auto). discriminate. }
  destruct (proj1 (V1 b) eq_refl) as (A & B & C & D).
  assert (UN : forall b', (forall c, In c cols -> In c (s_cols first) /\ In c (s_cols (chosen first second))) /\ asked first box b' /\ (exists q, In q b' /\ q <> 0%Qc) /\
     (forall x y, s_box first = Some x -> s_box (chosen first second) = Some y -> x = Vec b' /\ y = Vec b') -> b' = b).
  { intros b' H. apply V1 in H. congruence. }
  destruct (base_checks m edges Nmu pimax) as [[]|e] eqn:EB; cbn [rbind].
  2: { split; [|intros x H; injection H as <-; apply B2; reflexivity]. intros b'. split; [discriminate|]. intros (_ & _ & _ & _ & P & _). apply B1 in P. discriminate. }
  pose proof (proj1 B1 eq_refl) as P. destruct P as (P1 & P2 & P3 & P4 & P5 & P6).
  assert (PR : proper m edges Nmu pimax) by (split; auto).
  assert (ALL : (periodic = true -> m <> MAngular -> reaches edges pimax b) -> forall b', Ok b = Ok b' <-> suitable m first edges box periodic second Nmu pimax cols b').
  { intros R b'. split; [intros H; injection H as <-; repeat (split; [assumption|]); assumption|]. intros (A' & B' & C' & D' & _). rewrite (UN b'); auto. }
  assert (NOT : ~ (periodic = true -> m <> MAngular -> reaches edges pimax b) -> forall b', ~ suitable m first edges box periodic second Nmu pimax cols b').
  { intros R b' (A' & B' & C' & D' & _ & R'). apply R. rewrite (UN b') in R'; auto. }
  destruct (periodic && negb (mode_eqb m MAngular)) eqn:EP.
  2: { split; [|discriminate]. apply ALL. intros -> N. destruct m; try discriminate EP. congruence. }
  apply andb_true_iff in EP. destruct EP as [-> EM]. assert (N : m <> MAngular) by (intros ->; discriminate EM).
  destruct (forallb _ edges) eqn:EE; cbn [negb].
  2: { split; [|intros e H; injection H as <-; reflexivity]. intros b'. split; [discriminate|]. intros S. exfalso. revert S. apply NOT. intros R. specialize (R eq_refl N).
    assert (forallb (fun x => forallb (fun q => qle x (half * q)%Qc) b) edges = true) by (apply forallb_forall; intros x Hx; apply within_iff; intros q Hq; exact (proj1 (R q Hq) x Hx)). congruence. }
  assert (RE : forall q e, In q b -> In e edges -> (e + e <= q)%Qc) by (intros q e Hq He; rewrite forallb_forall in EE; specialize (EE e He); cbv beta in EE; rewrite within_iff in EE; auto).
  destruct pimax as [p|].
  2: { split; [|discriminate]. apply ALL. intros _ _ q Hq. split; [auto|discriminate]. }
  assert (m = MProjected) as -> by (apply P5; discriminate). cbn [mode_eqb andb].
  destruct (forallb _ b) eqn:EQ; cbn [negb].
  - split; [|discriminate]. apply ALL. intros _ _ q Hq. split; [auto|]. intros p' H. injection H as <-. revert q Hq. apply within_iff. exact EQ.
  - split; [|intros e H; injection H as <-; reflexivity]. intros b'. split; [discriminate|]. intros S. exfalso. revert S. apply NOT. intros R. specialize (R eq_refl N).
    assert (forallb (fun q => qle p (half * q)%Qc) b = true) by (apply within_iff; intros q Hq; exact (proj2 (R q Hq) p eq_refl)). congruence.
Qed.
