(* Proofs about the checks of arguments. *)
From Verif Require Import Base BaseProofs VisModel VisSpec VisProofs ArgModel ArgSpec.
From Coq Require Import QArith Qcanon.
Local Open Scope nat_scope.

Lemma has_cols_false s cols : has_cols s cols = false -> exists c, In c cols /\ ~ In c (s_cols s).
Proof.
  intros H. induction cols as [|c cols IH]; [discriminate H|]. cbn in H. apply andb_false_iff in H. destruct H as [H|H].
  - exists c. split; [left; reflexivity|]. intros Hc. assert (existsb (Nat.eqb c) (s_cols s) = true) by (apply existsb_exists; exists c; split; [exact Hc|apply Nat.eqb_refl]). congruence.
  - destruct (IH H) as (d & Hd & N). exists d. split; [right; exact Hd|exact N].
Qed.
Lemma both_cols first second cols :
  has_cols first cols && has_cols (chosen first second) cols = true <-> forall s, s = first \/ second = Some s -> forall c, In c cols -> In c (s_cols s).
Proof.
  rewrite andb_true_iff, !has_cols_iff. split.
  - intros [A B] s [->|E] c Hc; [auto|]. subst second. cbn in B. auto.
  - intros H. split; [apply H; auto|]. destruct second as [s|]; cbn [chosen]; apply H; auto.
Qed.
Lemma columns_ok first second cols : s_comm (chosen first second) = s_comm first ->
  (verify_columns first second cols = Ok tt <-> forall s, s = first \/ second = Some s -> forall c, In c cols -> In c (s_cols s)) /\
  (forall e, verify_columns first second cols = Err e -> e = ValueError).
Proof.
  intros HC. unfold verify_columns. fold (chosen first second). rewrite HC, Nat.eqb_refl. cbn [negb].
  destruct (has_cols first cols && has_cols (chosen first second) cols) eqn:E; cbn [negb].
  - split; [|discriminate]. split; [intros _; apply both_cols, E|reflexivity].
  - split; [|intros e H; injection H as <-; reflexivity]. split; [discriminate|]. intros H. apply both_cols in H. congruence.
Qed.
Lemma mode_eqb_iff a b : mode_eqb a b = true <-> a = b.
Proof. destruct a, b; cbn; split; congruence. Qed.

Lemma survey_ok {C} m first edges (cosmo : option C) second Nmu pimax ra dec redshift weight : s_comm (chosen first second) = s_comm first ->
  (SurveyDataPairCount m first edges cosmo second Nmu pimax ra dec redshift weight = Ok tt <->
     countable m first edges cosmo second Nmu pimax ra dec redshift weight) /\
  (forall e, SurveyDataPairCount m first edges cosmo second Nmu pimax ra dec redshift weight = Err e -> e = ValueError).
Proof.
  intros HC. unfold SurveyDataPairCount, countable.
  set (req := [ra; dec; weight] ++ _). destruct (columns_ok first second req HC) as [V1 V2]. destruct (base_ok m edges Nmu pimax) as [B1 B2].
  assert (HR : (forall s, s = first \/ second = Some s -> forall c, In c req -> In c (s_cols s)) <->
    (forall s, s = first \/ second = Some s -> owns s ra /\ owns s dec /\ owns s weight /\ (m <> MAngular -> owns s redshift))).
  { unfold req, owns. split; intros H s Hs; specialize (H s Hs).
    - split; [apply H; cbn; auto|]. split; [apply H; cbn; auto|]. split; [apply H; cbn; auto|]. intros N. apply H. destruct (mode_eqb m MAngular) eqn:E; [apply mode_eqb_iff in E; contradiction|]. cbn. auto.
    - destruct H as (H1 & H2 & H3 & H4). intros c Hc. cbn in Hc. destruct Hc as [<-|[<-|[<-|Hc]]]; auto. destruct (mode_eqb m MAngular) eqn:E; [destruct Hc|]. cbn in Hc. destruct Hc as [<-|[]]. apply H4. intros ->. discriminate E. }
  rewrite HR in V1. clear HR. destruct (verify_columns first second req) as [[]|e] eqn:EV; cbn [rbind].
  2: { split; [|intros x H; injection H as <-; apply V2; reflexivity]. split; [discriminate|]. intros (A & _). apply V1 in A. discriminate. }
  pose proof (proj1 V1 eq_refl) as A. destruct (base_checks m edges Nmu pimax) as [[]|e] eqn:EB; cbn [rbind].
  2: { split; [|intros x H; injection H as <-; apply B2; reflexivity]. split; [discriminate|]. intros (_ & P & _). apply B1 in P. discriminate. }
  pose proof (proj1 B1 eq_refl) as P. destruct (mode_eqb m MAngular) eqn:E; cbn [negb andb].
  - apply mode_eqb_iff in E. split; [|discriminate]. split; [|reflexivity]. intros _. split; [exact A|]. split; [exact P|]. intros N. contradiction.
  - assert (N : m <> MAngular) by (intros ->; discriminate E). destruct cosmo as [c|]; cbn [is_some negb].
    + split; [|discriminate]. split; [|reflexivity]. intros _. split; [exact A|]. split; [exact P|]. discriminate.
    + split; [|intros x H; injection H as <-; reflexivity]. split; [discriminate|]. intros (_ & _ & K). specialize (K N). congruence.
Qed.

Lemma within_edges edges b : forallb (fun x => forallb (fun q => qle x (half * q)%Qc) b) edges = true <-> within edges b.
Proof.
  rewrite forallb_forall. unfold within. split.
  - intros H e q He Hq. specialize (H e He). cbv beta in H. rewrite within_iff in H. auto.
  - intros H e He. apply within_iff. auto.
Qed.

Lemma stands_length x b : stands x b -> length b = 3.
Proof. destruct x; cbn [stands]; [intros ->; reflexivity|]. intros [[H ->]|(q & _ & ->)]; [exact H|reflexivity]. Qed.
Lemma stands_inj x b c : stands x b -> stands x c -> b = c.
Proof. rewrite <- !assign_iff. congruence. Qed.

Lemma box3_verify src box cols : has_sides src ->
  (forall b, verify src None box cols = Ok b <-> (forall c, In c cols -> owns src c) /\ one_box src box b /\ exists q, In q b /\ q <> 0%Qc) /\
  (forall e, verify src None box cols = Err e -> e = ValueError).
Proof.
  intros HS. destruct (verify_ok src None box cols eq_refl HS HS) as [V1 V2]. split; [|exact V2]. intros b. rewrite V1. cbn [chosen]. unfold owns, one_box, asked. split.
  - intros (A & B & C & D). split; [intros c Hc; apply A; exact Hc|]. split; [|exact C]. destruct (s_box src) as [x|] eqn:E.
    + left. destruct (D x x eq_refl eq_refl) as [F _]. split; [congruence|]. intros y ->. exact B.
    + right. split; [reflexivity|]. destruct box as [y|]; [eauto|discriminate B].
  - intros (A & B & C). split; [intros c Hc; split; auto|]. destruct B as [[E B]|[E (y & -> & B)]].
    + split; [destruct box; [auto|exact E]|]. split; [exact C|]. intros x y Hx Hy. rewrite E in Hx, Hy. injection Hx as <-. injection Hy as <-. auto.
    + split; [exact B|]. split; [exact C|]. intros x z Hx. congruence.
Qed.

Lemma box3_ok src edges box periodic weight position : has_sides src ->
  (forall o, SimulationBox3PCF src edges box periodic weight position = Ok o <->
    owns src position /\ owns src weight /\ edges <> [] /\ exists b, one_box src box b /\ (exists q, In q b /\ q <> 0%Qc) /\
      (if periodic then o = Some b /\ within edges b else o = None)) /\
  (forall e, SimulationBox3PCF src edges box periodic weight position = Err e -> e = ValueError).
Proof.
  intros HS. destruct (box3_verify src box [position; weight] HS) as [V1 V2]. unfold SimulationBox3PCF.
  destruct (verify src None box [position; weight]) as [b|e] eqn:EV; cbn [rbind].
  2: { split; [|intros x H; injection H as <-; apply V2; reflexivity]. intros o. split; [discriminate|]. intros (P & W & _ & b & B & Z & _). assert (Err e = Ok b) by (apply V1; split; [|auto]; intros c [<-|[<-|[]]]; assumption). discriminate. }
  destruct (proj1 (V1 b) eq_refl) as (A & B & Z). assert (P : owns src position) by (apply A; cbn; auto). assert (W : owns src weight) by (apply A; cbn; auto).
  assert (UN : forall c, one_box src box c -> (exists q, In q c /\ q <> 0%Qc) -> c = b) by (intros c H1 H2; assert (Ok b = Ok c) by (apply V1; auto); congruence).
  destruct edges as [|e0 es].
  { split; [|intros x H; injection H as <-; reflexivity]. intros o. split; [discriminate|]. intros (_ & _ & N & _). congruence. }
  assert (NE : e0 :: es <> []) by discriminate. generalize dependent (e0 :: es). intros edges NE. destruct periodic.
  - pose proof (within_edges edges b) as I. destruct (forallb _ edges); cbn [negb].
    + pose proof (proj1 I eq_refl) as J. split; [|discriminate]. intros o. split.
      * intros H. injection H as <-. split; [exact P|]. split; [exact W|]. split; [exact NE|]. exists b. auto.
      * intros (_ & _ & _ & c & B' & Z' & -> & _). rewrite (UN c B' Z'). reflexivity.
    + split; [|intros x H; injection H as <-; reflexivity]. intros o. split; [discriminate|]. intros (_ & _ & _ & c & B' & Z' & _ & J). rewrite (UN c B' Z') in J. apply I in J. discriminate.
  - split; [|discriminate]. intros o. split.
    + intros H. injection H as <-. split; [exact P|]. split; [exact W|]. split; [exact NE|]. exists b. auto.
    + intros (_ & _ & _ & c & _ & _ & ->). reflexivity.
Qed.

Lemma survey3_ok {C} src edges (cosmo : option C) ra dec redshift weight :
  (SurveyData3PCF src edges cosmo ra dec redshift weight = Ok tt <->
    owns src ra /\ owns src dec /\ owns src redshift /\ owns src weight /\ edges <> [] /\ cosmo <> None) /\
  (forall e, SurveyData3PCF src edges cosmo ra dec redshift weight = Err e -> e = ValueError).
Proof.
  unfold SurveyData3PCF. destruct (columns_ok src None [ra; dec; redshift; weight] eq_refl) as [V1 V2].
  destruct (verify_columns src None [ra; dec; redshift; weight]) as [[]|e] eqn:EV; cbn [rbind].
  2: { split; [|intros x H; injection H as <-; apply V2; reflexivity]. split; [discriminate|]. intros (A1 & A2 & A3 & A4 & _). assert (Err e = Ok tt) by (apply V1; intros s [->|E]; [|discriminate E]; intros c [<-|[<-|[<-|[<-|[]]]]]; assumption). discriminate. }
  pose proof (proj1 V1 eq_refl src (or_introl eq_refl)) as A.
  destruct edges as [|e0 es]; [split; [split; [discriminate|intros (_ & _ & _ & _ & N & _); congruence]|intros x H; injection H as <-; reflexivity]|].
  destruct cosmo as [c|]; cbn [is_some]; [split; [split; [intros _|reflexivity]|discriminate]|split; [split; [discriminate|intros (_ & _ & _ & _ & _ & N); congruence]|intros x H; injection H as <-; reflexivity]].
  repeat split; try discriminate; apply A; cbn; auto.
Qed.

(* ---- CylindricalGroups ---- *)
Lemma abs_iff x t : (qle (qabs (x - 1)%Qc) t = true) <-> (1 - t <= x)%Qc /\ (x <= 1 + t)%Qc.
Proof.
  assert (M : forall a b c : Qc, (a - b <= c <-> a <= b + c)%Qc).
  { intros a b c. split; intros H.
    - apply (Qcplus_le_compat _ _ b b) in H; [|apply Qcle_refl]. replace (a - b + b)%Qc with a in H by ring. replace (c + b)%Qc with (b + c)%Qc in H by ring. exact H.
    - apply (Qcplus_le_compat _ _ (- b) (- b)) in H; [|apply Qcle_refl]. replace (b + c + - b)%Qc with c in H by ring. exact H. }
  rewrite qle_iff. unfold qabs. destruct (qle 0 (x - 1)) eqn:E.
  - apply qle_iff in E. assert (L : (1 <= x)%Qc). { replace (1)%Qc with (1 + 0)%Qc by ring. replace x with (1 + (x - 1))%Qc by ring. apply Qcplus_le_compat; [apply Qcle_refl|exact E]. }
    rewrite M. split; [|intros [_ H]; exact H]. intros H. split; [|exact H]. apply M. rewrite Qcplus_comm.
    assert (T : (0 <= t)%Qc). { apply M in H. eapply Qcle_trans; [exact E|exact H]. }
    replace 1%Qc with (1 + 0)%Qc by ring. apply Qcplus_le_compat; assumption.
  - assert (L : (x - 1 <= 0)%Qc). { apply Qclt_le_weak, Qcnot_le_lt. intros H. apply qle_iff in H. congruence. }
    replace (- (x - 1))%Qc with (1 - x)%Qc by ring. rewrite (M 1%Qc x t), (M 1%Qc t x), (Qcplus_comm t x). split; [|intros [H _]; exact H]. intros H. split; [exact H|].
    assert (L1 : (x <= 1)%Qc). { apply M in L. replace (1 + 0)%Qc with 1%Qc in L by ring. exact L. }
    assert (T : (0 <= t)%Qc). { apply M in H. eapply Qcle_trans; [|exact H]. replace 0%Qc with (x - x)%Qc by ring. apply Qcplus_le_compat; [exact L1|apply Qcle_refl]. }
    replace x with (x + 0)%Qc by ring. apply Qcplus_le_compat; assumption.
Qed.
Lemma direction_iff l : direction l <-> length l = 3 /\ qle (qabs (square l - 1)%Qc) tol = true.
Proof.
  split.
  - intros (x & y & z & -> & A & B). split; [reflexivity|]. apply abs_iff. cbn [square]. replace (x * x + (y * y + (z * z + 0)))%Qc with (x * x + y * y + z * z)%Qc by ring. auto.
  - intros [L H]. destruct l as [|x [|y [|z [|? ?]]]]; try discriminate L. apply abs_iff in H. cbn [square] in H. replace (x * x + (y * y + (z * z + 0)))%Qc with (x * x + y * y + z * z)%Qc in H by ring. exists x, y, z. split; [reflexivity|exact H].
Qed.
Lemma los_ok los : (check_los los = Ok tt <-> forall x, los = Some x -> exists d, x = Vec d /\ direction d) /\ (forall e, check_los los = Err e -> e = ValueError).
Proof.
  destruct los as [[q|l]|]; cbn [check_los].
  - split; [|intros e H; injection H as <-; reflexivity]. split; [discriminate|]. intros H. destruct (H _ eq_refl) as (d & E & _). discriminate E.
  - pose proof (direction_iff l) as D. destruct (Nat.eqb_spec (length l) 3) as [L|L]; cbn [negb].
    + destruct (qle (qabs (square l - 1)%Qc) tol) eqn:E.
      * split; [|discriminate]. split; [|reflexivity]. intros _ x Hx. injection Hx as <-. exists l. split; [reflexivity|]. apply D. auto.
      * split; [|intros e H; injection H as <-; reflexivity]. split; [discriminate|]. intros H. destruct (H _ eq_refl) as (d & F & K). injection F as <-. apply D in K. destruct K; congruence.
    + split; [|intros e H; injection H as <-; reflexivity]. split; [discriminate|]. intros H. destruct (H _ eq_refl) as (d & F & K). injection F as <-. apply D in K. destruct K; congruence.
  - split; [|discriminate]. split; [discriminate|reflexivity].
Qed.
Lemma rank_list_iff r l : ranked r l <-> l = rank_list r.
Proof. destruct r; cbn; tauto. Qed.

Lemma cgm_ok position src rankby los periodic box :
  (forall l b, cgm_checks position src rankby los periodic box = Ok (l, b) <-> groupable position src rankby los periodic box l b) /\
  (forall e, cgm_checks position src rankby los periodic box = Err e -> e = ValueError).
Proof.
  unfold cgm_checks, groupable. destruct (has_cols src [position]) eqn:E1; cbn [negb].
  2: { split; [|intros e H; injection H as <-; reflexivity]. intros l b. split; [discriminate|]. intros (A & _). apply has_cols_false in E1. destruct E1 as (c & [<-|[]] & N). contradiction. }
  rewrite has_cols_iff in E1. assert (P : owns src position) by (apply E1; cbn; auto).
  destruct (has_cols src (rank_list rankby)) eqn:E2; cbn [negb].
  2: { split; [|intros e H; injection H as <-; reflexivity]. intros l b. split; [discriminate|]. intros (_ & R & A & _). apply rank_list_iff in R. subst l. apply has_cols_false in E2. destruct E2 as (c & Hc & N). elim N. apply A. exact Hc. }
  rewrite has_cols_iff in E2. set (bx := match s_box src with Some x => Some x | None => box end).
  assert (HB : forall b, cgm_box src periodic box b <-> match bx with Some x => exists l, b = Some l /\ stands x l | None => periodic = false /\ b = None end).
  { intros b. unfold cgm_box, bx. destruct (s_box src), box; tauto. }
  destruct (los_ok los) as [L1 L2].
  assert (FIN : forall o, (forall b, cgm_box src periodic box b <-> b = o) ->
    (forall l b, (let! _ := check_los los in Ok (rank_list rankby, o)) = Ok (l, b) <-> owns src position /\ ranked rankby l /\ (forall c, In c l -> owns src c) /\ cgm_box src periodic box b /\ (forall x, los = Some x -> exists d, x = Vec d /\ direction d)) /\
    (forall e, (let! _ := check_los los in Ok (rank_list rankby, o)) = Err e -> e = ValueError)).
  { intros o HO. destruct (check_los los) as [[]|e] eqn:EL; cbn [rbind].
    - split; [|discriminate]. intros l b. split.
      + intros H. injection H as <- <-. split; [exact P|]. split; [apply rank_list_iff; reflexivity|]. split; [exact E2|]. split; [apply HO; reflexivity|]. apply L1. reflexivity.
      + intros (_ & R & _ & B & _). apply rank_list_iff in R. apply HO in B. subst. reflexivity.
    - split; [|intros x H; injection H as <-; apply L2; reflexivity]. intros l b. split; [discriminate|]. intros (_ & _ & _ & _ & D). apply L1 in D. discriminate. }
  destruct bx as [x|]; cbn [is_some negb].
  - rewrite andb_false_r. destruct (assign_else x) as [(b0 & EA & _)|EA]; rewrite EA; cbn [rbind].
    + apply FIN. intros b. rewrite HB. apply assign_iff in EA. split; [intros (l & -> & S); f_equal; eapply stands_inj; eassumption|intros ->; eauto].
    + split; [|intros e H; injection H as <-; reflexivity]. intros l b. split; [discriminate|]. intros (_ & _ & _ & B & _). apply HB in B. destruct B as (m & _ & S). apply assign_iff in S. congruence.
  - rewrite andb_true_r. destruct periodic; cbn [rbind].
    + split; [|intros e H; injection H as <-; reflexivity]. intros l b. split; [discriminate|]. intros (_ & _ & _ & B & _). apply HB in B. destruct B as [B _]. discriminate B.
    + apply FIN. intros b. rewrite HB. intuition.
Qed.

Lemma find_drop {V} n m (l : list (nat * V)) : find m (drop n l) = if m =? n then None else find m l.
Proof.
  unfold drop. induction l as [|[a v] l IH]; cbn [filter find fst]; [destruct (m =? n); reflexivity|]. destruct (Nat.eqb_spec a n) as [->|N]; cbn [negb].
  - rewrite IH. destruct (Nat.eqb_spec m n) as [->|M]; [reflexivity|]. destruct (Nat.eqb_spec n m); [congruence|reflexivity].
  - cbn [find]. destruct (Nat.eqb_spec a m) as [->|M]; [|exact IH]. destruct (Nat.eqb_spec m n); [contradiction|reflexivity].
Qed.
Lemma run_result {V G} origind (index : V) (work : columns V -> res G) t g t' : cgm_run origind index work t = (t', Ok g) ->
  find origind (hard t) = None /\ work (set_column t origind index) = Ok g /\
  (forall n, n <> origind -> lookup t' n = lookup t n) /\ lookup t' origind = find origind (defaults t).
Proof.
  unfold cgm_run. destruct (work (set_column t origind index)) as [g'|e]; [|intros H; injection H as _ H; discriminate H].
  unfold del_column, lookup. cbn [set_column overrides hard defaults find]. rewrite Nat.eqb_refl. destruct (find origind (hard t)) eqn:EH; [intros H; injection H as _ H; discriminate H|].
  intros H. injection H as <- <-. split; [reflexivity|]. split; [reflexivity|]. cbn [overrides hard defaults drop filter fst]. rewrite Nat.eqb_refl. cbn [negb]. fold (@drop V origind (drop origind (overrides t))). split.
  - intros n Hn. rewrite !find_drop. destruct (Nat.eqb_spec n origind); [contradiction|reflexivity].
  - rewrite !find_drop, Nat.eqb_refl, EH. reflexivity.
Qed.
Lemma run_alike {V G} origind (index : V) (work : columns V -> res G) t g : lookup t origind = None -> work (set_column t origind index) = Ok g ->
  exists t', cgm_run origind index work t = (t', Ok g) /\ alike t' t.
Proof.
  intros HN HW. assert (HH : find origind (hard t) = None /\ find origind (defaults t) = None).
  { unfold lookup in HN. destruct (find origind (overrides t)), (find origind (hard t)); try discriminate HN. auto. }
  destruct HH as [HH HD]. destruct (cgm_run origind index work t) as [t' r] eqn:E. assert (r = Ok g) as ->.
  { unfold cgm_run in E. rewrite HW in E. unfold del_column, lookup in E. cbn [set_column overrides hard defaults find] in E. rewrite Nat.eqb_refl, HH in E. congruence. }
  exists t'. split; [reflexivity|]. destruct (run_result _ _ _ _ _ _ E) as (_ & _ & A & B). intros n. destruct (Nat.eq_dec n origind) as [->|N]; [congruence|auto].
Qed.
