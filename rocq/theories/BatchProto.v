(* Proofs about the master/worker protocol of BatchModel. *)
From Verif Require Import Base BaseProofs BatchModel.
From Coq Require Import Permutation Sorted.
Local Open Scope nat_scope.

Lemma upd_same {A} (f : nat -> A) w x : upd f w x w = x.
Proof. unfold upd. rewrite Nat.eqb_refl. reflexivity. Qed.
Lemma upd_other {A} (f : nat -> A) w x k : k <> w -> upd f w x k = f k.
Proof. intros H. unfold upd. destruct (Nat.eqb_spec k w); [contradiction|reflexivity]. Qed.

Definition tdec : forall x y : nat * nat * nat, {x = y} + {x <> y}.
Proof. repeat decide equality. Defined.

Lemma nsum_app l l' : nsum (l ++ l') = nsum l + nsum l'.
Proof. induction l; simpl; lia. Qed.

Lemma sum_ext (f h : nat -> nat) n : (forall w, w < n -> f w = h w) ->
  nsum (map f (seq 0 n)) = nsum (map h (seq 0 n)).
Proof.
  intros H. f_equal. apply map_ext_in. intros w Hw. apply in_seq in Hw. apply H. lia.
Qed.

Lemma sum_change (f h : nat -> nat) n w : w < n -> (forall k, k <> w -> f k = h k) ->
  nsum (map f (seq 0 n)) + h w = nsum (map h (seq 0 n)) + f w.
Proof.
  intros Hw Hk. induction n as [|n IH]; [lia|].
  rewrite !seq_S, !map_app, !nsum_app. cbn [map nsum fold_right Nat.add].
  destruct (Nat.eq_dec w n) as [->|Hne].
  - rewrite (sum_ext f h n) by (intros k Hlt; apply Hk; lia). lia.
  - specialize (IH ltac:(lia)). rewrite (Hk n) by lia. lia.
Qed.

Lemma sum_le_full (f : nat -> nat) n : (forall w, w < n -> f w <= 1) -> nsum (map f (seq 0 n)) <= n.
Proof.
  induction n as [|n IH]; intros H; [simpl; lia|].
  rewrite seq_S, map_app, nsum_app. cbn [map nsum fold_right Nat.add].
  specialize (IH (fun w Hw => H w (Nat.lt_trans _ _ _ Hw (Nat.lt_succ_diag_r n)))).
  specialize (H n (Nat.lt_succ_diag_r n)). lia.
Qed.

Lemma sum_full_all (f : nat -> nat) n : (forall w, f w <= 1) ->
  nsum (map f (seq 0 n)) = n -> forall w, w < n -> f w = 1.
Proof.
  intros Hle. induction n as [|n IH]; intros E w Hw; [lia|].
  rewrite seq_S, map_app, nsum_app in E. cbn [map nsum fold_right Nat.add] in E.
  pose proof (sum_le_full f n (fun k _ => Hle k)). pose proof (Hle n).
  destruct (Nat.eq_dec w n) as [->|]; [lia|]. apply IH; lia.
Qed.

Lemma sum_lt_some (f : nat -> nat) n : (forall w, f w <= 1) ->
  nsum (map f (seq 0 n)) < n -> exists w, w < n /\ f w = 0.
Proof.
  intros Hle. induction n as [|n IH]; intros E; [simpl in E; lia|].
  rewrite seq_S, map_app, nsum_app in E. cbn [map nsum fold_right Nat.add] in E.
  destruct (Nat.eq_dec (f n) 0) as [H0|H0]; [exists n; split; [lia|exact H0]|].
  destruct IH as (w & Hw & Hf); [pose proof (Hle n); lia|]. exists w. split; [lia|exact Hf].
Qed.

Section Protocol.
Variables (nw nt : nat) (g : nat -> nat).

(* ---------- the invariant ---------- *)
Definition phase (s : state) (w : nat) : Prop :=
  match ws s w with
  | WantReady => tw s w = [] /\ (tm s w = [] \/ exists j, tm s w = [MDone j])
  | Waiting =>
      (tw s w = [] /\ (tm s w = [MReady] \/ exists j, tm s w = [MDone j; MReady])) \/
      (tm s w = [] /\ exists i, tw s w = [WStart i] /\ nth_error (sent s) i = Some w) \/
      (tm s w = [] /\ tw s w = [WExit] /\ idx s = nt)
  | Running i back => tm s w = [] /\ tw s w = [] /\ length back = g w /\ nth_error (sent s) i = Some w
  | Exiting => tm s w = [] /\ tw s w = [] /\ idx s = nt
  | Closed => tw s w = [] /\ (tm s w = [] \/ tm s w = [MExit]) /\ idx s = nt
  end.

Definition is_closed (s : state) (w : nat) : nat :=
  match ws s w, tm s w with Closed, [] => 1 | _, _ => 0 end.

Definition expected (s : state) (w m i : nat) : nat :=
  match nth_error (sent s) i with
  | None => 0
  | Some w' =>
      if (w' =? w) && (m <? g w) then
        match ws s w, tw s w with
        | Waiting, WStart j :: _ => if j =? i then 0 else 1
        | Running j back, _ => if j =? i then (if nth m back false then 1 else 0) else 1
        | _, _ => 1
        end
      else 0
  end.

Record inv (s : state) : Prop := {
  inv_sent : length (sent s) = idx s;
  inv_idx : idx s <= nt;
  inv_workers : Forall (fun w => w < nw) (sent s);
  inv_phase : forall w, phase s w;
  inv_closed : closed s = nsum (map (is_closed s) (seq 0 nw));
  inv_log : forall w m i, count_occ tdec (log s) (w, m, i) = expected s w m i
}.



(* changing one summand *)

Lemma inv_init : inv init.
Proof.
  constructor; cbn.
  - reflexivity.
  - lia.
  - constructor.
  - intros w. unfold phase. cbn. split; [reflexivity|left; reflexivity].
  - induction (seq 0 nw); simpl; auto.
  - intros w m i. unfold expected. cbn. destruct i; reflexivity.
Qed.

(* a state change that concerns only worker w and keeps the list of sent tasks *)
Lemma phase_other s s' w k :
  k <> w -> ws s' k = ws s k -> tm s' k = tm s k -> tw s' k = tw s k ->
  (forall i v, nth_error (sent s) i = Some v -> nth_error (sent s') i = Some v) ->
  (idx s = nt -> idx s' = nt) -> phase s k -> phase s' k.
Proof.
  intros Hk E1 E2 E3 Hs Hi H. unfold phase in *. rewrite E1, E2, E3.
  destruct (ws s k); auto.
  - destruct H as [H|[(H1 & i & H2 & H3)|(H1 & H2 & H3)]]; [left; exact H|right; left|right; right].
    + split; [exact H1|]. exists i. auto.
    + auto.
  - destruct H as (H1 & H2 & H3 & H4). auto.
  - destruct H as (H1 & H2 & H3). auto.
  - destruct H as (H1 & H2 & H3). auto.
Qed.

Lemma expected_ext s s' w m i :
  sent s' = sent s -> ws s' w = ws s w -> tw s' w = tw s w -> expected s' w m i = expected s w m i.
Proof. intros E1 E2 E3. unfold expected. rewrite E1, E2, E3. reflexivity. Qed.

Lemma nth_set_nth (l : list bool) m x k d :
  nth k (set_nth l m x) d = if (k =? m) && (m <? length l) then x else nth k l d.
Proof.
  revert m k; induction l as [|y l IH]; intros m k.
  - cbn [length]. replace (m <? 0) with false by (symmetry; apply Nat.ltb_ge; lia). rewrite andb_false_r.
    destruct m; reflexivity.
  - destruct m as [|m], k as [|k]; try reflexivity. cbn [set_nth nth length]. rewrite IH. reflexivity.
Qed.
Lemma set_nth_length {A} (l : list A) m x : length (set_nth l m x) = length l.
Proof. revert m; induction l as [|y l IH]; intros [|m]; simpl; auto. Qed.

Ltac other k w := destruct (Nat.eq_dec k w) as [->|?].

Lemma inv_step s a s' : inv s -> step nw nt g s a = Some s' -> inv s'.
Proof.
  intros [Hs Hi Hw Hp Hc Hl] Hstep. destruct a as [w|w|w|w m0|w|w]; cbn [step] in Hstep.
  - (* AReady *)
    destruct (Nat.ltb_spec w nw) as [Hlt|]; [cbn [negb] in Hstep|discriminate].
    destruct (ws s w) eqn:E; try discriminate. injection Hstep as <-.
    pose proof (Hp w) as Hpw. unfold phase in Hpw. rewrite E in Hpw. destruct Hpw as [Htw Htm].
    constructor; cbn [idx closed tm tw ws sent log]; auto.
    + intros k. other k w.
      * unfold phase. cbn [idx closed tm tw ws sent log]. rewrite !upd_same. left. split; [exact Htw|].
        destruct Htm as [->|[j ->]]; [left; reflexivity|right; exists j; reflexivity].
      * apply (phase_other s _ w k); cbn; auto; rewrite upd_other by assumption; reflexivity.
    + rewrite Hc. apply sum_ext. intros k _. unfold is_closed. cbn. other k w.
      * rewrite !upd_same, E. reflexivity.
      * rewrite !upd_other by assumption. reflexivity.
    + intros k m i. rewrite Hl. other k w.
      * unfold expected. cbn. rewrite upd_same, E, Htw. reflexivity.
      * symmetry. apply expected_ext; cbn; auto; rewrite upd_other by assumption; reflexivity.
  - (* AMaster *)
    destruct (Nat.ltb_spec w nw) as [Hlt|]; [|discriminate].
    destruct (Nat.ltb_spec (closed s) nw) as [Hcl|]; [|discriminate]. cbn [negb orb] in Hstep.
    pose proof (Hp w) as Hpw. unfold phase in Hpw.
    destruct (tm s w) as [|msg q] eqn:Etm; [discriminate|].
    destruct msg as [|j|].
    + (* READY *)
      assert (ws s w = Waiting /\ q = [] /\ tw s w = []) as (Ew & -> & Etw).
      { destruct (ws s w).
        - destruct Hpw as [_ [H|[j H]]]; discriminate.
        - destruct Hpw as [(H1 & [H|[j H]])|[(H & _)|(H & _)]]; try discriminate. injection H as ->. auto.
        - destruct Hpw as (H & _); discriminate.
        - destruct Hpw as (H & _); discriminate.
        - destruct Hpw as (_ & [H|H] & _); discriminate. }
      destruct (Nat.ltb_spec (idx s) nt) as [Hlt'|Hge].
      * injection Hstep as <-. constructor; cbn [idx closed tm tw ws sent log]; auto.
        -- rewrite app_length. simpl. lia.
        -- apply Forall_app. split; [exact Hw|constructor; [exact Hlt|constructor]].
        -- intros k. other k w.
           ++ unfold phase. cbn [idx closed tm tw ws sent log]. rewrite Ew, !upd_same, Etw. right; left.
              split; [reflexivity|]. exists (idx s). split; [reflexivity|].
              rewrite nth_error_app2 by lia. rewrite Hs, Nat.sub_diag. reflexivity.
           ++ apply (phase_other s _ w k); cbn; auto; try (rewrite upd_other by assumption; reflexivity).
              ** intros i v H. rewrite nth_error_app1; [exact H|]. apply nth_error_Some. congruence.
              ** lia.
        -- rewrite Hc. apply sum_ext. intros k _. unfold is_closed. cbn. other k w.
           ++ rewrite Ew. reflexivity.
           ++ rewrite upd_other by assumption. reflexivity.
        -- intros k m i. rewrite Hl. unfold expected. cbn [sent ws tw].
           destruct (Nat.ltb_spec i (idx s)) as [Hi'|Hi'].
           ++ rewrite nth_error_app1 by lia. destruct (nth_error (sent s) i) as [w'|] eqn:En; [|reflexivity].
              other k w.
              ** rewrite Ew, upd_same, Etw. cbn [app]. destruct (Nat.eqb_spec (idx s) i); [lia|reflexivity].
              ** rewrite upd_other by assumption. reflexivity.
           ++ assert (nth_error (sent s) i = None) as -> by (apply nth_error_None; lia).
              rewrite nth_error_app2 by lia. rewrite Hs.
              destruct (i - idx s) as [|d] eqn:Ed; [|destruct d; reflexivity]. cbn [nth_error].
              destruct (Nat.eqb_spec w k) as [<-|]; [|reflexivity]. cbn [andb].
              destruct (m <? g w); [|reflexivity].
              rewrite Ew, upd_same, Etw. cbn [app]. destruct (Nat.eqb_spec (idx s) i); [reflexivity|lia].
      * injection Hstep as <-. constructor; cbn [idx closed tm tw ws sent log]; auto.
        -- intros k. other k w.
           ++ unfold phase. cbn [idx closed tm tw ws sent log]. rewrite Ew, !upd_same, Etw. right; right.
              split; [reflexivity|]. split; [reflexivity|lia].
           ++ apply (phase_other s _ w k); cbn; auto; rewrite upd_other by assumption; reflexivity.
        -- rewrite Hc. apply sum_ext. intros k _. unfold is_closed. cbn. other k w.
           ++ rewrite Ew. reflexivity.
           ++ rewrite upd_other by assumption. reflexivity.
        -- intros k m i. rewrite Hl. unfold expected. cbn [sent ws tw]. other k w.
           ++ rewrite Ew, upd_same, Etw. reflexivity.
           ++ rewrite upd_other by assumption. reflexivity.
    + (* DONE *)
      injection Hstep as <-. constructor; cbn [idx closed tm tw ws sent log]; auto.
      * intros k. other k w.
        -- unfold phase. cbn [idx closed tm tw ws sent log]. rewrite upd_same.
           destruct (ws s w).
           ++ destruct Hpw as [H1 [H|[j' H]]]; [discriminate|]. injection H as _ ->. auto.
           ++ destruct Hpw as [(H1 & [H|[j' H]])|[(H & _)|(H & _)]]; try discriminate.
              injection H as _ ->. left. auto.
           ++ destruct Hpw as (H & _); discriminate.
           ++ destruct Hpw as (H & _); discriminate.
           ++ destruct Hpw as (_ & [H|H] & _); discriminate.
        -- apply (phase_other s _ w k); cbn; auto; rewrite upd_other by assumption; reflexivity.
      * rewrite Hc. apply sum_ext. intros k _. unfold is_closed. cbn. other k w.
        -- rewrite upd_same, Etm. destruct (ws s w); try reflexivity.
           destruct Hpw as (_ & [H|H] & _); discriminate.
        -- rewrite upd_other by assumption. reflexivity.
    + (* EXIT *)
      assert (ws s w = Closed /\ q = [] /\ tw s w = [] /\ idx s = nt) as (Ew & -> & Etw & Ei).
      { destruct (ws s w).
        - destruct Hpw as [_ [H|[j H]]]; discriminate.
        - destruct Hpw as [(H1 & [H|[j H]])|[(H & _)|(H & _)]]; discriminate.
        - destruct Hpw as (H & _); discriminate.
        - destruct Hpw as (H & _); discriminate.
        - destruct Hpw as (H1 & [H|H] & H2); [discriminate|]. injection H as ->. auto. }
      injection Hstep as <-. constructor; cbn [idx closed tm tw ws sent log]; auto.
      * intros k. other k w.
        -- unfold phase. cbn [idx closed tm tw ws sent log]. rewrite Ew, upd_same. auto.
        -- apply (phase_other s _ w k); cbn; auto; rewrite upd_other by assumption; reflexivity.
      * set (s' := {| idx := idx s; closed := S (closed s); tm := upd (tm s) w []; tw := tw s; ws := ws s; sent := sent s; log := log s |}).
        pose proof (sum_change (is_closed s) (is_closed s') nw w Hlt) as HS.
        assert (is_closed s w = 0) as E0 by (unfold is_closed; rewrite Ew, Etm; reflexivity).
        assert (is_closed s' w = 1) as E1 by (unfold is_closed, s'; cbn; rewrite Ew, upd_same; reflexivity).
        rewrite E0, E1, Nat.add_0_r, <- Hc in HS. rewrite <- HS; [lia|].
        intros k Hk. unfold is_closed. cbn. rewrite upd_other by assumption. reflexivity.
  - (* ARecv *)
    destruct (Nat.ltb_spec w nw) as [Hlt|]; [cbn [negb] in Hstep|discriminate].
    destruct (ws s w) eqn:Ew; try discriminate.
    destruct (tw s w) as [|msg q] eqn:Etw; [discriminate|].
    pose proof (Hp w) as Hpw. unfold phase in Hpw. rewrite Ew, Etw in Hpw.
    destruct msg as [i0|].
    + assert (q = [] /\ tm s w = [] /\ nth_error (sent s) i0 = Some w) as (-> & Etm & Esent).
      { destruct Hpw as [(H & _)|[(H1 & i & H2 & H3)|(H1 & H2 & H3)]]; try discriminate.
        injection H2 as -> ->. auto. }
      injection Hstep as <-. constructor; cbn [idx closed tm tw ws sent log]; auto.
      * intros k. other k w.
        -- unfold phase. cbn [idx closed tm tw ws sent log]. rewrite !upd_same.
           repeat split; auto. apply repeat_length.
        -- apply (phase_other s _ w k); cbn; auto; rewrite upd_other by assumption; reflexivity.
      * rewrite Hc. apply sum_ext. intros k _. unfold is_closed. cbn. other k w.
        -- rewrite !upd_same, Ew. reflexivity.
        -- rewrite !upd_other by assumption. reflexivity.
      * intros k m i. rewrite Hl. unfold expected. cbn [sent ws tw]. other k w.
        -- rewrite !upd_same, Ew, Etw. destruct (nth_error (sent s) i); [|reflexivity].
           destruct (i0 =? i); [|reflexivity].
           rewrite nth_repeat. reflexivity.
        -- rewrite !upd_other by assumption. reflexivity.
    + assert (q = [] /\ tm s w = [] /\ idx s = nt) as (-> & Etm & Ei).
      { destruct Hpw as [(H & _)|[(H1 & i & H2 & H3)|(H1 & H2 & H3)]]; try discriminate.
        injection H2 as ->. auto. }
      injection Hstep as <-. constructor; cbn [idx closed tm tw ws sent log]; auto.
      * intros k. other k w.
        -- unfold phase. cbn [idx closed tm tw ws sent log]. rewrite !upd_same. auto.
        -- apply (phase_other s _ w k); cbn; auto; rewrite upd_other by assumption; reflexivity.
      * rewrite Hc. apply sum_ext. intros k _. unfold is_closed. cbn. other k w.
        -- rewrite !upd_same, Ew. reflexivity.
        -- rewrite !upd_other by assumption. reflexivity.
      * intros k m i. rewrite Hl. unfold expected. cbn [sent ws tw]. other k w.
        -- rewrite !upd_same, Ew, Etw. reflexivity.
        -- rewrite !upd_other by assumption. reflexivity.
  - (* AMember *)
    destruct (Nat.ltb_spec w nw) as [Hlt|]; [cbn [negb] in Hstep|discriminate].
    destruct (ws s w) as [| |i0 back| |] eqn:Ew; try discriminate.
    destruct (nth_error back m0) as [[|]|] eqn:Em; try discriminate.
    pose proof (Hp w) as Hpw. unfold phase in Hpw. rewrite Ew in Hpw. destruct Hpw as (Etm & Etw & Elen & Esent).
    assert (m0 < length back) as Hm0 by (apply nth_error_Some; congruence).
    injection Hstep as <-. constructor; cbn [idx closed tm tw ws sent log]; auto.
    + intros k. other k w.
      * unfold phase. cbn [idx closed tm tw ws sent log]. rewrite upd_same. rewrite set_nth_length. auto.
      * apply (phase_other s _ w k); cbn; auto; rewrite upd_other by assumption; reflexivity.
    + rewrite Hc. apply sum_ext. intros k _. unfold is_closed. cbn. other k w.
      * rewrite upd_same, Ew. reflexivity.
      * rewrite upd_other by assumption. reflexivity.
    + intros k m i. rewrite count_occ_app, Hl. cbn [count_occ]. unfold expected. cbn [sent ws tw].
      destruct (tdec (w, m0, i0) (k, m, i)) as [Heq|Hneq].
      * injection Heq as <- <- <-. rewrite Esent, Nat.eqb_refl. cbn [andb].
        rewrite upd_same, Ew. rewrite (proj2 (Nat.ltb_lt m0 (g w))) by lia. rewrite Nat.eqb_refl.
        rewrite nth_set_nth, Nat.eqb_refl. rewrite (proj2 (Nat.ltb_lt m0 (length back))) by lia. cbn [andb].
        rewrite (nth_error_nth back m0 false Em). reflexivity.
      * rewrite Nat.add_0_r. destruct (nth_error (sent s) i) as [w'|] eqn:Es; [|reflexivity].
        other k w; [|rewrite upd_other by assumption; reflexivity].
        rewrite upd_same, Ew. destruct ((w' =? w) && (m <? g w)); [|reflexivity].
        destruct (Nat.eqb_spec i0 i) as [->|]; [|reflexivity].
        rewrite nth_set_nth. destruct (Nat.eqb_spec m m0) as [->|]; [congruence|reflexivity].
  - (* ADone *)
    destruct (Nat.ltb_spec w nw) as [Hlt|]; [cbn [negb] in Hstep|discriminate].
    destruct (ws s w) as [| |i0 back| |] eqn:Ew; try discriminate.
    destruct (forallb (fun b => b) back) eqn:Eall; [|discriminate].
    pose proof (Hp w) as Hpw. unfold phase in Hpw. rewrite Ew in Hpw. destruct Hpw as (Etm & Etw & Elen & Esent).
    injection Hstep as <-. constructor; cbn [idx closed tm tw ws sent log]; auto.
    + intros k. other k w.
      * unfold phase. cbn [idx closed tm tw ws sent log]. rewrite !upd_same, Etm. split; [exact Etw|right; exists i0; reflexivity].
      * apply (phase_other s _ w k); cbn; auto; rewrite upd_other by assumption; reflexivity.
    + rewrite Hc. apply sum_ext. intros k _. unfold is_closed. cbn. other k w.
      * rewrite !upd_same, Ew. reflexivity.
      * rewrite !upd_other by assumption. reflexivity.
    + intros k m i. rewrite Hl. unfold expected. cbn [sent ws tw]. other k w.
      * rewrite upd_same, Ew. destruct (nth_error (sent s) i); [|reflexivity].
        destruct (Nat.ltb_spec m (g w)) as [Hm|Hm]; [|rewrite andb_false_r; reflexivity].
        destruct ((n =? w) && true); [|reflexivity].
        destruct (i0 =? i); [|reflexivity].
        assert (nth m back false = true) as ->; [|reflexivity].
        rewrite forallb_forall in Eall. apply Eall, nth_In. lia.
      * rewrite upd_other by assumption. reflexivity.
  - (* AExit *)
    destruct (Nat.ltb_spec w nw) as [Hlt|]; [cbn [negb] in Hstep|discriminate].
    destruct (ws s w) eqn:Ew; try discriminate.
    pose proof (Hp w) as Hpw. unfold phase in Hpw. rewrite Ew in Hpw. destruct Hpw as (Etm & Etw & Ei).
    injection Hstep as <-. constructor; cbn [idx closed tm tw ws sent log]; auto.
    + intros k. other k w.
      * unfold phase. cbn [idx closed tm tw ws sent log]. rewrite !upd_same, Etm. auto.
      * apply (phase_other s _ w k); cbn; auto; rewrite upd_other by assumption; reflexivity.
    + rewrite Hc. apply sum_ext. intros k _. unfold is_closed. cbn. other k w.
      * rewrite !upd_same, Ew, Etm. reflexivity.
      * rewrite !upd_other by assumption. reflexivity.
    + intros k m i. rewrite Hl. unfold expected. cbn [sent ws tw]. other k w.
      * rewrite upd_same, Ew. reflexivity.
      * rewrite upd_other by assumption. reflexivity.
Qed.

Lemma inv_run sched : forall s s', inv s -> run nw nt g s sched = Some s' -> inv s'.
Proof.
  induction sched as [|a sched IH]; intros s s' H Hr; cbn [run] in Hr; [injection Hr as <-; exact H|].
  destruct (step nw nt g s a) as [s1|] eqn:E; [|discriminate]. eapply IH; [|exact Hr]. eapply inv_step; eassumption.
Qed.

Lemma inv_reach sched s : run nw nt g init sched = Some s -> inv s.
Proof. apply inv_run, inv_init. Qed.

(* ---------- progress ---------- *)

Lemma is_closed_le s w : is_closed s w <= 1.
Proof. unfold is_closed. destruct (ws s w); auto. destruct (tm s w); auto. Qed.



Lemma progress s : inv s -> closed s = nw \/ exists a s', step nw nt g s a = Some s'.
Proof.
  intros [Hs Hi Hw Hp Hc Hl].
  destruct (Nat.eq_dec (closed s) nw) as [E|E]; [left; exact E|right].
  assert (closed s <= nw) by (rewrite Hc; apply sum_le_full; intros; apply is_closed_le).
  destruct (sum_lt_some (is_closed s) nw) as (w & Hlt & H0); [apply is_closed_le|lia|].
  pose proof (Hp w) as Hpw. unfold phase in Hpw.
  assert (Hb : negb (w <? nw) = false) by (destruct (Nat.ltb_spec w nw); [reflexivity|lia]).
  assert (Hb' : negb (closed s <? nw) = false) by (destruct (Nat.ltb_spec (closed s) nw); [reflexivity|lia]).
  destruct (ws s w) as [| |i back| |] eqn:Ew.
  - exists (AReady w). cbn [step]. rewrite Hb, Ew. eauto.
  - destruct Hpw as [(_ & [H1|[j H1]])|[(_ & i & H1 & _)|(_ & H1 & _)]].
    + exists (AMaster w). cbn [step]. rewrite Hb, Hb', H1. cbn [orb]. destruct (idx s <? nt); eauto.
    + exists (AMaster w). cbn [step]. rewrite Hb, Hb', H1. cbn [orb]. eauto.
    + exists (ARecv w). cbn [step]. rewrite Hb, Ew, H1. eauto.
    + exists (ARecv w). cbn [step]. rewrite Hb, Ew, H1. eauto.
  - destruct (forallb (fun b => b) back) eqn:Eall.
    + exists (ADone w). cbn [step]. rewrite Hb, Ew, Eall. eauto.
    + assert (exists m, nth_error back m = Some false) as [m Hm].
      { clear -Eall. induction back as [|b back IH]; [discriminate|]. destruct b.
        - cbn [forallb andb] in Eall. destruct (IH Eall) as [m Hm]. exists (S m). exact Hm.
        - exists 0. reflexivity. }
      exists (AMember w m). cbn [step]. rewrite Hb, Ew, Hm. eauto.
  - exists (AExit w). cbn [step]. rewrite Hb, Ew. eauto.
  - destruct Hpw as (_ & [H1|H1] & _).
    + unfold is_closed in H0. rewrite Ew, H1 in H0. discriminate.
    + exists (AMaster w). cbn [step]. rewrite Hb, Hb', H1. cbn [orb]. eauto.
Qed.

(* ---------- termination ---------- *)
Definition undone (back : list bool) : nat := nsum (map (fun b : bool => if b then 0 else 1) back).
Definition mu_tm (l : list to_master) : nat :=
  nsum (map (fun m => match m with MReady => 2 | MDone _ => 1 | MExit => 1 end) l).
Definition mu_tw (gs : nat) (l : list to_worker) : nat :=
  nsum (map (fun m => match m with WStart _ => 6 + gs | WExit => 1 end) l).
Definition mu_ws (x : wstate) : nat :=
  match x with WantReady => 5 | Waiting => 2 | Running _ back => 7 + undone back | Exiting => 2 | Closed => 0 end.
Definition mu_w (s : state) (w : nat) : nat := mu_ws (ws s w) + mu_tm (tm s w) + mu_tw (g w) (tw s w).

Variable G : nat.
Hypothesis HG : forall w, w < nw -> g w <= G.

Definition mu (s : state) : nat := (nt - idx s) * (G + 5) + nsum (map (mu_w s) (seq 0 nw)).

Lemma mu_tm_app l l' : mu_tm (l ++ l') = mu_tm l + mu_tm l'.
Proof. unfold mu_tm. rewrite map_app, nsum_app. reflexivity. Qed.
Lemma mu_tw_app n l l' : mu_tw n (l ++ l') = mu_tw n l + mu_tw n l'.
Proof. unfold mu_tw. rewrite map_app, nsum_app. reflexivity. Qed.

Lemma undone_repeat n : undone (repeat false n) = n.
Proof. unfold undone. induction n; simpl; auto. Qed.
Lemma undone_set back m : nth_error back m = Some false -> S (undone (set_nth back m true)) = undone back.
Proof.
  unfold undone. revert m; induction back as [|b back IH]; intros [|m] H; simpl in H; try discriminate.
  - injection H as ->. reflexivity.
  - specialize (IH m H). cbn [set_nth map nsum fold_right] in *. unfold nsum in IH. lia.
Qed.
Lemma undone_all back : forallb (fun b => b) back = true -> undone back = 0.
Proof.
  unfold undone. induction back as [|b back IH]; intros H; [reflexivity|].
  cbn [forallb] in H. apply andb_prop in H. destruct H as [-> H]. simpl. apply IH. exact H.
Qed.

Lemma mu_dec s s' w : w < nw -> (forall k, k <> w -> mu_w s' k = mu_w s k) ->
  (nt - idx s') * (G + 5) + mu_w s' w < (nt - idx s) * (G + 5) + mu_w s w -> mu s' < mu s.
Proof.
  intros Hw Hk Hlt. unfold mu.
  pose proof (sum_change (mu_w s') (mu_w s) nw w Hw Hk). lia.
Qed.

Lemma mu_step s a s' : step nw nt g s a = Some s' -> mu s' < mu s.
Proof.
  intros Hstep. destruct a as [w|w|w|w m0|w|w]; cbn [step] in Hstep;
    (destruct (Nat.ltb_spec w nw) as [Hlt|]; [cbn [negb orb] in Hstep|discriminate]); pose proof (HG w Hlt) as HGw.
  - destruct (ws s w) eqn:E; try discriminate. injection Hstep as <-.
    apply (mu_dec s _ w Hlt).
    + intros k Hk. unfold mu_w. cbn. rewrite !upd_other by assumption. reflexivity.
    + unfold mu_w. cbn [idx ws tm tw]. rewrite !upd_same, E, mu_tm_app. cbn. lia.
  - destruct (negb (closed s <? nw)); [discriminate|].
    destruct (tm s w) as [|[|j|] q] eqn:E; [discriminate| | |].
    + destruct (Nat.ltb_spec (idx s) nt) as [Hi|Hi]; injection Hstep as <-; apply (mu_dec s _ w Hlt).
      * intros k Hk. unfold mu_w. cbn. rewrite !upd_other by assumption. reflexivity.
      * unfold mu_w. cbn [idx ws tm tw]. rewrite !upd_same, E, mu_tw_app.
        change (mu_tm (MReady :: q)) with (2 + mu_tm q). cbn [mu_tw map nsum fold_right].
        replace (nt - idx s) with (S (nt - S (idx s))) by lia. cbn [Nat.mul]. lia.
      * intros k Hk. unfold mu_w. cbn. rewrite !upd_other by assumption. reflexivity.
      * unfold mu_w. cbn [idx ws tm tw]. rewrite !upd_same, E, mu_tw_app.
        change (mu_tm (MReady :: q)) with (2 + mu_tm q). cbn [mu_tw map nsum fold_right]. lia.
    + injection Hstep as <-; apply (mu_dec s _ w Hlt).
      * intros k Hk. unfold mu_w. cbn. rewrite !upd_other by assumption. reflexivity.
      * unfold mu_w. cbn [idx ws tm tw]. rewrite !upd_same, E.
        change (mu_tm (MDone j :: q)) with (1 + mu_tm q). lia.
    + injection Hstep as <-; apply (mu_dec s _ w Hlt).
      * intros k Hk. unfold mu_w. cbn. rewrite !upd_other by assumption. reflexivity.
      * unfold mu_w. cbn [idx ws tm tw]. rewrite !upd_same, E.
        change (mu_tm (MExit :: q)) with (1 + mu_tm q). lia.
  - destruct (ws s w) eqn:E; try discriminate. destruct (tw s w) as [|[i|] q] eqn:Et; [discriminate| |];
    injection Hstep as <-; apply (mu_dec s _ w Hlt);
    try (intros k Hk; unfold mu_w; cbn; rewrite !upd_other by assumption; reflexivity);
    unfold mu_w; cbn [idx ws tm tw]; rewrite !upd_same, E, Et; cbn [mu_ws].
    + rewrite undone_repeat. change (mu_tw (g w) (WStart i :: q)) with (6 + g w + mu_tw (g w) q). lia.
    + change (mu_tw (g w) (WExit :: q)) with (1 + mu_tw (g w) q). lia.
  - destruct (ws s w) as [| |i0 back| |] eqn:E; try discriminate.
    destruct (nth_error back m0) as [[|]|] eqn:Em; try discriminate.
    injection Hstep as <-. apply (mu_dec s _ w Hlt).
    + intros k Hk. unfold mu_w. cbn. rewrite !upd_other by assumption. reflexivity.
    + unfold mu_w. cbn [idx ws tm tw]. rewrite !upd_same, E. cbn [mu_ws].
      pose proof (undone_set back m0 Em). lia.
  - destruct (ws s w) as [| |i0 back| |] eqn:E; try discriminate.
    destruct (forallb (fun b => b) back) eqn:Eall; [|discriminate].
    injection Hstep as <-. apply (mu_dec s _ w Hlt).
    + intros k Hk. unfold mu_w. cbn. rewrite !upd_other by assumption. reflexivity.
    + unfold mu_w. cbn [idx ws tm tw]. rewrite !upd_same, E, mu_tm_app. cbn [mu_ws].
      rewrite (undone_all back Eall). cbn. lia.
  - destruct (ws s w) eqn:E; try discriminate. injection Hstep as <-.
    apply (mu_dec s _ w Hlt).
    + intros k Hk. unfold mu_w. cbn. rewrite !upd_other by assumption. reflexivity.
    + unfold mu_w. cbn [idx ws tm tw]. rewrite !upd_same, E, mu_tm_app. cbn. lia.
Qed.

Lemma run_bounded sched : forall s s', run nw nt g s sched = Some s' -> length sched + mu s' <= mu s.
Proof.
  induction sched as [|a sched IH]; intros s s' H; cbn [run] in H; [injection H as <-; simpl; lia|].
  destruct (step nw nt g s a) as [s1|] eqn:E; [|discriminate].
  apply mu_step in E. apply IH in H. cbn [length]. lia.
Qed.

Lemma mu_init_sum n : nsum (map (mu_w init) (seq 0 n)) = 5 * n.
Proof.
  induction n as [|n IH]; [reflexivity|].
  rewrite seq_S, map_app, nsum_app, IH. unfold mu_w. cbn [map nsum fold_right init ws tm tw mu_ws mu_tm mu_tw]. lia.
Qed.
Lemma mu_init : mu init = nt * (G + 5) + 5 * nw.
Proof.
  unfold mu. cbn [idx init]. rewrite Nat.sub_0_r. f_equal. apply mu_init_sum.
Qed.

Lemma schedules_bounded sched s : run nw nt g init sched = Some s -> length sched <= nt * (G + 5) + 5 * nw.
Proof. intros H. apply run_bounded in H. rewrite mu_init in H. lia. Qed.

(* every run can be completed *)
Lemma completes s : inv s -> exists sched s', run nw nt g s sched = Some s' /\ closed s' = nw.
Proof.
  intros H. remember (mu s) as n eqn:En. revert s H En. induction n as [n IH] using lt_wf_ind. intros s H ->.
  destruct (progress s H) as [E|(a & s' & E)]; [exists [], s; split; [reflexivity|exact E]|].
  destruct (IH (mu s') (mu_step _ _ _ E) s' (inv_step _ _ _ H E) eq_refl) as (sched & s'' & H1 & H2).
  exists (a :: sched), s''. split; [cbn [run]; rewrite E; exact H1|exact H2].
Qed.

End Protocol.

(* ---------- final states ---------- *)
Lemma final_exact nw nt g sched s : 1 <= nw -> run nw nt g init sched = Some s -> closed s = nw ->
  idx s = nt /\ (forall w, w < nw -> ws s w = Closed /\ tm s w = [] /\ tw s w = []) /\
  forall i, i < nt -> exists w, w < nw /\ nth_error (sent s) i = Some w /\
    forall w' m, count_occ tdec (log s) (w', m, i) = if (w' =? w) && (m <? g w) then 1 else 0.
Proof.
  intros Hnw Hr Hcl. pose proof (inv_reach nw nt g sched s Hr) as [Hs Hi Hw Hp Hc Hl].
  rewrite Hcl in Hc. symmetry in Hc.
  assert (Hall : forall w, w < nw -> ws s w = Closed /\ tm s w = []).
  { intros w Hlt. pose proof (sum_full_all (is_closed s) nw (is_closed_le s) Hc w Hlt) as H1.
    unfold is_closed in H1. destruct (ws s w); try discriminate. destruct (tm s w); [auto|discriminate]. }
  assert (Hidx : idx s = nt).
  { destruct (Hall 0 ltac:(lia)) as [E1 E2]. pose proof (Hp 0) as H0. unfold phase in H0. rewrite E1 in H0. tauto. }
  split; [exact Hidx|]. split.
  { intros w Hlt. destruct (Hall w Hlt) as [E1 E2]. pose proof (Hp w) as H0. unfold phase in H0. rewrite E1 in H0. tauto. }
  intros i Hlt. destruct (nth_error (sent s) i) as [w|] eqn:E.
  - assert (w < nw) as Hwlt. { rewrite Forall_forall in Hw. apply Hw. eapply nth_error_In; eassumption. }
    exists w. split; [exact Hwlt|]. split; [reflexivity|]. intros w' m. rewrite Hl. unfold expected. rewrite E.
    destruct (Nat.eqb_spec w w') as [<-|Hne].
    + rewrite Nat.eqb_refl. destruct (Hall w Hwlt) as [-> _]. reflexivity.
    + destruct (Nat.eqb_spec w' w); [congruence|reflexivity].
  - apply nth_error_None in E. lia.
Qed.

(* the master never gives a worker a task before all its members are back from
   all earlier ones *)
Lemma one_at_a_time nw nt g sched s w s' : run nw nt g init sched = Some s ->
  step nw nt g s (AMaster w) = Some s' -> length (sent s') <> length (sent s) ->
  forall i m, nth_error (sent s) i = Some w -> m < g w -> count_occ tdec (log s) (w, m, i) = 1.
Proof.
  intros Hr Hst Hne i m Hi Hm. pose proof (inv_reach nw nt g sched s Hr) as [Hs Hix Hw Hp Hc Hl].
  rewrite Hl. unfold expected. rewrite Hi, Nat.eqb_refl. cbn [andb]. rewrite (proj2 (Nat.ltb_lt m (g w)) Hm).
  cbn [step] in Hst. destruct (w <? nw); [cbn [negb orb] in Hst|discriminate].
  destruct (negb (closed s <? nw)); [discriminate|].
  pose proof (Hp w) as Hpw. unfold phase in Hpw.
  destruct (tm s w) as [|[|j|] q] eqn:E; [discriminate| | |].
  - destruct (ws s w).
    + reflexivity.
    + destruct Hpw as [(-> & _)|[(H & _)|(H & _)]]; try discriminate. reflexivity.
    + destruct Hpw as (H & _); discriminate.
    + reflexivity.
    + reflexivity.
  - injection Hst as <-. cbn in Hne. congruence.
  - injection Hst as <-. cbn in Hne. congruence.
Qed.

(* ---------- map() ---------- *)
Lemma insert_by_perm {R} (x : nat * R) l : Permutation (insert_by x l) (x :: l).
Proof.
  induction l as [|y l IH]; cbn [insert_by]; [apply Permutation_refl|].
  destruct (fst x <=? fst y); [apply Permutation_refl|].
  eapply perm_trans; [apply perm_skip, IH|apply perm_swap].
Qed.
Lemma sort_by_perm {R} (l : list (nat * R)) : Permutation (sort_by l) l.
Proof.
  induction l as [|x l IH]; [apply Permutation_refl|]. cbn [sort_by].
  eapply perm_trans; [apply insert_by_perm|]. apply perm_skip, IH.
Qed.
Lemma insert_by_sorted {R} (x : nat * R) l :
  StronglySorted (fun a b => fst a <= fst b) l -> StronglySorted (fun a b => fst a <= fst b) (insert_by x l).
Proof.
  induction 1 as [|y l Hs IH Hall]; cbn [insert_by]; [repeat constructor|].
  destruct (Nat.leb_spec (fst x) (fst y)).
  - constructor; [constructor; assumption|]. constructor; [assumption|].
    eapply Forall_impl; [|exact Hall]. cbv beta. intros; lia.
  - constructor; [exact IH|].
    apply Forall_forall. intros z Hz. apply (Permutation_in _ (insert_by_perm x l)) in Hz.
    destruct Hz as [<-|Hz]; [lia|]. rewrite Forall_forall in Hall. apply Hall, Hz.
Qed.
Lemma sort_by_sorted {R} (l : list (nat * R)) : StronglySorted (fun a b => fst a <= fst b) (sort_by l).
Proof. induction l; cbn [sort_by]; [constructor|apply insert_by_sorted; assumption]. Qed.

Lemma sorted_unique {R} (l1 l2 : list (nat * R)) :
  StronglySorted (fun a b => fst a <= fst b) l1 -> StronglySorted (fun a b => fst a <= fst b) l2 ->
  Permutation l1 l2 -> (forall a b, In a l1 -> In b l1 -> fst a = fst b -> a = b) -> l1 = l2.
Proof.
  intros H1. revert l2. induction H1 as [|x l1 Hs IH Hx]; intros l2 H2 HP Hk.
  - apply Permutation_nil in HP. congruence.
  - destruct l2 as [|y l2]; [apply Permutation_sym, Permutation_nil in HP; discriminate|].
    inversion H2 as [|? ? Hs2 Hy]; subst.
    assert (x = y) as ->.
    { assert (In y (x :: l1)) as Hyin by (apply (Permutation_in _ (Permutation_sym HP)); left; reflexivity).
      assert (In x (y :: l2)) as Hxin by (apply (Permutation_in _ HP); left; reflexivity).
      apply Hk; [left; reflexivity|exact Hyin|].
      rewrite Forall_forall in Hx, Hy.
      destruct Hyin as [->|Hyin]; [reflexivity|]. destruct Hxin as [->|Hxin]; [reflexivity|].
      specialize (Hx y Hyin). specialize (Hy x Hxin). lia. }
    f_equal. apply IH; [exact Hs2|eapply Permutation_cons_inv; exact HP|].
    intros a b Ha Hb. apply Hk; right; assumption.
Qed.

Lemma count_filter_log L w i :
  count_occ Nat.eq_dec (map snd (filter (fun e : nat * nat * nat => (fst (fst e) =? w) && (snd (fst e) =? 0)) L)) i
  = count_occ tdec L (w, 0, i).
Proof.
  induction L as [|[[a b] c] L IH]; [reflexivity|]. cbn [filter fst snd].
  destruct (Nat.eqb_spec a w) as [->|Ha]; cbn [andb].
  - destruct (Nat.eqb_spec b 0) as [->|Hb].
    + cbn [map snd count_occ]. rewrite IH. destruct (Nat.eq_dec c i) as [->|Hc].
      * destruct (tdec (w, 0, i) (w, 0, i)); [reflexivity|congruence].
      * destruct (tdec (w, 0, c) (w, 0, i)); [congruence|reflexivity].
    + rewrite IH. cbn [count_occ]. destruct (tdec (w, b, c) (w, 0, i)); [congruence|reflexivity].
  - rewrite IH. cbn [count_occ]. destruct (tdec (a, b, c) (w, 0, i)); [congruence|reflexivity].
Qed.

Lemma count_concat {A} (dec : forall x y : A, {x = y} + {x <> y}) ll x :
  count_occ dec (concat ll) x = nsum (map (fun l => count_occ dec l x) ll).
Proof. induction ll as [|l ll IH]; [reflexivity|]. cbn [concat map nsum fold_right]. rewrite count_occ_app, IH. reflexivity. Qed.

Lemma sum_indicator n w : w < n -> nsum (map (fun k => if k =? w then 1 else 0) (seq 0 n)) = 1.
Proof.
  intros H.
  pose proof (sum_change (fun k => if k =? w then 1 else 0) (fun _ => 0) n w H) as E.
  cbv beta in E. rewrite Nat.eqb_refl in E.
  assert (nsum (map (fun _ : nat => 0) (seq 0 n)) = 0) as E0 by (clear; induction (seq 0 n); simpl; auto).
  rewrite E0 in E. rewrite Nat.add_0_r in E. rewrite E; [reflexivity|].
  intros k Hk. destruct (Nat.eqb_spec k w); [contradiction|reflexivity].
Qed.

Lemma map_results_ok {R} nw nt g sched s (f : nat -> R) : 1 <= nw -> (forall w, w < nw -> 1 <= g w) ->
  run nw nt g init sched = Some s -> closed s = nw -> map_results nw f s = map f (seq 0 nt).
Proof.
  intros Hnw Hg Hr Hcl. destruct (final_exact nw nt g sched s Hnw Hr Hcl) as (Hidx & _ & Hex).
  pose proof (inv_reach nw nt g sched s Hr) as [Hs Hi Hw Hp Hc Hl].
  unfold map_results, group_results.
  set (T := concat (map (fun w => map snd (filter (fun e : nat * nat * nat => (fst (fst e) =? w) && (snd (fst e) =? 0)) (log s))) (seq 0 nw))).
  assert (HT : concat (map (fun w => map (fun e => (snd e, f (snd e)))
      (filter (fun e => (fst (fst e) =? w) && (snd (fst e) =? 0)) (log s))) (seq 0 nw)) = map (fun i => (i, f i)) T).
  { unfold T. rewrite concat_map, map_map. f_equal. apply map_ext. intros w. rewrite map_map. reflexivity. }
  rewrite HT.
  assert (HPT : Permutation T (seq 0 nt)).
  { apply (Permutation_count_occ Nat.eq_dec). intros i. unfold T. rewrite count_concat, map_map.
    rewrite (map_ext _ (fun w => count_occ tdec (log s) (w, 0, i))) by (intros; apply count_filter_log).
    destruct (Nat.ltb_spec i nt) as [Hlt|Hge].
    - destruct (Hex i Hlt) as (w & Hwlt & _ & Hcnt).
      rewrite (map_ext _ (fun k => if k =? w then 1 else 0)).
      + rewrite sum_indicator by exact Hwlt. symmetry.
        assert (NoDup (seq 0 nt)) as Hnd by apply seq_NoDup.
        rewrite (NoDup_count_occ' Nat.eq_dec) in Hnd. apply Hnd. apply in_seq. lia.
      + intros k. rewrite Hcnt. rewrite (proj2 (Nat.ltb_lt 0 (g w))) by (apply Hg; exact Hwlt). rewrite andb_true_r. reflexivity.
    - assert (count_occ Nat.eq_dec (seq 0 nt) i = 0) as ->.
      { apply count_occ_not_In. intros Hin. apply in_seq in Hin. lia. }
      rewrite (map_ext _ (fun _ => 0)).
      + clear; induction (seq 0 nw); simpl; auto.
      + intros w. rewrite Hl. unfold expected.
        assert (nth_error (sent s) i = None) as -> by (apply nth_error_None; lia). reflexivity. }
  assert (Hsorted : StronglySorted (fun a b : nat * R => fst a <= fst b) (map (fun i => (i, f i)) (seq 0 nt))).
  { clear. generalize 0 as a. induction nt as [|n IH]; intros a; cbn [seq map]; constructor; [apply IH|].
    apply Forall_forall. intros x Hx. apply in_map_iff in Hx. destruct Hx as (j & <- & Hj). apply in_seq in Hj. simpl. lia. }
  rewrite (sorted_unique (sort_by (map (fun i => (i, f i)) T)) (map (fun i => (i, f i)) (seq 0 nt))).
  - rewrite map_map. reflexivity.
  - apply sort_by_sorted.
  - exact Hsorted.
  - eapply perm_trans; [apply sort_by_perm|]. apply Permutation_map, HPT.
  - intros a b Ha Hb. apply (Permutation_in _ (sort_by_perm _)) in Ha, Hb.
    apply in_map_iff in Ha, Hb. destruct Ha as (i & <- & _), Hb as (j & <- & _). cbn. congruence.
Qed.

Lemma gsize_bound (g : nat -> nat) nw : exists G, forall w, w < nw -> g w <= G.
Proof.
  induction nw as [|n [G IH]]; [exists 0; intros; lia|].
  exists (Nat.max G (g n)). intros w Hw. destruct (Nat.eq_dec w n) as [->|]; [lia|].
  specialize (IH w ltac:(lia)). lia.
Qed.

Lemma can_complete nw nt g sched s : run nw nt g init sched = Some s ->
  exists more s', run nw nt g s more = Some s' /\ closed s' = nw.
Proof.
  intros H. destruct (gsize_bound g nw) as [G HG].
  exact (completes nw nt g G HG s (inv_reach nw nt g sched s H)).
Qed.
