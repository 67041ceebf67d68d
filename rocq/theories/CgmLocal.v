From Verif Require Import Base BaseProofs Num RanksSpec DaSpec DaMore FiberModel FiberMore CgmModel CgmSpec CgmProofs.
From Coq Require Import Sorted Permutation.
Local Open Scope nat_scope.

Lemma nodup_app_r : forall (A : Type) (a b : list A), NoDup (a ++ b) -> NoDup a /\ NoDup b /\ forall x, In x a -> ~ In x b.
Proof.
  intros A. induction a as [|y a IH]; intros b H; cbn [app] in H; [repeat split; [constructor|exact H|intros x []]|]. inversion H as [|? ? H1 H2]; subst. destruct (IH b H2) as [I1 [I2 I3]]. rewrite in_app_iff in H1. repeat split; [constructor; [tauto|exact I1]|exact I2|].
  intros x [<-|Hx]; [tauto|apply I3, Hx].
Qed.
Lemma nodup_app_i : forall (A : Type) (a b : list A), NoDup a -> NoDup b -> (forall x, In x a -> ~ In x b) -> NoDup (a ++ b).
Proof. intros A. induction a as [|y a IH]; intros b Ha Hb H; [exact Hb|]. cbn [app]. inversion Ha as [|? ? H1 H2]; subst. constructor; [rewrite in_app_iff; intros [G|G]; [contradiction|exact (H y (or_introl eq_refl) G)]|]. apply IH; [exact H2|exact Hb|intros x Hx; apply H; right; exact Hx]. Qed.
Lemma nodup_parts : forall (A : Type) (ll : list (list A)), NoDup (concat ll) ->
  (forall l, In l ll -> NoDup l) /\ forall r q a b x, nth_error ll r = Some a -> nth_error ll q = Some b -> In x a -> In x b -> r = q.
Proof.
  intros A. induction ll as [|l ll IH]; intros H; [split; [intros l []|intros r q a b x Hr; destruct r; discriminate]|]. cbn [concat] in H. apply nodup_app_r in H. destruct H as [H1 [H2 H3]]. destruct (IH H2) as [I1 I2].
  split; [intros m [<-|Hm]; [exact H1|apply I1, Hm]|]. intros [|r] [|q] a b x Hr Hq Ha Hb; cbn [nth_error] in *; [reflexivity| | |f_equal; eapply I2; eassumption].
  - injection Hr as ->. exfalso. apply (H3 x Ha). apply in_concat. exists b. split; [eapply nth_error_In; exact Hq|exact Hb].
  - injection Hq as ->. exfalso. apply (H3 x Hb). apply in_concat. exists a. split; [eapply nth_error_In; exact Hr|exact Ha].
Qed.
Lemma nodup_concat_i : forall (A : Type) (ll : list (list A)), (forall l, In l ll -> NoDup l) -> (forall r q a b x, nth_error ll r = Some a -> nth_error ll q = Some b -> In x a -> In x b -> r = q) -> NoDup (concat ll).
Proof.
  intros A. induction ll as [|l ll IH]; intros H1 H2; [constructor|]. cbn [concat]. apply nodup_app_i; [apply H1; left; reflexivity| |].
  - apply IH; [intros m Hm; apply H1; right; exact Hm|]. intros r q a b x Hr Hq Ha Hb. specialize (H2 (S r) (S q) a b x Hr Hq Ha Hb). lia.
  - intros x Hx G. apply in_concat in G. destruct G as [b [Hb G]]. apply In_nth_error in Hb. destruct Hb as [q Hq]. specialize (H2 0 (S q) l b x eq_refl Hq Hx G). lia.
Qed.
Lemma nodup_inj_map : forall (A B : Type) (f : A -> B) l, NoDup l -> (forall x y, In x l -> In y l -> f x = f y -> x = y) -> NoDup (map f l).
Proof.
  intros A B f l H. induction H as [|x l Hx H IH]; intros G; [constructor|]. cbn [map]. constructor.
  - intros Hin. apply in_map_iff in Hin. destruct Hin as [y [E Hy]]. assert (y = x) by (apply G; [right; exact Hy|left; reflexivity|exact E]). subst. contradiction.
  - apply IH. intros a b Ha Hb. apply G; right; assumption.
Qed.
Lemma nth_nth_error : forall (A : Type) (l : list A) a d x, a < length l -> nth a l d = x -> nth_error l a = Some x.
Proof. intros A l a d x H E. rewrite <- E. apply nth_error_nth'. exact H. Qed.

Lemma find_index : forall (f : list nat -> bool) (ll : list (list nat)) k r p, nth_error ll r = Some p -> f p = true -> (forall q b, q < r -> nth_error ll q = Some b -> f b = false) ->
  option_map fst (find (fun x => f (snd x)) (combine (seq k (length ll)) ll)) = Some (k + r).
Proof.
  intros f. induction ll as [|l ll IH]; intros k r p Hr Hf Hq; [destruct r; discriminate|]. cbn [length seq combine find snd]. destruct r as [|r]; cbn [nth_error] in Hr.
  - injection Hr as ->. rewrite Hf. cbn. f_equal. lia.
  - rewrite (Hq 0 l ltac:(lia) eq_refl). rewrite (IH (S k) r p Hr Hf); [f_equal; lia|]. intros q b Hlt Hb. apply (Hq (S q) b); [lia|exact Hb].
Qed.
Lemma length_zero_filter : forall (A : Type) (f : A -> bool) l, length (filter f l) = 0 <-> forall x, In x l -> f x = false.
Proof.
  intros A f l. split.
  - intros H x Hx. destruct (f x) eqn:E; [|reflexivity]. assert (G : In x (filter f l)) by (apply filter_In; auto). destruct (filter f l); [destruct G|discriminate].
  - intros H. rewrite filter_none by exact H. reflexivity.
Qed.
Lemma remove_paired_in : forall bad df w, In w (remove_paired bad df) <-> In w df /\ forall v, In v df -> si v = si w -> ~ In (sj v) bad.
Proof.
  intros bad df w. unfold remove_paired. rewrite filter_In, negb_true_iff, mem_false, in_map_iff. split.
  - intros [H1 H2]. split; [exact H1|]. intros v Hv E G. apply H2. exists v. split; [exact E|]. apply filter_In. split; [exact Hv|]. apply mem_iff. exact G.
  - intros [H1 H2]. split; [exact H1|]. intros [v [E Hv]]. apply filter_In in Hv. destruct Hv as [Hv G]. apply mem_iff in G. exact (H2 v Hv E G).
Qed.
Lemma desc_map : forall (l : list row), StronglySorted (fun a b => si b <= si a) l -> StronglySorted (fun a b => b <= a) (map si l).
Proof. intros l H. induction H as [|w l H IH F]; cbn [map]; constructor; [exact IH|]. apply Forall_forall. intros x Hx. apply in_map_iff in Hx. destruct Hx as [v [<- Hv]]. rewrite Forall_forall in F. apply F, Hv. Qed.
Lemma group_nums_in : forall df x t, In t (group_nums df x) <-> exists w, In w df /\ si w = x /\ sj w = t.
Proof.
  intros df x t. unfold group_nums. rewrite in_map_iff. split; [intros [w [E H]]; apply filter_In in H; destruct H as [H1 H2]; apply Nat.eqb_eq in H2; exists w; auto|].
  intros [w [H1 [H2 H3]]]. exists w. split; [exact H3|]. apply filter_In. split; [exact H1|]. apply Nat.eqb_eq. exact H2.
Qed.
Lemma existsb_mem : forall l m, existsb (fun n => mem n l) m = true <-> exists t, In t m /\ In t l.
Proof. intros l m. rewrite existsb_exists. split; intros [t [H1 H2]]; exists t; (split; [exact H1|]); apply mem_iff; exact H2. Qed.
Lemma existsb_mem_false : forall l m, existsb (fun n => mem n l) m = false -> forall t, In t m -> ~ In t l.
Proof. intros l m H t H1 H2. assert (G : existsb (fun n => mem n l) m = true) by (apply existsb_mem; eauto). congruence. Qed.
Lemma places_in : forall p test s, In s (places test p) <-> exists a, nth_error p a = Some s /\ test a = true.
Proof.
  intros p test s. unfold places. rewrite in_map_iff. split.
  - intros [[a x] [E H]]. cbn [snd] in E. subst x. apply filter_In in H. destruct H as [H1 H2]. apply FiberProofs.in_combine_seq in H1. rewrite Nat.sub_0_r in H1. exists a. split; [apply H1|exact H2].
  - intros [a [H1 H2]]. exists (a, s). split; [reflexivity|]. apply filter_In. split; [|exact H2]. apply FiberProofs.in_combine_seq. rewrite Nat.sub_0_r. split; [lia|exact H1].
Qed.

Lemma local_part_ne : forall near by_desc prims r p g bs, bs <> [] -> local_part near by_desc prims r p g bs =
  (let rows := frame_rows near p g bs in
   let centrals := places (fun a => count_gt rows a =? 0) p in
   let maybes := places (fun a => 0 <? count_wrong prims r rows a) p in
   let df := by_desc si rows in
   let possible := filter (fun w => negb (mem (si w) centrals)) (filter (fun w => si w <? sj w) df) in
   let possible := remove_paired centrals possible in
   let same_rank := filter (fun w => negb (mem (si w) maybes)) possible in
   let (centrals, maybes) := fold_left (local_step same_rank) (nub (map si same_rank)) (centrals, maybes) in
   Ok (df, centrals, filter (fun w => mem (si w) maybes) possible)).
Proof. intros near by_desc prims r p g bs H. unfold local_part. destruct bs; [congruence|reflexivity]. Qed.
Section Run.
Variables (N : nat) (near : nat -> nat -> bool) (by_desc : (row -> nat) -> list row -> list row)
  (prims ghosts : list (list nat)) (batches : list (list (list (nat * nat)))) (close : nat -> nat -> Prop).
Hypothesis HX : exchange_ok N close prims ghosts batches.
Hypothesis Hclose : forall i j, i < N -> j < N -> near i j = true -> close i j.
Hypothesis Hrefl : forall i, i < N -> near i i = true.
Hypothesis Hbd : by_desc_contract by_desc.
Notation cen := (cen N near).

Lemma prim_facts : NoDup (concat prims) /\ (forall s, In s (concat prims) <-> s < N).
Proof using All.
  pose proof (ex_once _ _ _ _ _ HX) as P. split; [eapply Permutation_NoDup; [symmetry; exact P|apply seq_NoDup]|]. intros s. split; intros H.
  - apply (Permutation_in _ P) in H. apply in_seq in H. lia.
  - apply (Permutation_in _ (Permutation_sym P)). apply in_seq. lia.
Qed.
Lemma prim_in : forall r p s, nth_error prims r = Some p -> In s p -> s < N.
Proof using All. intros r p s Hr Hs. apply prim_facts. apply in_concat. exists p. split; [eapply nth_error_In; exact Hr|exact Hs]. Qed.
Lemma prim_nodup : forall r p, nth_error prims r = Some p -> NoDup p.
Proof using All. intros r p Hr. apply (proj1 (nodup_parts _ _ (proj1 prim_facts))). eapply nth_error_In; exact Hr. Qed.
Lemma prim_same : forall r q a b s, nth_error prims r = Some a -> nth_error prims q = Some b -> In s a -> In s b -> r = q.
Proof using All. apply (proj2 (nodup_parts _ _ (proj1 prim_facts))). Qed.
Lemma prim_where : forall s, s < N -> exists r p, nth_error prims r = Some p /\ In s p.
Proof using All. intros s Hs. apply prim_facts in Hs. apply in_concat in Hs. destruct Hs as [p [Hp Hs]]. apply In_nth_error in Hp. destruct Hp as [r Hr]. exists r, p. auto. Qed.

Lemma owner_of : forall r p s, nth_error prims r = Some p -> In s p -> owner prims s = Some r.
Proof using All.
  intros r p s Hr Hs. unfold owner. apply (find_index (mem s) prims 0 r p Hr); [apply mem_iff; exact Hs|]. intros q b Hq Hb. apply mem_false. intros G. pose proof (prim_same q r b p s Hb Hr G Hs). lia.
Qed.

Section Rank.
Variables (r : nat) (p g : list nat) (bs : list (list (nat * nat))).
Hypotheses (Hp : nth_error prims r = Some p) (Hg : nth_error ghosts r = Some g) (Hbs : nth_error batches r = Some bs).
Let rows := frame_rows near p g bs.
Lemma ghost_facts : NoDup g /\ forall j, In j g -> j < N.
Proof using All. apply (ex_ghosts _ _ _ _ _ HX). eapply nth_error_In; exact Hg. Qed.
Lemma rows_in : forall w, In w rows <-> ri w < length p /\ rj w < length g /\ si w = nth (ri w) p 0 /\ sj w = nth (rj w) g 0 /\ near (si w) (sj w) = true.
Proof using All.
  destruct (ex_pairs _ _ _ _ _ HX r p g bs Hp Hg Hbs) as [_ [_ H]]. intros [a b s t]. unfold rows, frame_rows. rewrite filter_In, in_map_iff. cbn [ri rj si sj]. split.
  - intros [[[a' b'] [E Hin]] Hn]. cbn [fst snd] in E. injection E as <- <- <- <-. apply H in Hin. intuition.
  - intros [H1 [H2 [-> [-> Hn]]]]. split; [|exact Hn]. exists (a, b). split; [reflexivity|]. apply H. split; [exact H1|]. split; [exact H2|].
    apply Hclose; [apply (prim_in r p); [exact Hp|apply nth_In; exact H1]|apply ghost_facts; apply nth_In; exact H2|exact Hn].
Qed.
Lemma rows_nodup : NoDup rows.
Proof using All.
  destruct (ex_pairs _ _ _ _ _ HX r p g bs Hp Hg Hbs) as [_ [H _]]. unfold rows, frame_rows. apply NoDup_filter. apply nodup_inj_map; [exact H|]. intros [a b] [a' b'] _ _ E. cbn [fst snd] in E. injection E as -> -> _ _. reflexivity.
Qed.
Lemma row_si : forall w, In w rows -> In (si w) p.
Proof using All. intros w Hw. apply rows_in in Hw. destruct Hw as [H1 [_ [-> _]]]. apply nth_In. exact H1. Qed.
Lemma row_sj : forall w, In w rows -> sj w < N.
Proof using All. intros w Hw. apply rows_in in Hw. destruct Hw as [_ [H1 [_ [-> _]]]]. apply ghost_facts. apply nth_In. exact H1. Qed.
Lemma row_near : forall w, In w rows -> near (si w) (sj w) = true.
Proof using All. intros w Hw. apply rows_in in Hw. intuition. Qed.
Lemma row_make : forall a s t, nth_error p a = Some s -> t < N -> near s t = true -> exists w, In w rows /\ ri w = a /\ si w = s /\ sj w = t /\ nth_error g (rj w) = Some t.
Proof using All.
  intros a s t Ha Ht Hn. assert (Hs : In s p) by (eapply nth_error_In; exact Ha). assert (HsN : s < N) by (eapply prim_in; eassumption).
  assert (Hin : In t g) by (apply (ex_covers _ _ _ _ _ HX r p g s t Hp Hg Hs Ht); apply Hclose; assumption).
  apply In_nth_error in Hin. destruct Hin as [b Hb]. exists {| ri := a; rj := b; si := s; sj := t |}. cbn [ri rj si sj]. split; [|repeat split; assumption].
  apply rows_in. cbn [ri rj si sj]. split; [apply nth_error_Some; congruence|]. split; [apply nth_error_Some; congruence|]. split; [symmetry; apply nth_error_nth; exact Ha|]. split; [symmetry; apply nth_error_nth; exact Hb|exact Hn].
Qed.
Lemma row_ri : forall w, In w rows -> nth_error p (ri w) = Some (si w) /\ nth_error g (rj w) = Some (sj w).
Proof using All. intros w Hw. apply rows_in in Hw. destruct Hw as [H1 [H2 [H3 [H4 _]]]]. split; eapply nth_nth_error; eauto. Qed.
Lemma row_place : forall w v, In w rows -> In v rows -> si w = si v -> ri w = ri v.
Proof using All.
  intros w v Hw Hv E. destruct (row_ri w Hw) as [H1 _]. destruct (row_ri v Hv) as [H2 _]. apply (proj1 (NoDup_nth_error p) (prim_nodup r p Hp)); [apply nth_error_Some; congruence|congruence].
Qed.
Lemma row_eq : forall w v, In w rows -> In v rows -> si w = si v -> sj w = sj v -> w = v.
Proof using All.
  intros w v Hw Hv E1 E2. pose proof (row_place w v Hw Hv E1) as E3. destruct (row_ri w Hw) as [_ H1]. destruct (row_ri v Hv) as [_ H2].
  assert (E4 : rj w = rj v) by (apply (proj1 (NoDup_nth_error g) (proj1 ghost_facts)); [apply nth_error_Some; congruence|congruence]). destruct w, v. cbn in *. congruence.
Qed.
Lemma places_nodup : forall test, NoDup (places test p).
Proof using All.
  intros test. unfold places. apply nodup_map_filter. assert (E : map snd (combine (seq 0 (length p)) p) = p); [|rewrite E; exact (prim_nodup r p Hp)].
  generalize 0. clear. induction p as [|x l IH]; intros k; [reflexivity|]. cbn [length seq combine map snd]. rewrite IH. reflexivity.
Qed.

Let cs0 := places (fun a => count_gt rows a =? 0) p.
Let ms0 := places (fun a => 0 <? count_wrong prims r rows a) p.
Lemma cs0_in : forall s, In s cs0 <-> In s p /\ forall t, t < N -> s < t -> near s t = false.
Proof using All.
  intros s. unfold cs0. rewrite places_in. split.
  - intros [a [Ha E]]. apply Nat.eqb_eq in E. split; [eapply nth_error_In; exact Ha|]. intros t Ht Hlt. destruct (near s t) eqn:Hn; [|reflexivity]. exfalso.
    destruct (row_make a s t Ha Ht Hn) as [w [W1 [W2 [W3 [W4 _]]]]]. unfold count_gt in E. apply (proj1 (length_zero_filter _ _ _)) with (x := w) in E; [|exact W1].
    rewrite W2, W3, W4, Nat.eqb_refl in E. apply Nat.ltb_lt in Hlt. rewrite Hlt in E. discriminate.
  - intros [Hs H]. apply In_nth_error in Hs. destruct Hs as [a Ha]. exists a. split; [exact Ha|]. apply Nat.eqb_eq. unfold count_gt. apply length_zero_filter. intros w Hw.
    destruct (Nat.eqb_spec (ri w) a) as [E|]; [|reflexivity]. cbn [andb]. apply Nat.ltb_ge. destruct (row_ri w Hw) as [H1 _]. rewrite E, Ha in H1. injection H1 as E1.
    destruct (Nat.le_gt_cases (sj w) (si w)) as [L|L]; [exact L|]. exfalso. pose proof (row_near w Hw) as Hn. rewrite <- E1 in *. rewrite (H (sj w) (row_sj w Hw) L) in Hn. discriminate.
Qed.
Lemma ms0_sub : forall s, In s ms0 -> In s p /\ exists t, t < N /\ s < t /\ near s t = true.
Proof using All.
  intros s H. unfold ms0 in H. apply places_in in H. destruct H as [a [Ha E]]. split; [eapply nth_error_In; exact Ha|]. apply Nat.ltb_lt in E. unfold count_wrong in E.
  match type of E with _ < length ?l => destruct l as [|w l'] eqn:EF end; [cbn in E; lia|]. assert (Hw : In w (filter (fun w => (ri w =? a) && (si w <? sj w) && elsewhere prims r (sj w)) rows)) by (rewrite EF; left; reflexivity).
  apply filter_In in Hw. destruct Hw as [Hw C]. apply andb_true_iff in C. destruct C as [C _]. apply andb_true_iff in C. destruct C as [C1 C2]. apply Nat.eqb_eq in C1. apply Nat.ltb_lt in C2.
  destruct (row_ri w Hw) as [H1 _]. rewrite C1, Ha in H1. injection H1 as ->. exists (sj w). split; [apply row_sj, Hw|]. split; [exact C2|]. apply row_near, Hw.
Qed.
Lemma ms0_not : forall w, In w rows -> si w < sj w -> ~ In (si w) ms0 -> In (sj w) p.
Proof using All.
  intros w Hw Hlt H. destruct (prim_where (sj w) (row_sj w Hw)) as [q [b [Hq Hb]]]. destruct (Nat.eq_dec q r) as [->|Hne]; [rewrite Hp in Hq; injection Hq as <-; exact Hb|].
  exfalso. apply H. unfold ms0. apply places_in. exists (ri w). split; [apply row_ri, Hw|]. apply Nat.ltb_lt. unfold count_wrong.
  match goal with |- 0 < length ?l => destruct l as [|v l'] eqn:EF end; [|cbn; lia]. exfalso. assert (G : In w []); [|destruct G]. rewrite <- EF. apply filter_In. split; [exact Hw|].
  rewrite Nat.eqb_refl. apply Nat.ltb_lt in Hlt. rewrite Hlt. unfold elsewhere. rewrite (owner_of q b (sj w) Hq Hb). apply Nat.eqb_neq in Hne. rewrite Hne. reflexivity.
Qed.
Lemma cs0_cen : forall s, In s cs0 -> cen s = true.
Proof using All. intros s H. apply cs0_in in H. destruct H as [Hs H]. apply cen_iff; [eapply prim_in; eassumption|]. intros t H1 H2 H3. rewrite (H t H2 H1) in H3. discriminate. Qed.


(* the loop over the groups of the rank *)
Lemma local_loop : forall df gs C M,
  StronglySorted (fun a b => b < a) gs ->
  (forall x, In x gs -> In x p /\ ~ In x C /\ ~ In x M) ->
  (forall x t, In x gs -> In t (group_nums df x) <-> In t p /\ x < t /\ near x t = true) ->
  (forall x t, In x gs -> x < t -> t < N -> near x t = true -> In t p) ->
  NoDup C -> (forall c, In c C -> cen c = true /\ In c p) -> (forall c, In c C -> ~ In c M) ->
  (forall t, In t p -> cen t = true -> In t C \/ In t M \/ In t gs) ->
  let (C', M') := fold_left (local_step df) gs (C, M) in
  NoDup C' /\ (forall c, In c C' -> cen c = true /\ In c p) /\ (forall c, In c C' -> ~ In c M') /\ incl M M' /\ incl C C' /\
  (forall t, In t p -> cen t = true -> In t C' \/ In t M').
Proof using All.
  intros df. induction gs as [|x gs IH]; intros C M Hs Hgs Hnum Hloc HC Hcen Hdis Hall.
  - cbn [fold_left]. split; [exact HC|]. split; [exact Hcen|]. split; [exact Hdis|]. split; [intros a Ha; exact Ha|]. split; [intros a Ha; exact Ha|]. intros t Ht Hc. destruct (Hall t Ht Hc) as [H|[H|[]]]; auto.
  - cbn [fold_left]. inversion Hs as [|? ? Hs1 Hs2]; subst. rewrite Forall_forall in Hs2. destruct (Hgs x (or_introl eq_refl)) as [Hxp [HxC HxM]].
    assert (HxN : x < N) by (eapply prim_in; eassumption).
    assert (Hgs' : forall y, In y gs -> y <> x) by (intros y Hy ->; specialize (Hs2 x Hy); lia).
    unfold local_step at 2. destruct (existsb (fun n => mem n C) (group_nums df x)) eqn:E1.
    + assert (Hx : cen x = false).
      { apply existsb_mem in E1. destruct E1 as [t [T1 T2]]. apply (Hnum x t (or_introl eq_refl)) in T1. destruct T1 as [T1 [T3 T4]]. destruct (cen x) eqn:C'; [|reflexivity].
        pose proof (proj1 (cen_iff N near x HxN) C' t T3 ltac:(eapply prim_in; eassumption) T4) as F. destruct (Hcen t T2). congruence. }
      apply IH; [exact Hs1|intros y Hy; apply Hgs; right; exact Hy|intros y t Hy; apply Hnum; right; exact Hy|intros y t Hy; apply Hloc; right; exact Hy|exact HC|exact Hcen|exact Hdis|].
      intros t Ht Hc. destruct (Hall t Ht Hc) as [H|[H|[H|H]]]; auto. congruence.
    + destruct (existsb (fun n => mem n M) (group_nums df x)) eqn:E2.
      * assert (Hres : let (C', M') := fold_left (local_step df) gs (C, add x M) in
          NoDup C' /\ (forall c, In c C' -> cen c = true /\ In c p) /\ (forall c, In c C' -> ~ In c M') /\ incl (add x M) M' /\ incl C C' /\ (forall t, In t p -> cen t = true -> In t C' \/ In t M')).
        { apply IH; [exact Hs1| |intros y t Hy; apply Hnum; right; exact Hy|intros y t Hy; apply Hloc; right; exact Hy|exact HC|exact Hcen| |].
          - intros y Hy. destruct (Hgs y (or_intror Hy)) as [G1 [G2 G3]]. split; [exact G1|]. split; [exact G2|]. rewrite add_in. intros [->|G]; [exact (Hgs' x Hy eq_refl)|contradiction].
          - intros c Hc. rewrite add_in. intros [->|G]; [contradiction|exact (Hdis c Hc G)].
          - intros t Ht Hc. rewrite add_in. destruct (Hall t Ht Hc) as [H|[H|[H|H]]]; auto. }
        destruct (fold_left (local_step df) gs (C, add x M)) as [C' M']. destruct Hres as [R1 [R2 [R3 [R4 [R5 R6]]]]]. repeat (split; [assumption|]). split; [|split; assumption].
        intros a Ha. apply R4. apply add_in. right. exact Ha.
      * assert (Hx : cen x = true).
        { apply cen_iff; [exact HxN|]. intros t T1 T2 T3. destruct (cen t) eqn:C'; [|reflexivity]. exfalso. assert (Htp : In t p) by (apply (Hloc x t (or_introl eq_refl)); assumption).
          assert (Tn : In t (group_nums df x)) by (apply (Hnum x t (or_introl eq_refl)); auto).
          destruct (Hall t Htp C') as [H|[H|[H|H]]]; [exact (existsb_mem_false _ _ E1 t Tn H)|exact (existsb_mem_false _ _ E2 t Tn H)|lia|specialize (Hs2 t H); lia]. }
        assert (Hres : let (C', M') := fold_left (local_step df) gs (add x C, M) in
          NoDup C' /\ (forall c, In c C' -> cen c = true /\ In c p) /\ (forall c, In c C' -> ~ In c M') /\ incl M M' /\ incl (add x C) C' /\ (forall t, In t p -> cen t = true -> In t C' \/ In t M')).
        { apply IH; [exact Hs1| |intros y t Hy; apply Hnum; right; exact Hy|intros y t Hy; apply Hloc; right; exact Hy|apply add_nodup; exact HC| | |].
          - intros y Hy. destruct (Hgs y (or_intror Hy)) as [G1 [G2 G3]]. split; [exact G1|]. split; [|exact G3]. rewrite add_in. intros [->|G]; [exact (Hgs' x Hy eq_refl)|contradiction].
          - intros c Hc. apply add_in in Hc. destruct Hc as [->|Hc]; [auto|apply Hcen, Hc].
          - intros c Hc. apply add_in in Hc. destruct Hc as [->|Hc]; [exact HxM|apply Hdis, Hc].
          - intros t Ht Hc. rewrite add_in. destruct (Hall t Ht Hc) as [H|[H|[H|H]]]; auto. }
        destruct (fold_left (local_step df) gs (add x C, M)) as [C' M']. destruct Hres as [R1 [R2 [R3 [R4 [R5 R6]]]]]. repeat (split; [assumption|]). split; [|exact R6].
        intros a Ha. apply R5. apply add_in. right. exact Ha.
Qed.

Record local_ok (df : list row) (cs : list nat) (ms : list row) : Prop := {
  lo_df : Permutation df rows;
  lo_nodup : NoDup cs;
  lo_cen : forall c, In c cs -> cen c = true /\ In c p;
  lo_rows : forall w, In w ms -> In w rows /\ si w < sj w /\ ~ In (si w) cs;
  lo_full : forall w v, In w ms -> In v rows -> si v = si w -> si v < sj v -> In v ms;
  lo_all : forall s, In s p -> cen s = true -> In s cs \/ In s (map si ms)
}.
Lemma local_part_ok : exists df cs ms, local_part near by_desc prims r p g bs = Ok (df, cs, ms) /\ local_ok df cs ms.
Proof using All.
  destruct (ex_pairs _ _ _ _ _ HX r p g bs Hp Hg Hbs) as [Hne _]. rewrite local_part_ne by exact Hne. cbv zeta. fold rows. fold cs0. fold ms0.
  set (df := by_desc si rows). destruct (Hbd si rows) as [Dp Ds]. fold df in Dp, Ds.
  set (poss0 := filter (fun w => negb (mem (si w) cs0)) (filter (fun w => si w <? sj w) df)). set (poss := remove_paired cs0 poss0).
  set (same := filter (fun w => negb (mem (si w) ms0)) poss).
  assert (Pdf : forall w, In w df <-> In w rows) by (intros w; split; apply Permutation_in; [exact Dp|symmetry; exact Dp]).
  assert (Pposs0 : forall w, In w poss0 <-> In w rows /\ si w < sj w).
  { intros w. unfold poss0. rewrite !filter_In, Pdf, negb_true_iff, mem_false, Nat.ltb_lt. split; [tauto|]. intros [H1 H2]. split; [auto|]. intros G. apply cs0_in in G. destruct G as [_ G]. pose proof (row_near w H1) as Hn. rewrite (G (sj w) (row_sj w H1) H2) in Hn. discriminate. }
  assert (Pposs : forall w, In w poss <-> In w rows /\ si w < sj w /\ forall v, In v rows -> si v = si w -> si v < sj v -> ~ In (sj v) cs0).
  { intros w. unfold poss. rewrite remove_paired_in, Pposs0. split; [intros [[H1 H2] H3]; split; [exact H1|]; split; [exact H2|]; intros v V1 V2 V3; apply H3; [apply Pposs0; auto|exact V2]|].
    intros [H1 [H2 H3]]. split; [auto|]. intros v Hv E. apply Pposs0 in Hv. apply H3; tauto. }
  assert (Psame : forall w, In w same <-> In w poss /\ ~ In (si w) ms0) by (intros w; unfold same; rewrite filter_In, negb_true_iff, mem_false; reflexivity).
  pose proof (local_loop same (nub (map si same)) cs0 ms0) as LOOP.
  assert (Hsub : forall x, In x (nub (map si same)) <-> exists w, In w same /\ si w = x).
  { intros x. rewrite nub_in, in_map_iff. split; intros [w [A B]]; exists w; auto. }
  destruct (fold_left (local_step same) (nub (map si same)) (cs0, ms0)) as [C' M'].
  destruct LOOP as [R1 [R2 [R3 [R4 [R5 R6]]]]].
  - apply nub_desc. apply desc_map. unfold same, poss, remove_paired, poss0. repeat apply sorted_filter. exact Ds.
  - intros x Hx. apply Hsub in Hx. destruct Hx as [w [Hw <-]]. apply Psame in Hw. destruct Hw as [Hw Hm]. apply Pposs in Hw. destruct Hw as [W1 [W2 _]]. split; [apply row_si, W1|]. split; [|exact Hm].
    intros G. apply cs0_in in G. destruct G as [_ G]. pose proof (row_near w W1) as Hn. rewrite (G (sj w) (row_sj w W1) W2) in Hn. discriminate.
  - intros x t Hx. apply Hsub in Hx. destruct Hx as [w0 [Hw0 <-]]. apply Psame in Hw0. destruct Hw0 as [Hw0 Hm]. apply Pposs in Hw0. destruct Hw0 as [W1 [W2 W3]]. rewrite group_nums_in. split.
    + intros [w [Hw [E1 E2]]]. apply Psame in Hw. destruct Hw as [Hw Hm']. apply Pposs in Hw. destruct Hw as [V1 [V2 V3]]. rewrite <- E1, <- E2. split; [apply ms0_not; assumption|]. split; [exact V2|apply row_near, V1].
    + intros [T1 [T2 T3]]. destruct (row_make (ri w0) (si w0) t (proj1 (row_ri w0 W1)) ltac:(eapply prim_in; eassumption) T3) as [w [V1 [V2 [V3 [V4 _]]]]]. exists w. split; [|auto].
      apply Psame. rewrite V3. split; [|exact Hm]. apply Pposs. split; [exact V1|]. rewrite V3, V4. split; [exact T2|]. exact W3.
  - intros x t Hx T1 T2 T3. apply Hsub in Hx. destruct Hx as [w0 [Hw0 <-]]. apply Psame in Hw0. destruct Hw0 as [Hw0 Hm]. apply Pposs in Hw0. destruct Hw0 as [W1 [W2 W3]].
    destruct (row_make (ri w0) (si w0) t (proj1 (row_ri w0 W1)) T2 T3) as [w [V1 [V2 [V3 [V4 _]]]]]. rewrite <- V4. apply ms0_not; [exact V1|lia|rewrite V3; exact Hm].
  - apply places_nodup.
  - intros c Hc. split; [apply cs0_cen, Hc|]. apply cs0_in in Hc. apply Hc.
  - intros c Hc G. apply cs0_in in Hc. apply ms0_sub in G. destruct Hc as [_ Hc]. destruct G as [_ [t [T1 [T2 T3]]]]. rewrite (Hc t T1 T2) in T3. discriminate.
  - intros t Ht Hc. assert (HtN : t < N) by (eapply prim_in; eassumption).
    destruct (in_dec Nat.eq_dec t cs0) as [|Hn]; [auto|]. destruct (in_dec Nat.eq_dec t ms0) as [|Hm]; [auto|]. right. right.
    assert (Hex : exists u, u < N /\ t < u /\ near t u = true).
    { destruct (existsb (fun u => (t <? u) && near t u) (seq 0 N)) eqn:E.
      - apply existsb_exists in E. destruct E as [u [U1 U2]]. apply in_seq in U1. apply andb_true_iff in U2. destruct U2 as [U2 U3]. apply Nat.ltb_lt in U2. exists u. repeat split; [lia|exact U2|exact U3].
      - exfalso. apply Hn. apply cs0_in. split; [exact Ht|]. intros u U1 U2. destruct (near t u) eqn:E'; [|reflexivity].
        assert (G : existsb (fun u => (t <? u) && near t u) (seq 0 N) = true); [|congruence]. apply existsb_exists. exists u. split; [apply in_seq; lia|]. rewrite E'. apply Nat.ltb_lt in U2. rewrite U2. reflexivity. }
    destruct Hex as [u [U1 [U2 U3]]]. apply In_nth_error in Ht. destruct Ht as [a Ha]. destruct (row_make a t u Ha U1 U3) as [w [V1 [V2 [V3 [V4 _]]]]].
    apply Hsub. exists w. split; [|exact V3]. apply Psame. rewrite V3. split; [|exact Hm]. apply Pposs. split; [exact V1|]. split; [lia|]. intros v X1 X2 X3 G.
    apply cs0_cen in G. pose proof (proj1 (cen_iff N near t HtN) Hc (sj v) ltac:(lia) (row_sj v X1)) as F. rewrite <- V3, <- X2 in F. rewrite F in G; [discriminate|]. apply row_near, X1.
  - exists df, C', (filter (fun w => mem (si w) M') poss). split; [reflexivity|]. constructor.
    + exact Dp.
    + exact R1.
    + exact R2.
    + intros w Hw. apply filter_In in Hw. destruct Hw as [Hw Hm]. apply mem_iff in Hm. apply Pposs in Hw. split; [apply Hw|]. split; [apply Hw|]. intros G. exact (R3 _ G Hm).
    + intros w v Hw Hv E L. apply filter_In in Hw. destruct Hw as [Hw Hm]. apply filter_In. rewrite E. split; [|exact Hm]. apply Pposs in Hw. destruct Hw as [W1 [W2 W3]]. apply Pposs. split; [exact Hv|]. split; [exact L|]. rewrite E. exact W3.
    + intros s Hs Hc. destruct (R6 s Hs Hc) as [H|H]; [auto|]. destruct (in_dec Nat.eq_dec s C') as [|HnC]; [auto|]. right.
      (* a maybe that is central is a possible central *)
      assert (HsN : s < N) by (eapply prim_in; eassumption).
      assert (Hex : exists u, u < N /\ s < u /\ near s u = true).
      { destruct (existsb (fun u => (s <? u) && near s u) (seq 0 N)) eqn:E.
        - apply existsb_exists in E. destruct E as [u [U1 U2]]. apply in_seq in U1. apply andb_true_iff in U2. destruct U2 as [U2 U3]. apply Nat.ltb_lt in U2. exists u. repeat split; [lia|exact U2|exact U3].
        - exfalso. apply HnC. apply R5. apply cs0_in. split; [exact Hs|]. intros u U1 U2. destruct (near s u) eqn:E'; [|reflexivity].
          assert (G : existsb (fun u => (s <? u) && near s u) (seq 0 N) = true); [|congruence]. apply existsb_exists. exists u. split; [apply in_seq; lia|]. rewrite E'. apply Nat.ltb_lt in U2. rewrite U2. reflexivity. }
      destruct Hex as [u [U1 [U2 U3]]]. apply In_nth_error in Hs. destruct Hs as [a Ha]. destruct (row_make a s u Ha U1 U3) as [w [V1 [V2 [V3 [V4 _]]]]].
      apply in_map_iff. exists w. split; [exact V3|]. apply filter_In. rewrite V3. split; [|apply mem_iff; exact H]. apply Pposs. split; [exact V1|]. split; [lia|]. intros v X1 X2 X3 G.
      apply cs0_cen in G. pose proof (proj1 (cen_iff N near s HsN) Hc (sj v) ltac:(lia) (row_sj v X1)) as F. rewrite <- V3, <- X2 in F. rewrite F in G; [discriminate|]. apply row_near, X1.
Qed.
End Rank.
End Run.
