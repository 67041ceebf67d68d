From Verif Require Import Base BaseProofs Num RanksSpec DaSpec DaMore FiberModel FiberMore CgmModel CgmSpec.
From Coq Require Import Sorted Permutation.
Local Open Scope nat_scope.

Lemma mem_iff : forall i l, mem i l = true <-> In i l.
Proof. intros i l. unfold mem. rewrite existsb_exists. split; [intros [x [H E]]; apply Nat.eqb_eq in E; subst; exact H|intros H; exists i; split; [exact H|apply Nat.eqb_refl]]. Qed.
Lemma mem_false : forall i l, mem i l = false <-> ~ In i l.
Proof. intros i l. rewrite <- mem_iff. destruct (mem i l); split; congruence. Qed.
Lemma add_in : forall i l x, In x (add i l) <-> x = i \/ In x l.
Proof. intros i l x. unfold add. destruct (mem i l) eqn:E; [apply mem_iff in E; split; [auto|intros [->|H]; assumption]|]. rewrite in_app_iff. cbn [In]. intuition congruence. Qed.
Lemma add_nodup : forall i l, NoDup l -> NoDup (add i l).
Proof.
  intros i l H. unfold add. destruct (mem i l) eqn:E; [exact H|]. apply mem_false in E. eapply Permutation_NoDup; [apply Permutation_cons_append|]. constructor; assumption.
Qed.
Lemma nub_in : forall l x, In x (nub l) <-> In x l.
Proof.
  intros l x. unfold nub. enough (H : forall l a, In x (fold_left (fun a i => add i a) l a) <-> In x a \/ In x l) by (rewrite H; cbn [In]; intuition).
  clear. induction l as [|y l IH]; intros a; cbn [fold_left]; [cbn [In]; intuition|]. rewrite IH, add_in. cbn [In]. intuition congruence.
Qed.
Lemma nub_nodup : forall l, NoDup (nub l).
Proof. intros l. unfold nub. assert (H : NoDup (@nil nat)) by constructor. revert H. generalize (@nil nat). induction l as [|y l IH]; intros a Ha; cbn [fold_left]; [exact Ha|]. apply IH, add_nodup, Ha. Qed.
Lemma nub_desc : forall l, StronglySorted (fun a b => b <= a) l -> StronglySorted (fun a b => b < a) (nub l).
Proof.
  intros l. unfold nub.
  enough (H : forall l a, StronglySorted (fun a b => b < a) a -> StronglySorted (fun a b => b <= a) l -> (forall x y, In x a -> In y l -> y <= x) -> StronglySorted (fun a b => b < a) (fold_left (fun a i => add i a) l a)).
  { intros Hl. apply H; [constructor|exact Hl|intros x y []]. }
  clear. induction l as [|y l IH]; intros a Ha Hl Hx; cbn [fold_left]; [exact Ha|]. inversion Hl as [|? ? Hl1 Hl2]; subst. apply IH; [|exact Hl1|].
  - unfold add. destruct (mem y a) eqn:E; [exact Ha|]. apply mem_false in E. clear - Ha Hx E. induction Ha as [|z a Ha IH F]; [repeat constructor|]. cbn [app]. constructor.
    + apply IH; [intros x w Hin; apply Hx; right; exact Hin|intros G; apply E; right; exact G].
    + apply Forall_app. split; [exact F|]. constructor; [|constructor]. specialize (Hx z y (or_introl eq_refl) (or_introl eq_refl)). assert (y <> z) by (intros ->; apply E; left; reflexivity). lia.
  - intros x w Hin Hw. apply add_in in Hin. destruct Hin as [->|Hin]; [rewrite Forall_forall in Hl2; apply Hl2, Hw|]. apply Hx; [exact Hin|right; exact Hw].
Qed.
Lemma dinsert_perm : forall x l, Permutation (dinsert x l) (x :: l).
Proof. intros x l. induction l as [|y l IH]; cbn [dinsert]; [reflexivity|]. destruct (y <=? x); [reflexivity|]. etransitivity; [apply perm_skip; exact IH|apply perm_swap]. Qed.
Lemma dsort_perm : forall l, Permutation (dsort l) l.
Proof. induction l as [|x l IH]; [reflexivity|]. cbn [dsort fold_right]. etransitivity; [apply dinsert_perm|]. apply perm_skip. exact IH. Qed.
Lemma dsort_sorted : forall l, StronglySorted (fun a b => b <= a) (dsort l).
Proof.
  induction l as [|x l IH]; [constructor|]. cbn [dsort fold_right]. fold (dsort l). induction IH as [|y m Hm IHm F]; cbn [dinsert]; [repeat constructor|].
  destruct (Nat.leb_spec y x) as [L|L].
  - constructor; [constructor; assumption|]. constructor; [exact L|]. eapply Forall_impl; [|exact F]. cbn. intros a Ha. lia.
  - constructor; [exact IHm|]. apply Forall_forall. intros z Hz. apply (Permutation_in _ (dinsert_perm x m)) in Hz. destruct Hz as [<-|Hz]; [lia|]. rewrite Forall_forall in F. apply F, Hz.
Qed.
Lemma index_of_some : forall l s k, StronglySorted (fun a b => b < a) l -> index_of s l = Some k <-> nth_error l k = Some s.
Proof.
  induction l as [|y l IH]; intros s k H; cbn [index_of]; [split; [discriminate|destruct k; discriminate]|]. inversion H as [|? ? H1 H2]; subst. destruct (Nat.eqb_spec s y) as [->|N].
  - split; [intros E; injection E as <-; reflexivity|]. destruct k as [|k]; [reflexivity|]. cbn [nth_error]. intros E. apply nth_error_In in E. rewrite Forall_forall in H2. specialize (H2 y E). lia.
  - specialize (IH s). destruct (index_of s l) as [m|] eqn:E; cbn [option_map].
    + split; [intros G; injection G as <-; cbn [nth_error]; apply IH; [exact H1|reflexivity]|]. destruct k as [|k]; cbn [nth_error]; [intros G; congruence|]. intros G. apply (IH k H1) in G. congruence.
    + split; [discriminate|]. destruct k as [|k]; cbn [nth_error]; [intros G; congruence|]. intros G. apply (IH k H1) in G. discriminate.
Qed.
Lemma index_of_none : forall l s, index_of s l = None <-> ~ In s l.
Proof.
  induction l as [|y l IH]; intros s; cbn [index_of]; [split; [intros _ []|reflexivity]|]. destruct (Nat.eqb_spec s y) as [->|N]; [split; [discriminate|intros G; exfalso; apply G; left; reflexivity]|].
  specialize (IH s). destruct (index_of s l); cbn [option_map]; split; try discriminate; try reflexivity.
  - intros G. exfalso. assert (Hn : Some n = None) by (apply IH; intros G'; apply G; right; exact G'). discriminate.
  - intros _ [G|G]; [congruence|]. apply (proj1 IH eq_refl G).
Qed.
Lemma desc_nodup : forall l, StronglySorted (fun a b => b < a) l -> NoDup l.
Proof. intros l H. induction H as [|z l H IH F]; constructor; [|exact IH]. intros G. rewrite Forall_forall in F. specialize (F z G). lia. Qed.
Lemma sorted_nodup_strict : forall l, StronglySorted (fun a b => b <= a) l -> NoDup l -> StronglySorted (fun a b => b < a) l.
Proof.
  intros l H. induction H as [|z l H IH F]; intros N; constructor; inversion N as [|? ? N1 N2]; subst; [apply IH; exact N2|]. apply Forall_forall. intros y Hy. rewrite Forall_forall in F. specialize (F y Hy).
  assert (y <> z) by (intros ->; contradiction). lia.
Qed.

(* ---- the centrals ---- *)
Section Central.
Variables (N : nat) (near : nat -> nat -> bool).
Fixpoint greedy (k : nat) : list nat :=
  match k with O => [] | S k' => let l := greedy k' in if existsb (near (N - S k')) l then l else (N - S k') :: l end.
Lemma greedy_range : forall k s, k <= N -> In s (greedy k) -> N - k <= s < N.
Proof. induction k as [|k IH]; intros s Hk H; [destruct H|]. cbn [greedy] in H. destruct (existsb (near (N - S k)) (greedy k)); [specialize (IH s ltac:(lia) H); lia|]. destruct H as [<-|H]; [lia|]. specialize (IH s ltac:(lia) H). lia. Qed.
Lemma greedy_mono : forall k m s, k <= m -> m <= N -> In s (greedy m) <-> In s (greedy k) \/ (In s (greedy m) /\ s < N - k).
Proof.
  intros k m s Hkm. induction Hkm as [|m Hkm IH]; intros Hm; [split; [auto|]; intros [H|[H _]]; exact H|]. specialize (IH ltac:(lia)).
  split; [|intros [H|[H _]]; [|exact H]].
  - intros H. cbn [greedy] in H. destruct (existsb (near (N - S m)) (greedy m)) eqn:E.
    + apply IH in H. destruct H as [H|[H L]]; [auto|]. right. cbn [greedy]. rewrite E. auto.
    + destruct H as [H|H]; [right; split; [cbn [greedy]; rewrite E; left; exact H|lia]|]. apply IH in H. destruct H as [H|[H L]]; [auto|]. right. cbn [greedy]. rewrite E. split; [right; exact H|exact L].
  - cbn [greedy]. assert (G : In s (greedy m)) by (apply IH; auto). destruct (existsb (near (N - S m)) (greedy m)); [exact G|right; exact G].
Qed.
Definition cen (s : nat) : bool := mem s (greedy N).
Lemma cen_lt : forall s, cen s = true -> s < N.
Proof. intros s H. apply mem_iff in H. apply greedy_range in H; lia. Qed.
Lemma cen_iff : forall s, s < N -> cen s = true <-> forall t, s < t -> t < N -> near s t = true -> cen t = false.
Proof.
  intros s Hs. set (k := N - S s). assert (Ek : N - S k = s) by (unfold k; lia).
  assert (Hup : forall t, s < t -> t < N -> (cen t = true <-> In t (greedy k))).
  { intros t Ht HtN. unfold cen. rewrite mem_iff. rewrite (greedy_mono k N t ltac:(unfold k; lia) ltac:(lia)). split; [intros [H|[_ H]]; [exact H|unfold k in H; lia]|auto]. }
  assert (Hme : cen s = true <-> In s (greedy (S k))).
  { unfold cen. rewrite mem_iff. rewrite (greedy_mono (S k) N s ltac:(unfold k; lia) ltac:(lia)). split; [intros [H|[_ H]]; [exact H|unfold k in H; lia]|auto]. }
  rewrite Hme. cbn [greedy]. rewrite Ek. destruct (existsb (near s) (greedy k)) eqn:E.
  - apply existsb_exists in E. destruct E as [t [Ht Hn]]. pose proof (greedy_range k t ltac:(unfold k; lia) Ht) as Hr. split.
    + intros H. apply greedy_range in H; unfold k in *; lia.
    + intros H. specialize (H t ltac:(unfold k in *; lia) ltac:(lia) Hn). apply Hup in Ht; [congruence|unfold k in *; lia|lia].
  - split; [|intros _; left; reflexivity]. intros _ t H1 H2 Hn. destruct (cen t) eqn:C; [|reflexivity]. apply Hup in C; [|exact H1|exact H2].
    assert (G : existsb (near s) (greedy k) = true) by (apply existsb_exists; exists t; auto). congruence.
Qed.
Lemma not_cen : forall s, s < N -> cen s = false -> exists t, s < t /\ t < N /\ near s t = true /\ cen t = true.
Proof.
  intros s Hs H. destruct (existsb (fun t => (s <? t) && near s t && cen t) (seq 0 N)) eqn:E.
  - apply existsb_exists in E. destruct E as [t [Ht E]]. apply in_seq in Ht. apply andb_true_iff in E. destruct E as [E E3]. apply andb_true_iff in E. destruct E as [E1 E2]. apply Nat.ltb_lt in E1. exists t. repeat split; try assumption; lia.
  - exfalso. assert (G : cen s = true); [|congruence]. apply cen_iff; [exact Hs|]. intros t H1 H2 H3. destruct (cen t) eqn:C; [|reflexivity].
    assert (G : existsb (fun t => (s <? t) && near s t && cen t) (seq 0 N) = true); [|congruence]. apply existsb_exists. exists t. split; [apply in_seq; lia|]. rewrite H3, C. apply Nat.ltb_lt in H1. rewrite H1. reflexivity.
Qed.
End Central.
