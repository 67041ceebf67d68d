From Verif Require Import Base BaseProofs ScopeModel.
Local Open Scope list_scope.

Lemma with_options_restores kw body s :
  forallb (fun kv => dmem (options s) (fst kv)) kw = true ->
  options (snd (exec (WithOptions kw body) s)) = options s.
Proof.
  intros H. cbn [exec]. unfold options_init. rewrite H.
  destruct (exec body _) as [r s']. reflexivity.
Qed.

Lemma unknown_option kw s p :
  (exists kv, In kv kw /\ dget (options s) (fst kv) = None) ->
  exec (WithOptions kw p) s = (Raised KeyError, s) /\ forall x, exec (New x kw) s = (Raised KeyError, s).
Proof.
  intros (kv & Hin & Hn). cbn [exec]. unfold options_init.
  assert (forallb (fun kv => dmem (options s) (fst kv)) kw = false) as ->.
  { apply not_true_iff_false. intros H. rewrite forallb_forall in H. specialize (H kv Hin).
    unfold dmem in H. rewrite Hn in H. discriminate. }
  split; reflexivity.
Qed.

(* in one statement: whatever happens, the scope leaves the options as they were *)
Lemma with_options_restores_always kw body s :
  options (snd (exec (WithOptions kw body) s)) = options s.
Proof.
  cbn [exec]. unfold options_init. destruct (forallb _ kw); [|reflexivity].
  destruct (exec body _) as [r s']. reflexivity.
Qed.

Lemma dget_dset_same d k v : dget (dset d k v) k = Some v.
Proof.
  induction d as [|[k' v'] d IH]; cbn [dset dget]; [rewrite String.eqb_refl; reflexivity|].
  destruct (String.eqb k k') eqn:E; cbn [dget]; rewrite E; [reflexivity|exact IH].
Qed.
Lemma dget_dset_other d k v j : j <> k -> dget (dset d k v) j = dget d j.
Proof.
  intros H. induction d as [|[k' v'] d IH]; cbn [dset dget].
  - destruct (String.eqb_spec j k); [contradiction|reflexivity].
  - destruct (String.eqb_spec k k') as [<-|]; cbn [dget].
    + destruct (String.eqb_spec j k); [contradiction|reflexivity].
    + destruct (String.eqb j k'); [reflexivity|exact IH].
Qed.
Lemma keys_dset d k v : dmem d k = true -> map fst (dset d k v) = map fst d.
Proof.
  unfold dmem. induction d as [|[k' v'] d IH]; cbn [dset dget]; [discriminate|].
  destruct (String.eqb k k'); [reflexivity|]. intros H. cbn [map]. rewrite IH by exact H. reflexivity.
Qed.
Lemma dmem_keys d k : dmem d k = existsb (String.eqb k) (map fst d).
Proof.
  unfold dmem. induction d as [|[k' v'] d IH]; [reflexivity|]. cbn [dget map existsb fst].
  destruct (String.eqb k k'); [reflexivity|exact IH].
Qed.
Lemma keys_dupdate kw d : forallb (fun kv => dmem d (fst kv)) kw = true -> map fst (dupdate d kw) = map fst d.
Proof.
  unfold dupdate. revert d. induction kw as [|[k v] kw IH]; intros d H; [reflexivity|].
  cbn [forallb fst] in H. apply andb_prop in H. destruct H as [H1 H2]. cbn [fold_left fst snd].
  pose proof (keys_dset d k v H1) as HK. rewrite IH; [exact HK|].
  rewrite forallb_forall in *. intros kv Hin. rewrite dmem_keys, HK, <- dmem_keys. apply H2, Hin.
Qed.

(* value of a key after an update: the last value given, else the old one *)
Lemma dget_dupdate kw : forall d k,
  dget (dupdate d kw) k =
  match find (fun kv => String.eqb k (fst kv)) (rev kw) with Some kv => Some (snd kv) | None => dget d k end.
Proof.
  unfold dupdate. induction kw as [|kv kw IH] using rev_ind; intros d k; [reflexivity|].
  rewrite fold_left_app, rev_app_distr. cbn [fold_left rev app find].
  destruct (String.eqb_spec k (fst kv)) as [->|H].
  - apply dget_dset_same.
  - rewrite dget_dset_other by exact H. apply IH.
Qed.

(* ---------- what holds along every execution ---------- *)
Definition good (s : gstate) : Prop :=
  dmem (options s) cache_key = true /\ dget (options s) cache_key = Some (cache s) /\
  (forall x o, In (x, o) (objs s) -> map fst o = map fst (options s)).

Lemma good_start w : good (start w).
Proof. repeat split. intros x o []. Qed.

Lemma dmem_some d k : dmem d k = true -> exists v, dget d k = Some v.
Proof. unfold dmem. destruct (dget d k) as [v|]; [eauto|discriminate]. Qed.

Lemma dget_not_in kw k : dmem kw k = false -> find (fun kv => String.eqb k (fst kv)) (rev kw) = None.
Proof.
  intros H. destruct (find _ (rev kw)) as [kv|] eqn:E; [|reflexivity].
  apply find_some in E. destruct E as [Hin Heq]. apply in_rev in Hin.
  assert (dmem kw k = true) as Ht; [|congruence].
  rewrite dmem_keys. apply existsb_exists. exists (fst kv). split; [apply in_map, Hin|exact Heq].
Qed.

Lemma options_init_good kw s r old s' : good s -> options_init kw s = ((r, old), s') ->
  good s' /\ old = options s /\ map fst (options s') = map fst (options s) /\ objs s' = objs s /\
  (r = Normal \/ s' = s).
Proof.
  intros (G1 & G2 & G3) H. unfold options_init in H.
  destruct (forallb (fun kv => dmem (options s) (fst kv)) kw) eqn:E.
  - injection H as <- <- <-. pose proof (keys_dupdate kw (options s) E) as HK.
    repeat split; cbn [options cache objs with_options]; auto.
    + rewrite dmem_keys, HK, <- dmem_keys. exact G1.
    + destruct (dmem kw cache_key) eqn:Ek.
      * assert (dmem (dupdate (options s) kw) cache_key = true) as Hm by (rewrite dmem_keys, HK, <- dmem_keys; exact G1).
        apply dmem_some in Hm. destruct Hm as [v ->]. reflexivity.
      * rewrite dget_dupdate, dget_not_in by exact Ek. exact G2.
    + intros x o Hin. cbn in Hin. rewrite HK. exact (G3 x o Hin).
  - injection H as <- <- <-. repeat split; auto.
Qed.

Lemma options_exit_good old s : good s -> map fst old = map fst (options s) -> good (options_exit old s).
Proof.
  intros (G1 & G2 & G3) HK. unfold options_exit.
  assert (dmem old cache_key = true) as Hm by (rewrite dmem_keys, HK, <- dmem_keys; exact G1).
  repeat split; cbn [options cache objs with_options].
  - exact Hm.
  - apply dmem_some in Hm. destruct Hm as [v ->]. reflexivity.
  - intros x o Hin. cbn in Hin. rewrite HK. exact (G3 x o Hin).
Qed.

Lemma exec_good p : forall s r s', good s -> exec p s = (r, s') ->
  good s' /\ map fst (options s') = map fst (options s).
Proof.
  induction p as [|e|p IHp q IHq|p IHp h IHh|x kw|x p IHp|kw p IHp|c p IHp|c|cm];
    intros s r s' G H; cbn [exec] in H.
  - injection H as _ <-. auto.
  - injection H as _ <-. auto.
  - destruct (exec p s) as [[|e] s1] eqn:E; destruct (IHp _ _ _ G E) as [G1 K1].
    + destruct (IHq _ _ _ G1 H) as [G2 K2]. split; [exact G2|congruence].
    + injection H as _ <-. auto.
  - destruct (exec p s) as [[|e] s1] eqn:E; destruct (IHp _ _ _ G E) as [G1 K1].
    + injection H as _ <-. auto.
    + destruct (IHh _ _ _ G1 H) as [G2 K2]. split; [exact G2|congruence].
  - destruct (options_init kw s) as [[r1 old] s1] eqn:E.
    destruct (options_init_good kw s r1 old s1 G E) as (G1 & -> & K1 & O1 & _).
    destruct r1; injection H as _ <-; [|auto].
    cbn [options with_objs]. split; [|exact K1].
    destruct G1 as (A & B & C). repeat split; auto.
    intros y o Hin. cbn in Hin. destruct Hin as [Heq|Hin]; [injection Heq as _ <-; symmetry; exact K1|apply (C y o Hin)].
  - destruct (lookup (objs s) x) as [old|] eqn:L; [|injection H as _ <-; auto].
    destruct (exec p s) as [r1 s1] eqn:E. injection H as _ <-.
    destruct (IHp _ _ _ G E) as [G1 K1].
    assert (map fst old = map fst (options s)) as HK.
    { unfold lookup in L. destruct (find _ _) as [[y o]|] eqn:F; [|discriminate]. injection L as <-.
      apply find_some in F. destruct F as [F _]. destruct G as (_ & _ & C). exact (C y o F). }
    split; [apply options_exit_good; [exact G1|congruence]|]. exact HK.
  - destruct (options_init kw s) as [[r1 old] s1] eqn:E.
    destruct (options_init_good kw s r1 old s1 G E) as (G1 & -> & K1 & O1 & _).
    destruct r1; [|injection H as _ <-; auto].
    destruct (exec p s1) as [r2 s2] eqn:E2. injection H as _ <-.
    destruct (IHp _ _ _ G1 E2) as [G2 K2].
    split; [apply options_exit_good; [exact G2|congruence]|reflexivity].
  - destruct (exec p (with_stack s (c :: stack s))) as [[|e] s1] eqn:E;
      destruct (IHp _ _ _ (G : good (with_stack s (c :: stack s))) E) as [G1 K1]; injection H as _ <-; split; auto.
  - injection H as _ <-. auto.
  - injection H as _ <-. auto.
Qed.

Lemma exec_cache p w r s : exec p (start w) = (r, s) ->
  dget (options s) cache_key = Some (cache s) /\ map fst (options s) = map fst (options (start w)).
Proof. intros H. destruct (exec_good p _ _ _ (good_start w) H) as [(_ & G & _) K]. auto. Qed.

(* with x: body restores the options in force when x was made *)
Lemma with_object x kw p body s s1 r1 r2 s2 :
  exec (New x kw) s = (Normal, s1) -> exec p s1 = (r1, s2) -> objs s2 = objs s1 ->
  exec (With x body) s2 = r2 -> options (snd r2) = options s.
Proof.
  intros H1 H2 Ho <-. cbn [exec] in *. unfold options_init in H1.
  destruct (forallb _ kw); [|discriminate]. injection H1 as <-.
  rewrite Ho. unfold lookup. cbn [objs with_objs find fst snd]. rewrite Nat.eqb_refl. cbn [snd].
  destruct (exec body s2) as [r s']. reflexivity.
Qed.

(* ---------- communicators ---------- *)
Lemma leaks_stack p : forall s r s', stack s <> [] -> exec p s = (r, s') ->
  (leaks s <= leaks s')%nat /\ (List.length (stack s') = List.length (stack s) + (leaks s' - leaks s))%nat /\
  (leaks s' = leaks s -> tl (stack s') = tl (stack s)).
Proof.
  induction p as [|e|p IHp q IHq|p IHp h IHh|x kw|x p IHp|kw p IHp|c p IHp|c|cm];
    intros s r s' G H; cbn [exec] in H.
  - injection H as _ <-. split; [lia|split; [lia|auto]].
  - injection H as _ <-. split; [lia|split; [lia|auto]].
  - destruct (exec p s) as [[|e] s1] eqn:E; destruct (IHp _ _ _ G E) as (A & B & C).
    + assert (stack s1 <> []) as G1 by (destruct (stack s), (stack s1); simpl in *; try congruence; lia).
      destruct (IHq _ _ _ G1 H) as (A' & B' & C'). split; [lia|split; [lia|]].
      intros HL. rewrite C' by lia. apply C. lia.
    + injection H as _ <-. auto.
  - destruct (exec p s) as [[|e] s1] eqn:E; destruct (IHp _ _ _ G E) as (A & B & C).
    + injection H as _ <-. auto.
    + assert (stack s1 <> []) as G1 by (destruct (stack s), (stack s1); simpl in *; try congruence; lia).
      destruct (IHh _ _ _ G1 H) as (A' & B' & C'). split; [lia|split; [lia|]].
      intros HL. rewrite C' by lia. apply C. lia.
  - destruct (options_init kw s) as [[r1 old] s1] eqn:E. unfold options_init in E.
    destruct (forallb _ kw); injection E as <- <- <-; injection H as _ <-; cbn;
      (split; [lia|split; [lia|auto]]).
  - destruct (lookup (objs s) x) as [old|]; [|injection H as _ <-; split; [lia|split; [lia|auto]]].
    destruct (exec p s) as [r1 s1] eqn:E. injection H as _ <-. exact (IHp _ _ _ G E).
  - destruct (options_init kw s) as [[r1 old] s1] eqn:E. unfold options_init in E.
    destruct (forallb _ kw); injection E as <- <- <-.
    + destruct (exec p _) as [r2 s2] eqn:E2. injection H as _ <-. refine (IHp _ _ _ _ E2); exact G.
    + injection H as _ <-. split; [lia|split; [lia|auto]].
  - assert (stack (with_stack s (c :: stack s)) <> []) as G1 by discriminate.
    destruct (exec p (with_stack s (c :: stack s))) as [[|e] s1] eqn:E;
      destruct (IHp _ _ _ G1 E) as (A & B & C); cbn in A, B, C; injection H as _ <-; cbn.
    + split; [lia|]. destruct (stack s1) as [|t k]; simpl in *; split; try lia.
      * intros HL. rewrite C by exact HL. reflexivity.
    + split; [lia|]. split; [|lia]. destruct (leaks s); lia.
  - injection H as _ <-. cbn. destruct (stack s); [congruence|]. simpl. split; [lia|split; [lia|auto]].
  - injection H as _ <-. cbn. split; [lia|split; [lia|auto]].
Qed.

(* a scope left normally, with no scope inside it left by an exception, restores
   the whole stack *)
Lemma enter_restores c p s s' : exec (WithComm c p) s = (Normal, s') -> leaks s' = leaks s -> stack s' = stack s.
Proof.
  cbn [exec]. intros H HL.
  destruct (exec p (with_stack s (c :: stack s))) as [[|e] s1] eqn:E; [|discriminate].
  injection H as <-. cbn in *.
  destruct (leaks_stack p (with_stack s (c :: stack s)) _ _ ltac:(discriminate) E) as (A & B & C). cbn in *. exact (C HL).
Qed.

(* exception-free programs: no exception ever crosses a scope *)
Fixpoint has_try (p : prog) : bool :=
  match p with
  | Try _ _ => true
  | Seq p q => has_try p || has_try q
  | With _ p | WithOptions _ p | WithComm _ p => has_try p
  | _ => false
  end.

Lemma no_try_no_leak p : has_try p = false -> forall s s', exec p s = (Normal, s') -> leaks s' = leaks s.
Proof.
  induction p as [|e|p IHp q IHq|p IHp h IHh|x kw|x p IHp|kw p IHp|c p IHp|c|cm];
    intros HT s s' H; cbn [exec has_try] in *; try discriminate.
  - injection H as <-. reflexivity.
  - apply orb_false_elim in HT. destruct HT as [T1 T2].
    destruct (exec p s) as [[|e] s1] eqn:E; [|discriminate]. rewrite (IHq T2 _ _ H). apply (IHp T1 _ _ E).
  - destruct (options_init kw s) as [[r1 old] s1] eqn:E. unfold options_init in E.
    destruct (forallb _ kw); injection E as <- <- <-; [|discriminate]. injection H as <-. reflexivity.
  - destruct (lookup (objs s) x) as [old|]; [|discriminate].
    destruct (exec p s) as [r1 s1] eqn:E. injection H as -> <-. exact (IHp HT _ _ E).
  - destruct (options_init kw s) as [[r1 old] s1] eqn:E. unfold options_init in E.
    destruct (forallb _ kw); injection E as <- <- <-; [|discriminate].
    destruct (exec p _) as [r2 s2] eqn:E2. injection H as -> <-. exact (IHp HT _ _ E2).
  - destruct (exec p (with_stack s (c :: stack s))) as [[|e] s1] eqn:E; [|discriminate].
    injection H as <-. exact (IHp HT _ _ E).
  - injection H as <-. reflexivity.
  - injection H as <-. reflexivity.
Qed.

Lemma enter_restores_no_try c p s s' : has_try p = false ->
  exec (WithComm c p) s = (Normal, s') -> stack s' = stack s.
Proof. intros HT H. eapply enter_restores; [exact H|]. eapply no_try_no_leak; [|exact H]. exact HT. Qed.

(* passing comm explicitly *)
Fixpoint explicit (c : nat) (p : prog) : prog :=
  match p with
  | Call None => Call (Some c)
  | Seq p q => Seq (explicit c p) (explicit c q)
  | Try p q => Try (explicit c p) (explicit c q)
  | With x p => With x (explicit c p)
  | WithOptions kw p => WithOptions kw (explicit c p)
  | p => p
  end.
Fixpoint comm_free (p : prog) : bool :=
  match p with
  | WithComm _ _ | SetComm _ => false
  | Seq p q | Try p q => comm_free p && comm_free q
  | With _ p | WithOptions _ p => comm_free p
  | _ => true
  end.

Definition push_all (s : gstate) (k : list nat) := with_stack s k.

Lemma explicit_same c p : comm_free p = true -> forall s k r s',
  exec p (with_stack s (c :: k)) = (r, s') ->
  exec (explicit c p) s = (r, with_stack s' (stack s)) /\ stack s' = c :: k.
Proof.
  induction p as [|e|p IHp q IHq|p IHp h IHh|x kw|x p IHp|kw p IHp|c' p IHp|c'|cm];
    intros HF s k r s' H; cbn [exec explicit comm_free] in *; try discriminate.
  - injection H as <- <-. destruct s; split; reflexivity.
  - injection H as <- <-. destruct s; split; reflexivity.
  - apply andb_prop in HF. destruct HF as [F1 F2].
    destruct (exec p (with_stack s (c :: k))) as [[|e] s1] eqn:E.
    + destruct (IHp F1 _ _ _ _ E) as [E1 K1]. rewrite E1.
      assert (s1 = with_stack (with_stack s1 (stack s)) (c :: k)) as Hs by (destruct s1; cbn in *; subst; reflexivity).
      rewrite Hs in H. destruct (IHq F2 _ _ _ _ H) as [E2 K2]. rewrite E2. cbn. split; [reflexivity|exact K2].
    + injection H as <- <-. destruct (IHp F1 _ _ _ _ E) as [E1 K1]. rewrite E1. split; [reflexivity|exact K1].
  - apply andb_prop in HF. destruct HF as [F1 F2].
    destruct (exec p (with_stack s (c :: k))) as [[|e] s1] eqn:E.
    + injection H as <- <-. destruct (IHp F1 _ _ _ _ E) as [E1 K1]. rewrite E1. split; [reflexivity|exact K1].
    + destruct (IHp F1 _ _ _ _ E) as [E1 K1]. rewrite E1.
      assert (s1 = with_stack (with_stack s1 (stack s)) (c :: k)) as Hs by (destruct s1; cbn in *; subst; reflexivity).
      rewrite Hs in H. destruct (IHh F2 _ _ _ _ H) as [E2 K2]. rewrite E2. cbn. split; [reflexivity|exact K2].
  - unfold options_init in *. cbn in H. destruct (forallb _ kw); injection H as <- <-; destruct s; split; reflexivity.
  - cbn in H. destruct (lookup (objs s) x) as [old|].
    + destruct (exec p (with_stack s (c :: k))) as [r1 s1] eqn:E. injection H as <- <-.
      destruct (IHp HF _ _ _ _ E) as [E1 K1]. rewrite E1. split; [reflexivity|exact K1].
    + injection H as <- <-. destruct s; split; reflexivity.
  - unfold options_init in *. cbn in H. destruct (forallb _ kw).
    + set (s0 := with_options s (dupdate (options s) kw) (if dmem kw cache_key then or0 (dget (dupdate (options s) kw) cache_key) else cache s)) in *.
      match type of H with context [exec p ?X] => change X with (with_stack s0 (c :: k)) in H end.
      destruct (exec p (with_stack s0 (c :: k))) as [r1 s1] eqn:E. injection H as <- <-.
      destruct (IHp HF _ _ _ _ E) as [E1 K1]. rewrite E1. split; [reflexivity|exact K1].
    + injection H as <- <-. destruct s; split; reflexivity.
  - destruct cm as [d|]; cbn [exec] in *; injection H as <- <-; destruct s; split; reflexivity.
Qed.

Lemma enter_is_explicit c p s s' : comm_free p = true -> exec (WithComm c p) s = (Normal, s') ->
  exec (explicit c p) s = (Normal, s').
Proof.
  intros HF H. cbn [exec] in H.
  destruct (exec p (with_stack s (c :: stack s))) as [[|e] s1] eqn:E; [|discriminate].
  destruct (explicit_same c p HF s (stack s) _ _ E) as [E1 K1]. rewrite E1. injection H as <-.
  rewrite K1. reflexivity.
Qed.

Lemma options_in_scope kw s s' old : options_init kw s = ((Normal, old), s') -> forall k,
  dget (options s') k =
  match find (fun kv => String.eqb k (fst kv)) (rev kw) with Some kv => Some (snd kv) | None => dget (options s) k end.
Proof.
  unfold options_init. destruct (forallb _ kw); intros H k; [|discriminate].
  injection H as <- <-. cbn [options with_options]. apply dget_dupdate.
Qed.

Lemma comm_not_restored :
  (exists c e s, stack (snd (exec (WithComm c (Raise e)) s)) <> stack s) /\
  (exists p s, fst (exec p s) = Normal /\ hd 0%nat (stack (snd (exec p s))) <> hd 0%nat (stack s)).
Proof.
  split.
  - exists 1%nat, ValueError, (start 5). discriminate.
  - exists (Try (WithComm 1 (Raise ValueError)) Skip), (start 5). split; [reflexivity|discriminate].
Qed.
