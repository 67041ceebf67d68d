From Verif Require Import Base BaseProofs BatchModel.
From Coq Require Import Permutation Sorted.
Local Open Scope nat_scope.

(* ---------- split_ranks ---------- *)
Lemma array_split_from_concat {A} (k : nat) : forall (l : list A) big q,
  big <= k -> length l = k * q + big -> concat (array_split_from l big q k) = l.
Proof.
  induction k as [|k IH]; intros l big q Hb Hl; cbn [array_split_from concat].
  - assert (length l = 0) by lia. destruct l; [reflexivity|discriminate].
  - set (n := match big with O => q | S _ => S q end).
    rewrite IH.
    + apply firstn_skipn.
    + destruct big; simpl; lia.
    + rewrite skipn_length. destruct big; unfold n; simpl; nia.
Qed.

Lemma array_split_from_length {A} (k : nat) : forall (l : list A) big q,
  length (array_split_from l big q k) = k.
Proof. induction k; intros; simpl; auto. Qed.

Lemma array_split_from_sizes {A} (k : nat) : forall (l : list A) big q,
  big <= k -> length l = k * q + big ->
  Forall (fun c => length c = q \/ length c = S q) (array_split_from l big q k).
Proof.
  induction k as [|k IH]; intros l big q Hb Hl; cbn [array_split_from]; constructor.
  - rewrite firstn_length. destruct big; [left|right]; nia.
  - apply IH; [destruct big; simpl; lia|]. rewrite skipn_length. destruct big; simpl; nia.
Qed.

Lemma array_split_concat {A} (l : list A) k : 1 <= k -> concat (array_split l k) = l.
Proof.
  intros H. apply array_split_from_concat.
  - apply Nat.lt_le_incl, Nat.mod_upper_bound. lia.
  - apply Nat.div_mod. lia.
Qed.

Lemma array_split_sizes {A} (l : list A) k : 1 <= k ->
  Forall (fun c => length c = length l / k \/ length c = S (length l / k)) (array_split l k).
Proof.
  intros H. apply array_split_from_sizes.
  - apply Nat.lt_le_incl, Nat.mod_upper_bound. lia.
  - apply Nat.div_mod. lia.
Qed.

Lemma concat_blocks {A} (l : list A) n k : concat (map (fun i => firstn n (skipn (i * n) l)) (seq 0 k)) = firstn (k * n) l.
Proof.
  induction k as [|k IH]; [reflexivity|].
  rewrite seq_S, map_app, concat_app, IH. cbn [map concat Nat.add]. rewrite app_nil_r.
  replace (S k * n) with (k * n + n) by lia. symmetry. apply firstn_plus.
Qed.

Lemma split_ranks_some nranks n all gs :
  split_ranks nranks n all = Ok gs -> n <> 0 /\ gs = split_groups nranks n all.
Proof.
  unfold split_ranks. destruct (Nat.eqb_spec n 0); [discriminate|]. intros H. injection H as <-. auto.
Qed.

Lemma split_ranks_all nranks n gs : split_ranks nranks n true = Ok gs ->
  concat (map snd gs) = seq 1 (nranks - 1) /\ map fst gs = seq 0 (length gs).
Proof.
  intros H. apply split_ranks_some in H. destruct H as [HN ->]. rename n into N. unfold split_groups.
  set (available := seq 1 (nranks - 1)).
  set (ch := array_split available _).
  assert (Hc : length ch = Nat.max (length available / N) 1) by apply array_split_from_length.
  assert (forall (l : list (list nat)) a, map snd (combine (seq a (length l)) l) = l /\ map fst (combine (seq a (length l)) l) = seq a (length l)) as Hcomb.
  { induction l as [|x l IH]; intros a; [split; reflexivity|]. cbn [length seq combine map fst snd].
    destruct (IH (S a)) as [-> ->]. split; reflexivity. }
  destruct (Hcomb ch 0) as [-> ->]. split.
  - apply array_split_concat. lia.
  - rewrite combine_length, seq_length, Nat.min_id. reflexivity.
Qed.

(* without include_all the groups, in order, are an initial part of the
   available ranks *)
Lemma split_ranks_prefix nranks n gs : split_ranks nranks n false = Ok gs ->
  exists m, concat (map snd gs) = firstn m (seq 1 (nranks - 1)) /\
  (forall i g, nth_error gs i = Some g -> i < (nranks - 1) / n -> fst g = i /\ length (snd g) = n) /\
  length gs <= (nranks - 1) / n + 1 /\
  (forall g, nth_error gs ((nranks - 1) / n) = Some g ->
     fst g = (nranks - 1) / n + 1 /\ snd g <> [] /\ length (snd g) < n /\ n / 2 - 1 <= length (snd g)
     /\ Nat.even (length (snd g)) = true).
Proof.
  intros H. apply split_ranks_some in H. destruct H as [HN ->]. rename n into N. unfold split_groups.
  set (available := seq 1 (nranks - 1)).
  assert (Htot : length available = nranks - 1) by apply seq_length.
  rewrite Htot. set (total := nranks - 1) in *.
  set (q := total / N). set (ex := total mod N).
  pose proof (Nat.div_mod total N HN) as Hdm. fold q ex in Hdm.
  pose proof (Nat.mod_upper_bound total N HN) as Hub. fold ex in Hub.
  set (full := map (fun i => (i, firstn N (skipn (i * N) available))) (seq 0 q)).
  assert (Hfull : length full = q) by (unfold full; rewrite map_length, seq_length; reflexivity).
  assert (Hcf : concat (map snd full) = firstn (q * N) available).
  { unfold full. rewrite map_map. cbn [snd]. apply concat_blocks. }
  assert (Hnth : forall i g tl, nth_error (full ++ tl) i = Some g -> i < q -> fst g = i /\ length (snd g) = N).
  { intros i g tl Hg Hi. rewrite nth_error_app1 in Hg by lia. unfold full in Hg.
    rewrite nth_error_map', nth_error_seq in Hg. destruct (Nat.ltb_spec i q); [|lia].
    cbn [option_map] in Hg. change (0 + i) with i in Hg. assert (g = (i, firstn N (skipn (i * N) available))) as -> by congruence.
    cbn [fst snd]. split; [reflexivity|].
    rewrite firstn_length, skipn_length, Htot. nia. }
  destruct ((0 <? ex) && (N / 2 <=? ex)) eqn:Ec.
  - apply andb_prop in Ec. destruct Ec as [E1 E2]. apply Nat.ltb_lt in E1. apply Nat.leb_le in E2.
    set (r0 := skipn (total - ex) available).
    assert (Hr0 : length r0 = ex) by (unfold r0; rewrite skipn_length; lia).
    set (r := firstn (length r0 - ex mod 2) r0).
    assert (Hr : length r = ex - ex mod 2) by (unfold r; rewrite firstn_length; lia).
    assert (Hconc : firstn (q * N) available ++ r = firstn (q * N + length r) available).
    { rewrite firstn_plus. f_equal. rewrite Hr. unfold r, r0. rewrite skipn_length, Htot.
      replace (total - ex) with (q * N) by nia.
      f_equal. nia. }
    destruct r as [|x r'] eqn:Er.
    + exists (q * N). rewrite map_app, concat_app, Hcf. cbn [map concat]. rewrite app_nil_r.
      split; [reflexivity|]. split; [intros i g Hg Hi; eapply Hnth; eassumption|].
      rewrite app_nil_r. split; [lia|]. intros g Hg. exfalso.
      assert (nth_error full q <> None) by congruence. apply nth_error_Some in H. lia.
    + exists (q * N + length (x :: r')). rewrite map_app, concat_app, Hcf. cbn [map concat snd].
      rewrite app_nil_r. split; [exact Hconc|].
      split; [intros i g Hg Hi; eapply Hnth; eassumption|].
      split; [rewrite app_length; simpl; lia|]. intros g Hg.
      rewrite nth_error_app2 in Hg by lia. rewrite Hfull, Nat.sub_diag in Hg. cbn in Hg. injection Hg as <-.
      cbn [fst snd]. split; [reflexivity|]. split; [discriminate|].
      pose proof (Nat.mod_upper_bound ex 2 ltac:(lia)).
      split; [rewrite Hr; lia|]. split; [rewrite Hr; lia|].
      rewrite Hr. rewrite (Nat.div_mod ex 2) at 1 by lia.
      replace (2 * (ex / 2) + ex mod 2 - ex mod 2) with (2 * (ex / 2)) by lia.
      apply Nat.even_spec. exists (ex / 2). reflexivity.
  - exists (q * N). rewrite map_app, concat_app, Hcf. cbn [map concat]. rewrite app_nil_r.
    split; [reflexivity|]. split; [intros i g Hg Hi; eapply Hnth; eassumption|].
    rewrite app_nil_r. split; [lia|]. intros g Hg. exfalso.
    assert (nth_error full q <> None) by congruence. apply nth_error_Some in H. lia.
Qed.

Lemma NoDup_firstn {A} (l : list A) m : NoDup l -> NoDup (firstn m l).
Proof.
  intros H. revert m; induction H as [|x l Hx H IH]; intros [|m]; simpl; try constructor.
  - intros Hin. apply Hx. revert Hin. clear. revert m; induction l as [|y l IH]; intros [|m]; simpl; try tauto.
    intros [->|Hin]; [left; reflexivity|right; eapply IH; eassumption].
  - apply IH.
Qed.

Lemma In_firstn {A} (l : list A) m x : In x (firstn m l) -> In x l.
Proof.
  revert m; induction l as [|y l IH]; intros [|m]; simpl; try tauto.
  intros [->|H]; [left; reflexivity|right; eapply IH; eassumption].
Qed.

Lemma split_ranks_ok nranks n all gs : split_ranks nranks n all = Ok gs ->
  NoDup (concat (map snd gs)) /\
  (forall r, In r (concat (map snd gs)) -> 1 <= r < nranks) /\
  NoDup (map fst gs).
Proof.
  intros H. destruct all.
  - apply split_ranks_all in H. destruct H as [-> ->]. split; [apply seq_NoDup|].
    split; [intros r Hr; apply in_seq in Hr; lia|apply seq_NoDup].
  - assert (n <> 0) as Hn by (apply split_ranks_some in H; tauto).
    apply split_ranks_prefix in H. destruct H as (m & -> & Hn1 & Hle & Hlast).
    split; [apply NoDup_firstn, seq_NoDup|]. split.
    { intros r Hr. apply In_firstn, in_seq in Hr. lia. }
    set (q := (nranks - 1) / n) in *.
    apply NoDup_nth_error. intros i j Hi Hij. rewrite map_length in Hi.
    rewrite !nth_error_map' in Hij.
    destruct (nth_error gs i) as [gi|] eqn:Ei; [|apply nth_error_None in Ei; lia].
    destruct (nth_error gs j) as [gj|] eqn:Ej; [|discriminate]. cbn [option_map] in Hij. injection Hij as Hij.
    assert (j < length gs) by (apply nth_error_Some; congruence).
    destruct (Nat.ltb_spec i q), (Nat.ltb_spec j q).
    + destruct (Hn1 i gi Ei) as [<- _]; [assumption|]. destruct (Hn1 j gj Ej) as [<- _]; [assumption|]. exact Hij.
    + assert (j = q) as -> by lia. destruct (Hlast gj Ej) as [E _]. destruct (Hn1 i gi Ei) as [E' _]; [assumption|]. lia.
    + assert (i = q) as -> by lia. destruct (Hlast gi Ei) as [E _]. destruct (Hn1 j gj Ej) as [E' _]; [assumption|]. lia.
    + lia.
Qed.

(* colours: two workers share a communicator iff they are in the same group *)
Lemma color_of_app gs hs r :
  color_of (gs ++ hs) r = fold_left (fun c g => if existsb (Nat.eqb r) (snd g) then fst g + 1 else c) hs (color_of gs r).
Proof. unfold color_of. apply fold_left_app. Qed.

Lemma existsb_in r l : existsb (Nat.eqb r) l = true <-> In r l.
Proof.
  rewrite existsb_exists. split.
  - intros (x & Hx & E). apply Nat.eqb_eq in E. subst. exact Hx.
  - intros H. exists r. split; [exact H|apply Nat.eqb_refl].
Qed.

Lemma fold_color_notin gs r c : ~ In r (concat (map snd gs)) ->
  fold_left (fun c g => if existsb (Nat.eqb r) (snd g) then fst g + 1 else c) gs c = c.
Proof.
  revert c; induction gs as [|g gs IH]; intros c H; [reflexivity|]. cbn [fold_left map concat] in *.
  assert (existsb (Nat.eqb r) (snd g) = false) as ->.
  { apply not_true_is_false. rewrite existsb_in. intros Hin. apply H, in_or_app. left; exact Hin. }
  apply IH. intros Hin. apply H, in_or_app. right; exact Hin.
Qed.

Lemma color_of_group gs g r : NoDup (concat (map snd gs)) -> In g gs -> In r (snd g) -> color_of gs r = fst g + 1.
Proof.
  intros Hnd Hg Hr. apply in_split in Hg. destruct Hg as (a & b & ->).
  rewrite map_app, concat_app in Hnd. cbn [map concat] in Hnd.
  rewrite color_of_app. cbn [fold_left]. rewrite (proj2 (existsb_in r (snd g)) Hr).
  apply fold_color_notin. intros Hb.
  assert (NoDup (snd g ++ concat (map snd b))) as Hnd2.
  { clear -Hnd. induction (concat (map snd a)) as [|x l IH]; [exact Hnd|].
    cbn [app] in Hnd. inversion Hnd; subst. apply IH. assumption. }
  clear Hnd. rename Hnd2 into Hnd.
  revert Hr Hb Hnd. clear. intros Hr Hb Hnd. induction (snd g) as [|x l IH]; [destruct Hr|].
  cbn [app] in Hnd. inversion Hnd as [|? ? Hx Hnd']; subst. destruct Hr as [->|Hr].
  - apply Hx, in_or_app. right; exact Hb.
  - apply IH; assumption.
Qed.

Lemma color_of_none gs r : ~ In r (concat (map snd gs)) -> color_of gs r = 0.
Proof. intros H. apply fold_color_notin. exact H. Qed.

Lemma enter_colors_ok nranks n all cs : enter_colors nranks n all = Ok cs ->
  length cs = nranks /\ nth_error cs 0 = Some 0 /\
  exists gs, split_ranks nranks n all = Ok gs /\ gs <> [] /\
    forall r c, nth_error cs r = Some c ->
      (c = 0 <-> ~ In r (concat (map snd gs))) /\
      (forall g, In g gs -> (In r (snd g) <-> c = fst g + 1)).
Proof.
  unfold enter_colors. destruct (Nat.eqb_spec nranks 1) as [E|E]; [discriminate|].
  destruct (split_ranks nranks n all) as [gs|e] eqn:Es; [|discriminate]. cbn [rbind].
  destruct (Nat.eqb_spec (length gs) 0) as [El|El]; [discriminate|].
  destruct (Nat.leb_spec nranks (length gs)) as [Hle|Hlt]; [discriminate|].
  intros H. injection H as <-. rewrite map_length, seq_length.
  pose proof (split_ranks_ok _ _ _ _ Es) as (Hnd & Hrange & Hcol).
  split; [reflexivity|]. split.
  { rewrite nth_error_map', nth_error_seq. destruct (Nat.ltb_spec 0 nranks); [|lia].
    cbn [option_map Nat.add]. f_equal. apply color_of_none. intros Hin. apply Hrange in Hin. lia. }
  exists gs. split; [reflexivity|]. split; [destruct gs; [simpl in El; lia|discriminate]|].
  intros r c Hr. rewrite nth_error_map', nth_error_seq in Hr.
  destruct (Nat.ltb_spec r nranks); [|discriminate]. cbn [option_map Nat.add] in Hr. injection Hr as <-.
  assert (Hex : In r (concat (map snd gs)) -> exists g, In g gs /\ In r (snd g)).
  { intros Hin. apply in_concat in Hin. destruct Hin as (l & Hl & Hr). apply in_map_iff in Hl.
    destruct Hl as (g & <- & Hg). eauto. }
  split.
  - split.
    + intros Hc Hin. destruct (Hex Hin) as (g & Hg & Hrg).
      rewrite (color_of_group gs g r Hnd Hg Hrg) in Hc. lia.
    + apply color_of_none.
  - intros g Hg. split.
    + intros Hr. apply color_of_group; assumption.
    + intros Hc. destruct (in_dec Nat.eq_dec r (concat (map snd gs))) as [Hin|Hn].
      * destruct (Hex Hin) as (g' & Hg' & Hrg').
        rewrite (color_of_group gs g' r Hnd Hg' Hrg') in Hc.
        assert (g = g') as ->; [|exact Hrg'].
        assert (fst g = fst g') as Hf by lia.
        clear -Hcol Hg Hg' Hf. induction gs as [|x gs IH]; [destruct Hg|].
        cbn [map] in Hcol. inversion Hcol as [|? ? Hx Hcol']; subst.
        destruct Hg as [->|Hg], Hg' as [->|Hg']; [reflexivity| | |apply IH; assumption].
        -- exfalso. apply Hx. rewrite Hf. apply in_map. exact Hg'.
        -- exfalso. apply Hx. rewrite <- Hf. apply in_map. exact Hg.
      * rewrite color_of_none in Hc by exact Hn. lia.
Qed.
