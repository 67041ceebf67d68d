From Verif Require Import Base BaseProofs Num RanksSpec DaSpec DaMore FiberModel FiberProofs FiberMore CgmModel CgmSpec CgmProofs CgmLocal.
From Coq Require Import Sorted Permutation.
Local Open Scope nat_scope.

Lemma rall_all : forall (A : Type) (l : list (res A)), (forall x, In x l -> exists y, x = Ok y) -> exists ys, rall l = Ok ys /\ map Ok ys = l.
Proof.
  intros A. induction l as [|x l IH]; intros H; [exists []; split; reflexivity|]. destruct (H x (or_introl eq_refl)) as [y ->]. destruct (IH (fun z Hz => H z (or_intror Hz))) as [ys [E1 E2]].
  exists (y :: ys). cbn [rall rbind map]. rewrite E1. split; [reflexivity|]. rewrite E2. reflexivity.
Qed.
Lemma combine_nth_error : forall (A B : Type) (l : list A) (m : list B) i, nth_error (combine l m) i = match nth_error l i, nth_error m i with Some a, Some b => Some (a, b) | _, _ => None end.
Proof. intros A B. induction l as [|x l IH]; intros [|y m] [|i]; cbn [combine nth_error]; try reflexivity; [destruct (nth_error l i); reflexivity|apply IH]. Qed.
Lemma find_first : forall (A : Type) (f : A -> bool) l x, find f l = Some x -> In x l /\ f x = true.
Proof. intros A f l x H. apply find_some in H. exact H. Qed.
Lemma find_exists : forall (A : Type) (f : A -> bool) l x, In x l -> f x = true -> exists y, find f l = Some y.
Proof. intros A f l x H1 H2. destruct (find f l) as [y|] eqn:E; [exists y; reflexivity|]. pose proof (find_none f l E x H1). congruence. Qed.
Lemma find_desc : forall (f : row -> bool) (key : row -> nat) l x, StronglySorted (fun a b => key b <= key a) l -> find f l = Some x -> forall y, In y l -> f y = true -> key y <= key x.
Proof.
  intros f key l x H. induction H as [|w l H IH F]; intros E y Hy Hf; [destruct Hy|]. cbn [find] in E. destruct (f w) eqn:Ew.
  - injection E as ->. destruct Hy as [->|Hy]; [lia|]. rewrite Forall_forall in F. apply F, Hy.
  - destruct Hy as [->|Hy]; [congruence|]. apply IH; assumption.
Qed.

Lemma zsum_cons' : forall x l, zsum (x :: l) = (x + zsum l)%Z. Proof. reflexivity. Qed.
Lemma zlen_map' : forall (A B : Type) (f : A -> B) l, zlen (map f l) = zlen l. Proof. intros. unfold zlen. rewrite map_length. reflexivity. Qed.
Lemma delta_sum : forall j s (g : list nat) k, zsum (map (fun q : nat * nat => if snd q =? s then (if j =? fst q then 1%Z else 0%Z) else 0%Z) (combine (seq k (length g)) g)) =
  (if match nth_error g (j - k) with Some x => (k <=? j) && (x =? s) | None => false end then 1%Z else 0%Z).
Proof.
  intros j s. induction g as [|x l IH]; intros k; cbn [length seq combine map fst snd]; [destruct (j - k); reflexivity|].
  rewrite zsum_cons', IH. destruct (Nat.eq_dec j k) as [E|Hne].
  - rewrite E. rewrite Nat.eqb_refl, Nat.sub_diag, Nat.leb_refl. cbn [nth_error andb]. assert (E2 : (S k <=? k) = false) by (apply Nat.leb_gt; lia). rewrite E2. destruct (nth_error l (k - S k)); cbn [andb]; destruct (x =? s); reflexivity.
  - assert (E1 : (j =? k) = false) by (apply Nat.eqb_neq; exact Hne). rewrite E1. destruct (Nat.le_gt_cases k j) as [L|L].
    + replace (j - k) with (S (j - S k)) by lia. cbn [nth_error]. assert (E2 : (k <=? j) = true) by (apply Nat.leb_le; lia). assert (E3 : (S k <=? j) = true) by (apply Nat.leb_le; lia). rewrite E2, E3. destruct (x =? s); reflexivity.
    + replace (j - k) with 0 by lia. replace (j - S k) with 0 by lia. assert (E2 : (k <=? j) = false) by (apply Nat.leb_gt; lia). assert (E3 : (S k <=? j) = false) by (apply Nat.leb_gt; lia). cbn [nth_error]. rewrite E2, E3. cbn [andb].
      destruct l; cbn [nth_error andb]; destruct (x =? s); reflexivity.
Qed.
Lemma count_places : forall (g : list nat) s (H : list row), (forall w, In w H -> nth_error g (rj w) = Some (sj w)) ->
  zsum (map (fun q : nat * nat => if snd q =? s then zlen (filter (fun w => rj w =? fst q) H) else 0%Z) (combine (seq 0 (length g)) g)) = zlen (filter (fun w => sj w =? s) H).
Proof.
  intros g s. induction H as [|w H IH]; intros Hw.
  - cbn [filter]. induction (combine (seq 0 (length g)) g) as [|q l IHl]; [reflexivity|]. cbn [map]. rewrite zsum_cons', IHl. destruct (snd q =? s); reflexivity.
  - specialize (IH (fun v Hv => Hw v (or_intror Hv))). pose proof (delta_sum (rj w) s g 0) as D. rewrite Nat.sub_0_r, (Hw w (or_introl eq_refl)) in D. cbn [andb Nat.leb] in D.
    assert (E : zlen (filter (fun w => sj w =? s) (w :: H)) = ((if (sj w =? s)%nat then 1 else 0) + zlen (filter (fun w => (sj w =? s)%nat) H))%Z) by (cbn [filter]; destruct (sj w =? s); unfold zlen; cbn [length]; lia).
    rewrite E, <- D, <- IH. clear E D IH Hw. induction (combine (seq 0 (length g)) g) as [|q l IHl]; [reflexivity|]. cbn [map]. rewrite !zsum_cons', IHl. cbn [filter].
    destruct (snd q =? s); [|lia]. destruct (rj w =? fst q); unfold zlen; cbn [length]; lia.
Qed.

Section Run.
Variables (N : nat) (near : nat -> nat -> bool) (by_desc : (row -> nat) -> list row -> list row)
  (prims ghosts : list (list nat)) (batches : list (list (list (nat * nat)))) (close : nat -> nat -> Prop).
Hypothesis HX : exchange_ok N close prims ghosts batches.
Hypothesis Hclose : forall i j, i < N -> j < N -> near i j = true -> close i j.
Hypothesis Hrefl : forall i, i < N -> near i i = true.
Hypothesis Hbd : by_desc_contract by_desc.
Notation cen := (cen N near).
Local Notation row_si' := (row_si N near by_desc prims ghosts batches close HX Hclose Hrefl Hbd).
Local Notation row_sj' := (row_sj N near by_desc prims ghosts batches close HX Hclose Hrefl Hbd).
Local Notation row_ri' := (row_ri N near by_desc prims ghosts batches close HX Hclose Hrefl Hbd).
Local Notation row_near' := (row_near N near by_desc prims ghosts batches close HX Hclose Hrefl Hbd).
Local Notation row_make' := (row_make N near by_desc prims ghosts batches close HX Hclose Hrefl Hbd).
Local Notation row_place' := (row_place N near by_desc prims ghosts batches close HX Hclose Hrefl Hbd).
Local Notation row_eq' := (row_eq N near by_desc prims ghosts batches close HX Hclose Hrefl Hbd).
Local Notation rows_nodup' := (rows_nodup N near by_desc prims ghosts batches close HX Hclose Hrefl Hbd).
Local Notation prim_in' := (prim_in N near by_desc prims ghosts batches close HX Hclose Hrefl Hbd).
Local Notation prim_same' := (prim_same N near by_desc prims ghosts batches close HX Hclose Hrefl Hbd).
Local Notation prim_where' := (prim_where N near by_desc prims ghosts batches close HX Hclose Hrefl Hbd).
Local Notation prim_facts' := (prim_facts N near by_desc prims ghosts batches close HX Hclose Hrefl Hbd).
Local Notation prim_nodup' := (prim_nodup N near by_desc prims ghosts batches close HX Hclose Hrefl Hbd).

Definition rank_ok (r : nat) (part : list row * list nat * list row) : Prop :=
  exists p g bs, nth_error prims r = Some p /\ nth_error ghosts r = Some g /\ nth_error batches r = Some bs /\
    local_ok N near p g bs (fst (fst part)) (snd (fst part)) (snd part).
Lemma parts_ok : exists parts,
  rall (map (fun p => let '(r, (prim, (ghost, bs))) := p in local_part near by_desc prims r prim ghost bs)
         (combine (seq 0 (length prims)) (combine prims (combine ghosts batches)))) = Ok parts /\
  length parts = length prims /\ forall r part, nth_error parts r = Some part -> rank_ok r part.
Proof using All.
  destruct (ex_ranks _ _ _ _ _ HX) as [L1 L2].
  set (L := combine (seq 0 (length prims)) (combine prims (combine ghosts batches))).
  assert (HL : forall i r prim ghost bs, nth_error L i = Some (r, (prim, (ghost, bs))) -> r = i /\ nth_error prims i = Some prim /\ nth_error ghosts i = Some ghost /\ nth_error batches i = Some bs).
  { intros i r prim ghost bs H. unfold L in H. rewrite !combine_nth_error in H. destruct (nth_error (seq 0 (length prims)) i) as [k|] eqn:Es; [|discriminate].
    destruct (nth_error prims i) as [a|] eqn:Ea; [|discriminate]. destruct (nth_error ghosts i) as [b|] eqn:Eb; [|discriminate]. destruct (nth_error batches i) as [c|] eqn:Ec; [|discriminate].
    injection H as <- <- <- <-. assert (Hlt : i < length prims) by (apply nth_error_Some; congruence). rewrite nth_error_seq in Es. assert (Eq0 : i <? length prims = true) by (apply Nat.ltb_lt; exact Hlt). rewrite Eq0 in Es. injection Es as <-. auto. }
  set (F := fun p : nat * (list nat * (list nat * list (list (nat * nat)))) => let '(r, (prim, (ghost, bs))) := p in local_part near by_desc prims r prim ghost bs).
  destruct (rall_all _ (map F L)) as [parts [E1 E2]].
  - intros x Hx. apply in_map_iff in Hx. destruct Hx as [[r [prim [ghost bs]]] [<- Hin]]. apply In_nth_error in Hin. destruct Hin as [i Hi]. destruct (HL _ _ _ _ _ Hi) as [-> [H1 [H2 H3]]].
    destruct (local_part_ok N near by_desc prims ghosts batches close HX Hclose Hrefl Hbd i prim ghost bs H1 H2 H3) as [df [cs [ms [E _]]]]. exists (df, cs, ms). exact E.
  - exists parts. split; [exact E1|]. split.
    + apply (f_equal (@length _)) in E2. rewrite !map_length in E2. rewrite E2. unfold L. rewrite !combine_length, seq_length. lia.
    + intros r part Hr. assert (H : nth_error (map Ok parts) r = Some (Ok part)) by (rewrite nth_error_map', Hr; reflexivity). rewrite E2, nth_error_map' in H.
      destruct (nth_error L r) as [[r' [prim [ghost bs]]]|] eqn:Hi; [|discriminate]. cbn [option_map F] in H. injection H as H. destruct (HL _ _ _ _ _ Hi) as [-> [H1 [H2 H3]]].
      destruct (local_part_ok N near by_desc prims ghosts batches close HX Hclose Hrefl Hbd r prim ghost bs H1 H2 H3) as [df [cs [ms [E K]]]]. exists prim, ghost, bs. rewrite E in H. injection H as <-. auto.
Qed.

Section Parts.
Variable parts : list (list row * list nat * list row).
Hypothesis Hlen : length parts = length prims.
Hypothesis Hparts : forall r part, nth_error parts r = Some part -> rank_ok r part.
Let cens := concat (map (fun p => snd (fst p)) parts).
Let mays := concat (map snd parts).
Lemma part_at : forall r p, nth_error prims r = Some p -> exists part, nth_error parts r = Some part.
Proof using All. intros r p H. destruct (nth_error parts r) as [x|] eqn:E; [exists x; reflexivity|]. apply nth_error_None in E. assert (r < length prims) by (apply nth_error_Some; congruence). lia. Qed.
Lemma cens_in : forall s, In s cens <-> exists r part, nth_error parts r = Some part /\ In s (snd (fst part)).
Proof using All.
  intros s. unfold cens. rewrite in_concat. split.
  - intros [l [Hl Hs]]. apply in_map_iff in Hl. destruct Hl as [part [<- Hp]]. apply In_nth_error in Hp. destruct Hp as [r Hr]. exists r, part. auto.
  - intros [r [part [Hr Hs]]]. exists (snd (fst part)). split; [|exact Hs]. apply in_map_iff. exists part. split; [reflexivity|]. eapply nth_error_In; exact Hr.
Qed.
Lemma mays_in : forall w, In w mays <-> exists r part, nth_error parts r = Some part /\ In w (snd part).
Proof using All.
  intros s. unfold mays. rewrite in_concat. split.
  - intros [l [Hl Hs]]. apply in_map_iff in Hl. destruct Hl as [part [<- Hp]]. apply In_nth_error in Hp. destruct Hp as [r Hr]. exists r, part. auto.
  - intros [r [part [Hr Hs]]]. exists (snd part). split; [|exact Hs]. apply in_map_iff. exists part. split; [reflexivity|]. eapply nth_error_In; exact Hr.
Qed.
Lemma cens_cen : forall s, In s cens -> cen s = true.
Proof using All. intros s H. apply cens_in in H. destruct H as [r [part [Hr Hs]]]. destruct (Hparts r part Hr) as [p [g [bs [_ [_ [_ K]]]]]]. apply (lo_cen _ _ _ _ _ _ _ _ K). exact Hs. Qed.
Lemma cens_nodup : NoDup cens.
Proof using All.
  unfold cens. apply nodup_concat_i.
  - intros l Hl. apply in_map_iff in Hl. destruct Hl as [part [<- Hp]]. apply In_nth_error in Hp. destruct Hp as [r Hr]. destruct (Hparts r part Hr) as [p [g [bs [_ [_ [_ K]]]]]]. apply (lo_nodup _ _ _ _ _ _ _ _ K).
  - intros r q a b x Hr Hq Ha Hb. rewrite nth_error_map' in Hr, Hq. destruct (nth_error parts r) as [pr|] eqn:Er; [|discriminate]. destruct (nth_error parts q) as [pq|] eqn:Eq; [|discriminate].
    cbn [option_map] in Hr, Hq. injection Hr as <-. injection Hq as <-. destruct (Hparts r pr Er) as [p [g [bs [P1 [_ [_ K]]]]]]. destruct (Hparts q pq Eq) as [p' [g' [bs' [P1' [_ [_ K']]]]]].
    apply (prim_same' r q p p' x P1 P1'); [apply (lo_cen _ _ _ _ _ _ _ _ K), Ha|apply (lo_cen _ _ _ _ _ _ _ _ K'), Hb].
Qed.
(* the rows of the maybes: all pairs with objects ranked above *)
Lemma mays_full : forall w t, In w mays -> t < N -> si w < t -> near (si w) t = true -> exists v, In v mays /\ si v = si w /\ sj v = t.
Proof using All.
  intros w t Hw Ht Hlt Hn. apply mays_in in Hw. destruct Hw as [r [part [Hr Hw]]]. destruct (Hparts r part Hr) as [p [g [bs [P1 [P2 [P3 K]]]]]]. destruct (lo_rows _ _ _ _ _ _ _ _ K w Hw) as [W1 [W2 W3]].
  destruct (row_make' r p g bs P1 P2 P3 (ri w) (si w) t (proj1 (row_ri' r p g bs P1 P2 P3 w W1)) Ht Hn) as [v [V1 [V2 [V3 [V4 _]]]]]. exists v. split; [|auto]. apply mays_in. exists r, part. split; [exact Hr|].
  apply (lo_full _ _ _ _ _ _ _ _ K w v Hw V1 V3). lia.
Qed.
Lemma mays_row : forall w, In w mays -> si w < sj w /\ sj w < N /\ near (si w) (sj w) = true /\ ~ In (si w) cens.
Proof using All.
  intros w Hw. apply mays_in in Hw. destruct Hw as [r [part [Hr Hw]]]. destruct (Hparts r part Hr) as [p [g [bs [P1 [P2 [P3 K]]]]]]. destruct (lo_rows _ _ _ _ _ _ _ _ K w Hw) as [W1 [W2 W3]].
  split; [exact W2|]. split; [exact (row_sj' r p g bs P1 P2 P3 w W1)|]. split; [exact (row_near' r p g bs P1 P2 P3 w W1)|]. intros G. apply cens_in in G. destruct G as [q [pq [Hq G]]].
  destruct (Hparts q pq Hq) as [p' [g' [bs' [P1' [_ [_ K']]]]]]. assert (E : q = r) by (apply (prim_same' q r p' p (si w) P1' P1); [apply (lo_cen _ _ _ _ _ _ _ _ K'), G|exact (row_si' r p g bs P1 P2 P3 w W1)]).
  subst q. rewrite Hr in Hq. injection Hq as <-. contradiction.
Qed.
Lemma all_found : forall s, cen s = true -> In s cens \/ In s (map si mays).
Proof using All.
  intros s Hc. destruct (prim_where' s (cen_lt N near s Hc)) as [r [p [Hr Hs]]]. destruct (part_at r p Hr) as [part E]. destruct (Hparts r part E) as [p' [g [bs [P1 [_ [_ K]]]]]]. rewrite Hr in P1. injection P1 as <-.
  destruct (lo_all _ _ _ _ _ _ _ _ K s Hs Hc) as [H|H]; [left; apply cens_in; exists r, part; auto|]. right. apply in_map_iff in H. destruct H as [w [E' Hw]]. apply in_map_iff. exists w. split; [exact E'|]. apply mays_in. exists r, part. auto.
Qed.

Lemma final_loop : forall df gs new,
  StronglySorted (fun a b => b < a) gs ->
  (forall x, In x gs -> x < N /\ ~ In x cens /\ ~ In x new) ->
  (forall x t, In x gs -> In t (group_nums df x) <-> t < N /\ x < t /\ near x t = true) ->
  (forall x t, In x gs -> t < N -> x < t -> near x t = true -> ~ In t cens) ->
  NoDup new -> (forall c, In c new -> cen c = true /\ ~ In c cens) ->
  (forall t, cen t = true -> In t cens \/ In t new \/ In t gs) ->
  let new' := fold_left (final_step df) gs new in
  NoDup new' /\ (forall c, In c new' -> cen c = true /\ ~ In c cens) /\ (forall t, cen t = true -> In t cens \/ In t new').
Proof using All.
  intros df. induction gs as [|x gs IH]; intros new Hs Hgs Hnum Hno Hnd Hcen Hall; cbn [fold_left].
  - split; [exact Hnd|]. split; [exact Hcen|]. intros t Ht. destruct (Hall t Ht) as [H|[H|[]]]; auto.
  - inversion Hs as [|? ? Hs1 Hs2]; subst. rewrite Forall_forall in Hs2. destruct (Hgs x (or_introl eq_refl)) as [HxN [HxC Hxn]].
    assert (Hgs' : forall y, In y gs -> y <> x) by (intros y Hy ->; specialize (Hs2 x Hy); lia).
    cbn zeta. assert (E0 : final_step df new x = if existsb (fun n => mem n new) (group_nums df x) then new else add x new) by reflexivity. rewrite E0. clear E0. destruct (existsb (fun n => mem n new) (group_nums df x)) eqn:E1.
    + apply IH; [exact Hs1|intros y Hy; apply Hgs; right; exact Hy|intros y t Hy; apply Hnum; right; exact Hy|intros y t Hy; apply Hno; right; exact Hy|exact Hnd|exact Hcen|].
      intros t Ht. destruct (Hall t Ht) as [H|[H|[H|H]]]; auto. exfalso. subst t. apply existsb_mem in E1. destruct E1 as [t [T1 T2]]. apply (Hnum x t (or_introl eq_refl)) in T1. destruct T1 as [T1 [T3 T4]].
      pose proof (proj1 (cen_iff N near x HxN) Ht t T3 T1 T4) as F. destruct (Hcen t T2). congruence.
    + assert (Hx : cen x = true).
      { apply cen_iff; [exact HxN|]. intros t T1 T2 T3. destruct (cen t) eqn:C'; [|reflexivity]. exfalso. assert (Tn : In t (group_nums df x)) by (apply (Hnum x t (or_introl eq_refl)); auto).
        destruct (Hall t C') as [H|[H|[H|H]]]; [exact (Hno x t (or_introl eq_refl) T2 T1 T3 H)|exact (existsb_mem_false _ _ E1 t Tn H)|lia|specialize (Hs2 t H); lia]. }
      apply IH; [exact Hs1| |intros y t Hy; apply Hnum; right; exact Hy|intros y t Hy; apply Hno; right; exact Hy|apply add_nodup; exact Hnd| |].
      * intros y Hy. destruct (Hgs y (or_intror Hy)) as [G1 [G2 G3]]. split; [exact G1|]. split; [exact G2|]. rewrite add_in. intros [->|G]; [exact (Hgs' x Hy eq_refl)|contradiction].
      * intros c Hc. apply add_in in Hc. destruct Hc as [->|Hc]; [auto|apply Hcen, Hc].
      * intros t Ht. rewrite add_in. destruct (Hall t Ht) as [H|[H|[H|H]]]; auto.
Qed.
Let all := all_centrals by_desc parts.
Lemma all_ok : StronglySorted (fun a b => b < a) all /\ forall s, In s all <-> cen s = true.
Proof using All.
  unfold all, all_centrals. fold cens. fold mays. set (df := by_desc si (remove_paired cens mays)). destruct (Hbd si (remove_paired cens mays)) as [Dp Ds]. fold df in Dp, Ds.
  assert (Pdf : forall w, In w df <-> In w mays /\ forall v, In v mays -> si v = si w -> ~ In (sj v) cens).
  { intros w. rewrite <- remove_paired_in. split; apply Permutation_in; [exact Dp|symmetry; exact Dp]. }
  assert (Hsub : forall x, In x (nub (map si df)) <-> exists w, In w df /\ si w = x). { intros x. rewrite nub_in, in_map_iff. split; intros [w [A B]]; exists w; auto. }
  destruct (final_loop df (nub (map si df)) []) as [R1 [R2 R3]].
  - apply nub_desc, desc_map. exact Ds.
  - intros x Hx. apply Hsub in Hx. destruct Hx as [w [Hw <-]]. apply Pdf in Hw. destruct Hw as [Hw _]. destruct (mays_row w Hw) as [W1 [W2 [W3 W4]]]. split; [lia|]. split; [exact W4|intros []].
  - intros x t Hx. apply Hsub in Hx. destruct Hx as [w0 [Hw0 <-]]. apply Pdf in Hw0. destruct Hw0 as [Hw0 Hb]. rewrite group_nums_in. split.
    + intros [w [Hw [E1 E2]]]. apply Pdf in Hw. destruct Hw as [Hw _]. destruct (mays_row w Hw) as [W1 [W2 [W3 W4]]]. rewrite <- E1, <- E2. auto.
    + intros [T1 [T2 T3]]. destruct (mays_full w0 t Hw0 T1 T2 T3) as [v [V1 [V2 V3]]]. exists v. split; [|auto]. apply Pdf. split; [exact V1|]. rewrite V2. exact Hb.
  - intros x t Hx T1 T2 T3. apply Hsub in Hx. destruct Hx as [w0 [Hw0 <-]]. apply Pdf in Hw0. destruct Hw0 as [Hw0 Hb]. destruct (mays_full w0 t Hw0 T1 T2 T3) as [v [V1 [V2 V3]]]. rewrite <- V3. apply (Hb v V1 V2).
  - constructor.
  - intros c [].
  - intros t Ht. destruct (all_found t Ht) as [H|H]; [auto|]. right. right. apply in_map_iff in H. destruct H as [w [<- Hw]]. apply Hsub. exists w. split; [|reflexivity]. apply Pdf. split; [exact Hw|].
    intros v Hv E G. apply cens_cen in G. destruct (mays_row v Hv) as [V1 [V2 [V3 V4]]]. destruct (mays_row w Hw) as [W1 [W2 _]].
    pose proof (proj1 (cen_iff N near (si w) ltac:(lia)) Ht (sj v) ltac:(lia) V2) as F. rewrite <- E in F. rewrite (F V3) in G. discriminate.
  - set (new := fold_left (final_step df) (nub (map si df)) []) in *. split.
    + apply sorted_nodup_strict; [apply dsort_sorted|]. eapply Permutation_NoDup; [symmetry; apply dsort_perm|]. apply nodup_app_i; [exact cens_nodup|exact R1|]. intros x Hx Hn. destruct (R2 x Hn). contradiction.
    + intros s. split.
      * intros H. apply (Permutation_in _ (dsort_perm _)) in H. apply in_app_iff in H. destruct H as [H|H]; [apply cens_cen, H|apply R2, H].
      * intros H. apply (Permutation_in _ (Permutation_sym (dsort_perm _))). apply in_app_iff. apply R3, H.
Qed.
Lemma label_cen : forall s, isnull (label all s) = negb (cen s).
Proof using All.
  intros s. destruct all_ok as [_ A]. unfold label. destruct (index_of s all) as [k|] eqn:E; cbn [option_map isnull].
  - destruct (cen s) eqn:C; [reflexivity|]. assert (Hn : ~ In s all) by (rewrite A; congruence). apply index_of_none in Hn. congruence.
  - apply index_of_none in E. rewrite A in E. destruct (cen s); [exfalso; apply E; reflexivity|reflexivity].
Qed.

(* ---- one rank ---- *)
Definition host (u t : nat) : Prop := cen t = true /\ near u t = true /\ forall t', cen t' = true -> near u t' = true -> t' <= t.
Section Rank.
Variables (r : nat) (p g : list nat) (bs : list (list (nat * nat))) (df : list row).
Hypotheses (Hp : nth_error prims r = Some p) (Hg : nth_error ghosts r = Some g) (Hbs : nth_error batches r = Some bs).
Let rows := frame_rows near p g bs.
Hypothesis Hdf : Permutation df rows.
Lemma df_in : forall w, In w df <-> In w rows. Proof using All. intros w. split; apply Permutation_in; [exact Hdf|symmetry; exact Hdf]. Qed.
Lemma sats_in : forall w, In w (sats by_desc all df) <-> In w rows /\ cen (si w) = false /\ cen (sj w) = true.
Proof using All.
  intros w. unfold sats. destruct (Hbd sj (filter (fun w => isnull (label all (si w)) && negb (isnull (label all (sj w)))) df)) as [P _].
  transitivity (In w (filter (fun w => isnull (label all (si w)) && negb (isnull (label all (sj w)))) df)); [split; apply Permutation_in; [exact P|symmetry; exact P]|].
  rewrite filter_In, df_in, !label_cen, negb_involutive, andb_true_iff, negb_true_iff. tauto.
Qed.
Lemma hosts_in : forall w, In w (hosts by_desc all df) <-> In w rows /\ cen (si w) = false /\ host (si w) (sj w).
Proof using All.
  intros w. unfold hosts. rewrite in_flat_map. destruct (Hbd sj (filter (fun w => isnull (label all (si w)) && negb (isnull (label all (sj w)))) df)) as [_ Ss]. fold (sats by_desc all df) in Ss. unfold first_of. split.
  - intros [s [Hs Hw]]. destruct (find (fun w => si w =? s) (sats by_desc all df)) as [v|] eqn:E; [|destruct Hw]. destruct Hw as [->|[]]. pose proof (find_desc _ sj _ _ Ss E) as Hmax. apply find_first in E. destruct E as [Hw Es]. apply Nat.eqb_eq in Es.
    apply sats_in in Hw. destruct Hw as [W1 [W2 W3]]. split; [exact W1|]. split; [exact W2|]. split; [exact W3|]. split; [exact (row_near' r p g bs Hp Hg Hbs w W1)|].
    intros t' C' N'. destruct (row_make' r p g bs Hp Hg Hbs (ri w) (si w) t' (proj1 (row_ri' r p g bs Hp Hg Hbs w W1)) (cen_lt N near t' C') N') as [v [V1 [V2 [V3 [V4 _]]]]]. rewrite <- V4. apply Hmax; [apply sats_in; rewrite V3, V4; auto|].
    apply Nat.eqb_eq. congruence.
  - intros [W1 [W2 [W3 [W4 W5]]]]. assert (Hw : In w (sats by_desc all df)) by (apply sats_in; auto). exists (si w). split; [apply nub_in, in_map; exact Hw|].
    destruct (find_exists _ (fun v => si v =? si w) _ w Hw (Nat.eqb_refl _)) as [v E]. rewrite E. left. pose proof (find_desc _ sj _ _ Ss E w Hw (Nat.eqb_refl _)) as Hle. apply find_first in E. destruct E as [Hv Es]. apply Nat.eqb_eq in Es.
    apply sats_in in Hv. destruct Hv as [V1 [V2 V3]]. pose proof (row_near' r p g bs Hp Hg Hbs v V1) as Hn. rewrite Es in Hn. pose proof (W5 (sj v) V3 Hn).
    apply (row_eq' r p g bs Hp Hg Hbs v w V1 W1 Es). lia.
Qed.
Lemma hosts_si : NoDup (map si (hosts by_desc all df)).
Proof using All.
  unfold hosts. assert (H : forall l, NoDup l -> NoDup (map si (flat_map (first_of by_desc all df) l)) /\ forall x, In x (map si (flat_map (first_of by_desc all df) l)) -> In x l).
  { induction l as [|x l IH]; intros Hn; [split; [constructor|intros y []]|]. inversion Hn as [|? ? N1 N2]; subst. destruct (IH N2) as [I1 I2]. cbn [flat_map]. unfold first_of at 1 3.
    destruct (find (fun w => si w =? x) (sats by_desc all df)) as [v|] eqn:E; cbn [app map].
    - apply find_first in E. destruct E as [_ Es]. apply Nat.eqb_eq in Es. rewrite Es. split; [constructor; [intros G; apply N1, I2, G|exact I1]|]. intros y [<-|Hy]; [left; reflexivity|right; apply I2, Hy].
    - split; [exact I1|]. intros y Hy. right. apply I2, Hy. }
  apply H, nub_nodup.
Qed.
Variable nan_int : Z.
Lemma type_label : forall a s, nth_error p a = Some s ->
  (cen s = true -> out_type by_desc all df a = 0%Z /\ exists k, nth_error all k = Some s /\ out_label by_desc nan_int all df a = Z.of_nat k) /\
  (cen s = false -> out_type by_desc all df a = 1%Z /\ exists t k, host s t /\ nth_error all k = Some t /\ out_label by_desc nan_int all df a = Z.of_nat k).
Proof using All.
  intros a s Ha. destruct all_ok as [AS AI]. assert (HsN : s < N) by (eapply prim_in'; [exact Hp|eapply nth_error_In; exact Ha]).
  assert (Hri : forall w, In w rows -> ri w = a -> si w = s). { intros w Hw E. destruct (row_ri' r p g bs Hp Hg Hbs w Hw) as [H _]. rewrite E, Ha in H. congruence. }
  assert (Hlab : forall t, cen t = true -> exists k, nth_error all k = Some t /\ label all t = Some (Z.of_nat k)).
  { intros t Ct. unfold label. destruct (index_of t all) as [k|] eqn:E; [exists k; split; [apply index_of_some in E; [exact E|exact AS]|reflexivity]|]. apply index_of_none in E. rewrite AI in E. congruence. }
  split; intros C.
  - assert (Hno : forall w, In w (hosts by_desc all df) -> (ri w =? a) = false).
    { intros w Hw. apply hosts_in in Hw. destruct Hw as [W1 [W2 _]]. apply Nat.eqb_neq. intros E. rewrite (Hri w W1 E) in W2. congruence. }
    split.
    + unfold out_type. destruct (existsb (fun w => ri w =? a) (hosts by_desc all df)) eqn:E; [|reflexivity]. apply existsb_exists in E. destruct E as [w [Hw E]]. rewrite (Hno w Hw) in E. discriminate.
    + destruct (Hlab s C) as [k [K1 K2]]. exists k. split; [exact K1|]. unfold out_label. destruct (find (fun w => ri w =? a) (hosts by_desc all df)) as [w|] eqn:E; [apply find_first in E; destruct E as [Hw E]; rewrite (Hno w Hw) in E; discriminate|].
      unfold cens_label. destruct (row_make' r p g bs Hp Hg Hbs a s s Ha HsN (Hrefl s HsN)) as [w [W1 [W2 [W3 [W4 _]]]]].
      destruct (find_exists _ (fun w => ri w =? a) (filter (fun w => negb (isnull (label all (sj w)))) df) w) as [v Ev].
      * apply filter_In. split; [apply df_in; exact W1|]. rewrite W4, label_cen, C. reflexivity.
      * apply Nat.eqb_eq. exact W2.
      * rewrite Ev. apply find_first in Ev. destruct Ev as [Hv Ev]. apply filter_In in Hv. destruct Hv as [Hv _]. apply df_in in Hv. apply Nat.eqb_eq in Ev. rewrite (Hri v Hv Ev), K2. reflexivity.
  - (* the central ranked first among those near s *)
    destruct (not_cen N near s HsN C) as [t0 [T1 [T2 [T3 T4]]]].
    assert (Hmax : exists t, host s t).
    { enough (H : forall m t, N - t <= m -> cen t = true -> near s t = true -> exists t, host s t) by (apply (H N t0); [lia|assumption|assumption]).
      induction m as [|m IH]; intros t Hm Ct Hn; [pose proof (cen_lt N near t Ct); lia|].
      destruct (existsb (fun u => cen u && near s u && (t <? u)) (seq 0 N)) eqn:E.
      - apply existsb_exists in E. destruct E as [u [U1 U2]]. apply andb_true_iff in U2. destruct U2 as [U2 U3]. apply andb_true_iff in U2. destruct U2 as [U2 U4]. apply Nat.ltb_lt in U3. apply (IH u); [lia|exact U2|exact U4].
      - exists t. split; [exact Ct|]. split; [exact Hn|]. intros u Cu Nu. destruct (Nat.le_gt_cases u t) as [L|L]; [exact L|]. exfalso.
        assert (G : existsb (fun u => cen u && near s u && (t <? u)) (seq 0 N) = true); [|congruence]. apply existsb_exists. exists u. split; [apply in_seq; pose proof (cen_lt N near u Cu); lia|]. apply Nat.ltb_lt in L. rewrite Cu, Nu, L. reflexivity. }
    destruct Hmax as [t Ht]. destruct (row_make' r p g bs Hp Hg Hbs a s t Ha (cen_lt N near t (proj1 Ht)) (proj1 (proj2 Ht))) as [w [W1 [W2 [W3 [W4 _]]]]].
    assert (Hw : In w (hosts by_desc all df)) by (apply hosts_in; rewrite W3, W4; auto).
    split.
    + unfold out_type. assert (E : existsb (fun w => ri w =? a) (hosts by_desc all df) = true) by (apply existsb_exists; exists w; split; [exact Hw|apply Nat.eqb_eq; exact W2]). rewrite E. reflexivity.
    + destruct (Hlab t (proj1 Ht)) as [k [K1 K2]]. exists t, k. split; [exact Ht|]. split; [exact K1|]. unfold out_label.
      destruct (find_exists _ (fun w => ri w =? a) (hosts by_desc all df) w Hw) as [v Ev]; [apply Nat.eqb_eq; exact W2|]. rewrite Ev. apply find_first in Ev. destruct Ev as [Hv Ev]. apply Nat.eqb_eq in Ev.
      apply hosts_in in Hv. destruct Hv as [V1 [V2 [V3 [V4 V5]]]]. rewrite (Hri v V1 Ev) in *. assert (sj v = t). { pose proof (V5 t (proj1 Ht) (proj1 (proj2 Ht))). pose proof (proj2 (proj2 Ht) (sj v) V3 V4). lia. } rewrite H, K2. reflexivity.
Qed.
End Rank.

(* ---- the satellites of a central, on all ranks ---- *)
Definition hosts_of (part : list row * list nat * list row) : list row := hosts by_desc all (fst (fst part)).
Lemma rank_hosts : forall r part, nth_error parts r = Some part -> exists p g, nth_error prims r = Some p /\ nth_error ghosts r = Some g /\
  (forall w, In w (hosts_of part) -> In (si w) p /\ nth_error g (rj w) = Some (sj w) /\ cen (si w) = false /\ host (si w) (sj w)) /\
  (forall u t, In u p -> cen u = false -> host u t -> exists w, In w (hosts_of part) /\ si w = u /\ sj w = t) /\ NoDup (map si (hosts_of part)).
Proof using All.
  intros r part Hr. destruct (Hparts r part Hr) as [p [g [bs [P1 [P2 [P3 K]]]]]]. pose proof (lo_df _ _ _ _ _ _ _ _ K) as D. exists p, g. split; [exact P1|]. split; [exact P2|]. unfold hosts_of. split; [|split].
  - intros w Hw. apply (hosts_in r p g bs (fst (fst part)) P1 P2 P3 D) in Hw. destruct Hw as [W1 [W2 W3]]. split; [exact (row_si' r p g bs P1 P2 P3 w W1)|]. split; [exact (proj2 (row_ri' r p g bs P1 P2 P3 w W1))|auto].
  - intros u t Hu Cu Ht. apply In_nth_error in Hu. destruct Hu as [a Ha]. destruct (row_make' r p g bs P1 P2 P3 a u t Ha (cen_lt N near t (proj1 Ht)) (proj1 (proj2 Ht))) as [w [W1 [W2 [W3 [W4 _]]]]].
    exists w. split; [|auto]. apply (hosts_in r p g bs (fst (fst part)) P1 P2 P3 D). rewrite W3, W4. auto.
  - apply (hosts_si r p g bs (fst (fst part)) P1 P2 P3 D).
Qed.
Lemma sats_list : forall s, exists L, NoDup L /\ (forall u, In u L <-> u < N /\ cen u = false /\ host u s) /\ gather_sum by_desc ghosts all parts s = zlen L.
Proof using All.
  intros s. set (F := fun part => map si (filter (fun w => sj w =? s) (hosts_of part))). exists (concat (map F parts)).
  assert (FI : forall r part u, nth_error parts r = Some part -> In u (F part) -> exists p, nth_error prims r = Some p /\ In u p /\ cen u = false /\ host u s).
  { intros r part u Hr Hu. destruct (rank_hosts r part Hr) as [p [g [P1 [P2 [A [B C]]]]]]. unfold F in Hu. apply in_map_iff in Hu. destruct Hu as [w [<- Hw]]. apply filter_In in Hw. destruct Hw as [Hw Es]. apply Nat.eqb_eq in Es. destruct (A w Hw) as [A1 [A2 [A3 A4]]].
    exists p. rewrite Es in A4. auto. }
  split; [|split].
  - apply nodup_concat_i.
    + intros l Hl. apply in_map_iff in Hl. destruct Hl as [part [<- Hp]]. apply In_nth_error in Hp. destruct Hp as [r Hr]. destruct (rank_hosts r part Hr) as [p [g [_ [_ [_ [_ C]]]]]]. apply nodup_map_filter. exact C.
    + intros r q a b x Hr Hq Ha Hb. rewrite nth_error_map' in Hr, Hq. destruct (nth_error parts r) as [pr|] eqn:Er; [|discriminate]. destruct (nth_error parts q) as [pq|] eqn:Eq; [|discriminate].
      cbn [option_map] in Hr, Hq. injection Hr as <-. injection Hq as <-. destruct (FI r pr x Er Ha) as [p [X1 [X2 _]]]. destruct (FI q pq x Eq Hb) as [p' [Y1 [Y2 _]]]. exact (prim_same' r q p p' x X1 Y1 X2 Y2).
  - intros u. rewrite in_concat. split.
    + intros [l [Hl Hu]]. apply in_map_iff in Hl. destruct Hl as [part [<- Hp]]. apply In_nth_error in Hp. destruct Hp as [r Hr]. destruct (FI r part u Hr Hu) as [p [X1 [X2 X3]]]. split; [exact (prim_in' r p u X1 X2)|exact X3].
    + intros [Hu [Cu Ht]]. destruct (prim_where' u Hu) as [r [p [Hr Hp]]]. destruct (part_at r p Hr) as [part E]. destruct (rank_hosts r part E) as [p' [g [P1 [P2 [A [B C]]]]]]. rewrite Hr in P1. injection P1 as <-.
      destruct (B u s Hp Cu Ht) as [w [W1 [W2 W3]]]. exists (F part). split; [apply in_map; eapply nth_error_In; exact E|]. unfold F. apply in_map_iff. exists w. split; [exact W2|]. apply filter_In. split; [exact W1|]. apply Nat.eqb_eq. exact W3.
  - rewrite zlen_concat, map_map. unfold gather_sum.
    assert (G : forall gs ps k, length gs = length ps -> (forall i g part, nth_error gs i = Some g -> nth_error ps i = Some part -> nth_error ghosts (k + i) = Some g /\ nth_error parts (k + i) = Some part) ->
      zsum (map (fun p : list nat * (list row * list nat * list row) => let '(ghost, (df, _, _)) := p in zsum (map (fun q => if snd q =? s then out_count by_desc all df (fst q) else 0%Z) (combine (seq 0 (length ghost)) ghost))) (combine gs ps)) = zsum (map (fun x => zlen (F x)) ps)).
    { induction gs as [|g gs IH]; intros [|part ps] k HL HH; [reflexivity|discriminate HL|discriminate HL|]. cbn [combine map]. rewrite !zsum_cons'. rewrite (IH ps (S k)); [| |].
      - f_equal. destruct (HH 0 g part eq_refl eq_refl) as [H1 H2]. rewrite Nat.add_0_r in H1, H2. destruct (rank_hosts k part H2) as [p [g' [_ [P2 [A _]]]]]. rewrite H1 in P2. injection P2 as <-. destruct part as [[df cs] ms]. unfold F, out_count. rewrite zlen_map'.
        change (hosts by_desc all df) with (hosts_of (df, cs, ms)). apply count_places. intros w Hw. apply (A w Hw).
      - cbn [length] in HL. lia.
      - intros i g' part' H1 H2. replace (S k + i) with (k + S i) by lia. apply HH; assumption. }
    apply (G ghosts parts 0); [destruct (ex_ranks _ _ _ _ _ HX); lia|]. intros i g part H1 H2. auto.
Qed.

(* ---- the value of each object ---- *)
Variable nan_int : Z.
Variable order : list nat.
Definition cell_ok (s : nat) (c : cell) : Prop :=
  c_orig c = Z.of_nat (nth s order 0) /\
  (cen s = true -> c_type c = 0%Z /\ exists k, nth_error all k = Some s /\ c_halo c = Z.of_nat k) /\
  (cen s = false -> c_type c = 1%Z /\ exists t k, host s t /\ nth_error all k = Some t /\ c_halo c = Z.of_nat k) /\
  exists L, NoDup L /\ (forall u, In u L <-> u < N /\ cen u = false /\ host u s) /\ c_sats c = zlen L.
Let cs := cells by_desc prims ghosts nan_int order all parts.
Lemma cells_ok : (forall s c, In (s, c) cs -> cell_ok s c) /\ forall s, s < N -> exists c, In (s, c) cs.
Proof using All.
  assert (HI : forall s c, In (s, c) cs <-> exists r p part a, nth_error prims r = Some p /\ nth_error parts r = Some part /\ nth_error p a = Some s /\
    c = {| c_type := out_type by_desc all (fst (fst part)) a; c_halo := out_label by_desc nan_int all (fst (fst part)) a; c_sats := gather_sum by_desc ghosts all parts s; c_orig := Z.of_nat (nth s order 0) |}).
  { intros s c. unfold cs, cells. rewrite in_concat. split.
    - intros [l [Hl Hc]]. apply in_map_iff in Hl. destruct Hl as [[p [[df c1] m1]] [<- Hp]]. apply In_nth_error in Hp. destruct Hp as [r Hr]. rewrite combine_nth_error in Hr.
      destruct (nth_error prims r) as [p'|] eqn:E1; [|discriminate]. destruct (nth_error parts r) as [part|] eqn:E2; [|discriminate]. injection Hr as -> ->.
      apply in_map_iff in Hc. destruct Hc as [[a x] [Hc Ha]]. cbn [fst snd] in Hc. apply in_combine_seq in Ha. destruct Ha as [_ Ha]. rewrite Nat.sub_0_r in Ha. injection Hc as -> <-. exists r, p, (df, c1, m1), a. auto.
    - intros [r [p [[[df c1] m1] [a [E1 [E2 [E3 ->]]]]]]]. eexists. split; [apply in_map_iff; exists (p, (df, c1, m1)); split; [reflexivity|]; apply (nth_error_In _ r); rewrite combine_nth_error, E1, E2; reflexivity|].
      cbn beta iota. apply in_map_iff. exists (a, s). split; [reflexivity|]. apply in_combine_seq. rewrite Nat.sub_0_r. split; [lia|exact E3]. }
  split.
  - intros s c H. apply HI in H. destruct H as [r [p [part [a [E1 [E2 [E3 ->]]]]]]]. destruct (Hparts r part E2) as [p' [g [bs [P1 [P2 [P3 K]]]]]]. rewrite E1 in P1. injection P1 as <-.
    destruct (type_label r p g bs (fst (fst part)) E1 P2 P3 (lo_df _ _ _ _ _ _ _ _ K) nan_int a s E3) as [T1 T2]. split; [reflexivity|]. split; [exact T1|]. split; [exact T2|]. cbn [c_sats]. apply sats_list.
  - intros s Hs. destruct (prim_where' s Hs) as [r [p [Hr Hp]]]. destruct (part_at r p Hr) as [part E]. apply In_nth_error in Hp. destruct Hp as [a Ha]. eexists. apply HI. exists r, p, part, a. auto.
Qed.
Lemma gather_all_ok : forall sizes start, start + nsum sizes <= N -> exists out, gather_all cs start sizes = Ok out /\ map (@length cell) out = sizes /\
  forall i c, nth_error (concat out) i = Some c -> cell_ok (start + i) c.
Proof using All.
  destruct cells_ok as [K1 K2]. induction sizes as [|n sizes IH]; intros start H; cbn [gather_all].
  - exists []. split; [reflexivity|]. split; [reflexivity|]. intros [|i] c E; discriminate E.
  - change (nsum (n :: sizes)) with (n + nsum sizes) in H.
    destruct (rall_all _ (map (fun s => match find (fun c => fst c =? s) cs with Some c => Ok (snd c) | None => Err IndexError end) (seq start n))) as [ys [Y1 Y2]].
    { intros x Hx. apply in_map_iff in Hx. destruct Hx as [s [<- Hs]]. apply in_seq in Hs. destruct (K2 s ltac:(lia)) as [c Hc]. destruct (find_exists _ (fun c => fst c =? s) cs (s, c) Hc (Nat.eqb_refl s)) as [y ->]. exists (snd y). reflexivity. }
    unfold gather_any. rewrite Y1. cbn [rbind]. destruct (IH (start + n) ltac:(lia)) as [out [E1 [E2 E3]]]. rewrite E1. cbn [rbind]. exists (ys :: out). split; [reflexivity|].
    assert (Ly : length ys = n) by (apply (f_equal (@length _)) in Y2; rewrite !map_length, seq_length in Y2; exact Y2).
    split; [cbn [map]; rewrite E2, Ly; reflexivity|]. intros i c E. cbn [concat] in E. destruct (Nat.lt_ge_cases i n) as [L|L].
    + rewrite nth_error_app1 in E by lia. assert (G : nth_error (map Ok ys) i = Some (Ok c)) by (rewrite nth_error_map', E; reflexivity). rewrite Y2, nth_error_map', nth_error_seq in G. assert (Q : (i <? n) = true) by (apply Nat.ltb_lt; exact L). rewrite Q in G. cbn [option_map] in G. injection G as G.
      destruct (find (fun c => fst c =? start + i) cs) as [[s' c']|] eqn:Ef; [|discriminate]. cbn [snd] in G. injection G as ->. apply find_first in Ef. destruct Ef as [F1 F2]. apply Nat.eqb_eq in F2. cbn [fst] in F2. subst s'. apply K1. exact F1.
    + rewrite nth_error_app2 in E by lia. specialize (E3 _ _ E). replace (start + n + (i - length ys)) with (start + i) in E3 by lia. exact E3.
Qed.
End Parts.
End Run.
