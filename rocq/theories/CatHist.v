(* What each operation on catalogs changes, and histories of operations. *)
From Verif Require Import Base BaseProofs CatModel CatSpec CatProofs.
From Coq Require Import Sorted.
Local Open Scope nat_scope.

Lemma nth_replace {B} (l : list B) i x j dflt : i < length l -> nth j (replace l i x) dflt = if j =? i then x else nth j l dflt.
Proof.
  revert i j. induction l as [|y l IH]; intros [|i] [|j] H; cbn in *; try lia; try reflexivity.
  apply IH. lia.
Qed.

Section Hist.
Context {A : Type}.
Variable base_dflt : list (nat * A).

Notation heap := (heap A). Notation obj := (obj A).
Notation step := (step A base_dflt). Notation exec := (exec A base_dflt).
Notation get := (get A). Notation columns := (columns A). Notation size := (size A). Notation owner := (owner A).
Notation olook := (olook A). Notation objs := (objs A). Notation dicts := (dicts A). Notation attrs := (attrs A).
Notation o_base := (o_base A). Notation o_size := (o_size A). Notation o_over := (o_over A).
Notation o_hard := (o_hard A). Notation o_dflt := (o_dflt A). Notation o_attrs := (o_attrs A).
Notation rootof := (rootof A). Notation same_data := (same_data A). Notation same_attrs := (same_attrs A).
Notation valid := (valid A). Notation same_view := (same_view A).

Lemma valid_live (h : heap) r : valid h r <-> live h r.
Proof. split; intros H; [apply live_look; exact H|apply live_look in H; exact H]. Qed.

Lemma same_data_owner h r r' : wf h -> valid h r -> valid h r' -> (same_data h r r' <-> owner h r = owner h r').
Proof.
  intros W V V'. apply valid_live in V, V'. split.
  - intros (q & R & R'). pose proof (owner_rootof h r W V). pose proof (owner_rootof h r' W V').
    rewrite (rootof_fun h r q _ R H) in *. symmetry. apply (rootof_fun h r' _ _ H0 R').
  - intros E. exists (owner h r). split; [apply owner_rootof; auto|]. rewrite E. apply owner_rootof; auto.
Qed.
Lemma same_data_dec h r r' : wf h -> valid h r -> valid h r' -> same_data h r r' \/ ~ same_data h r r'.
Proof. intros W V V'. rewrite (same_data_owner h r r' W V V'). destruct (Nat.eq_dec (owner h r) (owner h r')); auto. Qed.
Lemma same_data_refl h r : wf h -> valid h r -> same_data h r r.
Proof. intros W V. apply same_data_owner; auto. Qed.

(* replacing the assigned columns of one owner *)
Lemma put_same h q oq d : olook h q = Some oq -> same_bases h (put A h q (with_over A oq d)).
Proof.
  intros E r o Er. rewrite (look_put h q oq r E). destruct (Nat.eqb_spec r q) as [->|].
  - assert (o = oq) as -> by congruence. eexists; split; reflexivity.
  - eexists; split; [exact Er|reflexivity].
Qed.
Lemma put_effect h q oq d : wf h -> olook h q = Some oq -> o_base oq = None -> sized (o_size oq) d ->
  let h' := put A h q (with_over A oq d) in
  wf h' /\ same_bases h h' /\
  (forall r, attrs h' r = attrs h r) /\
  (forall r, live h r -> live h' r /\ owner h' r = owner h r /\ size h' r = size h r /\
     (owner h r = q -> forall n, get h' r n = layered (aget d n) (aget (o_hard oq) n) (aget (o_dflt oq) n) (o_size oq)) /\
     (owner h r <> q -> same_view h h' r)).
Proof.
  intros W E B S h'. pose proof (wf_put_over h q oq d W E B S) as W'. pose proof (put_same h q oq d E) as SB.
  split; [exact W'|]. split; [exact SB|]. split.
  - intros r. unfold CatModel.attrs. unfold h'. rewrite (look_put h q oq r E). destruct (Nat.eqb_spec r q) as [->|]; [rewrite E|]; reflexivity.
  - intros r V. pose proof (owner_same h h' r W W' SB V) as EO.
    assert (V' : live h' r) by (unfold live, h', put in *; cbn; rewrite replace_length; exact V).
    destruct (owner_look h r W V) as (o & oo & Eo & Eoo & Bo & _).
    split; [exact V'|]. split; [exact EO|]. split; [|split].
    + unfold CatModel.size. rewrite EO. unfold h'. rewrite (look_put h q oq _ E). destruct (Nat.eqb_spec (owner h r) q) as [->|]; [rewrite E|]; reflexivity.
    + intros EQ n. rewrite (get_layered h' r (with_over A oq d) n); [reflexivity|].
      rewrite EO, EQ. unfold h'. rewrite (look_put h q oq _ E), Nat.eqb_refl. reflexivity.
    + intros NE. assert (olook h' (owner h' r) = olook h (owner h r)) as EL.
      { rewrite EO. unfold h'. rewrite (look_put h q oq _ E). destruct (Nat.eqb_spec (owner h r) q); [contradiction|reflexivity]. }
      unfold CatSpec.same_view, CatModel.get, CatModel.columns, CatModel.size. rewrite EL. auto.
Qed.

Lemma same_view_refl h r : same_view h h r.
Proof. repeat split. Qed.
Lemma same_view_trans h1 h2 h3 r : same_view h1 h2 r -> same_view h2 h3 r -> same_view h1 h3 r.
Proof. intros (a & b & c) (a' & b' & c'). split; [intros n; rewrite a'; apply a|split; congruence]. Qed.
Lemma keeps_view h h' r : wf h -> wf h' -> keeps h h' -> valid h r -> same_view h h' r.
Proof.
  intros W W' K V. apply valid_live in V. split; [intros n; apply (keeps_get h h' r n W W' K V)|].
  split; apply (keeps_get h h' r 0 W W' K V).
Qed.

(* assignment *)
Lemma setitem_effect h r n v h' : wf h -> valid h r -> setitem A h r n v = Ok h' ->
  wf h' /\ same_bases h h' /\ (forall x, attrs h' x = attrs h x) /\ (forall x, valid h x -> size h' x = size h x) /\
  (forall x m, valid h x -> (same_data h r x /\ m = n -> get h' x m = Ok (expand A (size h r) v, false)) /\
                            (~ (same_data h r x /\ m = n) -> get h' x m = get h x m)) /\
  (forall x, valid h x -> ~ same_data h r x -> same_view h h' x).
Proof.
  intros W V HS. destruct (setitem_inv h r n v h' W HS) as (oq & E & B & L & ->).
  assert (SZ : size h r = o_size oq) by (apply (size_eq h r _ oq eq_refl E)).
  destruct (put_effect h (owner h r) oq (aset (o_over oq) n (expand A (o_size oq) v)) W E B) as (W' & SB & HA & HX).
  { apply sized_aset; [|exact L]. apply (wf_size h W _ _ E B). }
  set (h' := put A h _ _) in *. split; [exact W'|]. split; [exact SB|]. split; [exact HA|].
  split; [intros x Vx; apply valid_live in Vx; destruct (HX x Vx) as (_ & _ & HZ & _); exact HZ|]. split.
  - intros x m Vx. pose proof Vx as Lx. apply valid_live in Lx. destruct (HX x Lx) as (_ & _ & _ & HG & HN).
    rewrite (same_data_owner h r x W V Vx). split.
    + intros [EO ->]. rewrite HG by congruence. rewrite aget_aset, Nat.eqb_refl, SZ. reflexivity.
    + intros ND. destruct (Nat.eq_dec (owner h x) (owner h r)) as [EO|NE].
      * rewrite HG by exact EO. rewrite aget_aset. destruct (Nat.eqb_spec m n) as [->|]; [exfalso; apply ND; auto|].
        symmetry. apply get_layered. rewrite EO. exact E.
      * apply HN, NE.
  - intros x Vx ND. rewrite (same_data_owner h r x W V Vx) in ND. apply valid_live in Vx. destruct (HX x Vx) as (_ & _ & _ & _ & HZ). apply HZ. congruence.
Qed.
Lemma setitem_refuses h r n v e : wf h -> valid h r -> setitem A h r n v = Err e ->
  e = AssertionError /\ length (expand A (size h r) v) <> size h r.
Proof.
  intros W V H. unfold setitem in H. destruct (Nat.eqb_spec (length (expand A (size h r) v)) (size h r)) as [L|L]; cbn [negb] in H.
  - apply valid_live in V. destruct (owner_look h r W V) as (o & oq & _ & E & _). rewrite E in H. discriminate.
  - split; [congruence|exact L].
Qed.

(* deletion *)
Lemma delitem_effect h r n h' : wf h -> valid h r -> delitem A h r n = Ok h' ->
  wf h' /\ same_bases h h' /\ (forall x, attrs h' x = attrs h x) /\ (forall x, valid h x -> size h' x = size h x) /\
  (exists oq v, olook h (owner h r) = Some oq /\ aget (o_hard oq) n = None /\ aget (o_over oq) n = Some v /\
     (forall x, valid h x -> same_data h r x -> get h' x n = layered None None (aget (o_dflt oq) n) (size h r))) /\
  (forall x m, valid h x -> ~ (same_data h r x /\ m = n) -> get h' x m = get h x m) /\
  (forall x, valid h x -> ~ same_data h r x -> same_view h h' x).
Proof.
  intros W V HS. destruct (delitem_inv h r n h' W HS) as (oq & E & B & Hh & Ho & ->).
  assert (SZ : size h r = o_size oq) by (apply (size_eq h r _ oq eq_refl E)).
  destruct (put_effect h (owner h r) oq (adel (o_over oq) n) W E B) as (W' & SB & HA & HX).
  { apply sized_adel, (wf_size h W _ _ E B). }
  set (h' := put A h _ _) in *. split; [exact W'|]. split; [exact SB|]. split; [exact HA|].
  split; [intros x Vx; apply valid_live in Vx; destruct (HX x Vx) as (_ & _ & HZ & _); exact HZ|]. split; [|split].
  - unfold amem in Hh, Ho. destruct (aget (o_hard oq) n) eqn:Eh; [discriminate|]. destruct (aget (o_over oq) n) as [v|] eqn:Eo; [|discriminate].
    exists oq, v. repeat split; auto. intros x Vx SD. rewrite (same_data_owner h r x W V Vx) in SD. apply valid_live in Vx.
    destruct (HX x Vx) as (_ & _ & _ & HG & _). rewrite HG by congruence. rewrite aget_adel, Nat.eqb_refl, Eh, SZ. reflexivity.
  - intros x m Vx. pose proof Vx as Lx. apply valid_live in Lx. destruct (HX x Lx) as (_ & _ & _ & HG & HN).
    rewrite (same_data_owner h r x W V Vx). intros ND. destruct (Nat.eq_dec (owner h x) (owner h r)) as [EO|NE].
    + rewrite HG by exact EO. rewrite aget_adel. destruct (Nat.eqb_spec m n) as [->|]; [exfalso; apply ND; auto|].
      symmetry. apply get_layered. rewrite EO. exact E.
    + apply HN, NE.
  - intros x Vx ND. rewrite (same_data_owner h r x W V Vx) in ND. apply valid_live in Vx. destruct (HX x Vx) as (_ & _ & _ & _ & HZ). apply HZ. congruence.
Qed.

(* attributes *)
Lemma set_attr_effect h r k v h' : wf h -> valid h r -> set_attr A h r k v = Ok h' ->
  wf h' /\ keeps h h' /\ length (objs h') = length (objs h) /\
  (forall x, valid h x -> (same_attrs h r x -> attrs h' x = aset (attrs h r) k v) /\
                          (~ same_attrs h r x -> attrs h' x = attrs h x)) /\
  (forall x y, valid h x -> valid h y -> x <> y -> (same_attrs h' x y <-> same_attrs h x y)).
Proof.
  intros W V H. unfold set_attr in H. destruct (attrs_ref A h r) as [[d h1]|] eqn:EA; [|discriminate].
  destruct (attrs_ref_inv h r d h1 W EA) as (W1 & K1 & _ & L1 & D1 & Dd & HA1 & Hother & (or & Eor & Aor)).
  set (hh := {| CatModel.objs := objs h1; CatModel.dicts := replace (dicts h1) d (aset (dict_of A h1 d) k v) |}) in H.
  assert (h' = hh) as -> by congruence. clear H.
  assert (HL : forall x, olook hh x = olook h1 x) by reflexivity.
  assert (W' : wf hh).
  { destruct W1 as [P1 P2 P3]. constructor; [exact P1|exact P2|].
    intros x o d0 E Ed. unfold hh. cbn. rewrite replace_length. eapply P3; eassumption. }
  assert (Har : attrs h r = dict_of A h1 d).
  { rewrite <- HA1. unfold CatModel.attrs. rewrite Eor, Aor. reflexivity. }
  (* which objects refer to d in h1 *)
  assert (Hd : forall x o, valid h x -> olook h1 x = Some o -> (o_attrs o = Some d <-> same_attrs h r x)).
  { intros x o Vx Eo. destruct (Nat.eq_dec x r) as [->|NE].
    - assert (o = or) as -> by congruence. split; [left; reflexivity|auto].
    - pose proof (Hother x o Eo NE) as Ex. unfold attrs_ref in EA. destruct (olook h r) as [o0|] eqn:E0; [|discriminate].
      destruct (o_attrs o0) as [d0|] eqn:Ea0.
      + assert (d0 = d) as -> by congruence. split.
        * intros Ed. right. exists o0, o, d. auto.
        * intros [<-|(p & p' & d' & P1 & P2 & P3 & P4)]; [congruence|]. assert (p = o0) by congruence. assert (p' = o) by congruence. subst. congruence.
      + assert (d = length (dicts h)) as -> by congruence. split.
        * intros Ed. pose proof (wf_attrs h W x o _ Ex Ed). lia.
        * intros [<-|(p & p' & d' & P1 & P2 & P3 & P4)]; [congruence|]. assert (p = o0) by congruence. subst. congruence. }
  assert (HL1 : forall x, valid h x -> exists o, olook h1 x = Some o).
  { intros x Vx. apply valid_live in Vx. apply live_look. unfold live in *. lia. }
  split; [exact W'|]. split; [exact K1|]. split; [exact L1|]. split.
  - intros x Vx. destruct (HL1 x Vx) as [o Eo]. specialize (Hd x o Vx Eo). split.
    + intros SA. apply Hd in SA. unfold CatModel.attrs at 1. rewrite HL, Eo, SA. unfold dict_of at 1. unfold hh. cbn.
      rewrite nth_replace, Nat.eqb_refl by exact Dd.
      rewrite Har. reflexivity.
    + intros NS. rewrite <- (HA1 x). unfold CatModel.attrs. rewrite HL, Eo. destruct (o_attrs o) as [d0|] eqn:Ed0; [|reflexivity].
      assert (d0 <> d) by (intros ->; apply NS, Hd; reflexivity).
      unfold dict_of, hh. cbn. rewrite nth_replace by exact Dd. destruct (Nat.eqb_spec d0 d); [contradiction|reflexivity].
  - assert (Hz : forall x o, valid h x -> olook h1 x = Some o -> x <> r -> olook h x = Some o) by (intros; eapply Hother; eassumption).
    intros x y Vx Vy NE. destruct (HL1 x Vx) as [ox Ex]. destruct (HL1 y Vy) as [oy Ey].
    assert (S1 : same_attrs hh x y <-> exists d0, o_attrs ox = Some d0 /\ o_attrs oy = Some d0).
    { split.
      - intros [->|(p & p' & d0 & P1 & P2 & P3 & P4)]; [congruence|]. rewrite HL in P1, P2.
        assert (p = ox) by congruence. assert (p' = oy) by congruence. subst. eauto.
      - intros (d0 & P1 & P2). right. exists ox, oy, d0. auto. }
    rewrite S1. clear S1.
    assert (G : forall z oz, valid h z -> olook h1 z = Some oz -> z <> r -> forall oz', olook h z = Some oz' -> oz' = oz).
    { intros z oz Vz Ez Nz oz' Ez'. rewrite (Hz z oz Vz Ez Nz) in Ez'. congruence. }
    destruct (Nat.eq_dec x r) as [->|Nx].
    + assert (ox = or) as -> by congruence. rewrite <- (Hd y oy Vy Ey). rewrite Aor. split.
      * intros (d0 & P1 & P2). congruence.
      * intros P. exists d. auto.
    + destruct (Nat.eq_dec y r) as [->|Ny].
      * assert (oy = or) as -> by congruence. rewrite Aor. split.
        -- intros (d0 & P1 & P2). assert (o_attrs ox = Some d) as P by congruence. apply (Hd x ox Vx Ex) in P.
           destruct P as [->|(p & p' & d1 & Q1 & Q2 & Q3 & Q4)]; [congruence|]. right. exists p', p, d1. auto.
        -- intros [->|(p & p' & d1 & Q1 & Q2 & Q3 & Q4)]; [congruence|].
           assert (same_attrs h r x) as P by (right; exists p', p, d1; auto). apply (Hd x ox Vx Ex) in P. exists d. auto.
      * split.
        -- intros (d0 & P1 & P2). right. exists ox, oy, d0. repeat split; auto.
        -- intros [->|(p & p' & d1 & Q1 & Q2 & Q3 & Q4)]; [congruence|].
           rewrite (G x ox Vx Ex Nx p Q1) in Q3. rewrite (G y oy Vy Ey Ny p' Q2) in Q4. eauto.
Qed.

(* creation *)
Lemma new_spec h sz hard dflt r' h' : wf h -> new A h sz hard dflt = Ok (r', h') ->
  wf h' /\ keeps h h' /\ valid h' r' /\ ~ valid h r' /\ owner h' r' = r' /\
  size h' r' = sz /\ (forall n, get h' r' n = layered None (aget hard n) (aget dflt n) sz) /\ attrs h' r' = [] /\
  (forall x, valid h x -> attrs h' x = attrs h x).
Proof.
  intros W H. unfold new in H. destruct (forallb _ hard) eqn:EF; [|discriminate]. unfold add in H.
  set (o := {| CatModel.o_base := None; CatModel.o_size := sz; CatModel.o_over := []; CatModel.o_hard := hard; CatModel.o_dflt := dflt; CatModel.o_attrs := None |}) in H.
  set (hh := {| CatModel.objs := objs h ++ [o]; CatModel.dicts := dicts h |}) in H.
  assert (h' = hh) as -> by congruence. assert (r' = length (objs h)) as -> by congruence. clear H.
  assert (W' : wf hh).
  { apply wf_add; auto.
    - discriminate.
    - intros _. split; [intros k v []|]. intros k v Hin. rewrite forallb_forall in EF. specialize (EF _ Hin). apply Nat.eqb_eq in EF. exact EF.
    - discriminate. }
  assert (EO : owner hh (length (objs h)) = length (objs h)) by (apply owner_new; [exact W'|reflexivity]).
  assert (EL : olook hh (length (objs h)) = Some o) by (unfold hh; rewrite look_app, Nat.eqb_refl; reflexivity).
  split; [exact W'|]. split; [apply keeps_add|]. split; [eexists; exact EL|].
  split; [rewrite valid_live; unfold live; lia|]. split; [exact EO|].
  split; [apply (size_eq hh _ _ o EO EL)|]. split; [|split].
  - intros n. apply (get_layered hh _ o). rewrite EO. exact EL.
  - unfold CatModel.attrs. rewrite EL. reflexivity.
  - intros x Vx. apply valid_live in Vx. unfold live in Vx. unfold CatModel.attrs. unfold hh at 1. rewrite look_app.
    destruct (Nat.eqb_spec x (length (objs h))); [lia|reflexivity].
Qed.

(* ---------- one step ---------- *)
Notation uses := (uses A).

Lemma same_attrs_objs (h1 h2 : heap) x y : objs h1 = objs h2 -> (same_attrs h1 x y <-> same_attrs h2 x y).
Proof. intros E. unfold CatSpec.same_attrs, CatModel.olook. rewrite E. tauto. Qed.

Lemma attrs_ref_same h r d h1 : wf h -> valid h r -> attrs_ref A h r = Some (d, h1) ->
  forall x y, valid h x -> valid h y -> (same_attrs h1 x y <-> same_attrs h x y).
Proof.
  intros W V E x y Vx Vy. destruct (Nat.eq_dec x y) as [->|NE]; [split; left; reflexivity|].
  assert (exists h', set_attr A h r 0 0%Z = Ok h' /\ objs h' = objs h1) as (h' & ES & EO).
  { unfold set_attr. rewrite E. eexists; split; reflexivity. }
  destruct (set_attr_effect h r 0 0%Z h' W V ES) as (_ & _ & _ & _ & HS).
  rewrite <- (HS x y Vx Vy NE). symmetry. apply same_attrs_objs, EO.
Qed.

Lemma copy_shape h r r' h' : copy A h r = Ok (r', h') ->
  exists o' ds, r' = length (objs h) /\ h' = {| CatModel.objs := objs h ++ [o']; CatModel.dicts := ds |} /\
    o_base o' = None /\ o_attrs o' = Some (length (dicts h)).
Proof.
  unfold copy. destruct (olook h r) as [o|]; [|discriminate]. destruct (o_attrs o) as [d|]; [|discriminate].
  unfold add_dict. destruct (from_columns _ _ _ _ _ _) as [o'|] eqn:E; [|discriminate]. cbn [rbind]. unfold add. cbn [CatModel.objs CatModel.dicts]. intros H.
  destruct (from_columns_inv _ _ _ _ _ _ E) as (B & _ & _ & _ & Ea & _).
  injection H as <- <-. eexists o', _. split; [reflexivity|]. split; [reflexivity|]. auto.
Qed.
Lemma view_shape h r r' h' : view A h r = Ok (r', h') ->
  exists o o', r' = length (objs h) /\ h' = {| CatModel.objs := objs h ++ [o']; CatModel.dicts := dicts h |} /\
    olook h r = Some o /\ o_base o' = Some r /\ o_attrs o' = o_attrs o.
Proof.
  unfold view. destruct (olook h r) as [o|]; [|discriminate]. unfold add. cbn [CatModel.objs CatModel.dicts]. intros H.
  injection H as <- <-. eexists o, _. split; [reflexivity|]. split; [reflexivity|]. auto.
Qed.
Lemma slice_shape h r i r' h' : i <> IEllipsis -> slice A h r i = Ok (r', h') ->
  exists o o', r' = length (objs h) /\ h' = {| CatModel.objs := objs h ++ [o']; CatModel.dicts := dicts h |} /\
    olook h r = Some o /\ o_base o' = None /\ o_attrs o' = o_attrs o.
Proof.
  intros Hi. unfold slice. destruct (olook h r) as [o|]; [|destruct i; [congruence| | |]; discriminate].
  destruct i as [|a b s|m|l]; [congruence| | |];
  (destruct (resolve _ _) as [[rows sz]|]; [|discriminate]; cbn [rbind];
   destruct (from_columns _ _ _ _ _ _) as [o'|] eqn:E; [|discriminate]; cbn [rbind]; unfold add; intros H; injection H as <- <-;
   destruct (from_columns_inv _ _ _ _ _ _ E) as (B & _ & _ & _ & Ea & _);
   exists o, o'; split; [reflexivity|]; split; [reflexivity|]; auto).
Qed.
Lemma select_shape h r names r' h' : names <> [] -> select_columns A base_dflt h r names = Ok (r', h') ->
  exists d h1 o' ds, attrs_ref A h r = Some (d, h1) /\ r' = length (objs h1) /\
    h' = {| CatModel.objs := objs h1 ++ [o']; CatModel.dicts := ds |} /\
    o_base o' = None /\ o_attrs o' = Some (length (dicts h1)).
Proof.
  intros Hn. unfold select_columns. destruct names as [|n0 names]; [congruence|]. destruct (negb _); [discriminate|].
  destruct (attrs_ref A h r) as [[d h1]|]; [|discriminate]. unfold add_dict.
  destruct (from_columns _ _ _ _ _ _) as [o'|] eqn:E; [|discriminate]. cbn [rbind]. unfold add. cbn [CatModel.objs CatModel.dicts]. intros H.
  destruct (from_columns_inv _ _ _ _ _ _ E) as (B & _ & _ & _ & Ea & _).
  injection H as <- <-. eexists d, h1, o', _. split; [reflexivity|]. split; [reflexivity|]. split; [reflexivity|]. auto.
Qed.

Lemma look_old (h : heap) o ds x : valid h x -> olook {| CatModel.objs := objs h ++ [o]; CatModel.dicts := ds |} x = olook h x.
Proof.
  intros V. apply valid_live in V. unfold live in V. rewrite look_app. destruct (Nat.eqb_spec x (length (objs h))); [lia|reflexivity].
Qed.
Lemma same_attrs_old (h : heap) o ds x y : valid h x -> valid h y ->
  (same_attrs {| CatModel.objs := objs h ++ [o]; CatModel.dicts := ds |} x y <-> same_attrs h x y).
Proof. intros Vx Vy. unfold CatSpec.same_attrs. rewrite !look_old by assumption. tauto. Qed.
Lemma same_attrs_new (h : heap) o ds x : valid h x ->
  same_attrs {| CatModel.objs := objs h ++ [o]; CatModel.dicts := ds |} x (length (objs h)) ->
  exists ox d, olook h x = Some ox /\ o_attrs ox = Some d /\ o_attrs o = Some d.
Proof.
  intros Vx [E|(p & p' & d & P1 & P2 & P3 & P4)].
  - apply valid_live in Vx. unfold live in Vx. lia.
  - rewrite look_old in P1 by exact Vx. rewrite look_app, Nat.eqb_refl in P2. assert (p' = o) as -> by congruence. eauto.
Qed.
Lemma valid_app (h : heap) o ds x : valid {| CatModel.objs := objs h ++ [o]; CatModel.dicts := ds |} x -> valid h x \/ x = length (objs h).
Proof. rewrite !valid_live. unfold live. cbn. rewrite app_length. simpl. lia. Qed.
Lemma valid_objs (h1 h2 : heap) x : length (objs h1) = length (objs h2) -> valid h1 x -> valid h2 x.
Proof. rewrite !valid_live. unfold live. lia. Qed.

Lemma uses_valid h o r' h' s : step h o = Ok (r', h') -> uses o = Some s -> valid h s \/ (o = OSlice A s IEllipsis /\ h' = h).
Proof.
  assert (forall x, valid h x \/ olook h x = None) as HV.
  { intros x. destruct (olook h x) eqn:E; [left; eexists; exact E|right; reflexivity]. }
  assert (forall x, olook h x = None -> owner h x = x) as HO.
  { intros x N. unfold CatModel.owner. destruct (length (objs h)); cbn [root]; [reflexivity|rewrite N; reflexivity]. }
  intros H U. destruct o as [sz hard dflt|r n v|r n|r k v|r|r|r i|r names]; cbn [CatSpec.uses] in U; try discriminate;
    assert (r = s) as -> by congruence; destruct (HV s) as [V|N]; auto; cbn [CatModel.step] in H.
  - unfold setitem in H. rewrite (HO s N), N in H. destruct (negb _); discriminate.
  - unfold delitem in H. rewrite (HO s N), N in H. discriminate.
  - unfold set_attr, attrs_ref in H. rewrite N in H. discriminate.
  - unfold copy in H. rewrite N in H. discriminate.
  - unfold view in H. rewrite N in H. discriminate.
  - unfold slice in H. destruct i; [right; split; [reflexivity|congruence]| | |]; rewrite N in H; discriminate.
  - unfold select_columns in H. destruct names as [|n0 l].
    + unfold slice in H. rewrite N in H. discriminate.
    + unfold CatModel.columns in H. rewrite (HO s N), N in H. cbn [forallb existsb andb negb] in H. discriminate.
Qed.

Record step_sum (h : heap) (o : op A) (r' : nat) (h' : heap) : Prop := {
  ss_wf : wf h';
  ss_bases : same_bases h h';
  ss_new : forall x, valid h' x -> valid h x \/
     (x = r' /\ ~ valid h r' /\
      (owner h' r' = r' \/ exists s, uses o = Some s /\ valid h s /\ owner h' r' = owner h s) /\
      (forall y, valid h y -> same_attrs h' y r' -> exists s, uses o = Some s /\ valid h s /\ same_attrs h y s));
  ss_attrs_rel : forall x y, valid h x -> valid h y -> (same_attrs h' x y <-> same_attrs h x y);
  ss_view : forall x, valid h x ->
     (match o with OSet _ s _ _ | ODel _ s _ => ~ same_data h s x | _ => True end) -> same_view h h' x;
  ss_attrs : forall x, valid h x -> (match o with OAttr _ s _ _ => ~ same_attrs h s x | _ => True end) -> attrs h' x = attrs h x
}.

Lemma sum_refl h o r' : wf h -> step_sum h o r' h.
Proof.
  intros W. constructor; auto.
  - intros x ox E. eauto.
  - reflexivity.
  - intros x _ _. apply same_view_refl.
Qed.
Lemma sum_same_objs h o r' h' : wf h' -> length (objs h') = length (objs h) -> same_bases h h' ->
  (forall x y, valid h x -> valid h y -> (same_attrs h' x y <-> same_attrs h x y)) ->
  (forall x, valid h x -> (match o with OSet _ s _ _ | ODel _ s _ => ~ same_data h s x | _ => True end) -> same_view h h' x) ->
  (forall x, valid h x -> (match o with OAttr _ s _ _ => ~ same_attrs h s x | _ => True end) -> attrs h' x = attrs h x) ->
  step_sum h o r' h'.
Proof.
  intros W L SB SA SV AT. constructor; auto. intros x Vx. left. apply (valid_objs h' h); auto.
Qed.

Lemma put_same_attrs h q oq d x y : olook h q = Some oq ->
  (same_attrs (put A h q (with_over A oq d)) x y <-> same_attrs h x y).
Proof.
  intros E. assert (forall z o, olook (put A h q (with_over A oq d)) z = Some o -> exists o', olook h z = Some o' /\ o_attrs o' = o_attrs o) as H1.
  { intros z o. rewrite (look_put h q oq z E). destruct (Nat.eqb_spec z q) as [->|]; [|eauto]. intros H. injection H as <-. eauto. }
  assert (forall z o, olook h z = Some o -> exists o', olook (put A h q (with_over A oq d)) z = Some o' /\ o_attrs o' = o_attrs o) as H2.
  { intros z o. rewrite (look_put h q oq z E). destruct (Nat.eqb_spec z q) as [->|]; [|eauto]. intros H.
    eexists; split; [reflexivity|]. cbn. congruence. }
  split; intros [->|(p & p' & d0 & P1 & P2 & P3 & P4)]; try (left; reflexivity); right.
  - destruct (H1 _ _ P1) as (u & U1 & U2). destruct (H1 _ _ P2) as (u' & U1' & U2'). exists u, u', d0. repeat split; congruence.
  - destruct (H2 _ _ P1) as (u & U1 & U2). destruct (H2 _ _ P2) as (u' & U1' & U2'). exists u, u', d0. repeat split; congruence.
Qed.

(* a created object whose dictionary is nobody's, or that of the source *)
Lemma sum_create h o h1 o' ds :
  wf h -> wf h1 -> length (objs h1) = length (objs h) -> keeps h h1 ->
  (forall x y, valid h x -> valid h y -> (same_attrs h1 x y <-> same_attrs h x y)) ->
  (forall x, valid h x -> attrs h1 x = attrs h x) ->
  let h' := {| CatModel.objs := objs h1 ++ [o']; CatModel.dicts := ds |} in
  wf h' -> (forall x, valid h x -> attrs h' x = attrs h1 x) ->
  (o_base o' = None \/ exists s, uses o = Some s /\ valid h s /\ o_base o' = Some s) ->
  (forall x ox d, valid h x -> olook h1 x = Some ox -> o_attrs ox = Some d -> o_attrs o' = Some d ->
     exists s, uses o = Some s /\ valid h s /\ same_attrs h x s) ->
  target A o = None ->
  step_sum h o (length (objs h1)) h'.
Proof.
  intros W W1 L1 K1 SA1 AT1 h' W' AT' HB HA HT.
  assert (K : keeps h h') by (eapply keeps_trans; [exact K1|apply keeps_add]).
  assert (Vold : forall x, valid h x -> valid h1 x) by (intros x; apply valid_objs; lia).
  constructor; auto.
  - apply keeps_same, K.
  - intros x Vx. destruct (valid_app h1 o' ds x Vx) as [V| ->]; [left; apply (valid_objs h1 h); auto|right].
    split; [reflexivity|]. split; [rewrite valid_live; unfold live; lia|].
    assert (EL : olook h' (length (objs h1)) = Some o') by (unfold h'; rewrite look_app, Nat.eqb_refl; reflexivity).
    split.
    + destruct HB as [HB|(s & U & Vs & HB)]; [left; apply owner_new; assumption|right]. exists s. repeat split; auto.
      apply (rootof_fun h' (length (objs h1))).
      * apply owner_rootof; [exact W'|]. apply valid_live. exact Vx.
      * apply (ro_base A h' _ o' s); [exact EL|exact HB|]. apply (rootof_same h h'); [apply keeps_same, K|].
        apply owner_rootof; [exact W|]. apply valid_live, Vs.
    + intros y Vy SA. destruct (same_attrs_new h1 o' ds y (Vold y Vy) SA) as (oy & d & E1 & E2 & E3). eapply HA; eassumption.
  - intros x y Vx Vy. unfold h'. rewrite same_attrs_old by auto. apply SA1; auto.
  - intros x Vx _. apply keeps_view; auto.
  - intros x Vx _. rewrite AT', AT1; auto.
Qed.

Lemma step_ok h o r' h' : wf h -> step h o = Ok (r', h') -> step_sum h o r' h'.
Proof.
  intros W H. assert (forall s, uses o = Some s -> valid h s \/ (o = OSlice A s IEllipsis /\ h' = h)) as HU by (intros s; eapply uses_valid; exact H).
  destruct o as [sz hard dflt|r n v|r n|r k v|r|r|r i|r names]; cbn [CatModel.step] in H.
  - destruct (new_spec h sz hard dflt r' h' W H) as (W' & K & V' & NV & EO & _ & _ & _ & AT).
    unfold new in H. destruct (forallb _ hard); [|discriminate]. unfold add in H.
    injection H as <- <-. apply sum_create; auto.
    + apply keeps_refl.
    + reflexivity.
    + discriminate.
  - destruct (HU r eq_refl) as [V|[E _]]; [|discriminate]. destruct (setitem A h r n v) as [h0|] eqn:ES; [|discriminate].
    cbn [rbind] in H. assert (h0 = h') as -> by congruence. destruct (setitem_effect h r n v h' W V ES) as (W' & SB & AT & SZ & _ & SV).
    destruct (setitem_inv h r n v h' W ES) as (oq & E & _ & _ & Eh). apply sum_same_objs; auto.
    + rewrite Eh. apply replace_length.
    + intros x y _ _. rewrite Eh. apply put_same_attrs, E.
  - destruct (HU r eq_refl) as [V|[E _]]; [|discriminate]. destruct (delitem A h r n) as [h0|] eqn:ES; [|discriminate].
    cbn [rbind] in H. assert (h0 = h') as -> by congruence. destruct (delitem_effect h r n h' W V ES) as (W' & SB & AT & SZ & _ & _ & SV).
    destruct (delitem_inv h r n h' W ES) as (oq & E & _ & _ & _ & Eh). apply sum_same_objs; auto.
    + rewrite Eh. apply replace_length.
    + intros x y _ _. rewrite Eh. apply put_same_attrs, E.
  - destruct (HU r eq_refl) as [V|[E _]]; [|discriminate]. destruct (set_attr A h r k v) as [h0|] eqn:ES; [|discriminate].
    cbn [rbind] in H. assert (h0 = h') as -> by congruence. destruct (set_attr_effect h r k v h' W V ES) as (W' & K & L & AT & SA).
    apply sum_same_objs; auto.
    + apply keeps_same, K.
    + intros x y Vx Vy. destruct (Nat.eq_dec x y) as [->|NE]; [split; left; reflexivity|]. apply SA; auto.
    + intros x Vx _. apply keeps_view; auto.
    + intros x Vx NS. apply AT; auto.
  - destruct (HU r eq_refl) as [V|[E _]]; [|discriminate]. pose proof V as V0. apply valid_live in V0.
    destruct (copy_spec h r r' h' W V0 H) as (W' & K & _ & _ & _ & _ & _ & _ & AT & _).
    destruct (copy_shape h r r' h' H) as (o' & ds & -> & -> & B & Ea). apply sum_create; auto.
    + apply keeps_refl.
    + reflexivity.
    + intros x Vx. apply AT. apply valid_live, Vx.
    + intros x ox d Vx Ex Ed Ed'. pose proof (wf_attrs h W x ox d Ex Ed). assert (d = length (dicts h)) by congruence. lia.
  - destruct (HU r eq_refl) as [V|[E _]]; [|discriminate]. pose proof V as V0. apply valid_live in V0.
    destruct (view_spec h r r' h' W V0 H) as (W' & K & _ & _ & _ & _ & _ & _ & _ & AT).
    destruct (view_shape h r r' h' H) as (o & o' & -> & -> & E & B & Ea). apply sum_create; auto.
    + apply keeps_refl.
    + reflexivity.
    + intros x Vx. apply AT. apply valid_live, Vx.
    + right. exists r. auto.
    + intros x ox d Vx Ex Ed Ed'. exists r. repeat split; auto. right. exists ox, o, d. repeat split; auto. congruence.
  - assert (i = IEllipsis \/ i <> IEllipsis) as [->|Hi] by (destruct i; [left; reflexivity|right; discriminate..]).
    { cbn [slice] in H. assert (h' = h) as -> by congruence. apply sum_refl, W. }
    destruct (HU r eq_refl) as [V|[E _]]; [|congruence]. pose proof V as V0. apply valid_live in V0.
    destruct (slice_spec h r i r' h' W V0 Hi H) as (W' & K & _).
    destruct (slice_shape h r i r' h' Hi H) as (o & o' & -> & -> & E & B & Ea). apply sum_create; auto.
    + apply keeps_refl.
    + reflexivity.
    + intros x Vx. unfold CatModel.attrs. rewrite look_old by exact Vx. reflexivity.
    + intros x ox d Vx Ex Ed Ed'. exists r. repeat split; auto. right. exists ox, o, d. repeat split; auto. congruence.
  - destruct (HU r eq_refl) as [V|[E _]]; [|discriminate]. pose proof V as V0. apply valid_live in V0.
    destruct names as [|n0 names].
    { cbn [select_columns] in H. assert (IInts [] <> IEllipsis) as Hi by discriminate.
      destruct (slice_spec h r _ r' h' W V0 Hi H) as (W' & K & _).
      destruct (slice_shape h r _ r' h' Hi H) as (o & o' & -> & -> & E & B & Ea). apply sum_create; auto.
      + apply keeps_refl.
      + reflexivity.
      + intros x Vx. unfold CatModel.attrs. rewrite look_old by exact Vx. reflexivity.
      + intros x ox d Vx Ex Ed Ed'. exists r. repeat split; auto. right. exists ox, o, d. repeat split; auto. congruence. }
    assert (n0 :: names <> []) as Hn by discriminate.
    destruct (select_spec base_dflt h r _ r' h' W V0 Hn H) as (W' & K & _ & _ & _ & _ & _ & _ & AT & _).
    destruct (select_shape h r _ r' h' Hn H) as (d & h1 & o' & ds & EA & -> & -> & B & Ea).
    destruct (attrs_ref_inv h r d h1 W EA) as (W1 & K1 & _ & L1 & D1 & Dd & HA1 & _).
    apply sum_create; auto.
    + apply (attrs_ref_same h r d h1 W V EA).
    + intros x Vx. rewrite (AT x); [symmetry; apply HA1|apply valid_live, Vx].
    + intros x ox d0 Vx Ex Ed Ed'. pose proof (wf_attrs h1 W1 x ox d0 Ex Ed). assert (d0 = length (dicts h1)) by congruence. lia.
Qed.

Lemma exec_wf l : forall h, wf h -> wf (exec h l).
Proof.
  induction l as [|o l IH]; intros h W; cbn [CatModel.exec]; [exact W|].
  destruct (step h o) as [[r' h']|] eqn:E; apply IH; [|exact W]. apply (ss_wf _ _ _ _ (step_ok h o r' h' W E)).
Qed.

(* ---------- histories ---------- *)
Lemma same_bases_valid h h' x : same_bases h h' -> valid h x -> valid h' x.
Proof. intros S [o E]. destruct (S x o E) as (o' & E' & _). eexists; exact E'. Qed.
Lemma same_data_step h o r' h' x y : wf h -> step h o = Ok (r', h') -> valid h x -> valid h y ->
  (same_data h' x y <-> same_data h x y).
Proof.
  intros W H Vx Vy. destruct (step_ok h o r' h' W H) as [W' SB _ _ _ _].
  rewrite !same_data_owner; auto; try (eapply same_bases_valid; eassumption).
  rewrite !(owner_same h h') by (auto; apply valid_live; assumption). reflexivity.
Qed.

(* the last successful assignment of a name decides what is read *)
Lemma last_write l : forall h r n v, wf h -> valid h r -> get h r n = Ok (v, false) ->
  Forall (fun o => writes_column A n o = false \/ exists s, target A o = Some s /\ valid h s /\ ~ same_data h s r) l ->
  get (exec h l) r n = Ok (v, false).
Proof.
  induction l as [|o l IH]; intros h r n v W V G F; cbn [CatModel.exec]; [exact G|].
  inversion F as [|? ? F1 F2]; subst. destruct (step h o) as [[r' h']|] eqn:E.
  - pose proof (step_ok h o r' h' W E) as SS. pose proof SS as [W' SB _ _ SV _].
    apply IH; auto; try (eapply same_bases_valid; eassumption).
    + rewrite <- G. destruct o as [sz hard dflt|s m w|s m|s k w|s|s|s i|s names];
        try (apply SV; [exact V|exact I]).
      * destruct (uses_valid h _ r' h' s E eq_refl) as [Vs|[X _]]; [|discriminate]. cbn [CatModel.step] in E.
        destruct (setitem A h s m w) as [h0|] eqn:ES; [|discriminate]. cbn [rbind] in E. assert (h0 = h') as -> by congruence.
        destruct (setitem_effect h s m w h' W Vs ES) as (_ & _ & _ & _ & HG & _). apply (HG r n V).
        intros [SD ->]. destruct F1 as [F1|(t & T & Vt & NS)]; [cbn in F1; rewrite Nat.eqb_refl in F1; discriminate|].
        cbn in T. assert (t = s) as -> by congruence. contradiction.
      * destruct (uses_valid h _ r' h' s E eq_refl) as [Vs|[X _]]; [|discriminate]. cbn [CatModel.step] in E.
        destruct (delitem A h s m) as [h0|] eqn:ES; [|discriminate]. cbn [rbind] in E. assert (h0 = h') as -> by congruence.
        destruct (delitem_effect h s m h' W Vs ES) as (_ & _ & _ & _ & _ & HG & _). apply (HG r n V).
        intros [SD ->]. destruct F1 as [F1|(t & T & Vt & NS)]; [cbn in F1; rewrite Nat.eqb_refl in F1; discriminate|].
        cbn in T. assert (t = s) as -> by congruence. contradiction.
    + eapply Forall_impl; [|exact F2]. intros o0 [X|(t & T & Vt & NS)]; [left; exact X|right]. exists t.
      repeat split; [exact T|eapply same_bases_valid; eassumption|].
      rewrite (same_data_step h o r' h' t r W E Vt V). exact NS.
  - apply IH; auto.
Qed.

(* independence: old references, and everything that is not old *)
Definition apart_data (h0 h : heap) : Prop := forall x y, valid h0 x -> valid h y -> ~ valid h0 y -> ~ same_data h x y.
Definition apart_attrs (h0 h : heap) : Prop := forall x y, valid h0 x -> valid h y -> ~ valid h0 y -> ~ same_attrs h x y.

Lemma indep l : forall h0 h, wf h -> (forall x, valid h0 x -> valid h x) ->
  apart_data h0 h ->
  Forall (fun o => forall s, uses o = Some s -> ~ valid h0 s) l ->
  (forall x, valid h0 x -> same_view h (exec h l) x) /\
  (apart_attrs h0 h -> forall x, valid h0 x -> attrs (exec h l) x = attrs h x).
Proof.
  induction l as [|o l IH]; intros h0 h W VV AD F; cbn [CatModel.exec].
  { split; [intros; apply same_view_refl|auto]. }
  inversion F as [|? ? F1 F2]; subst. destruct (step h o) as [[r' h']|] eqn:E; [|apply IH; auto].
  pose proof (step_ok h o r' h' W E) as SS. pose proof SS as [W' SB NW SA SV AT].
  assert (VV' : forall x, valid h0 x -> valid h' x) by (intros x Vx; apply (same_bases_valid h h' x SB); auto).
  assert (AD' : apart_data h0 h').
  { intros x y Vx Vy NV. destruct (NW y Vy) as [Vh|(-> & NVr & HO & _)].
    - rewrite (same_data_step h o r' h' x y W E (VV x Vx) Vh). apply AD; auto.
    - rewrite same_data_owner by auto.
      assert (owner h' x = owner h x) as EX by (apply owner_same; auto; apply valid_live; auto). rewrite EX.
      destruct HO as [HO|(s & U & Vs & HO)]; rewrite HO.
      + intros EQ. apply NVr. rewrite <- EQ. apply valid_live. apply owner_valid; auto. apply valid_live; auto.
      + intros EQ. apply (AD x s Vx Vs (F1 s U)). apply same_data_owner; auto. }
  assert (AA' : apart_attrs h0 h -> apart_attrs h0 h').
  { intros AA x y Vx Vy NV. destruct (NW y Vy) as [Vh|(-> & NVr & _ & HA)].
    - rewrite (SA x y (VV x Vx) Vh). apply AA; auto.
    - intros S. destruct (HA x (VV x Vx) S) as (s & U & Vs & S'). apply (AA x s Vx Vs (F1 s U) S'). }
  destruct (IH h0 h' W' VV' AD' F2) as [I1 I2].
  assert (HU : forall s, uses o = Some s -> valid h s \/ h' = h).
  { intros s U. destruct (uses_valid h o r' h' s E U) as [?|[_ ?]]; auto. }
  assert (Hsym : forall a b, same_data h a b -> same_data h b a) by (intros a b (q & R1 & R2); exists q; auto).
  assert (Hsyma : forall a b, same_attrs h a b -> same_attrs h b a).
  { intros a b [->|(p & p' & d & P1 & P2 & P3 & P4)]; [left; reflexivity|right; exists p', p, d; auto]. }
  split.
  - intros x Vx. eapply same_view_trans; [|apply I1; exact Vx].
    apply SV; [apply VV; exact Vx|]. destruct o as [sz hard dflt|s m w|s m|s k w|s|s|s i|s names]; try exact I.
    + destruct (uses_valid h _ r' h' s E eq_refl) as [Vs|[X _]]; [|discriminate]. intros SD. apply (AD x s Vx Vs (F1 s eq_refl)), Hsym, SD.
    + destruct (uses_valid h _ r' h' s E eq_refl) as [Vs|[X _]]; [|discriminate]. intros SD. apply (AD x s Vx Vs (F1 s eq_refl)), Hsym, SD.
  - intros AA x Vx. rewrite (I2 (AA' AA) x Vx). apply AT; [apply VV; exact Vx|].
    destruct o as [sz hard dflt|s m w|s m|s k w|s|s|s i|s names]; try exact I.
    destruct (uses_valid h _ r' h' s E eq_refl) as [Vs|[X _]]; [|discriminate]. intros SD. apply (AA x s Vx Vs (F1 s eq_refl)), Hsyma, SD.
Qed.

(* the other direction: a reference that shares with nobody is not changed by programs that do not mention it *)
Definition alone_data (h : heap) (r : nat) : Prop := forall x, valid h x -> x <> r -> ~ same_data h x r.
Definition alone_attrs (h : heap) (r : nat) : Prop := forall x, valid h x -> x <> r -> ~ same_attrs h x r.

Lemma alone l : forall h r, wf h -> valid h r -> alone_data h r ->
  Forall (fun o => uses o <> Some r) l ->
  same_view h (exec h l) r /\ (alone_attrs h r -> attrs (exec h l) r = attrs h r).
Proof.
  induction l as [|o l IH]; intros h r W V AD F; cbn [CatModel.exec].
  { split; [apply same_view_refl|auto]. }
  inversion F as [|? ? F1 F2]; subst. destruct (step h o) as [[r' h']|] eqn:E; [|apply IH; auto].
  pose proof (step_ok h o r' h' W E) as SS. pose proof SS as [W' SB NW SA SV AT].
  assert (V' : valid h' r) by (apply (same_bases_valid h h' r SB V)).
  assert (AD' : alone_data h' r).
  { intros y Vy NE. destruct (NW y Vy) as [Vh|(-> & NVr & HO & _)].
    - rewrite (same_data_step h o r' h' y r W E Vh V). apply AD; auto.
    - rewrite same_data_owner by auto.
      assert (owner h' r = owner h r) as EX by (apply owner_same; auto; apply valid_live; auto). rewrite EX.
      destruct HO as [HO|(s & U & Vs & HO)]; rewrite HO.
      + intros EQ. apply NVr. rewrite EQ. apply valid_live. apply owner_valid; auto. apply valid_live; auto.
      + intros EQ. assert (s <> r) by congruence. apply (AD s Vs H). apply same_data_owner; auto. }
  assert (Hsyma : forall a b, same_attrs h a b -> same_attrs h b a).
  { intros a b [->|(p & p' & d & P1 & P2 & P3 & P4)]; [left; reflexivity|right; exists p', p, d; auto]. }
  assert (Hsyma' : forall a b, same_attrs h' a b -> same_attrs h' b a).
  { intros a b [->|(p & p' & d & P1 & P2 & P3 & P4)]; [left; reflexivity|right; exists p', p, d; auto]. }
  assert (AA' : alone_attrs h r -> alone_attrs h' r).
  { intros AA y Vy NE. destruct (NW y Vy) as [Vh|(-> & NVr & _ & HA)].
    - rewrite (SA y r Vh V). apply AA; auto.
    - intros S. destruct (HA r V (Hsyma' _ _ S)) as (s & U & Vs & S'). assert (s <> r) by congruence.
      apply (AA s Vs H). apply Hsyma, S'. }
  destruct (IH h' r W' V' AD' F2) as [I1 I2]. split.
  - eapply same_view_trans; [|exact I1]. apply SV; [exact V|].
    destruct o as [sz hard dflt|s m w|s m|s k w|s|s|s i|s names]; try exact I;
    (destruct (uses_valid h _ r' h' s E eq_refl) as [Vs|[X _]]; [|discriminate]; apply AD; [exact Vs|cbn in F1; congruence]).
  - intros AA. rewrite (I2 (AA' AA)). apply AT; [exact V|].
    destruct o as [sz hard dflt|s m w|s m|s k w|s|s|s i|s names]; try exact I.
    destruct (uses_valid h _ r' h' s E eq_refl) as [Vs|[X _]]; [|discriminate]. apply AA; [exact Vs|cbn in F1; congruence].
Qed.

(* ---------- statements for every reachable state ---------- *)
Notation start := (exec (empty A)).
Lemma reach_wf l : wf (start l).
Proof. apply exec_wf, wf_empty. Qed.

Lemma assign_ok l r n v : let h := start l in valid h r -> length (expand A (size h r) v) = size h r ->
  exists h', setitem A h r n v = Ok h' /\
    (forall x m, valid h x -> (same_data h r x /\ m = n -> get h' x m = Ok (expand A (size h r) v, false)) /\
                              (~ (same_data h r x /\ m = n) -> get h' x m = get h x m)) /\
    (forall x, valid h x -> size h' x = size h x /\ attrs h' x = attrs h x).
Proof.
  intros h V L. pose proof (reach_wf l) as W. fold h in W. destruct (setitem A h r n v) as [h'|e] eqn:E.
  - destruct (setitem_effect h r n v h' W V E) as (_ & _ & AT & SZ & HG & _). exists h'. auto.
  - destruct (setitem_refuses h r n v e W V E). contradiction.
Qed.
Lemma assign_refused l r n v : let h := start l in valid h r -> length (expand A (size h r) v) <> size h r ->
  setitem A h r n v = Err AssertionError.
Proof.
  intros h V L. unfold setitem. destruct (Nat.eqb_spec (length (expand A (size h r) v)) (size h r)); [contradiction|reflexivity].
Qed.

Lemma hard_in h r oq n : olook h (owner h r) = Some oq -> (In n (hardcolumns A h r) <-> amem (o_hard oq) n = true).
Proof. intros E. unfold hardcolumns. rewrite E, sorted_set_in. symmetry. apply amem_keys. Qed.

Lemma delete_ok l r n : let h := start l in valid h r ->
  (exists v, get h r n = Ok (v, false)) -> ~ In n (hardcolumns A h r) ->
  exists h', delitem A h r n = Ok h' /\
    (forall x, valid h x -> same_data h r x ->
       get h' x n = match default_of A h r n with Some c => Ok (repeat c (size h r), true) | None => Err KeyError end) /\
    (forall x m, valid h x -> ~ (same_data h r x /\ m = n) -> get h' x m = get h x m) /\
    (forall x, valid h x -> size h' x = size h x /\ attrs h' x = attrs h x).
Proof.
  intros h V (v & G) NH. pose proof (reach_wf l) as W. fold h in W. pose proof V as Lv. apply valid_live in Lv.
  destruct (owner_look h r W Lv) as (o & oq & _ & E & _). rewrite (hard_in h r oq n E) in NH.
  destruct (delitem A h r n) as [h'|e] eqn:ED.
  - destruct (delitem_effect h r n h' W V ED) as (_ & _ & AT & SZ & (oq' & w & E' & _ & _ & HD) & HG & _).
    assert (oq' = oq) as -> by congruence. exists h'. split; [reflexivity|]. split; [|split; auto].
    intros x Vx SD. rewrite (HD x Vx SD). unfold layered, default_of. rewrite E. destruct (aget (o_dflt oq) n); reflexivity.
  - exfalso. unfold delitem in ED. rewrite E in ED.
    rewrite (existsb_columns h r n W Lv), G in ED. cbn [is_ok negb] in ED.
    destruct (amem (o_hard oq) n) eqn:Eh; [congruence|]. destruct (amem (o_over oq) n) eqn:Eo; [discriminate|].
    rewrite (get_layered h r oq n E) in G. unfold amem in Eh, Eo. unfold layered in G.
    destruct (aget (o_over oq) n); [discriminate|]. destruct (aget (o_hard oq) n); [discriminate|].
    destruct (aget (o_dflt oq) n); discriminate.
Qed.
Lemma delete_refused l r n : let h := start l in valid h r ->
  In n (hardcolumns A h r) \/ ~ (exists v, get h r n = Ok (v, false)) -> delitem A h r n = Err ValueError.
Proof.
  intros h V H. pose proof (reach_wf l) as W. fold h in W. pose proof V as Lv. apply valid_live in Lv.
  destruct (owner_look h r W Lv) as (o & oq & _ & E & _). rewrite (hard_in h r oq n E) in H.
  unfold delitem. rewrite E. destruct (negb _); [reflexivity|]. destruct (amem (o_hard oq) n) eqn:Eh; [reflexivity|].
  destruct (amem (o_over oq) n) eqn:Eo; [|reflexivity]. exfalso. destruct H as [H|H]; [discriminate|]. apply H.
  rewrite (get_layered h r oq n E). unfold amem in Eo. unfold layered. destruct (aget (o_over oq) n) as [v|]; [|discriminate]. eauto.
Qed.

Lemma columns_exact l r : let h := start l in valid h r ->
  StronglySorted lt (columns h r) /\ forall n, In n (columns h r) <-> is_ok (get h r n) = true.
Proof. intros h V. apply columns_spec; [apply reach_wf|]. apply valid_live, V. Qed.

Lemma created l sz hard dflt r h' : new A (start l) sz hard dflt = Ok (r, h') ->
  size h' r = sz /\ forall n, get h' r n =
    match aget hard n, aget dflt n with
    | Some v, _ => Ok (v, false) | None, Some c => Ok (repeat c sz, true) | None, None => Err KeyError
    end.
Proof.
  intros H. destruct (new_spec _ _ _ _ _ _ (reach_wf l) H) as (_ & _ & _ & _ & _ & SZ & HG & _).
  split; [exact SZ|]. intros n. rewrite HG. unfold layered. destruct (aget hard n), (aget dflt n); reflexivity.
Qed.

Lemma history l1 r n v l2 : let h := start l1 in valid h r ->
  length (expand A (size h r) v) = size h r ->
  Forall (fun o => writes_column A n o = false \/ exists s, target A o = Some s /\ valid h s /\ ~ same_data h s r) l2 ->
  get (start (l1 ++ OSet A r n v :: l2)) r n = Ok (expand A (size h r) v, false).
Proof.
  intros h V L F. assert (forall l h0, exec h0 (l1 ++ l) = exec (exec h0 l1) l) as EX.
  { clear. induction l1 as [|o l1 IH]; intros l h0; cbn [app CatModel.exec]; [reflexivity|]. destruct (step h0 o) as [[? ?]|]; apply IH. }
  rewrite EX. fold h. cbn [CatModel.exec CatModel.step].
  destruct (assign_ok l1 r n v V L) as (h' & E & HG & _). fold h in E, HG. rewrite E. cbn [rbind].
  pose proof (reach_wf l1) as W. fold h in W.
  destruct (setitem_effect h r n v h' W V E) as (W' & SB & _).
  apply last_write; auto; [eapply same_bases_valid; eassumption| |].
  - apply (HG r n V). split; [apply same_data_refl; auto|reflexivity].
  - eapply Forall_impl; [|exact F]. intros o0 [X|(t & T & Vt & NS)]; [left; exact X|right]. exists t.
    repeat split; [exact T|eapply same_bases_valid; eassumption|].
    assert (step h (OSet A r n v) = Ok (r, h')) as ST by (cbn [CatModel.step]; rewrite E; reflexivity).
    rewrite (same_data_step h _ r h' t r W ST Vt V). exact NS.
Qed.

Lemma view_aliases l r r' h' : view A (start l) r = Ok (r', h') -> same_data h' r r' /\ same_view (start l) h' r /\
  (forall n, get h' r' n = get (start l) r n).
Proof.
  intros H. pose proof (reach_wf l) as W. assert (step (start l) (OView A r) = Ok (r', h')) as ST by exact H.
  destruct (uses_valid _ _ _ _ r ST eq_refl) as [V|[X _]]; [|discriminate].
  pose proof V as Lv. apply valid_live in Lv. destruct (view_spec _ r r' h' W Lv H) as (W' & K & V' & _ & EO & HG & _).
  split; [|split; [apply keeps_view; auto|exact HG]].
  assert (valid h' r) as Vr by (apply (same_bases_valid (start l) h' r (keeps_same _ _ K) V)).
  apply same_data_owner; auto; [apply valid_live; exact V'|]. rewrite EO. apply owner_same; auto. apply keeps_same, K.
Qed.

(* slices *)
Lemma slice_rows l r i r' h' : let h := start l in valid h r -> i <> IEllipsis -> slice A h r i = Ok (r', h') ->
  columns h' r' = columns h r /\
  (forall n, match get h r n with
             | Ok (v, false) => exists v', numpy_index i v = Ok v' /\ length v' = size h' r' /\ get h' r' n = Ok (v', false)
             | Ok (v, true) => exists c, v = repeat c (size h r) /\ get h' r' n = Ok (repeat c (size h' r'), true)
             | Err e => get h' r' n = Err e
             end) /\
  (exists u, numpy_index i (repeat tt (size h r)) = Ok u /\ length u = size h' r') /\
  (forall x, valid h x -> same_view h h' x /\ attrs h' x = attrs h x).
Proof.
  intros h V Hi HS. pose proof (reach_wf l) as W. fold h in W. pose proof V as Lv. apply valid_live in Lv.
  destruct (slice_spec h r i r' h' W Lv Hi HS) as (W' & K & _ & _ & C & G & U & _).
  destruct (step_ok h (OSlice A r i) r' h' W HS) as [_ _ _ _ SV AT].
  split; [exact C|]. split; [exact G|]. split; [exact U|]. intros x Vx. split; [apply (SV x Vx I)|apply (AT x Vx I)].
Qed.
Lemma slice_defined l r i : let h := start l in valid h r -> forall (B : Type) (col : list B), length col = size h r ->
  (forall e, slice A h r i = Err e -> numpy_index i col = Err e) /\
  (forall x, slice A h r i = Ok x -> exists c, numpy_index i col = Ok c).
Proof.
  intros h V B col L. pose proof (reach_wf l) as W. fold h in W. pose proof V as Lv. apply valid_live in Lv. split.
  - intros e E. eapply slice_fails; eassumption.
  - intros [r' h'] E. destruct i as [|a b s|m|ls] eqn:Ei; [cbn; eauto| | |]; rewrite <- Ei in *;
    (assert (i <> IEllipsis) as Hi by congruence);
    (destruct (resolve (size h r) i) as [[rows sz]|e] eqn:HR;
      [exists (select col rows); apply (resolve_numpy (size h r) i rows sz col HR L)|
       exfalso; apply live_look in Lv; destruct Lv as [o Eo]; unfold slice in E; rewrite Eo in E; rewrite Ei in E, HR; rewrite HR in E; discriminate]).
Qed.

Lemma select_ok l r names : let h := start l in valid h r -> names <> [] ->
  (forall n, In n names -> In n (columns h r)) ->
  exists r' h', select_columns A base_dflt h r names = Ok (r', h') /\
    size h' r' = size h r /\ attrs h' r' = attrs h r /\
    (forall n, In n names -> exists v b, get h r n = Ok (v, b) /\ get h' r' n = Ok (v, false)) /\
    (forall n, ~ In n names -> get h' r' n = match aget base_dflt n with Some c => Ok (repeat c (size h r), true) | None => Err KeyError end) /\
    (forall x, valid h x -> same_view h h' x /\ attrs h' x = attrs h x).
Proof.
  intros h V Hn HC. pose proof (reach_wf l) as W. fold h in W. pose proof V as Lv. apply valid_live in Lv.
  destruct (select_columns A base_dflt h r names) as [[r' h']|e] eqn:E.
  - exists r', h'. split; [reflexivity|].
    destruct (select_spec base_dflt h r names r' h' W Lv Hn E) as (W' & K & _ & _ & HG & HI & SZ & AT & _).
    destruct (step_ok h (OSelect A r names) r' h' W E) as [_ _ _ _ SV AT'].
    split; [exact SZ|]. split; [exact AT|]. split; [|split].
    + intros n Hin. specialize (HI n Hin). specialize (HG n). rewrite (proj2 (existsb_eqb n names) Hin) in HG.
      destruct (get h r n) as [[v b]|]; [|discriminate]. eauto.
    + intros n Hin. rewrite HG. destruct (existsb (Nat.eqb n) names) eqn:EE; [|reflexivity].
      apply existsb_eqb in EE. contradiction.
    + intros x Vx. split; [apply SV; auto; exact I|apply AT'; auto; exact I].
  - exfalso. unfold select_columns in E. destruct names as [|n0 names]; [congruence|].
    assert (forallb (fun n => existsb (Nat.eqb n) (columns h r)) (n0 :: names) = true) as HB.
    { apply forallb_forall. intros n Hin. apply existsb_eqb. auto. }
    rewrite HB in E. cbn [negb] in E. unfold attrs_ref in E. pose proof Lv as Lv'. apply live_look in Lv'. destruct Lv' as [o Eo]. rewrite Eo in E.
    assert (HF : forall h1 d, size h1 r = size h r -> exists o', from_columns A (size h1 r)
       (flat_map (fun n => match get h r n with Ok v => [(n, fst v)] | Err _ => [] end) (n0 :: names)) [] base_dflt d = Ok o').
    { intros h1 d SZ. unfold from_columns. match goal with |- context [forallb ?f ?l] => assert (forallb f l = true) as -> end; [|eauto].
      apply forallb_forall. intros [k v] Hin. apply in_flat_map in Hin. destruct Hin as (n & _ & Hin).
      destruct (get h r n) as [[w b]|] eqn:EG; [|destruct Hin]. destruct Hin as [Hin|[]]. injection Hin as <- <-.
      apply Nat.eqb_eq. cbn [snd fst]. rewrite SZ. eapply get_sized; eassumption. }
    destruct (o_attrs o) as [d|] eqn:Ea; unfold add_dict in E.
    + destruct (HF h (Some (length (dicts h))) eq_refl) as (o' & EF). rewrite EF in E. discriminate.
    + set (h1 := {| CatModel.objs := _; CatModel.dicts := _ |}) in E at 1 2.
      assert (attrs_ref A h r = Some (length (dicts h), h1)) as EA by (unfold attrs_ref; rewrite Eo, Ea; reflexivity).
      destruct (attrs_ref_inv h r _ h1 W EA) as (W1 & K1 & _).
      destruct (keeps_get h h1 r 0 W W1 K1 Lv) as (_ & _ & SZ).
      destruct (HF h1 (Some (length (dicts h1))) SZ) as (o' & EF).
      change (rbind (from_columns A (size h1 r)
       (flat_map (fun n => match get h r n with Ok v => [(n, fst v)] | Err _ => [] end) (n0 :: names)) [] base_dflt (Some (length (dicts h1))))
        (fun o' => Ok (add A {| CatModel.objs := objs h1; CatModel.dicts := dicts h1 ++ [dict_of A h1 (length (dicts h))] |} o')) = Err e) in E.
      rewrite EF in E. discriminate.
Qed.
Lemma select_missing l r names n : In n names -> ~ In n (columns (start l) r) ->
  select_columns A base_dflt (start l) r names = Err KeyError.
Proof.
  intros Hin HN. unfold select_columns. destruct names as [|n0 names]; [destruct Hin|].
  match goal with |- context [forallb ?f ?l] => destruct (forallb f l) eqn:HB end; [|reflexivity].
  rewrite forallb_forall in HB. specialize (HB n Hin). apply existsb_eqb in HB. contradiction.
Qed.

(* copies *)
Lemma copy_same l r r' h' : copy A (start l) r = Ok (r', h') ->
  let h := start l in
  columns h' r' = columns h r /\ size h' r' = size h r /\ attrs h' r' = attrs h r /\
  forall n, get h' r' n = match get h r n with Ok (v, _) => Ok (v, false) | Err e => Err e end.
Proof.
  intros H h. pose proof (reach_wf l) as W. assert (step (start l) (OCopy A r) = Ok (r', h')) as ST by exact H.
  destruct (uses_valid _ _ _ _ r ST eq_refl) as [V|[X _]]; [|discriminate]. apply valid_live in V.
  destruct (copy_spec _ r r' h' W V H) as (_ & _ & _ & _ & HG & C & SZ & AT & _). auto.
Qed.

Definition is_copy (o : op A) : Prop :=
  match o with OCopy _ _ => True | OSelect _ _ names => names <> [] | _ => False end.
Definition is_slice (o : op A) : Prop :=
  match o with OSlice _ _ i => i <> IEllipsis | OSelect _ _ [] => True | _ => False end.

Lemma separate h o r' h' : wf h -> (is_copy o \/ is_slice o) -> step h o = Ok (r', h') ->
  wf h' /\ valid h' r' /\ ~ valid h r' /\ (forall x, valid h x -> valid h' x) /\ (forall x, valid h' x -> valid h x \/ x = r') /\
  (forall x, valid h x -> ~ same_data h' x r') /\
  (is_copy o -> forall x, valid h x -> ~ same_attrs h' x r') /\
  (forall x, valid h x -> same_view h h' x /\ attrs h' x = attrs h x).
Proof.
  intros W IC H. pose proof (step_ok h o r' h' W H) as [W' SB NW SA SV AT].
  assert (HV : forall x, valid h x -> same_view h h' x /\ attrs h' x = attrs h x).
  { intros x Vx. split; [apply SV|apply AT]; auto; destruct o; cbn in *; tauto. }
  assert (HVV : forall x, valid h x -> valid h' x) by (intros x; apply same_bases_valid, SB).
  assert (HS : exists h1 o' ds, length (objs h1) = length (objs h) /\ wf h1 /\ keeps h h1 /\ r' = length (objs h1) /\
     h' = {| CatModel.objs := objs h1 ++ [o']; CatModel.dicts := ds |} /\ o_base o' = None /\
     (is_copy o -> exists d, o_attrs o' = Some d /\ ~ d < length (dicts h1))).
  { destruct o as [sz hard dflt|s m w|s m|s k w|s|s|s i|s names]; cbn in IC; try tauto; cbn [CatModel.step] in H.
    - destruct (copy_shape h s r' h' H) as (o' & ds & -> & -> & B & Ea). exists h, o', ds. split; [reflexivity|]. split; [exact W|]. split; [apply keeps_refl|]. split; [reflexivity|]. split; [reflexivity|]. split; [exact B|].
      intros _. exists (length (dicts h)). split; [exact Ea|lia].
    - destruct IC as [[]|IC]. destruct (slice_shape h s i r' h' IC H) as (o & o' & -> & -> & E & B & Ea). exists h, o', (dicts h).
      split; [reflexivity|]. split; [exact W|]. split; [apply keeps_refl|]. split; [reflexivity|]. split; [reflexivity|]. split; [exact B|]. intros [].
    - destruct names as [|n0 names].
      + assert (IInts [] <> IEllipsis) as Hi by discriminate. cbn [select_columns] in H.
        destruct (slice_shape h s _ r' h' Hi H) as (o & o' & -> & -> & E & B & Ea). exists h, o', (dicts h).
        split; [reflexivity|]. split; [exact W|]. split; [apply keeps_refl|]. split; [reflexivity|]. split; [reflexivity|]. split; [exact B|]. cbn. congruence.
      + assert (n0 :: names <> []) as Hn by discriminate.
        destruct (select_shape h s _ r' h' Hn H) as (d & h1 & o' & ds & EA & -> & -> & B & Ea).
        destruct (attrs_ref_inv h s d h1 W EA) as (W1 & K1 & _ & L1 & D1 & _). exists h1, o', ds. split; [exact L1|]. split; [exact W1|]. split; [exact K1|]. split; [reflexivity|]. split; [reflexivity|]. split; [exact B|].
        intros _. exists (length (dicts h1)). split; [exact Ea|lia]. }
  destruct HS as (h1 & o' & ds & L1 & W1 & K1 & -> & Eh & B & HA).
  assert (EL : olook h' (length (objs h1)) = Some o') by (rewrite Eh, look_app, Nat.eqb_refl; reflexivity).
  assert (V' : valid h' (length (objs h1))) by (eexists; exact EL).
  assert (NV : ~ valid h (length (objs h1))) by (rewrite valid_live; unfold live; lia).
  split; [exact W'|]. split; [exact V'|]. split; [exact NV|]. split; [exact HVV|]. split; [|split; [|split; [|exact HV]]].
  - intros x Vx. destruct (NW x Vx) as [?|[? _]]; auto.
  - intros x Vx. rewrite same_data_owner by auto.
    assert (owner h' (length (objs h1)) = length (objs h1)) as -> by (rewrite Eh; apply owner_new; [rewrite <- Eh; exact W'|exact B]).
    rewrite (owner_same h h' x W W' SB) by (apply valid_live; exact Vx). intros EQ. apply NV. rewrite <- EQ. apply valid_live, owner_valid; auto. apply valid_live, Vx.
  - intros IC' x Vx. destruct (HA IC') as (d & Ea & Nd). rewrite Eh. intros S.
    destruct (same_attrs_new h1 o' ds x) as (ox & d0 & E1 & E2 & E3); [apply (valid_objs h h1); auto|exact S|].
    apply Nd. assert (d0 = d) as -> by congruence. apply (wf_attrs h1 W1 x ox d E1 E2).
Qed.

Lemma isolation l o r' h' prog : let h := start l in (is_copy o \/ is_slice o) -> step h o = Ok (r', h') ->
  (* a program working only with the new catalog and what is derived from it *)
  (Forall (fun p => forall s, uses p = Some s -> ~ valid h s) prog ->
     forall x, valid h x -> same_view h (exec h' prog) x /\ (is_copy o -> attrs (exec h' prog) x = attrs h x)) /\
  (* a program that never mentions the new catalog *)
  (Forall (fun p => uses p <> Some r') prog ->
     same_view h' (exec h' prog) r' /\ (is_copy o -> attrs (exec h' prog) r' = attrs h' r')).
Proof.
  intros h IC H. pose proof (reach_wf l) as W. fold h in W.
  destruct (separate h o r' h' W IC H) as (W' & V' & NV & VV & ON & SD & SA & HV). split.
  - intros F x Vx. destruct (indep prog h h' W' VV) as [I1 I2]; auto.
    + intros a b Va Vb NVb. destruct (ON b Vb) as [?| ->]; [contradiction|]. apply SD, Va.
    + destruct (HV x Vx) as [SV AT]. split; [eapply same_view_trans; [exact SV|apply I1, Vx]|].
      intros IC'. rewrite <- AT. apply I2; auto. intros a b Va Vb NVb. destruct (ON b Vb) as [?| ->]; [contradiction|]. apply SA; auto.
  - intros F. destruct (alone prog h' r' W' V') as [I1 I2]; auto.
    + intros x Vx NE. destruct (ON x Vx) as [Vh| ->]; [apply SD, Vh|contradiction].
    + split; [exact I1|]. intros IC'. apply I2. intros x Vx NE. destruct (ON x Vx) as [Vh| ->]; [apply SA; auto|contradiction].
Qed.
End Hist.
