From Verif Require Import Base BaseProofs IoModel IoProofs HdfModel HdfSpec.
Local Open Scope nat_scope.

Lemma path_eqb_eq p q : path_eqb p q = true <-> p = q.
Proof.
  revert q. induction p as [|x p IH]; intros [|y q]; cbn; try (split; [discriminate|discriminate]); [split; reflexivity|].
  rewrite andb_true_iff, Nat.eqb_eq, IH. split; [intros [-> ->]; reflexivity|intros H; injection H; auto].
Qed.
Lemma path_eqb_refl p : path_eqb p p = true.
Proof. apply path_eqb_eq. reflexivity. Qed.
Lemma below_iff root p q : below root p = Some q <-> p = root ++ q.
Proof.
  revert p. induction root as [|x root IH]; intros p; cbn [below app]; [split; congruence|].
  destruct p as [|y p]; [split; discriminate|]. destruct (Nat.eqb_spec x y) as [<-|N]; [rewrite IH; split; congruence|]. split; [discriminate|congruence].
Qed.
Lemma nodup_app' {X} (a b : list X) : NoDup a -> NoDup b -> (forall x, In x a -> In x b -> False) -> NoDup (a ++ b).
Proof.
  induction a as [|x a IH]; intros Ha Hb H; [exact Hb|]. cbn. apply NoDup_cons_iff in Ha as [H1 H2]. constructor.
  - rewrite in_app_iff. intros [K|K]; [contradiction|]. apply (H x); [left; reflexivity|exact K].
  - apply IH; auto. intros y K. apply H. right. exact K.
Qed.
Lemma rall_map_ok {X Y} (f : X -> res Y) (l : list X) : (forall x, In x l -> exists y, f x = Ok y) -> exists ys, rall (map f l) = Ok ys /\ Forall2 (fun x y => f x = Ok y) l ys.
Proof.
  induction l as [|x l IH]; intros H; [exists []; split; [reflexivity|constructor]|]. destruct (H x (or_introl eq_refl)) as (y & Hy). destruct IH as (ys & E & F). { intros z Hz. apply H. right. exact Hz. }
  exists (y :: ys). split; [|constructor; assumption]. cbn [map rall]. rewrite Hy. cbn [rbind]. rewrite E. reflexivity.
Qed.
Lemma forall2_nth {X Y} (R : X -> Y -> Prop) l m : Forall2 R l m -> forall i x, nth_error l i = Some x -> exists y, nth_error m i = Some y /\ R x y.
Proof. induction 1 as [|a b l m H _ IH]; intros [|i] x E; try discriminate; cbn in *; [injection E as <-; exists b; auto|apply IH; exact E]. Qed.
Lemma forall2_in {X Y} (R : X -> Y -> Prop) l m : Forall2 R l m -> forall y, In y m -> exists x, In x l /\ R x y.
Proof. induction 1 as [|a b l m H _ IH]; intros y []; [subst; exists a; split; [left|]; auto|]. destruct (IH y H0) as (x & Hx & R'). exists x. split; [right|]; auto. Qed.
Lemma forall2_in_l {X Y} (R : X -> Y -> Prop) l m : Forall2 R l m -> forall x, In x l -> exists y, In y m /\ R x y.
Proof. induction 1 as [|a b l m H _ IH]; intros y []; [subst; exists b; split; [left|]; auto|]. destruct (IH y H0) as (x & Hx & R'). exists x. split; [right|]; auto. Qed.

Section Hdf.
Context {A : Type}.
Variable dflt : A.
Notation h5 := (h5 (A := A)). Notation dset := (dset (A := A)).
Variable ff : h5.
Hypothesis GF : good_file ff.

Lemma find_in p d : In (p, d) (dsets ff) -> find p (dsets ff) = Some d.
Proof.
  destruct GF as (ND & _). revert ND. generalize (dsets ff) as l. induction l as [|[q e] l IH]; intros ND []; cbn [find].
  - injection H as -> ->. rewrite path_eqb_refl. reflexivity.
  - cbn [map fst] in ND. apply NoDup_cons_iff in ND as [N1 N2]. destruct (path_eqb p q) eqn:E; [|apply IH; assumption].
    apply path_eqb_eq in E as ->. exfalso. apply N1. apply (in_map fst) in H. exact H.
Qed.
Lemma find_some p d : find p (dsets ff) = Some d -> In (p, d) (dsets ff).
Proof.
  generalize (dsets ff) as l. induction l as [|[q e] l IH]; cbn [find]; [discriminate|]. destruct (path_eqb p q) eqn:E; [|intros H; right; apply IH; exact H].
  apply path_eqb_eq in E as ->. intros H. injection H as ->. left. reflexivity.
Qed.
Lemma in_file_iff p : in_file ff p = true <-> exists q d, In (p ++ q, d) (dsets ff).
Proof.
  unfold in_file. rewrite existsb_exists. split.
  - intros ([q d] & Hi & H). cbn [fst] in H. destruct (below p q) as [r|] eqn:E; [|discriminate]. apply below_iff in E as ->. exists r, d. exact Hi.
  - intros (q & d & Hi). exists (p ++ q, d). split; [exact Hi|]. cbn [fst]. rewrite (proj2 (below_iff p (p ++ q) q) eq_refl). reflexivity.
Qed.
Lemma no_child p q d e : In (p, d) (dsets ff) -> In (p ++ q, e) (dsets ff) -> q = [].
Proof. apply (proj1 (proj2 GF)). Qed.
Lemma same_set p d e : In (p, d) (dsets ff) -> In (p, e) (dsets ff) -> d = e.
Proof. intros H1 H2. apply find_in in H1, H2. congruence. Qed.
Lemma field_idx fs k f ty : NoDup (map fst fs) -> nth_error fs k = Some (f, ty) -> field_index f fs = Some k.
Proof.
  revert k. induction fs as [|[g u] fs IH]; intros [|k] ND H; try discriminate; cbn [field_index nth_error map fst] in *.
  - injection H as -> ->. rewrite Nat.eqb_refl. reflexivity.
  - apply NoDup_cons_iff in ND as [N1 N2]. destruct (Nat.eqb_spec f g) as [->|].
    + exfalso. apply N1. apply nth_error_In in H. apply (in_map fst) in H. exact H.
    + rewrite (IH k N2 H). reflexivity.
Qed.
Lemma column_unique p ty rows ty' rows' : column_at ff p ty rows -> column_at ff p ty' rows' -> ty = ty' /\ rows = rows'.
Proof.
  intros H1 H2. inversion H1 as [p1 t1 r1 I1|p1 fs1 r1 k1 f1 t1 x1 I1 N1 F1]; inversion H2 as [p2 t2 r2 I2|p2 fs2 r2 k2 f2 t2 x2 I2 N2 F2]; subst.
  - pose proof (same_set _ _ _ I1 I2) as E. injection E as -> ->. auto.
  - exfalso. pose proof (no_child _ _ _ _ I2 I1). discriminate.
  - exfalso. pose proof (no_child _ _ _ _ I1 I2). discriminate.
  - apply app_inj_tail in H4 as [-> ->]. pose proof (same_set _ _ _ I1 I2) as E. injection E as -> ->.
    destruct (proj2 (proj2 GF) _ _ _ I1) as (_ & ND & _). pose proof (field_idx _ _ _ _ ND N1). pose proof (field_idx _ _ _ _ ND N2). assert (k1 = k2) by congruence. subst k2.
    split; [congruence|]. clear -F1 F2. revert rows' F2. induction F1 as [|row x rs xs H _ IH]; intros rows' F2; inversion F2; subst; [reflexivity|]. f_equal; [congruence|]. apply IH. assumption.
Qed.

(* ---- reading ---- *)
Variable root : path.
Variables (n : nat) (start stop step : Z).
Hypothesis range : (0 <= start <= stop)%Z /\ (stop <= Z.of_nat n)%Z /\ (1 <= step)%Z.
Definition is_col (c : path) : Prop := exists ty rows, column_at ff (root ++ c) ty rows /\ length rows = n.
(* entries of the table *)
Definition entry_ok (nl : path * list (path * option nat)) : Prop :=
  (exists c ty rows, snd nl = [(c, None)] /\ fst nl = root ++ c /\ In (fst nl, Plain ty rows) (dsets ff) /\ is_col c) \/
  (snd nl <> [] /\ (exists fs rows, In (fst nl, Struct fs rows) (dsets ff)) /\ Forall (fun cf => exists f, snd cf = Some f /\ fst nl ++ [f] = root ++ fst cf /\ is_col (fst cf)) (snd nl)).
Definition covers (t : list (path * list (path * option nat))) (c : path) : Prop := exists n l o, In (n, l) t /\ In (c, o) l.
Lemma put_in name cf t : entry_ok (name, [cf]) -> Forall entry_ok t -> Forall entry_ok (put_column name cf t).
Proof. intros E. induction 1 as [|[m l] t H HT IH]; cbn [put_column]; [constructor; [exact E|constructor]|]. destruct (path_eqb name m) eqn:Q; [|constructor; [exact H|exact IH]]. apply path_eqb_eq in Q as <-. constructor; [exact E|]. assumption. Qed.
Lemma put_covers name cf t c : covers (put_column name cf t) (fst cf) /\ (covers t c -> (forall l o, In (name, l) t -> ~ In (c, o) l) -> covers (put_column name cf t) c).
Proof.
  induction t as [|[m l] t [IH1 IH2]]; cbn [put_column].
  - split; [exists name, [cf], (snd cf); split; [left; reflexivity|left; destruct cf; reflexivity]|]. intros (? & ? & ? & [] & _).
  - destruct (path_eqb name m) eqn:Q.
    + apply path_eqb_eq in Q as <-. split; [exists name, [cf], (snd cf); split; [left; reflexivity|left; destruct cf; reflexivity]|].
      intros (m' & l' & o & [H|H] & K) N; [injection H as <- <-; exfalso; apply (N l o (or_introl eq_refl) K)|]. exists m', l', o. split; [right; exact H|exact K].
    + split.
      * destruct IH1 as (m' & l' & o & H & K). exists m', l', o. split; [right; exact H|exact K].
      * intros (m' & l' & o & [H|H] & K) N; [exists m', l', o; split; [left; exact H|exact K]|].
        destruct IH2 as (m2 & l2 & o2 & H2 & K2); [exists m', l', o; auto|intros; apply N; right; assumption|]. exists m2, l2, o2. split; [right; exact H2|exact K2].
Qed.
Lemma add_in name c f fs rows t : In (name, Struct fs rows) (dsets ff) -> name ++ [f] = root ++ c -> is_col c -> Forall entry_ok t -> Forall entry_ok (add_field name (c, Some f) t).
Proof.
  intros I E C. induction 1 as [|[m l] t H HT IH]; cbn [add_field].
  - constructor; [|constructor]. right. cbn [fst snd]. split; [discriminate|]. split; [exists fs, rows; exact I|]. constructor; [|constructor]. exists f. auto.
  - destruct (path_eqb name m) eqn:Q; [|constructor; [exact H|exact IH]]. apply path_eqb_eq in Q as <-. constructor; [|exact HT]. destruct H as [(c' & ty & r' & H1 & H2 & H3 & _)|(H1 & H2 & H3)].
    + cbn [fst] in H3. pose proof (same_set _ _ _ I H3). discriminate.
    + right. cbn [fst snd] in *. split; [destruct l; discriminate|]. split; [exact H2|]. apply Forall_app. split; [exact H3|]. constructor; [|constructor]. exists f. auto.
Qed.
Lemma add_covers name cf t c : covers (add_field name cf t) (fst cf) /\ (covers t c -> covers (add_field name cf t) c).
Proof.
  induction t as [|[m l] t [IH1 IH2]]; cbn [add_field].
  - split; [exists name, [cf], (snd cf); split; [left; reflexivity|left; destruct cf; reflexivity]|]. intros (? & ? & ? & [] & _).
  - destruct (path_eqb name m) eqn:Q.
    + split; [exists m, (l ++ [cf]), (snd cf); split; [left; reflexivity|apply in_app_iff; right; left; destruct cf; reflexivity]|].
      intros (m' & l' & o & [H|H] & K); [injection H as <- <-; exists m, (l ++ [cf]), o; split; [left; reflexivity|apply in_app_iff; left; exact K]|]. exists m', l', o. split; [right; exact H|exact K].
    + split.
      * destruct IH1 as (m' & l' & o & H & K). exists m', l', o. split; [right; exact H|exact K].
      * intros (m' & l' & o & [H|H] & K); [exists m', l', o; split; [left; exact H|exact K]|].
        destruct IH2 as (m2 & l2 & o2 & H2 & K2); [exists m', l', o; auto|]. exists m2, l2, o2. split; [right; exact H2|exact K2].
Qed.
Lemma last_snoc (p : path) f : removelast (p ++ [f]) = p /\ last (p ++ [f]) 0 = f.
Proof. split; [apply removelast_last|apply last_last]. Qed.
Lemma compile_ok : forall cols t, Forall is_col cols -> Forall entry_ok t -> (forall c, In c cols -> ~ covers t c) -> NoDup cols ->
  exists t', compile ff root cols t = Ok t' /\ Forall entry_ok t' /\ (forall c, In c cols \/ covers t c -> covers t' c).
Proof.
  induction cols as [|c cols IH]; intros t HC HT HN ND; cbn [compile].
  - exists t. split; [reflexivity|]. split; [exact HT|]. intros c [[]|H]; exact H.
  - pose proof (Forall_inv HC) as Hc. apply Forall_inv_tail in HC. apply NoDup_cons_iff in ND as [N1 N2]. destruct Hc as (ty & rows & Hc & Hl). inversion Hc as [p1 t1 r1 I1 EP ET EX|p1 fs1 r1 k1 f1 t1 x1 I1 K1 F1 EP ET EX]; subst.
    + rewrite (proj2 (in_file_iff (root ++ c))) by (exists [], (Plain ty rows); rewrite app_nil_r; exact I1).
      destruct (IH (put_column (root ++ c) (c, None) t)) as (t' & E & T1 & T2); [exact HC| | |exact N2|].
      * apply put_in; [|exact HT]. left. exists c, ty, rows. cbn [fst snd]. do 3 (split; [auto|]). exists ty, rows. auto.
      * intros c' Hc' (m & l & o & H1 & H2). assert (c' <> c) by (intros ->; contradiction). clear IH.
        assert (G : forall t, In (m, l) (put_column (root ++ c) (c, None) t) -> covers t c').
        { clear -H2 H. induction t as [|[m1 l1] t IH]; cbn [put_column]; intros H1.
          - destruct H1 as [E|[]]. injection E as <- <-. destruct H2 as [E|[]]. congruence.
          - destruct (path_eqb (root ++ c) m1); destruct H1 as [E|H1].
            + injection E as <- <-. destruct H2 as [E|[]]. congruence.
            + exists m, l, o. split; [right; exact H1|exact H2].
            + exists m, l, o. split; [left; exact E|exact H2].
            + destruct (IH H1) as (a & b & e & Q1 & Q2). exists a, b, e. split; [right; exact Q1|exact Q2]. }
        apply (HN c' (or_intror Hc')). apply (G t H1).
      * exists t'. split; [exact E|]. split; [exact T1|]. intros c' [[<-|H]|H].
        -- apply T2. right. apply (proj1 (put_covers (root ++ c) (c, None) t c)).
        -- apply T2. left. exact H.
        -- apply T2. right. apply (proj2 (put_covers (root ++ c) (c, None) t c')); [exact H|]. intros l o Hl' Ho.
           rewrite Forall_forall in HT. destruct (HT _ Hl') as [(c2 & ty2 & r2 & Q1 & Q2 & Q3 & _)|(Q1 & (fs & r2 & Q2) & Q3)]; cbn [fst snd] in *.
           ++ subst l. destruct Ho as [Ho|[]]. injection Ho as -> <-. apply app_inv_head in Q2 as <-. apply (HN c (or_introl eq_refl)). exact H.
           ++ pose proof (same_set _ _ _ I1 Q2). discriminate.
    + assert (NF : in_file ff (p1 ++ [f1]) = false).
      { destruct (in_file ff (p1 ++ [f1])) eqn:Q; [|reflexivity]. apply in_file_iff in Q as (q & d & Q). rewrite <- app_assoc in Q. pose proof (no_child _ _ _ _ I1 Q). destruct q; discriminate. }
      rewrite NF. destruct (last_snoc p1 f1) as [L1 L2]. rewrite L1, L2. assert (M : forall X (a b : X), match p1 ++ [f1] with [] => a | _ :: _ => b end = b) by (destruct p1; reflexivity). rewrite M.
      assert (HIC : is_col c) by (exists ty, rows; auto).
      destruct (IH (add_field p1 (c, Some f1) t)) as (t' & E & T1 & T2); [exact HC| | |exact N2|].
      * apply (add_in p1 c f1 fs1 r1 t I1 EP HIC HT).
      * intros c' Hc' (m & l & o & H1 & H2). assert (N : c' <> c) by (intros ->; contradiction).
        assert (G : forall t, In (m, l) (add_field p1 (c, Some f1) t) -> covers t c').
        { clear -H2 N. induction t as [|[m1 l1] t IH]; cbn [add_field]; intros H1.
          - destruct H1 as [E|[]]. injection E as <- <-. destruct H2 as [E|[]]. congruence.
          - destruct (path_eqb p1 m1); destruct H1 as [E|H1].
            + injection E as <- <-. apply in_app_iff in H2 as [H2|[E|[]]]; [|congruence]. exists m1, l1, o. split; [left; reflexivity|exact H2].
            + exists m, l, o. split; [right; exact H1|exact H2].
            + exists m, l, o. split; [left; exact E|exact H2].
            + destruct (IH H1) as (a & b & e & Q1 & Q2). exists a, b, e. split; [right; exact Q1|exact Q2]. }
        apply (HN c' (or_intror Hc')). apply (G t H1).
      * exists t'. split; [exact E|]. split; [exact T1|]. intros c' [[<-|H]|H].
        -- apply T2. right. apply (proj1 (add_covers p1 (c, Some f1) t c)).
        -- apply T2. left. exact H.
        -- apply T2. right. apply (proj2 (add_covers p1 (c, Some f1) t c')). exact H.
Qed.
Lemma slice_ok {B} (rows : list B) (d : B) : length rows = n -> exists out, h5_slice rows d start stop step = Ok out /\ Forall2 (fun i x => nth_error rows (Z.to_nat i) = Some x) (py_range start stop step) out.
Proof.
  intros L. unfold h5_slice. destruct range as (R1 & R2 & R3). assert (Q : ((0 <=? start) && (start <=? stop) && (stop <=? zlen rows) && (1 <=? step))%Z = true).
  { unfold zlen. rewrite L. repeat (apply andb_true_iff; split); apply Z.leb_le; lia. }
  rewrite Q. eexists. split; [reflexivity|]. assert (G : forall l, (forall i, In i l -> (0 <= i < Z.of_nat n)%Z) -> Forall2 (fun i x => nth_error rows (Z.to_nat i) = Some x) l (map (fun i => nth (Z.to_nat i) rows d) l)).
  { induction l as [|i l IH]; intros H; cbn [map]; constructor; [|apply IH; intros j Hj; apply H; right; exact Hj]. apply nth_error_nth'. rewrite L. pose proof (H i (or_introl eq_refl)). lia. }
  apply G. intros i Hi. apply in_py_range_pos in Hi; lia.
Qed.
Definition right_part (cx : path * list A) : Prop := forall ty rows, column_at ff (root ++ fst cx) ty rows -> length rows = n -> rows_of rows start stop step (snd cx).
Lemma read_one_ok nl : entry_ok nl -> exists parts, read_one dflt ff start stop step nl = Ok parts /\ Forall right_part parts /\ forall c o, In (c, o) (snd nl) -> exists x, In (c, x) parts.
Proof.
  intros E. destruct nl as [name l]. destruct E as [(c & ty & rows & E1 & E2 & E3 & IC)|(E1 & (fs & rows & E2) & E3)]; cbn [fst snd] in *.
  - unfold read_one; cbn [fst snd]. subst l. rewrite (find_in _ _ E3). destruct IC as (ty' & rows' & C & L). subst name.
    assert (C2 : column_at ff (root ++ c) ty rows) by (apply plain_at; exact E3). destruct (column_unique _ _ _ _ _ C C2) as [<- <-].
    destruct (slice_ok rows' dflt L) as (out & Ho & Fo). rewrite Ho. cbn [rbind]. eexists. split; [reflexivity|]. split.
    + constructor; [|constructor]. intros ty2 rows2 C3 _. cbn [fst] in C3. destruct (column_unique _ _ _ _ _ C C3) as [_ <-]. exact Fo.
    + intros c' o [H|[]]. injection H as <- <-. exists out. left. reflexivity.
  - destruct (proj2 (proj2 GF) _ _ _ E2) as (_ & NDF & RL).
    assert (LR : length rows = n).
    { destruct l as [|[c o] l]; [congruence|]. pose proof (Forall_inv E3) as (f & _ & Q2 & (ty & rs & Q3 & Q4)). cbn [fst] in *. rewrite <- Q2 in Q3. inversion Q3 as [p1 t1 r1 I1 EP ET EX|p1 fs1 r1 k1 f1 t1 x1 I1 K1 F1 EP ET EX]; subst.
      - pose proof (no_child _ _ _ _ E2 I1). discriminate.
      - apply app_inj_tail in EP as [-> ->]. pose proof (same_set _ _ _ E2 I1) as Q. injection Q as -> ->. rewrite <- Q4. clear -F1. induction F1; cbn; congruence. }
    destruct (slice_ok rows [] LR) as (r & Hr & Fr).
    assert (Q : read_one dflt ff start stop step (name, l) = rall (map (fun cf : path * option nat => match snd cf with
                               | None => Err OutOfContract
                               | Some f => match field_index f fs with
                                           | Some k => Ok (fst cf, map (fun row => nth k row dflt) r)
                                           | None => Err ValueError
                                           end
                               end) l)).
    { unfold read_one; cbn [fst snd]. rewrite (find_in _ _ E2), Hr. cbn [rbind]. destruct l as [|[c o] l]; [congruence|]. pose proof (Forall_inv E3) as (f & Q1 & _). cbn [snd] in Q1. subst o. destruct l; reflexivity. }
    rewrite Q. clear Q.
    assert (FI : forall cf, In cf l -> exists f k, snd cf = Some f /\ field_index f fs = Some k /\ k < length fs /\ forall ty rs, column_at ff (root ++ fst cf) ty rs -> Forall2 (fun row x => nth_error row k = Some x) rows rs).
    { intros cf Hcf. rewrite Forall_forall in E3. destruct (E3 cf Hcf) as (f & Q1 & Q2 & (ty & rs & Q3 & Q4)). rewrite <- Q2 in Q3. inversion Q3 as [p1 t1 r1 I1 EP ET EX|p1 fs1 r1 k1 f1 t1 x1 I1 K1 F1 EP ET EX]; subst.
      - pose proof (no_child _ _ _ _ E2 I1). discriminate.
      - apply app_inj_tail in EP as [-> ->]. pose proof (same_set _ _ _ E2 I1) as Q. injection Q as -> ->. exists f, k1. split; [exact Q1|]. split; [apply (field_idx _ _ _ _ NDF K1)|]. split; [apply nth_error_Some; congruence|].
        intros ty' rs' C'. assert (C2 : column_at ff (name ++ [f]) ty' rs') by (rewrite Q2; exact C'). destruct (column_unique _ _ _ _ _ Q3 C2) as [_ <-]. exact F1. }
    destruct (rall_map_ok (fun cf : path * option nat => match snd cf with
                               | None => Err OutOfContract
                               | Some f => match field_index f fs with
                                           | Some k => Ok (fst cf, map (fun row => nth k row dflt) r)
                                           | None => Err ValueError
                                           end
                               end) l) as (parts & EP & FP).
    { intros cf Hcf. destruct (FI cf Hcf) as (f & k & Q1 & Q2 & _). rewrite Q1, Q2. eexists. reflexivity. }
    exists parts. split; [exact EP|]. split.
    + apply Forall_forall. intros cx Hcx. destruct (forall2_in _ _ _ FP cx Hcx) as (cf & Hcf & Q). destruct (FI cf Hcf) as (f & k & Q1 & Q2 & Q3 & Q4). rewrite Q1, Q2 in Q. injection Q as <-.
      intros ty rs C L. cbn [fst snd] in *. unfold rows_of. specialize (Q4 ty rs C). clear -Fr Q4 . revert Fr. generalize (py_range start stop step) as idx. intros idx Fr. induction Fr as [|i row idx r H _ IH]; cbn [map]; constructor; [|exact IH].
      destruct (forall2_nth _ _ _ Q4 _ _ H) as (y & Y1 & Y2). rewrite Y1. f_equal. symmetry. apply nth_error_nth. exact Y2.
    + intros c o Ho. destruct (forall2_in_l _ _ _ FP _ Ho) as (cx & H1 & H2). destruct (FI _ Ho) as (f & k & Q1 & Q2 & _). rewrite Q1, Q2 in H2. injection H2 as <-. eexists. exact H1.
Qed.
Lemma cget_some {B} (c : path) (l : list (path * B)) x : In (c, x) l -> exists y, cget c l = Some y /\ In (c, y) l.
Proof.
  induction l as [|[d y] l IH]; intros []; cbn [cget].
  - injection H as -> ->. rewrite path_eqb_refl. exists x. split; [reflexivity|left; reflexivity].
  - destruct (path_eqb c d) eqn:E; [apply path_eqb_eq in E as ->; exists y; split; [reflexivity|left; reflexivity]|]. destruct (IH H) as (z & Z1 & Z2). exists z. split; [exact Z1|right; exact Z2].
Qed.
Lemma size_ok : get_slice_size start stop step = Ok (range_len start stop step) /\ (0 <= range_len start stop step)%Z.
Proof.
  destruct range as (R1 & R2 & R3). split; [|apply range_len_nonneg]. apply get_slice_size_ok; lia.
Qed.
Theorem read_ok h cols : h_root h = root -> (forall c, In c cols -> In c (map fst (h_dtype h))) -> NoDup cols -> Forall is_col cols ->
  exists outs, hdf_read dflt ff h cols start stop step = Ok outs /\ Forall2 (fun c out => forall ty rows, column_at ff (root ++ c) ty rows -> rows_of rows start stop step out) cols outs.
Proof.
  intros HR HD ND HC. unfold hdf_read. rewrite HR. assert (Q : forallb (fun c => existsb (fun nt : path * nat => path_eqb c (fst nt)) (h_dtype h)) cols = true).
  { apply forallb_forall. intros c Hc. apply HD in Hc. apply in_map_iff in Hc as (nt & <- & Hc). apply existsb_exists. exists nt. split; [exact Hc|apply path_eqb_refl]. }
  rewrite Q. cbn [negb]. destruct size_ok as [S1 S2]. rewrite S1. cbn [rbind]. destruct (Z.ltb_spec (range_len start stop step) 0); [lia|].
  destruct (compile_ok cols [] HC (Forall_nil _)) as (t & E & T1 & T2); [intros c _ (? & ? & ? & [] & _)|exact ND|]. rewrite E. cbn [rbind].
  destruct (rall_map_ok (read_one dflt ff start stop step) t) as (parts & EP & FP).
  { intros nl Hn. rewrite Forall_forall in T1. destruct (read_one_ok nl (T1 nl Hn)) as (ps & Q1 & _). exists ps. exact Q1. }
  rewrite EP. cbn [rbind].
  assert (RP : forall cx, In cx (concat parts) -> right_part cx).
  { intros cx Hc. apply in_concat in Hc as (ps & P1 & P2). destruct (forall2_in _ _ _ FP ps P1) as (nl & N1 & N2). rewrite Forall_forall in T1. destruct (read_one_ok nl (T1 nl N1)) as (ps' & Q1 & Q2 & _).
    rewrite Q1 in N2. injection N2 as ->. rewrite Forall_forall in Q2. apply Q2. exact P2. }
  assert (CP : forall c, In c cols -> exists x, In (c, x) (concat parts)).
  { intros c Hc. destruct (T2 c (or_introl Hc)) as (m & l & o & M1 & M2). destruct (forall2_in_l _ _ _ FP _ M1) as (ps & P1 & P2). rewrite Forall_forall in T1. destruct (read_one_ok _ (T1 _ M1)) as (ps' & Q1 & _ & Q3).
    rewrite Q1 in P2. injection P2 as <-. destruct (Q3 c o M2) as (x & Hx). exists x. apply in_concat. exists ps'. split; assumption. }
  assert (OK : forall c, In c cols -> exists x, (match cget c (concat parts) with Some x => if (zlen x =? range_len start stop step)%Z then Ok x else Err ValueError | None => Err OutOfContract end) = Ok x /\
     forall ty rows, column_at ff (root ++ c) ty rows -> rows_of rows start stop step x).
  { intros c Hc. destruct (CP c Hc) as (x & Hx). destruct (cget_some c _ x Hx) as (y & Y1 & Y2). rewrite Y1. rewrite Forall_forall in HC. destruct (HC c Hc) as (ty & rows & C & L).
    pose proof (RP _ Y2 ty rows C L) as R. cbn [snd] in R. assert (LY : zlen y = range_len start stop step).
    { rewrite <- py_range_length. unfold zlen. f_equal. symmetry. clear -R. unfold rows_of in R. induction R; cbn; congruence. }
    rewrite LY, Z.eqb_refl. exists y. split; [reflexivity|]. intros ty' rows' C'. destruct (column_unique _ _ _ _ _ C C') as [_ <-]. exact R. }
  clear -OK. induction cols as [|c cols IH]; [exists []; split; [reflexivity|constructor]|]. destruct (OK c (or_introl eq_refl)) as (x & X1 & X2). destruct IH as (xs & E1 & E2). { intros d Hd. apply OK. right. exact Hd. }
  exists (x :: xs). split; [|constructor; assumption]. cbn [map rall]. rewrite X1. cbn [rbind]. rewrite E1. reflexivity.
Qed.
End Hdf.
