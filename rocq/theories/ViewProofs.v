From Verif Require Import Base BaseProofs IoModel IoSpec IoProofs ViewModel ViewSpec.
Local Open Scope nat_scope.

Lemma fall2_len {X Y} (P : X -> Y -> Prop) l l' : Forall2 P l l' -> length l = length l'.
Proof. induction 1; cbn; congruence. Qed.
Lemma fall2_imp {X Y} (P Q : X -> Y -> Prop) l l' : (forall x y, In x l -> In y l' -> P x y -> Q x y) -> Forall2 P l l' -> Forall2 Q l l'.
Proof. intros H F. induction F; constructor; [apply H; [left; reflexivity|left; reflexivity|assumption]|apply IHF; intros; apply H; [right; assumption|right; assumption|assumption]]. Qed.
Lemma fall2_nth {X Y} (P : X -> Y -> Prop) l l' i x : Forall2 P l l' -> nth_error l i = Some x -> exists y, nth_error l' i = Some y /\ P x y.
Proof. intros F. revert i. induction F as [|a b l l' H _ IH]; intros [|i] E; try discriminate; cbn in *; [exists b; split; [reflexivity|congruence]|apply IH; exact E]. Qed.
Lemma rall_map_f2 {X Y} (f : X -> res Y) l l' : Forall2 (fun x y => f x = Ok y) l l' -> rall (map f l) = Ok l'.
Proof. induction 1 as [|x y l l' H _ IH]; [reflexivity|]. cbn [map rall]. rewrite H, IH. reflexivity. Qed.
Lemma chunk_concat {A} k (l : list (list A)) : Forall (fun r => length r = k) l -> chunk (length l) k (concat l) = l.
Proof.
  induction 1 as [|r l H _ IH]; [reflexivity|]. subst k. cbn [length chunk concat]. rewrite firstn_app, Nat.sub_diag, firstn_all, firstn_O, app_nil_r. rewrite skipn_app, skipn_all, Nat.sub_diag. cbn [app skipn]. rewrite IH. reflexivity.
Qed.
Lemma concat_len {A} k (l : list (list A)) : Forall (fun r => length r = k) l -> length (concat l) = length l * k.
Proof. induction 1 as [|r l H _ IH]; [reflexivity|]. cbn [concat length]. rewrite app_length, IH, H. lia. Qed.
Lemma reshape2_ok {A} k (l : list (list A)) : 0 < k -> Forall (fun r => length r = k) l -> reshape2 k (concat l) = Ok (Arr2 k l).
Proof.
  intros Hk H. unfold reshape2. rewrite (proj2 (Nat.eqb_neq k 0)) by lia. rewrite (concat_len k l H), Nat.mod_mul by lia. cbn [Nat.eqb]. rewrite Nat.div_mul by lia. rewrite (chunk_concat k l H). reflexivity.
Qed.
Lemma concat_concat {A} (l : list (list (list A))) : concat (concat l) = concat (map (@concat A) l).
Proof. induction l as [|x l IH]; [reflexivity|]. cbn [concat map]. rewrite concat_app, IH. reflexivity. Qed.
Lemma masked_map {A B} (f : A -> B) l m : masked (map f l) m = map f (masked l m).
Proof. unfold masked. revert m. induction l as [|x l IH]; intros [|b m]; try reflexivity. cbn [map combine filter snd]. destruct b; cbn [map fst]; rewrite IH; reflexivity. Qed.
Lemma masked_in {A} (l : list A) m x : In x (masked l m) -> In x l.
Proof. unfold masked. intros H. apply in_map_iff in H as ([y b] & <- & H). apply filter_In in H as [H _]. apply in_combine_l in H. exact H. Qed.
Lemma range_split a b c : (a <= b <= c)%Z -> py_range a b 1 ++ py_range b c 1 = py_range a c 1.
Proof.
  intros H. assert (L : forall x y, (x <= y)%Z -> range_len x y 1 = (y - x)%Z) by (intros x y ?; unfold range_len; cbn; destruct (Z.ltb_spec x y); rewrite ?Z.div_1_r; lia).
  unfold py_range. rewrite !L by lia. replace (Z.to_nat (c - a)) with (Z.to_nat (b - a) + Z.to_nat (c - b)) by lia. rewrite seq_app, map_app. f_equal. rewrite Nat.add_0_l.
  rewrite <- (Nat.add_0_r (Z.to_nat (b - a))) at 1. generalize 0 as s. generalize (Z.to_nat (c - b)) as k. induction k as [|k IH]; intros s; [reflexivity|]. cbn [seq map]. f_equal; [lia|]. rewrite plus_n_Sm. apply IH.
Qed.
Lemma range_empty a b : (b <= a)%Z -> py_range a b 1 = [].
Proof. intros H. unfold py_range, range_len. cbn. destruct (Z.ltb_spec a b); [lia|]. reflexivity. Qed.
Lemma blocks_cover n bs : 0 < bs -> concat (map (fun ab => py_range (fst ab) (snd ab) 1) (blocks n bs)) = py_range 0 (Z.of_nat n) 1 /\ Forall (fun ab => (0 <= fst ab <= snd ab)%Z /\ (snd ab <= Z.of_nat n)%Z) (blocks n bs).
Proof.
  intros Hb. unfold blocks. destruct (Nat.eqb_spec n 0) as [->|Hn].
  { split; [reflexivity|]. repeat constructor; cbn; lia. }
  set (N := Z.of_nat n). set (B := Z.of_nat bs). assert (RL : range_len 0 N B = ((N - 0 - 1) / B + 1)%Z).
  { unfold range_len. destruct (Z.ltb_spec 0 B); [|lia]. destruct (Z.ltb_spec 0 N); [reflexivity|lia]. }
  split.
  - rewrite map_map. cbn [fst snd]. unfold py_range at 2. rewrite map_map. cbn.
    assert (P : forall j, concat (map (fun x => py_range (Z.of_nat x * B) (Z.min (Z.of_nat x * B + B) N) 1) (seq 0 j)) = py_range 0 (Z.min (Z.of_nat j * B) N) 1).
    { induction j as [|j IH]; [cbn [seq map concat]; symmetry; apply range_empty; lia|]. rewrite seq_S, map_app, concat_app, IH. cbn [map concat]. rewrite app_nil_r, Nat.add_0_l.
      destruct (Z.le_gt_cases (Z.of_nat j * B) N) as [H|H].
      - rewrite (Z.min_l _ _ H). rewrite range_split by nia. f_equal. nia.
      - rewrite (range_empty (Z.of_nat j * B)) by lia. rewrite app_nil_r. f_equal. nia. }
    rewrite P. f_equal. rewrite Z2Nat.id by (rewrite RL; assert (0 <= (N - 0 - 1) / B)%Z by (apply Z.div_pos; lia); lia). rewrite RL.
    assert (0 < B)%Z by lia. pose proof (Z.div_mod (N - 0 - 1) B ltac:(lia)). pose proof (Z.mod_pos_bound (N - 0 - 1) B ltac:(lia)). nia.
  - apply Forall_map. cbn [fst snd]. apply Forall_forall. intros a Ha. apply in_py_range_pos in Ha; lia.
Qed.
Lemma select_all_rows {A} (l : list A) : select l (py_range 0 (zlen l) 1) = l.
Proof. pose proof (zlen_nonneg l). rewrite <- sub_select by lia. unfold sub. rewrite Z.sub_0_r. cbn [Z.to_nat skipn]. unfold zlen. rewrite Nat2Z.id. apply firstn_all. Qed.
Lemma slice_some a b n : (0 <= a <= b)%Z -> (b <= n)%Z -> slice_indices (Some a) (Some b) (Some 1%Z) n = Ok (a, b, 1%Z).
Proof. intros H H'. unfold slice_indices. cbn. unfold clip_start. destruct (Z.ltb_spec a 0); [lia|]. destruct (Z.ltb_spec b 0); [lia|]. do 2 f_equal. f_equal; lia. Qed.

Section V.
Context {A : Type}.
Variable tab : table (A := A).
Variable n : nat.
Hypothesis GT : good_table tab n.
Variable read : list nat -> Z -> Z -> Z -> res (list (list (list A))).
Hypothesis RD : reads_table tab n read.

Lemma entry_unique c i x y : entry tab c i x -> entry tab c i y -> x = y.
Proof.
  intros (f & cells & H1 & H2 & _ & H3) (f' & cells' & H1' & H2' & _ & H3'). assert (Q : (f, cells) = (f', cells')); [|congruence].
  destruct GT as (ND & _). revert ND H1 H1'. unfold names. clear -H2 H2'. induction tab as [|[g d] t IH]; intros ND H1 H1'; [contradiction|]. cbn [map fst] in ND. apply NoDup_cons_iff in ND as [N1 N2].
  destruct H1 as [E|H1]; destruct H1' as [E'|H1']; [congruence| | |apply IH; assumption]; exfalso; apply N1.
  - injection E as -> ->. apply in_map_iff. exists (f', cells'). split; [cbn; congruence|exact H1'].
  - injection E' as -> ->. apply in_map_iff. exists (f, cells). split; [cbn; congruence|exact H1].
Qed.
Lemma entry_ex c i : In c (names tab) -> (0 <= i < Z.of_nat n)%Z -> exists cell, entry tab c i cell.
Proof.
  intros H Hi. unfold names in H. apply in_map_iff in H as ([f cells] & <- & H). cbn [fst]. destruct (nth_error cells (Z.to_nat i)) as [x|] eqn:E.
  - exists x, f, cells. repeat split; auto. lia.
  - apply nth_error_None in E. destruct (proj2 GT _ _ H) as [L _]. lia.
Qed.
Lemma row_ex ks i : incl ks (names tab) -> (0 <= i < Z.of_nat n)%Z -> exists row, Forall2 (fun c cell => entry tab c i cell) ks row.
Proof.
  intros H Hi. induction ks as [|c ks IH]; [exists []; constructor|]. destruct IH as [row F]; [intros x Hx; apply H; right; exact Hx|]. destruct (entry_ex c i (H c (or_introl eq_refl)) Hi) as [cell E]. exists (cell :: row). constructor; assumption.
Qed.
Lemma rows_ex ks l : incl ks (names tab) -> Forall (fun i => (0 <= i < Z.of_nat n)%Z) l -> exists rows, Forall2 (fun i row => Forall2 (fun c cell => entry tab c i cell) ks row) l rows.
Proof. intros H. induction 1 as [|i l Hi _ (rows & F)]; [exists []; constructor|]. destruct (row_ex ks i H Hi) as [row E]. exists (row :: rows). constructor; assumption. Qed.
Lemma row_unique ks i x y : Forall2 (fun c cell => entry tab c i cell) ks x -> Forall2 (fun c cell => entry tab c i cell) ks y -> x = y.
Proof. intros H. revert y. induction H as [|c cell ks x E _ IH]; intros y Hy; inversion Hy as [|? ? ? ? E' F']; subst; [reflexivity|]. f_equal; [apply (entry_unique c i); assumption|apply IH; assumption]. Qed.

Definition rowsat ks ix rows := Forall2 (fun i row => Forall2 (fun c cell => entry tab c i cell) ks row) ix rows.
Lemma reader ks s ix : ks <> [] -> NoDup ks -> incl ks (names tab) -> selects n s ix -> exists rows, getitem_rows (read ks) (Z.of_nat n) s = Ok rows /\ rowsat ks ix rows.
Proof.
  intros H1 H2 H3 HS. destruct (rows_ex ks (map Z.of_nat (seq 0 n)) H3) as (R & FR).
  { apply Forall_forall. intros i Hi. apply in_map_iff in Hi as (k & <- & Hk). apply in_seq in Hk. lia. }
  assert (LR : zlen R = Z.of_nat n) by (unfold zlen; rewrite <- (fall2_len _ _ _ FR), map_length, seq_length; reflexivity).
  assert (NR : forall i row, (0 <= i)%Z -> nth_error R (Z.to_nat i) = Some row -> Forall2 (fun c cell => entry tab c i cell) ks row).
  { intros i row Hi E. assert (B : Z.to_nat i < n) by (apply (f_equal (fun o => match o with Some _ => true | None => false end)) in E; assert (Z.to_nat i < length R) by (apply nth_error_Some; destruct (nth_error R (Z.to_nat i)); congruence); unfold zlen in LR; lia).
    destruct (fall2_nth _ _ _ (Z.to_nat i) i FR) as (row' & E' & P); [|congruence]. rewrite nth_error_map. rewrite (nth_error_nth' (seq 0 n) 0) by (rewrite seq_length; exact B). rewrite seq_nth by exact B. cbn. f_equal. lia. }
  assert (RS : reads_slices R (read ks)).
  { intros a b st Ha Hb Hst. rewrite LR in Hb. destruct (RD ks H1 H2 H3 a b st Ha Hb Hst) as (out & E & F). exists out. split; [exact E|]. unfold rows_at. eapply fall2_imp; [|exact F]. intros i row Hi _ P. apply in_py_range_pos in Hi; [|lia]. split; [lia|].
    destruct (nth_error R (Z.to_nat i)) as [row'|] eqn:E'; [|apply nth_error_None in E'; unfold zlen in LR; lia]. f_equal. apply (row_unique ks i); [apply NR; [lia|exact E']|exact P]. }
  assert (FIN : forall l rows, rows_at R l rows -> rowsat ks l rows) by (intros l rows F; eapply fall2_imp; [|exact F]; intros i row _ _ [P Q]; apply NR; assumption).
  destruct HS as [i Hi|a b st x y z E Hz Hxy|m Lm Hm|l Hl Fl].
  - rewrite <- LR in Hi |- *. destruct (getitem_int_ok R (read ks) i RS Hi) as (x & E & Nx). exists [x]. split; [exact E|]. constructor; [|constructor]. apply NR; [unfold from_end; destruct (Z.ltb_spec i 0); lia|exact Nx].
  - cbn [getitem_rows]. rewrite E. cbn [rbind]. pose proof (slice_indices_spec a b st (Z.of_nat n) x y z (Zle_0_nat n) E) as (_ & Hp & _). specialize (Hp Hz). destruct (RS x y z) as (out & E' & F); [lia|lia|lia|]. exists out. split; [exact E'|apply FIN; exact F].
  - assert (Lz : zlen m = zlen R) by (unfold zlen in *; lia). pose proof (getitem_mask_ok R (read ks) m RS Lz Hm) as E. rewrite LR in E. exists (masked R m). split; [exact E|]. unfold rowsat. clear -FR. revert m. induction FR as [|i row l R' P F IH]; intros m; [destruct m; constructor|]. destruct m as [|b m]; [constructor|].
    unfold masked in *. cbn [combine filter snd]. destruct b; cbn [map fst]; [constructor; [exact P|apply IH]|apply IH].
  - rewrite <- LR in Fl |- *. destruct (getitem_ints_ok R (read ks) l RS Hl Fl) as (out & E & F). exists out. split; [exact E|apply FIN; exact F].
Qed.

(* the views *)
Definition isview (v : view) (cs : list nat) : Prop := exists fs, v = whole fs n /\ map f_name fs = cs /\ (forall f, In f fs -> exists cells, In (f, cells) tab) /\ NoDup cs /\ incl cs (names tab) /\ cs <> [].
Lemma dup_false l : NoDup l -> dup l = false.
Proof. induction 1 as [|x l H _ IH]; [reflexivity|]. cbn [dup]. rewrite IH, orb_false_r. destruct (existsb (Nat.eqb x) l) eqn:E; [|reflexivity]. apply existsb_exists in E as (y & Hy & E). apply Nat.eqb_eq in E as ->. contradiction. Qed.
Lemma field_ok c fs : In c (map f_name fs) -> exists f, field c fs = Ok f /\ In f fs /\ f_name f = c.
Proof.
  induction fs as [|f fs IH]; intros H; [destruct H|]. cbn [field]. destruct (Nat.eqb_spec (f_name f) c) as [E|E]; [exists f; auto with datatypes|]. destruct H as [H|H]; [congruence|]. destruct (IH H) as (g & Q & G & E'). exists g. auto with datatypes.
Qed.
Lemma fields_ok fs cs : incl cs (map f_name fs) -> exists gs, rall (map (fun c => field c fs) cs) = Ok gs /\ map f_name gs = cs /\ incl gs fs.
Proof.
  induction cs as [|c cs IH]; intros H; [exists []; repeat split; intros x []|]. destruct (field_ok c fs (H c (or_introl eq_refl))) as (f & E & F & N). destruct IH as (gs & E' & N' & I'); [intros x Hx; apply H; right; exact Hx|].
  exists (f :: gs). cbn [map rall]. rewrite E. cbn [rbind]. rewrite E'. cbn [rbind]. split; [reflexivity|]. split; [cbn [map]; congruence|]. intros x [<-|Hx]; [exact F|apply I'; exact Hx].
Qed.
Lemma select_ok v cs ds : isview v cs -> ds <> [] -> NoDup ds -> incl ds cs -> exists w, select_cols v ds = Ok w /\ isview w ds.
Proof.
  intros (fs & -> & <- & H1 & H2 & H3 & H4) D1 D2 D3. destruct (fields_ok fs ds D3) as (gs & E & N & I). unfold select_cols. destruct ds as [|d ds']; [congruence|]. set (ds := d :: ds') in *. cbn [v_dtype whole]. unfold keys. cbn [v_cols v_dtype whole rbind v_size].
  assert (F : forallb (fun c => existsb (Nat.eqb c) (map f_name fs)) ds = true) by (apply forallb_forall; intros c Hc; apply existsb_exists; exists c; split; [apply D3; exact Hc|apply Nat.eqb_refl]).
  rewrite F. cbn [negb]. rewrite E. cbn [rbind]. rewrite (dup_false ds D2). eexists. split; [reflexivity|]. exists gs. split; [reflexivity|]. split; [exact N|]. split; [intros f Hf; apply H1, I; exact Hf|]. split; [exact D2|]. split; [intros c Hc; apply H3, D3; exact Hc|exact D1].
Qed.
Lemma select_all_ok css v cs : isview v cs -> chain cs css -> exists w, select_all v css = Ok w /\ isview w (last css cs).
Proof.
  revert v cs. induction css as [|ds css IH]; intros v cs H C; [exists v; auto|]. cbn [chain] in C. destruct C as (C1 & C2 & C3 & C4). destruct (select_ok v cs ds H C1 C2 C3) as (w & E & W). cbn [select_all]. rewrite E. cbn [rbind]. destruct (IH w ds W C4) as (u & E' & U). exists u. split; [exact E'|].
  destruct css as [|es css]; [exact U|]. replace (last (ds :: es :: css) cs) with (last (es :: css) ds); [exact U|]. clear. revert es. induction css as [|x css IH]; intros es; [reflexivity|]. change (last (x :: css) ds = last (ds :: x :: css) cs). apply IH.
Qed.
Lemma whole_view : names tab <> [] -> isview (whole (map fst tab) n) (names tab).
Proof.
  intros H. exists (map fst tab). split; [reflexivity|]. split; [unfold names; rewrite map_map; reflexivity|]. split; [|split; [apply GT|split; [intros x Hx; exact Hx|exact H]]]. intros f Hf. apply in_map_iff in Hf as ([g cells] & <- & Hf). exists cells. exact Hf.
Qed.
Lemma view_of_ok css cs v : view_of tab n css cs v -> isview v cs.
Proof.
  intros (H1 & H2 & ->). assert (N : names tab <> []). { destruct css as [|ds css]; [exact H1|]. destruct H1 as (D1 & _ & D3 & _). intros E. rewrite E in D3. destruct ds as [|d ds]; [congruence|]. apply (D3 d). left. reflexivity. }
  destruct (select_all_ok css _ _ (whole_view N) H1) as (w & E & W). congruence.
Qed.
Theorem view_ex css : chain (names tab) css -> exists v, view_of tab n css (last css (names tab)) v.
Proof.
  intros H1. assert (N : names tab <> []). { destruct css as [|ds css]; [exact H1|]. destruct H1 as (D1 & _ & D3 & _). intros E. rewrite E in D3. destruct ds as [|d ds]; [congruence|]. apply (D3 d). left. reflexivity. }
  destruct (select_all_ok css _ _ (whole_view N) H1) as (w & E & W). exists w. split; [exact H1|]. split; [exact E|reflexivity].
Qed.
Theorem records_ok css cs v s ix : view_of tab n css cs v -> selects n s ix -> exists rows, getitem read v (Rows s) = Ok (Records cs rows) /\ Forall2 (fun i row => Forall2 (fun c cell => entry tab c i cell) cs row) ix rows.
Proof.
  intros HV HS. destruct (view_of_ok _ _ _ HV) as (fs & -> & <- & H1 & H2 & H3 & H4). destruct (reader _ s ix H4 H2 H3 HS) as (rows & E & F). exists rows. split; [|exact F]. unfold getitem. cbn [rbind fst snd]. unfold keys. cbn [v_cols v_dtype whole rbind v_size]. rewrite E. reflexivity.
Qed.
Lemma type_of f c base sub : (exists cells, In (f, cells) tab) -> f_name f = c -> has_type tab c base sub -> f_base f = base /\ f_sub f = sub.
Proof.
  intros (cells & H) E (g & cells' & H' & E' & B & S'). assert (Q : (f, cells) = (g, cells')); [|split; congruence].
  destruct GT as (ND & _). revert ND H H'. unfold names. clear -E E'. induction tab as [|[x d] t IH]; intros ND H1 H1'; [contradiction|]. cbn [map fst] in ND. apply NoDup_cons_iff in ND as [N1 N2].
  destruct H1 as [E1|H1]; destruct H1' as [E2|H1']; [congruence| | |apply IH; assumption]; exfalso; apply N1.
  - injection E1 as -> ->. apply in_map_iff. exists (g, cells'). split; [cbn; congruence|exact H1'].
  - injection E2 as -> ->. apply in_map_iff. exists (f, cells). split; [cbn; congruence|exact H1].
Qed.
Lemma entry_len c i cell base sub : entry tab c i cell -> has_type tab c base sub -> length cell = fold_right Nat.mul 1 sub.
Proof.
  intros (f & cells & H1 & H2 & _ & H3) T. destruct (type_of f c base sub (ex_intro _ cells H1) H2 T) as [_ <-]. destruct (proj2 GT _ _ H1) as [_ F]. rewrite Forall_forall in F. apply F. apply nth_error_In in H3. exact H3.
Qed.
(* scalars: several columns next to each other *)
Definition scalars cs ix rows := Forall2 (fun i row => Forall2 (fun c x => entry tab c i [x]) cs row) ix rows.
Lemma row_scalars base cs i row : (forall c, In c cs -> has_type tab c base []) -> Forall2 (fun c cell => entry tab c i cell) cs row -> Forall2 (fun c x => entry tab c i [x]) cs (concat row) /\ length (concat row) = length cs.
Proof.
  intros HT. induction 1 as [|c cell cs row E _ IH]; [split; [constructor|reflexivity]|]. destruct IH as [IH1 IH2]; [intros; apply HT; right; assumption|]. pose proof (entry_len c i cell base [] E (HT c (or_introl eq_refl))) as L. cbn in L. destruct cell as [|x [|y cell]]; try discriminate. cbn [concat app length]. split; [constructor; assumption|congruence].
Qed.
Lemma rows_scalars base cs ix rows : (forall c, In c cs -> has_type tab c base []) -> rowsat cs ix rows -> scalars cs ix (map (@concat A) rows) /\ Forall (fun r => length r = length cs) (map (@concat A) rows).
Proof.
  intros HT. induction 1 as [|i row ix rows E _ [IH1 IH2]]; [split; constructor|]. destruct (row_scalars base cs i row HT E) as [P Q]. cbn [map]. split; constructor; assumption.
Qed.
Definition arrview base cs sh := {| v_dtype := Base base; v_cols := Some cs; v_shape := Some (n :: sh); v_size := n |}.
Lemma asarray_ok v cs base : isview v cs -> (forall c, In c cs -> has_type tab c base []) -> asarray v = Ok (arrview base cs (if length cs =? 1 then [] else [length cs])).
Proof.
  intros (fs & -> & <- & H1 & H2 & H3 & H4) HT. destruct fs as [|f0 fs]; [cbn in H4; congruence|].
  assert (TY : forall f, In f (f0 :: fs) -> f_base f = base /\ f_sub f = []) by (intros f Hf; apply (type_of f (f_name f) base [] (H1 f Hf) eq_refl); apply HT; apply in_map; exact Hf).
  unfold asarray. cbn [v_dtype whole]. assert (X1 : existsb (fun f => negb (eqb_list (f_sub f) [])) (f0 :: fs) = false).
  { destruct (existsb _ _) eqn:E; [|reflexivity]. apply existsb_exists in E as (f & Hf & E). rewrite (proj2 (TY f Hf)) in E. discriminate. }
  assert (X2 : existsb (fun f => negb (f_base f =? f_base f0)) (f0 :: fs) = false).
  { destruct (existsb (fun f => negb (f_base f =? f_base f0)) (f0 :: fs)) eqn:E; [|reflexivity]. apply existsb_exists in E as (f & Hf & E). rewrite (proj1 (TY f Hf)), (proj1 (TY f0 (or_introl eq_refl))), Nat.eqb_refl in E. discriminate. }
  rewrite X1, X2, andb_false_r. unfold keys. cbn [v_cols v_dtype whole rbind v_size]. destruct (TY f0 (or_introl eq_refl)) as [-> ->]. rewrite map_length. reflexivity.
Qed.
Lemma arr_rows base cs sh s ix : cs <> [] -> NoDup cs -> incl cs (names tab) -> selects n s ix -> exists rows, rowsat cs ix rows /\ keys (arrview base cs sh) = Ok cs /\ getitem_rows (read cs) (Z.of_nat (v_size (arrview base cs sh))) s = Ok rows.
Proof. intros H1 H2 H3 HS. destruct (reader cs s ix H1 H2 H3 HS) as (rows & E & F). exists rows. auto. Qed.
Lemma at_ok (l : list A) j x : nth_error l j = Some x -> at_ l (Z.of_nat j) = Ok x.
Proof.
  intros E. unfold at_. destruct (Z.ltb_spec (Z.of_nat j) 0); [lia|]. cbv zeta. assert (j < length l) by (apply nth_error_Some; congruence). unfold zlen. destruct (Z.leb_spec 0 (Z.of_nat j)); [|lia]. destruct (Z.ltb_spec (Z.of_nat j) (Z.of_nat (length l))); [|lia]. cbn [andb]. rewrite Nat2Z.id, E. reflexivity.
Qed.
Theorem array_ok css cs v base : view_of tab n css cs v -> 1 < length cs -> (forall c, In c cs -> has_type tab c base []) ->
  exists w, asarray v = Ok w /\ shape w = [n; length cs] /\ keys w = Ok cs /\
    forall s ix, selects n s ix -> exists rows, getitem read w (Rows s) = Ok (Arr2 (length cs) rows) /\ Forall2 (fun i row => Forall2 (fun c x => entry tab c i [x]) cs row) ix rows /\
      (forall j c, nth_error cs j = Some c -> exists l, getitem read w (Tup2 s (AInt (Z.of_nat j))) = Ok (Arr1 l) /\ Forall2 (fun i x => entry tab c i [x]) ix l) /\
      (forall ds, Forall (fun j => (0 <= j < Z.of_nat (length cs))%Z) ds -> exists sub, getitem read w (Tup2 s (AInts ds)) = Ok (Arr2 (length ds) sub) /\
         Forall2 (fun i row => Forall2 (fun j x => exists c, nth_error cs (Z.to_nat j) = Some c /\ entry tab c i [x]) ds row) ix sub).
Proof.
  intros HV HL HT. pose proof (view_of_ok _ _ _ HV) as IV. exists (arrview base cs [length cs]). split.
  { rewrite (asarray_ok v cs base IV HT). destruct (Nat.eqb_spec (length cs) 1); [lia|reflexivity]. }
  split; [reflexivity|]. split; [reflexivity|]. intros s ix HS. destruct IV as (fs & _ & _ & _ & ND & IN & NE). destruct (arr_rows base cs [length cs] s ix NE ND IN HS) as (rows & F & K & G).
  destruct (rows_scalars base cs ix rows HT F) as [F1 F2]. exists (map (@concat A) rows).
  assert (R : reshape2 (length cs) (concat (concat rows)) = Ok (Arr2 (length cs) (map (@concat A) rows))) by (rewrite concat_concat; apply reshape2_ok; [lia|exact F2]).
  assert (AR : forall row j i c, Forall2 (fun c x => entry tab c i [x]) cs row -> nth_error cs j = Some c -> exists x, at_ row (Z.of_nat j) = Ok x /\ entry tab c i [x]).
  { intros row j i c F' E. destruct (fall2_nth _ _ _ j c F' E) as (x & Ex & P). exists x. split; [apply at_ok; exact Ex|exact P]. }
  split; [|split; [exact F1|split]].
  - unfold getitem. cbn [rbind fst snd]. rewrite K. cbn [rbind]. rewrite G. cbn [rbind arrview v_dtype shape v_shape]. rewrite R. reflexivity.
  - intros j c Ej. assert (Hj : j < length cs) by (apply nth_error_Some; congruence).
    assert (CL : exists l, Forall2 (fun r x => at_ r (Z.of_nat j) = Ok x) (map (@concat A) rows) l /\ Forall2 (fun i x => entry tab c i [x]) ix l).
    { clear -F1 AR Ej. unfold scalars in F1. induction F1 as [|i row ix' rows' P _ (l & L1 & L2)]; [exists []; split; constructor|]. destruct (AR row j i c P Ej) as (x & E & Q). exists (x :: l). split; constructor; assumption. }
    destruct CL as (l & L1 & L2). exists l. split; [|exact L2]. unfold getitem. cbn [shape v_shape arrview length Nat.ltb Nat.leb rbind fst snd]. change {| v_dtype := _; v_cols := _; v_shape := _; v_size := _ |} with (arrview base cs [length cs]). rewrite K. cbn [rbind]. rewrite G. cbn [rbind arrview v_dtype shape v_shape]. rewrite R. cbn [rbind second].
    destruct (Z.leb_spec (- Z.of_nat (length cs)) (Z.of_nat j)); [|lia]. destruct (Z.ltb_spec (Z.of_nat j) (Z.of_nat (length cs))); [|lia]. cbn [andb]. rewrite (rall_map_f2 _ _ _ L1). reflexivity.
  - intros ds HD. assert (CL : exists sub, Forall2 (fun r x => rall (map (at_ r) ds) = Ok x) (map (@concat A) rows) sub /\ Forall2 (fun i row => Forall2 (fun j x => exists c, nth_error cs (Z.to_nat j) = Some c /\ entry tab c i [x]) ds row) ix sub).
    { clear -F1 AR HD. unfold scalars in F1. induction F1 as [|i row ix' rows' P _ (l & L1 & L2)]; [exists []; split; constructor|].
      assert (RX : exists x, rall (map (at_ row) ds) = Ok x /\ Forall2 (fun j x => exists c, nth_error cs (Z.to_nat j) = Some c /\ entry tab c i [x]) ds x).
      { clear -P AR HD. induction HD as [|j ds Hj _ (x & E & F)]; [exists []; split; [reflexivity|constructor]|]. destruct (nth_error cs (Z.to_nat j)) as [c|] eqn:Ec; [|apply nth_error_None in Ec; lia]. destruct (AR row (Z.to_nat j) i c P Ec) as (y & E' & Q). rewrite Z2Nat.id in E' by lia. exists (y :: x). cbn [map rall]. rewrite E'. cbn [rbind]. rewrite E. split; [reflexivity|]. constructor; [exists c; auto|exact F]. }
      destruct RX as (x & E & F). exists (x :: l). split; constructor; assumption. }
    destruct CL as (l & L1 & L2). exists l. split; [|exact L2]. unfold getitem. cbn [shape v_shape arrview length Nat.ltb Nat.leb rbind fst snd]. change {| v_dtype := _; v_cols := _; v_shape := _; v_size := _ |} with (arrview base cs [length cs]). rewrite K. cbn [rbind]. rewrite G. cbn [rbind arrview v_dtype shape v_shape]. rewrite R. cbn [rbind second].
    assert (FB : forallb (fun i => (- Z.of_nat (length cs) <=? i) && (i <? Z.of_nat (length cs)))%Z ds = true). { apply forallb_forall. intros j Hj. rewrite Forall_forall in HD. specialize (HD j Hj). destruct (Z.leb_spec (- Z.of_nat (length cs)) j); [|lia]. destruct (Z.ltb_spec j (Z.of_nat (length cs))); [reflexivity|lia]. }
    rewrite FB. rewrite (rall_map_f2 _ _ _ L1). reflexivity.
Qed.
End V.
