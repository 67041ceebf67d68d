From Verif Require Import Base BaseProofs IoModel IoSpec IoProofs ViewModel ViewSpec ViewProofs.
Local Open Scope nat_scope.

Section D.
Context {A : Type}.
Variable tab : table (A := A).
Variable n : nat.
Hypothesis GT : good_table tab n.
Variable read : list nat -> Z -> Z -> Z -> res (list (list (list A))).
Hypothesis RD : reads_table tab n read.
Variable css : list (list nat).
Variable cs : list nat.
Variable v : view.
Hypothesis HV : view_of tab n css cs v.
Variable c : nat.
Hypothesis HC : In c cs.

Lemma name_view base sub : has_type tab c base sub -> exists w, getitem_name v c = Ok w /\ w = arrview n base [c] sub /\ incl [c] (names tab).
Proof.
  intros T. destruct (select_ok tab n v cs [c] (view_of_ok tab n GT _ _ _ HV)) as (w & E & (fs & -> & M & P & _ & I & _)); [discriminate|constructor; [intros []|constructor]|intros x [<-|[]]; exact HC|].
  exists (arrview n base [c] sub). split; [|split; [reflexivity|exact I]]. unfold getitem_name. rewrite E. cbn [rbind]. destruct fs as [|f [|g fs]]; cbn [map] in M; try discriminate. injection M as M. destruct (type_of tab n GT f c base sub (P f (or_introl eq_refl)) M T) as [B S'].
  unfold asarray. cbn [v_dtype whole length Nat.ltb Nat.leb andb existsb]. rewrite Nat.eqb_refl. cbn [negb orb]. unfold keys. cbn [v_cols v_dtype whole rbind map Nat.eqb v_size]. rewrite B, S', M. reflexivity.
Qed.
Lemma one_rows s ix base sub : has_type tab c base sub -> selects n s ix -> incl [c] (names tab) -> exists cells, getitem_rows (read [c]) (Z.of_nat n) s = Ok (map (fun x => [x]) cells) /\ Forall2 (fun i cell => entry tab c i cell) ix cells /\ Forall (fun cell => length cell = fold_right Nat.mul 1 sub) cells.
Proof.
  intros T HS I. destruct (reader tab n GT read RD [c] s ix) as (rows & E & F); [discriminate|constructor; [intros []|constructor]|exact I|exact HS|].
  assert (Q : exists cells, rows = map (fun x => [x]) cells /\ Forall2 (fun i cell => entry tab c i cell) ix cells /\ Forall (fun cell => length cell = fold_right Nat.mul 1 sub) cells).
  { clear E HS. unfold rowsat in F. induction F as [|i row ix' rows' P _ (cells & -> & F1 & F2)]; [exists []; split; [reflexivity|split; constructor]|]. inversion P as [|a cell b row' P1 P2]; subst. inversion P2; subst. exists (cell :: cells). split; [reflexivity|]. split; [constructor; assumption|]. constructor; [apply (entry_len tab n GT c i cell base sub P1 T)|assumption]. }
  destruct Q as (cells & -> & F1 & F2). exists cells. auto.
Qed.
Lemma concat_single {X} (l : list X) : concat (map (fun x => [x]) l) = l.
Proof. induction l as [|x l IH]; [reflexivity|]. cbn. rewrite IH. reflexivity. Qed.
(* a column of numbers *)
Definition item (s : row_index) (i : idx) : Prop := i = Rows s \/ i = Tup1 s.
Theorem column_ok base : has_type tab c base [] -> exists w, getitem_name v c = Ok w /\ shape w = [n] /\
  forall s ix i, selects n s ix -> item s i -> exists l, getitem read w i = Ok (Arr1 l) /\ Forall2 (fun i x => entry tab c i [x]) ix l.
Proof.
  intros T. destruct (name_view base [] T) as (w & E & W & I). exists w. split; [exact E|]. rewrite W in *. clear W E. split; [reflexivity|]. intros s ix i HS HI. destruct (one_rows s ix base [] T HS I) as (cells & E & F1 & F2).
  exists (concat cells). split.
  - assert (G : forall s', (let! ks := Ok [c] in let! rows := getitem_rows (read ks) (Z.of_nat n) s in let! o := (Ok (Arr1 (concat (concat rows)))) in match s' with None => Ok o | Some j => second o j end) = match s' with None => Ok (Arr1 (concat cells)) | Some j => second (Arr1 (concat cells)) j end).
    { intros s'. cbn [rbind]. rewrite E. cbn [rbind]. rewrite concat_single. reflexivity. }
    destruct HI as [-> | ->]; unfold getitem; cbn [rbind fst snd shape v_shape arrview length Nat.ltb Nat.leb]; exact (G None).
  - clear -F1 F2. induction F1 as [|i cell ix cells P _ IH]; [constructor|]. inversion F2 as [|a b L F']; subst. cbn in L. destruct cell as [|x [|y cell]]; try discriminate. cbn [concat app]. constructor; [exact P|apply IH; exact F'].
Qed.
(* a column of vectors *)
Theorem vector_ok base k : has_type tab c base [k] -> 0 < k -> exists w, getitem_name v c = Ok w /\ shape w = [n; k] /\
  forall s ix, selects n s ix -> exists rows, Forall2 (fun i row => entry tab c i row) ix rows /\ Forall (fun row => length row = k) rows /\
    (forall i, item s i -> getitem read w i = Ok (Arr2 k rows)) /\ (forall j, getitem read w (Tup2 s j) = second (Arr2 k rows) j).
Proof.
  intros T Hk. destruct (name_view base [k] T) as (w & E & W & I). exists w. split; [exact E|]. rewrite W in *. clear W E. split; [reflexivity|]. intros s ix HS. destruct (one_rows s ix base [k] T HS I) as (cells & E & F1 & F2).
  cbn [fold_right] in F2. rewrite Nat.mul_1_r in F2. exists cells. split; [exact F1|]. split; [exact F2|].
  assert (G : forall s' : option axis, (let! rows := getitem_rows (read [c]) (Z.of_nat n) s in let! o := reshape2 k (concat (concat rows)) in match s' with None => Ok o | Some j => second o j end) = match s' with None => Ok (Arr2 k cells) | Some j => second (Arr2 k cells) j end).
  { intros s'. rewrite E. cbn [rbind]. rewrite concat_single, (reshape2_ok k cells Hk F2). reflexivity. }
  split.
  - intros i [-> | ->]; unfold getitem; cbn [rbind fst snd shape v_shape arrview length Nat.ltb Nat.leb]; exact (G None).
  - intros j. unfold getitem; cbn [rbind fst snd shape v_shape arrview length Nat.ltb Nat.leb]. exact (G (Some j)).
Qed.
Lemma keys_in : exists ks, keys v = Ok ks /\ existsb (Nat.eqb c) ks = true.
Proof.
  destruct (view_of_ok tab n GT _ _ _ HV) as (fs & E & M & _). exists cs. subst v. split; [unfold keys; cbn [v_cols v_dtype whole]; rewrite M; reflexivity|]. apply existsb_exists. exists c. split; [exact HC|apply Nat.eqb_refl].
Qed.
Lemma fall2_concat {X Y Z} (P : X -> Y -> Prop) (f : Z -> list X) (g : Z -> list Y) l : (forall z, In z l -> Forall2 P (f z) (g z)) -> Forall2 P (concat (map f l)) (concat (map g l)).
Proof. induction l as [|z l IH]; intros H; [constructor|]. cbn [map concat]. apply Forall2_app; [apply H; left; reflexivity|apply IH; intros; apply H; right; assumption]. Qed.
Lemma parts_ok {X Y Z} (P : X -> Y -> Prop) (f : Z -> list X) (g : Z -> res (list Y)) l : (forall z, In z l -> exists y, g z = Ok y /\ Forall2 P (f z) y) -> exists parts, rall (map g l) = Ok parts /\ Forall2 P (concat (map f l)) (concat parts).
Proof.
  induction l as [|z l IH]; intros H; [exists []; split; [reflexivity|constructor]|]. destruct (H z (or_introl eq_refl)) as (y & E & F). destruct IH as (parts & E' & F'); [intros; apply H; right; assumption|].
  exists (y :: parts). cbn [map rall concat]. rewrite E. cbn [rbind]. rewrite E'. split; [reflexivity|]. apply Forall2_app; assumption.
Qed.
Lemma sel_block a b : (0 <= a <= b)%Z -> (b <= Z.of_nat n)%Z -> selects n (slice2 (a, b)) (py_range a b 1).
Proof. intros H H'. apply sel_slice; [cbn [fst snd]; apply slice_some; assumption|lia|lia]. Qed.
Theorem dask_column base bs : has_type tab c base [] -> 0 < bs -> exists l, get_dask read v c bs = Ok (Arr1 l) /\ Forall2 (fun i x => entry tab c i [x]) (py_range 0 (Z.of_nat n) 1) l.
Proof.
  intros T Hb. destruct (column_ok base T) as (w & E & SH & G). destruct keys_in as (ks & K1 & K2). unfold get_dask. rewrite K1. cbn [rbind]. rewrite K2. cbn [negb]. rewrite E. cbn [rbind]. rewrite (proj2 (Nat.eqb_neq bs 0)) by lia. rewrite SH.
  destruct (blocks_cover n bs Hb) as [BC BF]. rewrite Forall_forall in BF.
  destruct (parts_ok (fun i x => entry tab c i [x]) (fun ab => py_range (fst ab) (snd ab) 1) (fun ab => let! o := getitem read w (Tup1 (slice2 ab)) in match o with Arr1 l => Ok l | _ => Err OutOfContract end) (blocks n bs)) as (parts & P1 & P2).
  { intros [a b] Hab. destruct (BF _ Hab) as [Q1 Q2]. cbn [fst snd] in *. destruct (G (slice2 (a, b)) _ (Tup1 (slice2 (a, b))) (sel_block a b Q1 Q2) (or_intror eq_refl)) as (l & E1 & F). exists l. rewrite E1. auto. }
  rewrite P1. cbn [rbind]. exists (concat parts). split; [reflexivity|]. rewrite <- BC. exact P2.
Qed.
Lemma py_slice_block {X} (r : list X) a b : (0 <= a <= b)%Z -> (b <= zlen r)%Z -> py_slice r (Some a) (Some b) (Some 1%Z) = Ok (select r (py_range a b 1)).
Proof. intros H H'. unfold py_slice. rewrite (slice_some a b (zlen r) H H'). reflexivity. Qed.
Lemma select_concat {X Y} (r : list X) (f : Y -> list Z) l : concat (map (fun z => select r (f z)) l) = select r (concat (map f l)).
Proof. induction l as [|z l IH]; [reflexivity|]. cbn [map concat]. rewrite select_app, IH. reflexivity. Qed.
Lemma map_nth_seq {X} (l : list X) d : map (fun i => nth i l d) (seq 0 (length l)) = l.
Proof.
  apply nth_error_ext. intros i. rewrite nth_error_map. destruct (Nat.ltb_spec i (length l)) as [H|H].
  - rewrite (nth_error_nth' (seq 0 (length l)) 0) by (rewrite seq_length; exact H). rewrite seq_nth by exact H. cbn. symmetry. apply nth_error_nth'. exact H.
  - rewrite (proj2 (nth_error_None (seq 0 (length l)) i)) by (rewrite seq_length; exact H). cbn. symmetry. apply nth_error_None. exact H.
Qed.
Theorem dask_vector base k bs : has_type tab c base [k] -> 0 < k -> 0 < bs -> exists rows, get_dask read v c bs = Ok (Arr2 k rows) /\ Forall2 (fun i row => entry tab c i row) (py_range 0 (Z.of_nat n) 1) rows.
Proof.
  intros T Hk Hb. destruct (vector_ok base k T Hk) as (w & E & SH & G). destruct keys_in as (ks & K1 & K2). unfold get_dask. rewrite K1. cbn [rbind]. rewrite K2. cbn [negb]. rewrite E. cbn [rbind]. rewrite (proj2 (Nat.eqb_neq bs 0)) by lia. rewrite SH.
  destruct (blocks_cover n bs Hb) as [BC BF]. rewrite Forall_forall in BF. destruct (blocks_cover k bs Hb) as [CC CF]. rewrite Forall_forall in CF.
  match goal with |- context [rall (map ?g (blocks n bs))] => destruct (parts_ok (fun i row => entry tab c i row) (fun ab => py_range (fst ab) (snd ab) 1) g (blocks n bs)) as (parts & P1 & P2) end.
  { intros [a b] Hab. destruct (BF _ Hab) as [Q1 Q2]. cbn [fst snd] in *. destruct (G (slice2 (a, b)) _ (sel_block a b Q1 Q2)) as (rows & F1 & F2 & _ & G2).
    assert (CO : rall (map (fun cd => let! o := getitem read w (Tup2 (slice2 (a, b)) (ASlice (Some (fst cd)) (Some (snd cd)) (Some 1%Z))) in match o with Arr2 _ l => Ok l | _ => Err OutOfContract end) (blocks k bs)) = Ok (map (fun cd => map (fun r => select r (py_range (fst cd) (snd cd) 1)) rows) (blocks k bs))).
    { rewrite <- (rall_ok (map _ (blocks k bs))). f_equal. rewrite map_map. apply map_ext_in. intros [x y] Hxy. destruct (CF _ Hxy) as [R1 R2]. cbn [fst snd] in *. rewrite G2. cbn [second]. rewrite py_slice_block; [|exact R1|unfold zlen; rewrite seq_length; exact R2]. cbn [rbind].
      assert (RR : rall (map (fun r => py_slice r (Some x) (Some y) (Some 1%Z)) rows) = Ok (map (fun r => select r (py_range x y 1)) rows)).
      { rewrite <- (rall_ok (map _ rows)). f_equal. rewrite map_map. apply map_ext_in. intros r Hr. apply py_slice_block; [exact R1|]. rewrite Forall_forall in F2. unfold zlen. rewrite (F2 r Hr). exact R2. }
      rewrite RR. reflexivity. }
    rewrite CO. cbn [rbind]. eexists. split; [reflexivity|]. assert (LN : Z.to_nat (b - a) = length rows).
    { rewrite <- (fall2_len _ _ _ F1). pose proof (py_range_length a b 1) as PL. unfold zlen in PL. assert (RL : range_len a b 1 = (b - a)%Z) by (unfold range_len; cbn; destruct (Z.ltb_spec a b); rewrite ?Z.div_1_r; lia). lia. }
    rewrite LN. replace (beside _ (length rows)) with rows; [exact F1|]. unfold beside. rewrite <- (map_nth_seq rows []) at 1. apply map_ext_in. intros i Hi. apply in_seq in Hi. rewrite map_map.
    set (r := nth i rows []). assert (Lr : length r = k) by (rewrite Forall_forall in F2; apply F2, nth_In; lia).
    assert (RW : map (fun x => nth i (map (fun r0 => select r0 (py_range (fst x) (snd x) 1)) rows) []) (blocks k bs) = map (fun x => select r (py_range (fst x) (snd x) 1)) (blocks k bs)).
    { apply map_ext_in. intros x _. rewrite (nth_indep _ [] (select [] (py_range (fst x) (snd x) 1))) by (rewrite map_length; lia). rewrite (map_nth (fun r0 => select r0 (py_range (fst x) (snd x) 1))). reflexivity. }
    rewrite RW, (select_concat r (fun x => py_range (fst x) (snd x) 1)), CC. rewrite <- Lr. symmetry. apply select_all_rows. }
  rewrite P1. cbn [rbind]. exists (concat parts). split; [reflexivity|]. rewrite <- BC. exact P2.
Qed.
End D.
(* what is refused *)
Section R.
Context {A : Type}.
Variable tab : table (A := A).
Variable n : nat.
Hypothesis GT : good_table tab n.
Variable read : list nat -> Z -> Z -> Z -> res (list (list (list A))).
Theorem refused css cs v : view_of tab n css cs v ->
  select_cols v [] = Err IndexError /\ (forall ds, (exists c, In c ds /\ ~ In c cs) -> select_cols v ds = Err IndexError) /\
  (forall ds, incl ds cs -> ds <> [] -> ~ NoDup ds -> select_cols v ds = Err ValueError) /\
  (forall s j, getitem read v (Tup2 s j) = Err IndexError) /\
  (forall c bs, ~ In c cs -> get_dask read v c bs = Err ValueError) /\
  (1 < length cs -> (exists c b k ks, In c cs /\ has_type tab c b (k :: ks)) -> asarray v = Err ValueError) /\
  ((exists c d b b' sub sub', In c cs /\ In d cs /\ has_type tab c b sub /\ has_type tab d b' sub' /\ b <> b') -> asarray v = Err ValueError) /\
  (forall w ds, asarray v = Ok w -> asarray w = Err ValueError /\ select_cols w ds = Err IndexError).
Proof.
  intros HV. destruct (view_of_ok tab n GT _ _ _ HV) as (fs & EV & M & P & ND & IN & NE). rewrite EV in *. clear HV.
  assert (K : keys (whole fs n) = Ok cs) by (unfold keys; cbn [v_cols v_dtype whole]; rewrite M; reflexivity).
  assert (TY : forall c b sub, In c cs -> has_type tab c b sub -> exists f, In f fs /\ f_base f = b /\ f_sub f = sub).
  { intros c b sub Hc T. rewrite <- M in Hc. apply in_map_iff in Hc as (f & Ef & Hf). destruct (type_of tab n GT f c b sub (P f Hf) Ef T) as [B S']. exists f. auto. }
  split; [reflexivity|]. split; [|split; [|split; [|split; [|split; [|split]]]]].
  - intros ds (c & H1 & H2). unfold select_cols. destruct ds as [|d ds']; [destruct H1|]. set (ds := d :: ds') in *. cbn [v_dtype whole]. rewrite K. cbn [rbind]. assert (F : forallb (fun c => existsb (Nat.eqb c) cs) ds = false).
    { destruct (forallb _ ds) eqn:E; [|reflexivity]. rewrite forallb_forall in E. specialize (E c H1). apply existsb_exists in E as (x & Hx & E). apply Nat.eqb_eq in E as ->. contradiction. }
    rewrite F. reflexivity.
  - intros ds H1 H2 H3. unfold select_cols. destruct ds as [|d ds']; [congruence|]. set (ds := d :: ds') in *. cbn [v_dtype whole]. rewrite K. cbn [rbind].
    assert (F : forallb (fun c => existsb (Nat.eqb c) cs) ds = true) by (apply forallb_forall; intros c Hc; apply existsb_exists; exists c; split; [apply H1; exact Hc|apply Nat.eqb_refl]).
    rewrite F. cbn [negb]. rewrite <- M in H1. destruct (fields_ok fs ds H1) as (gs & E & _). rewrite E. cbn [rbind]. assert (D : dup ds = true); [|rewrite D; reflexivity].
    destruct (dup ds) eqn:D; [reflexivity|]. exfalso. apply H3. clear -D. induction ds as [|x l IH]; [constructor|]. cbn [dup] in D. apply orb_false_iff in D as [D1 D2]. constructor; [|apply IH; exact D2]. intros Hx. assert (existsb (Nat.eqb x) l = true) by (apply existsb_exists; exists x; split; [exact Hx|apply Nat.eqb_refl]). congruence.
  - reflexivity.
  - intros c bs Hc. unfold get_dask. rewrite K. cbn [rbind]. assert (F : existsb (Nat.eqb c) cs = false); [|rewrite F; reflexivity]. destruct (existsb (Nat.eqb c) cs) eqn:E; [|reflexivity]. apply existsb_exists in E as (x & Hx & E). apply Nat.eqb_eq in E as ->. contradiction.
  - intros L (c & b & k & ks & Hc & T). destruct (TY c b (k :: ks) Hc T) as (f & Hf & _ & S'). unfold asarray. cbn [v_dtype whole]. destruct fs as [|f0 fs]; [destruct Hf|]. assert (X : (1 <? length (f0 :: fs)) = true) by (apply Nat.ltb_lt; rewrite <- M in L; rewrite map_length in L; exact L).
    assert (Y : existsb (fun f => negb (eqb_list (f_sub f) [])) (f0 :: fs) = true) by (apply existsb_exists; exists f; split; [exact Hf|rewrite S'; reflexivity]). rewrite X, Y. reflexivity.
  - intros (c & d & b & b' & sub & sub' & Hc & Hd & T & T' & NB). destruct (TY c b sub Hc T) as (f & Hf & B & _). destruct (TY d b' sub' Hd T') as (g & Hg & B' & _). unfold asarray. cbn [v_dtype whole]. destruct fs as [|f0 fs]; [destruct Hf|].
    destruct (_ && _); [reflexivity|]. assert (Y : existsb (fun f => negb (f_base f =? f_base f0)) (f0 :: fs) = true); [|rewrite Y; reflexivity].
    apply existsb_exists. destruct (Nat.eqb_spec (f_base f) (f_base f0)) as [Q|Q].
    + exists g. split; [exact Hg|]. destruct (Nat.eqb_spec (f_base g) (f_base f0)); [congruence|reflexivity].
    + exists f. split; [exact Hf|]. destruct (Nat.eqb_spec (f_base f) (f_base f0)); [contradiction|reflexivity].
  - intros w ds E. unfold asarray in E. cbn [v_dtype whole] in E. destruct fs as [|f0 fs]; [discriminate|]. destruct (_ && _); [discriminate|]. destruct (existsb _ _); [discriminate|]. rewrite K in E. cbn [rbind] in E. injection E as <-. split; [reflexivity|]. destruct ds; reflexivity.
Qed.
End R.
