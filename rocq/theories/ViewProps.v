(* Property theorem C259 and the refuted claim C260. *)
From Verif Require Import Base IoModel IoSpec ViewModel ViewSpec ViewProofs ViewDask.
Local Open Scope nat_scope.

(* C259: any series of selections of columns gives a view, whose rows are the rows of the chosen
   columns, in the chosen order *)
Theorem C259_selection : forall (A : Type) (tab : table (A := A)) n read css, good_table tab n -> reads_table tab n read -> chain (names tab) css ->
  exists v, view_of tab n css (last css (names tab)) v /\
    forall s ix, selects n s ix -> exists rows, getitem read v (Rows s) = Ok (Records (last css (names tab)) rows) /\
      Forall2 (fun i row => Forall2 (fun c cell => entry tab c i cell) (last css (names tab)) row) ix rows.
Proof.
  intros A tab n read css GT RD C. destruct (view_ex tab n GT css C) as (v & V). exists v. split; [exact V|]. intros s ix S'. exact (records_ok tab n GT read RD css _ v s ix V S').
Qed.
Print Assumptions C259_selection.

(* C259: as an array, the columns stand next to each other; a second index selects columns *)
Theorem C259_array : forall (A : Type) (tab : table (A := A)) n read css cs v base, good_table tab n -> reads_table tab n read -> view_of tab n css cs v -> 1 < length cs -> (forall c, In c cs -> has_type tab c base []) ->
  exists w, asarray v = Ok w /\ shape w = [n; length cs] /\ keys w = Ok cs /\
    forall s ix, selects n s ix -> exists rows, getitem read w (Rows s) = Ok (Arr2 (length cs) rows) /\ Forall2 (fun i row => Forall2 (fun c x => entry tab c i [x]) cs row) ix rows /\
      (forall j c, nth_error cs j = Some c -> exists l, getitem read w (Tup2 s (AInt (Z.of_nat j))) = Ok (Arr1 l) /\ Forall2 (fun i x => entry tab c i [x]) ix l) /\
      (forall ds, Forall (fun j => (0 <= j < Z.of_nat (length cs))%Z) ds -> exists sub, getitem read w (Tup2 s (AInts ds)) = Ok (Arr2 (length ds) sub) /\
         Forall2 (fun i row => Forall2 (fun j x => exists c, nth_error cs (Z.to_nat j) = Some c /\ entry tab c i [x]) ds row) ix sub).
Proof. intros A tab n read css cs v base GT RD. exact (array_ok tab n GT read RD css cs v base). Qed.
Print Assumptions C259_array.

(* C259: one column by its name: numbers or vectors *)
Theorem C259_column : forall (A : Type) (tab : table (A := A)) n read css cs v c base, good_table tab n -> reads_table tab n read -> view_of tab n css cs v -> In c cs -> has_type tab c base [] ->
  exists w, getitem_name v c = Ok w /\ shape w = [n] /\
  forall s ix, selects n s ix -> exists l, getitem read w (Rows s) = Ok (Arr1 l) /\ Forall2 (fun i x => entry tab c i [x]) ix l.
Proof.
  intros A tab n read css cs v c base GT RD HV HC T. destruct (column_ok tab n GT read RD css cs v HV c HC base T) as (w & E & SH & G). exists w. split; [exact E|]. split; [exact SH|]. intros s ix HS. exact (G s ix (Rows s) HS (or_introl eq_refl)).
Qed.
Print Assumptions C259_column.
Theorem C259_vector : forall (A : Type) (tab : table (A := A)) n read css cs v c base k, good_table tab n -> reads_table tab n read -> view_of tab n css cs v -> In c cs -> has_type tab c base [k] -> 0 < k ->
  exists w, getitem_name v c = Ok w /\ shape w = [n; k] /\
  forall s ix, selects n s ix -> exists rows, getitem read w (Rows s) = Ok (Arr2 k rows) /\ Forall2 (fun i row => entry tab c i row) ix rows.
Proof.
  intros A tab n read css cs v c base k GT RD HV HC T Hk. destruct (vector_ok tab n GT read RD css cs v HV c HC base k T Hk) as (w & E & SH & G). exists w. split; [exact E|]. split; [exact SH|]. intros s ix HS. destruct (G s ix HS) as (rows & F & _ & G1 & _). exists rows. split; [apply G1; left; reflexivity|exact F].
Qed.
Print Assumptions C259_vector.

(* C259: the dask array of a column is the column, whatever the size of the blocks *)
Theorem C259_dask : forall (A : Type) (tab : table (A := A)) n read css cs v c base bs, good_table tab n -> reads_table tab n read -> view_of tab n css cs v -> In c cs -> 0 < bs ->
  (has_type tab c base [] -> exists l, get_dask read v c bs = Ok (Arr1 l) /\ Forall2 (fun i x => entry tab c i [x]) (py_range 0 (Z.of_nat n) 1) l) /\
  (forall k, has_type tab c base [k] -> 0 < k -> exists rows, get_dask read v c bs = Ok (Arr2 k rows) /\ Forall2 (fun i row => entry tab c i row) (py_range 0 (Z.of_nat n) 1) rows).
Proof.
  intros A tab n read css cs v c base bs GT RD HV HC Hb. split; [intros T; exact (dask_column tab n GT read RD css cs v HV c HC base bs T Hb)|intros k T Hk; exact (dask_vector tab n GT read RD css cs v HV c HC base k bs T Hk Hb)].
Qed.
Print Assumptions C259_dask.

(* C259: what is refused *)
Theorem C259_refused : forall (A : Type) (tab : table (A := A)) n (read : list nat -> Z -> Z -> Z -> res (list (list (list A)))) css cs v, good_table tab n -> view_of tab n css cs v ->
  select_cols v [] = Err IndexError /\ (forall ds, (exists c, In c ds /\ ~ In c cs) -> select_cols v ds = Err IndexError) /\
  (forall ds, incl ds cs -> ds <> [] -> ~ NoDup ds -> select_cols v ds = Err ValueError) /\
  (forall s j, getitem read v (Tup2 s j) = Err IndexError) /\
  (forall c bs, ~ In c cs -> get_dask read v c bs = Err ValueError) /\
  (1 < length cs -> (exists c b k ks, In c cs /\ has_type tab c b (k :: ks)) -> asarray v = Err ValueError) /\
  ((exists c d b b' sub sub', In c cs /\ In d cs /\ has_type tab c b sub /\ has_type tab d b' sub' /\ b <> b') -> asarray v = Err ValueError) /\
  (forall w ds, asarray v = Ok w -> asarray w = Err ValueError /\ select_cols w ds = Err IndexError).
Proof. intros A tab n read css cs v GT. exact (refused tab n GT read css cs v). Qed.
Print Assumptions C259_refused.

(* columns 1, 2 of numbers and 3 of vectors; a reader for any table *)
Definition fl n sub := {| f_name := n; f_base := 5; f_sub := sub |}.
Definition ex_tab : table (A := nat) := [(fl 1 [], [[10]; [11]; [12]]); (fl 2 [], [[20]; [21]; [22]]); (fl 3 [2], [[30; 40]; [31; 41]; [32; 42]])].
Definition tab_read (tab : table (A := nat)) (ks : list nat) (a b s : Z) : res (list (list (list nat))) :=
  Ok (map (fun i => map (fun c => concat (map (fun fc => if f_name (fst fc) =? c then nth (Z.to_nat i) (snd fc) [] else []) tab)) ks) (py_range a b s)).
Lemma f2_map_r {X Y Z} (P : X -> Z -> Prop) (f : Y -> Z) l l' : Forall2 (fun x y => P x (f y)) l l' -> Forall2 P l (map f l').
Proof. induction 1; constructor; assumption. Qed.
Lemma tab_read_ok : good_table ex_tab 3 /\ reads_table ex_tab 3 (tab_read ex_tab).
Proof.
  assert (G : good_table ex_tab 3).
  { split; [repeat constructor; cbn; intuition discriminate|]. intros f cells [H|[H|[H|[]]]]; injection H as <- <-; split; [reflexivity|repeat constructor|reflexivity|repeat constructor|reflexivity|repeat constructor]. }
  split; [exact G|]. intros ks _ _ I a b s Ha Hb Hs. eexists. split; [reflexivity|]. apply (f2_map_r (fun i row => Forall2 (fun c cell => entry ex_tab c i cell) ks row)).
  assert (F : Forall (fun i => (0 <= i < 3)%Z) (py_range a b s)) by (apply Forall_forall; intros i Hi; apply BaseProofs.in_py_range_pos in Hi; lia).
  induction F as [|i l Hi _ IH]; constructor; [|exact IH]. apply (f2_map_r (fun c cell => entry ex_tab c i cell)). clear IH. induction ks as [|c ks IHk]; constructor; [|apply IHk; intros x Hx; apply I; right; exact Hx].
  assert (Hc : In c [1; 2; 3]) by (apply I; left; reflexivity). assert (C : i = 0%Z \/ i = 1%Z \/ i = 2%Z) by lia.
  destruct Hc as [<-|[<-|[<-|[]]]]; [exists (fl 1 []), [[10]; [11]; [12]]|exists (fl 2 []), [[20]; [21]; [22]]|exists (fl 3 [2]), [[30; 40]; [31; 41]; [32; 42]]]; (split; [cbn; auto|]); (split; [reflexivity|]); (split; [lia|]); destruct C as [-> |[-> | ->]]; reflexivity.
Qed.
Example C259_ex : exists v, view_of ex_tab 3 [[3; 2; 1]; [2; 1]] [2; 1] v /\ getitem (tab_read ex_tab) v (Rows (RInts [2; 0]%Z)) = Ok (Records [2; 1] [[[22]; [12]]; [[20]; [10]]]) /\
  (exists w, asarray v = Ok w /\ getitem (tab_read ex_tab) w (Tup2 (RSlice None None None) (AInt 0)) = Ok (Arr1 [20; 21; 22])) /\
  (forall bs, bs = 1 \/ bs = 2 -> get_dask (tab_read ex_tab) (whole (map fst ex_tab) 3) 3 bs = Ok (Arr2 2 [[30; 40]; [31; 41]; [32; 42]])).
Proof.
  eexists. split; [split; [|split; reflexivity]|].
  - assert (D : NoDup [3; 2; 1] /\ NoDup [2; 1]) by (split; repeat constructor; cbn; intuition discriminate). cbn [chain]. repeat split; try discriminate; try apply D; intros x Hx; cbn in *; intuition.
  - split; [reflexivity|]. split; [eexists; split; reflexivity|]. intros bs [-> | ->]; reflexivity.
Qed.

(* C260: a column with matrices as entries is read with the wrong shape, and has no dask array *)
Theorem C260_matrices_refuted : exists (tab : table (A := nat)) n read v c base k k' w l, good_table tab n /\ reads_table tab n read /\ view_of tab n [] (names tab) v /\ In c (names tab) /\ has_type tab c base [k; k'] /\ 0 < k /\ 0 < k' /\
  getitem_name v c = Ok w /\ shape w = [n; k; k'] /\ getitem read w (Rows (RSlice None None None)) = Ok (Arr2 k l) /\ length l <> n /\ forall bs, 0 < bs -> exists e, get_dask read v c bs = Err e.
Proof.
  set (m := [(fl 1 [1; 2], [[10; 11]; [12; 13]])]). exists m, 2, (tab_read m), (whole (map fst m) 2), 1, 5, 1, 2. do 2 eexists.
  split; [split; [repeat constructor; intros []|intros f cells [H|[]]; injection H as <- <-; split; [reflexivity|repeat constructor]]|]. split.
  { intros ks _ _ I a b s Ha Hb Hs. eexists. split; [reflexivity|]. apply (f2_map_r (fun i row => Forall2 (fun c cell => entry m c i cell) ks row)).
    assert (F : Forall (fun i => (0 <= i < 2)%Z) (py_range a b s)) by (apply Forall_forall; intros i Hi; apply BaseProofs.in_py_range_pos in Hi; lia).
    induction F as [|i l Hi _ IH]; constructor; [|exact IH]. apply (f2_map_r (fun c cell => entry m c i cell)). clear IH. induction ks as [|c ks IHk]; constructor; [|apply IHk; intros x Hx; apply I; right; exact Hx].
    assert (Hc : In c [1]) by (apply I; left; reflexivity). assert (C : i = 0%Z \/ i = 1%Z) by lia. destruct Hc as [<-|[]]. exists (fl 1 [1; 2]), [[10; 11]; [12; 13]]. split; [left; reflexivity|]. split; [reflexivity|]. split; [lia|]. destruct C as [->| ->]; reflexivity. }
  split; [split; [discriminate|split; reflexivity]|]. split; [left; reflexivity|]. split; [exists (fl 1 [1; 2]), [[10; 11]; [12; 13]]; repeat split; left; reflexivity|]. split; [lia|]. split; [lia|]. split; [reflexivity|]. split; [reflexivity|]. split; [reflexivity|]. split; [discriminate|].
  intros bs Hb. exists IndexError. unfold get_dask. cbn [m map fst whole keys v_cols v_dtype rbind f_name fl existsb Nat.eqb orb negb]. destruct bs; [lia|]. reflexivity.
Qed.
Print Assumptions C260_matrices_refuted.
