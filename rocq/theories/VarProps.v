(* C247-C252: variables of binned statistics, squeezing and JSON files. *)
From Verif Require Import Base Num BinModel BinSpec BinProps VarModel VarSpec VarProofs.
Local Open Scope nat_scope.

Example ex_names : NoDup (names ex).
Proof. cbn. repeat constructor; cbn; intuition discriminate. Qed.

(* C247 *)
Theorem C247_set : forall s x int v, wf s -> NoDup (names s) -> shape v = shape (data s) ->
  exists t, setitem s x int v = Ok t /\ wf t /\ NoDup (names t) /\ same_grid s t /\ has_var t x int (cell v) /\
  (forall y b f, y <> x -> has_var s y b f -> has_var t y b f) /\ (forall y, In y (names t) <-> y = x \/ In y (names s)) /\
  (forall idx, cell (mask t) idx = true <-> cell (mask s) idx = true \/ cell v idx = None) /\ (~ In x (names s) -> exact s -> exact t).
Proof. exact setitem_ok. Qed.
Print Assumptions C247_set.
Definition ex_new : arr val := {| shape := [4; 2]; cell := fun idx => match idx with [i; j] => if i =? 3 then None else Some (nq (i + j)) | _ => None end |}.
Example C247_set_ex : shape ex_new = shape (data ex) /\
  match setitem ex 1 true ex_new with
  | Ok t => vars t = [(2, true); (1, true)] /\ map (option_map this) (cell (data t) [2; 1]) = [Some 3; Some 3]%Q /\ map (cell (mask t)) [[1; 0]; [3; 1]; [2; 1]] = [true; true; false]
  | Err _ => False end.
Proof. vm_compute. auto. Qed.
Theorem C247_shape : forall s x int v, shape v <> shape (data s) -> setitem s x int v = Err ValueError.
Proof. exact setitem_shape. Qed.
Print Assumptions C247_shape.
Example C247_shape_ex : [8] <> shape (data ex).
Proof. discriminate. Qed.

(* C248 *)
Theorem C248_refuted : exists s x int v t, wf s /\ NoDup (names s) /\ shape v = shape (data s) /\ exact s /\ setitem s x int v = Ok t /\ (forall idx, cell v idx <> None) /\
  exists idx, valid (shape (data t)) idx /\ cell (mask t) idx = true /\ forall k, k < length (vars t) -> nth k (cell (data t) idx) None <> None.
Proof.
  exists ex, 1, false, {| shape := [4; 2]; cell := fun _ => Some (nq 5) |}. eexists. split; [exact ex_wf|]. split; [exact ex_names|]. split; [reflexivity|]. split; [|split; [reflexivity|split; [discriminate|]]].
  - intros idx. cbn [ex mask cell vars data length]. rewrite existsb_exists. split.
    + intros (x & H & F). apply In_nth with (d := None) in H as (k & Hk & E). exists k. split; [|rewrite E; destruct x; [discriminate|reflexivity]].
      pose proof (wf_rows ex ex_wf idx) as L. cbn [ex data vars length] in L. rewrite L in Hk. exact Hk.
    + intros (k & Hk & E). exists None. split; [|reflexivity]. rewrite <- E. apply nth_In. pose proof (wf_rows ex ex_wf idx) as L. cbn [ex data vars length] in L. rewrite L. exact Hk.
  - exists [1; 0]. split; [repeat constructor|]. split; [reflexivity|]. intros k Hk. cbn in Hk. destruct k as [|[|k]]; [discriminate|discriminate|lia].
Qed.
Print Assumptions C248_refuted.

(* C249 *)
Theorem C249_rename : forall s old new, wf s -> NoDup (names s) -> In old (names s) -> ~ In new (names s) \/ new = old ->
  exists t, rename s old new = Ok t /\ wf t /\ NoDup (names t) /\ same_grid s t /\ mask t = mask s /\
  (forall b f, has_var s old b f -> has_var t new b f) /\ (forall y b f, y <> old -> has_var s y b f -> has_var t y b f) /\
  (forall y, In y (names t) <-> y = new \/ (y <> old /\ In y (names s))).
Proof. exact rename_ok. Qed.
Print Assumptions C249_rename.
Theorem C249_unknown : forall s old new, ~ In old (names s) -> rename s old new = Err ValueError.
Proof. exact rename_unknown. Qed.
Print Assumptions C249_unknown.
Theorem C249_taken : forall s old new, NoDup (names s) -> In new (names s) -> new <> old -> rename s old new = Err ValueError.
Proof. exact rename_taken. Qed.
Print Assumptions C249_taken.
Example C249_ex : In 2 (names ex) /\ ~ In 5 (names ex) /\ In 1 (names ex) /\ match rename ex 2 5 with Ok t => vars t = [(1, false); (5, true)] | Err _ => False end /\ rename ex 5 6 = Err ValueError /\ rename ex 2 1 = Err ValueError.
Proof. vm_compute. repeat split; auto. intuition discriminate. Qed.
Theorem C249_squeeze : forall s P d D eP e eD cP c cD, wf s -> dims s = P ++ d :: D -> edges s = eP ++ e :: eD -> coords s = cP ++ c :: cD ->
  length eP = length P -> length cP = length P -> length c = 1 -> Forall (fun c => length c <> 1) (cP ++ cD) -> P ++ D <> [] ->
  exists t, squeeze_any s = Ok t /\ wf t /\ dims t = P ++ D /\ edges t = eP ++ eD /\ coords t = cP ++ cD /\ vars t = vars s /\ attrs t = attrs s /\
    (forall p r, length p = length P -> cell (data t) (p ++ r) = cell (data s) (p ++ 0 :: r) /\ cell (mask t) (p ++ r) = cell (mask s) (p ++ 0 :: r)).
Proof. exact squeeze_any_ok. Qed.
Print Assumptions C249_squeeze.
Theorem C249_no_squeeze : forall s, wf s -> length (filter (fun c => length c =? 1) (coords s)) <> 1 \/ length (dims s) = 1 -> squeeze_any s = Err ValueError.
Proof. exact squeeze_any_not. Qed.
Print Assumptions C249_no_squeeze.
(* two bins by one *)
Definition ex1 : stat :=
  {| dims := [7; 8]; edges := [map nq [0; 1; 2]; map nq [0; 5]]; coords := [[q 1 2; q 3 2]; [q 5 2]]; vars := [(1, false)];
     data := {| shape := [2; 1]; cell := fun idx => [Some (nq (nth 0 idx 0 + 7))] |}; mask := {| shape := [2; 1]; cell := fun _ => false |}; fts := []; attrs := [(3, 4%Z)] |}.
Example C249_squeeze_ex : wf ex1 /\ dims ex1 = [7] ++ 8 :: [] /\ Forall (fun c : list Qc => length c <> 1) ([[q 1 2; q 3 2]] ++ []) /\
  match squeeze_any ex1 with Ok t => dims t = [7] /\ shape (data t) = [2] /\ cell (data t) [1] = [Some (nq 8)] | Err _ => False end /\ squeeze_any ex = Err ValueError.
Proof.
  split. { constructor; try reflexivity. - repeat constructor. - repeat constructor; cbn; intuition discriminate. }
  split; [reflexivity|]. split; [constructor; [discriminate|constructor]|]. split; [|reflexivity]. cbn. auto.
Qed.

(* C250 *)
Theorem C250_refuted : exists s old new t dim spacing r r' b f f' idx, wf s /\ NoDup (names s) /\ rename s old new = Ok t /\
  reindex s dim spacing WNone false (fts s) = Ok r /\ reindex t dim spacing WNone false (fts t) = Ok r' /\
  has_var r old b f /\ has_var r' new b f' /\ valid (shape (data r)) idx /\ f idx <> f' idx.
Proof.
  assert (A : match rename ex 2 5 with Ok t => match reindex ex 7 (q 2 1) WNone false (fts ex), reindex t 7 (q 2 1) WNone false (fts t) with
     | Ok r, Ok r' => nth_error (vars r) 1 = Some (2, true) /\ nth_error (vars r') 1 = Some (5, true) /\ shape (data r) = [2; 2] /\
         option_map this (nth 1 (cell (data r) [0; 0]) None) = Some 3%Q /\ option_map this (nth 1 (cell (data r') [0; 0]) None) = Some 1%Q
     | _, _ => False end | Err _ => False end) by (vm_compute; auto).
  destruct (rename ex 2 5) as [t|] eqn:ET; [|contradiction]. destruct (reindex ex 7 (q 2 1) WNone false (fts ex)) as [r|] eqn:ER; [|contradiction].
  destruct (reindex t 7 (q 2 1) WNone false (fts t)) as [r'|] eqn:ER'; [|contradiction].
  exists ex, 2, 5, t, 7, (q 2 1), r, r', true, (fun idx => nth 1 (cell (data r) idx) None), (fun idx => nth 1 (cell (data r') idx) None), [0; 0].
  split; [exact ex_wf|]. split; [exact ex_names|]. do 3 (split; [assumption|]).
  destruct A as (A1 & A2 & A3 & A4 & A5). split; [exists 1; auto|]. split; [exists 1; auto|]. split; [rewrite A3; repeat constructor|].
  intros H. rewrite H in A4. rewrite A4 in A5. discriminate.
Qed.
Print Assumptions C250_refuted.

(* C251 *)
Theorem C251_json : forall data_name reserved fts_name as_names s ds es kwargs, wf s -> NoDup (map fst kwargs) ->
  (forall k, In k (map fst (attrs s)) \/ In k (map fst kwargs) -> reserved k = false /\ k <> fts_name) ->
  exists t, from_json reserved fts_name as_names (to_json data_name s) data_name ds es kwargs = Ok t /\
    dims t = dims s /\ edges t = edges s /\ coords t = coords s /\ vars t = vars s /\ shape (data t) = shape (data s) /\ (forall idx, cell (data t) idx = cell (data s) idx) /\
    exact t /\ (forall k, afind k (attrs t) = match afind k kwargs with Some v => Some v | None => afind k (attrs s) end).
Proof. exact json_ok. Qed.
Print Assumptions C251_json.
Theorem C251_attrs : forall data_name reserved fts_name as_names s ds es t, (forall k, In k (map fst (attrs s)) -> k <> fts_name) ->
  from_json reserved fts_name as_names (to_json data_name s) data_name ds es [] = Ok t -> attrs t = attrs s.
Proof. exact json_no_kwargs. Qed.
Print Assumptions C251_attrs.
Theorem C251_missing : forall reserved fts_name as_names j key ds es kwargs, afind key (j_data j) = None \/ (j_dims j = None /\ ds = None) \/ (j_edges j = None /\ es = None) ->
  from_json reserved fts_name as_names j key ds es kwargs = Err ValueError.
Proof. exact json_missing. Qed.
Print Assumptions C251_missing.
Theorem C251_given : forall data_name reserved fts_name as_names s kwargs, wf s -> NoDup (map fst kwargs) ->
  (forall k, In k (map fst (attrs s)) \/ In k (map fst kwargs) -> reserved k = false /\ k <> fts_name) ->
  exists t, from_json reserved fts_name as_names {| j_dims := None; j_edges := None; j_coords := j_coords (to_json data_name s); j_data := j_data (to_json data_name s); j_attrs := j_attrs (to_json data_name s) |} data_name (Some (dims s)) (Some (edges s)) kwargs = Ok t /\
    dims t = dims s /\ edges t = edges s /\ coords t = coords s /\ vars t = vars s /\ forall idx, cell (data t) idx = cell (data s) idx.
Proof.
  intros data_name reserved fts_name as_names s kwargs H1 H2 H3. destruct (json_ok data_name reserved fts_name as_names s None None kwargs H1 H2 H3) as (t & E & A1 & A2 & A3 & A4 & A5 & A6 & A7).
  exists t. rewrite json_given. repeat (split; [assumption|]). exact A6.
Qed.
Print Assumptions C251_given.
Definition ex_reserved (k : nat) : bool := k <? 3.
Example C251_ex : wf ex1 /\ (forall k, In k (map fst (attrs ex1)) \/ In k (map fst [(4, 9%Z); (3, 5%Z)]) -> ex_reserved k = false /\ k <> 100) /\
  match from_json ex_reserved 100 (fun _ => []) (to_json 50 ex1) 50 None None [(4, 9%Z); (3, 5%Z)] with Ok t => attrs t = [(3, 5%Z); (4, 9%Z)] /\ dims t = [7; 8] | Err _ => False end /\
  from_json ex_reserved 100 (fun _ => []) (to_json 50 ex1) 51 None None [] = Err ValueError.
Proof. split; [apply C249_squeeze_ex|]. split; [intros k H; cbn in H; unfold ex_reserved; intuition (subst; try reflexivity; try discriminate)|]. vm_compute. auto. Qed.

(* C252: number 1 is the name of an argument of the constructor *)
Theorem C252_refuted : exists data_name reserved fts_name as_names s, wf s /\ NoDup (map fst (attrs s)) /\
  from_json reserved fts_name as_names (to_json data_name s) data_name None None [] = Err TypeError.
Proof.
  exists 50, ex_reserved, 100, (fun _ => []), {| dims := dims ex1; edges := edges ex1; coords := coords ex1; vars := vars ex1; data := data ex1; mask := mask ex1; fts := fts ex1; attrs := [(1, 4%Z)] |}.
  split; [|split; [repeat constructor; cbn; auto|reflexivity]]. destruct C249_squeeze_ex as [W _]. constructor; apply W.
Qed.
Print Assumptions C252_refuted.
Theorem C252_sum_refuted : exists data_name reserved fts_name as_names s t k v, wf s /\ NoDup (map fst (attrs s)) /\ (forall k, In k (map fst (attrs s)) -> reserved k = false) /\
  from_json reserved fts_name as_names (to_json data_name s) data_name None None [] = Ok t /\ afind k (attrs s) = Some v /\ afind k (attrs t) = None.
Proof.
  exists 50, ex_reserved, 100, (fun _ => []), {| dims := dims ex1; edges := edges ex1; coords := coords ex1; vars := vars ex1; data := data ex1; mask := mask ex1; fts := fts ex1; attrs := [(100, 4%Z)] |}.
  eexists. exists 100, 4%Z. split. { destruct C249_squeeze_ex as [W _]. constructor; apply W. }
  split; [repeat constructor; cbn; auto|]. split; [intros k [<-|[]]; reflexivity|]. split; [reflexivity|]. split; reflexivity.
Qed.
Print Assumptions C252_sum_refuted.
