(* C23, C24, C25, C69: binned statistics; C70-C79: claims that fail. *)
From Verif Require Import Base Num BinModel BinSpec BinArr BinProofs BinIndex BinMore.
From Coq Require Import Sorting.Sorted.
Local Open Scope nat_scope.

(* a statistic to try things on: two dimensions (numbers 7 and 8) of 4 and 2 bins, variables 1 (float) and 2 (integer) *)
Definition q (a : Z) (b : positive) : Qc := Q2Qc (a # b).
Definition ex_data : arr (list val) :=
  {| shape := [4; 2]; cell := fun idx => match idx with
       | [i; j] => [(if (i =? 1) && (j =? 0) then None else Some (nq (10 * i + j))); Some (nq (i + 1))]
       | _ => [None; None] end |}.
Definition ex_edges : list (list Qc) := [map nq [0; 1; 2; 3; 4]; map nq [0; 5; 10]].
Definition ex : stat :=
  {| dims := [7; 8]; edges := ex_edges; coords := map mid ex_edges; vars := [(1, false); (2, true)]; data := ex_data;
     mask := {| shape := [4; 2]; cell := fun i => existsb (fun x => negb (finite x)) (cell ex_data i) |}; fts := [2]; attrs := [] |}.
Example ex_wf : wf ex.
Proof.
  constructor; try (vm_compute; reflexivity).
  - repeat constructor.
  - intros idx. cbn. destruct idx as [|i [|j [|]]]; reflexivity.
  - repeat constructor; cbn; intuition discriminate.
Qed.
Lemma even_nq : forall n, even (map nq (seq 0 (S n))) (nq 0) (nq 1) n.
Proof. intros n. unfold even. apply map_ext. intros k. change (nq 0) with 0%Qc. change (nq 1) with 1%Qc. ring. Qed.
Example ex_rebinnable : rebinnable ex 7 0 4 (nq 0) (nq 1) (q 2 1) WNone None false [2] 2.
Proof.
  unfold rebinnable. split; [exact ex_wf|]. split; [reflexivity|]. split; [exact (even_nq 4)|]. split; [reflexivity|]. split; [intros H; apply (f_equal this) in H; discriminate|].
  split; [lia|]. split; [lia|]. split; [vm_compute; reflexivity|]. split; [right; split; [reflexivity|vm_compute; reflexivity]|]. split; [repeat constructor|]. split; [constructor|]. intros; exact I.
Qed.

(* C23 *)
Theorem C23_reindex : forall s dim i n e0 h spacing w wt force to_sum m, rebinnable s dim i n e0 h spacing w wt force to_sum m ->
  exists t, reindex s dim spacing w force to_sum = Ok t /\ wf t /\
    dims t = dims s /\ vars t = vars s /\ attrs t = attrs s /\ fts t = fts s /\
    (forall j, j <> i -> nth j (edges t) [] = nth j (edges s) [] /\ nth j (coords t) [] = nth j (coords s) []) /\
    nth i (edges t) [] = map (fun k => nth (k * m) (nth i (edges s) []) 0%Qc) (seq 0 (S (n / m))) /\
    centres (nth i (edges t) []) (nth i (coords t) []) /\
    (forall idx, valid (sshape t) idx ->
       (forall k x int, nth_error (vars s) k = Some (x, int) ->
         exists v, coarse s i m wt (In x to_sum) k idx v /\ (int = false \/ integral v -> var_at t k idx = v)) /\
       (cell (mask t) idx = true <-> exists k, k < length (vars s) /\ var_at t k idx = None)).
Proof. exact reindex_centres. Qed.
Print Assumptions C23_reindex.
Example C23_reindex_ex : match reindex ex 7 (q 2 1) WNone false [2] with
  | Ok t => map (fun idx => map (option_map this) (cell (data t) idx)) [[0; 0]; [0; 1]; [1; 0]] =
              [[Some 0; Some 3]; [Some 6; Some 3]; [Some 25; Some 7]]%Q
            /\ map this (nth 0 (edges t) []) = [0; 2; 4]%Q
  | Err _ => False end.
Proof. vm_compute. split; reflexivity. Qed.

Theorem C23_total : forall s dim i n e0 h spacing w wt force to_sum m, rebinnable s dim i n e0 h spacing w wt force to_sum m ->
  exists t, reindex s dim spacing w force to_sum = Ok t /\
    forall k x int p r, nth_error (vars s) k = Some (x, int) -> In x to_sum -> length p = i ->
      (forall j, j < n / m -> valid (sshape t) (p ++ j :: r)) ->
      (int = true -> forall idx, valid (sshape s) idx -> exists z, var_at s k idx = Some (zq z)) ->
      sum_of (map (fun j => var_at t k (p ++ j :: r)) (seq 0 (n / m))) = sum_of (map (fun j => var_at s k (p ++ j :: r)) (seq 0 (n / m * m))).
Proof. exact rebin_conserves. Qed.
Print Assumptions C23_total.
Example C23_total_ex : match reindex ex 7 (q 2 1) WNone false [1] with
  | Ok t => this (sum_of (map (fun j => var_at t 0 [j; 1]) [0; 1])) = 64%Q
  | Err _ => False end.
Proof. vm_compute. reflexivity. Qed.

Theorem C23_constant : forall s dim i n e0 h spacing w wt force to_sum m, rebinnable s dim i n e0 h spacing w wt force to_sum m ->
  exists t, reindex s dim spacing w force to_sum = Ok t /\
    forall k x c idx, nth_error (vars s) k = Some (x, false) -> ~ In x to_sum -> valid (sshape t) idx ->
      (forall t0, In t0 (fine i m idx) -> var_at s k t0 = Some c) ->
      match wt with Some (_, g) => qsum (map g (fine i m idx)) <> 0%Qc | None => True end ->
      var_at t k idx = Some c.
Proof. exact rebin_constant. Qed.
Print Assumptions C23_constant.
(* a statistic with a constant variable *)
Definition ex_flat : stat :=
  {| dims := [7]; edges := [map nq [0; 1; 2; 3; 4]]; coords := map mid [map nq [0; 1; 2; 3; 4]]; vars := [(1, false); (2, true)];
     data := {| shape := [4]; cell := fun idx => [Some (q 5 2); Some (nq (nth 0 idx 0))] |}; mask := {| shape := [4]; cell := fun _ => false |}; fts := [2]; attrs := [] |}.
Example C23_constant_ex : rebinnable ex_flat 7 0 4 (nq 0) (nq 1) (q 2 1) WNone None false [2] 2 /\
  match reindex ex_flat 7 (q 2 1) WNone false [2] with Ok t => map (fun i => map (option_map this) (cell (data t) [i])) [0; 1] = [[Some (5 # 2); Some 1]; [Some (5 # 2); Some 5]]%Q | Err _ => False end.
Proof.
  split; [|vm_compute; reflexivity]. unfold rebinnable. split.
  { constructor; try reflexivity. - repeat constructor. - repeat constructor; cbn; intuition discriminate. }
  split; [reflexivity|]. split; [exact (even_nq 4)|]. split; [reflexivity|]. split; [intros H; apply (f_equal this) in H; discriminate|].
  split; [lia|]. split; [lia|]. split; [vm_compute; reflexivity|]. split; [right; split; [reflexivity|vm_compute; reflexivity]|]. split; [repeat constructor|]. split; [constructor|]. intros; exact I.
Qed.

Theorem C23_leftover_refused : forall s dim i n e0 h spacing w to_sum m,
  wf s -> nth_error (dims s) i = Some dim -> even (nth i (edges s) []) e0 h n -> nth i (coords s) [] = mid (nth i (edges s) []) ->
  h <> 0%Qc -> 2 <= m -> m <= n -> qround (spacing / h)%Qc = Z.of_nat m -> weighted s w -> n mod m <> 0 ->
  reindex s dim spacing w false to_sum = Err ValueError.
Proof. exact reindex_leftover. Qed.
Print Assumptions C23_leftover_refused.
Example C23_leftover_refused_ex : reindex ex 7 (q 3 1) WNone false [] = Err ValueError /\
  match reindex ex 7 (q 3 1) WNone true [] with Ok t => map this (nth 0 (edges t) []) = [0; 3]%Q | Err _ => False end.
Proof. vm_compute. split; reflexivity. Qed.

Theorem C23_average : forall s dim i n e0 h w wt force to_sum,
  wf s -> 2 <= length (dims s) -> nth_error (dims s) i = Some dim -> even (nth i (edges s) []) e0 h n -> nth i (coords s) [] = mid (nth i (edges s) []) ->
  h <> 0%Qc -> 2 <= n -> Forall (lt 0) (sshape s) -> weighted_by s w wt ->
  (forall k x, nth_error (vars s) k = Some (x, true) -> ~ In x to_sum -> match wt with Some (true, _) => False | _ => True end) ->
  exists t, average s dim w force to_sum = Ok t /\ wf t /\ dims t = remove_at i (dims s) /\ vars t = vars s /\
    edges t = remove_at i (edges s) /\
    (forall p r, length p = i -> valid (sshape t) (p ++ r) ->
       forall k x int, nth_error (vars s) k = Some (x, int) ->
         exists v, (int = false \/ integral v -> var_at t k (p ++ r) = v) /\
           (In x to_sum -> v = Some (sum_of (map (fun j => var_at s k (p ++ j :: r)) (seq 0 n)))) /\
           (~ In x to_sum -> match wt with
                             | None => mean_of (map (fun j => var_at s k (p ++ j :: r)) (seq 0 n)) v
                             | Some (_, g) => wmean_of (map (fun j => (var_at s k (p ++ j :: r), g (p ++ j :: r))) (seq 0 n)) v
                             end)).
Proof. exact average_ok. Qed.
Print Assumptions C23_average.
Example C23_average_ex : match average ex 7 (WName 2) false [2] with
  | Ok t => map (option_map this) (cell (data t) [1]) = [Some 21; Some 10]%Q /\ dims t = [8]
  | Err _ => False end.
Proof. vm_compute. split; reflexivity. Qed.

Theorem C23_bin_total : forall (a : arr val) new, length (shape a) = length new -> new <> [] ->
  Forall2 (fun d c => 0 < d /\ c mod d = 0) new (shape a) ->
  exists b, bin_ndarray nansum a new = Ok b /\ shape b = new /\ total b = total a /\ (forall idx, valid new idx -> cell b idx <> None).
Proof. exact bin_total. Qed.
Print Assumptions C23_bin_total.
Example C23_bin_total_ex : match bin_ndarray nansum (column ex_data 0) [2; 1] with
  | Ok b => option_map this (cell b [1; 0]) = Some 102%Q /\ this (total b) = 114%Q | Err _ => False end.
Proof. vm_compute. split; reflexivity. Qed.

(* C24 *)
Theorem C24_getitem : forall s ks fl jss, wf s -> wants (sshape s) ks fl jss -> plain ks -> In true fl ->
  exists t, getitem s ks = Ok t /\ wf t /\ dims t = keep fl (dims s) /\ vars t = vars s /\ fts t = fts s /\ attrs t = attrs s /\
    edges t = keep fl (map (fun p => chosen_edges (fst p) (snd p)) (combine (edges s) jss)) /\
    Forall2 centres (edges t) (coords t) /\ sshape t = keep fl (map (@length nat) jss) /\
    forall idx, valid (sshape t) idx ->
      cell (data t) idx = cell (data s) (full fl jss idx) /\ cell (mask t) idx = cell (mask s) (full fl jss idx).
Proof. exact getitem_centres. Qed.
Print Assumptions C24_getitem.
Example C24_getitem_ex : wants (sshape ex) [KSlice (Some 1%Z) None None; KInt (-1)] [true; false] [[1; 2; 3]; [1]] /\
  plain [KSlice (Some 1%Z) None None; KInt (-1)] /\
  match getitem ex [KSlice (Some 1%Z) None None; KInt (-1)] with
  | Ok t => map (fun i => map (option_map this) (cell (data t) [i])) [0; 1; 2] = [[Some 11; Some 2]; [Some 21; Some 3]; [Some 31; Some 4]]%Q /\ map (map this) (edges t) = [[1; 2; 3; 4]]%Q
  | Err _ => False end.
Proof.
  split; [|split; [left; repeat constructor|vm_compute; split; reflexivity]].
  constructor; [eapply want_slice with (x := 1%Z) (y := 4%Z) (z := 1%Z); reflexivity|]. constructor; [|constructor]. apply want_int; [cbn; lia|]. right. reflexivity.
Qed.

Theorem C24_contiguous_edges : forall e a k, a + k < length e -> 0 < k -> chosen_edges e (seq a k) = firstn (S k) (skipn a e).
Proof. exact chosen_contiguous. Qed.
Print Assumptions C24_contiguous_edges.
Example C24_contiguous_edges_ex : map this (chosen_edges (map nq [0; 1; 2; 3; 4]) [1; 2]) = [1; 2; 3]%Q.
Proof. vm_compute. reflexivity. Qed.

Theorem C24_take : forall s masks ps, wf s ->
  (forall d p, In (d, p) ps -> exists i, nth_error (dims s) i = Some d /\ pick_ok (nth i (sshape s) 0) p) ->
  exists t jss, take s masks ps = Ok t /\ wf t /\ length jss = length (dims s) /\
    (forall i, i < length (dims s) -> StronglySorted lt (nth i jss []) /\
       forall j, In j (nth i jss []) <-> j < nth i (sshape s) 0 /\
         (forall m idx, In m masks -> valid (sshape s) idx -> nth i idx 0 = j -> m idx = true) /\
         (forall d p, In (d, p) ps -> nth_error (dims s) i = Some d -> picks (nth i (sshape s) 0) p j)) /\
    dims t = dims s /\ vars t = vars s /\ fts t = fts s /\ attrs t = attrs s /\
    edges t = map (fun p => chosen_edges (fst p) (snd p)) (combine (edges s) jss) /\ Forall2 centres (edges t) (coords t) /\
    sshape t = map (@length nat) jss /\
    forall idx, valid (sshape t) idx ->
      cell (data t) idx = cell (data s) (map (fun p => nth (fst p) (snd p) 0) (combine idx jss)) /\
      cell (mask t) idx = cell (mask s) (map (fun p => nth (fst p) (snd p) 0) (combine idx jss)).
Proof. exact take_centres. Qed.
Print Assumptions C24_take.
Example C24_take_ex : match take ex [fun idx => negb (shape_eqb idx [3; 0])] [(7, PIdx [-3; 2; 3]%Z); (8, PMask [false; true])] with
  | Ok t => map (fun i => map (option_map this) (cell (data t) [i; 0])) [0; 1] = [[Some 11; Some 2]; [Some 21; Some 3]]%Q
  | Err _ => False end.
Proof. vm_compute. reflexivity. Qed.

Theorem C24_sel : forall s nearest dim i x k, wf s -> 2 <= length (dims s) -> nth_error (dims s) i = Some dim -> located (nth i (coords s) []) x nearest k ->
  exists t, sel s nearest [(dim, IScalar x)] = Ok t /\ wf t /\ dims t = remove_at i (dims s) /\ vars t = vars s /\ fts t = fts s /\ attrs t = attrs s /\
    edges t = remove_at i (edges s) /\
    forall p r, length p = i -> valid (sshape t) (p ++ r) ->
      cell (data t) (p ++ r) = cell (data s) (p ++ k :: r) /\ cell (mask t) (p ++ r) = cell (mask s) (p ++ k :: r).
Proof. exact sel_scalar_ok. Qed.
Print Assumptions C24_sel.
Example C24_sel_ex : located (nth 0 (coords ex) []) (q 2 1) true 1 /\
  match sel ex true [(7, IScalar (q 2 1))] with Ok t => map (option_map this) (cell (data t) [1]) = [Some 11; Some 2]%Q | Err _ => False end.
Proof.
  split; [|vm_compute; reflexivity]. split; [vm_compute; lia|]. intros j Hj. vm_compute in Hj. do 4 (destruct j as [|j]; [split; [vm_compute; discriminate|intros; try (vm_compute; reflexivity); exfalso; lia]|]). exfalso. lia.
Qed.

Theorem C24_names : forall s names ks, wf s -> NoDup (map fst (vars s)) -> Forall2 (fun x k => exists b, nth_error (vars s) k = Some (x, b)) names ks ->
  exists t, get_vars s names = Ok t /\ wf t /\ dims t = dims s /\ map fst (vars t) = names /\ edges t = edges s /\ coords t = map mid (edges s) /\ fts t = fts s /\ attrs t = attrs s /\
    sshape t = sshape s /\
    forall idx, valid (sshape s) idx -> cell (mask t) idx = cell (mask s) idx /\
      forall q k, nth_error ks q = Some k -> var_at t q idx = var_at s k idx /\ nth_error (vars t) q = nth_error (vars s) k.
Proof. exact get_vars_ok. Qed.
Print Assumptions C24_names.
Example C24_names_ex : match get_vars ex [2] with Ok t => map (option_map this) (cell (data t) [3; 1]) = [Some 4%Q] /\ vars t = [(2, true)] | Err _ => False end.
Proof. vm_compute. split; reflexivity. Qed.

Theorem C24_refused : forall s ks, (length (dims s) < length ks \/ (wf s /\ exists l, ks = map KInt l /\ length l = length (dims s))) -> getitem s ks = Err IndexError.
Proof. exact getitem_refused. Qed.
Print Assumptions C24_refused.
Example C24_refused_ex : getitem ex [KInt 0; KInt 1] = Err IndexError.
Proof. reflexivity. Qed.

(* C25 *)
Theorem C25_call : forall h o dim spacing w force arg, In dim (dims (o_stat o)) ->
  let r := match arg with Some r => r | None => 0 end in
  let '(h', out) := reindex_call h o dim spacing w force arg in
  out = reindex (o_stat o) dim spacing w force (nth r h [] ++ nth (o_fts o) h []) /\
  length h' = length h /\
  (forall j, j <> r -> nth j h' [] = nth j h []) /\
  (r < length h -> nth r h' [] = nth r h [] ++ nth (o_fts o) h []).
Proof. exact reindex_call_ok. Qed.
Print Assumptions C25_call.
Theorem C25_history : forall calls h,
  Forall (fun c : call => nth (o_fts (c_obj c)) h [] = [] /\ match c_arg c with Some r => r < length h | None => 0 < length h end) calls ->
  fst (run_calls h calls) = h /\
  snd (run_calls h calls) = map (fun c => reindex (o_stat (c_obj c)) (c_dim c) (c_spacing c) (c_weights c) (c_force c) (match c_arg c with Some r => nth r h [] | None => nth 0 h [] end)) calls.
Proof. exact history_ok. Qed.
Print Assumptions C25_history.
Theorem C25_as_set : forall s dim spacing w force l l', (forall x, In x l <-> In x l') -> reindex s dim spacing w force l = reindex s dim spacing w force l'.
Proof. exact rebin_names. Qed.
Print Assumptions C25_as_set.
Definition ex_call (f : nat) (a : option nat) : call := {| c_obj := {| o_stat := ex; o_fts := f |}; c_dim := 7; c_spacing := q 2 1; c_weights := WNone; c_force := false; c_arg := a |}.
Example C25_history_ex : fst (run_calls [[]; []; [2]] [ex_call 1 None; ex_call 1 (Some 2)]) = [[]; []; [2]] /\
  match snd (run_calls [[]; []; [2]] [ex_call 1 None; ex_call 1 (Some 2)]) with
  | [Ok a; Ok b] => map (option_map this) (cell (data a) [0; 0]) = [Some 0; Some 1]%Q /\ map (option_map this) (cell (data b) [0; 0]) = [Some 0; Some 3]%Q
  | _ => False end.
Proof. vm_compute. repeat split; reflexivity. Qed.

(* C69 *)
Theorem C69_state : forall s, wf s -> exists t, from_state (getstate s) = Ok t /\ dims t = dims s /\ edges t = edges s /\ coords t = coords s /\ vars t = vars s /\ attrs t = attrs s /\
  shape (data t) = shape (data s) /\
  forall idx, cell (data t) idx = cell (data s) idx /\ (cell (mask t) idx = true <-> exists k, k < length (vars s) /\ var_at s k idx = None).
Proof. exact state_ok. Qed.
Print Assumptions C69_state.
Example C69_state_ex : match from_state (getstate ex) with Ok t => map (option_map this) (cell (data t) [3; 1]) = [Some 31; Some 4]%Q /\ cell (mask t) [1; 0] = true | Err _ => False end.
Proof. vm_compute. split; reflexivity. Qed.

(* C70: the names to sum are not part of the state *)
Theorem C70_fields_lost_refuted : exists s, wf s /\ match from_state (getstate s) with Ok t => fts t <> fts s | Err _ => True end.
Proof. exists ex. split; [exact ex_wf|]. vm_compute. discriminate. Qed.
Print Assumptions C70_fields_lost_refuted.

Definition with_ok {A} (r : res A) (P : A -> Prop) : Prop := match r with Ok a => P a | Err _ => False end.
Lemma with_ok_ex {A} (r : res A) P : with_ok r P -> exists a, r = Ok a /\ P a.
Proof. destruct r as [a|]; cbn; [exists a; auto|contradiction]. Qed.
Example ex_rebinnable0 : rebinnable ex 7 0 4 (nq 0) (nq 1) (q 2 1) WNone None false [] 2.
Proof. destruct ex_rebinnable as (H1 & H2 & H3 & H4 & H5 & H6 & H7 & H8 & H9 & H10 & H11 & H12). repeat (split; [assumption|]). intros; exact I. Qed.
(* C71: the mean of an integer column is truncated *)
Theorem C71_integer_mean_refuted : exists s dim spacing m t k idx,
  rebinnable s dim 0 4 (nq 0) (nq 1) spacing WNone None false [] m /\ reindex s dim spacing WNone false [] = Ok t /\ valid (sshape t) idx /\ k < length (vars s) /\
  ~ mean_of (map (var_at s k) (fine 0 m idx)) (var_at t k idx).
Proof.
  destruct (with_ok_ex (reindex ex 7 (q 2 1) WNone false []) (fun t => sshape t = [2; 2] /\ option_map this (var_at t 1 [0; 0]) = Some 1%Q)) as (t & E & S & V); [vm_compute; split; reflexivity|].
  exists ex, 7, (q 2 1), 2, t, 1, [0; 0]. split; [exact ex_rebinnable0|]. split; [exact E|]. split; [rewrite S; repeat constructor|]. split; [cbn; lia|].
  destruct (var_at t 1 [0; 0]) as [v|]; [|discriminate]. cbn in V. injection V as V.
  intros [[_ H]|(_ & y & H & HY)]; [discriminate|]. injection H as <-. apply (f_equal this) in HY. unfold Qcmult in HY. cbn [this Q2Qc] in HY. rewrite V in HY. vm_compute in HY. discriminate.
Qed.
Print Assumptions C71_integer_mean_refuted.

Definition bins (e : list Qc) : list (Qc * Qc) := combine e (tl e).
Definition thiss (l : list Qc) : list Q := map this l.
Definition grid_stat (ds : list nat) (es : list (list Qc)) (cs : list (list Qc)) (vs : list (nat * bool)) (f : list nat -> list val) : stat :=
  {| dims := ds; edges := es; coords := cs; vars := vs; data := {| shape := map (@length Qc) cs; cell := f |};
     mask := {| shape := map (@length Qc) cs; cell := fun i => existsb (fun x => negb (finite x)) (f i) |}; fts := []; attrs := [] |}.
Lemma grid_wf ds es cs vs f : length es = length ds -> Forall2 (fun c e : list Qc => length e = S (length c)) cs es -> (forall i, length (f i) = length vs) -> NoDup ds -> wf (grid_stat ds es cs vs f).
Proof. intros H1 H2 H3 H4. assert (length cs = length es) by (clear -H2; induction H2; cbn; congruence). constructor; cbn; auto. congruence. Qed.

(* C72: uneven bins are accepted without force; an edge of the result is none of the edges *)
Theorem C72_uneven_refuted : exists s dim spacing t x, wf s /\ reindex s dim spacing WNone false [] = Ok t /\ In x (nth 0 (edges t) []) /\ ~ In x (nth 0 (edges s) []).
Proof.
  set (s := grid_stat [7] [map nq [0; 2; 3; 5; 8]] [mid (map nq [0; 2; 3; 5; 8])] [(1, false)] (fun _ => [Some 0%Qc])).
  destruct (with_ok_ex (reindex s 7 (q 3 1) WNone false []) (fun t => thiss (nth 0 (edges t) []) = [0; 4; 8]%Q)) as (t & E & H); [vm_compute; reflexivity|].
  exists s, 7, (q 3 1), t. assert (HI : In 4%Q (thiss (nth 0 (edges t) []))) by (rewrite H; right; left; reflexivity). apply in_map_iff in HI. destruct HI as (b & Hb & HI). clear H. exists b. split; [apply grid_wf; [reflexivity|repeat constructor|reflexivity|repeat constructor; intros []]|].
  split; [exact E|]. split; [exact HI|]. clear HI. intros HI. apply (in_map this) in HI. rewrite Hb in HI. vm_compute in HI. intuition discriminate.
Qed.
Print Assumptions C72_uneven_refuted.

(* C73: average over uneven bins leaves out part of them *)
Theorem C73_average_uneven_refuted : exists s t, wf s /\ average s 7 WNone true [] = Ok t /\ valid (sshape t) [0] /\
  ~ mean_of (map (fun j => var_at s 0 [j; 0]) (seq 0 (nth 0 (sshape s) 0))) (var_at t 0 [0]).
Proof.
  set (s := grid_stat [7; 8] [map nq [0; 10; 11; 12]; map nq [0; 1]] [mid (map nq [0; 10; 11; 12]); mid (map nq [0; 1])] [(1, false)] (fun i => [Some (nq (hd 0 i))])).
  destruct (with_ok_ex (average s 7 WNone true []) (fun t => sshape t = [1] /\ option_map this (var_at t 0 [0]) = Some (1 # 2)%Q)) as (t & E & S & V); [vm_compute; split; reflexivity|].
  exists s, t. split; [apply grid_wf; [reflexivity|repeat constructor|reflexivity|repeat constructor; cbn; intuition discriminate]|]. split; [exact E|]. split; [rewrite S; repeat constructor|].
  destruct (var_at t 0 [0]) as [v|]; [|discriminate]. cbn in V. injection V as V. intros [[_ H]|(_ & y & H & HY)]; [discriminate|]. injection H as <-. apply (f_equal this) in HY. unfold Qcmult in HY. cbn [this Q2Qc] in HY. rewrite V in HY. vm_compute in HY. discriminate.
Qed.
Print Assumptions C73_average_uneven_refuted.

(* C74: bins selected by a list do not keep their edges *)
Theorem C74_list_edges_refuted : exists s ks t b, wf s /\ getitem s ks = Ok t /\ In b (bins (nth 0 (edges t) [])) /\ ~ In b (bins (nth 0 (edges s) [])).
Proof.
  destruct (with_ok_ex (getitem ex [KList [0; 2]%Z]) (fun t => map (fun b => (this (fst b), this (snd b))) (bins (nth 0 (edges t) [])) = [(0, 2); (2, 3)]%Q)) as (t & E & H); [vm_compute; reflexivity|].
  exists ex, [KList [0; 2]%Z], t. destruct (bins (nth 0 (edges t) [])) as [|b l]; [discriminate|]. exists b. split; [exact ex_wf|]. split; [exact E|]. split; [left; reflexivity|]. cbn [map] in H. injection H as H0 H1 _.
  intros HI. apply (in_map (fun b => (this (fst b), this (snd b)))) in HI. rewrite H0, H1 in HI. vm_compute in HI. intuition discriminate.
Qed.
Print Assumptions C74_list_edges_refuted.

(* C75: an integer and a list with a slice in between scramble the data *)
Theorem C75_mixed_key_refuted : exists s ks fl jss t idx, wf s /\ wants (sshape s) ks fl jss /\ In true fl /\ getitem s ks = Ok t /\ valid (sshape t) idx /\
  cell (data t) idx <> cell (data s) (full fl jss idx).
Proof.
  set (s := grid_stat [7; 8; 9] [map nq [0; 1; 2]; map nq [0; 1; 2]; map nq [0; 1; 2; 3]] [mid (map nq [0; 1; 2]); mid (map nq [0; 1; 2]); mid (map nq [0; 1; 2; 3])] [(1, false)]
    (fun i => [Some (nq (10 * nth 1 i 0 + nth 2 i 0))])).
  set (ks := [KInt 0; KSlice None None None; KList [1; 2]%Z]).
  destruct (with_ok_ex (getitem s ks) (fun t => sshape t = [2; 2] /\ map (option_map this) (cell (data t) [0; 1]) = [Some 11%Q])) as (t & E & S & V); [vm_compute; split; reflexivity|].
  exists s, ks, [false; true; true], [[0]; [0; 1]; [1; 2]], t, [0; 1]. split; [apply grid_wf; [reflexivity|repeat constructor|reflexivity|repeat constructor; cbn; intuition discriminate]|].
  split.
  { constructor; [apply want_int; [cbn; lia|left; reflexivity]|]. constructor; [eapply want_slice with (x := 0%Z) (y := 2%Z) (z := 1%Z); reflexivity|]. constructor; [|constructor]. apply (want_list _ [1; 2]). repeat constructor. }
  split; [right; left; reflexivity|]. split; [exact E|]. split; [rewrite S; repeat constructor|]. intros H. apply (f_equal (map (option_map this))) in H. rewrite V in H. vm_compute in H. discriminate.
Qed.
Print Assumptions C75_mixed_key_refuted.

(* C76: the default list of reindex remembers the names of earlier objects *)
Theorem C76_leak_refuted : exists h c1 c2 a b, wf (o_stat (c_obj c1)) /\ wf (o_stat (c_obj c2)) /\ c_arg c1 = None /\ c_arg c2 = None /\
  nth 0 (snd (run_calls h [c2])) (Err ValueError) = Ok a /\ nth 1 (snd (run_calls h [c1; c2])) (Err ValueError) = Ok b /\ var_at a 1 [0; 0] <> var_at b 1 [0; 0].
Proof.
  destruct (with_ok_ex (nth 0 (snd (run_calls [[]; []; [2]] [ex_call 1 None])) (Err ValueError)) (fun t => option_map this (var_at t 1 [0; 0]) = Some 1%Q)) as (a & EA & VA); [vm_compute; reflexivity|].
  destruct (with_ok_ex (nth 1 (snd (run_calls [[]; []; [2]] [ex_call 2 None; ex_call 1 None])) (Err ValueError)) (fun t => option_map this (var_at t 1 [0; 0]) = Some 3%Q)) as (b & EB & VB); [vm_compute; reflexivity|].
  exists [[]; []; [2]], (ex_call 2 None), (ex_call 1 None), a, b. split; [exact ex_wf|]. split; [exact ex_wf|]. split; [reflexivity|]. split; [reflexivity|].
  split; [exact EA|]. split; [exact EB|]. intros H. rewrite H, VB in VA. discriminate VA.
Qed.
Print Assumptions C76_leak_refuted.

(* C77: sel with a list ignores its order *)
Theorem C77_sel_order_refuted : exists s x1 x2 i1 i2 t, wf s /\ located (nth 0 (coords s) []) x1 false i1 /\ located (nth 0 (coords s) []) x2 false i2 /\
  sel s false [(7, IList [x1; x2])] = Ok t /\ cell (data t) [0; 0] <> cell (data s) [i1; 0].
Proof.
  destruct (with_ok_ex (sel ex false [(7, IList [q 5 2; q 1 2])]) (fun t => map (option_map this) (cell (data t) [0; 0]) = [Some 0; Some 1]%Q)) as (t & E & V); [vm_compute; reflexivity|].
  exists ex, (q 5 2), (q 1 2), 2, 0, t. split; [exact ex_wf|]. assert (N : forall a b : Qc, this a <> this b -> Some a <> Some b) by congruence.
  split; [split; [cbn; f_equal; apply Qc_is_canon; reflexivity|intros [|[|j]] Hj; try lia; apply N; vm_compute; discriminate]|].
  split; [split; [cbn; f_equal; apply Qc_is_canon; reflexivity|intros j Hj; lia]|]. split; [exact E|]. intros H. rewrite H in V. vm_compute in V. discriminate.
Qed.
Print Assumptions C77_sel_order_refuted.

(* C78: coordinates given by the user are lost on slicing *)
Theorem C78_coords_refuted : exists s t, init [7] [map nq [0; 1]] [(1, false)] {| shape := [1]; cell := fun _ => [Some 0%Qc] |} [] (Some [Some [q 1 4]]) [] = Ok s /\ wf s /\
  getitem s [KSlice None None None] = Ok t /\ edges t = edges s /\ coords t <> coords s.
Proof.
  eexists. destruct (with_ok_ex (getitem {| dims := [7]; edges := [map nq [0; 1]]; coords := [[q 1 4]]; vars := [(1, false)]; data := {| shape := [1]; cell := fun _ => [Some 0%Qc] |};
     mask := {| shape := [1]; cell := fun _ => false |}; fts := []; attrs := [] |} [KSlice None None None]) (fun t => edges t = [map nq [0; 1]] /\ map thiss (coords t) = [[1 # 2]]%Q)) as (t & E & H1 & H2); [vm_compute; split; reflexivity|].
  exists t. split; [reflexivity|]. split; [constructor; try reflexivity; cbn; repeat constructor; intros []|]. split; [exact E|]. split; [exact H1|]. intros H. rewrite H in H2. vm_compute in H2. discriminate.
Qed.
Print Assumptions C78_coords_refuted.

(* C79: with weights, missing values count as zeros *)
Theorem C79_weighted_missing_refuted : exists s t, wf s /\ reindex s 7 (q 2 1) (WName 2) false [] = Ok t /\
  (forall idx, valid (sshape s) idx -> var_at s 0 idx = None \/ var_at s 0 idx = Some (nq 6)) /\ var_at s 0 [1] = Some (nq 6) /\ (forall idx, var_at s 1 idx = Some (nq 1)) /\
  var_at t 0 [0] <> Some (nq 6).
Proof.
  set (s := grid_stat [7] [map nq [0; 1; 2]] [mid (map nq [0; 1; 2])] [(1, false); (2, false)] (fun i => match i with [0] => [None; Some (nq 1)] | _ => [Some (nq 6); Some (nq 1)] end)).
  destruct (with_ok_ex (reindex s 7 (q 2 1) (WName 2) false []) (fun t => option_map this (var_at t 0 [0]) = Some 3%Q)) as (t & E & V); [vm_compute; reflexivity|].
  exists s, t. split; [apply grid_wf; [reflexivity|repeat constructor|intros [|[|] [|]]; reflexivity|repeat constructor; intros []]|]. split; [exact E|].
  split; [intros [|[|i] [|]] _; cbn; auto|]. split; [reflexivity|]. split; [intros [|[|] [|]]; reflexivity|]. intros H. rewrite H in V. vm_compute in V. discriminate.
Qed.
Print Assumptions C79_weighted_missing_refuted.

(* C80: the average over the only dimension is refused *)
Theorem C80_average_1d_refuted : exists s, wf s /\ dims s = [7] /\ sshape s = [2] /\ average s 7 WNone true [] = Err IndexError.
Proof.
  exists (grid_stat [7] [map nq [0; 1; 2]] [mid (map nq [0; 1; 2])] [(1, false)] (fun _ => [Some (nq 1)])).
  split; [apply grid_wf; [reflexivity|repeat constructor|reflexivity|repeat constructor; intros []]|]. split; [reflexivity|]. split; [reflexivity|]. vm_compute. reflexivity.
Qed.
Print Assumptions C80_average_1d_refuted.

(* C81: a mask on one dimension only empties the others *)
Theorem C81_take_mask_refuted : exists s m t idx, wf s /\ take s [m] [] = Ok t /\ valid (sshape s) idx /\ m idx = true /\
  (forall i j, m [i; j] = m [i; 0]) /\ (forall idx', ~ valid (sshape t) idx').
Proof.
  destruct (with_ok_ex (take ex [fun idx => nth 0 idx 0 <? 3] []) (fun t => sshape t = [3; 0])) as (t & E & S); [vm_compute; reflexivity|].
  exists ex, (fun idx => nth 0 idx 0 <? 3), t, [1; 1]. split; [exact ex_wf|]. split; [exact E|]. split; [repeat constructor|]. split; [reflexivity|]. split; [reflexivity|].
  rewrite S. intros idx' H. inversion H as [|? ? ? ? ? H2]; subst. inversion H2; subst. lia.
Qed.
Print Assumptions C81_take_mask_refuted.
