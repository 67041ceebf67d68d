(* Property theorems C04-C07, C46, C50 and the refuted claims C52-C56. *)
From Verif Require Import Base BaseProofs RanksModel RanksSpec RanksProofs.

(* C04: GatherArray returns the rank-order concatenation, for every root, and
   leaves no cell of the receive buffer unset. *)
Theorem C04_gather_concatenates : forall (A : Type) root d (parts : list (list A)),
  gather_array root (map (fun p => (d, p)) parts) = Ok (map Some (global parts)).
Proof. exact @gather_ok. Qed.
Print Assumptions C04_gather_concatenates.
Example C04_gather_concatenates_ex :
  gather_array (Some 1%nat) [(7, [1; 2]); (7, []); (7, [3])] = Ok [Some 1; Some 2; Some 3].
Proof. reflexivity. Qed.

(* C04: arrays of different type are refused when gathered to rank 0 or to all. *)
Theorem C04_gather_refuses_mismatch : forall (A : Type) root (arrays : list (Z * list A)) x y,
  root = None \/ root = Some 0%nat ->
  In x arrays -> In y arrays -> fst x <> fst y -> gather_array root arrays = Err ValueError.
Proof. exact @gather_mismatch. Qed.
Print Assumptions C04_gather_refuses_mismatch.
Example C04_gather_refuses_mismatch_ex :
  gather_array None [(7, [1; 2]); (8, [3])] = Err ValueError.
Proof. reflexivity. Qed.

(* C04: without counts, scatter cuts the array into consecutive pieces of
   balanced size, one per rank. *)
Theorem C04_scatter_even : forall (A : Type) nranks (data : list A), (1 <= nranks)%nat ->
  exists parts, scatter_array 0 nranks data None = Ok parts /\
    global parts = data /\ length parts = nranks /\ balanced (map zlen parts).
Proof. exact @scatter_even_balanced. Qed.
Print Assumptions C04_scatter_even.
Example C04_scatter_even_ex : scatter_array 0 3 [1; 2; 3; 4; 5] None = Ok [[1; 2]; [3; 4]; [5]].
Proof. reflexivity. Qed.

(* C04: with counts, rank r gets exactly counts[r] items. *)
Theorem C04_scatter_counts : forall (A : Type) nranks (data : list A) cs,
  length cs = nranks -> Forall (fun c => 0 <= c) cs -> zsum cs = zlen data ->
  exists parts, scatter_array 0 nranks data (Some cs) = Ok parts /\
    global parts = data /\ map zlen parts = cs.
Proof. exact @scatter_counts_ok. Qed.
Print Assumptions C04_scatter_counts.
Example C04_scatter_counts_ex : scatter_array 0 3 [1; 2; 3] (Some [2; 0; 1]) = Ok [[1; 2]; []; [3]].
Proof. reflexivity. Qed.

(* C04: counts of the wrong number or the wrong sum are refused. *)
Theorem C04_scatter_refuses_bad_counts : forall (A : Type) nranks (data : list A) cs,
  length cs <> nranks \/ zsum cs <> zlen data ->
  scatter_array 0 nranks data (Some cs) = Err ValueError.
Proof. exact @scatter_bad_counts. Qed.
Print Assumptions C04_scatter_refuses_bad_counts.
Example C04_scatter_refuses_bad_counts_ex : scatter_array 0 2 [1; 2; 3] (Some [1; 1]) = Err ValueError.
Proof. reflexivity. Qed.

(* C04: gathering (to any rank or to all) what was scattered gives it back. *)
Theorem C04_scatter_gather : forall (A : Type) nranks (data : list A) counts root d parts,
  (1 <= nranks)%nat -> (forall cs, counts = Some cs -> Forall (fun c => 0 <= c) cs) ->
  scatter_array 0 nranks data counts = Ok parts ->
  gather_array root (map (fun p => (d, p)) parts) = Ok (map Some data).
Proof. exact @scatter_gather. Qed.
Print Assumptions C04_scatter_gather.
Example C04_scatter_gather_ex :
  scatter_array 0 2 [1; 2; 3] None = Ok [[1; 2]; [3]] /\
  gather_array (Some 1%nat) [(0, [1; 2]); (0, [3])] = Ok [Some 1; Some 2; Some 3].
Proof. split; reflexivity. Qed.

(* C52: with a root other than rank 0, arrays of different type are not refused. *)
Theorem C52_gather_mismatch_other_root_refuted :
  exists (arrays : list (Z * list Z)) x y,
    In x arrays /\ In y arrays /\ fst x <> fst y /\
    gather_array (Some 1%nat) arrays <> Err ValueError.
Proof.
  exists [(7, [1]); (8, [2])], (7, [1]), (8, [2]).
  split; [left; reflexivity|]. split; [right; left; reflexivity|]. split; vm_compute; discriminate.
Qed.
Print Assumptions C52_gather_mismatch_other_root_refuted.

(* C52: scattering from a root other than rank 0 fails. *)
Theorem C52_scatter_other_root_refuted :
  exists (data : list Z) nranks root, (root < nranks)%nat /\
    scatter_array root nranks data None = Err AttributeError.
Proof. exists [1; 2; 3], 2%nat, 1%nat. split; [vm_compute; repeat constructor|vm_compute; reflexivity]. Qed.
Print Assumptions C52_scatter_other_root_refuted.

(* C05: each rank gets its own items preceded by exactly the number of
   preceding items it asked for. *)
Theorem C05_front_pad : forall (A : Type) (arrays : list (list A)) fronts,
  length fronts = length arrays -> Forall (fun f => 0 <= f) fronts ->
  (forall r f, nth_error fronts r = Some f -> f <= zlen (before arrays r)) ->
  exists out, front_pad arrays fronts = Ok out /\ length out = length arrays /\
    forall r a f, nth_error arrays r = Some a -> nth_error fronts r = Some f ->
      nth_error out r = Some (lastn f (before arrays r) ++ a).
Proof. exact @front_pad_ok. Qed.
Print Assumptions C05_front_pad.
Example C05_front_pad_ex :
  front_pad [[1; 2]; []; [3]; [4; 5]] [0; 1; 2; 3] = Ok [[1; 2]; [2]; [1; 2; 3]; [1; 2; 3; 4; 5]].
Proof. reflexivity. Qed.

(* C05: a rank that asks for more items than precede it makes the call fail. *)
Theorem C05_front_too_large : forall (A : Type) (arrays : list (list A)) fronts r f,
  length fronts = length arrays -> nth_error fronts r = Some f -> zlen (before arrays r) < f ->
  front_pad arrays fronts = Err ValueError.
Proof. exact @front_pad_too_large. Qed.
Print Assumptions C05_front_too_large.
Example C05_front_too_large_ex : front_pad [[1; 2]; [3]] [0; 3] = Err ValueError.
Proof. reflexivity. Qed.

(* C06: the ranks hold the rows of the file, each exactly once, in order and
   balanced. *)
Theorem C06_rows_once : forall (A : Type) (rows : list A) nranks, (1 <= nranks)%nat ->
  global (catalog_rows rows (load_file (zlen rows) nranks)) = rows /\
  balanced (map zlen (catalog_rows rows (load_file (zlen rows) nranks))).
Proof. intros A rows n H. split; [exact (load_rows rows n H)|exact (load_balanced rows n H)]. Qed.
Print Assumptions C06_rows_once.
Example C06_rows_once_ex : catalog_rows [1; 2; 3; 4; 5] (load_file 5 3) = [[1]; [2; 3]; [4; 5]].
Proof. reflexivity. Qed.

(* C06: query_range(a, b) of a freshly loaded file catalog has the rows a..b. *)
Theorem C06_query_range : forall (A : Type) (rows : list A) nranks a b, (1 <= nranks)%nat ->
  0 <= a <= b -> b <= zlen rows ->
  global (catalog_rows rows (query_range (load_file (zlen rows) nranks) a b))
  = select rows (py_range a b 1).
Proof. exact @query_rows_fresh. Qed.
Print Assumptions C06_query_range.
Example C06_query_range_ex :
  catalog_rows [1; 2; 3; 4; 5] (query_range (load_file 5 2) 1 4) = [[2]; [3; 4]].
Proof. reflexivity. Qed.

(* C53: nested range queries compose neither as ranges of the physical file ... *)
Theorem C53_nested_absolute_refuted :
  exists (rows : list Z) nranks a b a' b',
    0 <= a <= b /\ b <= zlen rows /\ a <= a' <= b' /\ b' <= b /\
    global (catalog_rows rows (query_range (query_range (load_file (zlen rows) nranks) a b) a' b'))
    <> select rows (py_range a' b' 1).
Proof.
  exists [0; 1; 2; 3; 4; 5; 6; 7; 8; 9], 2%nat, 2, 8, 3, 5.
  repeat split; try (vm_compute; discriminate).
Qed.
Print Assumptions C53_nested_absolute_refuted.

(* ... nor, from the third level on, as ranges relative to the previous result. *)
Theorem C53_nested_relative_refuted :
  exists (rows : list Z) nranks,
    let c1 := query_range (load_file (zlen rows) nranks) 2 10 in
    let c2 := query_range c1 1 6 in
    let c3 := query_range c2 1 3 in
    global (catalog_rows rows c3) <> select (global (catalog_rows rows c2)) (py_range 1 3 1).
Proof. exists [0; 1; 2; 3; 4; 5; 6; 7; 8; 9], 2%nat. vm_compute. discriminate. Qed.
Print Assumptions C53_nested_relative_refuted.

(* C53: nor is a range outside the selected region refused: the whole file can
   be reached again from a sub-range. *)
Theorem C53_range_escapes_refuted :
  exists (rows : list Z) nranks,
    global (catalog_rows rows (query_range (query_range (load_file (zlen rows) nranks) 1 3) 0 4))
    = select rows (py_range 1 5 1).
Proof. exists [0; 1; 2; 3; 4; 5; 6; 7; 8; 9], 2%nat. vm_compute. reflexivity. Qed.
Print Assumptions C53_range_escapes_refuted.

(* C53: what does hold at every nesting depth: a query selects the rows
   counted from the (absolute or relative) start recorded by its parent. *)
Theorem C53_query_partial : forall (A : Type) (rows : list A) c a b, (1 <= length (fc_bounds c))%nat ->
  0 <= fc_start c + a -> a <= b ->
  global (catalog_rows rows (query_range c a b)) = sub rows (fc_start c + a) (fc_start c + b).
Proof. exact @query_rows. Qed.
Print Assumptions C53_query_partial.
Example C53_query_partial_ex :
  global (catalog_rows [0; 1; 2; 3; 4; 5; 6] (query_range (query_range (load_file 7 2) 2 6) 1 3)) = [3; 4].
Proof. reflexivity. Qed.

(* C07: for samplers whose first values do not depend on how many are drawn,
   the ranks together hold the serial sequence, each rank its own count. *)
Theorem C07_serial : forall (A B : Type) (sampler : Z -> list A -> list B) seeds c (args : list (list A)),
  prefix_stable sampler -> 1 <= c -> zlen seeds = rng_nchunks (zlen (global args)) c ->
  exists out, mpi_random sampler seeds c args = Ok out /\
    map zlen out = map zlen args /\
    global out = serial_draw sampler (Z.to_nat c) seeds (global args).
Proof. exact @mpi_random_ok. Qed.
Print Assumptions C07_serial.
(* a sampler whose j-th value is seed + j + the j-th argument *)
Definition demo_sampler (seed : Z) (args : list Z) : list Z :=
  map (fun ja => seed + Z.of_nat (fst ja) + snd ja) (combine (seq 0 (length args)) args).
Example C07_serial_ex :
  mpi_random demo_sampler [100; 200; 300] 2 [[1]; [1; 1]; []; [1; 1]] = Ok [[101]; [102; 201]; []; [202; 301]].
Proof. reflexivity. Qed.

(* C07: so any two ways of spreading the same items over ranks give the same
   numbers. *)
Theorem C07_layout_independent :
  forall (A B : Type) (sampler : Z -> list A -> list B) seeds c (args args' : list (list A)),
  prefix_stable sampler -> 1 <= c -> zlen seeds = rng_nchunks (zlen (global args)) c ->
  global args = global args' ->
  exists out out', mpi_random sampler seeds c args = Ok out /\ mpi_random sampler seeds c args' = Ok out' /\
    global out = global out' /\ map zlen out = map zlen args /\ map zlen out' = map zlen args'.
Proof. exact @mpi_random_layout. Qed.
Print Assumptions C07_layout_independent.
Lemma demo_sampler_stable : prefix_stable demo_sampler.
Proof.
  split.
  - intros. unfold demo_sampler. rewrite map_length, combine_length, seq_length. apply Nat.min_id.
  - intros. unfold demo_sampler. rewrite firstn_map, combine_firstn. f_equal.
    apply nth_error_ext. intros i. rewrite !nth_error_combine, !nth_error_firstn, !nth_error_seq.
    rewrite firstn_length. destruct (Nat.ltb_spec i m); destruct (Nat.ltb_spec i (length args));
    destruct (Nat.ltb_spec i (Nat.min m (length args))); try lia; try reflexivity;
    destruct (nth_error args i); reflexivity.
Qed.
Example C07_layout_independent_ex :
  prefix_stable demo_sampler /\
  mpi_random demo_sampler [100; 200; 300] 2 [[1; 1; 1; 1; 1]] = Ok [[101; 102; 201; 202; 301]].
Proof. split; [exact demo_sampler_stable|reflexivity]. Qed.

(* C54: a sampler that is not prefix stable (a permutation of the chunk, as
   drawn by choice(replace=False) or shuffle) does depend on the layout. *)
Theorem C54_unstable_sampler_refuted :
  exists (sampler : Z -> list Z -> list Z) seeds c args args' out out',
    global args = global args' /\ zlen seeds = rng_nchunks (zlen (global args)) c /\
    (forall s a, length (sampler s a) = length a) /\
    mpi_random sampler seeds c args = Ok out /\ mpi_random sampler seeds c args' = Ok out' /\
    global out <> global out'.
Proof.
  exists (fun _ a => rev a), [0], 4, [[1; 2; 3; 4]], [[1; 2]; [3; 4]].
  exists [[4; 3; 2; 1]], [[2; 1]; [2; 1]].
  repeat split; try (vm_compute; congruence). intros; apply rev_length.
Qed.
Print Assumptions C54_unstable_sampler_refuted.

(* C46: if all ranks know the same total, their sizes add up to it; this
   covers RandomCatalog and UniformCatalog with a seed. *)
Theorem C46_random_catalog_total : forall nranks n, (1 <= nranks)%nat -> n <> 0 ->
  exists sizes, random_catalog_sizes (repeat n nranks) = Ok sizes /\ zsum sizes = n /\ length sizes = nranks.
Proof. exact random_catalog_total. Qed.
Print Assumptions C46_random_catalog_total.
Example C46_random_catalog_total_ex : random_catalog_sizes [10; 10; 10] = Ok [3; 3; 4].
Proof. reflexivity. Qed.

Theorem C46_uniform_seeded_total : forall draw s nranks, (1 <= nranks)%nat ->
  (forall r r', draw (Some s) r = draw (Some s) r') -> draw (Some s) 0%nat <> 0 ->
  exists sizes, uniform_catalog_sizes draw (Some s) nranks = Ok sizes /\ zsum sizes = draw (Some s) 0%nat.
Proof. exact uniform_seeded_total. Qed.
Print Assumptions C46_uniform_seeded_total.
Example C46_uniform_seeded_total_ex :
  uniform_catalog_sizes (fun _ _ => 7) (Some 42) 2 = Ok [3; 4].
Proof. reflexivity. Qed.

(* C55: without a seed every rank draws its own total, and the sizes add up to
   none of them. *)
Theorem C55_uniform_unseeded_refuted :
  exists draw nranks sizes, (1 <= nranks)%nat /\
    uniform_catalog_sizes draw None nranks = Ok sizes /\
    forall r, (r < nranks)%nat -> zsum sizes <> draw None r.
Proof.
  exists (fun _ r => match r with O => 10 | _ => 4 end), 2%nat, [5; 2].
  split; [repeat constructor|]. split; [reflexivity|]. intros [|r] _; vm_compute; discriminate.
Qed.
Print Assumptions C55_uniform_unseeded_refuted.

(* C50: whatever get_data_bounds returns are the extremes of all selected
   values of all ranks. *)
Theorem C50_bounds_are_extremes : forall c ranks lo hi, 1 <= c -> data_bounds c ranks = Ok (lo, hi) ->
  smallest (map fst (filter snd (global ranks))) lo /\ largest (map fst (filter snd (global ranks))) hi.
Proof. exact data_bounds_sound. Qed.
Print Assumptions C50_bounds_are_extremes.
Example C50_bounds_are_extremes_ex :
  data_bounds 2 [[(5, true); (9, false); (-1, true)]; []; [(7, true); (3, true); (-8, false); (1, true)]] = Ok (Some (-1), Some 7).
Proof. reflexivity. Qed.

(* C50: it does return when every rank's rows fit in one chunk and no rank has
   rows but no selected row. *)
Theorem C50_bounds_total : forall c ranks, 1 <= c -> (forall d, In d ranks -> zlen d <= c) ->
  (forall d, In d ranks -> d <> [] -> exists x, In (x, true) d) ->
  exists b, data_bounds c ranks = Ok b.
Proof. exact data_bounds_total. Qed.
Print Assumptions C50_bounds_total.
Example C50_bounds_total_ex : data_bounds 3 [[(5, true); (9, false)]; []] = Ok (Some 5, Some 5).
Proof. reflexivity. Qed.

(* C56: uneven ranks spanning several chunks make it fail ... *)
Theorem C56_bounds_uneven_refuted :
  exists c ranks, 1 <= c /\ (forall d, In d ranks -> forall x, In x d -> snd x = true) /\
    data_bounds c ranks = Err ValueError.
Proof.
  exists 2, [[(1, true); (2, true); (3, true)]; [(4, true)]].
  split; [lia|]. split; [|vm_compute; reflexivity].
  intros d [<-|[<-|[]]] x Hx; repeat (destruct Hx as [<-|Hx]; [reflexivity|]); destruct Hx.
Qed.
Print Assumptions C56_bounds_uneven_refuted.

(* ... and so does a chunk none of whose rows is selected. *)
Theorem C56_bounds_selection_refuted :
  exists c ranks, 1 <= c /\ (exists d x, In d ranks /\ In (x, true) d) /\ data_bounds c ranks = Err ValueError.
Proof.
  exists 2, [[(1, false); (2, false); (3, true)]].
  split; [lia|]. split; [|vm_compute; reflexivity].
  eexists. exists 3. split; [left; reflexivity|]. right; right; left; reflexivity.
Qed.
Print Assumptions C56_bounds_selection_refuted.
