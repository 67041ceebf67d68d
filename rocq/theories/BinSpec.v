(* Binned statistics, described by their cells. *)
From Verif Require Import Base Num BinModel.
Local Open Scope nat_scope.

(* an index of an array of the given shape *)
Definition valid (s idx : list nat) : Prop := Forall2 (fun i n => i < n) idx s.

(* all cells of an array, and their total (values that are not finite left out) *)
Fixpoint grid (s : list nat) : list (list nat) :=
  match s with [] => [[]] | n :: s => concat (map (fun i => map (cons i) (grid s)) (seq 0 n)) end.
Definition total (a : arr val) : Qc := qsum (map (fun i => match cell a i with Some x => x | None => 0%Qc end) (grid (shape a))).

(* the m fine cells of axis i that make up a coarse cell *)
Definition fine (i m : nat) (idx : list nat) : list (list nat) :=
  map (fun j => firstn i idx ++ (nth i idx 0 * m + j) :: skipn (S i) idx) (seq 0 m).

(* sum and mean of the finite values; weighted mean *)
Fixpoint finite_values (l : list val) : list Qc :=
  match l with [] => [] | Some x :: l => x :: finite_values l | None :: l => finite_values l end.
Definition sum_of (l : list val) : Qc := qsum (finite_values l).
Definition mean_of (l : list val) (v : val) : Prop :=
  (finite_values l = [] /\ v = None) \/
  (finite_values l <> [] /\ exists x, v = Some x /\ (x * nq (length (finite_values l)))%Qc = sum_of l).
(* values that are not finite count as zero, with their weight *)
Definition wsum_of (l : list (val * Qc)) : Qc := qsum (map (fun xw => match fst xw with Some x => (x * snd xw)%Qc | None => 0%Qc end) l).
Definition wmean_of (l : list (val * Qc)) (v : val) : Prop :=
  (qsum (map snd l) = 0%Qc /\ v = None) \/
  (qsum (map snd l) <> 0%Qc /\ exists x, v = Some x /\ (x * qsum (map snd l))%Qc = wsum_of l).

(* a statistic whose parts fit together *)
Record wf (s : stat) : Prop := {
  wf_edges : length (edges s) = length (dims s);
  wf_coords : length (coords s) = length (dims s);
  wf_bins : Forall2 (fun c e => length e = S (length c)) (coords s) (edges s);
  wf_data : shape (data s) = map (@length Qc) (coords s);
  wf_mask : shape (mask s) = map (@length Qc) (coords s);
  wf_rows : forall idx, length (cell (data s) idx) = length (vars s);
  wf_names : NoDup (dims s)
}.
(* n bins of width h *)
Definition even (e : list Qc) (e0 h : Qc) (n : nat) : Prop := e = map (fun k => (e0 + nq k * h)%Qc) (seq 0 (S n)).
Definition centres (e : list Qc) (c : list Qc) : Prop :=
  length e = S (length c) /\ forall k a b, nth_error e k = Some a -> nth_error e (S k) = Some b ->
    exists x, nth_error c k = Some x /\ (x + x)%Qc = (a + b)%Qc.

(* the k-th variable *)
Definition var_at (s : stat) (k : nat) (idx : list nat) : val := nth k (cell (data s) idx) None.
(* the meaning of the weights argument: no weights, or a finite number per cell;
   with a flag for integer type *)
Inductive weighted_by (s : stat) : weights -> option (bool * (list nat -> Qc)) -> Prop :=
| by_none : weighted_by s WNone None
| by_name x k int g : nth_error (vars s) k = Some (x, int) -> NoDup (map fst (vars s)) ->
    (forall idx, valid (shape (data s)) idx -> var_at s k idx = Some (g idx)) -> weighted_by s (WName x) (Some (int, g))
| by_array a int g : shape a = shape (data s) ->
    (forall idx, valid (shape (data s)) idx -> cell a idx = Some (g idx)) -> weighted_by s (WArr int a) (Some (int, g)).
(* what a coarse value is *)
Definition coarse (s : stat) (i m : nat) (wt : option (bool * (list nat -> Qc))) (summed : Prop) (k : nat) (idx : list nat) (v : val) : Prop :=
  (summed -> v = Some (sum_of (map (var_at s k) (fine i m idx)))) /\
  (~ summed -> match wt with
               | None => mean_of (map (var_at s k) (fine i m idx)) v
               | Some (_, g) => wmean_of (map (fun t => (var_at s k t, g t)) (fine i m idx)) v
               end).
Definition integral (v : val) : Prop := exists z, v = Some (zq z).

(* ---- indexing ---- *)
(* what one subkey selects on an axis of n bins, and whether the axis is kept; lists of
   non-negative numbers only *)
Inductive wanted (n : nat) : subkey -> bool -> list nat -> Prop :=
| want_int i j : j < n -> (i = Z.of_nat j \/ i = Z.of_nat j - Z.of_nat n)%Z -> wanted n (KInt i) false [j]
| want_list js : Forall (fun j => j < n) js -> wanted n (KList (map Z.of_nat js)) true js
| want_slice a b c x y z js : slice_indices a b c (Z.of_nat n) = Ok (x, y, z) -> map Z.of_nat js = py_range x y z ->
    wanted n (KSlice a b c) true js.
(* axes without a subkey are kept as they are *)
Inductive wants : list nat -> list subkey -> list bool -> list (list nat) -> Prop :=
| wants_nil : wants [] [] [] []
| wants_rest n sh fl jss : wants sh [] fl jss -> wants (n :: sh) [] (true :: fl) (seq 0 n :: jss)
| wants_cons n sh k ks b fl js jss : wanted n k b js -> wants sh ks fl jss -> wants (n :: sh) (k :: ks) (b :: fl) (js :: jss).
(* no list among the subkeys, or one list and the integers adjacent to it *)
Definition is_kint (k : subkey) : bool := match k with KInt _ => true | _ => false end.
Definition is_kslice (k : subkey) : bool := match k with KSlice _ _ _ => true | _ => false end.
Definition is_klist (k : subkey) : bool := match k with KList _ => true | _ => false end.
Definition plain (ks : list subkey) : Prop :=
  Forall (fun k => is_klist k = false) ks \/
  exists A B l C D, ks = A ++ B ++ KList l :: C ++ D /\
    Forall (fun k => is_kslice k = true) A /\ Forall (fun k => is_kint k = true) B /\
    Forall (fun k => is_kint k = true) C /\ Forall (fun k => is_kslice k = true) D.
(* the entries of the kept axes *)
Fixpoint keep {A} (fl : list bool) (l : list A) : list A :=
  match fl, l with b :: fl, x :: l => if b then x :: keep fl l else keep fl l | _, _ => [] end.
(* the cell of the original under a cell of the result *)
Fixpoint full (fl : list bool) (jss : list (list nat)) (idx : list nat) : list nat :=
  match fl, jss with
  | true :: fl, js :: jss => match idx with i :: idx => nth i js 0 :: full fl jss idx | [] => 0 :: full fl jss [] end
  | false :: fl, js :: jss => hd 0 js :: full fl jss idx
  | _, _ => []
  end.
(* lower edges of the bins selected, and the upper edge of the last one *)
Definition chosen_edges (e : list Qc) (js : list nat) : list Qc :=
  match js with [] => [nth 0 e 0%Qc] | _ => map (fun j => nth j e 0%Qc) (js ++ [S (last js 0)]) end.

(* bins picked by one argument of take *)
Definition picks (n : nat) (p : pickspec) (j : nat) : Prop :=
  match p with
  | PMask l => nth j l false = true
  | PIdx l => exists z, In z l /\ (z = Z.of_nat j \/ z = Z.of_nat j - Z.of_nat n)%Z
  end.
Definition pick_ok (n : nat) (p : pickspec) : Prop :=
  match p with
  | PMask l => length l = n
  | PIdx l => Forall (fun z => - Z.of_nat n <= z < Z.of_nat n)%Z l
  end.

(* a request to combine m bins of dimension dim (number i, n even bins of width h) *)
Definition rebinnable (s : stat) (dim i n : nat) (e0 h spacing : Qc) (w : weights) (wt : option (bool * (list nat -> Qc))) (force : bool) (to_sum : list nat) (m : nat) : Prop :=
  wf s /\ nth_error (dims s) i = Some dim /\ even (nth i (edges s) []) e0 h n /\ nth i (coords s) [] = mid (nth i (edges s) []) /\
  h <> 0%Qc /\ 2 <= m /\ m <= n /\ qround (spacing / h)%Qc = Z.of_nat m /\
  (force = true \/ (n mod m = 0 /\ allclose (h * nq m)%Qc spacing = true)) /\
  Forall (lt 0) (sshape s) /\ weighted_by s w wt /\
  (forall k x, nth_error (vars s) k = Some (x, true) -> ~ In x to_sum -> match wt with Some (true, _) => False | _ => True end).
Definition weighted (s : stat) (w : weights) : Prop := exists wt, weighted_by s w wt.
(* the bin that sel takes for the value x: the first with the centre x, or the first of the nearest *)
Definition located (c : list Qc) (x : Qc) (nearest : bool) (k : nat) : Prop :=
  if nearest then k < length c /\ forall j, j < length c -> (qabs (nth k c 0 - x) <= qabs (nth j c 0 - x))%Qc /\ (j < k -> (qabs (nth k c 0 - x) < qabs (nth j c 0 - x))%Qc)
  else nth_error c k = Some x /\ forall j, j < k -> nth_error c j <> Some x.
