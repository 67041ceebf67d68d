(* What pair counts are. *)
From Verif Require Import Base Num PairModel.
From Coq Require Import Permutation Ascii.
Local Open Scope Z_scope.

(* mean of a list, zero for the empty list *)
Definition mean0 (l : list Qc) : Qc := match l with [] => 0%Qc | _ => (qsum l / zq (zlen l))%Qc end.
(* a bin that holds exactly these pairs, given by separation and weight *)
Definition holds (l : list (Qc * Qc)) (x : pc_bin) : Prop :=
  pb_n x = zlen l /\ pb_sep x = mean0 (map fst l) /\ pb_w x = mean0 (map snd l).
Definition reports (l : list (Qc * Qc)) (x : out_bin) : Prop :=
  o_n x = zlen l /\ o_sep x = mean0 (map fst l) /\ o_w x = qsum (map snd l).
(* the pairs of A x B that pass a test: their separations and products of weights *)
Definition pairs_in {P} (test : P -> P -> bool) (sep : P -> P -> Qc) (A B : list (P * Qc)) : list (Qc * Qc) :=
  map (fun ab => (sep (fst (fst ab)) (fst (snd ab)), snd (fst ab) * snd (snd ab))%Qc)
    (filter (fun ab => test (fst (fst ab)) (fst (snd ab))) (list_prod A B)).
(* what Corrfunc returns for two sets of objects, with n bins *)
Definition counts {P} (n : nat) (test : nat -> P -> P -> bool) (sep : P -> P -> Qc) (A B : list (P * Qc)) (r : list pc_bin) : Prop :=
  length r = n /\ forall b, (b < n)%nat -> exists x, nth_error r b = Some x /\ holds (pairs_in (test b) sep A B) x.

(* the squared separation along an axis: the least one over all periodic images *)
Definition axis_sep2 (periodic : bool) (L a b s : Qc) : Prop :=
  if periodic then (exists k, s = ((a - b + zq k * L) * (a - b + zq k * L))%Qc) /\ forall k, (s <= (a - b + zq k * L) * (a - b + zq k * L))%Qc
  else s = ((a - b) * (a - b))%Qc.
(* the bins: b counts the bins of the two axes together, n2 is the number of bins along the second axis,
   aux says which bin of the second axis holds a pair; s2 are the squared separations along x, y and the line of sight *)
Definition between2 (edges : list Qc) (k : nat) (s : Qc) : bool :=
  match nth_error edges k, nth_error edges (S k) with
  | Some lo, Some hi => (if Qclt_le_dec s (lo * lo)%Qc then false else true) && (if Qclt_le_dec s (hi * hi)%Qc then true else false)
  | _, _ => false
  end.
Definition bin_test (mode : pmode) (edges : list Qc) (pimax : option Qc) (n2 : nat) (aux : nat -> v3 -> bool) (b : nat) (s2 : v3) : bool :=
  match mode, pimax with
  | M1d, _ => between2 edges b (coord s2 0 + coord s2 1 + coord s2 2)%Qc
  | M2d, _ => between2 edges (b / n2) (coord s2 0 + coord s2 1 + coord s2 2)%Qc && aux (b mod n2)%nat s2
  | Mproj, Some p => between2 edges (b / n2) (coord s2 0 + coord s2 1)%Qc && (if Qclt_le_dec (coord s2 2) (p * p)%Qc then true else false) && aux (b mod n2)%nat s2
  | _, _ => false
  end.
Definition n_bins (mode : pmode) (edges : list Qc) (n2 : nat) : nat :=
  match mode with M1d => length edges - 1 | _ => (length edges - 1) * n2 end.

(* squared separations of two positions already in the box, as Corrfunc computes them *)
Definition near (periodic : bool) (L a b : Qc) : Qc :=
  let d := (a - b)%Qc in
  if periodic then (if Qclt_le_dec (L * Q2Qc (1 # 2))%Qc d then d - L else if Qclt_le_dec d (- (L * Q2Qc (1 # 2)))%Qc then d + L else d)%Qc else d.
Definition sq (x : Qc) : Qc := (x * x)%Qc.
Definition near2 (periodic : bool) (L : v3) (p q : v3) : v3 :=
  (sq (near periodic (coord L 0) (coord p 0) (coord q 0)), sq (near periodic (coord L 1) (coord p 1) (coord q 1)), sq (near periodic (coord L 2) (coord p 2) (coord q 2))).
Definition cube (l : Qc) : v3 := (l, l, l).
(* what is assumed of Corrfunc: it counts; the box is a cube when periodic *)
Definition corr_contract (corr : list obj -> list obj -> list pc_bin) (mode : pmode) (edges : list Qc) (pimax : option Qc) (n2 : nat) (aux : nat -> v3 -> bool)
  (sepf : v3 -> Qc) (periodic : bool) (l : Qc) : Prop :=
  forall A B, counts (n_bins mode edges n2) (fun b p q => bin_test mode edges pimax n2 aux b (near2 periodic (cube l) p q))
                (fun p q => sepf (near2 periodic (cube l) p q)) A B (corr A B).
(* what is assumed of GridND: without smoothing an object has one rank; with smoothing s the rank of an object gets all
   objects not farther than s, once *)
Definition dist2 (periodic : bool) (L p q : v3) : Qc :=
  let s := near2 periodic L p q in (coord s 0 + coord s 1 + coord s 2)%Qc.
Definition in_box (periodic : bool) (L p : v3) : Prop :=
  periodic = true -> forall i, (i < 3)%nat -> (0 <= coord p i /\ coord p i < coord L i)%Qc.
Definition domain_contract (size : nat) (targets : Qc -> v3 -> list nat) (periodic : bool) (L : v3) : Prop :=
  (forall p, in_box periodic L p -> exists r, (r < size)%nat /\ targets 0%Qc p = [r]) /\
  (forall s p q r, (0 < s)%Qc -> in_box periodic L p -> in_box periodic L q -> targets 0%Qc p = [r] -> (dist2 periodic L p q <= s * s)%Qc -> In r (targets s q)) /\
  (forall s q, (0 < s)%Qc -> in_box periodic L q -> NoDup (targets s q)).
(* the square root is not rounded down *)
Definition sqrt_contract (sqrt : Qc -> Qc) : Prop := forall x, (0 < x)%Qc -> (0 < sqrt x)%Qc /\ (x <= sqrt x * sqrt x)%Qc.

(* the arguments are those the documentation asks for *)
Definition los_names (los : los_arg) (axis : nat) : Prop :=
  match los with
  | LosStr s => nth_error [["x"]; ["y"]; ["z"]]%char axis = Some s
  | LosInt z => (axis < 3)%nat /\ (z = Z.of_nat axis \/ z = Z.of_nat axis - 3)
  | LosNum x => (axis < 3)%nat /\ x = zq (Z.of_nat axis)
  end.
Definition good_args (mode : pmode) (edges : list Qc) (Nmu : option nat) (pimax : option Qc) (periodic : bool) (L : v3) : Prop :=
  edges <> [] /\ (forall e, In e edges -> (0 < e)%Qc) /\
  match mode with
  | M1d => Nmu = None /\ pimax = None
  | M2d => Nmu <> None /\ pimax = None
  | Mproj => Nmu = None /\ exists p, pimax = Some p /\ (1 <= p)%Qc /\ (periodic = true -> forall i, (i < 3)%nat -> (p + p <= coord L i)%Qc)
  | Mang => False
  end /\
  (periodic = true -> (coord L 1 = coord L 0 /\ coord L 2 = coord L 0) /\ forall e i, In e edges -> (i < 3)%nat -> (e + e <= coord L i)%Qc).
(* the pairs of the two catalogs, by their positions as given, with the axis los last; sep2 gives squared separations by axis *)
Definition sep_of (los : nat) (sep2 : nat -> v3 -> v3 -> Qc) (p q : v3) : v3 :=
  match los with
  | O => (sep2 1%nat p q, sep2 2%nat p q, sep2 0%nat p q)
  | S O => (sep2 0%nat p q, sep2 2%nat p q, sep2 1%nat p q)
  | _ => (sep2 0%nat p q, sep2 1%nat p q, sep2 2%nat p q)
  end.

(* the unordered pairs of a list *)
Fixpoint upairs {A} (l : list A) : list (A * A) :=
  match l with [] => [] | x :: l => map (pair x) l ++ upairs l end.

(* all positions strictly inside (lo, hi) on every axis *)
Definition inside (lo hi : nat -> Qc) (pos : list v3) : Prop := forall p i, In p pos -> (i < 3)%nat -> (lo i < coord p i /\ coord p i < hi i)%Qc.
(* moved by half a box on every axis *)
Definition shifted (L : v3) (pos out : list v3) : Prop := Forall2 (fun p o => forall i, (i < 3)%nat -> coord o i = (coord p i - Q2Qc (1 # 2) * coord L i)%Qc) pos out.
(* a result with n bins that hold the lists f 0, ..., f (n-1) *)
Definition holds_all (n : nat) (f : nat -> list (Qc * Qc)) (r : list pc_bin) : Prop :=
  length r = n /\ forall b, (b < n)%nat -> exists x, nth_error r b = Some x /\ holds (f b) x.
