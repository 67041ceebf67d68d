(* Model of the collective array helpers of nbodykit/utils.py and of the code
   that spreads rows over ranks.  A distributed array is a list with one entry
   per rank; a collective function maps the list of all ranks' arguments to
   the list of all ranks' results, or to one error. *)
From Verif Require Import Base.

(* offsets of the ranks: exclusive running sums (utils.py:237-238, 341-342, 355) *)
Fixpoint offsets_from (a : Z) (counts : list Z) : list Z :=
  match counts with [] => [] | c :: cs => a :: offsets_from (a + c) cs end.
Definition offsets_of := offsets_from 0.

(* ---------------------------------------------------------------- *)
(* GatherArray, utils.py:128-247, plain (non-structured) dtype.      *)

(* MPI (All)Gatherv: write each rank's items into the receive buffer at its
   offset.  The buffer starts out uninitialised (None). *)
Definition write_at {A} (buf : list (option A)) (off : Z) (data : list A) : list (option A) :=
  firstn (Z.to_nat off) buf ++ map Some data ++ skipn (Z.to_nat off + length data) buf.

Fixpoint gatherv {A} (buf : list (option A)) (parts : list (list A)) (offs : list Z)
  : list (option A) :=
  match parts, offs with
  | d :: ds, o :: os => gatherv (write_at buf o d) ds os
  | _, _ => buf
  end.

(* Each rank's array is a pair: the item description (trailing shape and
   dtype, an abstract code) and the items.  root = None is root=Ellipsis.
   Lines 197-204: the mismatch flags are computed on the root only, then
   broadcast from rank 0 (comm.bcast without a root argument).  Flags that were
   not computed are None, which is false. *)
Definition gather_flag (root : option nat) (descr : list Z) : bool :=
  match root with
  | None | Some O =>
      match descr with [] => false | d :: ds => existsb (fun x => negb (x =? d)) ds end
  | Some (S _) => false
  end.

(* The returned buffer on the root (on all ranks for Ellipsis).  Arrays of
   different item description passed to Gatherv are outside its contract. *)
Definition gather_array {A} (root : option nat) (arrays : list (Z * list A))
  : res (list (option A)) :=
  let descr := map fst arrays in
  let parts := map snd arrays in
  if gather_flag root descr then Err ValueError
  else if existsb (fun x => negb (x =? hd 0 descr)) descr then Err OutOfContract
  else
    let counts := map zlen parts in
    let newlength := zsum counts in
    let buf := repeat None (Z.to_nat newlength) in
    Ok (gatherv buf parts (offsets_of counts)).

(* ---------------------------------------------------------------- *)
(* ScatterArray, utils.py:249-348                                    *)

(* lines 322-326: balanced length of one rank *)
Definition even_length (n size : Z) (rank : nat) : Z :=
  n / size + (if Z.of_nat rank <? n mod size then 1 else 0).

(* `data` is the array on root (the other ranks hold None).  nranks = comm.size.
   Line 288 tests comm.rank == 0, not root: with root <> 0, rank 0 evaluates
   None.flags (AttributeError) while the other ranks wait in the bcast of line
   297.  A negative count makes numpy.empty raise on one rank only. *)
Definition scatter_array {A} (root : nat) (nranks : nat) (data : list A)
           (counts : option (list Z)) : res (list (list A)) :=
  match counts with
  | Some cs =>
      if negb (Nat.eqb (length cs) nranks) then Err ValueError      (* 276-277 *)
      else if negb (Nat.eqb root 0) then Err AttributeError         (* 288-290 *)
      else if negb (zsum cs =? zlen data) then Err ValueError       (* 328-329 *)
      else if existsb (fun c => c <? 0) cs then Err Deadlock
      else Ok (map (fun oc => sub data (fst oc) (fst oc + snd oc)) (combine (offsets_of cs) cs))
  | None =>
      if negb (Nat.eqb root 0) then Err AttributeError
      else
        let cs := map (even_length (zlen data) (Z.of_nat nranks)) (seq 0 nranks) in
        Ok (map (fun oc => sub data (fst oc) (fst oc + snd oc)) (combine (offsets_of cs) cs))
  end.

(* ---------------------------------------------------------------- *)
(* FrontPadArray, utils.py:350-370.  front is an argument of each rank. *)

(* one entry of torecv (lines 357-361): end = offsets[j] + N[j] *)
Definition torecv_entry (mystart front nend n : Z) : Z :=
  let t := nend - mystart in
  let t := if t <? 0 then 0 else t in
  let t := if t >? front then 0 else t in
  if t >? n then n else t.

Definition torecv (lens : list Z) (myoffset front : Z) : list Z :=
  map (fun on => torecv_entry (myoffset - front) front (fst on + snd on) (snd on))
      (combine (offsets_of lens) lens).

(* array[-items:] if items > 0 else array[0:0] *)
Definition last_items {A} (l : list A) (items : Z) : list A :=
  if 0 <? items then skipn (length l - Z.to_nat items) l else [].

Definition front_pad {A} (arrays : list (list A)) (fronts : list Z) : res (list (list A)) :=
  let lens := map zlen arrays in
  let plans := map (fun of => torecv lens (fst of) (snd of)) (combine (offsets_of lens) fronts) in
  if existsb (fun pf => negb (zsum (fst pf) =? snd pf)) (combine plans fronts) then Err ValueError
  else Ok (map (fun pa => concat (map (fun ai => last_items (fst ai) (snd ai)) (combine arrays (fst pa)))
                          ++ snd pa)
               (combine plans arrays)).

(* ---------------------------------------------------------------- *)
(* source/catalog/file.py                                            *)

(* rank * size // comm.size, file.py:52-53, uniform.py:44-45, utils.py:594-596 *)
Definition lstart (size : Z) (nranks : nat) (rank : nat) : Z :=
  Z.of_nat rank * size / Z.of_nat nranks.

Record file_catalog := {
  fc_start : Z;                      (* self.start *)
  fc_end : Z;                        (* self.end *)
  fc_bounds : list (Z * Z)           (* (_lstart, _lend) of each rank *)
}.

(* FileCatalogBase.__init__, file.py:51-60 *)
Definition load_file (size : Z) (nranks : nat) : file_catalog :=
  {| fc_start := 0; fc_end := size;
     fc_bounds := map (fun r => (lstart size nranks r, lstart size nranks (S r))) (seq 0 nranks) |}.

(* FileCatalogBase.query_range, file.py:94-99 (no columns attached, so the test
   in line 91 passes) *)
Definition query_range (c : file_catalog) (start end_ : Z) : file_catalog :=
  let nranks := length (fc_bounds c) in
  {| fc_start := start; fc_end := end_;
     fc_bounds := map (fun r => (fc_start c + start + lstart (end_ - start) nranks r,
                                 fc_start c + start + lstart (end_ - start) nranks (S r)))
                      (seq 0 nranks) |}.

(* get_hardcolumn, file.py:125: source[_lstart:_lend] on each rank, for
   bounds inside the file *)
Definition catalog_rows {A} (rows : list A) (c : file_catalog) : list (list A) :=
  map (fun b => sub rows (fst b) (snd b)) (fc_bounds c).

(* ---------------------------------------------------------------- *)
(* mpirng.py                                                          *)

(* the while loop of _call_rngmethod, mpirng.py:116-134, on the padded
   argument list (one entry per item); `sampler seed args` draws one value
   per entry of args from a generator seeded with seed.  fuel >= number of
   items is enough. *)
Fixpoint rng_loop {A B} (fuel : nat) (sampler : Z -> list A -> list B) (seeds : list Z)
         (chunksize : Z) (ichunk : Z) (running : list A) : res (list B) :=
  match running with
  | [] => Ok []
  | _ =>
    match fuel with
    | O => Err OutOfFuel
    | S fuel =>
        let nreq := Z.min (zlen running) chunksize in
        match znth seeds ichunk with
        | None => Err IndexError
        | Some seed =>
            let chunk := sampler seed (firstn (Z.to_nat nreq) running) in
            let! rest := rng_loop fuel sampler seeds chunksize (ichunk + 1)
                                  (skipn (Z.to_nat nreq) running) in
            Ok (chunk ++ rest)
        end
    end
  end.

(* MPIRandomState: __init__ (26-36) and one call of a sampler method (98-136).
   args: the per-item arguments held by each rank. seeds: the table drawn from
   the serial generator (same on every rank as every rank seeds it alike). *)
Definition mpi_random {A B} (sampler : Z -> list A -> list B) (seeds : list Z) (chunksize : Z)
           (args : list (list A)) : res (list (list B)) :=
  let offs := offsets_of (map zlen args) in
  let skips := map (fun start => start - start / chunksize * chunksize) offs in
  let! padded := front_pad args skips in
  rall (map (fun x =>
          let '((start, skip), p) := x in
          let! r := rng_loop (length p) sampler seeds chunksize (start / chunksize) p in
          Ok (skipn (Z.to_nat skip) r))
       (combine (combine offs skips) padded)).

(* nchunks, mpirng.py:35 *)
Definition rng_nchunks (csize chunksize : Z) : Z := (csize + chunksize - 1) / chunksize.

(* ---------------------------------------------------------------- *)
(* source/catalog/uniform.py                                          *)

(* RandomCatalog.__init__, uniform.py:42-46, where rank r was called with
   csize = ns[r]: each rank's size.  A rank with csize = 0 raises. *)
Definition random_catalog_sizes (ns : list Z) : res (list Z) :=
  let nranks := length ns in
  if forallb (fun n => n =? 0) ns then Err ValueError
  else if existsb (fun n => n =? 0) ns then Err Deadlock
  else Ok (map (fun rn => lstart (snd rn) nranks (S (fst rn)) - lstart (snd rn) nranks (fst rn))
               (combine (seq 0 nranks) ns)).

(* UniformCatalog.__init__, uniform.py:94-98: every rank seeds its own
   RandomState(seed) and draws N.  `draw None r` stands for the draw of rank r from
   operating-system entropy, `draw (Some s) r` must not depend on the rank. *)
Definition uniform_catalog_sizes (draw : option Z -> nat -> Z) (seed : option Z) (nranks : nat)
  : res (list Z) :=
  random_catalog_sizes (map (draw seed) (seq 0 nranks)).

(* ---------------------------------------------------------------- *)
(* get_data_bounds, utils.py:23-82, one component of the data.        *)

(* extended numbers: None is the initial +inf (for min) or -inf (for max) *)
Definition omin (a b : option Z) : option Z :=
  match a, b with Some x, Some y => Some (Z.min x y) | Some x, None => Some x | None, y => y end.
Definition omax (a b : option Z) : option Z :=
  match a, b with Some x, Some y => Some (Z.max x y) | Some x, None => Some x | None, y => y end.

Definition lmin (l : list Z) : option Z := fold_right (fun x a => omin (Some x) a) None l.
Definition lmax (l : list Z) : option Z := fold_right (fun x a => omax (Some x) a) None l.

(* the loop over range(0, Nlocalmax, chunksize) on one rank, lines 54-76.
   `keep` is the selection (all true without one).  numpy's min of an empty
   array raises ValueError. *)
Fixpoint bounds_loop (starts : list Z) (chunksize : Z) (data : list (Z * bool))
         (acc : option Z * option Z) : res (option Z * option Z) :=
  match starts with
  | [] => Ok acc
  | i :: is =>
      if zlen data =? 0 then bounds_loop is chunksize data acc
      else
        let! d := py_slice data (Some i) (Some (i + chunksize)) None in
        let d := map fst (filter snd d) in
        match d with
        | [] => Err ValueError
        | _ => bounds_loop is chunksize data (omin (lmin d) (fst acc), omax (lmax d) (snd acc))
        end
  end.

Definition data_bounds (chunksize : Z) (ranks : list (list (Z * bool)))
  : res (option Z * option Z) :=
  let nmax := fold_right Z.max 0 (map zlen ranks) in
  let! locals := rall (map (fun d => bounds_loop (py_range 0 nmax chunksize) chunksize d (None, None)) ranks) in
  Ok (fold_right omin None (map fst locals), fold_right omax None (map snd locals)).
