(* Text files in blocks of bytes: io/csv.py *)
From Coq Require Import Ascii.
From Verif Require Import Base IoModel.
Local Open Scope nat_scope.

Definition bytes := list ascii.
Definition nl : ascii := ascii_of_nat 10.
Definition is_nl (c : ascii) : bool := Ascii.eqb c nl.

(* dask read_block with seek_delimiter: a position is moved behind the next
   newline at or after it, or to the end; 0 stays *)
Fixpoint find_nl (l : bytes) : option nat :=
  match l with [] => None | c :: l => if is_nl c then Some 0 else option_map S (find_nl l) end.
Definition seek (f : bytes) (o : nat) : nat :=
  match o with
  | O => 0
  | _ => match find_nl (skipn o f) with Some i => o + i + 1 | None => Nat.max o (length f) end
  end.
Definition read_block (f : bytes) (o bs : nat) : bytes :=
  let start := seek f o in firstn (seek f (o + bs) - start) (skipn start f).

(* bytes.count for one newline and (without overlap) for two *)
Fixpoint count1 (l : bytes) : nat := match l with [] => 0 | c :: l => (if is_nl c then 1 else 0) + count1 l end.
Fixpoint count2 (l : bytes) : nat :=
  match l with
  | a :: ((b :: r) as t) => if is_nl a && is_nl b then S (count2 r) else count2 t
  | _ => 0
  end.
Definition starts_nl (l : bytes) : bool := match l with c :: _ => is_nl c | [] => false end.
Definition ends_nl (l : bytes) : bool := match rev l with c :: _ => is_nl c | [] => false end.

(* pandas.read_csv with header=None and names: the first skiprows lines are
   dropped, then lines of white space if blank lines are skipped, then at most
   nrows rows are taken.  A row is its line; no quoted newlines. *)
Fixpoint split_lines (cur : bytes) (l : bytes) : list bytes :=
  match l with
  | [] => match cur with [] => [] | _ => [rev cur] end
  | c :: l => if is_nl c then rev cur :: split_lines [] l else split_lines (c :: cur) l
  end.
Definition lines (l : bytes) : list bytes := split_lines [] l.
Definition is_ws (c : ascii) : bool :=
  Ascii.eqb c (ascii_of_nat 32) || Ascii.eqb c (ascii_of_nat 9) || Ascii.eqb c (ascii_of_nat 13).
Definition blank (l : bytes) : bool := forallb is_ws l.
Definition limit {A} (n : option Z) (l : list A) : list A := match n with None => l | Some n => firstn (Z.to_nat n) l end.
Definition read_csv (skip_blank : bool) (skiprows : nat) (nrows : option Z) (b : bytes) : list bytes :=
  limit nrows (filter (fun l => negb (skip_blank && blank l)) (skipn skiprows (lines b))).

(* CSVPartition: where to read, and its own skiprows and nrows *)
Record part := { p_off : nat; p_skip : nat; p_nrows : option Z }.
(* value, 38-60 *)
Definition part_value (f : bytes) (bs : nat) (skip_blank : bool) (p : part) : list bytes :=
  read_csv skip_blank (p_skip p) (p_nrows p) (read_block f (p_off p) bs).

(* make_partitions, 63-156 *)
(* range(0, size, bs) *)
Definition offsets (size bs : nat) : list nat := map (fun i => i * bs) (seq 0 ((size + bs - 1) / bs)).
Definition block_size (skip_blank first : bool) (skip : nat) (b : bytes) : Z :=                  (* 123-134 *)
  (Z.of_nat (count1 b) - (if skip_blank then Z.of_nat (count2 b) + (if first && starts_nl b then 1 else 0) else 0)
   - Z.of_nat skip)%Z.
Fixpoint part_loop (f : bytes) (bs : nat) (skip_blank first : bool) (skip : nat) (nrows : option Z) (offs : list nat)
  : list part * list Z :=
  match offs with
  | [] => ([], [])
  | o :: offs =>
      let b := read_block f o bs in
      let p := {| p_off := o; p_skip := skip; p_nrows := nrows |} in
      let size := block_size skip_blank first skip b in
      let last := match offs with [] => true | _ => false end in
      let go nrows :=
        let size := (size + (if last && negb (ends_nl b) then 1 else 0))%Z in                     (* 145-148 *)
        let (ps, ss) := part_loop f bs skip_blank false 0 nrows offs in (p :: ps, size :: ss) in
      match nrows with
      | Some n => if (0 <? n)%Z then if (n <? size)%Z then ([p], [n]) else go (Some (n - size)%Z)  (* 137-142 *)
                  else go nrows
      | None => go None
      end
  end.
Definition make_partitions (f : bytes) (bs : nat) (skip_blank : bool) (skip : nat) (nrows : option Z) : res (list part * list Z) :=
  match bs with
  | O => Err ValueError
  | _ => Ok (part_loop f bs skip_blank true skip nrows (offsets (length f) bs))
  end.

(* CSVFile: the reported size, 322-327, and read, 329-368.  The inference of
   data types (verify_data) is in CtyModel. *)
Definition csv_size (f : bytes) (bs : nat) (skip_blank : bool) (skip : nat) (nrows : option Z) : res Z :=
  let! ps := make_partitions f bs skip_blank skip nrows in Ok (zsum (snd ps)).
Definition csv_read (f : bytes) (bs : nat) (skip_blank : bool) (skip : nat) (nrows : option Z) (start stop step : Z) : res (list bytes) :=
  let! ps := make_partitions f bs skip_blank skip nrows in
  let sizes := snd ps in
  let! parts := rall (map (fun fnum =>
      let! sl := global_to_local_slice sizes start stop fnum in
      match nth_error (fst ps) fnum with
      | Some p => py_slice (part_value f bs skip_blank p) (Some (fst sl)) (Some (snd sl)) None
      | None => Err IndexError
      end) (get_file_slice sizes start stop)) in
  py_slice (concat parts) None None (Some step).
