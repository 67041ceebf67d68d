(* Model of BinnedStatistic.from_plaintext (binned_statistic.py 504-553) with _Read2DPlainText
   (957-1030) and _Read1DPlainText (1032-1140).

   A file is the list of its lines as readlines gives them, a line the list of its characters.
   float() and int() of a text, the types of builtins and numpy other than bool, and the type of
   floats are parameters.  What numpy.asarray and reshape do with rows of different lengths is an
   error here as in the code, where any exception while reading becomes ValueError. *)
From Coq Require Import Ascii String.
From Verif Require Import Base.
Local Open Scope nat_scope.
Local Notation length := List.length.
Local Notation concat := List.concat.

Definition word := list ascii.
Definition lit (s : string) : word := list_ascii_of_string s.
Definition word_eqb (a b : word) : bool := if list_eq_dec ascii_dec a b then true else false.
(* str.split(): white space is blank, tab, newline, carriage return, vertical tab, form feed *)
Definition is_space (c : ascii) : bool := let n := nat_of_ascii c in (n =? 32) || ((9 <=? n) && (n <=? 13)).
Definition flush (cur : word) : list word := match cur with [] => [] | _ => [cur] end.
Fixpoint split_go (cur : word) (l : word) : list word :=
  match l with
  | [] => flush cur
  | c :: l => if is_space c then flush cur ++ split_go [] l else split_go (cur ++ [c]) l
  end.
Definition split (l : word) : list word := split_go [] l.
(* a in b for texts, str.startswith and str.endswith *)
Fixpoint prefix (a b : word) : bool :=
  match a, b with [], _ => true | x :: a, y :: b => Ascii.eqb x y && prefix a b | _ :: _, [] => false end.
Fixpoint contains (a b : word) : bool := prefix a b || match b with [] => false | _ :: b => contains a b end.
Definition ends_with (a b : word) : bool := prefix (rev a) (rev b).
(* b.split(a)[0]: what precedes the first a *)
Fixpoint before (a b : word) : word := if prefix a b then [] else match b with [] => [] | c :: b => c :: before a b end.

Definition dict (V : Type) := list (word * V).
Fixpoint dput {V} (k : word) (v : V) (d : dict V) : dict V :=
  match d with [] => [(k, v)] | (k', v') :: d => if word_eqb k k' then (k, v) :: d else (k', v') :: dput k v d end.
Fixpoint dfind {V} (k : word) (d : dict V) : option V :=
  match d with [] => None | (k', v) :: d => if word_eqb k k' then Some v else dfind k d end.

Section Text.
Context {F V : Type}.
Variable to_float : word -> option F.
Variable to_int : word -> option Z.
Variable cast_other : word -> word -> res V.       (* name of the type, text *)

Inductive meta_value := MBool (b : bool) | MOther (v : V).
Inductive column := Real (l : list F) | Complex (l : list (F * F)).
Definition float (w : word) : res F := match to_float w with Some x => Ok x | None => Err ValueError end.
Definition int (w : word) : res Z := match to_int w with Some x => Ok x | None => Err ValueError end.
Definition last_field (l : list word) : res word := match rev l with w :: _ => Ok w | [] => Err IndexError end.
Definition field (l : list word) (i : nat) : res word := match nth_error l i with Some w => Ok w | None => Err IndexError end.
(* 1018-1026 and 1099-1106; bool(text) is whether the text is not empty *)
Definition cast_value (t w : word) : res meta_value :=
  if word_eqb t (lit "bool") then Ok (MBool (negb (match w with [] => true | _ => false end)))
  else let! v := cast_other t w in Ok (MOther v).
Definition read_meta (fields : list word) (m : dict meta_value) : res (dict meta_value) :=
  let! t := last_field fields in let! k := field fields 0 in let! w := field fields 1 in
  let! v := cast_value t w in Ok (dput k v m).
Fixpoint read_metas (lines : list (list word)) (m : dict meta_value) : res (dict meta_value) :=
  match lines with [] => Ok m | l :: lines => let! m := read_meta l m in read_metas lines m end.

(* making complex columns from real and imaginary parts, 984-996 and 1118-1130; rows are of one length *)
Definition col (rows : list (list F)) (i : nat) : res (list F) :=
  rall (map (fun r => match nth_error r i with Some x => Ok x | None => Err IndexError end) rows).
Fixpoint make_columns (rows : list (list F)) (columns : list word) (i : nat) (d : dict column) : res (dict column) :=
  match columns with
  | [] => Ok d
  | name :: rest =>
      match rest with
      | next :: rest' =>
          if ends_with (lit ".real") name && ends_with (lit ".imag") next then
            let! a := col rows i in let! b := col rows (i + 1) in
            make_columns rows rest' (i + 2) (dput (before (lit ".real") name) (Complex (combine a b)) d)
          else let! a := col rows i in make_columns rows rest (i + 1) (dput name (Real a) d)
      | [] => let! a := col rows i in make_columns rows rest (i + 1) (dput name (Real a) d)
      end
  end.
Definition rectangular (rows : list (list F)) : bool :=
  match rows with [] => true | r :: _ => forallb (fun q => length q =? length r) rows end.

(* ---- one dimension ---- *)
Record read1 := { r_data : list (list F); r_edges : option (list F); r_meta : dict meta_value }.
Definition hash : ascii := "#"%char.
(* lines[a:b] for non-negative a *)
Definition slice {A} (l : list A) (a b : Z) : list A :=
  let n := Z.of_nat (length l) in
  let b := if (b <? 0)%Z then Z.max 0 (b + n) else b in
  firstn (Z.to_nat (b - a)) (skipn (Z.to_nat a) l).
(* the loop over the lines, 1076-1112 *)
Fixpoint loop (fuel : nat) (lines : list word) (cur : Z) (st : read1) : res read1 :=
  match fuel with
  | O => Err OutOfFuel
  | S fuel =>
      if (cur =? Z.of_nat (length lines))%Z then Ok st else
      match (if (cur <? 0)%Z then None else nth_error lines (Z.to_nat cur)) with
      | None => Err IndexError
      | Some [] => loop fuel lines (cur + 1) st
      | Some (c :: rest) =>
          if negb (Ascii.eqb c hash) then
            let! row := rall (map float (split (c :: rest))) in
            loop fuel lines (cur + 1) {| r_data := r_data st ++ [row]; r_edges := r_edges st; r_meta := r_meta st |}
          else if contains (lit "edges") rest then
            let! w := last_field (split rest) in let! n := int w in
            let! e := rall (map (fun l => match split (tl l) with [w] => float w | _ => Err ValueError end) (slice lines (cur + 1) (cur + 1 + n))) in
            loop fuel lines (cur + 1 + n) {| r_data := r_data st; r_edges := Some e; r_meta := r_meta st |}
          else if contains (lit "metadata") rest then
            let! w := last_field (split rest) in let! n := int w in
            let! ls := rall (map (fun i => match nth_error lines (Z.to_nat cur + 1 + i) with Some l => Ok (split (tl l)) | None => Err IndexError end) (seq 0 (Z.to_nat n))) in
            let! m := read_metas ls (r_meta st) in
            loop fuel lines (cur + 1 + n) {| r_data := r_data st; r_edges := r_edges st; r_meta := m |}
          else loop fuel lines (cur + 1) st
      end
  end.
Variable col_name : nat -> word.                   (* 'col_%d' *)
Definition read_1d (fuel : nat) (lines : list word) : res (dict column * read1) :=
  let! columns := match lines with
                  | [] => Err IndexError
                  | [] :: _ => Err IndexError
                  | (c :: rest) :: _ => Ok (if Ascii.eqb c hash then Some (split rest) else None)
                  end in
  let! st := loop fuel lines 0 {| r_data := []; r_edges := None; r_meta := [] |} in
  match r_data st with
  | [] => Err IndexError                                                   (* data.shape[1] *)
  | r :: _ =>
      if negb (rectangular (r_data st)) then Err ValueError else
      let columns := match columns with Some c => c | None => map col_name (seq 0 (length r)) end in
      let! d := make_columns (r_data st) columns 0 [] in Ok (d, st)
  end.

(* ---- two dimensions ---- *)
Record read2 := { r_shape : nat * nat; r_edges2 : list F * list F; r_meta2 : dict meta_value }.
Fixpoint chop (n k : nat) (l : list F) : list (list F) := match k with O => [] | S k => firstn n l :: chop n k (skipn n l) end.
(* float(line): one number per line *)
Definition line_float (l : word) : res F := match split l with [w] => float w | _ => Err ValueError end.
Definition field_line (lines : list word) (i : nat) : res word := match nth_error lines i with Some l => Ok l | None => Err IndexError end.
(* data is an array of Nk*Nmu rows; a file of fewer than two lines fails on the way *)
Definition read_2d (lines : list word) : res (dict column * read2) :=
  match lines with
  | first :: second :: lines =>
      let! ns := rall (map int (split first)) in
      match ns with
      | [nk; nmu] =>
          if (nk <=? 0)%Z || (nmu <=? 0)%Z then Err OutOfContract else
          let N := (Z.to_nat nk * Z.to_nat nmu) in
          let columns := split second in
          let! xs := rall (map float (flat_map split (firstn N lines))) in
          if negb (length xs mod N =? 0) then Err ValueError else
          let! d := make_columns (chop (length xs / N) N xs) columns 0 [] in
          let! h1 := field_line lines N in let! w1 := last_field (split h1) in let! l1 := int w1 in
          if (l1 <? 0)%Z then Err OutOfContract else
          let l1 := Z.to_nat l1 in
          let! e1 := rall (map line_float (firstn l1 (skipn (N + 1) lines))) in
          let! h2 := field_line lines (N + 1 + l1) in let! w2 := last_field (split h2) in let! l2 := int w2 in
          if (l2 <? 0)%Z then Err OutOfContract else
          let l2 := Z.to_nat l2 in
          let M := N + 1 + l1 + 1 in
          let! e2 := rall (map line_float (firstn l2 (skipn M lines))) in
          let! m := if M + l2 <? length lines then
                      let! h3 := field_line lines (M + l2) in let! w3 := last_field (split h3) in let! n := int w3 in
                      if (n <? 0)%Z then Err OutOfContract else
                      read_metas (map split (firstn (Z.to_nat n) (skipn (M + l2 + 1) lines))) []
                    else Ok [] in
          Ok (d, {| r_shape := (Z.to_nat nk, Z.to_nat nmu); r_edges2 := (e1, e2); r_meta2 := m |})
      | _ => Err ValueError
      end
  | _ => Err ValueError
  end.

(* ---- from_plaintext, 524-553 ---- *)
Record tstat := { t_dims : list word; t_edges : list (list F); t_shape : list nat; t_cols : dict column; t_attrs : dict meta_value }.
(* any exception while reading becomes ValueError; the last two stand for no exception *)
Definition wrap {A} (r : res A) : res A :=
  match r with Err OutOfFuel => Err OutOfFuel | Err OutOfContract => Err OutOfContract | Err _ => Err ValueError | x => x end.
Definition has {A} (k : string) (d : dict A) : bool := match dfind (lit k) d with Some _ => true | None => false end.
Definition dupdate {A} (d e : dict A) : dict A := fold_left (fun d kv => dput (fst kv) (snd kv) d) e d.
(* the constructor, 144-185: names of arguments among the meta-data clash; those with another meaning are left out *)
Definition build (dims : list word) (edges : list (list F)) (shape : list nat) (cols : dict column) (meta : dict meta_value) : res tstat :=
  if has "dims" meta || has "data" meta || has "edges" meta || has "self" meta then Err TypeError
  else if has "coords" meta || has "fields_to_sum" meta then Err OutOfContract
  else if list_eq_dec Nat.eq_dec (map (@length F) edges) (map S shape) then
    Ok {| t_dims := dims; t_edges := edges; t_shape := shape; t_cols := cols; t_attrs := meta |}
  else Err ValueError.
(* meta-data lines called edges or columns would change what was read before *)
Definition shadowed (m : dict meta_value) : bool := has "edges" m || has "columns" m.
Definition from_plaintext (fuel : nat) (dims : list word) (lines : list word) (kwargs : dict meta_value) : res tstat :=
  match dims with
  | [_] =>
      let! r := wrap (read_1d fuel lines) in
      if shadowed (r_meta (snd r)) then Err OutOfContract else
      match r_edges (snd r) with
      | None => Err ValueError
      | Some e => build dims [e] [length (r_data (snd r))] (fst r) (dupdate (r_meta (snd r)) kwargs)
      end
  | [_; _] =>
      let! r := wrap (read_2d lines) in
      if has "edges" (r_meta2 (snd r)) then Err OutOfContract else
      build dims [fst (r_edges2 (snd r)); snd (r_edges2 (snd r))] [fst (r_shape (snd r)); snd (r_shape (snd r))] (fst r) (dupdate (r_meta2 (snd r)) kwargs)
  | _ => Err UnboundLocalError                                             (* meta, data *)
  end.
End Text.
Arguments meta_value V : clear implicits.
Arguments column F : clear implicits.
Arguments tstat F V : clear implicits.
