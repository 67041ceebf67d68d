(* Model of the views of files, io/base.py: selection of columns, asarray, indexing along
   two axes and dask arrays.  A column has a base type and entries of some shape; an entry is
   the list of its values.  The reading of rows is that of IoModel. *)
From Verif Require Import Base IoModel.
Local Open Scope nat_scope.

Section View.
Context {A : Type}.
Record fld := { f_name : nat; f_base : nat; f_sub : list nat }.
Inductive vdtype := Named (fs : list fld) | Base (b : nat).
Record view := { v_dtype : vdtype; v_cols : option (list nat); v_shape : option (list nat); v_size : nat }.
(* columns, 44-57: the names of the type unless set *)
Definition keys (v : view) : res (list nat) :=
  match v_cols v with
  | Some c => Ok c
  | None => match v_dtype v with Named fs => Ok (map f_name fs) | Base _ => Err TypeError end
  end.
Definition shape (v : view) : list nat := match v_shape v with Some s => s | None => [v_size v] end.
Definition whole (fs : list fld) (n : nat) : view := {| v_dtype := Named fs; v_cols := None; v_shape := None; v_size := n |}.
Fixpoint field (c : nat) (fs : list fld) : res fld := match fs with [] => Err KeyError | f :: fs => if f_name f =? c then Ok f else field c fs end.
Fixpoint dup (l : list nat) : bool := match l with [] => false | x :: l => existsb (Nat.eqb x) l || dup l end.
(* __getitem__ with a list of names, 160-192; numpy.dtype refuses a name twice *)
Definition select_cols (v : view) (s : list nat) : res view :=
  match s with
  | [] => Err IndexError
  | _ =>
    match v_dtype v with
    | Base _ => Err IndexError
    | Named fs =>
        let! ks := keys v in
        if negb (forallb (fun c => existsb (Nat.eqb c) ks) s) then Err IndexError
        else
          let! fs' := rall (map (fun c => field c fs) s) in
          if dup s then Err ValueError
          else Ok (whole fs' (v_size v))
    end
  end.
Definition eqb_list : list nat -> list nat -> bool := fix go p q := match p, q with [], [] => true | x :: p, y :: q => (x =? y) && go p q | _, _ => false end.
(* asarray, 269-346 *)
Definition asarray (v : view) : res view :=
  match v_dtype v with
  | Base _ | Named [] => Err ValueError
  | Named (f0 :: fs) =>
      if (1 <? length (f0 :: fs)) && existsb (fun f => negb (eqb_list (f_sub f) [])) (f0 :: fs) then Err ValueError
      else if existsb (fun f => negb (f_base f =? f_base f0)) (f0 :: fs) then Err ValueError
      else
        let! ks := keys v in
        Ok {| v_dtype := Base (f_base f0); v_cols := Some ks;
              v_shape := Some (v_size v :: if length (f0 :: fs) =? 1 then f_sub f0 else [length (f0 :: fs)]);
              v_size := v_size v |}
  end.
(* __getitem__ with one name, 152-157 and 190-191 *)
Definition getitem_name (v : view) (c : nat) : res view := let! w := select_cols v [c] in asarray w.

(* results: records (rows of entries), arrays with one or two axes *)
Inductive out := Records (names : list nat) (rows : list (list (list A))) | Arr1 (l : list A) | Arr2 (k : nat) (rows : list (list A)).
Inductive axis := AInt (i : Z) | ASlice (start stop step : option Z) | AInts (l : list Z).
Inductive idx := Rows (s : row_index) | Tup1 (s : row_index) | Tup2 (s : row_index) (j : axis) | Tup3 (s : row_index) (j j' : axis).
Fixpoint chunk (fuel k : nat) (l : list A) : list (list A) :=
  match fuel with O => [] | S fuel => firstn k l :: chunk fuel k (skipn k l) end.
(* reshape((-1, k)) *)
Definition reshape2 (k : nat) (l : list A) : res out :=
  if k =? 0 then Err ValueError
  else if length l mod k =? 0 then Ok (Arr2 k (chunk (length l / k) k l)) else Err ValueError.
(* x[j] of numpy for one number *)
Definition at_ (l : list A) (j : Z) : res A :=
  let j' := if (j <? 0)%Z then (j + zlen l)%Z else j in
  if ((0 <=? j') && (j' <? zlen l))%Z then match nth_error l (Z.to_nat j') with Some x => Ok x | None => Err IndexError end else Err IndexError.
(* toret[:, j], 263-264 *)
Definition second (o : out) (j : axis) : res out :=
  match o with
  | Arr2 k rows =>
      match j with
      | AInt i => if ((- Z.of_nat k <=? i) && (i <? Z.of_nat k))%Z then let! l := rall (map (fun r => at_ r i) rows) in Ok (Arr1 l) else Err IndexError
      | ASlice a b st => let! js := py_slice (seq 0 k) a b st in let! l := rall (map (fun r => py_slice r a b st) rows) in Ok (Arr2 (length js) l)
      | AInts js => if forallb (fun i => (- Z.of_nat k <=? i) && (i <? Z.of_nat k))%Z js then let! l := rall (map (fun r => rall (map (at_ r) js)) rows) in Ok (Arr2 (length js) l) else Err IndexError
      end
  | _ => Err IndexError
  end.
Variable read : list nat -> Z -> Z -> Z -> res (list (list (list A))).     (* read of the file itself *)
(* __getitem__ with rows, 194-266 *)
Definition getitem (v : view) (s : idx) : res out :=
  let! sj := match s with
             | Rows s => Ok (s, None)
             | Tup1 s => if length (shape v) <? 1 then Err IndexError else Ok (s, None)
             | Tup2 s j => if length (shape v) <? 2 then Err IndexError else Ok (s, Some j)
             | Tup3 _ _ _ => Err IndexError
             end in
  let! ks := keys v in
  let! rows := getitem_rows (read ks) (Z.of_nat (v_size v)) (fst sj) in
  let! o := match v_dtype v with
            | Named _ => Ok (Records ks rows)
            | Base _ => match shape v with
                        | _ :: k :: _ => reshape2 k (concat (concat rows))
                        | _ => Ok (Arr1 (concat (concat rows)))
                        end
            end in
  match snd sj with None => Ok o | Some j => second o j end.

(* get_dask, 348-378: blocks of a given size along each axis; dask takes x[a:b] or x[a:b, c:d] for
   each block and puts them together *)
Definition blocks (n bs : nat) : list (Z * Z) :=
  if n =? 0 then [(0, 0)%Z] else map (fun a => (a, Z.min (a + Z.of_nat bs) (Z.of_nat n))) (py_range 0 (Z.of_nat n) (Z.of_nat bs)).
Definition slice2 (ab : Z * Z) : row_index := RSlice (Some (fst ab)) (Some (snd ab)) (Some 1%Z).
(* blocks side by side *)
Definition beside (parts : list (list (list A))) (n : nat) : list (list A) := map (fun i => concat (map (fun p => nth i p []) parts)) (seq 0 n).
Definition get_dask (v : view) (c : nat) (bs : nat) : res out :=
  let! ks := keys v in
  if negb (existsb (Nat.eqb c) ks) then Err ValueError
  else
    let! w := getitem_name v c in
    if bs =? 0 then Err ValueError
    else
    match shape w with
    | [n] =>
        let! parts := rall (map (fun ab => let! o := getitem w (Tup1 (slice2 ab)) in match o with Arr1 l => Ok l | _ => Err OutOfContract end) (blocks n bs)) in
        Ok (Arr1 (concat parts))
    | [n; k] =>
        let! parts := rall (map (fun ab =>
            let! cols := rall (map (fun cd => let! o := getitem w (Tup2 (slice2 ab) (ASlice (Some (fst cd)) (Some (snd cd)) (Some 1%Z))) in match o with Arr2 _ l => Ok l | _ => Err OutOfContract end) (blocks k bs)) in
            Ok (beside cols (Z.to_nat (snd ab - fst ab)))) (blocks n bs)) in
        Ok (Arr2 k (concat parts))
    | _ => getitem w (Tup3 (RSlice None None None) (AInt 0) (AInt 0))
    end.
End View.
