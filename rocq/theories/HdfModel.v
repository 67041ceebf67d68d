(* Model of io/hdf.py: the columns of HDFFile and their reading.  Paths are lists of names
   (no name contains a slash or is empty), types are numbers.  Values have the type A. *)
From Verif Require Import Base IoModel.
Local Open Scope nat_scope.

Section Hdf.
Context {A : Type}.
Variable dflt : A.                                  (* numpy.empty *)
Definition path := list nat.
Definition path_eqb : path -> path -> bool := fix go p q := match p, q with [], [] => true | x :: p, y :: q => (x =? y) && go p q | _, _ => false end.
Fixpoint below (root p : path) : option path :=     (* p relative to root *)
  match root, p with [], p => Some p | x :: root, y :: p => if x =? y then below root p else None | _ :: _, [] => None end.
(* a data set: with fields or without; its rows and attributes *)
Inductive dset := Plain (ty : nat) (rows : list A) | Struct (fields : list (nat * nat)) (rows : list (list A)).
Definition dlen (d : dset) : nat := match d with Plain _ r => length r | Struct _ r => length r end.
Record h5 := { dsets : list (path * dset); dattrs : path -> list (nat * Z) }.
Fixpoint find (p : path) (l : list (path * dset)) : option dset := match l with [] => None | (q, d) :: l => if path_eqb p q then Some d else find p l end.
(* name in ff: a data set or a group *)
Definition in_file (ff : h5) (p : path) : bool := existsb (fun qd => match below p (fst qd) with Some _ => true | None => false end) (dsets ff).

(* find_datasets, 13-41: column, size, type, data set; for everything below the root *)
Record info := { i_name : path; i_size : nat; i_type : nat; i_dset : path }.
Definition find_datasets (name : path) (d : dset) : list info :=
  match d with
  | Struct fs rows => map (fun ft => {| i_name := name ++ [fst ft]; i_size := length rows; i_type := snd ft; i_dset := name |}) fs
  | Plain ty rows => [{| i_name := name; i_size := length rows; i_type := ty; i_dset := name |}]
  end.
Definition visit (ff : h5) (root : path) : list (path * dset) :=
  match find root (dsets ff) with
  | Some d => [([], d)]
  | None => flat_map (fun qd => match below root (fst qd) with Some r => [(r, snd qd)] | None => [] end) (dsets ff)
  end.
(* attributes: values of the header, dictionaries of the data sets *)
Inductive attr := AVal (z : Z) | ADict (d : list (nat * Z)).
Fixpoint aget (k : path) (d : list (path * attr)) : option attr := match d with [] => None | (k', v) :: d => if path_eqb k k' then Some v else aget k d end.
Fixpoint aset (k : path) (v : attr) (d : list (path * attr)) : list (path * attr) :=
  match d with [] => [(k, v)] | (k', v') :: d => if path_eqb k k' then (k, v) :: d else (k', v') :: aset k v d end.

Record hdf := { h_root : path; h_dtype : list (path * nat); h_size : nat; h_attrs : list (path * attr) }.
(* __init__, 59-140; excluded names: see NamesModel.  header: the attributes of the header, if given.
   f0: the name numpy gives to a field with an empty name *)
Definition hdf_open (ff : h5) (root : path) (excluded : path -> bool) (header : list (nat * Z)) (f0 : nat) : res hdf :=
  if negb (in_file ff root) then Err ValueError
  else
    let vs := visit ff root in
    let attrs := fold_left (fun a rd => aset (fst rd) (ADict (dattrs ff (root ++ fst rd))) a) vs (map (fun kv => ([fst kv], AVal (snd kv))) header) in
    let infos := filter (fun i => negb (excluded (root ++ i_name i))) (flat_map (fun rd => find_datasets (fst rd) (snd rd)) vs) in
    match infos with
    | [] => Err ValueError
    | i0 :: rest =>
        if negb (forallb (fun i => i_size i =? i_size i0) rest) then Err ValueError
        else
          let single := forallb (fun i => path_eqb (i_dset i) (i_dset i0)) rest && (1 <? length infos) in
          let name := fun i => match (if single then [last (i_name i) f0] else i_name i) with [] => [f0] | p => p end in
          Ok {| h_root := if single then root ++ i_dset i0 else root;
                h_dtype := map (fun i => (name i, i_type i)) infos;
                h_size := i_size i0;
                h_attrs := if single then match aget (i_dset i0) attrs with Some (ADict d) => map (fun kv => ([fst kv], AVal (snd kv))) d | _ => [] end else attrs |}
    end.

(* dset[start:stop:step] of h5py; outside this contract not specified *)
Definition h5_slice {B} (rows : list B) (d : B) (start stop step : Z) : res (list B) :=
  if ((0 <=? start) && (start <=? stop) && (stop <=? zlen rows) && (1 <=? step))%Z then Ok (map (fun i => nth (Z.to_nat i) rows d) (py_range start stop step))
  else Err OutOfContract.
Fixpoint field_index (f : nat) (fs : list (nat * nat)) : option nat := match fs with [] => None | (g, _) :: fs => if f =? g then Some 0 else option_map S (field_index f fs) end.
(* the table of data sets: name -> columns with their fields, 183-205 *)
Fixpoint add_field (name : path) (cf : path * option nat) (d : list (path * list (path * option nat))) : list (path * list (path * option nat)) :=
  match d with
  | [] => [(name, [cf])]
  | (n, l) :: d => if path_eqb name n then (n, l ++ [cf]) :: d else (n, l) :: add_field name cf d
  end.
Fixpoint put_column (name : path) (cf : path * option nat) (d : list (path * list (path * option nat))) : list (path * list (path * option nat)) :=
  match d with
  | [] => [(name, [cf])]
  | (n, l) :: d => if path_eqb name n then (n, [cf]) :: d else (n, l) :: put_column name cf d
  end.
Fixpoint compile (ff : h5) (root : path) (cols : list path) (d : list (path * list (path * option nat))) : res (list (path * list (path * option nat))) :=
  match cols with
  | [] => Ok d
  | col :: cols =>
      let name := root ++ col in
      if in_file ff name then compile ff root cols (put_column name (col, None) d)
      else match name with
           | [] => Err ValueError
           | _ => compile ff root cols (add_field (removelast name) (col, Some (last name 0)) d)
           end
  end.
Fixpoint cget {B} (k : path) (d : list (path * B)) : option B := match d with [] => None | (k', v) :: d => if path_eqb k k' then Some v else cget k d end.
(* one data set, 211-226 *)
Definition read_one (ff : h5) (start stop step : Z) (nc : path * list (path * option nat)) : res (list (path * list A)) :=
  match find (fst nc) (dsets ff) with
  | None => Err KeyError
  | Some d =>
      match snd nc, d with
      | [(col, None)], Plain _ rows => let! x := h5_slice rows dflt start stop step in Ok [(col, x)]
      | [(col, None)], Struct _ _ => Err OutOfContract
      | _, Plain _ _ => Err ValueError                (* Field names only allowed for compound types *)
      | cols, Struct fs rows =>
          let! r := h5_slice rows [] start stop step in
          rall (map (fun cf => match snd cf with
                               | None => Err OutOfContract
                               | Some f => match field_index f fs with
                                           | Some k => Ok (fst cf, map (fun row => nth k row dflt) r)
                                           | None => Err ValueError
                                           end
                               end) cols)
      end
  end.
Definition hdf_read (ff : h5) (h : hdf) (cols : list path) (start stop step : Z) : res (list (list A)) :=
  if negb (forallb (fun c => existsb (fun nt => path_eqb c (fst nt)) (h_dtype h)) cols) then Err KeyError
  else
    let! n := get_slice_size start stop step in
    if (n <? 0)%Z then Err ValueError
    else
      let! table := compile ff (h_root h) cols [] in
      let! parts := rall (map (read_one ff start stop step) table) in
      rall (map (fun c => match cget c (concat parts) with Some x => if (zlen x =? n)%Z then Ok x else Err ValueError | None => Err OutOfContract end) cols).
End Hdf.
