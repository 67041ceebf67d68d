(* Model of binned_statistic.py: __setitem__ (304-332), rename_variable (568-595), squeeze without
   a dimension (745-805), to_json and from_json (425-502).  See BinModel for binned statistics. *)
From Verif Require Import Base Num BinModel.
Local Open Scope nat_scope.

(* d[x] = v for an array v; int: of an integer type.  The variable goes to the end *)
Definition setitem (s : stat) (x : nat) (int : bool) (v : arr val) : res stat :=
  if negb (shape_eqb (shape v) (shape (data s))) then Err ValueError
  else
    let rest := fun {A} (l : list A) => match var_position x (vars s) with Some k => remove_at k l | None => l end in
    Ok {| dims := dims s; edges := edges s; coords := coords s; vars := rest (vars s) ++ [(x, int)];
          data := {| shape := shape (data s); cell := fun idx => rest (cell (data s) idx) ++ [cell v idx] |};
          mask := {| shape := shape (mask s); cell := fun idx => cell (mask s) idx || negb (finite (cell v idx)) |};
          fts := fts s; attrs := attrs s |}.

(* rename_variable; numpy refuses the same name twice *)
Fixpoint distinct (l : list nat) : bool := match l with [] => true | x :: l => negb (existsb (Nat.eqb x) l) && distinct l end.
Definition rename (s : stat) (old new : nat) : res stat :=
  match var_position old (vars s) with
  | None => Err ValueError
  | Some k =>
      let vs := replace_nth (vars s) k (new, snd (nth k (vars s) (0, false))) in
      if distinct (map fst vs) then
        Ok {| dims := dims s; edges := edges s; coords := coords s; vars := vs; data := data s; mask := mask s; fts := fts s; attrs := attrs s |}
      else Err ValueError
  end.

(* squeeze(dim=None) *)
Definition squeeze_any (s : stat) : res stat :=
  match filter (fun dc => length (snd dc) =? 1) (combine (dims s) (coords s)) with
  | [dc] => squeeze s (fst dc)
  | _ => Err ValueError
  end.

(* ---- JSON ----  what the decoder gives: the data under some names, and the other entries *)
Record json := { j_data : list (nat * (list (nat * bool) * arr (list val))); j_dims : option (list nat); j_edges : option (list (list Qc)); j_coords : option (list (list Qc)); j_attrs : option (list (nat * Z)) }.
Section Json.
(* the names 'data', and among those of meta-data: of the arguments of the constructor that are given, and fields_to_sum *)
Variable data_name : nat.
Variable reserved : nat -> bool.        (* self, dims, edges, data, coords *)
Variable fts_name : nat.
Variable as_names : Z -> list nat.      (* what _fields_to_sum then is *)
Definition to_json (s : stat) : json :=
  {| j_data := [(data_name, (vars s, data s))]; j_dims := Some (dims s); j_edges := Some (edges s); j_coords := Some (coords s); j_attrs := Some (attrs s) |}.
Fixpoint aput (k : nat) (v : Z) (d : list (nat * Z)) : list (nat * Z) :=
  match d with [] => [(k, v)] | (k', v') :: d => if k =? k' then (k, v) :: d else (k', v') :: aput k v d end.
Fixpoint afind {V} (k : nat) (d : list (nat * V)) : option V := match d with [] => None | (k', v) :: d => if k =? k' then Some v else afind k d end.
Definition aupdate (d e : list (nat * Z)) : list (nat * Z) := fold_left (fun d kv => aput (fst kv) (snd kv) d) e d.
Definition from_json (j : json) (key : nat) (dims : option (list nat)) (edges : option (list (list Qc))) (kwargs : list (nat * Z)) : res stat :=
  match afind key (j_data j) with
  | None => Err ValueError
  | Some (vs, d) =>
      match (match j_dims j with Some x => Some x | None => dims end) with
      | None => Err ValueError
      | Some ds =>
          match (match j_edges j with Some x => Some x | None => edges end) with
          | None => Err ValueError
          | Some es =>
              let a := aupdate (match j_attrs j with Some x => x | None => [] end) kwargs in
              if existsb (fun kv => reserved (fst kv)) a then Err TypeError
              else init ds es vs d (match afind fts_name a with Some z => as_names z | None => [] end)
                     (match j_coords j with Some c => Some (map Some c) | None => None end)
                     (filter (fun kv => negb (fst kv =? fts_name)) a)
          end
      end
  end.
End Json.
