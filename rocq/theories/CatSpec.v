(* What indexing a catalog is supposed to mean, said on plain lists. *)
From Verif Require Import Base CatModel.
Local Open Scope nat_scope.

(* numpy indexing of one column *)
Definition numpy_index {A} (i : index) (col : list A) : res (list A) :=
  match i with
  | IEllipsis => Ok col
  | ISlice a b s => py_slice col a b s
  | IMask m => if length m =? length col then Ok (map fst (filter snd (combine col m))) else Err KeyError
  | IInts l => rall (map (fun i => match znth col (if (i <? 0)%Z then (i + zlen col)%Z else i) with
                                   | Some x => Ok x
                                   | None => Err IndexError
                                   end) l)
  end.

(* the value a catalog shows under a name: the assigned one, else the stored
   column of the class, else the default constant *)
Definition layered {A} (assigned : option (list A)) (hard : option (list A)) (dflt : option A) (n : nat)
  : res (list A * bool) :=
  match assigned, hard, dflt with
  | Some v, _, _ => Ok (v, false)
  | None, Some v, _ => Ok (v, false)
  | None, None, Some c => Ok (repeat c n, true)
  | None, None, None => Err KeyError
  end.

Section Histories.
Variable A : Type.

(* r reaches q, which stores the columns, through the chain of view bases *)
Inductive rootof (h : heap A) : nat -> nat -> Prop :=
| ro_here r o : olook A h r = Some o -> o_base A o = None -> rootof h r r
| ro_base r o b q : olook A h r = Some o -> o_base A o = Some b -> rootof h b q -> rootof h r q.
(* two references to the same columns: a catalog and its views *)
Definition same_data (h : heap A) (r r' : nat) : Prop := exists q, rootof h r q /\ rootof h r' q.

(* two references whose .attrs is the same dictionary *)
Definition same_attrs (h : heap A) (r r' : nat) : Prop :=
  r = r' \/ exists o o' d, olook A h r = Some o /\ olook A h r' = Some o' /\ o_attrs A o = Some d /\ o_attrs A o' = Some d.

(* a reference made by some earlier operation *)
Definition valid (h : heap A) (r : nat) : Prop := exists o, olook A h r = Some o.

(* everything a user can see through r *)
Definition same_view (h h' : heap A) (r : nat) : Prop :=
  (forall n, get A h' r n = get A h r n) /\ columns A h' r = columns A h r /\ size A h' r = size A h r.

(* the reference an operation modifies, if any *)
Definition target (o : op A) : option nat :=
  match o with OSet _ r _ _ | ODel _ r _ | OAttr _ r _ _ => Some r | _ => None end.
(* the reference an operation works on *)
Definition uses (o : op A) : option nat :=
  match o with
  | ONew _ _ _ _ => None
  | OSet _ r _ _ | ODel _ r _ | OAttr _ r _ _ | OCopy _ r | OView _ r | OSlice _ r _ | OSelect _ r _ => Some r
  end.
Definition writes_column (n : nat) (o : op A) : bool :=
  match o with OSet _ _ n' _ | ODel _ _ n' => n' =? n | _ => false end.
End Histories.
