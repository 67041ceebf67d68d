(* The JSON encoder and decoder of utils.py.  The text itself is not modelled:
   json.dumps and json.loads exchange a tree of the types of JSON. *)
From Coq Require Import String Decimal DecimalString.
From Verif Require Import Base Num.
Local Open Scope string_scope.
Local Open Scope list_scope.
Local Open Scope nat_scope.

(* ---- values ---- *)
Inductive flt := Fin (q : Qc) | PosInf | NegInf | NaN.
Inductive scalar :=
| SBool (b : bool) | SInt (z : Z) | SFloat (x : flt) | SStr (s : string) | SComplex (re im : flt).
(* numpy dtypes by their name, e.g. "<f8"; structured ones by fields *)
Inductive dtype := Simple (t : string) | Fields (fs : list (string * string)).
Inductive entry := One (s : scalar) | Row (r : list scalar).
Inductive key := KStr (s : string) | KInt (z : Z).
Inductive pyval :=
| PNone
| PScalar (s : scalar)
| PList (l : list pyval)
| PTuple (l : list pyval)
| PDict (d : list (key * pyval))
| PNumpy (t : string) (s : scalar)                                   (* numpy scalar other than float64, complex128, str_ *)
| PArray (dt : dtype) (shape : list nat) (data : list entry)         (* in C order *)
| PQuantity (unit t : string) (shape : list nat) (data : list scalar)
| PCosmo (pars : list (key * pyval)).

Inductive json := JNull | JScalar (s : scalar) | JList (l : list json) | JObj (d : list (string * json)).
(* SComplex is never in a JScalar, see [scalar_json] *)

(* ---- encoder ---- *)
Fixpoint prod (l : list nat) : nat := match l with [] => 1 | n :: l => n * prod l end.
(* ndarray.tolist: nested lists of the given shape *)
Fixpoint chunks {A} (n m : nat) (l : list A) : list (list A) :=
  match n with O => [] | S n => firstn m l :: chunks n m (skipn m l) end.
Fixpoint nest (shape : list nat) (l : list json) : json :=
  match shape with
  | [] => match l with x :: _ => x | [] => JNull end
  | n :: shape => JList (map (nest shape) (chunks n (prod shape) l))
  end.

Definition scalar_json (s : scalar) : json :=
  match s with
  | SComplex re im => JObj [("__complex__", JList [JScalar (SFloat re); JScalar (SFloat im)])]     (* 408-409 *)
  | _ => JScalar s
  end.
Definition entry_json (e : entry) : json := match e with One s => scalar_json s | Row r => JList (map scalar_json r) end.
Definition dtype_json (dt : dtype) : json :=
  match dt with
  | Simple t => JScalar (SStr t)
  | Fields fs => JList (map (fun f => JList [JScalar (SStr (fst f)); JScalar (SStr (snd f))]) fs)
  end.
Definition shape_json (shape : list nat) : json := JList (map (fun n => JScalar (SInt (Z.of_nat n))) shape).
Definition array_fields (dt : dtype) (shape : list nat) (data : list entry) : list (string * json) :=  (* 412-421 *)
  [("__dtype__", dtype_json dt); ("__shape__", shape_json shape); ("__data__", nest shape (map entry_json data))].
(* json writes integer keys as text *)
Definition int_text (z : Z) : string := NilEmpty.string_of_int (Z.to_int z).
Definition key_text (k : key) : string := match k with KStr s => s | KInt z => int_text z end.
(* numpy scalars: 424-429 *)
Definition np_json (s : scalar) : res json :=
  match s with SFloat _ | SInt _ => Ok (JScalar s) | _ => Err TypeError end.

Fixpoint encode (v : pyval) : res json :=
  match v with
  | PNone => Ok JNull
  | PScalar s => Ok (scalar_json s)
  | PList l | PTuple l => let! js := rall (map encode l) in Ok (JList js)
  | PDict d => let! js := rall (map (fun kv => let! j := encode (snd kv) in Ok (key_text (fst kv), j)) d) in Ok (JObj js)
  | PNumpy _ s => np_json s
  | PArray dt shape data => Ok (JObj (array_fields dt shape data))
  | PQuantity unit t shape data =>                                                               (* 393-405 *)
      if 1 <? prod shape then Ok (JObj (("__unit__", JScalar (SStr unit)) :: array_fields (Simple t) shape (map One data)))
      else match shape, data with
           | [], s :: _ =>
               (* obj.value is a numpy scalar; float64 and complex128 are Python numbers *)
               let! j := if String.eqb t "<f8" || String.eqb t "<c16" then Ok (scalar_json s) else np_json s in
               Ok (JObj [("__unit__", JScalar (SStr unit)); ("__data__", j)])
           | [], [] => Err OutOfContract
           | _, _ => Ok (JObj [("__unit__", JScalar (SStr unit)); ("__data__", JObj (array_fields (Simple t) shape (map One data)))])
           end
  | PCosmo pars =>                                                                               (* 387-390 *)
      let! js := rall (map (fun kv => let! j := encode (snd kv) in Ok (key_text (fst kv), j)) pars) in
      Ok (JObj [("__cosmo__", JObj js)])
  end.

(* ---- decoder ---- *)
Definition eqb_key (k : key) (s : string) : bool := match k with KStr s' => String.eqb s' s | KInt _ => false end.
(* a dict made from pairs: the last of equal keys counts, at the place of the first *)
Fixpoint dict_set (k : string) (v : pyval) (d : list (key * pyval)) : list (key * pyval) :=
  match d with
  | [] => [(KStr k, v)]
  | (k', v') :: d => if eqb_key k' k then (k', v) :: d else (k', v') :: dict_set k v d
  end.
Definition dict_of (kvs : list (string * pyval)) : list (key * pyval) := fold_left (fun d kv => dict_set (fst kv) (snd kv) d) kvs [].
Definition lookup (k : string) (d : list (key * pyval)) : option pyval := option_map snd (find (fun kv => eqb_key (fst kv) k) d).
Definition get (k : string) (d : list (key * pyval)) : res pyval := match lookup k d with Some v => Ok v | None => Err KeyError end.

(* fixdtype, 441-450; fields with a shape of their own are not modelled *)
Definition as_str (v : pyval) : res string := match v with PScalar (SStr s) => Ok s | _ => Err OutOfContract end.
Definition fixdtype (v : pyval) : res dtype :=
  match v with
  | PList l =>
      let! fs := rall (map (fun f => match f with
                                     | PList [a; b] => let! a := as_str a in let! b := as_str b in Ok (a, b)
                                     | _ => Err OutOfContract end) l) in
      Ok (Fields fs)
  | _ => let! t := as_str v in Ok (Simple t)
  end.
(* fixdata, 452-463 *)
Fixpoint fixdata (v : pyval) (n : nat) (dt : dtype) : res pyval :=
  match dt with
  | Simple _ => Ok v
  | Fields fs =>
      match n, v with
      | S n, PList l => let! l := rall (map (fun i => fixdata i n dt) l) in Ok (PList l)
      | O, PList l => if List.length l =? List.length fs then Ok (PTuple l) else Err AssertionError
      | _, _ => Err TypeError
      end
  end.

Section Decode.
(* numpy: the conversion of one value to a dtype *)
Variable cast : string -> scalar -> res scalar.

(* numpy.array(v, dtype): nested lists give the shape.  Fuel is not needed: the
   recursion is on v. *)
Fixpoint list_eqb (a b : list nat) : bool :=
  match a, b with [], [] => true | x :: a, y :: b => (x =? y) && list_eqb a b | _, _ => false end.
Fixpoint discover (v : pyval) : res (list nat * list pyval) :=
  match v with
  | PList l =>
      let! rs := rall (map discover l) in
      match rs with
      | [] => Ok ([0], [])
      | r :: _ => if forallb (fun r' => list_eqb (fst r) (fst r')) rs
                  then Ok (List.length rs :: fst r, List.concat (map snd rs)) else Err ValueError
      end
  | _ => Ok ([], [v])
  end.
Fixpoint cast_row (fs : list (string * string)) (l : list pyval) : res (list scalar) :=
  match fs, l with
  | [], [] => Ok []
  | f :: fs, PScalar s :: l => let! s := cast (snd f) s in let! r := cast_row fs l in Ok (s :: r)
  | _, _ => Err TypeError
  end.
Definition cast_entry (dt : dtype) (v : pyval) : res entry :=
  match dt, v with
  | Simple t, PScalar s => let! s := cast t s in Ok (One s)
  | Fields fs, PTuple l => let! r := cast_row fs l in Ok (Row r)
  | _, _ => Err TypeError
  end.
Definition np_array (v : pyval) (dt : dtype) : res pyval :=
  let! sl := discover v in let! data := rall (map (cast_entry dt) (snd sl)) in Ok (PArray dt (fst sl) data).

(* Quantity(d, unit): types that float32 cannot be cast to become float64 *)
Definition quantity_keeps (t : string) : bool := String.eqb t "<f4" || String.eqb t "<f8" || String.eqb t "<c8" || String.eqb t "<c16".
Definition one_scalar (e : entry) : res scalar := match e with One s => Ok s | Row _ => Err OutOfContract end.
Definition quantity (d : pyval) (unit : string) : res pyval :=
  match d with
  | PArray (Simple t) shape data =>
      let! l := rall (map one_scalar data) in
      if quantity_keeps t then Ok (PQuantity unit t shape l)
      else let! l := rall (map (cast "<f8") l) in Ok (PQuantity unit "<f8" shape l)
  | PScalar (SFloat x) => Ok (PQuantity unit "<f8" [] [SFloat x])
  | PScalar (SComplex re im) => Ok (PQuantity unit "<c16" [] [SComplex re im])
  | PScalar (SInt z) => let! s := cast "<f8" (SInt z) in Ok (PQuantity unit "<f8" [] [s])
  | _ => Err TypeError
  end.
(* real + 1j*imag: the real part of 1j*imag is 0*imag *)
Definition zero_times (x : flt) : flt := match x with Fin _ => Fin 0%Qc | _ => NaN end.
Definition fadd (x y : flt) : flt :=
  match x, y with
  | Fin a, Fin b => Fin (a + b)%Qc
  | NaN, _ | _, NaN | PosInf, NegInf | NegInf, PosInf => NaN
  | PosInf, _ | _, PosInf => PosInf
  | NegInf, _ | _, NegInf => NegInf
  end.
Definition to_complex (re im : flt) : scalar := SComplex (fadd re (zero_times im)) im.

(* hook, 439-485 *)
Definition hook (d : list (key * pyval)) : res pyval :=
  let! a := match lookup "__dtype__" d with
            | Some dt =>
                let! dt := fixdtype dt in
                let! shape := get "__shape__" d in
                let! n := match shape with PList l => Ok (List.length l) | _ => Err TypeError end in
                let! data := get "__data__" d in
                let! data := fixdata data n dt in
                let! a := np_array data dt in Ok (Some a)
            | None => Ok None
            end in
  let! a := match lookup "__unit__" d with
            | Some unit =>
                let! v := match a with Some a => Ok a | None => get "__data__" d end in
                let! unit := as_str unit in
                let! q := quantity v unit in Ok (Some q)
            | None => Ok a
            end in
  let! a := match lookup "__cosmo__" d with
            | Some (PDict pars) => Ok (Some (PCosmo pars))      (* Cosmology.from_dict, cosmology.py:407-427 *)
            | Some _ => Err TypeError
            | None => Ok a
            end in
  match a with
  | Some a => Ok a
  | None =>
      match lookup "__complex__" d with
      | Some (PList [PScalar (SFloat re); PScalar (SFloat im)]) => Ok (PScalar (to_complex re im))
      | Some (PList [_; _]) => Err OutOfContract
      | Some _ => Err ValueError
      | None => Ok (PDict d)
      end
  end.

Fixpoint decode (j : json) : res pyval :=
  match j with
  | JNull => Ok PNone
  | JScalar s => Ok (PScalar s)
  | JList l => let! vs := rall (map decode l) in Ok (PList vs)
  | JObj d => let! kvs := rall (map (fun kv => let! v := decode (snd kv) in Ok (fst kv, v)) d) in hook (dict_of kvs)
  end.
End Decode.
