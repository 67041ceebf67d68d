(* Model of nbodykit/binned_statistic.py: bin_ndarray (3-58) and BinnedStatistic.

   An n-dimensional array is its shape and a function of the index.  A structured array
   is an array of rows, one value per variable.  Values are exact rationals, None stands
   for a value that is not finite.  Coordinates and edges are lists per dimension
   (in the code: dicts keyed by dimension name).  Names are numbers. *)
From Verif Require Import Base Num DistModel.
Local Open Scope nat_scope.

Record arr (V : Type) := { shape : list nat; cell : list nat -> V }.
Arguments shape {V} _.
Arguments cell {V} _ _.

Definition prod (s : list nat) : nat := fold_right Nat.mul 1 s.
(* position in memory (C order) of an index, and back *)
Fixpoint ravel (s idx : list nat) : nat :=
  match s, idx with n :: s, i :: idx => i * prod s + ravel s idx | _, _ => 0 end.
Fixpoint unravel (s : list nat) (k : nat) : list nat :=
  match s with [] => [] | n :: s => k / prod s :: unravel s (k mod prod s) end.
Definition reshape {V} (a : arr V) (s : list nat) : res (arr V) :=
  if prod (shape a) =? prod s then Ok {| shape := s; cell := fun idx => cell a (unravel (shape a) (ravel s idx)) |}
  else Err ValueError.

Fixpoint insert_at {A} (p : nat) (x : A) (l : list A) : list A :=
  match p, l with
  | O, _ => x :: l
  | S p, y :: l => y :: insert_at p x l
  | S p, [] => [x]
  end.
Fixpoint remove_at {A} (p : nat) (l : list A) : list A :=
  match p, l with
  | O, _ :: l => l
  | S p, y :: l => y :: remove_at p l
  | _, [] => []
  end.
(* numpy reductions along axis p *)
Definition reduce {V} (op : list V -> V) (p : nat) (a : arr V) : arr V :=
  {| shape := remove_at p (shape a);
     cell := fun idx => op (map (fun j => cell a (insert_at p j idx)) (seq 0 (nth p (shape a) 0))) |}.

(* ---- operations ---- *)
Definition val := option Qc.
Definition fin (x : val) : Qc := match x with Some q => q | None => 0%Qc end.
Definition finite (x : val) : bool := match x with Some _ => true | None => false end.
Definition nansum (l : list val) : val := Some (qsum (map fin l)).
Definition nanmean (l : list val) : val :=
  match filter finite l with
  | [] => None
  | f => Some (qsum (map fin f) / nq (length f))%Qc
  end.
Definition plainsum (l : list val) : val := if forallb finite l then Some (qsum (map fin l)) else None.
Definition vmul (x y : val) : val := match x, y with Some a, Some b => Some (a * b)%Qc | _, _ => None end.
(* x/0 is nan or inf *)
Definition vdiv (x y : val) : val :=
  match x, y with Some a, Some b => if Qc_eq_dec b 0%Qc then None else Some (a / b)%Qc | _, _ => None end.
(* the two lines for weights, 52-54: the array and its weights as one array of pairs *)
Definition wop (l : list (val * val)) : val * val :=
  let n := nansum (map (fun xw => vmul (fst xw) (snd xw)) l) in
  let w := plainsum (map snd l) in
  (vdiv n w, w).

(* ---- bin_ndarray, 3-58 ----  (new_shape is a list in the only call, so the test of line 36
   compares a tuple with a list and is never true) *)
Definition flattened (d r : list nat) : list nat := flat_map (fun p => [fst p; snd p]) (combine d r).
Definition bin_ndarray {V} (op : list V -> V) (a : arr V) (new : list nat) : res (arr V) :=
  if negb (length (shape a) =? length new) then Err ValueError
  else if existsb (fun p => negb (fst p mod snd p =? 0)) (filter (fun p => negb (snd p =? 0)) (combine (shape a) new)) then Err ValueError
  else if existsb (fun d => d =? 0) new then Err ZeroDivisionError            (* c//d *)
  else
    let r := map (fun p => snd p / fst p) (combine new (shape a)) in
    let! b := reshape a (flattened new r) in
    Ok (fold_left (fun b i => reduce op (length (shape b) - (i + 1)) b) (seq 0 (length new)) b).

(* ---- BinnedStatistic ---- *)
Record stat := {
  dims : list nat;
  edges : list (list Qc);
  coords : list (list Qc);
  vars : list (nat * bool);         (* name, and whether its type is an integer type *)
  data : arr (list val);
  mask : arr bool;
  fts : list nat;                   (* _fields_to_sum *)
  attrs : list (nat * Z)
}.
Definition mid (e : list Qc) : list Qc := map (fun p => (Q2Qc (1 # 2) * (snd p + fst p))%Qc) (combine e (tl e)).
Definition sshape (s : stat) : list nat := map (@length Qc) (coords s).

Fixpoint shape_eqb (a b : list nat) : bool :=
  match a, b with [], [] => true | x :: a, y :: b => (x =? y) && shape_eqb a b | _, _ => false end.
(* __init__, 144-185 *)
Definition init (ds : list nat) (es : list (list Qc)) (vs : list (nat * bool)) (d : arr (list val)) (f : list nat)
           (cs : option (list (option (list Qc)))) (a : list (nat * Z)) : res stat :=
  if negb (length ds =? length es) then Err ValueError
  else if negb (shape_eqb (shape d) (map (fun e => length e - 1) es)) then Err ValueError
  else
    Ok {| dims := ds; edges := es;
          coords := map (fun ie => match cs with
                                   | Some l => match nth (fst ie) l None with Some c => c | None => mid (snd ie) end
                                   | None => mid (snd ie)
                                   end) (combine (seq 0 (length es)) es);
          vars := vs; data := d;
          mask := {| shape := shape d; cell := fun i => existsb (fun x => negb (finite x)) (cell d i) |};
          fts := f; attrs := a |}.

(* __construct_direct__, 216-243 *)
Definition construct_direct (ds : list nat) (es cs : list (list Qc)) (vs : list (nat * bool)) (f : list nat) (a : list (nat * Z))
           (d : arr (list val)) (m : arr bool) : res stat :=
  let sh := map (@length Qc) cs in
  let! d := if shape_eqb (shape d) sh then Ok d else reshape d sh in
  let! m := if shape_eqb (shape m) sh then Ok m else reshape m sh in
  Ok {| dims := ds; edges := es; coords := cs; vars := vs; data := d; mask := m; fts := f; attrs := a |}.

(* numpy indexing with integers: negative counts from the end *)
Definition norm (n : nat) (i : Z) : option nat :=
  if (0 <=? i)%Z then (if (i <? Z.of_nat n)%Z then Some (Z.to_nat i) else None)
  else if (0 <=? i + Z.of_nat n)%Z then Some (Z.to_nat (i + Z.of_nat n)) else None.
Definition norms (n : nat) (l : list Z) : res (list nat) :=
  rall (map (fun i => match norm n i with Some k => Ok k | None => Err IndexError end) l).

(* __slice_edges__, 267-284 *)
Definition slice_edges (e : list Qc) (idx : list Z) : res (list Qc) :=
  let l := match idx with [] => [0%Z] | _ => idx ++ [last idx 0%Z + 1]%Z end in
  let! k := norms (length e) l in
  Ok (map (fun i => nth i e 0%Qc) k).
(* __finalize__, 259-265 *)
Definition finalize (s : stat) (vs : list (nat * bool)) (d : arr (list val)) (m : arr bool) (indices : list (list Z)) : res stat :=
  let! es := rall (map (fun ei => slice_edges (fst ei) (snd ei)) (combine (edges s) indices)) in
  construct_direct (dims s) es (map mid es) vs (fts s) (attrs s) d m.

(* ---- indexing ---- *)
Inductive subkey := KInt (i : Z) | KList (l : list Z) | KSlice (a b c : option Z).
(* a resolved subkey *)
Inductive rkey := RInt (n : nat) | RList (l : list nat) | RSlice (l : list nat).
Definition slice_list (n : nat) (a b c : option Z) : res (list Z) :=
  let! i := slice_indices a b c (Z.of_nat n) in let '(a, b, s) := i in Ok (py_range a b s).
Definition resolve (n : nat) (k : subkey) : res rkey :=
  match k with
  | KInt i => match norm n i with Some k => Ok (RInt k) | None => Err IndexError end
  | KList l => let! k := norms n l in Ok (RList k)
  | KSlice a b c => let! l := slice_list n a b c in Ok (RSlice (map Z.to_nat l))
  end.
Definition is_list (r : rkey) : bool := match r with RList _ => true | _ => false end.
Definition is_slice (r : rkey) : bool := match r with RSlice _ => true | _ => false end.
(* the full index: slices consume idx, lists are taken at the common position l *)
Fixpoint expand (rs : list rkey) (idx : list nat) (l : nat) : list nat :=
  match rs with
  | [] => []
  | RInt n :: rs => n :: expand rs idx l
  | RList [x] :: rs => x :: expand rs idx l
  | RList ns :: rs => nth l ns 0 :: expand rs idx l
  | RSlice ns :: rs => match idx with
                       | i :: idx => nth i ns 0 :: expand rs idx l
                       | [] => 0 :: expand rs [] l
                       end
  end.
Definition slice_lens (rs : list rkey) : list nat :=
  flat_map (fun r => match r with RSlice l => [length l] | _ => [] end) rs.
(* broadcasting of the lists (integers have length one) *)
Fixpoint broadcast (rs : list rkey) : option nat :=
  match rs with
  | [] => Some 1
  | RList l :: rs => match broadcast rs with
                     | Some n => if length l =? 1 then Some n else if (n =? 1) || (n =? length l) then Some (length l) else None
                     | None => None
                     end
  | _ :: rs => broadcast rs
  end.
(* number of slices before the first advanced (integer or list) index; are the advanced ones together? *)
Fixpoint lead (rs : list rkey) : nat := match rs with RSlice _ :: rs => S (lead rs) | _ => 0 end.
Definition together (rs : list rkey) : bool :=
  let after := skipn (lead rs) rs in
  let fix drop l := match l with RSlice _ :: _ => l | _ :: l => drop l | [] => [] end in
  forallb is_slice (drop after).
(* a[key]; keys for the missing axes are full slices *)
Definition numpy_index {V} (a : arr V) (ks : list subkey) : res (arr V) :=
  let n := length (shape a) in
  if n <? length ks then Err IndexError
  else
    let! rs := rall (map (fun nk => resolve (fst nk) (snd nk)) (combine (shape a) (ks ++ repeat (KSlice None None None) (n - length ks)))) in
    if existsb is_list rs then
      match broadcast rs with
      | None => Err IndexError
      | Some L =>
          if together rs then
            let p := lead rs in
            Ok {| shape := insert_at p L (slice_lens rs); cell := fun idx => cell a (expand rs (remove_at p idx) (nth p idx 0)) |}
          else Ok {| shape := L :: slice_lens rs; cell := fun idx => cell a (expand rs (tl idx) (hd 0 idx)) |}
      end
    else Ok {| shape := slice_lens rs; cell := fun idx => cell a (expand rs idx 0) |}.

(* squeeze, 745-805, for a given dimension *)
Definition position (x : nat) (l : list nat) : option nat :=
  (fix go l k := match l with [] => None | y :: l => if y =? x then Some k else go l (S k) end) l 0.
Definition squeeze (s : stat) (d : nat) : res stat :=
  match position d (dims s) with
  | None => Err ValueError
  | Some i =>
      if negb (length (nth i (coords s) []) =? 1) then Err ValueError
      else if length (dims s) =? 1 then Err ValueError
      else
        construct_direct (remove_at i (dims s)) (remove_at i (edges s)) (remove_at i (coords s)) (vars s) (fts s) (attrs s)
          {| shape := remove_at i (shape (data s)); cell := fun idx => cell (data s) (insert_at i 0 idx) |}
          {| shape := remove_at i (shape (mask s)); cell := fun idx => cell (mask s) (insert_at i 0 idx) |}
  end.
Fixpoint squeezes (s : stat) (ds : list nat) : res stat :=
  match ds with [] => Ok s | d :: ds => let! s := squeeze s d in squeezes s ds end.

(* __getitem__, 334-402, for a key of integers, lists of integers and slices (a key that is not
   a tuple is a tuple of one).  A slice with step 0 raises ValueError before the try. *)
Fixpoint key_indices (sh : list nat) (ks : list subkey) : res (list (list Z)) :=
  match sh with
  | [] => Ok []
  | n :: sh =>
      let! x := match ks with
                | [] => Ok (map Z.of_nat (seq 0 n))
                | KInt i :: _ => Ok [i]
                | KList l :: _ => Ok l
                | KSlice a b c :: _ => slice_list n a b c
                end in
      let! r := key_indices sh (tl ks) in Ok (x :: r)
  end.
Definition int_dims (ds : list nat) (ks : list subkey) : list nat :=
  flat_map (fun dk => match snd dk with KInt _ => [fst dk] | _ => [] end) (combine ds ks).
Definition getitem (s : stat) (ks : list subkey) : res stat :=
  if length (dims s) <? length ks then Err IndexError
  else
    let! ind := key_indices (sshape s) ks in
    let sq := int_dims (dims s) ks in
    if length sq =? length (dims s) then Err IndexError
    else
      match (let! d := numpy_index (data s) ks in
             let! m := numpy_index (mask s) ks in
             let! t := finalize s (vars s) d m ind in
             squeezes t sq) with
      | Err ValueError => Err IndexError                                     (* 400-402 *)
      | x => x
      end.

(* the names in key, 363-370: columns in the order asked for *)
Definition var_position (x : nat) (l : list (nat * bool)) : option nat := position x (map fst l).
Definition get_vars (s : stat) (names : list nat) : res stat :=
  let! ks := rall (map (fun x => match var_position x (vars s) with Some k => Ok k | None => Err KeyError end) names) in
  finalize s (map (fun k => nth k (vars s) (0, false)) ks)
    {| shape := shape (data s); cell := fun i => map (fun k => nth k (cell (data s) i) None) ks |}
    (mask s) (map (fun n => map Z.of_nat (seq 0 n)) (sshape s)).

(* ---- take, 664-743 ----  (a boolean index has the length of its axis) *)
Inductive pickspec := PMask (l : list bool) | PIdx (l : list Z).
(* mask.all over all axes but i: for every index with i-th entry k *)
Fixpoint all_indices (s : list nat) : list (list nat) :=
  match s with [] => [[]] | n :: s => flat_map (fun i => map (cons i) (all_indices s)) (seq 0 n) end.
Definition all_but (s : list nat) (m : list nat -> bool) (i k : nat) : bool :=
  forallb (fun idx => negb (nth i idx 0 =? k) || m idx) (all_indices s).
Definition and_lists (a b : list bool) : list bool := map (fun p => fst p && snd p) (combine a b).
Definition put_mask (n : nat) (l : list Z) : res (list bool) :=
  let! ks := norms n l in Ok (map (fun k => existsb (Nat.eqb k) ks) (seq 0 n)).
Fixpoint replace_nth {A} (l : list A) (i : nat) (x : A) : list A :=
  match l, i with [], _ => [] | _ :: l, O => x :: l | y :: l, S i => y :: replace_nth l i x end.
Fixpoint apply_picks (s : stat) (sel : list (list bool)) (ps : list (nat * pickspec)) : res (list (list bool)) :=
  match ps with
  | [] => Ok sel
  | (d, p) :: ps =>
      match position d (dims s) with
      | None => Err ValueError
      | Some i =>
          let n := nth i (sshape s) 0 in
          let! m := match p with
                    | PMask l => if length l =? n then Ok l else Err ValueError
                    | PIdx l => put_mask n l
                    end in
          apply_picks s (replace_nth sel i (and_lists (nth i sel []) m)) ps
      end
  end.
Definition nonzero (l : list bool) : list nat :=
  flat_map (fun kb : nat * bool => if snd kb then [fst kb] else []) (combine (seq 0 (length l)) l).
(* numpy.take along every axis *)
Definition outer {V} (a : arr V) (idx : list (list nat)) : arr V :=
  {| shape := map (@length nat) idx; cell := fun i => cell a (map (fun p => nth (fst p) (snd p) 0) (combine i idx)) |}.
Definition take (s : stat) (masks : list (list nat -> bool)) (ps : list (nat * pickspec)) : res stat :=
  let sh := sshape s in
  let m := fun idx => forallb (fun m : list nat -> bool => m idx) masks in
  let start := map (fun i => map (all_but sh m i) (seq 0 (nth i sh 0))) (seq 0 (length sh)) in
  let! sel := apply_picks s start ps in
  let idx := map nonzero sel in
  finalize s (vars s) (outer (data s) idx) (outer (mask s) idx) (map (map Z.of_nat) idx).

(* ---- sel, 597-662 ---- *)
Inductive indexer := IList (l : list Qc) | ISlice (a b : Qc) | IScalar (x : Qc).
Definition qabs (x : Qc) : Qc := if Qclt_le_dec x 0%Qc then (- x)%Qc else x.
(* numpy.argmin: the first of the smallest *)
Fixpoint argmin (l : list Qc) : nat :=
  match l with
  | [] => 0
  | x :: l => match l with
              | [] => 0
              | _ => let k := argmin l in if Qclt_le_dec (nth k l 0%Qc) x then S k else 0
              end
  end.
(* _get_index, 404-420 *)
Definition get_index (c : list Qc) (x : Qc) (nearest : bool) : res nat :=
  if nearest then (match c with [] => Err ValueError | _ => Ok (argmin (map (fun y => qabs (y - x)%Qc) c)) end)
  else match (fix go l k := match l with [] => None | y :: l => if Qc_eq_dec y x then Some k else go l (S k) end) c 0 with
       | Some k => Ok k
       | None => Err IndexError
       end.
Definition sel (s : stat) (nearest : bool) (ix : list (nat * indexer)) : res stat :=
  let! ps := rall (map (fun di : nat * indexer => match position (fst di) (dims s) with
        | None => match snd di with IList [] => Ok (fst di, PIdx []) | _ => Err KeyError end
        | Some i =>
            let c := nth i (coords s) [] in
            match snd di with
            | IList l => let! k := rall (map (fun x => get_index c x nearest) l) in Ok (fst di, PIdx (map Z.of_nat k))
            | ISlice a b => let! ka := get_index c a nearest in
                            let! kb := get_index c b nearest in
                            let! l := slice_list (length c) (Some (Z.of_nat ka)) (Some (Z.of_nat kb)) None in
                            Ok (fst di, PIdx l)
            | IScalar x => let! k := get_index c x nearest in Ok (fst di, PIdx [Z.of_nat k])
            end
        end) ix) in
  let sq := flat_map (fun di : nat * indexer => match snd di with IScalar _ => [fst di] | _ => [] end) ix in
  if length sq =? length (dims s) then Err IndexError
  else
    let! t := take s [] ps in squeezes t sq.

(* ---- reindex, 829-952 ----  (weights[sl] with a list sl, line 912, is weights[tuple(sl)]) *)
(* numpy.round: to the nearest integer, ties to even *)
Definition qfloor (x : Qc) : Z := (Qnum (this x) / Zpos (Qden (this x)))%Z.
Definition qround (x : Qc) : Z :=
  let f := qfloor x in
  let d := (x - zq f)%Qc in
  if Qclt_le_dec d (Q2Qc (1 # 2)) then f
  else if Qclt_le_dec (Q2Qc (1 # 2)) d then (f + 1)%Z
  else if Z.even f then f else (f + 1)%Z.
Definition allclose (a b : Qc) : bool :=
  if Qclt_le_dec (Q2Qc (1 # 100000000) + Q2Qc (1 # 100000) * qabs b)%Qc (qabs (a - b)%Qc) then false else true.
(* numpy.linspace(a, b, n+1) *)
Definition linspace (a b : Qc) (n : nat) : list Qc :=
  map (fun k => (a + nq k * ((b - a) / nq n))%Qc) (seq 0 (S n)).
(* assignment to a column of integer type truncates; nan becomes some number, left None *)
Definition trunc (x : val) : val :=
  match x with Some q => Some (zq (Z.quot (Qnum (this q)) (Zpos (Qden (this q))))) | None => None end.
Definition store (int : bool) (x : val) : val := if int then trunc x else x.

Inductive weights := WNone | WName (x : nat) | WArr (int : bool) (a : arr val).
Definition column (d : arr (list val)) (k : nat) : arr val := {| shape := shape d; cell := fun i => nth k (cell d i) None |}.
Definition pairs (a b : arr val) : arr (val * val) := {| shape := shape a; cell := fun i => (cell a i, cell b i) |}.
Definition with_shape {V} (a : arr V) (s : list nat) : arr V := {| shape := s; cell := cell a |}.

(* one variable, 923-930 *)
Definition rebin (d : arr val) (int : bool) (w : option (bool * arr val)) (summed : bool) (new : list nat) : res (arr val) :=
  if summed then bin_ndarray nansum d new
  else match w with
       | None => bin_ndarray nanmean d new
       | Some (wint, w) =>
           if int && wint then Err TypeError                   (* ndarray /= weights on integers *)
           else let! p := bin_ndarray wop (pairs d w) new in
                Ok {| shape := shape p; cell := fun i => fst (cell p i) |}
       end.

Definition reindex (s : stat) (dim : nat) (spacing : Qc) (w : weights) (force : bool) (to_sum : list nat) : res stat :=
  match position dim (dims s) with
  | None => Err ValueError
  | Some i =>
      match nth i (coords s) [] with
      | c0 :: c1 :: _ =>
          let old := (c1 - c0)%Qc in
          if Qc_eq_dec old 0%Qc then Err OutOfContract else      (* division by zero: warning and nan *)
          let factor := qround (spacing / old)%Qc in
          if (factor =? 0)%Z then Err ValueError
          else if (factor =? 1)%Z then Err ValueError
          else if negb (allclose (old * zq factor)%Qc spacing) && negb force then Err ValueError
          else
            let! w := match w with
                      | WNone => Ok None
                      | WName x => match var_position x (vars s) with
                                   | Some k => Ok (Some (snd (nth k (vars s) (0, false)), column (data s) k))
                                   | None => Err ValueError
                                   end
                      | WArr b a => if shape_eqb (shape a) (sshape s) then Ok (Some (b, a)) else Err OutOfContract
                      end in
            if (factor <? 0)%Z then Err ValueError               (* linspace with a negative number, or bin_ndarray *)
            else
              let m := Z.to_nat factor in
              let n := nth i (sshape s) 0 in
              let leftover := n mod m in
              if negb (leftover =? 0) && negb force then Err ValueError
              else
                let cut := replace_nth (sshape s) i (n - leftover) in
                let e := firstn (length (nth i (edges s) []) - leftover) (nth i (edges s) []) in
                let new := replace_nth (sshape s) i ((n - leftover) / m) in
                let ne := linspace (hd 0%Qc e) (last e 0%Qc) ((n - leftover) / m) in
                let w := match w with Some (b, a) => Some (b, with_shape a cut) | None => None end in
                let! cols := rall (map (fun kv =>
                      let! c := rebin (with_shape (column (data s) (fst kv)) cut) (snd (snd kv)) w
                                      (existsb (Nat.eqb (fst (snd kv))) to_sum) new in
                      Ok (fun idx => store (snd (snd kv)) (cell c idx))) (combine (seq 0 (length (vars s))) (vars s))) in
                let nd := {| shape := new; cell := fun idx => map (fun f => f idx) cols |} in
                construct_direct (dims s) (replace_nth (edges s) i ne) (replace_nth (coords s) i (mid ne)) (vars s) (fts s) (attrs s)
                  nd {| shape := new; cell := fun idx => existsb (fun x => negb (finite x)) (cell nd idx) |}
      | _ => Err IndexError                                       (* old_spacings[0] *)
      end
  end.

(* average, 807-827 *)
Definition average (s : stat) (dim : nat) (w : weights) (force : bool) (to_sum : list nat) : res stat :=
  match position dim (dims s) with
  | None => Err KeyError
  | Some i =>
      let e := nth i (edges s) [] in
      let! t := reindex s dim (last e 0 - hd 0 e)%Qc w force to_sum in
      sel t false [(dim, IScalar (hd 0%Qc (nth i (coords t) [])))]
  end.

(* __getstate__ and from_state, 187-199 (to_json and from_json, 425-502, go through the same pieces) *)
Definition getstate (s : stat) := (dims s, edges s, coords s, (vars s, data s), attrs s).
Definition from_state (st : list nat * list (list Qc) * list (list Qc) * (list (nat * bool) * arr (list val)) * list (nat * Z)) : res stat :=
  let '(ds, es, cs, (vs, d), a) := st in init ds es vs d [] (Some (map Some cs)) a.

(* ---- lists as mutable objects: the fields_to_sum argument of reindex (829-867) ---- *)
Definition lists := list (list nat).             (* list objects; number 0 is the default argument *)
Record obj := { o_stat : stat; o_fts : nat }.    (* _fields_to_sum is a reference *)
Definition reindex_call (h : lists) (o : obj) (dim : nat) (spacing : Qc) (w : weights) (force : bool) (arg : option nat)
  : lists * res stat :=
  let r := match arg with Some r => r | None => 0 end in
  match position dim (dims (o_stat o)) with
  | None => (h, Err ValueError)
  | Some _ =>
      let l := nth r h [] ++ nth (o_fts o) h [] in               (* fields_to_sum += self._fields_to_sum *)
      (replace_nth h r l, reindex (o_stat o) dim spacing w force l)
  end.

(* a history of calls of reindex, with the results *)
Record call := { c_obj : obj; c_dim : nat; c_spacing : Qc; c_weights : weights; c_force : bool; c_arg : option nat }.
Fixpoint run_calls (h : lists) (calls : list call) : lists * list (res stat) :=
  match calls with
  | [] => (h, [])
  | c :: calls =>
      let '(h, out) := reindex_call h (c_obj c) (c_dim c) (c_spacing c) (c_weights c) (c_force c) (c_arg c) in
      let '(h, outs) := run_calls h calls in (h, out :: outs)
  end.
