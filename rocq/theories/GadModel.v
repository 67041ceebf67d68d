(* Model of nbodykit/io/{gadget,tpm,fits}.py.  Files are lists of bytes, read with the functions of IoModel; data stay byte strings.
   Simplified: the default hdtype (Npart and Massarr first in the header); shapes of columns by their number of elements;
   particle types in columndefs not negative; little-endian machine; warnings not modelled. *)
From Verif Require Import Base IoModel.
From Coq Require Import String.
Local Open Scope Z_scope.
Local Notation length := List.length.

(* ---- numbers in files ---- *)
Definition u4 (b : list Z) : Z := match b with [a; b; c; d] => a + 256 * (b + 256 * (c + 256 * d)) | _ => 0 end.
Definition i4 (b : list Z) : Z := if u4 b <? 2 ^ 31 then u4 b else u4 b - 2 ^ 32.
Definition zero8 (b : list Z) : bool := forallb (Z.eqb 0) (firstn 7 b) && forallb (fun x => (x =? 0) || (x =? 128)) (skipn 7 b).   (* f8 == 0: 0. or -0. *)
Definition read_i4 (file : list Z) (pos : Z) : res Z :=          (* ff.seek(pos, 0); numpy.fromfile(ff, dtype='i4', count=1)[0] *)
  if pos <? 0 then Err OSError else match fromfile file pos 4 1 with [b] => Ok (i4 b) | _ => Err IndexError end.

(* ---- columndefs: (name, element dtype, types) ---- *)
Inductive ptypes := All | NoTypes | Types (l : list nat).
Inductive base := Auto | Fixed (int : bool) (size : Z).
Record coldef := { cd_name : string; cd_base : base; cd_items : Z; cd_types : ptypes }.
Definition DefaultColumnDefs : list coldef :=                    (* 6-14 *)
  [ {| cd_name := "Position"; cd_base := Auto; cd_items := 3; cd_types := All |};
    {| cd_name := "GadgetVelocity"; cd_base := Auto; cd_items := 3; cd_types := All |};
    {| cd_name := "ID"; cd_base := Auto; cd_items := 1; cd_types := All |};
    {| cd_name := "Mass"; cd_base := Auto; cd_items := 1; cd_types := NoTypes |};
    {| cd_name := "InternalEnergy"; cd_base := Auto; cd_items := 1; cd_types := Types [0%nat] |};
    {| cd_name := "Density"; cd_base := Auto; cd_items := 1; cd_types := Types [0%nat] |};
    {| cd_name := "SmoothingLength"; cd_base := Auto; cd_items := 1; cd_types := Types [0%nat] |} ]%string.

(* ---- the header, 73-96 ---- *)
Record header := { h_names : bool; h_npart : list Z; h_mass : list (list Z) }.
Definition read_header (file : list Z) : res header :=
  let! first := read_i4 file 0 in
  let names := first =? 8 in                                     (* 74 *)
  match fromfile file (if names then 4 + 8 + 4 else 0) 260 1 with  (* 82-85 *)
  | [b] =>
    let h := sub b 4 260 in
    Ok {| h_names := names;
          h_npart := map (fun i => u4 (sub h (4 * Z.of_nat i) (4 * Z.of_nat i + 4))) (seq 0 6);
          h_mass := map (fun i => sub h (24 + 8 * Z.of_nat i) (24 + 8 * Z.of_nat i + 8)) (seq 0 6) |}
  | _ => Err IndexError
  end.

(* ---- the blocks, 98-165 ---- *)
Record dtype := { dt_int : bool; dt_prec : Z; dt_items : Z }.
Definition dt_size (d : dtype) : Z := dt_prec d * dt_items d.
Record scan := { sc_ptr : Z; sc_offsets : list (string * Z); sc_dtype : list (string * dtype) }.
Definition types_of (h : header) (d : coldef) : res (list nat) :=   (* 112-115 *)
  match cd_types d with
  | All => Ok [0; 1; 2; 3; 4; 5]%nat
  | t => if String.eqb (cd_name d) "Mass" then Ok (filter (fun i => zero8 (nth i (h_mass h) [])) (seq 0 6))
         else match t with Types l => Ok l | _ => Err TypeError end
  end.
Fixpoint offset_in (npart : list Z) (ptype : nat) (types : list nat) (N reloffset : Z) : res (Z * Z) :=   (* 118-123 *)
  match types with
  | [] => Ok (N, reloffset)
  | i :: types => match nth_error npart i with
                  | Some n => offset_in npart ptype types (N + n) (if Nat.eqb i ptype then N else reloffset)
                  | None => Err IndexError
                  end
  end.
Definition precision (d : coldef) (prec : option Z) : res (bool * Z) :=   (* 154-160 *)
  match cd_base d with
  | Fixed int size => Ok (int, size)
  | Auto => let id := String.eqb (cd_name d) "ID" in
            match prec with
            | Some 8 => Ok (id, 8) | Some 4 => Ok (id, 4) | None => Ok (id, if id then 4 else 8)
            | _ => Err KeyError
            end
  end.
Definition scan_column (file : list Z) (h : header) (ptype : nat) (s : scan) (d : coldef) : res scan :=   (* 106-165 *)
  let! types := types_of h d in
  let! nr := offset_in (h_npart h) ptype types 0 0 in
  let '(N, reloffset) := nr in
  let! x := (if N =? 0 then Ok (sc_ptr s, sc_ptr s, None) else
    let ptr := if h_names h then sc_ptr s + 4 + 8 + 4 else sc_ptr s in
    let! a := read_i4 file ptr in
    let ptr := ptr + 4 in
    let itemsize := a / N in
    let blocksize := N * itemsize in
    let offset := ptr + reloffset * itemsize in
    let ptr := ptr + a in
    let! b := read_i4 file ptr in
    let ptr := ptr + 4 in
    if negb (a =? b) || negb (b =? blocksize) then Err OSError else Ok (ptr, offset, Some (itemsize / cd_items d))) in
  let '(ptr, offset, prec) := x in
  let! ip := precision d prec in
  Ok {| sc_ptr := ptr; sc_offsets := (cd_name d, offset) :: sc_offsets s;
        sc_dtype := if String.eqb (cd_name d) "Mass" || existsb (Nat.eqb ptype) types
                    then sc_dtype s ++ [(cd_name d, {| dt_int := fst ip; dt_prec := snd ip; dt_items := cd_items d |})] else sc_dtype s |}.
Fixpoint scan_columns (file : list Z) (h : header) (ptype : nat) (s : scan) (l : list coldef) : res scan :=
  match l with [] => Ok s | d :: l => let! s := scan_column file h ptype s d in scan_columns file h ptype s l end.
Fixpoint lookup {A} (l : list (string * A)) (k : string) : option A :=
  match l with [] => None | (x, v) :: l => if String.eqb x k then Some v else lookup l k end.
Fixpoint duplicates (l : list string) : bool := match l with [] => false | x :: l => existsb (String.eqb x) l || duplicates l end.
Record gadget := { g_size : Z; g_dtype : list (string * dtype); g_offsets : list (string * Z); g_mass : list Z }.
Definition Gadget1File (file : list Z) (columndefs : list coldef) (ptype : nat) : res gadget :=   (* 67-172 *)
  if negb (Nat.leb ptype 5) then Err ValueError else
  let! h := read_header file in
  let ptr := if h_names h then 256 + 4 + 4 + 4 + 8 + 4 else 256 + 4 + 4 in
  let! s := scan_columns file h ptype {| sc_ptr := ptr; sc_offsets := []; sc_dtype := [] |} columndefs in
  if duplicates (map fst (sc_dtype s)) then Err ValueError else        (* numpy.dtype *)
  Ok {| g_size := nth ptype (h_npart h) 0; g_dtype := sc_dtype s; g_offsets := sc_offsets s; g_mass := nth ptype (h_mass h) [] |}.
(* an element of the result: bytes of the file or the mass in the header (converted to the type of the column) *)
Inductive cell := Data (b : list Z) | HeaderMass (b : list Z).
Definition gadget_read (file : list Z) (g : gadget) (columns : list string) (start stop step : Z) : res (list (list cell)) :=   (* 174-218 *)
  if (g_size g <? stop) || (g_size g <? start) || (start <? 0) || (stop <? 0) then Err IndexError else
  let! dt := rall (map (fun c => match lookup (g_dtype g) c with Some d => Ok d | None => Err KeyError end) columns) in
  let! n := get_slice_size start stop step in
  if duplicates columns then Err ValueError else
  if n <? 0 then Err ValueError else
  rall (map (fun c =>
    match lookup (g_offsets g) c, lookup (g_dtype g) c with
    | Some offset, Some d =>
      if String.eqb c "Mass" && negb (zero8 (g_mass g)) then Ok (repeat (HeaderMass (g_mass g)) (Z.to_nat n))
      else let! l := binary_read_col file offset (dt_size d) start stop step n in Ok (map Data l)
    | _, _ => Err KeyError
    end) columns).

(* ---- TPMBinaryFile, tpm.py 30-36: columns 0, 1, 2 are Position, Velocity, ID ---- *)
Definition TPM_itemsizes (precision : string) : res (list Z) :=
  if String.eqb precision "f4" then Ok [12; 12; 8] else if String.eqb precision "f8" then Ok [24; 24; 8] else Err ValueError.
Definition TPM_size {B} (file : list B) (precision : string) : res Z := let! k := TPM_itemsizes precision in getsize (zlen file) 28 (zsum k).
Definition TPM_read {B} (file : list B) (precision : string) (columns : list nat) (start stop step : Z) : res (list (list (list B))) :=
  let! k := TPM_itemsizes precision in let! n := getsize (zlen file) 28 (zsum k) in binary_read file 28 n k columns start stop step.

(* ---- read(columns, ...) of BinaryFile with names: a str is iterated by characters, binary.py 144, 149 ---- *)
Inductive columns_arg := Name (s : string) | Names (l : list string).
Fixpoint characters (s : string) : list string := match s with EmptyString => [] | String a s => String a EmptyString :: characters s end.
Definition column_list (c : columns_arg) : list string := match c with Name s => characters s | Names l => l end.
Fixpoint position (l : list string) (k : string) : option nat := match l with [] => None | x :: l => if String.eqb x k then Some 0%nat else option_map S (position l k) end.
Definition named_read {B} (file : list B) (header_size size : Z) (names : list string) (itemsizes : list Z) (c : columns_arg) (start stop step : Z) : res (list (list (list B))) :=
  let! cols := rall (map (fun s => match position names s with Some i => Ok i | None => Err KeyError end) (column_list c)) in
  binary_read file header_size size itemsizes cols start stop step.

(* ---- FITSFile.__init__, fits.py 24-59: the extension used.  An HDU: name, data present, image ---- *)
Record hdu := { u_name : string; u_data : bool; u_image : bool }.
Inductive ext := Number (n : nat) | Extname (s : string).
Fixpoint first_data (l : list hdu) (i : nat) : option nat := match l with [] => None | u :: l => if u_data u then Some i else first_data l (S i) end.
Fixpoint named (l : list hdu) (s : string) : option hdu := match l with [] => None | u :: l => if String.eqb (u_name u) s then Some u else named l s end.
Definition FITSFile (l : list hdu) (e : option ext) : res ext :=
  let! e := match e with
    | None => match first_data l 0 with Some i => Ok (Number i) | None => Err ValueError end
    | Some (Extname s) => match named l s with Some _ => Ok (Extname s) | None => Err ValueError end
    | Some (Number n) => if Nat.leb (length l) n then Err ValueError else Ok (Number n)
    end in
  match (match e with Number n => nth_error l n | Extname s => named l s end) with
  | Some u => if negb (u_data u) || u_image u
              then match e with Number _ => Err ValueError | Extname _ => Err TypeError end   (* "%d" % ext, line 51 *)
              else Ok e
  | None => Err OSError
  end.
