(* Model of MeshSource.save (nbodykit/base/mesh.py 367-412), of BigFileMesh (source/mesh/bigfile.py 34-125), of ArrayMesh
   (source/mesh/array.py 30-70) and of MeshSource.preview (base/mesh.py 340-365).

   A field is the list of its values in C order of the global array; pmesh cuts it over ranks in any way, ravel() gives the
   part of the rank in this order and unravel() takes the concatenation over ranks.
   External: pmesh (ravel, unravel), bigfile (create_from_array concatenates the arrays of the ranks; slices; attributes),
   numpy.fft.irfftn, the JSON codec (C26).  Numbers in attributes are integers. *)
From Verif Require Import Base.
From Coq Require Import String.
From Verif Require Import SaveModel MeshModel.
Local Open Scope nat_scope.
Local Notation length := List.length.
Local Notation concat := List.concat.

Definition prodn (l : list nat) : nat := fold_right Nat.mul 1 l.
(* the shape of the half-complex array of a real array of a shape *)
Definition half (shape : list nat) : list nat := match rev shape with [] => [] | n :: r => rev ((n / 2 + 1) :: r) end.
Definition cshape (fourier : bool) (nmesh : list nat) : list nat := if fourier then half nmesh else nmesh.

(* a dictionary; d[k] = v *)
Definition dget {V} (d : list (string * V)) (k : string) : option V := option_map snd (find (fun e => String.eqb (fst e) k) d).
Definition dset {V} (d : list (string * V)) (k : string) (v : V) : list (string * V) :=
  if existsb (fun e => String.eqb (fst e) k) d then map (fun e => if String.eqb (fst e) k then (k, v) else e) d else (d ++ [(k, v)])%list.

Section File.
Context {V J : Type}.
Variable dumps : J -> option string.
Variable loads : string -> res (attr J).

Record field := { fd_fourier : bool; fd_f8 : bool; fd_nmesh : list nat; fd_box : list Z; fd_data : list V; fd_attrs : list (string * attr J) }.
(* dtype: the kind c or f and the size of an item *)
Record dataset := { ds_complex : bool; ds_itemsize : nat; ds_data : list V; ds_attrs : list (string * stored) }.
Definition itemsize (fourier f8 : bool) : nat := (if f8 then 8 else 4) * (if fourier then 2 else 1).

(* field.ravel: the part of each rank *)
Fixpoint cut {A} (sizes : list nat) (l : list A) : list (list A) := match sizes with [] => [] | n :: s => firstn n l :: cut s (skipn n l) end.
(* 401-412: numbers, arrays and strings are stored; other values are encoded, or lost with a warning *)
Definition store_attr (d : list (string * stored)) (ka : string * attr J) : list (string * stored) :=
  if existsb (fun e => String.eqb (fst e) (fst ka)) d then d else                                          (* 403 *)
  match save_attr dumps (snd ka) with Ok s => dset d (fst ka) s | Err _ => d end.
Definition save_mesh (f : field) (sizes : list nat) : dataset :=
  let z l := SArr (map Z.of_nat l) in
  {| ds_complex := fd_fourier f; ds_itemsize := itemsize (fd_fourier f) (fd_f8 f);
     ds_data := concat (cut sizes (fd_data f));                                                              (* 389-391 *)
     ds_attrs := fold_left store_attr (fd_attrs f)
       [("ndarray.shape"%string, z (cshape (fd_fourier f) (fd_nmesh f))); ("BoxSize"%string, SArr (fd_box f)); ("Nmesh"%string, z (fd_nmesh f))] |}.

(* ---- BigFileMesh ---- *)
(* a value in attrs: a string, a vector, a number (0-d array) or a string in a 0-d array *)
Inductive value := VAttr (a : attr J) | VStr0 (s : string).
(* numpy.squeeze *)
Definition squeeze (s : stored) : value := match s with SStr s => VStr0 s | SArr [x] => VAttr (ANum x) | SArr l => VAttr (AArr l) end.
(* 46-50 *)
Definition load_value (s : stored) : res value :=
  match s with
  | SStr t => if String.prefix json_prefix t then let! a := load_attr loads s in Ok (VAttr a) else Ok (squeeze s)
  | _ => Ok (squeeze s)
  end.
Record bigmesh := { b_fourier : bool; b_f8 : bool; b_nmesh : list nat; b_box : list Z; b_attrs : list (string * value) }.
Fixpoint load_attrs (d : list (string * value)) (l : list (string * stored)) : res (list (string * value)) :=
  match l with [] => Ok d | (k, s) :: l => let! v := load_value s in load_attrs (dset d k v) l end.
(* MeshSource.__init__ 42-49: a number means the same for three axes; ParticleMesh broadcasts BoxSize *)
Definition as_vector (n : nat) (v : value) : res (list Z) :=
  match v with
  | VAttr (ANum x) => Ok (repeat x n)
  | VAttr (AArr l) => if length l =? n then Ok l else Err ValueError
  | _ => Err ValueError
  end.
Definition mesh_dims (v : value) : nat := match v with VAttr (AArr l) => length l | _ => 3 end.
Definition open_mesh (ds : dataset) (kwargs : list (string * value)) : res bigmesh :=
  let! a := load_attrs kwargs (ds_attrs ds) in                                                               (* 42-50 *)
  let f8 := if ds_complex ds then ds_itemsize ds =? 16 else ds_itemsize ds =? 8 in                          (* 53-64 *)
  match dget a "ndarray.shape", dget a "Nmesh" with
  | None, _ | _, None => Err ValueError                                                                      (* 67-71 *)
  | Some _, Some nm =>
    match dget a "BoxSize" with
    | None => Err KeyError
    | Some box =>
      let n := mesh_dims nm in
      let! nmesh := as_vector n nm in let! bx := as_vector n box in
      Ok {| b_fourier := ds_complex ds; b_f8 := f8; b_nmesh := map Z.to_nat nmesh; b_box := bx;
            b_attrs := dset (dset a "BoxSize" (VAttr (AArr bx))) "Nmesh" (VAttr (AArr nmesh)) |}
    end
  end.
(* ds[start:end] of each rank; sizes: the sizes of the field on the ranks that read *)
Definition read_parts (data : list V) (sizes : list nat) : list (list V) :=
  map (fun r => let start := sumn (firstn r sizes) in firstn (nth r sizes 0) (skipn start data)) (seq 0 (length sizes)).
(* unravel: the values of all ranks one after the other fill the field *)
Definition unravel (total : nat) (parts : list (list V)) : res (list V) := if length (concat parts) =? total then Ok (concat parts) else Err ValueError.
(* to_real_field and to_complex_field; None: NotImplemented *)
Definition read_mesh (ds : dataset) (m : bigmesh) (fourier : bool) (sizes : list nat) : res (option (list V)) :=
  if negb (Bool.eqb (b_fourier m) fourier) then Ok None else
  if fourier && negb (sumn sizes =? length (ds_data ds)) then Err AssertionError else
  let! l := unravel (sumn sizes) (read_parts (ds_data ds) sizes) in Ok (Some l).
End File.
Arguments field : clear implicits. Arguments dataset : clear implicits. Arguments value : clear implicits. Arguments bigmesh : clear implicits.

(* ---- ArrayMesh ---- *)
Section Array.
Context {R C K : Type}.
Variable irfftn : list nat -> list C -> list R.   (* the shape of the result, the values *)
Variable scale : nat -> R -> R.                    (* multiplication by a number *)
Inductive array := ARealA (shape : list nat) (l : list R) | AComplexA (shape : list nat) (l : list C).
Record arraymesh := { a_nmesh : list nat; a_box : list Z; a_data : list R; a_attrs : list (string * list Z) }.
(* irfftn without a shape: the last axis has 2 (m - 1) cells *)
Definition full (shape : list nat) : list nat := match rev shape with [] => [] | m :: r => rev ((2 * (m - 1)) :: r) end.
(* 31-43 on the root: the shape and the values *)
Definition on_root (a : array) : list nat * list R :=
  match a with
  | ARealA s l => (s, l)
  | AComplexA s l => let s' := full s in (s', map (scale (prodn s')) (irfftn s' l))
  end.
(* 30-62; arrays: what each rank passes; the others ignore theirs *)
Definition array_mesh (nranks : nat) (arrays : nat -> array) (box : list Z) (root : nat) (kwargs : list (string * K)) : res arraymesh :=
  let shape := fst (on_root (arrays root)) in
  if negb ((length shape =? 2) || (length shape =? 3)) then Err AssertionError else
  let parts := map (fun r => if r =? root then snd (on_root (arrays r)) else []) (seq 0 nranks) in
  let! l := unravel (prodn shape) parts in
  Ok {| a_nmesh := shape; a_box := box; a_data := l; a_attrs := [("BoxSize"%string, box); ("Nmesh"%string, map Z.of_nat shape)] |}.
End Array.

(* ---- preview at full resolution, base/mesh.py 361-365 ---- *)
Definition preview (F C : Type) (r2c : F -> C) (c2r : C -> F) (h : heap F C) (r : nat) : res (var F C) := to_field F C r2c c2r h r MReal.
