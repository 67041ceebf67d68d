(* Model of what LogNormalCatalog (nbodykit/source/catalog/lognormal.py:54-113) and LinearMesh
   (nbodykit/source/mesh/linear.py:38-63, 65-100) decide and record before the fields are made:
   seeds on all ranks, cosmology and redshift, attrs; and LinearPower as an object whose redshift
   and sigma8 can be set (nbodykit/cosmology/power/linear.py:64-112; its numbers are LinModel).

   Cosmologies are numbers (dict(cosmo) of a cosmology is taken as the cosmology), arguments are
   the same on all ranks, keys of attrs are the ones that the code names. *)
From Verif Require Import Base.
From Coq Require Import QArith Qcanon.
Local Open Scope nat_scope.

Inductive key := KTransfer | KCosmo | KRedshift | KSigma8 | KNbar | KBias | KUnitary | KInverted | KSeed | KCosmoSeed | KPlin (k : key).
Inductive value := VCosmo (c : nat) | VName (n : nat) | VNum (q : Qc) | VInt (z : option Z) | VBool (b : bool).
Definition dict := key -> option value.
Definition key_eq (a b : key) : {a = b} + {a <> b}. Proof. decide equality. Defined.
Definition dset (d : dict) (k : key) (v : value) : dict := fun k' => if key_eq k' k then Some v else d k'.
Definition dupdate (d e : dict) : dict := fun k => match e k with Some v => Some v | None => d k end.
Definition dempty : dict := fun _ => None.

(* ---- power spectra: any callable has some of these attributes ---- *)
Record plin := { p_cosmo : option nat; p_redshift : option Qc; p_attrs : option dict }.
Record power := { l_transfer : nat; l_cosmo : nat; l_redshift : Qc; l_sigma8 : Qc }.
(* LinearPower.attrs, 70-77 *)
Definition power_attrs (p : power) : dict :=
  dset (dset (dset (dset dempty KTransfer (VName (l_transfer p))) KCosmo (VCosmo (l_cosmo p))) KRedshift (VNum (l_redshift p))) KSigma8 (VNum (l_sigma8 p)).
Definition as_plin (p : power) : plin := {| p_cosmo := Some (l_cosmo p); p_redshift := Some (l_redshift p); p_attrs := Some (power_attrs p) |}.

(* ---- values of all ranks; bcast gives everybody the one of rank 0 ---- *)
Definition bcast {A} (l : list A) : list A := match l with [] => [] | x :: _ => map (fun _ => x) l end.

(* seeds of LogNormalCatalog, 83-94: one pair (seed, cosmo_seed) per rank; draw is what rank r would draw *)
Definition seeds (size : nat) (draw : nat -> Z) (seed cosmo_seed : option Z) : list (option Z) * list (option Z) :=
  match seed with
  | None =>
      let s := map (fun r => if r =? 0 then Some (draw r) else None) (seq 0 size) in
      let c := map (fun r => if r =? 0 then match cosmo_seed with None => Some (draw r) | Some c => Some c end else cosmo_seed) (seq 0 size) in
      (bcast s, bcast c)
  | Some s => (repeat (Some s) size, repeat (Some (match cosmo_seed with None => s | Some c => c end)) size)
  end.

Record mock := { k_cosmo : nat; k_redshift : Qc; k_seeds : list (option Z); k_cosmo_seeds : list (option Z); k_sizes : list nat; k_attrs : list dict }.
Definition fill (nbar bias z : Qc) (unitary inverted : bool) (d : dict) : dict :=            (* 77-81 *)
  dset (dset (dset (dset (dset d KNbar (VNum nbar)) KRedshift (VNum z)) KBias (VNum bias)) KUnitary (VBool unitary)) KInverted (VBool inverted).

(* sample: the numbers of objects of the ranks, from cosmology, redshift, seeds and cosmo_seeds of the ranks (98-99) *)
Definition LogNormalCatalog (sample : nat -> Qc -> list (option Z) -> list (option Z) -> list nat) (size : nat) (draw : nat -> Z)
    (P : plin) (nbar bias : Qc) (seed cosmo_seed : option Z) (cosmo : option nat) (redshift : option Qc) (unitary inverted : bool) : res mock :=
  let cosmo := match cosmo with None => p_cosmo P | _ => cosmo end in                        (* 60-63 *)
  let redshift := match redshift with None => p_redshift P | _ => redshift end in
  match cosmo, redshift with                                                                (* 64-67 *)
  | None, _ => Err ValueError
  | _, None => Err ValueError
  | Some c, Some z =>
      let d0 := match p_attrs P with Some d => dupdate dempty d | None => dset dempty KCosmo (VCosmo c) end in   (* 71-74 *)
      let d := fill nbar bias z unitary inverted d0 in
      let '(s, cs) := seeds size draw seed cosmo_seed in
      let attrs := map (fun p => dset (dset d KCosmoSeed (VInt (snd p))) KSeed (VInt (fst p))) (combine s cs) in (* 96-97 *)
      let n := sample c z s cs in
      if fold_right Nat.add 0 n =? 0 then Err ValueError                                     (* 111-112 *)
      else Ok {| k_cosmo := c; k_redshift := z; k_seeds := s; k_cosmo_seeds := cs; k_sizes := n; k_attrs := attrs |}
  end.

(* ---- programs with linear power spectra and linear meshes ---- *)
Record lmesh := { h_plin : nat; h_attrs : list dict }.
Record world := { w_powers : list power; w_meshes : list lmesh }.
Inductive op :=
| OPower (transfer cosmo : nat) (z s8 : Qc)                 (* LinearPower(cosmo, z, transfer); s8 is the one of the cosmology *)
| ORedshift (i : nat) (z : Qc)                              (* Plin.redshift = z *)
| OSigma8 (i : nat) (s : Qc)                                (* Plin.sigma8 = s *)
| OMesh (i : nat) (seed : option Z) (unitary inverted : bool) (remove_variance : option bool) (draw : nat -> Z).
Definition set_nth {A} (l : list A) (i : nat) (f : A -> A) : list A := map (fun p => if fst p =? i then f (snd p) else snd p) (combine (seq 0 (length l)) l).
(* attrs_to_dict(Plin, 'plin.'), utils.py:372-379 *)
Definition prefixed (d : dict) : dict := fun k => match k with KPlin k' => d k' | _ => None end.
Definition mesh_seeds (size : nat) (draw : nat -> Z) (seed : option Z) : list (option Z) :=  (* linear.py:51-55 *)
  match seed with
  | None => bcast (map (fun r => if r =? 0 then Some (draw r) else None) (seq 0 size))
  | Some s => repeat (Some s) size
  end.
Definition step (size : nat) (w : world) (o : op) : world :=
  match o with
  | OPower t c z s => {| w_powers := w_powers w ++ [{| l_transfer := t; l_cosmo := c; l_redshift := z; l_sigma8 := s |}]; w_meshes := w_meshes w |}
  | ORedshift i z => {| w_powers := set_nth (w_powers w) i (fun p => {| l_transfer := l_transfer p; l_cosmo := l_cosmo p; l_redshift := z; l_sigma8 := l_sigma8 p |}); w_meshes := w_meshes w |}
  | OSigma8 i s => {| w_powers := set_nth (w_powers w) i (fun p => {| l_transfer := l_transfer p; l_cosmo := l_cosmo p; l_redshift := l_redshift p; l_sigma8 := s |}); w_meshes := w_meshes w |}
  | OMesh i seed unitary inverted rv draw =>
      match nth_error (w_powers w) i with
      | None => w
      | Some p =>
          let ss := mesh_seeds size draw seed in
          let unitary := match rv with Some b => b | None => unitary end in                 (* 56-57 *)
          let d := dupdate dempty (prefixed (power_attrs p)) in
          let attrs := map (fun s => dset (dset (dset d KSeed (VInt s)) KUnitary (VBool unitary)) KInverted (VBool inverted)) ss in
          {| w_powers := w_powers w; w_meshes := w_meshes w ++ [{| h_plin := i; h_attrs := attrs |}] |}
      end
  end.
Definition exec (size : nat) (w : world) (l : list op) : world := fold_left (step size) l w.
(* to_complex_field, 80-100: gaussian makes the field from the spectrum as it is now, the attrs of the mesh are those of the field;
   seeds and switches are read from attrs, where __init__ put them *)
Definition seed_of (d : dict) : option Z := match d KSeed with Some (VInt z) => z | _ => None end.
Definition switch (d : dict) (k : key) : bool := match d k with Some (VBool b) => b | _ => false end.
Definition to_complex_field {F} (gaussian : power -> list (option Z) -> list bool -> list bool -> F) (w : world) (m : nat) : res (F * list dict) :=
  match nth_error (w_meshes w) m with
  | None => Err NameError
  | Some h =>
      match nth_error (w_powers w) (h_plin h) with
      | None => Err NameError
      | Some p => Ok (gaussian p (map seed_of (h_attrs h)) (map (fun d => switch d KUnitary) (h_attrs h)) (map (fun d => switch d KInverted) (h_attrs h)), h_attrs h)
      end
  end.
