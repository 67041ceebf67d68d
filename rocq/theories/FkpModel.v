(* FKP catalogs, their meshes and the meta-data of ConvolvedFFTPower
   (algorithms/convpower/catalog.py, catalogmesh.py, fkp.py; base/mesh.py).
   Numbers are exact rationals with inf, -inf and nan.  The columns are those of
   all ranks together. *)
From Coq Require Import Ascii String QArith Qcanon.
From Verif Require Import Base Num NamesModel SurveyModel.
Local Notation length := List.length.
Local Notation concat := List.concat.
Local Open Scope Qc_scope.

(* ---- numbers ---- *)
Inductive ext := Fin (q : Qc) | PInf | NInf | NaN.
Definition esign (x : ext) : comparison :=
  match x with Fin q => if Qc_eq_dec q 0 then Eq else if qltb 0 q then Gt else Lt | PInf => Gt | NInf => Lt | NaN => Eq end.
Definition einf (s : comparison) : ext := match s with Gt => PInf | Lt => NInf | Eq => NaN end.
Definition smul (a b : comparison) : comparison :=
  match a, b with Eq, _ => Eq | _, Eq => Eq | Gt, s => s | Lt, Gt => Lt | Lt, Lt => Gt end.
Definition eadd (x y : ext) : ext :=
  match x, y with
  | NaN, _ => NaN | _, NaN => NaN
  | Fin a, Fin b => Fin (a + b)
  | Fin _, i => i
  | PInf, NInf => NaN | NInf, PInf => NaN
  | i, _ => i
  end.
Definition emul (x y : ext) : ext :=
  match x, y with
  | NaN, _ => NaN | _, NaN => NaN
  | Fin a, Fin b => Fin (a * b)
  | _, _ => einf (smul (esign x) (esign y))
  end.
(* numpy's division; the zeros of the program are +0 *)
Definition ediv (x y : ext) : ext :=
  match x, y with
  | NaN, _ => NaN | _, NaN => NaN
  | Fin a, Fin b => if Qc_eq_dec b 0 then einf (esign x) else Fin (a / b)
  | Fin _, _ => Fin 0
  | i, Fin b => einf (smul (esign i) (if Qc_eq_dec b 0 then Gt else esign y))
  | _, _ => NaN
  end.
Definition esum (l : list ext) : ext := fold_right eadd (Fin 0) l.
Definition emap2 (f : ext -> ext -> ext) (a b : list ext) : list ext := map (fun p => f (fst p) (snd p)) (combine a b).

(* ---- dictionaries ---- *)
Inductive fval :=
| XNum (x : ext) | XVec (l : list Qc) | XNats (l : list nat) | XNone | XBool (b : bool) | XStr (s : str) | XStrs (l : list str).
Definition dict := list (str * fval).
Definition dupdate (d e : dict) : dict := fold_left (fun d kv => dset d (fst kv) (snd kv)) e d.
(* attrs_to_dict, utils.py 372-379 *)
Definition prefixed (p : str) (d : dict) : dict := map (fun kv => (p ++ fst kv, snd kv)) d.

(* ---- catalogs ---- *)
(* c_sel: columns that select; c_vec: positions *)
Record cat := {
  c_size : nat; c_num : list (str * list ext); c_sel : list (str * list bool); c_vec : list (str * list (list Qc)); c_attrs : dict
}.
(* cat[name]: Weight, Value and Selection exist in every catalog, C283 *)
Definition num_col (c : cat) (n : str) : res (list ext) :=
  match dget (c_num c) n with
  | Some l => Ok l
  | None => if mem n [s_ "Weight"; s_ "Value"] then Ok (repeat (Fin 1) (c_size c)) else Err KeyError
  end.
Definition sel_col (c : cat) (n : str) : res (list bool) :=
  match dget (c_sel c) n with
  | Some l => Ok l
  | None => if str_eqb n (s_ "Selection") then Ok (repeat true (c_size c)) else Err KeyError
  end.
Definition vec_col (c : cat) (n : str) : res (list (list Qc)) :=
  match dget (c_vec c) n with Some l => Ok l | None => Err KeyError end.
Definition has_num (c : cat) (n : str) : bool := is_ok (num_col c n).
Definition set_num (c : cat) (n : str) (l : list ext) : cat :=
  {| c_size := c_size c; c_num := dset (c_num c) n l; c_sel := c_sel c; c_vec := c_vec c; c_attrs := c_attrs c |}.
(* data[:0] *)
Definition empty_of (c : cat) : cat :=
  {| c_size := 0; c_num := map (fun kv => (fst kv, [])) (c_num c); c_sel := map (fun kv => (fst kv, [])) (c_sel c);
     c_vec := map (fun kv => (fst kv, [])) (c_vec c); c_attrs := c_attrs c |}.

(* ---- FKPCatalog ---- *)
(* FKPWeightFromNbar, catalog.py 10-28: without P0 a number that fills the column *)
Definition weight_from_nbar (P0 : Qc) (nbar : list ext) (n : nat) : list ext :=
  if Qc_eq_dec P0 0 then repeat (Fin 1) n
  else map (fun x => ediv (Fin 1) (eadd (Fin 1) (emul (Fin P0) x))) nbar.

(* k_id: which object it is *)
Record fkpcat := { k_id : nat; k_data : cat; k_rand : cat; k_nbar : str; k_attrs : dict }.
Definition FKPWeight := s_ "FKPWeight".
Definition with_weight (P0 : option Qc) (nbar : str) (c : cat) : res cat :=
  match P0 with
  | Some p => let! n := num_col c nbar in Ok (set_num c FKPWeight (weight_from_nbar p n (c_size c)))
  | None => if has_num c FKPWeight then Ok c else Ok (set_num c FKPWeight (repeat (Fin 1) (c_size c)))
  end.
(* numpy.ones(3) * x for numbers; None stays *)
Definition vec3 (v : fval) : fval := match v with XNum (Fin q) => XVec [q; q; q] | _ => v end.
(* FKPCatalog.__init__, 73-106; MultipleSpeciesCatalog.__init__ is C289 *)
Definition fkp_init (id : nat) (data : cat) (randoms : option cat) (BoxSize BoxPad : fval) (P0 : option Qc) (nbar : str) : res fkpcat :=
  let randoms := match randoms with Some r => r | None => empty_of data end in
  let attrs := dupdate (dupdate [(s_ "species", XStrs [s_ "data"; s_ "randoms"])] (prefixed (s_ "data.") (c_attrs data)))
                 (prefixed (s_ "randoms.") (c_attrs randoms)) in
  if negb (has_num data nbar) then Err ValueError else
  if negb (has_num randoms nbar) then Err ValueError else
  let! d := with_weight P0 nbar data in
  let! r := with_weight P0 nbar randoms in
  Ok {| k_id := id; k_data := d; k_rand := r; k_nbar := nbar;
        k_attrs := dset (dset attrs (s_ "BoxSize") (vec3 BoxSize)) (s_ "BoxPad") (vec3 BoxPad) |}.

(* ---- FKPCatalogMesh ---- *)
(* h_box, h_n: pm.BoxSize and pm.Nmesh *)
Record mesh := {
  h_id : nat; h_src : fkpcat; h_attrs : dict; h_box : list Qc; h_n : list nat;
  h_pos : str; h_comp : str; h_fkp : str; h_sel : str; h_nbar : str
}.
Record mesh_args := {
  t_Nmesh : option (list nat); t_BoxSize : option (list Qc); t_BoxCenter : option (list Qc);
  t_interlaced : bool; t_compensated : bool; t_resampler : str; t_fkp : str; t_comp : str; t_sel : str; t_pos : str
}.
Section Run.
(* _define_bbox for the objects of a column of positions and a selection, C39 *)
Variable bbox : fkpcat -> str -> str -> res (list Qc * list Qc).
(* which catalogs CatalogMesh can correct for its resampler, C288 *)
Variable kernels : list str.
(* pm.paint: box, cells, resampler, interlacing, positions and masses *)
Variable paint : list Qc -> list nat -> str -> bool -> list (list Qc) -> list ext -> list ext.

(* recenter_box, catalogmesh.py 105-119: only the meta-data *)
Definition recenter (m : mesh) (size center : list Qc) : mesh :=
  {| h_id := h_id m; h_src := h_src m;
     h_attrs := dset (dset (h_attrs m) (s_ "BoxSize") (XVec size)) (s_ "BoxCenter") (XVec center);
     h_box := h_box m; h_n := h_n m; h_pos := h_pos m; h_comp := h_comp m; h_fkp := h_fkp m; h_sel := h_sel m; h_nbar := h_nbar m |}.

(* FKPCatalogMesh.__init__, catalogmesh.py 47-73: the meta-data of the catalog are
   taken before and, by CatalogMesh.__init__, after the box *)
Definition mesh_init (id : nat) (k : fkpcat) (Nmesh : list nat) (size center : list Qc) (a : mesh_args) : mesh :=
  let at1 := dupdate [] (k_attrs k) in
  let at2 := dset (dset at1 (s_ "BoxSize") (XVec size)) (s_ "BoxCenter") (XVec center) in
  let at3 := dupdate at2 (k_attrs k) in
  let at4 := dset (dset at3 (s_ "BoxSize") (XVec size)) (s_ "Nmesh") (XNats Nmesh) in
  {| h_id := id; h_src := k;
     h_attrs := dset (dset (dset at4 (s_ "interlaced") (XBool (t_interlaced a))) (s_ "compensated") (XBool (t_compensated a)))
                  (s_ "resampler") (XStr (t_resampler a));
     h_box := size; h_n := Nmesh;
     h_pos := t_pos a; h_comp := t_comp a; h_fkp := t_fkp a; h_sel := t_sel a; h_nbar := k_nbar k |}.
(* FKPCatalog.to_mesh, catalog.py 151-261 *)
Definition to_mesh (id : nat) (k : fkpcat) (a : mesh_args) : res mesh :=
  if negb (forallb (fun c => has_num c (t_fkp a) && has_num c (t_comp a)) [k_data k; k_rand k]) then Err ValueError else
  let! n := match t_Nmesh a with
            | Some n => Ok n
            | None => match dget (k_attrs k) (s_ "Nmesh") with
                      | Some (XNats n) => Ok n
                      | Some _ => Err OutOfContract
                      | None => Err ValueError
                      end
            end in
  let! b := bbox k (t_pos a) (t_sel a) in
  let size := match t_BoxSize a with Some s => s | None => fst b end in
  let center := match t_BoxCenter a with Some c => c | None => snd b end in
  Ok (mesh_init id k n size center a).
Definition default_args (n : option (list nat)) : mesh_args :=
  {| t_Nmesh := n; t_BoxSize := None; t_BoxCenter := None; t_interlaced := false; t_compensated := false; t_resampler := s_ "cic";
     t_fkp := FKPWeight; t_comp := s_ "Weight"; t_sel := s_ "Selection"; t_pos := s_ "Position" |}.

(* ---- painting ---- *)
Definition pick {A} (sel : list bool) (l : list A) : list A := map fst (filter snd (combine l sel)).
Definition species_cat (m : mesh) (data : bool) : cat := if data then k_data (h_src m) else k_rand (h_src m).
(* weighted_total, catalogmesh.py 225-244 *)
Definition total (m : mesh) (c : cat) : res ext :=
  let! s := sel_col c (h_sel m) in
  let! w := num_col c (h_comp m) in
  Ok (esum (pick s w)).
Definition attr_vec (d : dict) (k : str) : res (list Qc) :=
  match dget d k with Some (XVec l) => Ok l | Some _ => Err OutOfContract | None => Err KeyError end.
Definition attr_str (d : dict) (k : str) : str := match dget d k with Some (XStr s) => s | _ => [] end.
Definition attr_bool (d : dict) (k : str) : bool := match dget d k with Some (XBool b) => b | _ => false end.
Definition prod (l : list Qc) : Qc := fold_right Qcmult 1 l.
Definition cells (n : list nat) : Qc := prod (map nq n).
(* self['data'].to_real_field(normalize=False), source/mesh/catalog.py 149-403:
   the box is the one of the meta-data *)
Definition species_field (m : mesh) (c : cat) : res (list ext * dict) :=
  let! box := attr_vec (h_attrs m) (s_ "BoxSize") in
  let! center := attr_vec (h_attrs m) (s_ "BoxCenter") in
  let! s := sel_col c (h_sel m) in
  let! comp := num_col c (h_comp m) in
  let! fk := num_col c (h_fkp m) in
  let! v := num_col c (s_ "Value") in
  let! p := vec_col c (h_pos m) in
  let w := pick s (emap2 emul comp fk) in
  let v := pick s v in
  let pos := pick s (map (fun x => map (fun ab => fst ab - snd ab) (combine x center)) p) in
  let W := esum w in
  let W2 := esum (map (fun x => emul x x) w) in
  let field := paint box (h_n m) (attr_str (h_attrs m) (s_ "resampler")) (attr_bool (h_attrs m) (s_ "interlaced")) pos (emap2 emul w v) in
  Ok (field,
      [(s_ "shotnoise", XNum (ediv (emul (Fin (prod box)) W2) (emul W W))); (s_ "N", XNum (Fin (nq (length pos))));
       (s_ "W", XNum W); (s_ "W2", XNum W2); (s_ "num_per_cell", XNum (ediv W (Fin (cells (h_n m)))))]).
(* to_real_field, catalogmesh.py 122-204; the volume of a cell is that of pm *)
Definition cell_volume (m : mesh) : Qc := prod (map (fun p => fst p / nq (snd p)) (combine (h_box m) (h_n m))).
Definition real_field (m : mesh) : res (list ext * dict) :=
  let! Wd := total m (k_data (h_src m)) in
  let! Wr := total m (k_rand (h_src m)) in
  let alpha := ediv Wd Wr in
  let attrs := [(s_ "data.W", XNum Wd); (s_ "randoms.W", XNum Wr); (s_ "alpha", XNum alpha)] in
  let! fd := species_field m (k_data (h_src m)) in
  let at1 := dupdate (snd fd) (prefixed (s_ "data.") (snd fd)) in
  let! fr := (if (0 <? c_size (k_rand (h_src m)))%nat
              then let! f2 := species_field m (k_rand (h_src m)) in
                   Ok (emap2 eadd (fst fd) (map (emul (emul (Fin (- (1))) alpha)) (fst f2)),
                       dupdate at1 (prefixed (s_ "randoms.") (snd f2)))
              else Ok (fst fd, at1)) in
  let field := map (fun x => ediv x (Fin (cell_volume m))) (fst fr) in
  Ok (field, ddel (ddel (dupdate (snd fr) attrs) (s_ "data.shotnoise")) (s_ "randoms.shotnoise")).
(* compute, base/mesh.py 243-332: the meta-data of the mesh come last *)
Definition compute (m : mesh) : res (list ext * dict) :=
  let! f := real_field m in Ok (fst f, dupdate (snd f) (h_attrs m)).

(* ---- ConvolvedFFTPower ---- *)
Inductive input := ICat (k : fkpcat) | IMesh (m : mesh) | IOther.
Definition NotImplementedError := RuntimeError.       (* a subclass of RuntimeError *)
(* _cast_mesh, fkp.py 761-782; id: the new mesh *)
Definition cast_mesh (id : nat) (x : input) (Nmesh : option (list nat)) : res mesh :=
  match x with
  | IOther => Err TypeError
  | _ =>
      let! m := match x with ICat k => to_mesh id k (default_args Nmesh) | IMesh m => Ok m | IOther => Err TypeError end in
      match Nmesh with
      | None => Ok m
      | Some n => match dget (h_attrs m) (s_ "Nmesh") with
                  | Some (XNats n') => if list_eq_dec Nat.eq_dec n' n then Ok m else Err ValueError
                  | _ => Err OutOfContract
                  end
      end
  end.
(* is_valid_crosscorr, 800-809 *)
Definition valid_cross (a b : mesh) : bool :=
  Nat.eqb (k_id (h_src a)) (k_id (h_src b)) &&
  negb (existsb (fun f => negb (str_eqb (f b) (f a))) [h_sel; h_comp; h_nbar]).
Definition vec_eqb (a b : list Qc) : bool := if list_eq_dec Qc_eq_dec a b then true else false.
(* 171-187 *)
Definition joint (b1 b2 c1 c2 : list Qc) : list Qc * list Qc :=
  let q := combine (combine b1 c1) (combine b2 c2) in
  let pick := fun p : (Qc * Qc) * (Qc * Qc) => joint_box false (fst p) (snd p) in
  (map (fun p => fst (pick p)) q, map (fun p => snd (pick p)) q).
Definition same_box (m1 m2 : mesh) : res (mesh * mesh) :=
  let! b1 := attr_vec (h_attrs m1) (s_ "BoxSize") in
  let! b2 := attr_vec (h_attrs m2) (s_ "BoxSize") in
  if vec_eqb b1 b2 then Ok (m1, m2) else
  let! c1 := attr_vec (h_attrs m1) (s_ "BoxCenter") in
  let! c2 := attr_vec (h_attrs m2) (s_ "BoxCenter") in
  let j := joint b1 b2 c1 c2 in
  Ok (recenter m1 (fst j) (snd j), recenter m2 (fst j) (snd j)).
(* 426-429: source.compensated = False on the mesh that was passed *)
Definition uncompensate (m : mesh) : mesh :=
  {| h_id := h_id m; h_src := h_src m; h_attrs := dset (h_attrs m) (s_ "compensated") (XBool false);
     h_box := h_box m; h_n := h_n m; h_pos := h_pos m; h_comp := h_comp m; h_fkp := h_fkp m; h_sel := h_sel m; h_nbar := h_nbar m |}.
(* get_compensation, 784-791: the kernel whose effect is divided out *)
Definition used_kernel (m : mesh) : option (str * bool) :=
  let r := attr_str (h_attrs m) (s_ "resampler") in
  if mem r kernels then Some (r, attr_bool (h_attrs m) (s_ "interlaced")) else None.
(* copy_meta, 793-798 *)
Definition copy_meta (attrs meta : dict) (prefix : str) : dict :=
  fold_left (fun d kv => if NamesModel.starts (s_ "data.") (fst kv) || NamesModel.starts (s_ "randoms.") (fst kv)
                         then dset d (prefix ++ fst kv) (snd kv) else d) meta attrs.
(* normalization and shotnoise, 657-759: m1, m2 the two meshes *)
Definition norm_of (m1 m2 : mesh) (data : bool) (alpha : ext) : res ext :=
  let c1 := species_cat m1 data in let c2 := species_cat m2 data in
  let! s := sel_col c1 (h_sel m1) in
  let! w := num_col c1 (h_comp m1) in
  let! n := num_col c2 (h_nbar m2) in
  let! f1 := num_col c1 (h_fkp m1) in
  let! f2 := num_col c2 (h_fkp m2) in
  let A := emap2 emul (emap2 emul (emap2 emul (pick s n) (pick s w)) (pick s f1)) (pick s f2) in
  Ok (esum (if data then A else map (fun x => emul x alpha) A)).
Definition shot_of (m1 m2 : mesh) (data : bool) : res ext :=
  let c1 := species_cat m1 data in let c2 := species_cat m2 data in
  let! s := sel_col c1 (h_sel m1) in
  let! w := num_col c1 (h_comp m1) in
  let! f1 := num_col c1 (h_fkp m1) in
  let! f2 := num_col c2 (h_fkp m2) in
  Ok (esum (emap2 emul (emap2 emul (map (fun x => emul x x) (pick s w)) (pick s f1)) (pick s f2))).
Definition eclose5 (a b : ext) : bool :=
  match a, b with Fin x, Fin y => close5 x y | PInf, PInf => true | NInf, NInf => true | _, _ => false end.
(* numpy.allclose(a, b, rtol=1e-3) *)
Definition eclose3 (a b : ext) : bool :=
  match a, b with
  | Fin x, Fin y => qleb (qabs (x - y)) (Q2Qc (1 # 100000000) + Q2Qc (1 # 1000) * qabs y)
  | PInf, PInf => true | NInf, NInf => true | _, _ => false
  end.
Definition epos (x : ext) : bool := match x with Fin q => qltb 0 q | PInf => true | _ => false end.
Definition num_attr (d : dict) (k : str) : res ext :=
  match dget d k with Some (XNum x) => Ok x | Some _ => Err OutOfContract | None => Err KeyError end.
Fixpoint nodupz (l : list Z) : bool := match l with [] => true | x :: l => negb (existsb (Z.eqb x) l) && nodupz l end.

(* the object: its meta-data, the factor of the power, the kernels divided out,
   and the meshes as they are left; the multipoles are C123-C125 *)
Record power := { p_attrs : dict; p_norm : ext; p_kernels : option (str * bool) * option (str * bool); p_first : mesh; p_second : mesh }.
(* __init__ 137-205 and _compute_multipoles 408-655.  same: the second mesh is
   the first *)
Definition run (poles : list Z) (m1 m2 : mesh) (same : bool) : res power :=
  if negb (valid_cross m1 m2) then Err NotImplementedError else
  let! ms := same_box m1 m2 in
  let m1 := uncompensate (fst ms) in let m2 := uncompensate (snd ms) in
  if negb (nodupz poles) then Err ValueError else
  let! box := attr_vec (h_attrs m1) (s_ "BoxSize") in
  let! center := attr_vec (h_attrs m1) (s_ "BoxCenter") in
  let! pad := match dget (h_attrs m1) (s_ "BoxPad") with Some v => Ok v | None => Err KeyError end in
  let at1 := [(s_ "Nmesh", XNats (h_n m1)); (s_ "BoxSize", XVec box); (s_ "BoxPad", pad); (s_ "BoxCenter", XVec center);
              (s_ "mesh.resampler", XStr (attr_str (h_attrs m1) (s_ "resampler")));
              (s_ "mesh.interlaced", XBool (attr_bool (h_attrs m1) (s_ "interlaced")))] in
  let! f1 := compute m1 in
  let! alpha := num_attr (snd f1) (s_ "alpha") in
  let! f2 := (if same then Ok f1 else compute m2) in
  let! alpha2 := num_attr (snd f2) (s_ "alpha") in
  if negb (eclose3 alpha alpha2) then Err ValueError else
  let! nd := norm_of m1 m2 true alpha in
  let! nr := norm_of m1 m2 false alpha in
  if epos nr && negb (eclose5 nd nr) then Err ValueError else
  match poles with
  | [] => Err UnboundLocalError
  | _ =>
      let norm := if epos nr then ediv (Fin 1) nr else Fin 1 in
      let! sd := shot_of m1 m2 true in
      let! sr := shot_of m1 m2 false in
      let shot := ediv (eadd sd (emul sr (emul alpha alpha))) nr in
      let at2 := dset (dset (dset (dset at1 (s_ "alpha") (XNum alpha)) (s_ "data.norm") (XNum nd)) (s_ "randoms.norm") (XNum nr))
                   (s_ "shotnoise") (XNum shot) in
      let at3 := if same then copy_meta at2 (snd f1) []
                 else copy_meta (copy_meta at2 (snd f1) (s_ "first.")) (snd f2) (s_ "second.") in
      Ok {| p_attrs := at3; p_norm := norm; p_kernels := (used_kernel m1, used_kernel m2); p_first := m1; p_second := m2 |}
  end.
Definition convpower (id1 id2 : nat) (first : input) (poles : list Z) (second : option input) (Nmesh : option (list nat)) : res power :=
  let! m1 := cast_mesh id1 first Nmesh in
  match second with
  | None => run poles m1 m1 true
  | Some x => let! m2 := cast_mesh id2 x Nmesh in run poles m1 m2 (Nat.eqb (h_id m1) (h_id m2))
  end.
End Run.
