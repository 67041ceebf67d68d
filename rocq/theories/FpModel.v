(* Model of fftpower.py: FFTBase (27-135), _cast_source (703-730), FFTPower (197-358) and fftcorr.py:
   FFTCorr (63-235). Numbers are reals. The painted fields and project_to_basis (see the Binning group)
   are arguments. The columns needed by to_mesh exist. *)
From Coq Require Import Reals List Bool String.
From Verif Require Import Base UniqModel.
Import ListNotations.
Local Open Scope R_scope.
Local Notation length := List.length.
Local Notation concat := List.concat.

(* sources: pmesh fields, catalogs, meshes and anything else. An object is the same if its number is *)
Inductive kind := KField | KCatalog | KMesh | KOther.
Record src := { s_obj : nat; s_kind : kind; s_comm : nat; s_box : option (list R); s_nmesh : option (list Z); s_data : nat }.
Record mesh := { m_obj : nat; m_comm : nat; m_box : list R; m_nmesh : list Z; m_data : nat }.
(* one number is used for all axes *)
Definition spread {X} (l : list X) : list X := match l with [x] => [x; x; x] | _ => l end.
Definition reqb (x y : R) : bool := if Req_EM_T x y then true else false.
Fixpoint alleq {X} (eqb : X -> X -> bool) (l m : list X) : bool :=
  match l, m with [], [] => true | a :: l, b :: m => eqb a b && alleq eqb l m | _, _ => false end.
(* _cast_source; [next] is the number of a new object; arguments have one or three numbers *)
Definition cast_source (next : nat) (s : src) (box : option (list R)) (nmesh : option (list Z)) : res mesh :=
  let! m := match s_kind s with
    | KOther => Err TypeError
    | KCatalog =>
        match (match box with Some b => Some b | None => s_box s end) with
        | None => Err ValueError
        | Some b => match (match nmesh with Some n => Some n | None => s_nmesh s end) with
                    | None => Err ValueError
                    | Some n => Ok {| m_obj := next; m_comm := s_comm s; m_box := spread b; m_nmesh := spread n; m_data := s_data s |}
                    end
        end
    | k => match s_box s, s_nmesh s with
           | Some b, Some n => Ok {| m_obj := (match k with KField => next | _ => s_obj s end); m_comm := s_comm s; m_box := b; m_nmesh := n; m_data := s_data s |}
           | _, _ => Err OutOfContract
           end
    end in
  let! _ := match box with
    | Some b => if alleq reqb (m_box m) (spread b) then Ok tt else Err ValueError
    | None => Ok tt
    end in
  let! _ := match nmesh with
    | Some n => if alleq Z.eqb (m_nmesh m) (spread n) then Ok tt else Err ValueError
    | None => Ok tt
    end in
  Ok m.
(* FFTBase.__init__, 27-53: the meshes of the two sources *)
Definition base_init (next : nat) (first : src) (second : option src) (nmesh : option (list Z)) (box : option (list R)) : res (mesh * mesh) :=
  let! f := cast_source next first box nmesh in
  let! s := match second with Some s => cast_source (S next) s box nmesh | None => Ok f end in
  if negb (m_comm s =? m_comm f)%nat then Err AssertionError
  else if negb (alleq reqb (m_box f) (m_box s)) then Err ValueError
  else Ok (f, s).
(* complex fields: slabs of modes with their integer wave numbers *)
Definition cx : Type := R * R.
Definition cmulconj (a b : cx) : cx := (fst a * fst b + snd a * snd b, snd a * fst b - fst a * snd b).
Definition cscale (a : R) (z : cx) : cx := (a * fst z, a * snd z).
Definition slab : Type := list (list Z * cx).
Record field := { f_slabs : list slab; f_N : option R; f_shot : option R }.
Definition put_slab (i : nat) (s : slab) (l : list slab) : list slab := firstn i l ++ match skipn i l with [] => [] | _ :: r => s :: r end.
(* 113-115: the product is written to the memory of c1, which is also that of c2 for one source *)
Definition power_step (same : bool) (c2 : list slab) (mem : list slab) (i : nat) : list slab :=
  let s1 := nth i mem [] in
  let s2 := nth i (if same then mem else c2) [] in
  put_slab i (map (fun ab => (fst (fst ab), cmulconj (snd (fst ab)) (snd (snd ab)))) (combine s1 s2)) mem.
Definition product3d (same : bool) (c1 c2 : list slab) : list slab := fold_left (power_step same c2) (seq 0 (Nat.min (length c1) (length c2))) c1.
(* 117-122 *)
Definition clear_zero (s : slab) : slab := map (fun iv => (fst iv, if forallb (fun i => (i =? 0)%Z) (fst iv) then (0, 0) else snd iv)) s.
Definition prod (l : list R) : R := fold_left Rmult l 1.
Record power3d := { p_slabs : list slab; p_N1 : R; p_N2 : R; p_shot : R }.
(* _compute_3d_power, 91-138; compute paints a new field each time *)
Definition compute_3d_power (compute : nat -> list R -> list Z -> field) (first second : mesh) : power3d :=
  let n := m_nmesh first in
  let same := (m_obj first =? m_obj second)%nat in
  let c1 := compute (m_data first) (m_box first) n in
  let c2 := if same then c1 else compute (m_data second) (m_box second) n in
  let p := product3d same (f_slabs c1) (f_slabs c2) in
  let p := map (map (fun iv => (fst iv, cscale (prod (m_box first)) (snd iv)))) (map clear_zero p) in
  let or0 o := match o with Some x => x | None => 0 end in
  {| p_slabs := p; p_N1 := or0 (f_N c1); p_N2 := or0 (f_N c2); p_shot := if same then or0 (f_shot c1) else 0 |}.

(* binned statistics, without masks *)
Record stat := { t_dims : list string; t_edges : list (list R); t_coords : list (list R); t_names : list string; t_shape : list nat; t_rows : list (list cx); t_sum : list string }.
Definition mid (e : list R) : list R := map (fun ab => 5 / 10 * (snd ab + fst ab)) (combine e (tl e)).
Fixpoint nodupb (l : list string) : bool := match l with [] => true | x :: l => negb (existsb (String.eqb x) l) && nodupb l end.
(* BinnedStatistic.__init__ *)
Definition new_stat (dims : list string) (edges : list (list R)) (coords : list (option (list R))) (names : list string) (shape : list nat) (rows : list (list cx)) (sum : list string) : res stat :=
  if negb (length dims =? length edges)%nat then Err ValueError
  else if negb (alleq Nat.eqb shape (map (fun e => pred (length e)) edges)) then Err ValueError
  else Ok {| t_dims := dims; t_edges := edges; t_coords := map (fun ec => match snd ec with Some c => c | None => mid (fst ec) end) (combine edges coords); t_names := names; t_shape := shape; t_rows := rows; t_sum := sum |}.
(* numpy.squeeze of a shape; a scalar cannot be assigned to with [:] *)
Definition squeeze (shape : list nat) : list nat := filter (fun n => negb (n =? 1)%nat) shape.
(* a cell of the result of project_to_basis: x, mu, y and number of modes; the multipoles in a bin *)
Record cell := { c_x : cx; c_mu : cx; c_y : cx; c_n : cx }.
Record pcell := { q_x : cx; q_poles : list cx; q_n : cx }.
(* run, 294-335 and _make_datasets: [x] and [y] are the names k, power or r, corr *)
Definition make_results (x y : string) (ell : Z -> string) (one : bool) (kedges muedges : list R) (kcoords : option (list R)) (poles : list Z) (result : list (list cell)) (pole_result : list pcell) : res (stat * option stat) :=
  let shape := squeeze [pred (length kedges); pred (length muedges)] in
  match shape with
  | [] => Err IndexError
  | _ =>
      let cells := concat result in
      let! ps := match poles with
        | [] => Ok None
        | _ => if nodupb ([x] ++ map ell poles ++ ["modes"%string]) then Ok (Some (map (fun q => q_x q :: q_poles q ++ [q_n q]) pole_result)) else Err ValueError
        end in
      let! power := if one then new_stat [x] [kedges] [kcoords] [x; y; "modes"%string] shape (map (fun c => [c_x c; c_y c; c_n c]) cells) ["modes"%string]
                    else new_stat [x; "mu"%string] [kedges; muedges] [kcoords; None] [x; "mu"%string; y; "modes"%string] shape (map (fun c => [c_x c; c_mu c; c_y c; c_n c]) cells) ["modes"%string] in
      match ps with
      | None => Ok (power, None)
      | Some rows => let! p := new_stat [x] [kedges] [kcoords] ([x] ++ map ell poles ++ ["modes"%string]) [pred (length kedges)] rows ["modes"%string] in Ok (power, Some p)
      end
  end%list.
(* __getstate__, __setstate__: the statistics without the fields to sum; the attribute poles may be missing *)
Record saved := { v_power : stat; v_poles : option (option stat) }.
Definition strip (t : stat) : stat := {| t_dims := t_dims t; t_edges := t_edges t; t_coords := t_coords t; t_names := t_names t; t_shape := t_shape t; t_rows := t_rows t; t_sum := [] |}.
Definition reload (t : stat) : res stat := new_stat (t_dims t) (t_edges t) (map Some (t_coords t)) (t_names t) (t_shape t) (t_rows t) [].
Definition load_results (power : stat) (poles : option stat) : res saved :=
  let! p := reload power in
  match poles with
  | None => Ok {| v_power := p; v_poles := None |}
  | Some q => let! q := reload q in Ok {| v_power := p; v_poles := Some (Some q) |}
  end.
(* obj.poles *)
Definition get_poles (s : saved) : res (option stat) := match v_poles s with Some p => Ok p | None => Err AttributeError end.
(* FFTCorr: the bins in separation, 99-101 and 163-172 *)
Definition r_edges (N L : list R) (ranks : list (list R)) (dr : option R) (rmin0 : R) (rmax : option R) : res (list R * option (list R)) :=
  let dr := match dr with Some d => d | None => rmin L / fold_left Rmax N 0 end in
  let rmax := match rmax with Some k => k | None => 5 / 10 * rmin L + dr / 2 end in
  if rltb 0 dr then Ok (arange rmin0 rmax dr, None)
  else let! ec := find_unique_edges ranks (map (fun ln => fst ln / snd ln) (combine L N)) rmax in Ok (fst ec, Some (snd ec)).
