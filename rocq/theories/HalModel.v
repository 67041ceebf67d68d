(* Model of populating halos: nbodykit/source/catalog/halos.py 202-398 and nbodykit/hod.py.
   Halos and galaxies of a rank are abstract; halotools is a function `fill` from the halos, the parameters of the model and the seed to galaxies;
   `rng seed n` are the n numbers RandomState(seed).randint(0, 4294967295, size=n).  An operation returns the state also when it raises.
   Left out: attributes other than the parameters and seed, logging, columns added to the galaxies (C45 has the types). *)
From Verif Require Import Base.
From Coq Require Import String.
Local Open Scope nat_scope.
Local Notation length := List.length.

Definition dict := list (string * Z).
Definition get (d : dict) (k : string) : option Z := option_map snd (find (fun kv => String.eqb (fst kv) k) d).
Definition has (d : dict) (k : string) : bool := existsb (fun kv => String.eqb (fst kv) k) d.
(* dict.update for keys that are all present *)
Definition update (d ps : dict) : dict := map (fun kv => (fst kv, match get ps (fst kv) with Some v => v | None => snd kv end)) d.

Section Populate.
Context {H G : Type}.
Variable fill : H -> dict -> Z -> list G.
Variable rng : Z -> nat -> list Z.

Record hmodel := { m_params : dict; m_mock : option (list H) }.               (* a halotools model: param_dict, mock (halos of every rank) *)
Record gcat := { g_data : list (list G); g_params : dict; g_seeds : list Z; g_model : nat }.   (* PopulatedHaloCatalog: data and attrs['seed'] of every rank *)
Record world := { w_models : list hmodel; w_cats : list gcat }.
Fixpoint set {A} (l : list A) (i : nat) (x : A) : list A := match l, i with [], _ => [] | _ :: l, 0 => x :: l | y :: l, S i => y :: set l i x end.

(* 338-343: a seed drawn on every rank if there is none; seed1 of rank r is number r of the stream of its seed *)
Definition rank_seeds (n : nat) (seed : option Z) (draws : list Z) : list Z := match seed with Some s => repeat s n | None => firstn n draws end.
Definition seed1 (n : nat) (seeds : list Z) : list Z := map (fun rs => nth (fst rs) (rng (snd rs) n) 0%Z) (combine (seq 0 n) seeds).
Definition fill_all (halos : list H) (ps : dict) (seeds : list Z) : list (list G) :=
  map (fun hs => fill (fst hs) ps (snd hs)) (combine halos (seed1 (length halos) seeds)).
Definition csize (l : list (list G)) : nat := length (List.concat l).

(* _populate_mock, 319-398; inplace: the number of the catalog that is replaced *)
Definition populate_mock (w : world) (mi : nat) (seed : option Z) (draws : list Z) (halocat : option (list H)) (inplace : option nat) (ps : dict) : world * res unit :=
  match nth_error (w_models w) mi with
  | None => (w, Err OutOfContract)
  | Some m =>
    if existsb (fun kv => negb (has (m_params m) (fst kv))) ps then (w, Err ValueError) else           (* 329-332 *)
    let params := update (m_params m) ps in                                                             (* 335 *)
    let w1 := {| w_models := set (w_models w) mi {| m_params := params; m_mock := m_mock m |}; w_cats := w_cats w |} in
    match (match m_mock m with Some h => Some h | None => halocat end) with                             (* 350-356 *)
    | None => (w1, Err ValueError)
    | Some halos =>
      let w2 := {| w_models := set (w_models w) mi {| m_params := params; m_mock := Some halos |}; w_cats := w_cats w |} in
      let seeds := rank_seeds (length halos) seed draws in
      let data := fill_all halos params seeds in
      match inplace with
      | Some ci =>
        match nth_error (w_cats w) ci with
        | None => (w2, Err OutOfContract)
        | Some c =>
          if csize data =? 0                                                                           (* 367-375 *)
          then ({| w_models := w_models w2; w_cats := set (w_cats w) ci {| g_data := data; g_params := g_params c; g_seeds := g_seeds c; g_model := mi |} |}, Err ValueError)
          else ({| w_models := w_models w2; w_cats := set (w_cats w) ci {| g_data := data; g_params := params; g_seeds := seeds; g_model := mi |} |}, Ok tt)
        end
      | None =>
        if csize data =? 0 then (w2, Err ValueError)
        else ({| w_models := w_models w2; w_cats := w_cats w ++ [{| g_data := data; g_params := params; g_seeds := seeds; g_model := mi |}] |}, Ok tt)
      end
    end
  end.
Inductive op :=
| NewModel (ps : dict)                                                                         (* a halotools model *)
| Populate (halos : list H) (mi : nat) (seed : option Z) (draws : list Z) (ps : dict)          (* HaloCatalog.populate, 202-269 *)
| Repopulate (ci : nat) (seed : option Z) (draws : list Z) (ps : dict).                        (* PopulatedHaloCatalog.repopulate, 296-316 *)
Definition exec (w : world) (o : op) : world * res unit :=
  match o with
  | NewModel ps => ({| w_models := w_models w ++ [{| m_params := ps; m_mock := None |}]; w_cats := w_cats w |}, Ok tt)
  | Populate halos mi seed draws ps => populate_mock w mi seed draws (Some halos) None ps
  | Repopulate ci seed draws ps => match nth_error (w_cats w) ci with Some c => populate_mock w (g_model c) seed draws None (Some ci) ps | None => (w, Err OutOfContract) end
  end.
Definition run (w : world) (l : list op) : world := fold_left (fun w o => fst (exec w o)) l w.
Definition empty_world : world := {| w_models := []; w_cats := [] |}.
End Populate.
Arguments world : clear implicits. Arguments hmodel : clear implicits. Arguments op : clear implicits. Arguments gcat : clear implicits.

(* ---- hod.py: what is given to halotools ---- *)
Inductive hod := Zheng07 | Leauthaud11 | Hearin15.
Record config := { c_mass_key : string; c_mdef : string; c_redshift : Z; c_modulate : bool; c_conc_model : option string; c_conc_key : option string }.
Definition to_halotools (m : hod) (redshift : Z) (mdef : string) (concentration_key : option string) (modulate : option bool) : config :=
  let md := match modulate with Some b => b | None => true end in                                       (* 89, 169 *)
  {| c_mass_key := "halo_m" ++ mdef; c_mdef := mdef; c_redshift := redshift; c_modulate := md; c_conc_key := None;
     c_conc_model := match m with
       | Zheng07 => Some (match concentration_key with None => "dutton_maccio14" | Some _ => "direct_from_halo_catalog" end)   (* 96-99, 112 *)
       | _ => None                                                                                          (* 175-180 *)
       end |}%string.
