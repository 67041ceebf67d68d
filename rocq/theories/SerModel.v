(* Model of how results are kept on disk: threeptcf.py Base3PCF (the end of _run 125-135, __getstate__ to load 138-178),
   fftpower.py ProjectedFFTPower (486-506) with FFTBase.save and load (57-89), convpower/fkp.py ConvolvedFFTPower (the end of
   to_pkmu 336-338, __getstate__ to load 341-406), zhist.py RedshiftHistogram (the end of run 140-146, __getstate__ to load
   168-208) and binned_statistic.py BinnedStatistic.__init__, from_state and __getstate__ (144-202).

   Edges are exact rationals; the values measured are of any type V and other meta-data of any type A.  JSON gives back
   dictionaries, lists and arrays as they were (C26).  Masks are not modelled. *)
From Verif Require Import Base Num.
From Coq Require Import String.
Local Open Scope nat_scope.
Local Notation length := List.length.

(* a list of python or an array of numpy *)
Inductive seqv := Lst (l : list Qc) | Arr (l : list Qc).
Definition items (s : seqv) : list Qc := match s with Lst l | Arr l => l end.
(* 0.5 * (e[1:] + e[:-1]): the sum of lists is a longer list, which cannot be multiplied with a float *)
Definition centers (s : seqv) : res (list Qc) :=
  match s with Lst _ => Err TypeError | Arr l => Ok (map (fun p => (Q2Qc (1 # 2) * (snd p + fst p))%Qc) (combine l (tl l))) end.
Definition dget {X} (d : list (string * X)) (k : string) : option X := option_map snd (find (fun e => String.eqb (fst e) k) d).
Definition key {X} (d : list (string * X)) (k : string) : res X := match dget d k with Some v => Ok v | None => Err KeyError end.
Fixpoint repeated (l : list string) : bool := match l with [] => false | x :: r => existsb (String.eqb x) r || repeated r end.

Section Disk.
Context {V A : Type}.
Inductive meta := MSeq (s : seqv) | MOther (a : A).
Definition attrs_t := list (string * meta).
Definition cols := list (string * list V).
(* BinnedStatistic *)
Record stat := { s_dims : list string; s_edges : list seqv; s_coords : list (list Qc); s_shape : list nat; s_cols : cols; s_sum : list string; s_attrs : attrs_t }.
Definition pick_coord (ec : seqv * option (list Qc)) : res (list Qc) := match snd ec with Some c => Ok c | None => centers (fst ec) end.
Definition sizes_fit (shape : list nat) (edges : list seqv) : bool :=
  if list_eq_dec Nat.eq_dec (map S shape) (map (fun e => length (items e)) edges) then true else false.
(* __init__, 144-187; coords: one entry for every dimension *)
Definition new_stat (dims : list string) (edges : list seqv) (shape : list nat) (data : cols) (sum : list string) (coords : list (option (list Qc))) (attrs : attrs_t) : res stat :=
  if negb (length dims =? length edges) then Err ValueError else
  if negb (sizes_fit shape edges) then Err ValueError else
  let! cs := rall (map pick_coord (combine edges coords)) in
  Ok {| s_dims := dims; s_edges := edges; s_coords := cs; s_shape := shape; s_cols := data; s_sum := sum; s_attrs := attrs |}.
Definition no_coords (dims : list string) : list (option (list Qc)) := map (fun _ => None) dims.

(* what files and objects hold; VState: the dictionary of BinnedStatistic.__getstate__ *)
Record sstate := { t_dims : list string; t_edges : list seqv; t_coords : list (list Qc); t_shape : list nat; t_cols : cols; t_attrs : attrs_t }.
Inductive value := VData (shape : list nat) (c : cols) | VSeq (s : seqv) | VNums (l : list V) | VAttrs (a : attrs_t) | VState (s : sstate) | VBin (s : stat) | VOther.
Definition dict := list (string * value).
Definition getattr (o : dict) (k : string) : res value := match dget o k with Some v => Ok v | None => Err AttributeError end.
(* __getstate__ and from_state of a statistic, 189-202 *)
Definition stat_state (s : stat) : sstate := {| t_dims := s_dims s; t_edges := s_edges s; t_coords := s_coords s; t_shape := s_shape s; t_cols := s_cols s; t_attrs := s_attrs s |}.
Definition from_state (t : sstate) : res stat := new_stat (t_dims t) (t_edges t) (t_shape t) (t_cols t) [] (map Some (t_coords t)) (t_attrs t).
Definition as_bin (v : value) : res stat := match v with VBin s => Ok s | _ => Err AttributeError end.
Definition as_attrs (v : value) : res attrs_t := match v with VAttrs a => Ok a | _ => Err TypeError end.

(* load of all classes: rank 0 reads, the others get its state; setstate; then self.comm = comm *)
Definition load (setstate : dict -> res dict) (file : dict) (nranks rank : nat) : res dict :=
  let states := map (fun r => if r =? 0 then Some file else None) (seq 0 nranks) in
  match nth_error states rank, nth 0 states None with                      (* bcast *)
  | Some _, Some st => let! o := setstate st in Ok (o ++ [("comm"%string, VOther)])
  | _, _ => Err OutOfContract
  end.

(* ---- the three-point function ---- *)
(* the end of _run, 125-135; zeta i: the values of the i-th multipole, name l: 'corr_%d' % l *)
Definition three_result (name : nat -> string) (edges : seqv) (poles : list nat) (zeta : nat -> list V) : res stat :=
  let nbins := length (items edges) - 1 in
  let names := map name poles in
  if repeated names then Err ValueError else
  new_stat ["r1"; "r2"]%string [edges; edges] [nbins; nbins] (combine names (map zeta (seq 0 (length poles)))) [] (no_coords ["r1"; "r2"]%string) [].
Definition three_getstate (o : dict) : res dict :=
  let! p := getattr o "poles" in let! s := as_bin p in let! a := getattr o "attrs" in
  Ok [("poles"%string, VData (s_shape s) (s_cols s)); ("attrs"%string, a)].
Definition three_setstate (st : dict) : res dict :=
  let! a := getattr st "attrs" in let! a' := as_attrs a in let! e := key a' "edges" in
  let! p := getattr st "poles" in
  match e, p with
  | MSeq e, VData shape c => let! s := new_stat ["r1"; "r2"]%string [e; e] shape c [] (no_coords ["r1"; "r2"]%string) [] in
      Ok (("poles"%string, VBin s) :: filter (fun kv => negb (String.eqb (fst kv) "poles")) st)
  | _, _ => Err TypeError
  end.

(* ---- the projected power ---- *)
Definition proj_getstate (o : dict) : res dict :=
  let! e := getattr o "edges" in let! p := getattr o "power" in let! s := as_bin p in let! a := getattr o "attrs" in
  Ok [("edges"%string, e); ("power"%string, VData (s_shape s) (s_cols s)); ("attrs"%string, a)].
Definition proj_setstate (st : dict) : res dict :=
  let! e := getattr st "edges" in let! p := getattr st "power" in
  match e, p with
  | VSeq e, VData shape c => let! s := new_stat ["k"]%string [e] shape c [] (no_coords ["k"]%string) [] in
      Ok (("power"%string, VBin s) :: filter (fun kv => negb (String.eqb (fst kv) "power")) st)
  | _, _ => Err TypeError
  end.

(* ---- the convolved power ---- *)
Definition conv_getstate (o : dict) : res dict :=
  let! p := getattr o "poles" in let! s := as_bin p in let! a := getattr o "attrs" in
  Ok [("poles"%string, VState (stat_state s)); ("attrs"%string, a)].
Definition conv_setstate (st : dict) : res dict :=
  let! a := key st "attrs" in let! p := key st "poles" in
  match p with VState t => let! s := from_state t in Ok [("attrs"%string, a); ("poles"%string, VBin s)] | _ => Err ValueError end.
(* __setstate_pre000305__, 350-354 *)
Definition conv_setstate_old (st : dict) : res dict :=
  let! e := key st "edges" in let! a := key st "attrs" in let! p := key st "poles" in
  match e, p with
  | VSeq e, VData shape c => let! s := new_stat ["k"]%string [e] shape c ["modes"%string] (no_coords ["k"]%string) [] in Ok [("attrs"%string, a); ("poles"%string, VBin s)]
  | _, _ => Err TypeError
  end.
Definition conv_load (format : string) (file : dict) (nranks rank : nat) : res dict :=
  load (fun st => if String.eqb format "current" then conv_setstate st else if String.eqb format "pre000305" then conv_setstate_old st else Ok []) file nranks rank.
(* the end of to_pkmu, 336-338: wedges as computed *)
Definition pkmu_result (p : stat) (mu_edges : seqv) (wedges : cols) (attrs : attrs_t) : res stat :=
  match s_edges p, s_coords p, s_shape p with
  | e :: _, c :: _, n :: _ => new_stat ["k"; "mu"]%string [e; mu_edges] [n; length (items mu_edges) - 1] wedges [] [Some c; None] attrs
  | _, _, _ => Err KeyError
  end.

(* ---- the redshift histogram ---- *)
(* the end of run, 140-146: everything before is done with numpy functions, which take lists as well *)
Definition hist_result (edges : seqv) (dV nbar : list V) (attrs : attrs_t) : res dict :=
  let! c := centers edges in
  Ok [("source"%string, VOther); ("cosmo"%string, VOther); ("comm"%string, VOther); ("attrs"%string, VAttrs attrs);
      ("bin_edges"%string, VSeq edges); ("bin_centers"%string, VSeq (Arr c)); ("dV"%string, VNums dV); ("nbar"%string, VNums nbar)].
Definition hist_keys : list string := ["bin_edges"; "bin_centers"; "dV"; "nbar"; "attrs"]%string.
Definition hist_getstate (o : dict) : res dict := rall (map (fun k => let! v := getattr o k in Ok (k, v)) hist_keys).
Definition hist_setstate (st : dict) : res dict := Ok st.
End Disk.
Arguments meta : clear implicits. Arguments value : clear implicits. Arguments stat : clear implicits. Arguments attrs_t : clear implicits. Arguments cols : clear implicits. Arguments dict : clear implicits. Arguments sstate : clear implicits.
